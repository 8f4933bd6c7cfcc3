(** C22 end-to-end fidelity, C06 page boundaries.  Model M_Run.v, vocabulary S_Run.v. *)
From Coq Require Import ZArith List Lia Bool.
From Verif Require Import M_Base F_Base M_Sink S_Sink M_Conc S_Conc F_Sink F_SinkSeq F_Conc F_Conc2 M_Raw F_Raw M_Header M_V8 M_Iter
  Prop_Raw Prop_Format M_Utf8 S_Utf8 F_Utf8 M_Strings M_StrTable S_Strings F_Strings M_EventId S_EventId F_EventId
  M_Session S_Session F_Session F_Session2 Prop_Strings Prop_EventId M_Run S_Run F_Run.
Import ListNotations.
Open Scope Z_scope.

(** ** C22 *)
(** Any number of threads record events, strings and mappings under any schedule; the calls have
    returned, the sinks are dropped, the metadata text is one the JSON parser accepts.  Then the file
    opens, and there is an order [K] of the calls, respecting every thread's program order and real
    time, such that the decoder shows exactly the recorded events in that order: thread, payload and
    number unconditionally ... *)
Theorem C22_payloads : forall en en' parse md m r0 c0 acts drops, utf8 md -> started md r0 c0 -> ucalls_ok acts ->
  let c := urun en acts (mkU c0 []) in
  all_idle (uc c) -> Forall is_drop drops -> (forall t, In (ODrop t) drops) -> parse md = Ok m ->
  exists K, linearization (uhist c) K /\
    exists n, forall fuel, (n <= fuel)%nat ->
      exists d, decoder_new parse fuel (file_of (disk (snd (run_ops drops (cmem (uc c)))))) = Ok d /\
        d_metadata d = m /\ num_events d = Ok (zlen (recorded K)) /\
        forall i kind id tid w, nth_error (recorded K) i = Some (kind, id, tid, w) ->
          decode_lightweight_event en' d (Z.of_nat i) = Ok (mkLw (Z.of_nat i) tid (shown (md_start_time m) w)).
Proof.
  intros en en' parse md m r0 c0 acts drops Hmd Hst Hok c Hidle Hd Hall Hm.
  destruct (concurrent_session en md r0 c0 acts drops Hmd Hst Hok Hidle Hd Hall) as (K & L & HK & HS & Hsp). fold c in HK, Hsp.
  exists K. split; auto. destruct (session_decoder_new en md r0 K L HS parse m _ Hm Hsp) as (n & Hn). exists n. intros fuel Hf.
  exists (session_decoder K L m). split; auto. split; [reflexivity|]. split; [apply (session_num en md r0); auto|].
  intros i kind id tid w Hi. apply (session_lw en md r0 K L HS en' m i _ Hi).
Qed.
Print Assumptions C22_payloads.

(** ... and kind, label and arguments as the ids denote them. *)
Theorem C22_events : forall en en' parse md m r0 c0 acts drops, utf8 md -> started md r0 c0 -> ucalls_ok acts ->
  let c := urun en acts (mkU c0 []) in
  all_idle (uc c) -> Forall is_drop drops -> (forall t, In (ODrop t) drops) -> parse md = Ok m ->
  exists K, linearization (uhist c) K /\
    forall es, zlen es < 2 ^ 64 -> Forall2 (should_read md r0 K (md_start_time m)) (recorded K) es ->
    exists n, forall fuel, (n <= fuel)%nat ->
      exists d, decoder_new parse fuel (file_of (disk (snd (run_ops drops (cmem (uc c)))))) = Ok d /\
        iter_full fuel en' d = Ok es.
Proof.
  intros en en' parse md m r0 c0 acts drops Hmd Hst Hok c Hidle Hd Hall Hm.
  destruct (concurrent_session en md r0 c0 acts drops Hmd Hst Hok Hidle Hd Hall) as (K & L & HK & HS & Hsp). fold c in HK, Hsp.
  exists K. split; auto. intros es Hlen HF. destruct (session_decoder_new en md r0 K L HS parse m _ Hm Hsp) as (n & Hn).
  destruct (session_iter_full en md r0 K L HS en' m es) as (n' & Hn'); auto.
  { unfold zlen in *. rewrite (Forall2_len _ _ _ HF). auto. }
  exists (n + n')%nat. intros fuel Hf. exists (session_decoder K L m). split; [apply Hn; lia|apply Hn'; lia].
Qed.
Print Assumptions C22_events.

(** A concrete run: the constructor on thread 0, then two threads recording at the same time. *)
Definition seq_acts (tid : Z) (o : op) : list action := Invoke tid o :: repeat (Tick tid) 12.
Definition start_conf (md : bytes) : conf :=
  exec (flat_map (seq_acts 0) (init_headers ++ [init_alloc md; index_op METADATA_STRING_ID 8])) conf0.
Lemma idle_others tid acts : forall c, (forall x o, In (Invoke x o) acts -> x <> tid) -> thr c tid = None -> thr (exec acts c) tid = None.
Proof.
  induction acts as [|a acts IH]; intros c Ha Hc; cbn [exec fold_left]; auto. apply IH; [intros; eapply Ha; right; eauto|].
  destruct a as [x o|x]; cbn [cstep].
  - destruct (thr c x); auto. cbn [thr]. unfold set_thr. destruct (Z.eqb_spec tid x); auto. exfalso. eapply Ha; [left; reflexivity|auto].
  - destruct (thr c x) as [p|] eqn:E; auto. assert (Hx : tid <> x) by congruence.
    assert (S : forall v, set_thr (thr c) x v tid = thr c tid) by (intros v; unfold set_thr; destruct (Z.eqb_spec tid x); congruence).
    destruct p; cbn [thr]; rewrite ?S; auto;
    match goal with |- context [prog_step ?a ?b ?d] => destruct (prog_step a b d) as [[]|] end; cbn [thr]; rewrite ?S; auto.
Qed.
Example ex_started : started ex_md 8 (start_conf ex_md).
Proof.
  exists (flat_map (seq_acts 0) (init_headers ++ [init_alloc ex_md; index_op METADATA_STRING_ID 8])), 0,
    (combine init_headers [4; 4; 4; 4; 4; 4]), (index_op METADATA_STRING_ID 8), 8.
  split; [reflexivity|]. split; [|split; [reflexivity|split; [reflexivity|vm_compute; reflexivity]]].
  intros tid. destruct (Z.eq_dec tid 0) as [->|Ht]; [vm_compute; reflexivity|].
  unfold start_conf. apply (idle_others tid (flat_map (seq_acts 0) (init_headers ++ [init_alloc ex_md; index_op METADATA_STRING_ID 8])) conf0); [|reflexivity].
  intros x o Hin. apply in_flat_map in Hin. destruct Hin as (y & _ & [E|E]); [inversion E; congruence|].
  apply repeat_spec in E. discriminate.
Qed.
Definition ex_run : uconf :=
  urun LittleEndian
    ([UCall 1 (KAlloc (SStr [97])); UTick 1; UCall 2 (KAlloc (SStr [98])); UTick 2] ++ repeat (UTick 1) 5 ++ repeat (UTick 2) 5 ++
     [UCall 1 (KInterval (16 + 100000003) (16 + 100000003) 1 5 9); UCall 2 (KInstant (18 + 100000003) (16 + 100000003) 2 7); UTick 2] ++
     repeat (UTick 2) 5 ++ repeat (UTick 1) 5) (mkU (start_conf ex_md) []).
Example ex_C22 :
  uhist ex_run = [UInv 1 (KAlloc (SStr [97])); UInv 2 (KAlloc (SStr [98])); URet 1 16; URet 2 18;
                  UInv 1 (KInterval (16 + 100000003) (16 + 100000003) 1 5 9); UInv 2 (KInstant (18 + 100000003) (16 + 100000003) 2 7);
                  URet 2 8; URet 1 40] /\
  (do d <- decoder_new (fun _ => Ok (mkMd 1000 1 [])) 50 (file_of (disk (snd (run_ops [ODrop TEvents; ODrop TStrData; ODrop TStrIndex] (cmem (uc ex_run))))));
   iter_full 50 BigEndian d)
  = Ok [mkEv [98] [97] [] (Timestamp (Instant 1007)) 2; mkEv [97] [97] [] (Timestamp (Interval 1005 1009)) 1].
Proof. split; vm_compute; reflexivity. Qed.

(** ** C06 *)
(** Whenever the process dies during recording, the complete pages of the events stream hold the
    8-byte header and a whole number of 32-byte events, the first ones recorded. *)
Theorem C06_event_pages : forall en md r0 c0 acts b, utf8 md -> started md r0 c0 -> ucalls_ok acts ->
  let c := urun en acts (mkU c0 []) in
  prefix b (disk (cmem (uc c))) ->
  exists K pages rest, partial_linearization (uhist c) K /\
    b = enc_pages pages ++ rest /\ Forall page_ok pages /\
    (rest = [] \/ exists p, page_ok p /\ prefix rest (enc_page p) /\ zlen rest < zlen (enc_page p)) /\
    (stream TEvents pages = [] \/
     exists k records, stream TEvents pages = [77; 77; 69; 83] ++ le_bytes 4 9 ++ concat records /\
       Forall2 event_record records (firstn k (recorded K))).
Proof.
  intros en md r0 c0 acts b Hmd Hst Hok c Hb.
  destruct (concurrent_crash en md r0 c0 acts b Hmd Hst Hok Hb) as (K & L & pages & rest & HK & HS & Eb & Hp & Hr & _ & HB).
  exists K, pages, rest. split; auto. split; auto. split; auto. split; auto.
  destruct (boundary_events en md r0 K L _ HS HB) as [E|(k & E)]; [left; auto|right].
  exists k, (map raw_bytes (map want_raw (firstn k (recorded K)))). split.
  { rewrite E. unfold hdr. rewrite <- app_assoc. reflexivity. }
  assert (G : Forall raw_good (firstn k (recorded K))).
  { pose proof (session_raw_good en md r0 K L HS) as G. rewrite <- (firstn_skipn k (recorded K)) in G. apply Forall_app in G. apply G. }
  clear -G. induction G as [|w l [G1 G2] _ IH]; [constructor|]. cbn [map]. constructor; [|exact IH].
  split; [apply zlen_raw_bytes|]. intros en. exists (want_raw w). split.
  { rewrite deserialize_eq, zlen_raw_bytes. change (32 =? 32) with true. cbv iota. f_equal. apply raw_of_bytes, G1. }
  destruct (G2 0) as (_ & E2 & E3 & E4). split; auto. split; auto. split; auto. intros st. apply (G2 st).
Qed.
Print Assumptions C06_event_pages.

(** The same is false for the 16-byte entries of the string index: a bulk mapping of 9000 ids leaves
    a page that ends in the middle of an entry. *)
Definition bulk_acts : list uact := UCall 1 (KBulk (map Z.of_nat (seq 0 (Z.to_nat 9000))) (8 + 100000003)) :: repeat (UTick 1) 20.
Definition bulk_run : uconf := urun LittleEndian bulk_acts (mkU (start_conf ex_md) []).
Lemma one_call_ok k n : call_ok k -> ucalls_ok (UCall 1 k :: repeat (UTick 1) n).
Proof. intros H tid k' [E|E]; [inversion E; subst; auto|apply repeat_spec in E; discriminate]. Qed.
Theorem C06_index_refuted :
  exists acts c, ucalls_ok acts /\ c = urun LittleEndian acts (mkU (start_conf ex_md) []) /\ started ex_md 8 (start_conf ex_md) /\
    exists p, disk (cmem (uc c)) = enc_pages [(TStrIndex, p)] /\ zlen p = 131072 /\ (zlen p - 8) mod 16 <> 0.
Proof.
  exists bulk_acts, bulk_run.
  split; [|split; [unfold bulk_run; reflexivity|split; [apply ex_started|]]].
  - unfold bulk_acts. apply one_call_ok. cbn [call_ok]. split; [|unfold is_u64; lia].
    apply Forall_map, Forall_forall. intros n Hn. apply in_seq in Hn. unfold is_u64. lia.
  - exists (zdrop 5 (disk (cmem (uc bulk_run)))).
    assert (E : (beq (disk (cmem (uc bulk_run))) (enc_pages [(TStrIndex, zdrop 5 (disk (cmem (uc bulk_run))))])
                 && (zlen (zdrop 5 (disk (cmem (uc bulk_run)))) =? 131072)) = true) by (vm_compute; reflexivity).
    apply andb_true_iff in E. destruct E as [E1 E2]. apply beq_true in E1. apply Z.eqb_eq in E2.
    split; auto. split; auto. rewrite E2. vm_compute. discriminate.
Qed.
Print Assumptions C06_index_refuted.
