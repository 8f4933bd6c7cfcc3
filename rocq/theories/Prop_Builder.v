(** C55: [ProfilingDataBuilder].  Model M_Builder.v, specification S_Builder.v. *)
From Coq Require Import String ZArith List Lia Bool.
From Verif Require Import M_Base F_Base M_Sink S_Sink M_Conc S_Conc F_Sink F_SinkSeq F_Conc F_Conc2 M_Raw F_Raw M_Header M_V8 M_Iter
  Prop_Raw Prop_Format M_Utf8 S_Utf8 F_Utf8 M_Strings M_StrTable S_Strings F_Strings M_EventId S_EventId F_EventId
  M_Session S_Session F_Session F_Session2 Prop_Strings Prop_EventId M_Run S_Run F_Run M_Map M_Metadata M_Builder S_Builder.
Import ListNotations.
Open Scope Z_scope.

Lemma effects_snoc en K L k r o : effects en K L -> call_ok k -> call_op en k = Ok o -> effects en (K ++ [(k, r)]) (L ++ [(o, r)]).
Proof. intros H Hk Ho. induction H; cbn [app]; constructor; auto. constructor. Qed.
Lemma seqc_snoc L o : sequentially_correct L -> sequentially_correct (L ++ [(o, op_result o (zlen (written (op_tag o) (map fst L))))]).
Proof.
  intros H l1 o' r l2 E. destruct l2 as [|x l2] using rev_ind.
  - apply app_inj_tail in E. destruct E as [-> E]. inversion E; subst. reflexivity.
  - clear IHl2. rewrite app_comm_cons, app_assoc in E. apply app_inj_tail in E. destruct E as [-> _]. apply (H l1 o' r l2). reflexivity.
Qed.

Section Build.
Variable en : endian.
Definition binv (K : list (call * Z)) (L : list (op * Z)) (m : mem) : Prop :=
  session en test_metadata 8 K L /\ seq_inv (map fst L) m.

Lemma sink_call_seq o L m : op_ok o -> seq_inv (map fst L) m ->
  let r := op_result o (zlen (written (op_tag o) (map fst L))) in
  exists m', sink_call o m = Ok (r, m') /\ seq_inv (map fst (L ++ [(o, r)])) m'.
Proof.
  intros Ho Hi r. destruct (run_op_seq (map fst L) o m Ho Hi) as (m' & news & Hr & Hi' & _). exists m'.
  unfold sink_call. rewrite Hr. split; [reflexivity|]. rewrite map_app. exact Hi'.
Qed.
Lemma call_step k o K L m : binv K L m -> call_ok k -> call_op en k = Ok o ->
  let r := op_result o (zlen (written (op_tag o) (map fst L))) in
  exists m', sink_call o m = Ok (r, m') /\ binv (K ++ [(k, r)]) (L ++ [(o, r)]) m'.
Proof.
  intros (HS & Hi) Hk Ho r. destruct (call_op_data _ _ _ Ho) as (Hok & _).
  destruct (sink_call_seq o L m Hok Hi) as (m' & Hc & Hi'). exists m'. split; [exact Hc|]. split; [|exact Hi'].
  destruct HS as (Hmd & Hsc & H & o2 & r2 & L2 & HH & H2 & He & ->).
  split; [auto|]. split; [apply seqc_snoc; auto|]. exists H, o2, r2, (L2 ++ [(o, r)]). split; auto. split; auto.
  split; [apply effects_snoc; auto|]. rewrite <- app_assoc. reflexivity.
Qed.

Definition data_len (L : list (op * Z)) : Z := zlen (written TStrData (map fst L)).
Lemma data_len_snoc L o r : data_len (L ++ [(o, r)]) = data_len L + if tag_eqb (op_tag o) TStrData then zlen (op_data o) else 0.
Proof.
  unfold data_len. rewrite map_app, written_app, zlen_app. cbn [map fst written]. rewrite app_nil_r. destruct (tag_eqb _ _); reflexivity.
Qed.

(** An allocation: the id is fresh string data's address. *)
Lemma alloc_step s K L m : binv K L m -> utf8 s -> data_len L < 2 ^ 63 ->
  exists m' L', alloc_str s m = Ok (data_len L + 100000003, m') /\
    binv (K ++ [(KAlloc (SStr s), data_len L)]) L' m' /\ data_len L' = data_len L + (zlen s + 1).
Proof.
  intros HB Hs Hl. destruct (call_step (KAlloc (SStr s)) _ K L m HB Hs eq_refl) as (m' & Hc & HB').
  cbn [alloc_op op_result op_tag] in Hc, HB'. exists m', (L ++ [(alloc_op (SStr s), data_len L)]).
  split; [|split; [exact HB'|]].
  - unfold alloc_str. rewrite Hc. cbn [bind fst snd]. unfold alloc_result, from_addr. fold (data_len L).
    change FIRST_REGULAR_STRING_ID with 100000003. destruct (Z.ltb_spec (data_len L + 100000003) 18446744073709551616); [reflexivity|lia].
  - rewrite data_len_snoc, alloc_op_data. cbn [alloc_op op_tag tag_eqb enc]. rewrite zlen_app, zlen_cons, zlen_nil. lia.
Qed.
Lemma record_step k e K L m : binv K L m -> call_ok k -> call_op en k = Ok (record_raw_event en e) ->
  exists m' L' r, write_raw_event en e m = Ok m' /\ binv (K ++ [(k, r)]) L' m' /\ data_len L' = data_len L.
Proof.
  intros HB Hk Ho. destruct (call_step k _ K L m HB Hk Ho) as (m' & Hc & HB').
  unfold write_raw_event, record_raw_event in *. rewrite Hc. cbn [bind snd].
  eexists m', _, _. split; [reflexivity|]. split; [exact HB'|]. rewrite data_len_snoc. cbn [op_tag tag_eqb]. lia.
Qed.

(** The allocations of a builder are plain strings. *)
Definition plain_allocs (K : list (call * Z)) : Prop := forall s r, In (KAlloc s, r) K -> exists t, s = SStr t /\ utf8 t.
Lemma plain_app K K' : plain_allocs K -> plain_allocs K' -> plain_allocs (K ++ K').
Proof. intros H H' s r Hin. apply in_app_or in Hin. destruct Hin; [eapply H|eapply H']; eauto. Qed.
Lemma plain_alloc s r : utf8 s -> plain_allocs [(KAlloc (SStr s), r)].
Proof. intros H s' r' [E|[]]. inversion E; subst. eauto. Qed.
Lemma plain_event k r : (forall s, k <> KAlloc s) -> plain_allocs [(k, r)].
Proof. intros H s' r' [E|[]]. inversion E; subst. exfalso. eapply H; reflexivity. Qed.

Lemma md_utf8 : utf8 test_metadata. Proof. apply utf8_ascii_list. vm_compute. repeat constructor; discriminate. Qed.
Lemma reads_plain K s r : plain_allocs K -> In (KAlloc (SStr s), r) K -> 8 <= r < 2 ^ 63 -> reads test_metadata 8 K (r + 100000003) s.
Proof.
  intros HP Hin Hr. assert (A : allocated test_metadata 8 K (r + 100000003) (SStr s)).
  { right. exists r. split; auto. unfold alloc_result, from_addr. change FIRST_REGULAR_STRING_ID with 100000003. destruct (Z.ltb_spec (r + 100000003) 18446744073709551616); [reflexivity|lia]. }
  split; [apply d_str, A|]. intros c s' Hc HA (F & _).
  assert (P : exists t, s' = SStr t /\ utf8 t). { destruct HA as [(-> & _)|(r' & Hin' & _)]; [exists test_metadata; split; auto; apply md_utf8|eapply HP; eauto]. }
  destruct P as (t & -> & Ht). cbn [enc] in F. destruct t as [|b t]; cbn in F; [discriminate|]. inversion F; subst.
  assert (In 254 (254 :: t)) as X by (left; auto). apply (utf8_max _ _ Ht) in X. lia.
Qed.

(** What the events recorded by a program are, given the final list of calls. *)
Lemma recorded_app K K' : recorded (K ++ K') = recorded K ++ recorded K'.
Proof. induction K as [|[k r] K IH]; cbn [app recorded]; auto. destruct (call_event k); rewrite IH; auto. Qed.

Lemma should_plain K kind id tid w ki ii e label args :
  plain_allocs K -> In (KAlloc (SStr kind), ki) K -> In (KAlloc (SStr id), ii) K -> 8 <= ki < 2 ^ 63 -> 8 <= ii < 2 ^ 63 ->
  splits id label args -> e = mkEv kind label args (shown 0 w) tid ->
  should_read test_metadata 8 K 0 (ki + 100000003, ii + 100000003, tid, w) e.
Proof.
  intros HP Hk Hi Bk Bi (E & G1 & G2) ->. cbn [should_read ev_kind ev_label ev_args ev_payload ev_thread].
  split; [apply reads_plain; auto|]. split; [|split; auto]. exists id. split; [apply reads_plain; auto|]. auto.
Qed.

Lemma build_ok p : forall K L m, binv K L m -> bprog_ok p -> 8 <= data_len L -> data_len L + text_size p < 2 ^ 63 ->
  (~ representable p /\ build en p m = Panic) \/
  (representable p /\ exists K' L' m', build en p m = Ok m' /\ binv (K ++ K') L' m' /\ data_len L' = data_len L + text_size p /\ plain_allocs K' /\
    forall es, shows p es -> forall KF, plain_allocs KF -> incl K' KF -> Forall2 (should_read test_metadata 8 KF 0) (recorded K') es).
Proof.
  assert (TS : forall q, 0 <= text_size q). { induction q; cbn [text_size]; repeat match goal with |- context [zlen ?x] => assert_fails (assert (0 <= zlen x) by assumption); pose proof (zlen_nonneg x) end; lia. }
  induction p as [|kind id tid s e inner IHi next IHn|kind id tid v next IHn|kind id tid v next IHn]; intros K L m HB Hok H8 Hsz; cbn [bprog_ok representable text_size build] in *.
  - right. split; auto. exists [], L, m. rewrite app_nil_r. split; auto. split; auto. split; [lia|]. split; [intros ? ? []|].
    intros es He KF _ _. inversion He; subst. constructor.
  - destruct Hok as ((Hk & Hi & Ht & Hs & He) & Hin & Hnx). pose proof (zlen_nonneg kind) as Zk. pose proof (zlen_nonneg id) as Zi. pose proof (TS inner) as Ti. pose proof (TS next) as Tn.
    destruct (alloc_step kind K L m HB Hk ltac:(lia)) as (m1 & L1 & E1 & B1 & D1). rewrite E1. cbn [bind fst snd].
    destruct (alloc_step id _ L1 m1 B1 Hi ltac:(lia)) as (m2 & L2 & E2 & B2 & D2). rewrite E2. cbn [bind fst snd].
    destruct (IHi _ L2 m2 B2 Hin ltac:(lia) ltac:(lia)) as [(N & E3)|(R3 & K3 & L3 & m3 & E3 & B3 & D3 & P3 & F3)]; rewrite E3; cbn [bind]; [left; tauto|].
    unfold new_interval, from_label. change MAX_INTERVAL_VALUE with 0xFFFFFFFFFFFD. destruct (Z.leb_spec s e) as [Le|Le]; [|left; split; [lia|reflexivity]].
    destruct (Z.leb_spec e 0xFFFFFFFFFFFD) as [Lm|Lm]; [|left; split; [lia|reflexivity]]. cbn [bind].
    set (raw := pack_values _ _ _ _ _).
    set (kc := KInterval (data_len L + 100000003) (data_len L1 + 100000003) tid s e).
    destruct (record_step kc raw _ L3 m3 B3) as (m4 & L4 & r4 & E4 & B4 & D4).
    { cbn [kc call_ok]. unfold is_u64, is_u32 in *. lia. }
    { cbn [kc call_op]. unfold new_interval. change MAX_INTERVAL_VALUE with 0xFFFFFFFFFFFD. destruct (Z.leb_spec s e); [|lia]. destruct (Z.leb_spec e 0xFFFFFFFFFFFD); [|lia]. reflexivity. }
    rewrite E4. cbn [bind].
    destruct (IHn _ L4 m4 B4 Hnx ltac:(lia) ltac:(lia)) as [(N & E5)|(R5 & K5 & L5 & m5 & E5 & B5 & D5 & P5 & F5)]; rewrite E5; [left; tauto|].
    right. split; [auto|].
    exists ([(KAlloc (SStr kind), data_len L)] ++ [(KAlloc (SStr id), data_len L1)] ++ K3 ++ [(kc, r4)] ++ K5), L5, m5. split; [reflexivity|].
    split; [rewrite <- !app_assoc in B5; exact B5|]. split; [lia|].
    split; [repeat apply plain_app; auto; [apply plain_alloc; auto|apply plain_alloc; auto|apply plain_event; discriminate]|].
    intros es Hes KF HP HI. inversion Hes; subst. rewrite !recorded_app. cbn [recorded call_event kc app].
    assert (I3 : incl K3 KF) by (intros x Hx; apply HI; rewrite !in_app_iff; auto). assert (I5 : incl K5 KF) by (intros x Hx; apply HI; rewrite !in_app_iff; auto).
    apply Forall2_app; [apply F3; auto|]. constructor; [|apply F5; auto].
    eapply should_plain with (label := label) (args := args); eauto; try (apply HI; rewrite !in_app_iff; cbn; tauto); try lia; try reflexivity.
  - destruct Hok as ((Hk & Hi & Ht & Hv) & Hnx). pose proof (zlen_nonneg kind) as Zk. pose proof (zlen_nonneg id) as Zi. pose proof (TS next) as Tn.
    destruct (alloc_step kind K L m HB Hk ltac:(lia)) as (m1 & L1 & E1 & B1 & D1). rewrite E1. cbn [bind fst snd].
    destruct (alloc_step id _ L1 m1 B1 Hi ltac:(lia)) as (m2 & L2 & E2 & B2 & D2). rewrite E2. cbn [bind fst snd].
    unfold new_instant, from_label. change MAX_SINGLE_VALUE with 0xFFFFFFFFFFFF. destruct (Z.leb_spec v 0xFFFFFFFFFFFF) as [Le|Le]; [|left; split; [lia|reflexivity]]. cbn [bind].
    set (raw := pack_values _ _ _ _ _). set (kc := KInstant (data_len L + 100000003) (data_len L1 + 100000003) tid v).
    destruct (record_step kc raw _ L2 m2 B2) as (m4 & L4 & r4 & E4 & B4 & D4).
    { cbn [kc call_ok]. unfold is_u64, is_u32 in *. lia. }
    { cbn [kc call_op]. unfold new_instant. change MAX_SINGLE_VALUE with 0xFFFFFFFFFFFF. destruct (Z.leb_spec v 0xFFFFFFFFFFFF); [|lia]. reflexivity. }
    rewrite E4. cbn [bind].
    destruct (IHn _ L4 m4 B4 Hnx ltac:(lia) ltac:(lia)) as [(N & E5)|(R5 & K5 & L5 & m5 & E5 & B5 & D5 & P5 & F5)]; rewrite E5; [left; tauto|].
    right. split; [auto|].
    exists ([(KAlloc (SStr kind), data_len L)] ++ [(KAlloc (SStr id), data_len L1)] ++ [(kc, r4)] ++ K5), L5, m5. split; [reflexivity|].
    split; [rewrite <- !app_assoc in B5; exact B5|]. split; [lia|].
    split; [repeat apply plain_app; auto; [apply plain_alloc; auto|apply plain_alloc; auto|apply plain_event; discriminate]|].
    intros es Hes KF HP HI. inversion Hes; subst. rewrite !recorded_app. cbn [recorded call_event kc app].
    assert (I5 : incl K5 KF) by (intros x Hx; apply HI; rewrite !in_app_iff; auto).
    constructor; [|apply F5; auto].
    eapply should_plain with (label := label) (args := args); eauto; try (apply HI; rewrite !in_app_iff; cbn; tauto); try lia; try reflexivity.
  - destruct Hok as ((Hk & Hi & Ht & Hv) & Hnx). pose proof (zlen_nonneg kind) as Zk. pose proof (zlen_nonneg id) as Zi. pose proof (TS next) as Tn.
    destruct (alloc_step kind K L m HB Hk ltac:(lia)) as (m1 & L1 & E1 & B1 & D1). rewrite E1. cbn [bind fst snd].
    destruct (alloc_step id _ L1 m1 B1 Hi ltac:(lia)) as (m2 & L2 & E2 & B2 & D2). rewrite E2. cbn [bind fst snd].
    unfold new_integer, from_label. change MAX_SINGLE_VALUE with 0xFFFFFFFFFFFF. destruct (Z.leb_spec v 0xFFFFFFFFFFFF) as [Le|Le]; [|left; split; [lia|reflexivity]]. cbn [bind].
    set (raw := pack_values _ _ _ _ _). set (kc := KInteger (data_len L + 100000003) (data_len L1 + 100000003) tid v).
    destruct (record_step kc raw _ L2 m2 B2) as (m4 & L4 & r4 & E4 & B4 & D4).
    { cbn [kc call_ok]. unfold is_u64, is_u32 in *. lia. }
    { cbn [kc call_op]. unfold new_integer. change MAX_SINGLE_VALUE with 0xFFFFFFFFFFFF. destruct (Z.leb_spec v 0xFFFFFFFFFFFF); [|lia]. reflexivity. }
    rewrite E4. cbn [bind].
    destruct (IHn _ L4 m4 B4 Hnx ltac:(lia) ltac:(lia)) as [(N & E5)|(R5 & K5 & L5 & m5 & E5 & B5 & D5 & P5 & F5)]; rewrite E5; [left; tauto|].
    right. split; [auto|].
    exists ([(KAlloc (SStr kind), data_len L)] ++ [(KAlloc (SStr id), data_len L1)] ++ [(kc, r4)] ++ K5), L5, m5. split; [reflexivity|].
    split; [rewrite <- !app_assoc in B5; exact B5|]. split; [lia|].
    split; [repeat apply plain_app; auto; [apply plain_alloc; auto|apply plain_alloc; auto|apply plain_event; discriminate]|].
    intros es Hes KF HP HI. inversion Hes; subst. rewrite !recorded_app. cbn [recorded call_event kc app].
    assert (I5 : incl K5 KF) by (intros x Hx; apply HI; rewrite !in_app_iff; auto).
    constructor; [|apply F5; auto].
    eapply should_plain with (label := label) (args := args); eauto; try (apply HI; rewrite !in_app_iff; cbn; tauto); try lia; try reflexivity.
Qed.
End Build.

Lemma sinks_tset t s m t' : tget t' (tset t s m) = if tag_eqb t t' then s else @tget sink t' m.
Proof. destruct t, t', m; reflexivity. Qed.
Lemma take_bytes_seq ops m t : seq_inv ops m -> exists m', take_bytes t m = Ok (written t ops, m') /\ seq_inv ops m'.
Proof.
  intros (pages & Hd & Hp & Hl & Hsh & Hs). unfold take_bytes, flush, write_page.
  destruct (Hs t) as (HL & Ha & Hb).
  assert (Hps : forall ps, Forall page_ok ps -> Forall page_wf ps)
    by (intros ps H; eapply Forall_impl; [|exact H]; apply page_ok_wf).
  assert (Hpres : forall f, (match tget t (streams_of f) with Some b => b | None => [] end) = f t).
  { intros f. destruct t; simpl; unfold present; destruct (f _); auto. }
  destruct (Z.ltb_spec 0 (zlen (sbuf (tget t (sinks m))))).
  - destruct (Z.leb_spec (zlen (sbuf (tget t (sinks m)))) MAX_PAGE_SIZE); [|lia].
    set (b := sbuf (tget t (sinks m))) in *. cbn [run]. rewrite Hsh. unfold copy_bytes_with_page_tag. cbn [disk sinks slk shl].
    assert (((disk m ++ [tag_byte t]) ++ le_bytes 4 (zlen b)) ++ b = enc_pages (pages ++ [(t, b)])) as ->.
    { rewrite enc_pages_snoc, Hd. unfold enc_page. cbn [fst snd]. rewrite <- !app_assoc. auto. }
    assert (Hpb : Forall page_ok (pages ++ [(t, b)])). { apply Forall_app; split; auto. constructor; auto. unfold page_ok; simpl. unfold MAX_PAGE_SIZE in *; lia. }
    rewrite split_pages by auto. cbn [bind]. rewrite Hpres, stream_snoc, tag_eqb_refl, HL.
    eexists. split; [reflexivity|]. exists (pages ++ [(t, b)]). cbn [disk sinks slk shl]. split; auto. split; auto. split; auto. split; auto.
    intros t'. rewrite sinks_tset, stream_snoc. destruct (tag_eqb t t') eqn:E.
    + apply tag_eqb_eq in E. subst t'. unfold sink_ok. cbn [sbuf saddr]. rewrite app_nil_r. split; auto. split; auto. unfold MAX_PAGE_SIZE, zlen; cbn; lia.
    + rewrite app_nil_r. apply Hs.
  - cbn [run]. unfold copy_bytes_with_page_tag. cbn [disk sinks slk shl]. rewrite Hd, split_pages by auto. cbn [bind]. rewrite Hpres.
    assert (E0 : sbuf (tget t (sinks m)) = []) by (apply zlen_0; pose proof (zlen_nonneg (sbuf (tget t (sinks m)))); lia).
    rewrite E0, app_nil_r in HL. rewrite HL. eexists. split; [reflexivity|]. exists pages. cbn [disk sinks slk shl]. split; auto. split; auto. split; auto. split; auto.
    intros t'. rewrite sinks_tset. destruct (tag_eqb t t') eqn:E; [|apply Hs].
    apply tag_eqb_eq in E. subst t'. unfold sink_ok. cbn [sbuf saddr]. rewrite app_nil_r. split; auto. split; auto. unfold MAX_PAGE_SIZE, zlen; cbn; lia.
Qed.

Lemma new_ok en : exists m L, builder_new = Ok m /\ binv en [] L m /\ data_len L = 8 + (zlen test_metadata + 1).
Proof.
  assert (G : forall ops m before, Forall op_ok ops -> seq_inv before m -> exists m', sink_calls ops m = Ok m' /\ seq_inv (before ++ ops) m').
  { induction ops as [|o ops IH]; intros m before F Hi; cbn [sink_calls]; [exists m; rewrite app_nil_r; auto|]. inversion F; subst.
    destruct (run_op_seq before o m) as (m' & news & Hr & Hi' & _); auto. unfold sink_call. rewrite Hr. cbn [bind snd].
    destruct (IH m' (before ++ [o])) as (m2 & E & Hi2); auto. rewrite <- app_assoc in Hi2. eauto. }
  set (ops := init_headers ++ [init_alloc test_metadata; index_op METADATA_STRING_ID 8]).
  assert (E : builder_new = match sink_calls ops mem0 with Ok m => Ok m | _ => Err end) by (vm_compute; reflexivity).
  destruct (G ops mem0 []) as (m & Em & Hi); [|apply seq_inv0|].
  { unfold ops, init_headers, header_ops. apply Forall_app. split; [repeat constructor|]. constructor; [apply alloc_op_ok|]. constructor; [|constructor]. apply index_op_ok. }
  rewrite Em in E. exists m, (execute [] ops). split; auto. split; [split|].
  - split; [apply md_utf8|]. split; [apply execute_seq|].
    exists (firstn 6 (execute [] ops)), (index_op METADATA_STRING_ID 8), 8, []. split; [reflexivity|]. split; [reflexivity|]. split; [constructor|]. reflexivity.
  - rewrite execute_fst. exact Hi.
  - reflexivity.
Qed.

(** A program with representable times builds a profile whose events are exactly those of the
    program, in order of recording, and whose start time is the Unix epoch. *)
Theorem C55_reads_back : forall en en' p es, bprog_ok p -> representable p -> text_size p < 2 ^ 62 -> zlen es < 2 ^ 64 -> shows p es ->
  exists n, forall fuel, (n <= fuel)%nat -> exists d,
    build_profile en fuel p = Ok d /\ num_events d = Ok (zlen es) /\ iter_full fuel en' d = Ok es /\
    d_metadata d = mkMd 0 0 (str "test cmd").
Proof.
  intros en en' p es Hok Hr Hsz Hn Hes. destruct (new_ok en) as (m & L & Em & HB & HL).
  destruct (build_ok en p [] L m HB Hok) as [(N & _)|(_ & K & L' & m' & Eb & HB' & _ & HP & HF)]; [rewrite HL; vm_compute; discriminate| |contradiction|].
  { rewrite HL. change (8 + (zlen test_metadata + 1)) with 64. lia. }
  cbn [app] in HB'. destruct HB' as (HS & Hi). specialize (HF es Hes K HP (fun x H => H)).
  set (md := mkMd 0 0 (str "test cmd")). set (d := session_decoder K L' md).
  destruct (session_iter_full en test_metadata 8 K L' HS en' md es) as (n1 & N1); [unfold zlen in *; rewrite (Forall2_len _ _ _ HF); auto|exact HF|].
  destruct (session_metadata en test_metadata 8 K L' HS) as (n2 & N2).
  exists (n1 + n2)%nat. intros fuel Hf. exists d.
  split; [|split; [|split; [apply N1; lia|reflexivity]]].
  - unfold build_profile. rewrite Em. cbn [bind]. rewrite Eb. cbn [bind]. unfold into_profiling_data.
    destruct (take_bytes_seq _ m' TEvents Hi) as (m1 & -> & Hi1). cbn [bind fst snd].
    destruct (take_bytes_seq _ m1 TStrData Hi1) as (m2 & -> & Hi2). cbn [bind fst snd].
    destruct (take_bytes_seq _ m2 TStrIndex Hi2) as (m3 & -> & Hi3). cbn [bind fst snd].
    unfold from_separate_buffers. rewrite (session_table_new en test_metadata 8 K L' HS). 
    rewrite (session_written en test_metadata 8 K L' HS TEvents) at 1. rewrite verify_hdr by reflexivity. cbn [bind].
    rewrite N2 by lia. cbn [bind].
    assert (PM : parse_metadata test_metadata = Ok md) by (vm_compute; reflexivity). rewrite PM. reflexivity.
  - unfold d. rewrite (session_num en test_metadata 8 K L' HS). f_equal. unfold zlen. rewrite (Forall2_len _ _ _ HF). reflexivity.
Qed.
(** Any other program panics (in the call with the time that cannot be represented). *)
Theorem C55_rejects : forall en fuel p, bprog_ok p -> text_size p < 2 ^ 62 -> ~ representable p -> build_profile en fuel p = Panic.
Proof.
  intros en fuel p Hok Hsz Hr. destruct (new_ok en) as (m & L & Em & HB & HL). unfold build_profile. rewrite Em. cbn [bind].
  destruct (build_ok en p [] L m HB Hok) as [(_ & ->)|(R & _)]; [rewrite HL; vm_compute; discriminate| |reflexivity|contradiction].
  rewrite HL. change (8 + (zlen test_metadata + 1)) with 64. lia.
Qed.
(** Every program with event ids that are good labels has its events. *)
Theorem C55_plain_labels : forall p,
  (fix ok p := match p with
    | BEnd => True
    | BInterval _ id _ _ _ i n => good_text id /\ ok i /\ ok n
    | BInstant _ id _ _ n | BInteger _ id _ _ n => good_text id /\ ok n
    end) p -> exists es, shows p es.
Proof.
  assert (S : forall id, good_text id -> splits id id []) by (intros id H; split; [unfold join; cbn; rewrite app_nil_r; reflexivity|auto]).
  induction p as [|kind id tid s e i IHi n IHn|kind id tid v n IHn|kind id tid v n IHn]; intros H.
  - eexists. constructor.
  - destruct H as (H & Hi & Hn). destruct (IHi Hi) as (e1 & H1). destruct (IHn Hn) as (e2 & H2). eexists. econstructor; eauto.
  - destruct H as (H & Hn). destruct (IHn Hn) as (e2 & H2). eexists. econstructor; eauto.
  - destruct H as (H & Hn). destruct (IHn Hn) as (e2 & H2). eexists. econstructor; eauto.
Qed.

Definition ex_prog : bprog :=
  BInterval (str "Query") (str "q1") 7 10 50 (BInstant (str "Hit") (str "q2") 7 20 BEnd) (BInteger (str "Size") (str "obj") 7 99 BEnd).
Example ex_C55 : bprog_ok ex_prog /\ representable ex_prog /\
  (do d <- build_profile LittleEndian 100 ex_prog; iter_full 100 BigEndian d)
  = Ok [mkEv (str "Hit") (str "q2") [] (Timestamp (Instant 20)) 7; mkEv (str "Query") (str "q1") [] (Timestamp (Interval 10 50)) 7;
        mkEv (str "Size") (str "obj") [] (Integer 99) 7].
Proof.
  split; [|split; [cbn; lia|vm_compute; reflexivity]].
  assert (U : forall s, Forall (fun c => 0 <= c < 128) (str s) -> utf8 (str s)) by (intros s; apply utf8_ascii_list).
  cbn [bprog_ok ex_prog]. repeat match goal with |- _ /\ _ => split | |- utf8 _ => apply U; repeat constructor; cbn; lia | |- True => exact I | |- _ => unfold is_u32, is_u64; lia end.
Qed.
Print Assumptions C55_reads_back.
Print Assumptions C55_rejects.
Print Assumptions C55_plain_labels.
