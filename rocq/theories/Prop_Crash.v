(** C87: opening the file a process left behind when it died.  Vocabulary S_Crash.v. *)
From Coq Require Import ZArith List Lia Bool.
From Verif Require Import M_Base F_Base M_Sink S_Sink M_Conc S_Conc F_Sink F_SinkSeq F_Conc F_Conc2 M_Raw F_Raw M_Header M_V8 M_Iter
  Prop_Raw Prop_Format M_Utf8 S_Utf8 F_Utf8 M_Strings M_StrTable S_Strings F_Strings M_EventId S_EventId F_EventId
  M_Session S_Session F_Session F_Session2 Prop_Strings Prop_EventId M_Run S_Run F_Run Prop_Run S_Crash F_Crash M_Metadata.
Import ListNotations.
Open Scope Z_scope.

Lemma left_pages en c0 acts file : left_behind en c0 acts file -> verify_file_header file FILE_MAGIC_TOP_LEVEL = Ok tt ->
  exists b, file = file_of b /\
  (prefix b (disk (cmem (uc (urun en acts (mkU c0 []))))) \/
   exists drops, all_idle (uc (urun en acts (mkU c0 []))) /\ Forall is_drop drops /\
     prefix b (disk (snd (run_ops drops (cmem (uc (urun en acts (mkU c0 [])))))))).
Proof.
  intros Hl Hv. apply verify_ok in Hv.
  assert (G : forall x, prefix file (file_of x) -> exists b, file = file_of b /\ prefix b x).
  { intros x Hp. unfold file_of in *. change (concat (header_writes FILE_MAGIC_TOP_LEVEL)) with (hdr FILE_MAGIC_TOP_LEVEL) in *.
    apply prefix_ge in Hp; [|rewrite zlen_hdr by reflexivity; exact Hv]. destruct Hp as (b & -> & Hb). eauto. }
  destruct Hl as [Hp|drops Hi Hd Hp]; destruct (G _ Hp) as (b & -> & Hb); exists b; split; auto. right. exists drops. auto.
Qed.

(** Everything about an opened file. *)
Lemma opened en md r0 c0 acts file parse fuel d : utf8 md -> started md r0 c0 -> ucalls_ok acts ->
  left_behind en c0 acts file -> (forall m, parse UNKNOWN_STRING <> Ok m) -> decoder_new parse fuel file = Ok d ->
  exists K L K' L' x y sd ix ev, partial_linearization (uhist (urun en acts (mkU c0 []))) K /\ session en md r0 K L /\ session en md r0 K' L' /\
    split_streams (zdrop 8 file) = Ok (TM (Some ev) (Some sd) (Some ix)) /\ prefix sd (written TStrData (map fst L)) /\
    string_data (stringtable d) = sd /\
    cut_to (zlen sd) (zlen ix) (zlen ev) K K' /\
    parse md = Ok (d_metadata d) /\ event_data d = written TEvents (map fst L') /\
    written TStrData (map fst L') = x ++ [255] /\ stringtable d = mkTable ((x ++ [255]) ++ y) (index (session_table K' L')).
Proof.
  intros Hmd Hst Hok Hl Hun Hd.
  assert (Hv : verify_file_header file FILE_MAGIC_TOP_LEVEL = Ok tt).
  { unfold decoder_new in Hd. apply bind_ok in Hd. destruct Hd as ([] & E & _). exact E. }
  destruct (left_pages _ _ _ _ Hl Hv) as (b & -> & Hb).
  destruct (crash_pages en md r0 c0 acts b Hmd Hst Hok Hb) as (K & L & pages & rest & HK & HS & -> & Hp & Hr & Hpre & Hev).
  assert (Er : rest = []).
  { destruct Hr as [->|(p & Hp1 & Hp2 & Hp3)]; auto. destruct rest as [|z rest]; auto. exfalso. unfold decoder_new, file_of in Hd.
    change (concat (header_writes FILE_MAGIC_TOP_LEVEL)) with (hdr FILE_MAGIC_TOP_LEVEL) in Hd.
    rewrite verify_hdr in Hd by reflexivity. cbn [bind] in Hd. rewrite zdrop_app_eq in Hd by reflexivity.
    rewrite (partial_page_panics pages (z :: rest) p) in Hd; try discriminate; auto.
    - eapply Forall_impl; [|exact Hp]; apply page_ok_wf.
    - apply page_ok_wf, Hp1. }
  subst rest. rewrite app_nil_r in *.
  destruct (crash_decoder en md r0 K L pages parse fuel d HS Hp Hpre Hev Hun Hd) as (K' & L' & x & y & HS' & Hcut & Hpm & Hed & Hw & Htb).
  assert (Hsp : split_streams (zdrop 8 (file_of (enc_pages pages))) = Ok (streams_of (fun t => stream t pages))).
  { unfold file_of. change (concat (header_writes FILE_MAGIC_TOP_LEVEL)) with (hdr FILE_MAGIC_TOP_LEVEL). rewrite zdrop_app_eq by reflexivity.
    apply split_pages. eapply Forall_impl; [|exact Hp]; apply page_ok_wf. }
  unfold decoder_new in Hd. rewrite Hv in Hd. cbn [bind] in Hd. change FILE_HEADER_SIZE with 8 in Hd. rewrite Hsp in Hd. cbn [bind] in Hd.
  unfold streams_of in Hd, Hsp. cbn [tget tm_ev tm_sd tm_si] in Hd.
  apply bind_ok in Hd. destruct Hd as (sd & Esd & Hd). apply bind_ok in Hd. destruct Hd as (ix & Eix & Hd). apply bind_ok in Hd. destruct Hd as (ev & Eev & Hd).
  destruct (present (stream TStrData pages)) as [sd'|] eqn:P1; [|discriminate]. apply present_some in P1. cbn in Esd. injection Esd as ->.
  destruct (present (stream TStrIndex pages)) as [ix'|] eqn:P2; [|discriminate]. apply present_some in P2. cbn in Eix. injection Eix as ->.
  destruct (present (stream TEvents pages)) as [ev'|] eqn:P3; [|discriminate]. apply present_some in P3. cbn in Eev. injection Eev as ->.
  exists K, L, K', L', x, y, sd, ix, ev. rewrite P1, P2, P3 in Hcut. pose proof (Hpre TStrData) as Q. rewrite P1 in Q.
  split; auto. split; auto. split; auto. split; auto. split; auto. split; auto.
  unfold from_separate_buffers in Hd. apply bind_ok in Hd. destruct Hd as ([] & _ & Hd). apply bind_ok in Hd. destruct Hd as (tbl & Et & Hd).
  apply bind_ok in Hd. destruct Hd as (text & _ & Hd). apply bind_ok in Hd. destruct Hd as (m & _ & Hd). apply Ok_inj in Hd. subst d.
  cbn [stringtable]. apply (table_inv _ _ _ Et).
Qed.

(** Any number of threads record under any schedule; the process dies at any point, while recording
    or while the sinks are being dropped; the bytes written so far are cut anywhere.  If the file
    opens at all then there is an order [K] of the calls and a part [K'] of it: the strings that are
    wholly in the file, the first mappings and the first events, as many as the file has room for.
    The metadata is the profiler's; the number of events, threads and payloads are those of [K'], and
    every event of [K'] whose ids denote a text in [K'] is read with that text. *)
Theorem C87_crash : forall en en' md r0 c0 acts file parse fuel d, utf8 md -> started md r0 c0 -> ucalls_ok acts ->
  left_behind en c0 acts file -> (forall m, parse unknown_text <> Ok m) ->
  decoder_new parse fuel file = Ok d ->
  exists K K' strings ids events, partial_linearization (uhist (urun en acts (mkU c0 []))) K /\
    split_streams (zdrop 8 file) = Ok (TM (Some events) (Some strings) (Some ids)) /\
    cut_to (zlen strings) (zlen ids) (zlen events) K K' /\
    parse md = Ok (d_metadata d) /\ num_events d = Ok (zlen (recorded K')) /\
    (forall i kind id tid w, nth_error (recorded K') i = Some (kind, id, tid, w) ->
       decode_lightweight_event en' d (Z.of_nat i) = Ok (mkLw (Z.of_nat i) tid (shown (md_start_time (d_metadata d)) w))) /\
    (forall i w e, nth_error (recorded K') i = Some w -> should_read md r0 K' (md_start_time (d_metadata d)) w e ->
       exists n, forall f, (n <= f)%nat -> decode_full_event f en' d (Z.of_nat i) = Ok e).
Proof.
  intros en en' md r0 c0 acts file parse fuel d Hmd Hst Hok Hl Hun Hd.
  destruct (opened en md r0 c0 acts file parse fuel d Hmd Hst Hok Hl Hun Hd)
    as (K & L & K' & L' & x & y & sd & ix & ev & HK & HS & HS' & Hsp & _ & _ & Hcut & Hpm & Hed & Hw & Htb).
  exists K, K', sd, ix, ev. split; auto. split; auto. split; auto. split; auto.
  assert (E0 : d = mkDecoder (written TEvents (map fst L')) (mkTable ((x ++ [255]) ++ y) (index (session_table K' L'))) (d_metadata d)).
  { rewrite <- Hed, <- Htb. destruct d; reflexivity. }
  assert (E1 : session_decoder K' L' (d_metadata d) = mkDecoder (written TEvents (map fst L')) (mkTable (x ++ [255]) (index (session_table K' L'))) (d_metadata d)).
  { unfold session_decoder. rewrite <- Hw. reflexivity. }
  split; [|split].
  - pose proof (session_num en md r0 K' L' HS' (d_metadata d)) as G. rewrite E1 in G. rewrite E0 at 1. exact G.
  - intros i kind id tid w Hi. pose proof (session_lw en md r0 K' L' HS' en' (d_metadata d) i _ Hi) as G.
    rewrite E1 in G. rewrite E0 at 1. exact G.
  - intros i w e Hi Hr. destruct (session_full en md r0 K' L' HS' en' (d_metadata d) i w e Hi Hr) as (n & Hn).
    exists n. intros f Hf. specialize (Hn f Hf). rewrite E1 in Hn. rewrite E0 at 1. unfold decode_full_event in *.
    apply bind_ok in Hn. destruct Hn as (re & G1 & Hn). apply bind_ok in Hn. destruct Hn as (p & G2 & Hn).
    apply bind_ok in Hn. destruct Hn as (t1 & G3 & Hn). apply bind_ok in Hn. destruct Hn as (pe & G4 & Hn). apply bind_ok in Hn. destruct Hn as (t2 & G5 & Hn).
    cbn [stringtable d_metadata] in *. apply (long_to_string x y) in G3, G5.
    match goal with |- context [raw_at en' ?dd ?ii] => change (raw_at en' dd ii) with (raw_at en' (mkDecoder (written TEvents (map fst L')) (mkTable (x ++ [255]) (index (session_table K' L'))) (d_metadata d)) ii) end.
    rewrite G1. cbn [bind]. rewrite G2. cbn [bind]. rewrite G3. cbn [bind]. rewrite G4. cbn [bind]. rewrite G5. exact Hn.
Qed.
Print Assumptions C87_crash.

(** The parser of the metadata meets the hypothesis. *)
Theorem C87_parser : forall m, parse_metadata unknown_text <> Ok m.
Proof. intros m H. vm_compute in H. discriminate H. Qed.

(** A plain string that is not wholly in the file is not read as something else: every event that
    names it makes the reader panic. *)
Theorem C87_lost_strings : forall en md r0 c0 acts file parse fuel d, utf8 md -> started md r0 c0 -> ucalls_ok acts ->
  left_behind en c0 acts file -> (forall m, parse unknown_text <> Ok m) ->
  decoder_new parse fuel file = Ok d ->
  exists K K' strings ids events, partial_linearization (uhist (urun en acts (mkU c0 []))) K /\
    split_streams (zdrop 8 file) = Ok (TM (Some events) (Some strings) (Some ids)) /\
    cut_to (zlen strings) (zlen ids) (zlen events) K K' /\
    forall text r id, In (SStr text, r) (allocations K) -> ~ In (SStr text, r) (allocations K') -> alloc_result r = Ok id ->
      forall f, to_string (S f) (stringtable d) id = Panic.
Proof.
  intros en md r0 c0 acts file parse fuel d Hmd Hst Hok Hl Hun Hd.
  destruct (opened en md r0 c0 acts file parse fuel d Hmd Hst Hok Hl Hun Hd)
    as (K & L & K' & L' & x & y & sd & ix & ev & HK & HS & HS' & Hsp & Hpre & Hsd & Hcut & Hpm & Hed & Hw & Htb).
  exists K, K', sd, ix, ev. split; auto. split; auto. split; auto.
  intros text r id Hin Hnin Hr f. destruct Hcut as (Ha & _).
  assert (Hlen : zlen sd < r + zlen (enc (SStr text))).
  { destruct (Z_lt_le_dec (zlen sd) (r + zlen (enc (SStr text)))) as [|Hle]; auto. exfalso. apply Hnin. rewrite Ha.
    apply filter_In. split; auto. cbn [fst snd]. apply Z.leb_le. exact Hle. }
  assert (HinK : In (KAlloc (SStr text), r) K).
  { clear -Hin. induction K as [|[k r'] K IH]; [destruct Hin|]. cbn [allocations] in Hin. destruct k; try (right; auto; fail).
    destruct Hin as [E|Hin]; [inversion E; left; auto|right; auto]. }
  destruct (session_alloc en md r0 K L HS id (SStr text)) as (Hok' & Hid & pre & post & Ed & Ei & H8); [right; eauto|].
  assert (Er : r = zlen pre).
  { unfold alloc_result, from_addr in Hr. destruct (_ <? _); [|discriminate]. apply Ok_inj in Hr. lia. }
  subst r. cbn [session_table string_data] in Ed.
  cbn [to_string]. assert (Eg : get_addr (stringtable d) id = Ok (zlen pre)).
  { rewrite Ei. rewrite get_addr_regular by lia. f_equal. lia. }
  rewrite Eg. cbv zeta. rewrite Hsd. destruct (Z.ltb_spec (zlen sd) (zlen pre)) as [|Hge]; [reflexivity|].
  rewrite Ed in Hpre. destruct (prefix_ge _ _ _ Hpre Hge) as (q & -> & [z Ez]). rewrite zdrop_app.
  destruct (memchr TERMINATOR q) as [n|] eqn:En; [|reflexivity]. exfalso. apply memchr2_found in En.
  assert (H255 : In 255 q) by (destruct En; auto). rewrite zlen_app in Hlen. symmetry in Ez.
  destruct (app_prefix _ _ _ _ Ez) as (w & Ew & _); [lia|]. cbn [enc] in Ew, Hlen.
  destruct (exists_last_or w) as [->|(w' & b & ->)].
  - rewrite app_nil_r in Ew. rewrite <- Ew in Hlen. lia.
  - rewrite app_assoc in Ew. apply app_inj_tail in Ew. destruct Ew as [Ew _].
    assert (Hx : In 255 text) by (rewrite Ew; apply in_or_app; auto). apply (utf8_max text) in Hx; [lia|exact Hok'].
Qed.
Print Assumptions C87_lost_strings.

(** The page boundaries of the event stream, also while the sinks are being dropped: every file that
    can be left behind is the magic bytes, complete pages and at most a part of one page, and the
    complete pages hold the header of the event stream and whole events. *)
Theorem C06_left_behind : forall en md r0 c0 acts file, utf8 md -> started md r0 c0 -> ucalls_ok acts ->
  left_behind en c0 acts file -> 8 <= zlen file ->
  exists K pages rest, partial_linearization (uhist (urun en acts (mkU c0 []))) K /\
    file = [77; 77; 80; 68] ++ le_bytes 4 9 ++ enc_pages pages ++ rest /\ Forall page_ok pages /\
    (rest = [] \/ exists p, page_ok p /\ prefix rest (enc_page p) /\ zlen rest < zlen (enc_page p)) /\
    (stream TEvents pages = [] \/
     exists k records, stream TEvents pages = [77; 77; 69; 83] ++ le_bytes 4 9 ++ concat records /\
       Forall2 event_record records (firstn k (recorded K))).
Proof.
  intros en md r0 c0 acts file Hmd Hst Hok Hl Hlen.
  assert (G : forall x, prefix file (file_of x) -> exists b, file = file_of b /\ prefix b x).
  { intros x Hp. unfold file_of in *. change (concat (header_writes FILE_MAGIC_TOP_LEVEL)) with (hdr FILE_MAGIC_TOP_LEVEL) in *.
    apply prefix_ge in Hp; [|rewrite zlen_hdr by reflexivity; exact Hlen]. destruct Hp as (b & -> & Hb). eauto. }
  assert (G' : exists b, file = file_of b /\
    (prefix b (disk (cmem (uc (urun en acts (mkU c0 []))))) \/
     exists drops, all_idle (uc (urun en acts (mkU c0 []))) /\ Forall is_drop drops /\
       prefix b (disk (snd (run_ops drops (cmem (uc (urun en acts (mkU c0 [])))))))) ).
  { destruct Hl as [Hp|drops Hi Hd Hp]; destruct (G _ Hp) as (b & -> & Hb); exists b; (split; [reflexivity|]); [left; exact Hb|]. right. exists drops. auto. }
  clear G. destruct G' as (b & -> & Hb).
  destruct (crash_pages en md r0 c0 acts b Hmd Hst Hok Hb) as (K & L & pages & rest & HK & HS & -> & Hp & Hr & _ & HB).
  exists K, pages, rest. split; [exact HK|]. split; [reflexivity|]. split; [exact Hp|]. split; [exact Hr|].
  destruct HB as [E|(k & E)]; [left; exact E|right].
  exists k, (map raw_bytes (map want_raw (firstn k (recorded K)))). split.
  { rewrite E. unfold hdr. rewrite <- app_assoc. reflexivity. }
  assert (G : Forall raw_good (firstn k (recorded K))).
  { pose proof (session_raw_good en md r0 K L HS) as G. rewrite <- (firstn_skipn k (recorded K)) in G. apply Forall_app in G. apply G. }
  clear -G. induction G as [|w l [G1 G2] _ IH]; [constructor|]. cbn [map]. constructor; [|exact IH].
  split; [apply zlen_raw_bytes|]. intros en. exists (want_raw w). split.
  { rewrite deserialize_eq, zlen_raw_bytes. change (32 =? 32) with true. cbv iota. f_equal. apply raw_of_bytes, G1. }
  destruct (G2 0) as (_ & E2 & E3 & E4). split; auto. split; auto. split; auto. intros st. apply (G2 st).
Qed.
Print Assumptions C06_left_behind.

(** One thread alone: its calls are carried out as the sequential run says. *)
Lemma solo_prog en : forall p m r m', run p m = (Ok r, m') ->
  exists n, forall c h, cmem c = m -> thr c 0 = Some p ->
    let c' := urun en (repeat (UTick 0) n) (mkU c h) in
    cmem (uc c') = m' /\ thr (uc c') 0 = None /\ uhist c' = h ++ [URet 0 r] /\ forall x, x <> 0 -> thr (uc c') x = thr c x.
Proof.
  assert (S0 : forall f v, set_thr f 0 v 0 = v) by (intros f v; unfold set_thr; reflexivity).
  assert (Sx : forall f v x, x <> 0 -> set_thr f 0 v x = f x) by (intros f v x Hx; unfold set_thr; destruct (Z.eqb_spec x 0); congruence).
  assert (G : forall p m1 p1 r m', (forall m, m = m1 -> exists n, forall c h, cmem c = m -> thr c 0 = Some p1 ->
      let c' := urun en (repeat (UTick 0) n) (mkU c h) in
      cmem (uc c') = m' /\ thr (uc c') 0 = None /\ uhist c' = h ++ [URet 0 r] /\ forall x, x <> 0 -> thr (uc c') x = thr c x) ->
      forall m, (forall c, cmem c = m -> thr c 0 = Some p -> forall h, ustep en (mkU c h) (UTick 0) = mkU (mkConf m1 (set_thr (thr c) 0 (Some p1)) (hist c)) h) ->
      exists n, forall c h, cmem c = m -> thr c 0 = Some p ->
      let c' := urun en (repeat (UTick 0) n) (mkU c h) in
      cmem (uc c') = m' /\ thr (uc c') 0 = None /\ uhist c' = h ++ [URet 0 r] /\ forall x, x <> 0 -> thr (uc c') x = thr c x).
  { intros p m1 p1 r m' IH m Hs. destruct (IH m1 eq_refl) as (n & Hn). exists (S n). intros c h Hm Hp. cbn [repeat]. unfold urun. cbn [fold_left].
    rewrite (Hs c Hm Hp h). destruct (Hn (mkConf m1 (set_thr (thr c) 0 (Some p1)) (hist c)) h) as (A1 & A2 & A3 & A4); [reflexivity|apply S0|].
    unfold urun in *. split; [exact A1|]. split; [exact A2|]. split; [exact A3|]. intros x Hx. rewrite A4 by exact Hx. cbn [thr]. apply Sx, Hx. }
  induction p as [r0| |t k IH|t s k IH|k IH|bs k IH|k IH]; intros m r m' H; cbn [run] in H.
  - injection H as <- <-. exists 1%nat. intros c h Hm Hp. unfold urun. cbn [repeat fold_left ustep uc uhist]. rewrite Hp. cbn [cstep]. rewrite Hp. cbn [uc uhist cmem thr].
    split; [exact Hm|]. split; [apply S0|]. split; [reflexivity|]. intros x Hx. apply Sx, Hx.
  - discriminate H.
  - destruct (tget t (slk m)) eqn:El; [discriminate H|]. eapply G; [intros m1 Em; apply (IH (tget t (sinks m)) m1 r m'); rewrite Em; exact H|].
    intros c Hm Hp h. cbn [ustep uc uhist]. rewrite Hp. cbn [cstep]. rewrite Hp. cbn [prog_step]. rewrite Hm, El. reflexivity.
  - eapply G; [intros m1 Em; apply (IH m1 r m'); rewrite Em; exact H|].
    intros c Hm Hp h. cbn [ustep uc uhist]. rewrite Hp. cbn [cstep]. rewrite Hp. cbn [prog_step]. rewrite Hm. reflexivity.
  - destruct (shl m) eqn:El; [discriminate H|]. eapply G; [intros m1 Em; apply (IH m1 r m'); rewrite Em; exact H|].
    intros c Hm Hp h. cbn [ustep uc uhist]. rewrite Hp. cbn [cstep]. rewrite Hp. cbn [prog_step]. rewrite Hm, El. reflexivity.
  - eapply G; [intros m1 Em; apply (IH m1 r m'); rewrite Em; exact H|].
    intros c Hm Hp h. cbn [ustep uc uhist]. rewrite Hp. cbn [cstep]. rewrite Hp. cbn [prog_step]. rewrite Hm. reflexivity.
  - eapply G; [intros m1 Em; apply (IH m1 r m'); rewrite Em; exact H|].
    intros c Hm Hp h. cbn [ustep uc uhist]. rewrite Hp. cbn [cstep]. rewrite Hp. cbn [prog_step]. rewrite Hm. reflexivity.
Qed.

(** [calls_run en m K m']: called one after the other, the calls of [K] return what [K] says. *)
Inductive calls_run (en : endian) : mem -> list (call * Z) -> mem -> Prop :=
| cr_nil m : calls_run en m [] m
| cr_cons m k o r m1 K m' : call_op en k = Ok o -> run (op_prog o) m = (Ok r, m1) -> calls_run en m1 K m' -> calls_run en m ((k, r) :: K) m'.

Lemma solo_calls en m K m' : calls_run en m K m' -> forall c h, cmem c = m -> all_idle c ->
  exists acts, (forall tid k, In (UCall tid k) acts -> In k (map fst K)) /\
    let c' := urun en acts (mkU c h) in
    cmem (uc c') = m' /\ all_idle (uc c') /\ uhist c' = h ++ flat_map (fun x => [UInv 0 (fst x); URet 0 (snd x)]) K.
Proof.
  induction 1 as [m|m k o r m1 K m' Ho Hr _ IH]; intros c h Hm Hi.
  - exists []. split; [intros ? ? []|]. cbn [urun fold_left uc uhist flat_map]. rewrite app_nil_r. split; [exact Hm|]. split; [exact Hi|reflexivity].
  - destruct (solo_prog en _ _ _ _ Hr) as (n & Hn).
    set (c1 := mkConf (cmem c) (set_thr (thr c) 0 (Some (op_prog o))) (hist c ++ [HInv 0 o])).
    assert (E1 : ustep en (mkU c h) (UCall 0 k) = mkU c1 (h ++ [UInv 0 k])).
    { cbn [ustep uc uhist]. rewrite (Hi 0), Ho. cbn [cstep]. rewrite (Hi 0). reflexivity. }
    destruct (Hn c1 (h ++ [UInv 0 k])) as (A1 & A2 & A3 & A4); [exact Hm|reflexivity|].
    set (c2 := urun en (repeat (UTick 0) n) (mkU c1 (h ++ [UInv 0 k]))) in *.
    destruct (IH (uc c2) (uhist c2) A1) as (acts & B1 & B2 & B3 & B4).
    { intros x. destruct (Z.eq_dec x 0) as [->|Hx]; [exact A2|]. rewrite A4 by exact Hx. cbn [c1 thr]. unfold set_thr. destruct (Z.eqb_spec x 0); [congruence|apply Hi]. }
    exists (UCall 0 k :: repeat (UTick 0) n ++ acts).
    assert (E : urun en (UCall 0 k :: repeat (UTick 0) n ++ acts) (mkU c h) = urun en acts (mkU (uc c2) (uhist c2))).
    { unfold urun. cbn [fold_left]. rewrite E1, fold_left_app. change (fold_left (ustep en) (repeat (UTick 0) n) (mkU c1 (h ++ [UInv 0 k]))) with c2.
      destruct c2; reflexivity. }
    cbv zeta. rewrite E. split.
    { intros tid k' [X|X]; [injection X as _ <-; left; reflexivity|]. right. apply in_app_or in X. destruct X as [X|X]; [apply repeat_spec in X; discriminate X|]. eapply B1, X. }
    split; [exact B2|]. split; [exact B3|]. rewrite B4, A3. cbn [flat_map fst snd]. rewrite <- !app_assoc. reflexivity.
Qed.

(** A concrete crash.  A composite string (at 16) refers to the virtual id 5, "a" is at 26, a string of
    393400 letters at 28, to which the id 5 is mapped.  All calls have returned, the event and the
    index sink have been dropped, the end of the long string is still in memory. *)
Definition letters (n : Z) : bytes := repeat 98 (Z.to_nat n).
Lemma letters_app a b : 0 <= a -> 0 <= b -> letters (a + b) = letters a ++ letters b.
Proof. intros Ha Hb. unfold letters. rewrite Z2Nat.inj_add by lia. apply repeat_app. Qed.
Lemma zlen_letters n : 0 <= n -> zlen (letters n) = n.
Proof. intros Hn. unfold zlen, letters. rewrite repeat_length. lia. Qed.
Definition ex_id (addr : Z) : Z := addr + 100000003.
Definition ex_calls (long : bytes) : list (call * Z) :=
  [(KAlloc (SComps [CRef 5]), 16); (KAlloc (SStr [97]), 26); (KAlloc (SStr long), 28); (KMap 5 (ex_id 28), 24);
   (KInstant (ex_id 26) (ex_id 26) 1 7, 8); (KInstant (ex_id 26) (ex_id 16) 1 8, 40); (KInstant (ex_id 26) (ex_id 28) 1 9, 72)].
Definition ex_parse (t : bytes) : res metadata := if beq t ex_md then Ok (mkMd 1000 1 []) else Err.

Section Crash.
(** The long string is [p1 ++ p2 ++ p3]; only the lengths matter, and that it has no byte 254 or 255. *)
Variables p1 p2 p3 : bytes.
Hypothesis H1 : zlen p1 = 131044.
Hypothesis H2 : zlen p2 = 262144.
Hypothesis H3 : zlen p3 = 212.
Hypothesis Hb : Forall (fun z => z = 98) (p1 ++ p2).

(** The memory before the long string is allocated. *)
Definition ex_mem2 : mem := snd (run_ops [alloc_op (SComps [CRef 5]); alloc_op (SStr [97])] (cmem (start_conf ex_md))).
Definition ex_b28 : bytes := sbuf (tm_sd (sinks ex_mem2)).
Definition ex_head (t : tag) : bytes := sbuf (tget t (sinks ex_mem2)).
Definition ex_mem3 : mem :=
  mkMem (enc_pages [(TStrData, ex_b28 ++ p1); (TStrData, p2)]) (TM (mkSink (ex_head TEvents) 8) (mkSink (p3 ++ [255]) (28 + 393401)) (mkSink (ex_head TStrIndex) 24)) (tconst None) None.

Lemma ex_run3 : run (op_prog (alloc_op (SStr (p1 ++ p2 ++ p3)))) ex_mem2 = (Ok 28, ex_mem3).
Proof using H1 H2 H3.
  set (long := p1 ++ p2 ++ p3). pose proof (alloc_op_ok (SStr long)) as Hok. pose proof (alloc_op_data (SStr long)) as Hda.
  unfold alloc_op in *. cbn [op_ok op_data op_prog] in *. destruct Hok as (_ & K2 & K3). rewrite Hda in K2.
  assert (El : zlen (enc (SStr long)) = 393401).
  { cbn [enc]. unfold long. rewrite !zlen_app, H1, H2, H3. reflexivity. }
  rewrite El in K2. rewrite <- K2 in *. unfold write_atomic. change (MAX_PAGE_SIZE <? 393401) with true. cbv iota.
  destruct (serialize_callback (SStr long) (zeros 393401)) as [bs pk]. cbn [fst snd] in *. subst bs pk.
  assert (Ee : enc (SStr long) = p1 ++ p2 ++ (p3 ++ [255])) by (cbn [enc]; unfold long; rewrite <- !app_assoc; reflexivity).
  unfold write_bytes_large. cbn [run].
  assert (Es : tget TStrData (slk ex_mem2) = None) by (vm_compute; reflexivity). rewrite Es. cbv zeta.
  assert (Eb : tget TStrData (sinks ex_mem2) = mkSink ex_b28 28) by (vm_compute; reflexivity). rewrite Eb. cbn [sbuf saddr].
  assert (L28 : zlen ex_b28 = 28) by (vm_compute; reflexivity). rewrite L28, El.
  change (if 28 <? MIN_PAGE_SIZE then Z.min (MIN_PAGE_SIZE - 28) 393401 else 0) with 131044. rewrite Ee.
  rewrite ztake_app_eq, zdrop_app_eq by (symmetry; exact H1).
  assert (Lr : zlen (p2 ++ p3 ++ [255]) = 262357) by (rewrite !zlen_app, H2, H3; reflexivity). rewrite Lr. change (262357 =? 0) with false. cbv iota.
  assert (Ec : chunks MAX_PAGE_SIZE (p2 ++ p3 ++ [255]) = [p2; p3 ++ [255]]).
  { unfold chunks. assert (Hn : exists n, length (p2 ++ p3 ++ [255%Z]) = S (S (S n))).
    { exists (length (p2 ++ p3 ++ [255%Z]) - 3)%nat. unfold zlen in Lr. lia. }
    destruct Hn as (n & ->). cbn [chunks_fuel]. destruct (p2 ++ p3 ++ [255]) as [|z l] eqn:E; [discriminate Lr|]. rewrite <- E.
    rewrite ztake_app_eq, zdrop_app_eq by (symmetry; exact H2). destruct (p3 ++ [255]) as [|z' l'] eqn:E'; [destruct p3; discriminate E'|]. rewrite <- E'.
    assert (L3 : zlen (p3 ++ [255]) = 213) by (rewrite zlen_app, H3; reflexivity).
    rewrite ztake_all by (rewrite L3; vm_compute; congruence).
    replace (zdrop MAX_PAGE_SIZE (p3 ++ [255])) with (@nil Z); [destruct n; reflexivity|]. symmetry. unfold zdrop. apply skipn_all2.
    unfold zlen in L3. assert (Hl : length (p3 ++ [255%Z]) = 213%nat) by lia. rewrite Hl. apply Nat2Z.inj_le. rewrite Z2Nat.id by (vm_compute; congruence). vm_compute. congruence. }
  rewrite Ec. unfold flush, write_page.
  assert (L1 : zlen (ex_b28 ++ p1) = 131072) by (rewrite zlen_app, L28, H1; reflexivity). rewrite L1.
  change (0 <? 131072) with true. change (131072 <=? MAX_PAGE_SIZE) with true. cbv iota. cbn [write_chunks]. unfold write_page.
  assert (L3 : zlen (p3 ++ [255]) = 213) by (rewrite zlen_app, H3; reflexivity).
  rewrite H2, L3. change (262144 =? MAX_PAGE_SIZE) with true. change (213 =? MAX_PAGE_SIZE) with false. change (MIN_PAGE_SIZE <=? 213) with false.
  change (0 <? 262144) with true. change (262144 <=? MAX_PAGE_SIZE) with true. change (zlen (@nil Z) =? 0) with true. cbv iota.
  cbn [run shl disk sinks slk].
  assert (Esh : shl ex_mem2 = None) by (vm_compute; reflexivity). rewrite Esh. cbn [run shl disk sinks slk app]. f_equal.
  unfold ex_mem3. assert (E0 : ex_mem2 = mkMem [] (TM (mkSink (ex_head TEvents) 8) (mkSink ex_b28 28) (mkSink (ex_head TStrIndex) 24)) (tconst None) None) by (vm_compute; reflexivity).
  rewrite E0. cbn [disk sinks slk shl tset tm_ev tm_sd tm_si app tconst]. f_equal.
  unfold enc_pages. cbn [map concat]. unfold enc_page. cbn [fst snd]. rewrite L1, H2, app_nil_r. cbn [app]. rewrite <- !app_assoc. reflexivity.
Qed.

(** What the three events and the mapping add. *)
Definition ex_rest : list (call * Z) := skipn 3 (ex_calls []).
Definition ex_ev : bytes := sbuf (tm_ev (sinks (snd (run_ops (map (fun k => match call_op LittleEndian (fst k) with Ok o => o | _ => ODrop TEvents end) ex_rest) ex_mem2)))).
Definition ex_ix : bytes := sbuf (tm_si (sinks (snd (run_ops (map (fun k => match call_op LittleEndian (fst k) with Ok o => o | _ => ODrop TEvents end) ex_rest) ex_mem2)))).
Definition ex_mem7 : mem := mkMem (disk ex_mem3) (TM (mkSink ex_ev 104) (tm_sd (sinks ex_mem3)) (mkSink ex_ix 40)) (tconst None) None.

Lemma ex_calls_run : calls_run LittleEndian (cmem (start_conf ex_md)) (ex_calls (p1 ++ p2 ++ p3)) ex_mem7.
Proof using H1 H2 H3.
  unfold ex_calls. eapply cr_cons; [reflexivity|vm_compute; reflexivity|]. eapply cr_cons; [reflexivity|vm_compute; reflexivity|].
  eapply cr_cons; [reflexivity| |].
  { match goal with |- run _ ?m = _ => replace m with ex_mem2 by (vm_compute; reflexivity) end. apply ex_run3. }
  unfold ex_mem7, ex_mem3. generalize (enc_pages [(TStrData, ex_b28 ++ p1); (TStrData, p2)]). intros D. cbn [tm_sd sinks disk]. generalize (mkSink (p3 ++ [255]) (28 + 393401)). intros s.
  eapply cr_cons; [reflexivity|vm_compute; reflexivity|]. eapply cr_cons; [reflexivity|vm_compute; reflexivity|].
  eapply cr_cons; [reflexivity|vm_compute; reflexivity|]. eapply cr_cons; [reflexivity|vm_compute; reflexivity|].
  match goal with |- calls_run _ ?a _ ?b => replace b with a by (vm_compute; reflexivity) end. constructor.
Qed.

Definition ex_drops : list op := [ODrop TEvents; ODrop TStrIndex].
Definition ex_pages : list page := [(TStrData, ex_b28 ++ p1); (TStrData, p2); (TEvents, ex_ev); (TStrIndex, ex_ix)].
Lemma ex_dropped : disk (snd (run_ops ex_drops ex_mem7)) = enc_pages ex_pages.
Proof using.
  unfold ex_mem7, ex_mem3, ex_pages. cbn [tm_sd sinks disk].
  assert (E : enc_pages [(TStrData, ex_b28 ++ p1); (TStrData, p2); (TEvents, ex_ev); (TStrIndex, ex_ix)] =
    enc_pages [(TStrData, ex_b28 ++ p1); (TStrData, p2)] ++ enc_pages [(TEvents, ex_ev); (TStrIndex, ex_ix)]).
  { unfold enc_pages. rewrite <- concat_app, <- map_app. reflexivity. }
  rewrite E. clear E.
  generalize (enc_pages [(TStrData, ex_b28 ++ p1); (TStrData, p2)]). intros D. generalize (mkSink (p3 ++ [255]) (28 + 393401)). intros s.
  assert (F : forall s, exists a b c d e f, disk (snd (run_ops ex_drops (mkMem D (TM (mkSink ex_ev 104) s (mkSink ex_ix 40)) (tconst None) None))) = (((((D ++ a) ++ b) ++ c) ++ d) ++ e) ++ f /\
     a ++ b ++ c ++ d ++ e ++ f = enc_pages [(TEvents, ex_ev); (TStrIndex, ex_ix)]).
  { intros s'. exists [0], (le_bytes 4 (zlen ex_ev)), ex_ev, [2], (le_bytes 4 (zlen ex_ix)), ex_ix. split; [|vm_compute; reflexivity].
    unfold ex_drops. cbn [run_ops op_prog]. unfold drop_sink, flush, write_page. cbn [run slk tget tconst tm_ev tm_sd tm_si sinks sbuf].
    change (0 <? zlen ex_ev) with true. change (zlen ex_ev <=? MAX_PAGE_SIZE) with true. change (0 <? zlen ex_ix) with true. change (zlen ex_ix <=? MAX_PAGE_SIZE) with true.
    cbv iota. reflexivity. }
  destruct (F s) as (a & b & c & d & e & f & -> & F2). rewrite <- F2, <- !app_assoc. reflexivity.
Qed.

(** The long string begins at 28 and nothing after it ends. *)
Definition ex_sd : bytes := ex_b28 ++ p1 ++ p2.
Definition ex_index : list (Z * Z) := match string_table_new ex_b28 ex_ix with Ok t => index t | _ => [] end.
Definition ex_decoder : decoder := mkDecoder ex_ev (mkTable ex_sd ex_index) (mkMd 1000 1 []).

Lemma ex_endless a b y : Forall (fun z => z = 98) y -> a <> 98 -> b <> 98 -> memchr2 a b y = None.
Proof using.
  intros Hy Ha Hb'. induction Hy as [|z y Hz _ IH]; [reflexivity|]. cbn [memchr2]. subst z.
  destruct (Z.eqb_spec 98 a); [congruence|]. destruct (Z.eqb_spec 98 b); [congruence|]. cbn [orb]. rewrite IH. reflexivity.
Qed.
Lemma ex_sd_len : zlen ex_sd = 393216.
Proof using H1 H2. unfold ex_sd. rewrite !zlen_app, H1, H2. reflexivity. Qed.

Definition ex_b27 : bytes := removelast ex_b28.
Lemma ex_longer : mkTable ex_sd ex_index = mkTable ((ex_b27 ++ [255]) ++ p1 ++ p2) ex_index.
Proof using. reflexivity. Qed.
Lemma ex_text id s : to_string 10 (mkTable (ex_b27 ++ [255]) ex_index) id = Ok s -> to_string 10 (mkTable ex_sd ex_index) id = Ok s.
Proof using. intros H. rewrite ex_longer. apply long_to_string. exact H. Qed.

Lemma ex_opens : decoder_new ex_parse 10 (file_of (enc_pages ex_pages)) = Ok ex_decoder.
Proof using H1 H2 H3.
  unfold decoder_new, file_of. change (concat (header_writes FILE_MAGIC_TOP_LEVEL)) with (hdr FILE_MAGIC_TOP_LEVEL).
  rewrite verify_hdr by reflexivity. cbn [bind]. change FILE_HEADER_SIZE with 8. rewrite zdrop_app_eq by reflexivity.
  rewrite split_pages.
  2: { assert (L : zlen (ex_b28 ++ p1) = 131072) by (rewrite zlen_app, H1; reflexivity). unfold ex_pages, page_wf.
       repeat constructor; cbn [snd]; rewrite ?L, ?H2; vm_compute; reflexivity. }
  cbn [bind]. unfold streams_of, ex_pages. cbn [stream tag_eqb app tget tm_sd tm_si tm_ev]. rewrite !app_nil_r.
  assert (E : present ((ex_b28 ++ p1) ++ p2) = Some ex_sd).
  { unfold ex_sd. rewrite <- app_assoc. generalize (p1 ++ p2). intros y. vm_compute. reflexivity. }
  rewrite E. change (present ex_ix) with (Some ex_ix). change (present ex_ev) with (Some ex_ev). cbn [ok_or_err bind].
  unfold from_separate_buffers. replace (verify_file_header ex_ev FILE_MAGIC_EVENT_STREAM) with (Ok tt : res unit) by (vm_compute; reflexivity). cbn [bind].
  assert (Et : string_table_new ex_sd ex_ix = Ok (mkTable ex_sd ex_index)).
  { assert (Eh : exists r, ex_b28 = hdr FILE_MAGIC_STRINGTABLE_DATA ++ r) by (eexists; vm_compute; reflexivity). destruct Eh as (r & Eh).
    unfold string_table_new. unfold ex_sd at 1. rewrite Eh at 1. rewrite <- app_assoc, verify_hdr by reflexivity. cbn [bind].
    generalize ex_sd. intros sd. vm_compute. reflexivity. }
  rewrite Et. cbn [bind]. unfold metadata_string. rewrite (ex_text _ ex_md) by (vm_compute; reflexivity). cbn [bind]. vm_compute. reflexivity.
Qed.

Lemma ex_event0 : decode_full_event 10 BigEndian ex_decoder 0 = Ok (mkEv [97] [97] [] (Timestamp (Instant 1007)) 1).
Proof using H1 H2.
  unfold decode_full_event, ex_decoder. cbn [stringtable d_metadata].
  assert (E : forall t, exists re, raw_at BigEndian (mkDecoder ex_ev t (mkMd 1000 1 [])) 0 = Ok re /\ event_id re = ex_id 26 /\ event_kind re = ex_id 26 /\
    payload_from_raw_event re 1000 = Ok (Timestamp (Instant 1007)) /\ thread_id re = 1).
  { intros t. eexists. split; [vm_compute; reflexivity|]. split; [reflexivity|]. split; [reflexivity|]. split; vm_compute; reflexivity. }
  destruct (E (mkTable ex_sd ex_index)) as (re & E1 & E2 & E3 & E4 & E5). rewrite E1. cbn [bind md_start_time]. rewrite E4, E2, E3, E5. cbn [bind].
  rewrite (ex_text _ [97]) by (vm_compute; reflexivity). cbn [bind]. reflexivity.
Qed.

Lemma ex_text16 : to_string 10 (mkTable ex_sd ex_index) (ex_id 16) = Ok INVALID_STRING.
Proof using H1 H2 Hb.
  assert (Hy : exists y, p1 ++ p2 = 98 :: y) by (destruct (p1 ++ p2) as [|z y] eqn:E; [apply app_eq_nil in E; destruct E as [E _]; rewrite E in H1; discriminate H1|inversion Hb; subst; eauto]).
  assert (Eq16 : exists l, ex_b28 = l ++ [254; 5; 0; 0; 0; 0; 0; 0; 0; 255; 97; 255] /\ zlen l = 16) by (exists (firstn 16 ex_b28); split; vm_compute; reflexivity).
  assert (Ea : get_addr (mkTable ex_sd ex_index) (ex_id 16) = Ok 16) by reflexivity.
  assert (Ea5 : get_addr (mkTable ex_sd ex_index) 5 = Ok 28) by (unfold get_addr; generalize ex_sd; intros; vm_compute; reflexivity).
  assert (D16 : zdrop 16 ex_sd = [254; 5; 0; 0; 0; 0; 0; 0; 0; 255; 97; 255] ++ p1 ++ p2).
  { destruct Eq16 as (l & E & El). unfold ex_sd. rewrite E, <- app_assoc. apply zdrop_app_eq. symmetry. exact El. }
  assert (N16 : znth 16 ex_sd = Some 254) by (unfold ex_sd; generalize (p1 ++ p2); intros; vm_compute; reflexivity).
  assert (N25 : znth 25 ex_sd = Some 255) by (unfold ex_sd; generalize (p1 ++ p2); intros; vm_compute; reflexivity).
  assert (N28 : znth 28 ex_sd = Some 98) by (destruct Hy as (y & Ey); unfold ex_sd; rewrite Ey; vm_compute; reflexivity).
  assert (D28 : zdrop 28 ex_sd = p1 ++ p2) by (unfold ex_sd; apply zdrop_app_eq; reflexivity).
  assert (W : write_to_string 9 (mkTable ex_sd ex_index) (ex_id 16) = Ok INVALID_STRING).
  { cbn [write_to_string]. rewrite Ea. cbn [write_loop string_data]. rewrite N16, D16.
    change (254 =? TERMINATOR) with false. change (254 =? STRING_REF_TAG) with true. cbv iota.
    assert (Er : decode_string_ref_from_data ([254; 5; 0; 0; 0; 0; 0; 0; 0; 255; 97; 255] ++ p1 ++ p2) = Ok 5).
    { cbn [decode_string_ref_from_data app]. change (254 =? STRING_REF_TAG) with true. cbv iota.
      assert (Hl : 9 <=? zlen (254 :: 5 :: 0 :: 0 :: 0 :: 0 :: 0 :: 0 :: 0 :: 255 :: 97 :: 255 :: p1 ++ p2) = true).
      { apply Z.leb_le. change (254 :: 5 :: 0 :: 0 :: 0 :: 0 :: 0 :: 0 :: 0 :: 255 :: 97 :: 255 :: p1 ++ p2) with ([254; 5; 0; 0; 0; 0; 0; 0; 0; 255; 97; 255] ++ p1 ++ p2).
        rewrite zlen_app. pose proof (zlen_nonneg (p1 ++ p2)). change (zlen [254; 5; 0; 0; 0; 0; 0; 0; 0; 255; 97; 255]) with 12. lia. }
      rewrite Hl. generalize (p1 ++ p2). intros. vm_compute. reflexivity. }
    rewrite Er. cbn [bind write_to_string]. rewrite Ea5. cbn [write_loop string_data]. rewrite N28, D28.
    change (98 =? TERMINATOR) with false. change (98 =? STRING_REF_TAG) with false. cbv iota zeta.
    rewrite (ex_endless 255 254) by (auto; lia). cbn [bind]. change (16 + STRING_REF_ENCODED_SIZE) with 25. rewrite N25.
    change (255 =? TERMINATOR) with true. cbv iota. cbn [bind]. reflexivity. }
  cbn [to_string]. rewrite Ea. cbn [string_data]. rewrite ex_sd_len. change (393216 <? 16) with false. cbv iota zeta. rewrite D16, N16.
  assert (Em : memchr TERMINATOR ([254; 5; 0; 0; 0; 0; 0; 0; 0; 255; 97; 255] ++ p1 ++ p2) = Some 9) by (generalize (p1 ++ p2); intros; vm_compute; reflexivity).
  rewrite Em. change ((254 =? STRING_REF_TAG) && (9 =? 16 + STRING_REF_ENCODED_SIZE)) with false. cbv iota.
  assert (Eu : utf8_valid (ztake 9 ([254; 5; 0; 0; 0; 0; 0; 0; 0; 255; 97; 255] ++ p1 ++ p2)) = false) by (generalize (p1 ++ p2); intros; vm_compute; reflexivity).
  rewrite Eu. exact W.
Qed.

Lemma ex_event1 : decode_full_event 10 BigEndian ex_decoder 1 = Ok (mkEv [97] INVALID_STRING [] (Timestamp (Instant 1008)) 1).
Proof using H1 H2 Hb.
  unfold decode_full_event, ex_decoder. cbn [stringtable d_metadata].
  assert (E : forall t, exists re, raw_at BigEndian (mkDecoder ex_ev t (mkMd 1000 1 [])) 1 = Ok re /\ event_id re = ex_id 16 /\ event_kind re = ex_id 26 /\
    payload_from_raw_event re 1000 = Ok (Timestamp (Instant 1008)) /\ thread_id re = 1).
  { intros t. eexists. split; [vm_compute; reflexivity|]. split; [reflexivity|]. split; [reflexivity|]. split; vm_compute; reflexivity. }
  destruct (E (mkTable ex_sd ex_index)) as (re & E1 & E2 & E3 & E4 & E5). rewrite E1. cbn [bind md_start_time]. rewrite E4, E2, E3, E5. cbn [bind].
  rewrite ex_text16. cbn [bind]. rewrite (ex_text _ [97]) by (vm_compute; reflexivity). vm_compute. reflexivity.
Qed.

Lemma ex_event2 : decode_full_event 10 BigEndian ex_decoder 2 = Panic.
Proof using H1 H2 Hb.
  unfold decode_full_event, ex_decoder. cbn [stringtable d_metadata].
  assert (E : forall t, exists re, raw_at BigEndian (mkDecoder ex_ev t (mkMd 1000 1 [])) 2 = Ok re /\ event_id re = ex_id 28 /\
    payload_from_raw_event re 1000 = Ok (Timestamp (Instant 1009))).
  { intros t. eexists. split; [vm_compute; reflexivity|]. split; [reflexivity|]. vm_compute; reflexivity. }
  destruct (E (mkTable ex_sd ex_index)) as (re & E1 & E2 & E4). rewrite E1. cbn [bind md_start_time]. rewrite E4, E2. cbn [bind].
  assert (D28 : zdrop 28 ex_sd = p1 ++ p2) by (unfold ex_sd; apply zdrop_app_eq; reflexivity).
  cbn [to_string]. change (get_addr (mkTable ex_sd ex_index) (ex_id 28)) with (Ok 28 : res Z). cbn [string_data]. rewrite ex_sd_len.
  change (393216 <? 28) with false. cbv iota zeta. rewrite D28. unfold memchr. rewrite (ex_endless TERMINATOR TERMINATOR) by (auto; vm_compute; congruence). reflexivity.
Qed.
End Crash.

Lemma letters_all n : Forall (fun z => z = 98) (letters n).
Proof. apply Forall_forall. intros z Hz. unfold letters in Hz. apply repeat_spec in Hz. exact Hz. Qed.
Lemma letters_utf8 n : utf8 (letters n).
Proof. apply utf8_ascii_list. eapply Forall_impl; [|apply letters_all]. cbv beta. intros z ->. lia. Qed.

(** The same is not true of a composite string that is wholly in the file but refers, through a mapping,
    to a string that is not: such an event is shown with the text "<invalid>", which nobody recorded.
    (Event 0 is read rightly, event 2 names the lost string and makes the reader panic.) *)
Theorem C87_invalid_refuted :
  exists acts file d, started ex_md 8 (start_conf ex_md) /\ ucalls_ok acts /\
    uhist (urun LittleEndian acts (mkU (start_conf ex_md) [])) = flat_map (fun x => [UInv 0 (fst x); URet 0 (snd x)]) (ex_calls (letters 393400)) /\
    left_behind LittleEndian (start_conf ex_md) acts file /\
    (forall m, ex_parse unknown_text <> Ok m) /\ decoder_new ex_parse 10 file = Ok d /\
    decode_full_event 10 BigEndian d 0 = Ok (mkEv [97] [97] [] (Timestamp (Instant 1007)) 1) /\
    decode_full_event 10 BigEndian d 1 = Ok (mkEv [97] [60; 105; 110; 118; 97; 108; 105; 100; 62] [] (Timestamp (Instant 1008)) 1) /\
    decode_full_event 10 BigEndian d 2 = Panic.
Proof.
  assert (L1 : zlen (letters 131044) = 131044) by (apply zlen_letters; lia).
  assert (L2 : zlen (letters 262144) = 262144) by (apply zlen_letters; lia).
  assert (L3 : zlen (letters 212) = 212) by (apply zlen_letters; lia).
  assert (EL : letters 393400 = letters 131044 ++ letters 262144 ++ letters 212).
  { change 393400 with (131044 + (262144 + 212)). rewrite !letters_app by lia. reflexivity. }
  assert (HL : Forall (fun z => z = 98) (letters 131044 ++ letters 262144)) by (apply Forall_app; split; apply letters_all).
  pose proof (letters_utf8 393400) as HU. rewrite EL in *. clear EL. generalize dependent (letters 212). generalize dependent (letters 262144). generalize dependent (letters 131044).
  intros p1 L1 p2 L2 HL p3 L3 HU.
  pose proof ex_started as (a0 & t0 & H0 & o2 & r2 & E0 & Hidle & _). 
  destruct (solo_calls _ _ _ _ (ex_calls_run p1 p2 p3 L1 L2 L3) (start_conf ex_md) [] eq_refl Hidle) as (acts & A1 & A2 & A3 & A4).
  exists acts, (file_of (enc_pages (ex_pages p1 p2))), (ex_decoder p1 p2).
  split; [exact ex_started|]. split.
  { intros tid k Hin. apply A1 in Hin. assert (I : forall z, 0 <= z < 1000000000 -> is_u64 z) by (intros z Hz; unfold is_u64; lia).
    assert (T : is_u32 1) by (unfold is_u32; lia).
    cbn [ex_calls map fst In] in Hin. unfold ex_id in Hin. destruct Hin as [<-|[<-|[<-|[<-|[<-|[<-|[<-|[]]]]]]]]; cbn [call_ok sstring_ok].
    - constructor; [|constructor]. cbn [comp_ok]. apply I. lia.
    - apply utf8_ascii_list. constructor; [lia|constructor].
    - exact HU.
    - split; apply I; lia.
    - split; [apply I; lia|]. split; [apply I; lia|]. split; [exact T|apply I; lia].
    - split; [apply I; lia|]. split; [apply I; lia|]. split; [exact T|apply I; lia].
    - split; [apply I; lia|]. split; [apply I; lia|]. split; [exact T|apply I; lia]. }
  split; [exact A4|]. split.
  { apply (lb_dropping _ _ _ _ ex_drops); [exact A3|repeat constructor; eexists; reflexivity|].
    rewrite A2. rewrite (ex_dropped p1 p2 p3). exists []. rewrite app_nil_r. reflexivity. }
  split; [intros m Hm; vm_compute in Hm; discriminate Hm|]. split; [apply (ex_opens p1 p2 p3); assumption|].
  split; [apply (ex_event0 p1 p2); assumption|]. split; [apply (ex_event1 p1 p2); assumption|apply (ex_event2 p1 p2); assumption].
Qed.
Print Assumptions C87_invalid_refuted.
