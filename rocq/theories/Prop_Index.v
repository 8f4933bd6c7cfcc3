(** C76: the full event for an index.  Model M_Index.v. *)
From Coq Require Import String ZArith List Lia Bool.
From Verif Require Import M_Base F_Base M_Map M_Raw M_Header M_V8 M_StrTable M_EventId M_Session M_Iter M_Run M_Index Prop_Needed M_Sink M_Builder Prop_Builder.
Import ListNotations.
Open Scope Z_scope.

Lemma Ok_inj {A} (a b : A) : Ok a = Ok b -> a = b.
Proof. congruence. Qed.
Definition U59 : Z := 576460752303423488.
Lemma addr_small oc i : 0 <= i < U59 -> index_to_addr oc i = Ok (8 + 32 * i).
Proof.
  unfold U59. intros H. unfold index_to_addr, usize_mul. change RAW_EVENT_SIZE with 32. change FILE_HEADER_SIZE with 8. unfold u64_add, U64.
  replace (i * 32 <? _) with true by (symmetry; apply Z.ltb_lt; lia). cbn [bind]. replace (8 + i * 32 <? _) with true by (symmetry; apply Z.ltb_lt; lia). f_equal. lia.
Qed.
Lemma addr_large i : U59 <= i -> index_to_addr true i = Panic.
Proof.
  unfold U59. intros H. unfold index_to_addr, usize_mul. change RAW_EVENT_SIZE with 32. unfold U64. replace (i * 32 <? _) with false by (symmetry; apply Z.ltb_ge; lia). reflexivity.
Qed.
Lemma addr_wraps i : 0 <= i -> index_to_addr false i = Ok (8 + 32 * (i mod U59)).
Proof.
  intros H. pose proof (Z.mod_pos_bound i U59 ltac:(reflexivity)) as B. unfold index_to_addr, usize_mul. change RAW_EVENT_SIZE with 32. change FILE_HEADER_SIZE with 8.
  assert (E : (i * 32) mod U64 = (i mod U59) * 32). { change U64 with (U59 * 32). apply Z.mul_mod_distr_r; [discriminate|lia]. }
  destruct (i * 32 <? U64) eqn:L; cbn [bind].
  - apply Z.ltb_lt in L. rewrite Z.mod_small in E by lia. unfold u64_add. rewrite E. replace (8 + i mod U59 * 32 <? U64) with true; [f_equal; lia|]. symmetry. apply Z.ltb_lt. unfold U59, U64 in *. lia.
  - rewrite E. unfold u64_add. replace (8 + i mod U59 * 32 <? U64) with true; [f_equal; lia|]. symmetry. apply Z.ltb_lt. unfold U59, U64 in *. lia.
Qed.
Lemma raw_event_at_small oc en d i : 0 <= i < U59 -> zlen (event_data d) < 2 ^ 63 -> raw_event_at oc en d i = raw_at en d i.
Proof.
  intros H L. unfold raw_event_at, raw_at. rewrite addr_small by auto. cbn [bind]. unfold event_index_to_addr. change RAW_EVENT_SIZE with 32. change FILE_HEADER_SIZE with 8.
  replace (8 + i * 32) with (8 + 32 * i) by lia. change (2 ^ 63) with 9223372036854775808 in L. unfold U64. destruct (8 + 32 * i + 32 <? 18446744073709551616) eqn:B; cbn [bind]; [reflexivity|].
  apply Z.ltb_ge in B. replace (8 + 32 * i + 32 <=? zlen (event_data d)) with false by (symmetry; apply Z.leb_gt; lia). reflexivity.
Qed.
Lemma raw_event_at_past oc en d i : zlen (event_data d) < 8 + 32 * i + 32 -> index_to_addr oc i = Ok (8 + 32 * i) -> raw_event_at oc en d i = Panic.
Proof.
  intros H E. unfold raw_event_at. rewrite E. cbn [bind]. change RAW_EVENT_SIZE with 32. destruct (8 + 32 * i + 32 <? U64); cbn [bind]; [|reflexivity].
  replace (8 + 32 * i + 32 <=? zlen (event_data d)) with false by (symmetry; apply Z.leb_gt; lia). reflexivity.
Qed.
Lemma full_small oc fuel en d i : 0 <= i < U59 -> zlen (event_data d) < 2 ^ 63 -> full_event_at oc fuel en d i = decode_full_event fuel en d i.
Proof. intros H L. unfold full_event_at, decode_full_event. rewrite raw_event_at_small by auto. reflexivity. Qed.
Lemma light_small oc en d i : 0 <= i < U59 -> zlen (event_data d) < 2 ^ 63 -> lightweight_event_at oc en d i = decode_lightweight_event en d i.
Proof. intros H L. unfold lightweight_event_at, decode_lightweight_event. rewrite raw_event_at_small by auto. reflexivity. Qed.
Lemma built_len pm fuel sd ix ev d : from_separate_buffers pm fuel sd ix ev = Ok d -> event_data d = ev /\ 8 <= zlen ev.
Proof.
  unfold from_separate_buffers, verify_file_header. destruct (zlen ev <? FILE_HEADER_SIZE) eqn:L; [discriminate|]. intros E. split; [|apply Z.ltb_ge in L; exact L]. revert E.
  destruct (beq _ _); [|discriminate]. cbv zeta. destruct (_ =? CURRENT_FILE_FORMAT_VERSION); [|discriminate]. cbn [bind]. destruct (string_table_new sd ix); cbn [bind]; try discriminate. destruct (metadata_string _ _); cbn [bind]; try discriminate.
  destruct (pm _); cbn [bind]; try discriminate. intros E. apply Ok_inj in E. subst d. reflexivity.
Qed.
Lemma collect_same {A} (f g : Z -> res A) m fuel : forall i n, (forall j, i <= j < n -> f j = g j) -> i <= n -> n <= m -> iter_collect f fuel (mkIter i n) = iter_collect g fuel (mkIter i n).
Proof.
  induction fuel as [|fuel IH]; intros i n H L M; cbn [iter_collect]; [reflexivity|]. unfold iter_next. cbn [forward_idx backward_idx]. destruct (i =? n) eqn:E; [reflexivity|]. apply Z.eqb_neq in E.
  rewrite (H i) by lia. destruct (g i); cbn [bind]; try reflexivity. destruct (i + 1 <? _); cbn [bind fst snd]; [|reflexivity]. rewrite IH; [reflexivity| |lia|lia]. intros j Hj. apply H. lia.
Qed.
Lemma collect_indices en d fuel : forall i n l, iter_collect (decode_lightweight_event en d) fuel (mkIter i n) = Ok l -> i <= n -> map lw_index l = map (fun k => i + Z.of_nat k) (seq 0 (length l)) /\ i + zlen l = n.
Proof.
  induction fuel as [|fuel IH]; intros i n l E L; cbn [iter_collect] in E; [discriminate|]. unfold iter_next in E. cbn [forward_idx backward_idx] in E. destruct (i =? n) eqn:Q.
  - cbn [bind fst] in E. apply Ok_inj in E. subst l. apply Z.eqb_eq in Q. split; [reflexivity|]. rewrite zlen_nil. lia.
  - apply Z.eqb_neq in Q. destruct (decode_lightweight_event en d i) as [lw| | |] eqn:D; cbn [bind] in E; try discriminate. destruct (i + 1 <? _); cbn [bind fst snd] in E; [|discriminate].
    destruct (iter_collect _ fuel _) as [r| | |] eqn:C; cbn [bind] in E; try discriminate. apply Ok_inj in E. subst l. destruct (IH _ _ _ C ltac:(lia)) as (I1 & I2). split.
    + cbn [map length seq]. f_equal.
      * unfold decode_lightweight_event in D. destruct (raw_at en d i); cbn [bind] in D; try discriminate. destruct (payload_from_raw_event _ _); cbn [bind] in D; try discriminate. apply Ok_inj in D. subst lw. cbn. lia.
      * rewrite I1, <- seq_shift, map_map. apply map_ext. intros k. lia.
    + rewrite zlen_cons. lia.
Qed.

(** For every profile that can be opened (with event data that fits in memory): going through all events, the arithmetic of indices never matters;
    and asking for the full event of a lightweight event gives, whatever index it has, the event at that index of [iter_full]; for an index that is too large there
    is no event to return and the program panics, if it was compiled with overflow checks.  Without them, that is so if even the
    remainder of the index modulo 2^59 is too large. *)
Theorem C76_by_index : forall pm fuel0 sd ix ev d, from_separate_buffers pm fuel0 sd ix ev = Ok d -> zlen ev < 2 ^ 63 ->
  forall fuel en oc es, iter_full_all oc fuel en d = Ok es ->
    num_events d = Ok (zlen es) /\ zlen es < 2 ^ 58 /\
    (forall oc' i e, nth_error es i = Some e -> forall t p, to_full_event oc' fuel en d (mkLw (Z.of_nat i) t p) = Ok e) /\
    (forall i, zlen es <= i -> forall t p, to_full_event true fuel en d (mkLw i t p) = Panic) /\
    (forall i, 0 <= i -> zlen es <= i mod 2 ^ 59 -> forall t p, to_full_event false fuel en d (mkLw i t p) = Panic).
Proof.
  intros pm fuel0 sd ix ev d B L fuel en oc es E. destruct (built_len _ _ _ _ _ _ B) as (D & L8). assert (L' : zlen (event_data d) < 2 ^ 63) by (rewrite D; exact L).
  change (2 ^ 59) with U59. change (2 ^ 58) with 288230376151711744.
  unfold iter_full_all, iter_all in E. unfold num_events in E |- *. rewrite D in E |- *. change RAW_EVENT_SIZE with 32 in *. change FILE_HEADER_SIZE with 8 in *. change (2 ^ 63) with 9223372036854775808 in L.
  destruct ((zlen ev - 8) mod 32 =? 0) eqn:M; cbn [bind] in E; [|discriminate]. apply Z.eqb_eq in M. set (n := (zlen ev - 8) / 32) in *.
  assert (N : zlen ev = 8 + 32 * n /\ 0 <= n < 288230376151711744) by (unfold n; Z.to_euclidean_division_equations; lia). destruct N as (N1 & N2). clearbody n.
  unfold iter_new in E. rewrite (collect_same _ (decode_lightweight_event en d) n) in E by first [lia | (intros j Hj; apply light_small; (exact L' || (unfold U59; lia)))].
  destruct (iter_collect _ fuel _) as [lws| | |] eqn:C; cbn [bind] in E; try discriminate. apply collect_indices in C; [|lia]. destruct C as (C1 & C2).
  apply mapM_Forall2 in E. assert (LE : length lws = length es) by (revert E; clear; induction 1; cbn; congruence). assert (ZL : zlen lws = zlen es) by (unfold zlen; congruence).
  split; [f_equal; lia|]. split; [lia|]. split; [|split].
  - intros oc' i e Hi t p. unfold to_full_event. cbn [lw_index].
    assert (Hi2 : (i < length es)%nat) by (apply nth_error_Some; congruence).
    destruct (nth_error lws i) as [lw|] eqn:Hl; [|apply nth_error_None in Hl; lia].
    assert (X : lw_index lw = Z.of_nat i).
    { apply (map_nth_error lw_index) in Hl. rewrite C1 in Hl. rewrite (map_nth_error _ i (seq 0 (length lws)) (d := i)) in Hl; [|rewrite nth_error_nth' with (d := O) by (rewrite seq_length; lia); rewrite seq_nth by lia; reflexivity]. injection Hl. lia. }
    assert (F : to_full_event oc fuel en d lw = Ok e).
    { clear - E Hi Hl. revert i Hi Hl. induction E as [|a b lws es H E IH]; intros [|i] Hi Hl; cbn [nth_error] in *; try discriminate; [|eapply IH; eauto]. injection Hi as <-. injection Hl as <-. exact H. }
    unfold to_full_event in F. rewrite X in F. unfold zlen in *. rewrite full_small in F |- * by (try exact L'; unfold U59; lia). exact F.
  - intros i Hi t p. unfold to_full_event, full_event_at. cbn [lw_index]. destruct (Z.lt_ge_cases i U59) as [S|S].
    + rewrite raw_event_at_past; [reflexivity|rewrite D; lia|]. apply addr_small. lia.
    + unfold raw_event_at. rewrite addr_large by exact S. reflexivity.
  - intros i H0 Hi t p. unfold to_full_event, full_event_at. cbn [lw_index]. unfold raw_event_at. rewrite addr_wraps by exact H0. cbn [bind]. change RAW_EVENT_SIZE with 32.
    destruct (_ <? U64); cbn [bind]; [|reflexivity]. replace (_ <=? zlen (event_data d)) with false; [reflexivity|]. symmetry. apply Z.leb_gt. rewrite D. lia.
Qed.
(** Otherwise (a defect: [event_index_to_addr] multiplies without a check) the program returns another event: the one at the remainder. *)
Theorem C76_wraps_refuted : forall pm fuel0 sd ix ev d, from_separate_buffers pm fuel0 sd ix ev = Ok d -> zlen ev < 2 ^ 63 ->
  forall fuel en oc es, iter_full_all oc fuel en d = Ok es ->
    forall i e k t p, nth_error es i = Some e -> 0 <= k < 32 ->
      Z.of_nat i + k * 2 ^ 59 < 2 ^ 64 /\ to_full_event false fuel en d (mkLw (Z.of_nat i + k * 2 ^ 59) t p) = Ok e.
Proof.
  intros pm fuel0 sd ix ev d B L fuel en oc es E i e k t p Hi Hk. destruct (C76_by_index _ _ _ _ _ _ B L _ _ _ _ E) as (_ & NS & C & _). specialize (C false i e Hi t p).
  change (2 ^ 59) with U59. change (2 ^ 58) with 288230376151711744 in NS. change (2 ^ 64) with 18446744073709551616. assert (Hi2 : (i < length es)%nat) by (apply nth_error_Some; congruence). unfold zlen in NS.
  split; [unfold U59; lia|]. rewrite <- C. unfold to_full_event, full_event_at, raw_event_at. cbn [lw_index]. rewrite !addr_wraps by (unfold U59; lia). rewrite Z.mod_add by discriminate. reflexivity.
Qed.
Print Assumptions C76_by_index.
Print Assumptions C76_wraps_refuted.

Lemma built_opened en fuel p d : build_profile en fuel p = Ok d -> exists pm sd ix, from_separate_buffers pm fuel sd ix (event_data d) = Ok d.
Proof.
  unfold build_profile. destruct builder_new; cbn [bind]; try discriminate. destruct (build _ _ _); cbn [bind]; try discriminate. unfold into_profiling_data. destruct (take_bytes TEvents _) as [ev| | |]; cbn [bind]; try discriminate. destruct (take_bytes TStrData _) as [sd| | |]; cbn [bind]; try discriminate. destruct (take_bytes TStrIndex _) as [ix| | |]; cbn [bind]; try discriminate.
  destruct (from_separate_buffers _ _ _ _ _) as [d'| | |] eqn:E; try discriminate. intros H. apply Ok_inj in H. subst d'. pose proof (built_len _ _ _ _ _ _ E) as (L & _). rewrite L. eauto.
Qed.
(** A concrete case: a profile with three events, opened and read; and indices that are too large. *)
Example ex_C76 : exists d es, build_profile LittleEndian 100 ex_prog = Ok d /\ (exists pm sd ix, from_separate_buffers pm 100 sd ix (event_data d) = Ok d) /\ zlen (event_data d) < 2 ^ 63 /\
  iter_full_all false 100 LittleEndian d = Ok es /\ map ev_kind es = [str "Hit"; str "Query"; str "Size"] /\
  (do e <- to_full_event false 100 LittleEndian d (mkLw (2 ^ 59 + 1) 0 (Integer 0)); Ok (ev_kind e)) = Ok (str "Query") /\
  to_full_event true 100 LittleEndian d (mkLw (2 ^ 59 + 1) 0 (Integer 0)) = Panic /\
  to_full_event false 100 LittleEndian d (mkLw 3 0 (Integer 0)) = Panic.
Proof.
  destruct (build_profile LittleEndian 100 ex_prog) as [d| | |] eqn:E; vm_compute in E; try discriminate. eexists d, _. split; [reflexivity|]. split; [apply (built_opened LittleEndian 100 ex_prog); rewrite <- E; vm_compute; reflexivity|].
  apply Ok_inj in E. subst d. split; [vm_compute; reflexivity|]. split; [vm_compute; reflexivity|]. split; [vm_compute; reflexivity|]. split; [vm_compute; reflexivity|]. split; vm_compute; reflexivity.
Qed.
