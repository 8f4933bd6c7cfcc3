(** C31 and C32: profile diffs.  Model M_Diff.v, specification S_Diff.v. *)
From Coq Require Import ZArith List Lia Bool Permutation Sorted String.
From Verif Require Import M_Base F_Base M_Map M_Analysis S_Analysis F_Analysis M_Diff S_Diff F_Diff.
Import ListNotations.
Open Scope Z_scope.

(** What a row has to say about its label. *)
Definition exact_row (base change : list qdata) (r : qdiff) : Prop :=
  let D field := delta q_label field base change (d_label r) in
  as_nanos (d_time r) = D q_time /\ as_nanos (d_self_time r) = D q_self_time /\
  as_nanos (d_blocked r) = D q_blocked /\ as_nanos (d_load r) = D q_load /\ as_nanos (d_hashing r) = D q_hashing /\
  d_misses r = D q_misses /\ d_hits r = D q_hits /\ d_count r = D q_count.

Lemma row_ok oc base change l : Forall row_fits base -> Forall row_fits change ->
  In l (map q_label base ++ map q_label change) ->
  exists r, query_row oc base change l = Ok r /\
    (d_label r = l /\ exact_row base change r /\ sd_duration (d_self_time r) = Z.abs (as_nanos (d_self_time r))).
Proof.
  intros Fb Fc Hin. unfold query_row. rewrite !lookup_entry. cbn [bind].
  unfold exact_row, delta, value.
  destruct (entry q_label base l) as [b|] eqn:Eb; destruct (entry q_label change l) as [c|] eqn:Ec.
  - pose proof (entry_Some _ _ _ _ Eb) as (Ib & Lb). pose proof (entry_Some _ _ _ _ Ec) as (Ic & Lc).
    rewrite Forall_forall in Fb, Fc. destruct (Fb _ Ib) as (B1 & B2 & B3 & B4 & B5 & B6 & B7 & B8).
    destruct (Fc _ Ic) as (C1 & C2 & C3 & C4 & C5 & C6 & C7 & C8).
    unfold qdiff_sub. rewrite !to_i64_id, !i64_sub_ok by auto. cbn [bind].
    eexists. split; [reflexivity|]. cbn [d_label d_time d_self_time d_misses d_hits d_count d_blocked d_load d_hashing].
    rewrite Lc, Eb, Ec. split; auto.
    rewrite (proj1 (sd_sub_ok _ _ C1 B1)), (proj1 (sd_sub_ok _ _ C2 B2)), (proj2 (sd_sub_ok _ _ C2 B2)), (proj1 (sd_sub_ok _ _ C3 B3)),
      (proj1 (sd_sub_ok _ _ C4 B4)), (proj1 (sd_sub_ok _ _ C5 B5)). repeat split.
  - pose proof (entry_Some _ _ _ _ Eb) as (Ib & Lb).
    rewrite Forall_forall in Fb. destruct (Fb _ Ib) as (B1 & B2 & B3 & B4 & B5 & B6 & B7 & B8).
    unfold qdiff_invert. rewrite !to_i64_id, !i64_neg_ok by auto. cbn [bind].
    eexists. split; [reflexivity|]. cbn [d_label d_time d_self_time d_misses d_hits d_count d_blocked d_load d_hashing].
    rewrite Lb, Eb, Ec. unfold as_nanos; cbn [sd_duration sd_is_positive]. unfold dur_fits, num_fits in *. repeat split; lia.
  - pose proof (entry_Some _ _ _ _ Ec) as (Ic & Lc).
    rewrite Forall_forall in Fc. destruct (Fc _ Ic) as (C1 & C2 & C3 & C4 & C5 & C6 & C7 & C8).
    unfold qdiff_as. rewrite !to_i64_id by auto.
    eexists. split; [reflexivity|]. cbn [d_label d_time d_self_time d_misses d_hits d_count d_blocked d_load d_hashing].
    rewrite Lc, Eb, Ec. unfold as_nanos; cbn [sd_duration sd_is_positive sd_from]. unfold dur_fits, num_fits in *. repeat split; lia.
  - apply entry_None in Eb. apply entry_None in Ec. apply in_app_or in Hin. tauto.
Qed.
Lemma art_ok oc base change l : Forall (fun a => num_fits (art_value a)) base -> Forall (fun a => num_fits (art_value a)) change ->
  In l (map art_label base ++ map art_label change) ->
  exists r, artifact_row oc base change l = Ok r /\ (ad_label r = l /\ ad_change r = delta art_label art_value base change (ad_label r)).
Proof.
  intros Fb Fc Hin. unfold artifact_row. rewrite !lookup_entry. cbn [bind]. unfold delta, value.
  rewrite Forall_forall in Fb, Fc.
  destruct (entry art_label base l) as [b|] eqn:Eb; destruct (entry art_label change l) as [c|] eqn:Ec;
    try (pose proof (entry_Some _ _ _ _ Eb) as (Ib & Lb); apply Fb in Ib); try (pose proof (entry_Some _ _ _ _ Ec) as (Ic & Lc); apply Fc in Ic).
  - unfold adiff_sub. rewrite !to_i64_id, i64_sub_ok by auto. cbn [bind]. eexists. split; [reflexivity|].
    cbn [ad_label ad_change]. rewrite Lc, Eb, Ec. auto.
  - unfold adiff_invert. rewrite !to_i64_id, i64_neg_ok by auto. cbn [bind]. eexists. split; [reflexivity|].
    cbn [ad_label ad_change]. rewrite Lb, Eb, Ec. split; auto.
  - unfold adiff_as. rewrite !to_i64_id by auto. eexists. split; [reflexivity|].
    cbn [ad_label ad_change]. rewrite Lc, Eb, Ec. split; auto. lia.
  - apply entry_None in Eb. apply entry_None in Ec. apply in_app_or in Hin. tauto.
Qed.

Lemma rows_labels {B} (lab : B -> bytes) (P : B -> Prop) ls rows : Forall2 (fun l r => lab r = l /\ P r) ls rows -> map lab rows = ls /\ Forall P rows.
Proof. induction 1 as [|l r ls rows (H1 & H2) H IH]; cbn; [auto|]. destruct IH as (-> & IH). rewrite H1. auto. Qed.

(** For every pair of results (with values in range), every iteration order of the label sets and
    either overflow mode the diff is computed; it has one row per label of either side, each row is
    exactly change minus base, the rows come in order of decreasing magnitude of the self time
    change; likewise the artifacts, in order of decreasing change; and the total time is exact. *)
Theorem C31_diff : forall oc order base change,
  (forall k (l : list bytes), Permutation (order k l) l) -> results_fit base -> results_fit change ->
  exists d, calculate_diff oc order base change = Ok d /\
    NoDup (map d_label (dr_query d)) /\
    (forall l, In l (map d_label (dr_query d)) <-> In l (map q_label (query_data base)) \/ In l (map q_label (query_data change))) /\
    Forall (exact_row (query_data base) (query_data change)) (dr_query d) /\
    descending (fun r => Z.abs (as_nanos (d_self_time r))) (dr_query d) /\
    NoDup (map ad_label (dr_artifacts d)) /\
    (forall l, In l (map ad_label (dr_artifacts d)) <-> In l (map art_label (artifact_sizes base)) \/ In l (map art_label (artifact_sizes change))) /\
    Forall (fun a => ad_change a = delta art_label art_value (artifact_sizes base) (artifact_sizes change) (ad_label a)) (dr_artifacts d) /\
    descending ad_change (dr_artifacts d) /\
    as_nanos (dr_total d) = total_time change - total_time base.
Proof.
  intros oc order base change HO (Qb & Ab & Tb) (Qc & Ac & Tc). unfold calculate_diff.
  set (L1 := label_set (map q_label (query_data base) ++ map q_label (query_data change))).
  set (L2 := label_set (map art_label (artifact_sizes base) ++ map art_label (artifact_sizes change))).
  destruct (collectM_ok (query_row oc (query_data base) (query_data change))
     (fun l r => d_label r = l /\ (exact_row (query_data base) (query_data change) r /\ sd_duration (d_self_time r) = Z.abs (as_nanos (d_self_time r)))) (order true L1))
    as (rows & E1 & F1).
  { intros l Hl. apply row_ok; auto. apply (Permutation_in _ (HO true L1)) in Hl. apply (proj1 (label_set_In _ _)). exact Hl. }
  destruct (collectM_ok (artifact_row oc (artifact_sizes base) (artifact_sizes change))
     (fun l r => ad_label r = l /\ ad_change r = delta art_label art_value (artifact_sizes base) (artifact_sizes change) (ad_label r)) (order false L2))
    as (arts & E2 & F2).
  { intros l Hl. apply art_ok; auto. apply (Permutation_in _ (HO false L2)) in Hl. apply (proj1 (label_set_In _ _)). exact Hl. }
  rewrite E1. cbn [bind]. rewrite E2. cbn [bind]. eexists. split; [reflexivity|]. cbn [dr_query dr_artifacts dr_total].
  apply rows_labels in F1. apply rows_labels in F2. destruct F1 as (M1 & F1), F2 as (M2 & F2).
  pose proof (Permutation_map d_label (sort_desc_perm (fun d => sd_duration (d_self_time d)) rows)) as P1.
  pose proof (Permutation_map ad_label (sort_desc_perm ad_change arts)) as P2.
  rewrite M1 in P1. rewrite M2 in P2. rewrite (HO true L1) in P1. rewrite (HO false L2) in P2.
  assert (F1' : Forall (fun r => exact_row (query_data base) (query_data change) r /\ sd_duration (d_self_time r) = Z.abs (as_nanos (d_self_time r)))
            (sort_desc (fun d => sd_duration (d_self_time d)) rows)).
  { eapply Permutation_Forall; [symmetry; apply sort_desc_perm|]. auto. }
  split. { eapply Permutation_NoDup; [symmetry; exact P1|]. apply label_set_NoDup. }
  split. { intros l. rewrite <- in_app_iff. rewrite <- (label_set_In (_ ++ _)). split; intros H; (eapply Permutation_in; [|exact H]); [exact P1|symmetry; exact P1]. }
  split. { eapply Forall_impl; [|exact F1']. cbn. tauto. }
  split. { pose proof (sort_desc_sorted (fun d => sd_duration (d_self_time d)) rows) as S. revert S F1'. clear. unfold descending.
    generalize (sort_desc (fun d => sd_duration (d_self_time d)) rows). clear rows. induction l as [|x l IH]; intros S F; [constructor|].
    inversion S as [|? ? S1 S2]; subst. inversion F as [|? ? F1 F2]; subst. constructor; auto.
    rewrite Forall_forall in *. intros y Hy. specialize (S2 y Hy). specialize (F2 y Hy). cbn in *. lia. }
  split. { eapply Permutation_NoDup; [symmetry; exact P2|]. apply label_set_NoDup. }
  split. { intros l. rewrite <- in_app_iff. rewrite <- (label_set_In (_ ++ _)). split; intros H; (eapply Permutation_in; [|exact H]); [exact P2|symmetry; exact P2]. }
  split. { eapply Permutation_Forall; [symmetry; apply sort_desc_perm|]. auto. }
  split. { apply sort_desc_sorted. }
  apply sd_sub_ok; auto.
Qed.

Lemma delta_swap {A} lab f (base change : list A) l : delta lab f change base l = - delta lab f base change l.
Proof. unfold delta. lia. Qed.
(** Swapping the two profiles negates every field of every row, every artifact change and the total. *)
Theorem C31_antisymmetric : forall oc order order' base change d d',
  (forall k (l : list bytes), Permutation (order k l) l) -> (forall k (l : list bytes), Permutation (order' k l) l) ->
  results_fit base -> results_fit change ->
  calculate_diff oc order base change = Ok d -> calculate_diff oc order' change base = Ok d' ->
  (forall r, In r (dr_query d) -> exists r', In r' (dr_query d') /\ d_label r' = d_label r /\
     as_nanos (d_time r') = - as_nanos (d_time r) /\ as_nanos (d_self_time r') = - as_nanos (d_self_time r) /\
     as_nanos (d_blocked r') = - as_nanos (d_blocked r) /\ as_nanos (d_load r') = - as_nanos (d_load r) /\
     as_nanos (d_hashing r') = - as_nanos (d_hashing r) /\
     d_misses r' = - d_misses r /\ d_hits r' = - d_hits r /\ d_count r' = - d_count r) /\
  (forall a, In a (dr_artifacts d) -> In (mkAD (ad_label a) (- ad_change a)) (dr_artifacts d')) /\
  as_nanos (dr_total d') = - as_nanos (dr_total d).
Proof.
  intros oc order order' base change d d' HO HO' Fb Fc E E'.
  destruct (C31_diff oc order base change HO Fb Fc) as (d1 & E1 & _ & H2 & H3 & _ & _ & H6 & H7 & _ & H9).
  rewrite E in E1. injection E1 as <-.
  destruct (C31_diff oc order' change base HO' Fc Fb) as (d1 & E1 & _ & K2 & K3 & _ & _ & K6 & K7 & _ & K9).
  rewrite E' in E1. injection E1 as <-.
  rewrite Forall_forall in H3, K3, H7, K7.
  split; [|split].
  - intros r Hr. assert (In (d_label r) (map d_label (dr_query d'))) as Hl.
    { apply K2. apply or_comm. apply H2. apply in_map; auto. }
    apply in_map_iff in Hl. destruct Hl as (r' & El & Hr'). exists r'. split; auto. split; auto.
    destruct (H3 _ Hr) as (A1 & A2 & A3 & A4 & A5 & A6 & A7 & A8). destruct (K3 _ Hr') as (B1 & B2 & B3 & B4 & B5 & B6 & B7 & B8).
    rewrite A1, A2, A3, A4, A5, A6, A7, A8, B1, B2, B3, B4, B5, B6, B7, B8, El.
    rewrite !(delta_swap _ _ (query_data base) (query_data change)). repeat split.
  - intros a Ha. assert (In (ad_label a) (map ad_label (dr_artifacts d'))) as Hl.
    { apply K6. apply or_comm. apply H6. apply in_map; auto. }
    apply in_map_iff in Hl. destruct Hl as (a' & El & Ha'). rewrite (H7 _ Ha), <- El.
    replace (- _) with (ad_change a'). { destruct a'; auto. }
    rewrite (K7 _ Ha'). apply delta_swap.
  - lia.
Qed.

(** A case the theorem applies to, with a label on one side only and an unchanged one. *)
Definition ex_base : results := mkRes [mkQ (str "a") 10 5 1 2 3 0 0 0; mkQ (str "b") 100 90 0 0 1 7 0 0] [mkArt (str "obj") 5] 110.
Definition ex_change : results := mkRes [mkQ (str "b") 60 40 0 0 2 0 3 0; mkQ (str "c") 1 1 0 0 1 0 0 0] [mkArt (str "obj") 4; mkArt (str "bin") 9] 61.
Example C31_example : results_fit ex_base /\ results_fit ex_change /\
  exists d, calculate_diff true (fun _ l => l) ex_base ex_change = Ok d /\
    map (fun r => (d_label r, as_nanos (d_self_time r), d_count r)) (dr_query d) = [(str "b", -50, 1); (str "a", -5, -3); (str "c", 1, 1)] /\
    map (fun a => (ad_label a, ad_change a)) (dr_artifacts d) = [(str "bin", 9); (str "obj", -1)] /\ as_nanos (dr_total d) = -49.
Proof.
  assert (T : forall r, forallb (fun q => forallb (fun v => (0 <=? v) && (v <? 2 ^ 62)) [q_time q; q_self_time q; q_blocked q; q_load q; q_hashing q; q_misses q; q_hits q; q_count q]) (query_data r)
     && forallb (fun a => (0 <=? art_value a) && (art_value a <? 2 ^ 62)) (artifact_sizes r) && (0 <=? total_time r) && (total_time r <? 2 ^ 62) = true -> results_fit r).
  { intros r H. rewrite !andb_true_iff, !forallb_forall in H. destruct H as (((H1 & H2) & H3) & H4).
    split; [|split]; [| |unfold dur_fits; lia].
    - apply Forall_forall. intros q Hq. specialize (H1 q Hq). cbn [forallb] in H1. rewrite !andb_true_iff in H1. unfold row_fits, dur_fits, num_fits. lia.
    - apply Forall_forall. intros a Ha. specialize (H2 a Ha). unfold num_fits. lia. }
  split; [|split]. 1,2: apply T; vm_compute; reflexivity.
  destruct (calculate_diff true (fun _ l => l) ex_base ex_change) as [d| | |] eqn:E; vm_compute in E; try discriminate.
  injection E as <-. eexists; split; [reflexivity|]. repeat split.
Qed.

(** * C32: signed durations *)
(** A representable signed duration. *)
Definition sd_fits (a : sdur) : Prop := dur_fits (sd_duration a).
(** Subtraction is exact whenever the result is representable (that is, below 2^64 ns in magnitude),
    in particular whenever both operands have the same sign or are below 2^63 ns. *)
Theorem C32_sub_exact : forall a b, sd_fits a -> sd_fits b -> Z.abs (as_nanos a - as_nanos b) < 2 ^ 64 ->
  as_nanos (sd_sub a b) = as_nanos a - as_nanos b /\ sd_fits (sd_sub a b).
Proof.
  intros a b Ha Hb H. unfold sd_sub. destruct (from_nanos_ok (as_nanos a - as_nanos b)) as (E1 & E2). lia.
  split; auto. unfold sd_fits, dur_fits. rewrite E2. lia.
Qed.
Lemma as_nanos_range a : sd_fits a -> if sd_is_positive a then 0 <= as_nanos a < 2 ^ 64 else - 2 ^ 64 < as_nanos a <= 0.
Proof. unfold sd_fits, dur_fits, as_nanos. destruct (sd_is_positive a); lia. Qed.
Theorem C32_same_sign_exact : forall a b, sd_fits a -> sd_fits b -> sd_is_positive a = sd_is_positive b ->
  as_nanos (sd_sub a b) = as_nanos a - as_nanos b.
Proof.
  intros a b Ha Hb H. apply C32_sub_exact; auto. pose proof (as_nanos_range a Ha) as A. pose proof (as_nanos_range b Hb) as B.
  rewrite H in A. destruct (sd_is_positive b); lia.
Qed.
Theorem C32_halves_exact : forall a b, 0 <= sd_duration a < 2 ^ 63 -> 0 <= sd_duration b < 2 ^ 63 ->
  as_nanos (sd_sub a b) = as_nanos a - as_nanos b.
Proof.
  intros a b Ha Hb. apply C32_sub_exact; unfold sd_fits, dur_fits; try lia.
  unfold as_nanos. destruct (sd_is_positive a), (sd_is_positive b); lia.
Qed.
(** The ordering is the ordering of the signed nanoseconds: a total preorder. *)
Theorem C32_order : forall a b,
  (sd_cmp a b = Lt <-> as_nanos a < as_nanos b) /\ (sd_cmp a b = Gt <-> as_nanos a > as_nanos b) /\ (sd_cmp a b = Eq <-> as_nanos a = as_nanos b).
Proof.
  intros a b. unfold sd_cmp. split; [|split].
  - apply Z.compare_lt_iff.
  - rewrite Z.compare_gt_iff. lia.
  - apply Z.compare_eq_iff.
Qed.
(** Every duration computed by subtraction or conversion is canonical (zero is positive); on
    canonical values equality agrees with the ordering. *)
Definition canonical (a : sdur) : Prop := sd_duration a = 0 -> sd_is_positive a = true.
Theorem C32_results_canonical : (forall d, canonical (sd_from d)) /\
  (forall a b, Z.abs (as_nanos a - as_nanos b) < 2 ^ 64 -> canonical (sd_sub a b)).
Proof.
  split; [intros d H; reflexivity|]. intros a b H. unfold canonical, sd_sub, from_nanos, U64. cbn [sd_duration sd_is_positive].
  rewrite Z.mod_small by lia. intros. apply Z.leb_le. lia.
Qed.
Theorem C32_eq : forall a b, sd_fits a -> sd_fits b -> canonical a -> canonical b -> (sd_eqb a b = true <-> sd_cmp a b = Eq).
Proof.
  intros [da pa] [db pb] Ha Hb Ca Cb. unfold sd_eqb, sd_cmp, canonical, sd_fits, dur_fits, as_nanos in *. cbn [sd_duration sd_is_positive] in *.
  rewrite Z.compare_eq_iff, andb_true_iff, Z.eqb_eq, eqb_true_iff. split.
  - intros (-> & ->). auto.
  - destruct pa, pb; intros; split; try lia; try (assert (db = 0) by lia); try (assert (da = 0) by lia);
      try (specialize (Ca ltac:(lia))); try (specialize (Cb ltac:(lia))); congruence.
Qed.
(** In general equality does not agree with the ordering: zero has two unequal representations that
    compare as equal, and the diff of a vanished item with a zero field produces the second one. *)
Theorem C32_eq_refuted : exists a b, sd_fits a /\ sd_fits b /\ sd_cmp a b = Eq /\ sd_eqb a b = false.
Proof. exists (mkSd 0 true), (mkSd 0 false). repeat split; discriminate. Qed.
Theorem C32_eq_reachable : forall q, q_blocked q = 0 -> num_fits (q_misses q) -> num_fits (q_hits q) -> num_fits (q_count q) ->
  forall oc, exists r, query_row oc [q] [] (q_label q) = Ok r /\ sd_cmp (d_blocked r) (sd_from 0) = Eq /\ sd_eqb (d_blocked r) (sd_from 0) = false.
Proof.
  intros q Hq H1 H2 H3 oc. unfold query_row. rewrite !lookup_entry. cbn [bind]. unfold entry. cbn [rev app find].
  rewrite (proj2 (beq_true _ _)) by auto. unfold qdiff_invert. rewrite !to_i64_id, !i64_neg_ok by auto. cbn [bind].
  eexists. split; [reflexivity|]. cbn [d_blocked]. rewrite Hq. split; reflexivity.
Qed.
(** Subtracting durations of opposite sign can silently wrap. *)
Theorem C32_overflow_refuted : exists a b, sd_fits a /\ sd_fits b /\ as_nanos a > 0 /\ as_nanos b < 0 /\ as_nanos (sd_sub a b) = 0.
Proof. exists (mkSd (2 ^ 63) true), (mkSd (2 ^ 63) false). unfold sd_fits, dur_fits. repeat split; vm_compute; congruence. Qed.
Print Assumptions C31_diff.
