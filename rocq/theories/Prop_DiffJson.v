(** C63: the JSON file of [summarize diff].  Model M_DiffJson.v, specification S_DiffJson.v. *)
From Coq Require Import String ZArith List Lia Bool Permutation Sorted.
From Flocq Require Import BinarySingleNaN.
From Verif Require Import M_Base F_Base M_V8 M_Map S_Utf8 F_Utf8 M_Crox M_Analysis S_Analysis F_Analysis M_Metadata S_Json F_Json M_Json Prop_Json M_Diff S_Diff F_Diff Prop_Diff M_Summarize M_Float S_Float Prop_Float M_DiffJson S_DiffJson.
Import ListNotations.
Open Scope Z_scope.

(** ** The rows *)
Definition sd_ok (d : sdur) : Prop := 0 <= sd_duration d < 2 ^ 64.
Definition i64_ok (n : Z) : Prop := - 2 ^ 63 <= n < 2 ^ 63.
Definition row_values_ok (r : qdiff) : Prop :=
  sd_ok (d_time r) /\ sd_ok (d_self_time r) /\ sd_ok (d_blocked r) /\ sd_ok (d_load r) /\ sd_ok (d_hashing r) /\
  i64_ok (d_misses r) /\ i64_ok (d_hits r) /\ i64_ok (d_count r).
Lemma sd_sub_range a b : sd_ok (sd_sub a b).
Proof. unfold sd_ok, sd_sub, from_nanos, U64. cbn [sd_duration]. apply Z.mod_pos_bound. lia. Qed.
Lemma row_values oc base change l r : Forall row_fits base -> Forall row_fits change -> query_row oc base change l = Ok r -> row_values_ok r.
Proof.
  intros Fb Fc. unfold query_row. rewrite !lookup_entry. cbn [bind].
  destruct (entry q_label base l) as [b|] eqn:Eb; destruct (entry q_label change l) as [c|] eqn:Ec; try discriminate;
    try (pose proof (entry_Some _ _ _ _ Eb) as (Ib & _); rewrite Forall_forall in Fb; destruct (Fb _ Ib) as (B1 & B2 & B3 & B4 & B5 & B6 & B7 & B8));
    try (pose proof (entry_Some _ _ _ _ Ec) as (Ic & _); rewrite Forall_forall in Fc; destruct (Fc _ Ic) as (C1 & C2 & C3 & C4 & C5 & C6 & C7 & C8)).
  - unfold qdiff_sub. rewrite !to_i64_id, !i64_sub_ok by auto. cbn [bind]. intros E. injection E as <-. unfold row_values_ok. cbn [d_time d_self_time d_misses d_hits d_count d_blocked d_load d_hashing].
    unfold num_fits, i64_ok in *. do 5 (split; [apply sd_sub_range|]). lia.
  - unfold qdiff_invert. rewrite !to_i64_id, !i64_neg_ok by auto. cbn [bind]. intros E. injection E as <-. unfold row_values_ok, sd_ok, i64_ok. cbn [d_time d_self_time d_misses d_hits d_count d_blocked d_load d_hashing sd_duration].
    unfold num_fits, dur_fits in *. lia.
  - unfold qdiff_as. rewrite !to_i64_id by auto. intros E. injection E as <-. unfold row_values_ok, sd_ok, i64_ok, sd_from. cbn [d_time d_self_time d_misses d_hits d_count d_blocked d_load d_hashing sd_duration].
    unfold num_fits, dur_fits in *. lia.
Qed.
Lemma art_values oc base change l r : Forall (fun a => num_fits (art_value a)) base -> Forall (fun a => num_fits (art_value a)) change ->
  In l (map art_label base ++ map art_label change) -> artifact_row oc base change l = Ok r -> i64_ok (ad_change r).
Proof.
  intros Fb Fc Hin E. destruct (art_ok oc base change l Fb Fc Hin) as (r' & E' & _ & H). rewrite E in E'. injection E' as <-. rewrite H. unfold delta, value, i64_ok.
  assert (K : forall d, Forall (fun a => num_fits (art_value a)) d -> 0 <= match entry art_label d (ad_label r) with Some x => art_value x | None => 0 end < 2 ^ 63).
  { intros d F. destruct (entry art_label d (ad_label r)) as [x|] eqn:Ex; [|lia]. apply entry_Some in Ex. rewrite Forall_forall in F. apply F, Ex. }
  pose proof (K base Fb). pose proof (K change Fc). lia.
Qed.
Lemma sort_desc_map {A B} (g : A -> B) (key : B -> Z) l : map g (sort_desc (fun x => key (g x)) l) = sort_desc key (map g l).
Proof.
  induction l as [|x l IH]; [reflexivity|]. cbn [sort_desc map]. rewrite <- IH. generalize (sort_desc (fun x => key (g x)) l). clear. induction l as [|y l IH]; [reflexivity|].
  cbn [insert_desc map]. destruct (key (g x) <? key (g y)); [cbn [map]; rewrite IH|]; reflexivity.
Qed.
Lemma is_duration_fits d : dur_fits d -> is_duration d.
Proof. unfold dur_fits, is_duration. lia. Qed.
(** What the complete computation yields. *)
Definition good_row (base change : list qdata) (f : full_row) : Prop :=
  let l := d_label (fr_row f) in
  exact_row base change (fr_row f) /\ row_values_ok (fr_row f) /\
  row_percent q_time base change l = Ok (fr_time_change f) /\ row_percent q_self_time base change l = Ok (fr_self_time_change f).
Lemma full_diff_ok oc order base change : (forall k (l : list bytes), Permutation (order k l) l) -> results_fit base -> results_fit change ->
  exists d, full_calculate_diff oc order base change = Ok d /\
    calculate_diff oc order base change = Ok (mkDR (map fr_row (fd_query d)) (fd_artifacts d) (fd_total d)) /\
    Forall (good_row (query_data base) (query_data change)) (fd_query d) /\ Forall (fun a => i64_ok (ad_change a)) (fd_artifacts d) /\ sd_ok (fd_total d).
Proof.
  intros HO (Qb & Ab & Tb) (Qc & Ac & Tc). unfold full_calculate_diff, calculate_diff.
  set (L1 := label_set (map q_label (query_data base) ++ map q_label (query_data change))).
  set (L2 := label_set (map art_label (artifact_sizes base) ++ map art_label (artifact_sizes change))).
  destruct (collectM_ok (full_query_row oc (query_data base) (query_data change))
     (fun l f => query_row oc (query_data base) (query_data change) l = Ok (fr_row f) /\ good_row (query_data base) (query_data change) f) (order true L1)) as (rows & E1 & F1).
  { intros l Hl. apply (Permutation_in _ (HO true L1)) in Hl. apply (proj1 (label_set_In _ _)) in Hl. destruct (row_ok oc _ _ l Qb Qc Hl) as (r & Er & Hr1 & Hr2 & _).
    assert (D : forall (fld : qdata -> Z), (forall q, row_fits q -> dur_fits (fld q)) -> exists x, row_percent fld (query_data base) (query_data change) l = Ok x).
    { intros fld Hf. destruct (C60_diff_percent fld (query_data base) (query_data change) l) as (x & Ex & _); [| |exact Hl|eauto].
      - eapply Forall_impl; [|exact Qb]. intros q Hq. apply is_duration_fits, Hf, Hq.
      - eapply Forall_impl; [|exact Qc]. intros q Hq. apply is_duration_fits, Hf, Hq. }
    destruct (D q_time ltac:(intros q Hq; apply Hq)) as (x & Ex). destruct (D q_self_time ltac:(intros q Hq; apply Hq)) as (y & Ey). clear D.
    exists (mkFull r x y). unfold full_query_row. rewrite Er. cbn [bind]. rewrite Ex. cbn [bind]. rewrite Ey. cbn [bind]. split; [reflexivity|]. cbn [fr_row]. split; [reflexivity|]. unfold good_row. cbn [fr_row fr_time_change fr_self_time_change].
    rewrite Hr1. split; [exact Hr2|].
    split; [exact (row_values oc _ _ l r Qb Qc Er)|].
    split; [exact Ex|exact Ey]. }
  destruct (collectM_ok (artifact_row oc (artifact_sizes base) (artifact_sizes change)) (fun l r => i64_ok (ad_change r)) (order false L2)) as (arts & E2 & F2).
  { intros l Hl. apply (Permutation_in _ (HO false L2)) in Hl. apply (proj1 (label_set_In _ _)) in Hl. destruct (art_ok oc _ _ l Ab Ac Hl) as (r & Er & _). exists r. split; [exact Er|]. exact (art_values oc _ _ l r Ab Ac Hl Er). }
  assert (E3 : collectM (query_row oc (query_data base) (query_data change)) (order true L1) = Ok (map fr_row rows)).
  { clear - F1. induction F1 as [|l f ls fs (H & _) F IH]; [reflexivity|]. cbn [collectM map]. rewrite H. cbn [bind]. rewrite IH. reflexivity. }
  rewrite E1, E3. cbn [bind]. rewrite E2. cbn [bind]. eexists. split; [reflexivity|]. cbn [fd_query fd_artifacts fd_total]. split; [|split; [|split]].
  - rewrite (sort_desc_map fr_row (fun d => sd_duration (d_self_time d))). reflexivity.
  - eapply Permutation_Forall; [symmetry; apply sort_desc_perm|]. clear - F1. induction F1 as [|l f ls fs (_ & H) F IH]; constructor; auto.
  - eapply Permutation_Forall; [symmetry; apply sort_desc_perm|]. clear - F2. induction F2; constructor; auto.
  - apply sd_sub_range.
Qed.

(** ** The text *)
Lemma sdur_strings d : all_strings utf8 (sdur_json d).
Proof. unfold sdur_json, duration_json. cbn [all_strings fold_right fst snd]. strs. Qed.
Lemma float_strings fmt x : (forall x, is_finite x = true -> float_text (fmt x)) -> all_strings utf8 (float_json fmt x).
Proof. intros H. unfold float_json. destruct (is_finite x) eqn:E; [apply H, E|exact I]. Qed.
Lemma full_row_strings fmt f : (forall x, is_finite x = true -> float_text (fmt x)) -> utf8 (d_label (fr_row f)) -> all_strings utf8 (full_row_json fmt f).
Proof.
  intros H U. apply all_strings_obj. repeat (constructor; [cbn [fst snd]; split; [apply str_utf8; reflexivity|first [exact I|exact U|exact (sdur_strings _)|exact (float_strings fmt _ H)]]|]). constructor.
Qed.
Lemma diff_strings fmt d : (forall x, is_finite x = true -> float_text (fmt x)) -> Forall (fun f => utf8 (d_label (fr_row f))) (fd_query d) -> Forall (fun a => utf8 (ad_label a)) (fd_artifacts d) ->
  all_strings utf8 (diff_json fmt d).
Proof.
  intros H U V. apply all_strings_obj. constructor; [|constructor; [|constructor; [|constructor]]]; cbn [fst snd]; (split; [apply str_utf8; reflexivity|]).
  - apply all_strings_arr, Forall_map. eapply Forall_impl; [|exact U]. intros f Hf. apply full_row_strings; auto.
  - apply all_strings_arr, Forall_map. eapply Forall_impl; [|exact V]. intros a Ha. apply all_strings_obj. constructor; [split; [apply str_utf8; reflexivity|exact Ha]|]. constructor; [split; [apply str_utf8; reflexivity|exact I]|constructor].
  - apply sdur_strings.
Qed.
Lemma labels_utf8 {A} (lab : A -> bytes) d l : Forall (fun x => utf8 (lab x)) d -> In l (map lab d) -> utf8 l.
Proof. intros F H. apply in_map_iff in H. destruct H as (x & <- & H). rewrite Forall_forall in F. apply F, H. Qed.
(** the text is a document of exactly one value *)
Lemma text_document v : all_strings utf8 v -> utf8 (print v) /\ forall v', document (print v) v' <-> v' = v.
Proof.
  intros S. split; [apply print_utf8, S|]. assert (D : document (print v) v) by (apply document_print; eapply all_strings_impl; [apply utf8_nonneg|exact S]).
  intros v'. split; [|intros ->; auto]. intros D'. apply from_str_iff in D, D'. congruence.
Qed.
Lemma duration_object_ok n : duration_object n (duration_json n).
Proof. unfold duration_object, duration_json. obj. Qed.
Lemma signed_object_ok d : sd_ok d -> signed_object (as_nanos d) (sdur_json d).
Proof.
  intros H. exists (duration_json (sd_duration d)), (sd_is_positive d). split; [obj|]. unfold as_nanos. unfold sd_ok in H. split; [|destruct (sd_is_positive d); split; auto; lia].
  replace (Z.abs ((if sd_is_positive d then 1 else -1) * sd_duration d)) with (sd_duration d) by (destruct (sd_is_positive d); lia). apply duration_object_ok.
Qed.
Lemma percent_value_ok fmt x : percent_value fmt x (float_json fmt x).
Proof. unfold percent_value, float_json. destruct (is_finite x); reflexivity. Qed.
Lemma row_object_ok fmt base change f : good_row base change f -> row_object fmt base change (d_label (fr_row f)) (fr_time_change f) (fr_self_time_change f) (full_row_json fmt f).
Proof.
  intros ((X1 & X2 & X3 & X4 & X5 & X6 & X7 & X8) & (V1 & V2 & V3 & V4 & V5 & _) & _). unfold row_object. rewrite <- X1, <- X2, <- X3, <- X4, <- X5, <- X6, <- X7, <- X8.
  exists (sdur_json (d_time (fr_row f))), (float_json fmt (fr_time_change f)), (sdur_json (d_self_time (fr_row f))), (float_json fmt (fr_self_time_change f)), (sdur_json (d_blocked (fr_row f))), (sdur_json (d_load (fr_row f))), (sdur_json (d_hashing (fr_row f))).
  split; [obj|]. repeat (split; [first [apply signed_object_ok; assumption|apply percent_value_ok]|]). apply signed_object_ok; assumption.
Qed.
Lemma Forall2_same {A B C} (f : A -> B) (g : A -> C) (P : B -> C -> Prop) l : Forall (fun x => P (f x) (g x)) l -> Forall2 P (map f l) (map g l).
Proof. induction 1; cbn [map]; constructor; auto. Qed.
Lemma descending_map {A} (f : A -> bytes) (k : bytes -> Z) (k' : A -> Z) l : Forall (fun x => k' x = k (f x)) l -> descending k' l -> descending k (map f l).
Proof.
  unfold descending. induction 1 as [|x l H F IH]; intros S; [constructor|]. inversion S as [|? ? S1 S2]; subst. cbn [map]. constructor; auto. apply Forall_map. rewrite Forall_forall in *. intros y Hy. specialize (S2 y Hy). rewrite <- H, <- (F y Hy). exact S2.
Qed.

(** With [--json] the diff is written as one JSON document in UTF-8: one object for every label of either
    profile, in order of decreasing magnitude of the self time change, with exactly the differences and the
    percentages of C60 ([null] when they are not finite); one object for every artifact; the total.  Whatever is
    given with [--exclude]: all rows are written. *)
Theorem C63_document : forall oc order fmt exclude base change,
  (forall k (l : list bytes), Permutation (order k l) l) -> results_fit base -> results_fit change -> labels_ok base -> labels_ok change ->
  (forall x, is_finite x = true -> float_text (fmt x)) ->
  exists text v rows arts total labels artifacts,
    diff_main fmt oc order true exclude base change = Ok (WroteJson text) /\ utf8 text /\ (forall v', document text v' <-> v' = v) /\
    object_with v [(str "query_data", JArr rows); (str "artifact_sizes", JArr arts); (str "total_time", total)] /\
    NoDup labels /\ (forall l, In l labels <-> In l (map q_label (query_data base)) \/ In l (map q_label (query_data change))) /\
    descending (fun l => Z.abs (delta q_label q_self_time (query_data base) (query_data change) l)) labels /\
    Forall2 (fun l o => exists x y, row_percent q_time (query_data base) (query_data change) l = Ok x /\ row_percent q_self_time (query_data base) (query_data change) l = Ok y /\
       row_object fmt (query_data base) (query_data change) l x y o) labels rows /\
    NoDup artifacts /\ (forall l, In l artifacts <-> In l (map art_label (artifact_sizes base)) \/ In l (map art_label (artifact_sizes change))) /\
    descending (delta art_label art_value (artifact_sizes base) (artifact_sizes change)) artifacts /\
    Forall2 (artifact_object (artifact_sizes base) (artifact_sizes change)) artifacts arts /\
    signed_object (total_time change - total_time base) total.
Proof.
  intros oc order fmt exclude base change HO Fb Fc (Lb & Mb) (Lc & Mc) HF.
  destruct (full_diff_ok oc order base change HO Fb Fc) as (d & E & EC & G & GA & GT). destruct (C31_diff oc order base change HO Fb Fc) as (d' & E' & N1 & I1 & X1 & D1 & N2 & I2 & X2 & D2 & T).
  rewrite EC in E'. injection E' as <-. cbn [dr_query dr_artifacts dr_total] in *.
  assert (U1 : Forall (fun f => utf8 (d_label (fr_row f))) (fd_query d)).
  { apply Forall_forall. intros f Hf. assert (K : In (d_label (fr_row f)) (map d_label (map fr_row (fd_query d)))) by (rewrite map_map; apply (in_map (fun f => d_label (fr_row f))); exact Hf). apply I1 in K. destruct K as [K|K]; [apply (labels_utf8 q_label (query_data base))|apply (labels_utf8 q_label (query_data change))]; auto. }
  assert (U2 : Forall (fun a => utf8 (ad_label a)) (fd_artifacts d)).
  { apply Forall_forall. intros a Ha. assert (K : In (ad_label a) (map ad_label (fd_artifacts d))) by (apply in_map; exact Ha). apply I2 in K. destruct K as [K|K]; [apply (labels_utf8 art_label (artifact_sizes base))|apply (labels_utf8 art_label (artifact_sizes change))]; auto. }
  destruct (text_document _ (diff_strings fmt d HF U1 U2)) as (UT & DT).
  exists (print (diff_json fmt d)), (diff_json fmt d), (map (full_row_json fmt) (fd_query d)), (map adiff_json (fd_artifacts d)), (sdur_json (fd_total d)), (map d_label (map fr_row (fd_query d))), (map ad_label (fd_artifacts d)).
  split; [unfold diff_main; rewrite E; reflexivity|]. split; [exact UT|]. split; [exact DT|]. split; [unfold diff_json; obj|]. split; [exact N1|]. split; [exact I1|]. split.
  { eapply (descending_map d_label _ (fun r => Z.abs (as_nanos (d_self_time r)))); [|exact D1]. eapply Forall_impl; [|exact X1]. intros r (_ & H & _). cbv beta. rewrite H. reflexivity. }
  split. { rewrite map_map. apply Forall2_same. eapply Forall_impl; [|exact G]. intros f Hf. exists (fr_time_change f), (fr_self_time_change f). pose proof Hf as (_ & _ & P1 & P2). split; [exact P1|]. split; [exact P2|]. apply row_object_ok, Hf. }
  split; [exact N2|]. split; [exact I2|]. split. { eapply (descending_map ad_label); [|exact D2]. eapply Forall_impl; [|exact X2]. intros a H. exact H. }
  split. { apply Forall2_same. eapply Forall_impl; [|exact X2]. intros a H. unfold artifact_object, adiff_json. rewrite <- H. obj. }
  rewrite <- T. apply signed_object_ok, GT.
Qed.
Print Assumptions C63_document.

(** ** Reading it back *)
Lemma as_sdur_ok d : sd_ok d -> as_sdur (sdur_json d) = Ok d.
Proof.
  intros H. destruct d as [n p]. unfold sd_ok in H. cbn [sd_duration] in H. assert (K : as_duration (duration_json n) = Ok n) by (apply as_duration_ok; unfold duration_ok; lia). unfold sdur_json. cbn [sd_duration sd_is_positive].
  revert K. generalize (duration_json n). intros v K. match goal with |- as_sdur ?j = _ => change (as_sdur j) with (do d <- as_duration v; Ok (mkSd d p)) end. rewrite K. reflexivity.
Qed.
Lemma as_signed_ok n : i64_ok n -> as_signed (JInt n) = Ok n.
Proof. unfold i64_ok, as_signed, I64. intros H. rewrite (proj2 (Z.leb_le _ n)), (proj2 (Z.ltb_lt n _)) by lia. reflexivity. Qed.
Lemma as_full_row_steps rd fmt f : row_values_ok (fr_row f) ->
  as_full_row rd (full_row_json fmt f) = do x <- as_f64 rd (float_json fmt (fr_time_change f)); do y <- as_f64 rd (float_json fmt (fr_self_time_change f)); Ok (mkFull (fr_row f) x y).
Proof.
  intros (H1 & H2 & H3 & H4 & H5 & H6 & H7 & H8). destruct f as [r x y]. destruct r as [a b c d e f g h i]. cbn [fr_row fr_time_change fr_self_time_change d_label d_time d_self_time d_misses d_hits d_count d_blocked d_load d_hashing] in *.
  unfold full_row_json. cbn [fr_row fr_time_change fr_self_time_change d_label d_time d_self_time d_misses d_hits d_count d_blocked d_load d_hashing].
  apply as_sdur_ok in H1, H2, H3, H4, H5. apply as_signed_ok in H6, H7, H8. revert H1 H2 H3 H4 H5 H6 H7 H8.
  generalize (sdur_json b) (sdur_json c) (sdur_json g) (sdur_json h) (sdur_json i) (JInt d) (JInt e) (JInt f) (float_json fmt x) (float_json fmt y). intros vb vc vg vh vi vd ve vf vx vy H1 H2 H3 H4 H5 H6 H7 H8.
  match goal with |- as_full_row rd ?v = _ => change (as_full_row rd v) with
    (do b <- as_sdur vb; do x <- as_f64 rd vx; do c <- as_sdur vc; do y <- as_f64 rd vy; do d <- as_signed vd; do e <- as_signed ve; do f <- as_signed vf; do g <- as_sdur vg; do h <- as_sdur vh; do i <- as_sdur vi; Ok (mkFull (mkQD a b c d e f g h i) x y)) end.
  rewrite H1, H2, H3, H4, H5, H6, H7, H8. reflexivity.
Qed.
Lemma as_adiff_ok a : i64_ok (ad_change a) -> as_adiff (adiff_json a) = Ok a.
Proof.
  intros H. destruct a as [l n]. cbn [ad_change] in H. apply as_signed_ok in H. unfold adiff_json. cbn [ad_label ad_change]. revert H. generalize (JInt n). intros v H.
  match goal with |- as_adiff ?j = _ => change (as_adiff j) with (do b <- as_signed v; Ok (mkAD l b)) end. rewrite H. reflexivity.
Qed.
Lemma as_full_diff_steps rd fmt d : Forall (fun a => i64_ok (ad_change a)) (fd_artifacts d) -> sd_ok (fd_total d) ->
  as_full_diff rd (diff_json fmt d) = do q <- read_all (as_full_row rd) (map (full_row_json fmt) (fd_query d)); Ok (mkFD q (fd_artifacts d) (fd_total d)).
Proof.
  intros H1 H2. destruct d as [q a t]. cbn [fd_query fd_artifacts fd_total] in *. unfold diff_json. cbn [fd_query fd_artifacts fd_total].
  apply (read_all_ok as_adiff adiff_json _) in H1; [|exact as_adiff_ok]. apply as_sdur_ok in H2. revert H1 H2. generalize (map adiff_json a) (sdur_json t) (map (full_row_json fmt) q). intros va vt vq H1 H2.
  match goal with |- as_full_diff rd ?v = _ => change (as_full_diff rd v) with (do q <- read_all (as_full_row rd) vq; do a <- read_all as_adiff va; do t <- as_sdur vt; Ok (mkFD q a t)) end.
  rewrite H1, H2. reflexivity.
Qed.
Lemma read_diff_text rd fmt d v : from_str (print (diff_json fmt d)) = Some v -> read_diff rd (print (diff_json fmt d)) = as_full_diff rd v.
Proof. intros H. unfold read_diff. rewrite H. reflexivity. Qed.

(** when a percentage is a number *)
Lemma percent_finite (fld : qdata -> Z) base change l x : Forall row_fits base -> Forall row_fits change -> (forall q, row_fits q -> dur_fits (fld q)) -> In l (map q_label base ++ map q_label change) ->
  row_percent fld base change l = Ok x ->
  (is_finite x = true <-> (In l (map q_label change) -> exists b, entry q_label base l = Some b /\ 0 < fld b)).
Proof.
  intros Fb Fc Hf Hl E. destruct (C60_diff_percent fld base change l) as (x' & E' & H); auto; [eapply Forall_impl; [|exact Fb]; intros q Hq; apply is_duration_fits, Hf, Hq|eapply Forall_impl; [|exact Fc]; intros q Hq; apply is_duration_fits, Hf, Hq|].
  rewrite E in E'. injection E' as <-. destruct (entry q_label base l) as [b|] eqn:EB; destruct (entry q_label change l) as [c|] eqn:EC.
  - pose proof (entry_Some _ _ _ _ EB) as (IB & _). pose proof (entry_Some _ _ _ _ EC) as (IC & LC). rewrite Forall_forall in Fb, Fc. pose proof (Hf _ (Fb _ IB)) as HB. pose proof (Hf _ (Fc _ IC)) as HC. unfold dur_fits in HB, HC.
    destruct H as (H1 & H2 & H3). split.
    + intros HX _. exists b. split; auto. destruct (Z.eq_dec (fld b) 0) as [Z0|Z0]; [|lia]. destruct (Z.eq_dec (fld c) 0) as [Z1|Z1]; [rewrite (H3 Z0 Z1) in HX; discriminate|rewrite (H2 Z0 ltac:(lia)) in HX; discriminate].
    + intros K. destruct K as (b' & Eb' & P); [rewrite <- LC; apply in_map; exact IC|]. injection Eb' as <-. apply H1, P.
  - split; [|intros _; apply H]. intros _ HI. exfalso. exact (entry_None _ _ _ EC HI).
  - pose proof (entry_Some _ _ _ _ EC) as (IC & LC). split; [intros HX; rewrite H in HX; discriminate|]. intros K. destruct K as (b & Eb & _); [rewrite <- LC; apply in_map; exact IC|discriminate].
  - destruct H.
Qed.
(** The file can be read back as diff results, with the same contents, if every activity of the second profile is
    also in the first one with non-zero times there (and the percentages it contains survive printing and parsing) ... *)
Theorem C63_reads_back : forall oc order fmt rd base change,
  (forall k (l : list bytes), Permutation (order k l) l) -> results_fit base -> results_fit change -> labels_ok base -> labels_ok change ->
  (forall x, is_finite x = true -> float_text (fmt x)) -> comparable (query_data base) (query_data change) ->
  exists d text, full_calculate_diff oc order base change = Ok d /\ diff_main fmt oc order true [] base change = Ok (WroteJson text) /\
    ((forall f, In f (fd_query d) -> rd (fmt (fr_time_change f)) = fr_time_change f /\ rd (fmt (fr_self_time_change f)) = fr_self_time_change f) ->
     read_diff rd text = Ok d).
Proof.
  intros oc order fmt rd base change HO Fb Fc (Lb & Mb) (Lc & Mc) HF CM.
  destruct (full_diff_ok oc order base change HO Fb Fc) as (d & E & EC & G & GA & GT). destruct (C31_diff oc order base change HO Fb Fc) as (d' & E' & _ & I1 & _ & _ & _ & I2 & _).
  rewrite EC in E'. injection E' as <-. cbn [dr_query dr_artifacts dr_total] in *. exists d, (print (diff_json fmt d)). split; [exact E|]. split; [unfold diff_main; rewrite E; reflexivity|]. intros RT.
  assert (L1 : forall f, In f (fd_query d) -> In (d_label (fr_row f)) (map q_label (query_data base) ++ map q_label (query_data change))).
  { intros f Hf. assert (K : In (d_label (fr_row f)) (map d_label (map fr_row (fd_query d)))) by (rewrite map_map; apply (in_map (fun f => d_label (fr_row f))); exact Hf). apply I1 in K. apply in_or_app, K. }
  assert (U1 : Forall (fun f => utf8 (d_label (fr_row f))) (fd_query d)).
  { apply Forall_forall. intros f Hf. apply L1, in_app_or in Hf. destruct Hf as [K|K]; [apply (labels_utf8 q_label (query_data base))|apply (labels_utf8 q_label (query_data change))]; auto. }
  assert (U2 : Forall (fun a => utf8 (ad_label a)) (fd_artifacts d)).
  { apply Forall_forall. intros a Ha. assert (K : In (ad_label a) (map ad_label (fd_artifacts d))) by (apply in_map; exact Ha). apply I2 in K. destruct K as [K|K]; [apply (labels_utf8 art_label (artifact_sizes base))|apply (labels_utf8 art_label (artifact_sizes change))]; auto. }
  destruct (text_document _ (diff_strings fmt d HF U1 U2)) as (_ & DT). rewrite (read_diff_text rd fmt d (diff_json fmt d)) by (apply from_str_iff, DT; reflexivity). rewrite as_full_diff_steps by auto.
  rewrite (read_all_ok (as_full_row rd) (full_row_json fmt) (fun f => In f (fd_query d)) (fd_query d)); [destruct d; reflexivity| |apply Forall_forall; auto].
  intros f Hf. pose proof G as G'. rewrite Forall_forall in G'. destruct (G' f Hf) as (_ & V & P1 & P2). rewrite as_full_row_steps by auto. destruct (RT f Hf) as (R1 & R2). destruct Fb as (Fb & _). destruct Fc as (Fc & _).
  assert (K1 : is_finite (fr_time_change f) = true) by (apply (percent_finite q_time _ _ _ _ Fb Fc ltac:(intros q Hq; apply Hq) (L1 f Hf) P1); intros HI; destruct (CM _ HI) as (b & Eb & A & B); eauto).
  assert (K2 : is_finite (fr_self_time_change f) = true) by (apply (percent_finite q_self_time _ _ _ _ Fb Fc ltac:(intros q Hq; apply Hq) (L1 f Hf) P2); intros HI; destruct (CM _ HI) as (b & Eb & A & B); eauto).
  unfold float_json. rewrite K1, K2. cbn [as_f64 bind]. rewrite R1, R2. destruct f; reflexivity.
Qed.
Print Assumptions C63_reads_back.
Lemma read_all_err {A} (f : json -> res A) l : (forall x, In x l -> (exists y, f x = Ok y) \/ f x = Err) -> (exists x, In x l /\ f x = Err) -> read_all f l = Err.
Proof.
  induction l as [|a l IH]; intros H (x & Hx & E); [destruct Hx|]. cbn [read_all]. destruct (H a (or_introl eq_refl)) as [(y & Ey)|Ea]; [|rewrite Ea; reflexivity]. rewrite Ey. cbn [bind].
  destruct Hx as [->|Hx]; [congruence|]. rewrite IH; [reflexivity|intros z Hz; apply H; right; auto|eauto].
Qed.
(** ... and otherwise never, whatever the printer and the parser of numbers do: an activity that is new in the second
    profile, or has a zero time in the first one, makes the whole file unreadable as diff results. *)
Theorem C63_unreadable_refuted : forall oc order fmt rd base change,
  (forall k (l : list bytes), Permutation (order k l) l) -> results_fit base -> results_fit change -> labels_ok base -> labels_ok change ->
  (forall x, is_finite x = true -> float_text (fmt x)) ->
  (exists l, In l (map q_label (query_data change)) /\ forall b, entry q_label (query_data base) l = Some b -> q_time b = 0 \/ q_self_time b = 0) ->
  exists text, diff_main fmt oc order true [] base change = Ok (WroteJson text) /\ read_diff rd text = Err.
Proof.
  intros oc order fmt rd base change HO Fb Fc (Lb & Mb) (Lc & Mc) HF (l & Hl & HB).
  destruct (full_diff_ok oc order base change HO Fb Fc) as (d & E & EC & G & GA & GT). destruct (C31_diff oc order base change HO Fb Fc) as (d' & E' & _ & I1 & _ & _ & _ & I2 & _).
  rewrite EC in E'. injection E' as <-. cbn [dr_query dr_artifacts dr_total] in *. exists (print (diff_json fmt d)). split; [unfold diff_main; rewrite E; reflexivity|].
  assert (U1 : Forall (fun f => utf8 (d_label (fr_row f))) (fd_query d)).
  { apply Forall_forall. intros f Hf. assert (K : In (d_label (fr_row f)) (map d_label (map fr_row (fd_query d)))) by (rewrite map_map; apply (in_map (fun f => d_label (fr_row f))); exact Hf). apply I1 in K. destruct K as [K|K]; [apply (labels_utf8 q_label (query_data base))|apply (labels_utf8 q_label (query_data change))]; auto. }
  assert (U2 : Forall (fun a => utf8 (ad_label a)) (fd_artifacts d)).
  { apply Forall_forall. intros a Ha. assert (K : In (ad_label a) (map ad_label (fd_artifacts d))) by (apply in_map; exact Ha). apply I2 in K. destruct K as [K|K]; [apply (labels_utf8 art_label (artifact_sizes base))|apply (labels_utf8 art_label (artifact_sizes change))]; auto. }
  destruct (text_document _ (diff_strings fmt d HF U1 U2)) as (_ & DT). rewrite (read_diff_text rd fmt d (diff_json fmt d)) by (apply from_str_iff, DT; reflexivity). rewrite as_full_diff_steps by auto.
  rewrite read_all_err; [reflexivity| |].
  - intros x Hx. apply in_map_iff in Hx. destruct Hx as (f & <- & Hf). rewrite Forall_forall in G. destruct (G f Hf) as (_ & V & _). rewrite as_full_row_steps by auto. unfold float_json.
    destruct (is_finite (fr_time_change f)); [|right; reflexivity]. destruct (is_finite (fr_self_time_change f)); [left; eexists; reflexivity|right; reflexivity].
  - assert (K : In l (map d_label (map fr_row (fd_query d)))) by (apply I1; auto). rewrite map_map in K. apply in_map_iff in K. destruct K as (f & Ef & Hf). exists (full_row_json fmt f). split; [apply in_map; exact Hf|].
    rewrite Forall_forall in G. destruct (G f Hf) as (_ & V & P1 & P2). rewrite as_full_row_steps by auto. destruct Fb as (Fb & _). destruct Fc as (Fc & _). rewrite Ef in P1, P2.
    assert (Hin : In l (map q_label (query_data base) ++ map q_label (query_data change))) by (apply in_or_app; auto).
    pose proof (percent_finite q_time _ _ _ _ Fb Fc ltac:(intros q Hq; apply Hq) Hin P1) as K1. pose proof (percent_finite q_self_time _ _ _ _ Fb Fc ltac:(intros q Hq; apply Hq) Hin P2) as K2. unfold float_json.
    destruct (is_finite (fr_time_change f)) eqn:F1; [|reflexivity]. destruct (is_finite (fr_self_time_change f)) eqn:F2; [|reflexivity]. exfalso.
    destruct (proj1 K1 eq_refl Hl) as (b & Eb & B1). destruct (proj1 K2 eq_refl Hl) as (b' & Eb' & B2). rewrite Eb in Eb'. injection Eb' as <-. destruct (HB b Eb); lia.
Qed.
Print Assumptions C63_unreadable_refuted.
(** a case of the hypotheses: one activity, 4 ns before and 6 ns after, one artifact that is new *)
Definition ex63_base : results := mkRes [mkQ (str "typeck") 4 4 0 0 1 0 0 0] [] 10.
Definition ex63_change : results := mkRes [mkQ (str "typeck") 6 6 0 1 2 0 0 0] [mkArt (str "dep_graph") 7] 8.
Definition ex63_fmt (x : f64) : bytes := str "50.0".
Definition ex63_rd (t : bytes) : f64 := percentage_change 4 6.
Example C63_example : results_fit ex63_base /\ results_fit ex63_change /\ labels_ok ex63_base /\ labels_ok ex63_change /\
  (forall x, is_finite x = true -> float_text (ex63_fmt x)) /\ comparable (query_data ex63_base) (query_data ex63_change) /\
  (exists d text, full_calculate_diff true (fun _ l => l) ex63_base ex63_change = Ok d /\ diff_main ex63_fmt true (fun _ l => l) true [] ex63_base ex63_change = Ok (WroteJson text) /\
     (forall f, In f (fd_query d) -> ex63_rd (ex63_fmt (fr_time_change f)) = fr_time_change f /\ ex63_rd (ex63_fmt (fr_self_time_change f)) = fr_self_time_change f)) /\
  diff_main ex63_fmt true (fun _ l => l) true [str "typeck"] ex63_base ex63_change = Ok (WroteJson (str
"{""query_data"":[{""label"":""typeck"",""time"":{""duration"":{""secs"":0,""nanos"":2},""is_positive"":true},""time_change"":50.0,""self_time"":{""duration"":{""secs"":0,""nanos"":2},""is_positive"":true},""self_time_change"":50.0,""number_of_cache_misses"":0,""number_of_cache_hits"":1,""invocation_count"":1,""blocked_time"":{""duration"":{""secs"":0,""nanos"":0},""is_positive"":true},""incremental_load_time"":{""duration"":{""secs"":0,""nanos"":0},""is_positive"":true},""incremental_hashing_time"":{""duration"":{""secs"":0,""nanos"":0},""is_positive"":true}}],""artifact_sizes"":[{""label"":""dep_graph"",""size_change"":7}],""total_time"":{""duration"":{""secs"":0,""nanos"":2},""is_positive"":false}}")) /\
  (* without the row in the first profile the percentages are null *)
  (exists text, diff_main ex63_fmt true (fun _ l => l) true [] (mkRes [] [] 0) ex63_change = Ok (WroteJson text) /\ read_diff ex63_rd text = Err).
Proof.
  split; [|split; [|split; [|split; [|split; [|split; [|split; [|split]]]]]]].
  - unfold results_fit, row_fits, dur_fits, num_fits. repeat first [apply conj|apply Forall_cons|apply Forall_nil]; cbn; lia.
  - unfold results_fit, row_fits, dur_fits, num_fits. repeat first [apply conj|apply Forall_cons|apply Forall_nil]; cbn; lia.
  - split; repeat constructor; apply str_utf8; reflexivity.
  - split; repeat constructor; apply str_utf8; reflexivity.
  - intros x _. exists false, [53; 48], [46; 48], []. split; [reflexivity|]. split; [split; [repeat constructor; lia|]|split; [|split; [left; reflexivity|discriminate]]].
    + right. exists 53, [48]. split; [reflexivity|lia].
    + right. exists [48]. split; [reflexivity|]. split; [discriminate|repeat constructor; lia].
  - intros l [<-|[]]. exists (mkQ (str "typeck") 4 4 0 0 1 0 0 0). split; [reflexivity|]. cbn. lia.
  - eexists. eexists. split; [reflexivity|]. split; [reflexivity|]. intros f [<-|[]]. split; reflexivity.
  - vm_compute. reflexivity.
  - eexists. split; [vm_compute; reflexivity|vm_compute; reflexivity].
Qed.
