(** C98: the threads add up.  Specification S_Split.v, S_Analysis.v, S_Summary.v. *)
From Coq Require Import String ZArith List Lia Bool Permutation Sorted.
From Verif Require Import M_Base F_Base M_Raw M_V8 M_Map M_Session M_Guard S_Guard M_Analysis S_Analysis S_Summary F_Analysis F_Analysis2 F_Analysis3
  Prop_Analysis S_Schedule Prop_Schedule S_Split.
Import ListNotations.
Open Scope list_scope.
Open Scope Z_scope.

(** ** A label without a row has only zeros *)
Lemma len_other e : is_interval e = false -> ev_len e = 0.
Proof. unfold is_interval, ev_len. destruct (ev_payload e) as [[]|]; cbn [p_is_interval]; [discriminate|reflexivity|reflexivity]. Qed.
Lemma children_other w p : is_interval p = false -> children_time w p = 0.
Proof.
  intros H. induction w as [|e w IH]; cbn [children_time]; [reflexivity|]. rewrite IH. replace (encloses p e) with false; [reflexivity|].
  unfold encloses, is_interval in *. destruct (ev_payload p) as [[]|]; cbn [p_is_interval] in H; [discriminate|reflexivity|reflexivity].
Qed.
Lemma time_none P evs : (forall e, In e evs -> P e = true -> is_interval e = false) -> time_sum P evs = 0.
Proof.
  induction evs as [|e evs IH]; intros H; cbn [time_sum]; [reflexivity|]. rewrite IH by (intros x Hx; apply H; right; exact Hx).
  destruct (P e) eqn:E; [|reflexivity]. rewrite len_other by (apply H; [left; reflexivity|exact E]). reflexivity.
Qed.
Lemma self_none P evs : (forall e, In e evs -> P e = true -> is_interval e = false) -> self_time_sum P evs = 0.
Proof.
  unfold self_time_sum. generalize (@nil event). induction evs as [|e evs IH]; intros w H; cbn [self_from]; [reflexivity|]. rewrite IH by (intros x Hx; apply H; right; exact Hx).
  destruct (P e) eqn:E; [|reflexivity]. assert (I : is_interval e = false) by (apply H; [left; reflexivity|exact E]). rewrite len_other, children_other by exact I. reflexivity.
Qed.
Lemma count_none P evs : (forall e, In e evs -> P e = false) -> count P evs = 0.
Proof.
  unfold count. induction evs as [|e evs IH]; intros H; cbn [filter]; [reflexivity|]. rewrite (H e) by (left; reflexivity). apply IH. intros x Hx. apply H. right. exact Hx.
Qed.
Lemma no_row evs l : ~ has_row evs l -> forall field, In field numbers -> field (expected_row evs l) = 0.
Proof.
  intros H. assert (HI : forall e, In e evs -> labelled l e = true -> is_interval e = false /\ is_cache_hit e = false).
  { intros e He Hl. apply beq_true in Hl. destruct (is_interval e) eqn:E1; [exfalso; apply H; exists e; auto|]. destruct (is_cache_hit e) eqn:E2; [exfalso; apply H; exists e; auto|]. auto. }
  assert (HT : forall P e, In e evs -> labelled l e && P = true -> is_interval e = false) by (intros P e He HP; apply andb_prop in HP; apply HI; tauto).
  assert (HC : forall e, In e evs -> labelled l e = false \/ is_interval e = false /\ is_cache_hit e = false) by (intros e He; destruct (labelled l e) eqn:E; [right; apply HI; auto|left; reflexivity]).
  intros field HF. unfold numbers in HF. cbn [In] in HF. unfold expected_row.
  destruct HF as [<-|[<-|[<-|[<-|[<-|[<-|[<-|[<-|[]]]]]]]]]; cbn [q_time q_self_time q_misses q_hits q_count q_blocked q_load q_hashing].
  - apply time_none. intros e He. apply HT, He.
  - apply self_none. intros e He Hl. apply HI; assumption.
  - apply count_none. intros e He. destruct (HC e He) as [->|(-> & _)]; [apply andb_false_intro1, andb_false_r|reflexivity].
  - apply count_none. intros e He. destruct (HC e He) as [->|(_ & ->)]; [apply andb_false_r|reflexivity].
  - apply count_none. intros e He. destruct (HC e He) as [->|(-> & ->)]; [reflexivity|apply andb_false_r].
  - apply time_none. intros e He. apply HT, He.
  - apply self_none. intros e He. apply HT, He.
  - apply self_none. intros e He. apply HT, He.
Qed.
Lemma number_row oc order evs r : (forall l, Permutation l (order l)) -> nested_recording evs -> perform_analysis oc order evs = Ok r ->
  forall field, In field numbers -> forall l, number field l r = field (expected_row evs l).
Proof.
  intros HO HN H field HF l. destruct (C25_rows _ _ _ _ HO HN H) as (_ & R). unfold number. destruct (find _ (query_data r)) as [q|] eqn:E.
  - apply find_some in E. destruct E as (Hq & El). apply beq_true in El. apply R in Hq. destruct Hq as (_ & Hq). rewrite El in Hq. rewrite Hq. reflexivity.
  - symmetry. apply no_row; [|exact HF]. intros HR. specialize (R (expected_row evs l)). apply proj2 in R. specialize (R (conj HR eq_refl)).
    apply (find_none _ _ E) in R. cbv beta in R. cbn [expected_row q_label] in R. rewrite beq_refl in R. discriminate.
Qed.

(** ** Every quantity is the sum over the two groups *)
Section Split.
Variable p : Z -> bool.
Notation A := (group p).
Notation B := (group (fun t => negb (p t))).
Lemma group_cons q e evs : group q (e :: evs) = if q (ev_thread e) then e :: group q evs else group q evs.
Proof. reflexivity. Qed.
Lemma split_count P evs : count P evs = count P (A evs) + count P (B evs).
Proof.
  unfold count. induction evs as [|e evs IH]; [reflexivity|]. rewrite !group_cons. destruct (p (ev_thread e)); cbn [negb filter]; destruct (P e); rewrite ?zlen_cons; lia.
Qed.
Lemma split_time P evs : time_sum P evs = time_sum P (A evs) + time_sum P (B evs).
Proof. induction evs as [|e evs IH]; [reflexivity|]. rewrite !group_cons. destruct (p (ev_thread e)); cbn [negb time_sum]; lia. Qed.
Lemma split_artifacts evs l : artifact_total evs l = artifact_total (A evs) l + artifact_total (B evs) l.
Proof.
  unfold artifact_total. induction evs as [|e evs IH]; [reflexivity|]. rewrite !group_cons.
  destruct (p (ev_thread e)); cbn [negb filter]; destruct (is_artifact e && labelled l e); cbn [map]; unfold zsum in *; cbn [fold_right]; lia.
Qed.
Lemma existsb_group q e w : q (ev_thread e) = true -> existsb (fun x => encloses x e) w = existsb (fun x => encloses x e) (group q w).
Proof.
  intros H. induction w as [|x w IH]; [reflexivity|]. rewrite group_cons. cbn [existsb]. rewrite IH. destruct (q (ev_thread x)) eqn:E; cbn [existsb]; [reflexivity|].
  rewrite encloses_other; [reflexivity|]. congruence.
Qed.
Lemma children_group q x w : q (ev_thread x) = true -> children_time w x = children_time (group q w) x.
Proof.
  intros H. induction w as [|e w IH]; [reflexivity|]. rewrite group_cons. cbn [children_time]. destruct (q (ev_thread e)) eqn:E; cbn [children_time].
  - rewrite IH, (existsb_group q e w E). reflexivity.
  - rewrite encloses_other by congruence. cbn [andb]. exact IH.
Qed.
Lemma group_snoc q w x : group q (w ++ [x]) = if q (ev_thread x) then group q w ++ [x] else group q w.
Proof. unfold group. rewrite filter_app. cbn [filter]. destruct (q (ev_thread x)); [reflexivity|apply app_nil_r]. Qed.
Lemma split_self_from P evs : forall w, self_from P w evs = self_from P (A w) (A evs) + self_from P (B w) (B evs).
Proof.
  induction evs as [|x evs IH]; intros w; [reflexivity|]. rewrite !group_cons. cbn [self_from]. rewrite IH, !group_snoc. cbv beta. destruct (p (ev_thread x)) eqn:E; cbn [negb self_from].
  - rewrite (children_group p x w E). lia.
  - rewrite (children_group (fun t => negb (p t)) x w) by (rewrite E; reflexivity). lia.
Qed.
Lemma split_self P evs : self_time_sum P evs = self_time_sum P (A evs) + self_time_sum P (B evs).
Proof. exact (split_self_from P evs []). Qed.
Lemma split_row evs l : forall field, In field numbers -> field (expected_row evs l) = field (expected_row (A evs) l) + field (expected_row (B evs) l).
Proof.
  intros field HF. unfold numbers in HF. cbn [In] in HF. unfold expected_row.
  destruct HF as [<-|[<-|[<-|[<-|[<-|[<-|[<-|[<-|[]]]]]]]]]; cbn [q_time q_self_time q_misses q_hits q_count q_blocked q_load q_hashing];
    first [apply split_time|apply split_self|apply split_count].
Qed.
Lemma group_spans q t evs : thread_spans t (group q evs) = if q t then thread_spans t evs else [].
Proof.
  induction evs as [|e evs IH]; [destruct (q t); reflexivity|]. rewrite group_cons. cbn [thread_spans]. destruct (Z.eqb_spec (ev_thread e) t) as [E|N].
  - rewrite E. destruct (q t) eqn:Q; cbn [thread_spans].
    + destruct (ev_payload e) as [[]|]; rewrite ?IH; try reflexivity. rewrite E, Z.eqb_refl. reflexivity.
    + exact IH.
  - destruct (q (ev_thread e)); cbn [thread_spans]; rewrite ?(proj2 (Z.eqb_neq _ _) N), IH; destruct (q t); destruct (ev_payload e) as [[]|]; reflexivity.
Qed.
Lemma group_nested q evs : nested_recording evs -> nested_recording (group q evs).
Proof. intros H t. rewrite group_spans. destruct (q t); [apply H|exact Logic.I]. Qed.
Lemma group_all_spans q evs l : all_thread_spans evs l -> all_thread_spans (group q evs) (filter (fun x => q (fst x)) l).
Proof.
  intros (N & K & S1). assert (M : map fst (filter (fun x : Z * (Z * Z) => q (fst x)) l) = filter q (map fst l)).
  { clear. induction l as [|x l IH]; cbn [filter map]; [reflexivity|]. destruct (q (fst x)); cbn [map]; rewrite IH; reflexivity. }
  split; [rewrite M; apply NoDup_filter, N|]. split.
  - intros t. rewrite M, filter_In, K, group_spans. destruct (q t); intuition congruence.
  - intros t a b Hin. apply filter_In in Hin. cbn [fst] in Hin. destruct Hin as (Hin & Q). specialize (S1 t a b Hin). unfold spans_thread in *. rewrite group_spans, Q. exact S1.
Qed.
End Split.

(** Every number of every label is the sum of what the two groups of threads have alone; so are the artifact
    sizes (modulo 2^64 where sums wrap) and the total time. *)
Theorem C98_numbers : forall p oc order order1 order2 evs r r1 r2,
  (forall l, Permutation l (order l)) -> (forall l, Permutation l (order1 l)) -> (forall l, Permutation l (order2 l)) -> nested_recording evs ->
  perform_analysis oc order evs = Ok r -> perform_analysis oc order1 (group p evs) = Ok r1 -> perform_analysis oc order2 (group (fun t => negb (p t)) evs) = Ok r2 ->
  forall field, In field numbers -> forall l, number field l r = number field l r1 + number field l r2.
Proof.
  intros p oc o o1 o2 evs r r1 r2 HO H1 H2 HN E E1 E2 field HF l.
  rewrite (number_row _ _ _ _ HO HN E field HF l), (number_row _ _ _ _ H1 (group_nested p evs HN) E1 field HF l), (number_row _ _ _ _ H2 (group_nested _ evs HN) E2 field HF l).
  apply split_row, HF.
Qed.
Theorem C98_total : forall p oc order order1 order2 evs r r1 r2,
  perform_analysis oc order evs = Ok r -> perform_analysis oc order1 (group p evs) = Ok r1 -> perform_analysis oc order2 (group (fun t => negb (p t)) evs) = Ok r2 ->
  total_time r = total_time r1 + total_time r2.
Proof.
  intros p oc o o1 o2 evs r r1 r2 E E1 E2. destruct (C27_total_time _ _ _ _ E) as (l & L & ->). destruct (C27_total_time _ _ _ _ E1) as (l1 & L1 & ->). destruct (C27_total_time _ _ _ _ E2) as (l2 & L2 & ->).
  pose proof (C27_unique _ _ _ L1 (group_all_spans p p evs l L)) as P1. pose proof (C27_unique _ _ _ L2 (group_all_spans p (fun t => negb (p t)) evs l L)) as P2.
  rewrite (zsum_perm _ _ (Permutation_map _ P1)), (zsum_perm _ _ (Permutation_map _ P2)). clear. unfold zsum.
  induction l as [|(t, (a, b)) l IH]; [reflexivity|]. cbn [filter map fst snd fold_right]. destruct (p t); cbn [negb map fst snd fold_right]; lia.
Qed.
Lemma size_total oc order evs r : integers_ok evs -> perform_analysis oc order evs = Ok r ->
  forall l, size l r = artifact_total evs l mod 2 ^ 64 /\ (oc = true -> artifact_total evs l < 2 ^ 64).
Proof.
  intros HI H l. destruct (C29_artifacts _ _ _ _ HI H) as (_ & R). destruct (analysis_inv _ _ _ _ H) as (s & Hs & _ & _ & HA & _). pose proof (ainv_run oc evs HI s Hs) as [A1 A2 A3].
  unfold size. destruct (find _ (artifact_sizes r)) as [[l' v]|] eqn:E.
  - apply find_some in E. destruct E as (Ha & El). cbn [art_label] in El. apply beq_true in El. subst l'. apply R in Ha. destruct Ha as (_ & Ha & Hb). auto.
  - destruct (map_get beq l (a_artifacts s)) as [x|] eqn:G.
    + exfalso. destruct (A3 _ _ G) as (_ & C2 & _). apply (get_In beq beq_eq) in G. apply (in_map snd) in G. cbn [snd] in G. rewrite <- HA in G.
      apply (find_none _ _ E) in G. cbv beta in G. rewrite C2, beq_refl in G. discriminate.
    + apply A2 in G. destruct G as (_ & ->). split; [reflexivity|]. intros _. apply Z.pow_pos_nonneg; lia.
Qed.
Lemma total_nonneg evs l : integers_ok evs -> 0 <= artifact_total evs l.
Proof.
  intros HI. unfold artifact_total. assert (F : Forall (fun v => 0 <= v) (map int_value (filter (fun e => is_artifact e && labelled l e) evs))).
  { apply Forall_forall. intros v Hv. apply in_map_iff in Hv. destruct Hv as (e & <- & He). apply filter_In in He. destruct He as (He & _). unfold int_value. destruct (ev_payload e) as [|v] eqn:EP; [lia|].
    specialize (HI e v He EP). lia. }
  unfold zsum. induction F as [|v vs Hv F IH]; cbn [fold_right]; lia.
Qed.
Theorem C98_sizes : forall p oc order order1 order2 evs r r1 r2, integers_ok evs ->
  perform_analysis oc order evs = Ok r -> perform_analysis oc order1 (group p evs) = Ok r1 -> perform_analysis oc order2 (group (fun t => negb (p t)) evs) = Ok r2 ->
  forall l, size l r = (size l r1 + size l r2) mod 2 ^ 64 /\ (oc = true -> size l r = size l r1 + size l r2).
Proof.
  intros p oc o o1 o2 evs r r1 r2 HI E E1 E2 l.
  assert (HG : forall q, integers_ok (group q evs)) by (intros q e v He; apply (HI e v); apply filter_In in He; tauto).
  destruct (size_total _ _ _ _ HI E l) as (-> & B). destruct (size_total _ _ _ _ (HG p) E1 l) as (-> & _). destruct (size_total _ _ _ _ (HG (fun t => negb (p t))) E2 l) as (-> & _).
  rewrite (split_artifacts p evs l) in *. pose proof (total_nonneg _ l (HG p)) as N1. pose proof (total_nonneg _ l (HG (fun t => negb (p t)))) as N2.
  split; [apply Zplus_mod|]. intros Ho. specialize (B Ho). rewrite !Z.mod_small by lia. reflexivity.
Qed.
(** ... and the groups are analysed without trouble if the whole is within bounds. *)
Theorem C98_groups : forall p oc order evs t0 W, nested_recording evs -> integers_ok evs ->
  (forall e a b, In e evs -> ev_payload e = Timestamp (Interval a b) -> t0 <= a /\ b <= t0 + W) ->
  0 <= W -> zlen evs * W <= DURATION_MAX -> (oc = true -> forall l, artifact_total evs l < 2 ^ 64) ->
  exists r1, perform_analysis oc order (group p evs) = Ok r1.
Proof.
  intros p oc order evs t0 W HN HI HW W0 HL HA. apply (C26_no_panic oc order (group p evs) t0 W).
  - apply group_nested, HN.
  - intros e v He. apply (HI e v). apply filter_In in He. tauto.
  - intros e a b He. apply (HW e a b). apply filter_In in He. tauto.
  - exact W0.
  - assert (zlen (group p evs) <= zlen evs) by (unfold group; clear; induction evs as [|e evs IH]; cbn [filter]; [lia|]; destruct (p (ev_thread e)); rewrite ?zlen_cons; lia). nia.
  - intros Ho l. specialize (HA Ho l). rewrite (split_artifacts p) in HA. assert (N : 0 <= artifact_total (group (fun t => negb (p t)) evs) l); [|lia].
    apply total_nonneg. intros e v He. apply (HI e v). apply filter_In in He. tauto.
Qed.
(** Two threads, interleaved, that run the same query. *)
Definition ex_pair : list event :=
  [mkEv (str "Query") (str "typeck") [] (Timestamp (Interval 1500 1700)) 1;
   mkEv (str "Query") (str "typeck") [] (Timestamp (Interval 1200 1900)) 2;
   mkEv (str "ArtifactSize") (str "obj") [] (Integer 5) 2;
   mkEv (str "Query") (str "main") [] (Timestamp (Interval 1000 2000)) 1;
   mkEv (str "ArtifactSize") (str "obj") [] (Integer 7) 1].
Example ex_C98 : nested_recording ex_pair /\ integers_ok ex_pair /\
  exists r r1 r2, perform_analysis true (fun l => l) ex_pair = Ok r /\ perform_analysis true (fun l => l) (group (fun t => t =? 1) ex_pair) = Ok r1 /\
    perform_analysis true (fun l => l) (group (fun t => negb (t =? 1)) ex_pair) = Ok r2 /\
    number q_self_time (str "typeck") r = 900 /\ number q_self_time (str "typeck") r1 = 200 /\ number q_self_time (str "typeck") r2 = 700 /\
    number q_count (str "main") r2 = 0 /\ total_time r = 1700 /\ size (str "obj") r = 12.
Proof.
  split; [|split].
  - intros t. unfold ex_pair. cbn [thread_spans ev_payload ev_thread]. destruct (Z.eqb_spec 1 t), (Z.eqb_spec 2 t); try lia; cbn [laminar]; auto.
    + unfold nests. cbn [fst snd]. split; [lia|]. split; [constructor; [cbn; lia|constructor]|]. split; [lia|]. split; [constructor|exact Logic.I].
    + cbn [fst snd]. split; [lia|]. split; [constructor|exact Logic.I].
  - intros e v He EP. unfold ex_pair in He. cbn [In] in He. destruct He as [<-|[<-|[<-|[<-|[<-|[]]]]]]; cbn [ev_payload] in EP; try discriminate; injection EP as <-; lia.
  - eexists. eexists. eexists. split; [vm_compute; reflexivity|]. split; [vm_compute; reflexivity|]. split; [vm_compute; reflexivity|].
    vm_compute. auto 10.
Qed.
Print Assumptions C98_numbers.
Print Assumptions C98_total.
Print Assumptions C98_sizes.
Print Assumptions C98_groups.
