(** C25-C29: perform_analysis.  Model M_Analysis.v, specification S_Analysis.v and S_Summary.v. *)
From Coq Require Import ZArith List Lia Bool Permutation String Sorted.
From Verif Require Import M_Base F_Base M_Raw M_V8 M_Map M_Session M_Guard S_Guard S_Analysis M_Analysis S_Summary
  F_Analysis F_Analysis2 F_Analysis3.
Import ListNotations.
Open Scope Z_scope.

Definition integers_ok (evs : list event) : Prop := forall e v, In e evs -> ev_payload e = Integer v -> 0 <= v < 2 ^ 64.

Lemma analysis_inv oc order evs r : perform_analysis oc order evs = Ok r ->
  exists s, foldM (analysis_step oc) astate_init (rev evs) = Ok s /\ inv evs s /\
    query_data r = order (map snd (a_query s)) /\ artifact_sizes r = map snd (a_artifacts s) /\ sum_spans (a_threads s) = Ok (total_time r).
Proof.
  unfold perform_analysis. destruct (foldM (analysis_step oc) astate_init (rev evs)) as [s| | |] eqn:E; cbn [bind]; try discriminate.
  destruct (sum_spans (a_threads s)) as [t| | |] eqn:E2; cbn [bind]; try discriminate. intros [= <-].
  exists s. cbn. split; auto. split; auto. eapply inv_run; eauto.
Qed.
Lemma ninv_run oc evs : nested_recording evs -> forall s, foldM (analysis_step oc) astate_init (rev evs) = Ok s -> ninv evs s.
Proof.
  induction evs as [|e r IH]; intros HN s.
  - cbn. intros [= <-]. apply ninv_init.
  - rewrite foldM_rev_cons. destruct (foldM (analysis_step oc) astate_init (rev r)) as [s0| | |] eqn:E; cbn [bind]; try discriminate.
    intros H. eapply ninv_step; eauto; [eapply inv_run; eauto|]. apply IH; auto. eapply nested_cons_inv; eauto.
Qed.
Lemma ainv_run oc evs : integers_ok evs -> forall s, foldM (analysis_step oc) astate_init (rev evs) = Ok s -> ainv oc evs s.
Proof.
  induction evs as [|e r IH]; intros HN s.
  - cbn. intros [= <-]. apply ainv_init.
  - rewrite foldM_rev_cons. destruct (foldM (analysis_step oc) astate_init (rev r)) as [s0| | |] eqn:E; cbn [bind]; try discriminate.
    intros H. eapply ainv_step; eauto.
    + intros v Hv. apply (HN e v); auto. left; auto.
    + apply IH; auto. intros x v Hx. apply HN. right; auto.
Qed.
Lemma values_NoDup (m : list (bytes * qdata)) : NoDup (map fst m) -> (forall l d, map_get beq l m = Some d -> q_label d = l) ->
  NoDup (map q_label (map snd m)) /\ forall q, In q (map snd m) <-> map_get beq (q_label q) m = Some q.
Proof.
  intros HN HL. assert (E : map q_label (map snd m) = map fst m).
  { rewrite map_map. apply map_ext_in. intros [k v] Hin. cbn [fst snd]. apply HL. apply (In_get beq); auto. }
  split; [congruence|]. intros q. split.
  - intros H. apply in_map_iff in H. destruct H as ([k v] & <- & H). cbn [snd].
    apply (In_get beq beq_eq) in H; auto. rewrite (HL _ _ H). auto.
  - intros H. apply (get_In beq beq_eq) in H. apply (in_map snd) in H. auto.
Qed.
Lemma row_of_some m l d : map_get beq l m = Some d -> row_of m l = d.
Proof. unfold row_of. intros ->. reflexivity. Qed.

(** ** C25 *)
(** On a nested recording the table has exactly one row per contributing label, and the row is the
    specified one: total time, self time (duration minus direct children), counts, blocked, load and
    hashing time. *)
Theorem C25_rows : forall oc order evs r, (forall l, Permutation l (order l)) -> nested_recording evs ->
  perform_analysis oc order evs = Ok r ->
  NoDup (map q_label (query_data r)) /\
  forall q, In q (query_data r) <-> has_row evs (q_label q) /\ q = expected_row evs (q_label q).
Proof.
  intros oc order evs r HO HN H. destruct (analysis_inv _ _ _ _ H) as (s & Hs & I & Hq & _ & _).
  pose proof (ninv_run _ _ HN _ Hs) as N. rewrite Hq.
  pose proof (HO (map snd (a_query s))) as HP. set (m := a_query s) in *.
  destruct (values_NoDup m (i_qnodup _ _ I) (i_label _ _ I)) as [V1 V2].
  assert (R : forall l, row_of m l = mkQ (q_label (row_of m l)) (q_time (expected_row evs l)) (q_self_time (expected_row evs l))
    (q_misses (expected_row evs l)) (q_hits (expected_row evs l)) (q_count (expected_row evs l)) (q_blocked (expected_row evs l))
    (q_load (expected_row evs l)) (q_hashing (expected_row evs l))).
  { intros l. rewrite <- (i_time _ _ I l), <- (i_misses _ _ I l), <- (i_hits _ _ I l), <- (i_count _ _ I l), <- (i_blocked _ _ I l),
      <- (n_self _ _ N l), <- (n_load _ _ N l), <- (n_hash _ _ N l). fold m. destruct (row_of m l); reflexivity. }
  split.
  - eapply Permutation_NoDup; [|exact V1]. apply Permutation_map; auto.
  - intros q. transitivity (In q (map snd m)).
    { split; apply Permutation_in; auto. apply Permutation_sym; auto. }
    rewrite V2, <- (i_rows _ _ I (q_label q)). fold m. split.
    + intros G. split; [eauto|]. rewrite <- (row_of_some _ _ _ G) at 1. rewrite R, (row_of_some _ _ _ G). reflexivity.
    + intros [[d G] E]. rewrite G. f_equal. rewrite E, <- (row_of_some _ _ _ G), R.
      rewrite (row_of_some _ _ _ G), (i_label _ _ I _ _ G). reflexivity.
Qed.
Print Assumptions C25_rows.

(** The self time of every single event is between zero and its duration. *)
Theorem C25_self_time_bounds : forall before p after, nested_recording (before ++ p :: after) ->
  0 <= children_time before p <= ev_len p.
Proof.
  intros w p r H. apply children_fit. replace (w ++ p :: r) with ((w ++ [p]) ++ r) in H by (rewrite <- app_assoc; reflexivity).
  apply nested_app_inv in H. tauto.
Qed.
Print Assumptions C25_self_time_bounds.

(** The parent used by the specification (and hence by the analysis) is the innermost enclosing
    interval: it is around the event, and every other interval around the event is around it. *)
Theorem C25_parent_is_innermost : forall e between p after x,
  nested_recording (e :: between ++ p :: after) -> 0 < ev_len e ->
  encloses p e = true -> existsb (fun y => encloses y e) between = false ->
  In x (between ++ p :: after) -> encloses x e = true -> encloses x p = true.
Proof.
  intros e w p r x HN HL Hp Hw Hx He. apply (parent_innermost e (w ++ p :: r) p x); auto.
  unfold parent_in. clear HN Hx. induction w as [|y w IH]; cbn [app find].
  - now rewrite Hp.
  - cbn [existsb] in Hw. apply orb_false_iff in Hw. destruct Hw as [-> Hw]. auto.
Qed.
Print Assumptions C25_parent_is_innermost.

(** ** C26 *)
Lemma sum_spans_acc (l : list (Z * thread_state)) : forall acc, (forall t th, In (t, th) l -> th_start th <= th_end th) ->
  0 <= acc -> acc + zsum (map (fun x => th_end (snd x) - th_start (snd x)) l) <= DURATION_MAX ->
  foldM (fun acc t => do d <- thread_span (snd t); dadd acc d) acc l = Ok (acc + zsum (map (fun x => th_end (snd x) - th_start (snd x)) l)).
Proof.
  induction l as [|[t th] l IH]; intros acc HL H0 HB; cbn [foldM map zsum fold_right] in *; [f_equal; lia|].
  cbn [snd] in *. unfold thread_span at 1. pose proof (HL t th (or_introl eq_refl)) as L.
  destruct (Z.leb_spec (th_start th) (th_end th)); [|lia]. cbn [bind]. unfold dadd at 1.
  assert (P : 0 <= zsum (map (fun x => th_end (snd x) - th_start (snd x)) l)).
  { clear -HL. induction l as [|[t' th'] l IH]; cbn [map zsum fold_right]; [lia|]. cbn [snd].
    pose proof (HL t' th' (or_intror (or_introl eq_refl))).
    assert (0 <= zsum (map (fun x : Z * thread_state => th_end (snd x) - th_start (snd x)) l)).
    { apply IH. intros u v [X|X]; apply (HL u v); [left|right; right]; auto. }
    unfold zsum in *. lia. }
  unfold zsum in *. destruct (Z.leb_spec (acc + (th_end th - th_start th)) DURATION_MAX); [|lia]. cbn [bind].
  rewrite IH; [f_equal; lia|..]; [intros; eapply HL; right; eauto|lia|lia].
Qed.

Lemma time_sum_window W t0 evs : (forall e a b, In e evs -> ev_payload e = Timestamp (Interval a b) -> t0 <= a /\ a <= b /\ b <= t0 + W) ->
  0 <= W -> time_sum (fun _ => true) evs <= zlen evs * W.
Proof.
  intros H HW. induction evs as [|e r IH]; cbn [time_sum]; [change (zlen (@nil _)) with 0; lia|]. rewrite zlen_cons.
  assert (ev_len e <= W).
  { unfold ev_len. destruct (ev_payload e) as [[a b|]|] eqn:E; try lia. pose proof (H e a b (or_introl eq_refl) E). lia. }
  assert (time_sum (fun _ => true) r <= zlen r * W) by (apply IH; intros; eapply H; eauto; right; auto). lia.
Qed.
Lemma zsum_bound {A} (f : A -> Z) W l : (forall x, In x l -> f x <= W) -> zsum (map f l) <= zlen l * W.
Proof.
  induction l as [|x l IH]; cbn [map zsum fold_right]; intros H; [change (zlen (@nil _)) with 0; lia|]. rewrite zlen_cons.
  pose proof (H x (or_introl eq_refl)). assert (zsum (map f l) <= zlen l * W) by (apply IH; intros; apply H; right; auto). unfold zsum in *. lia.
Qed.
Lemma artifact_total_nonneg evs l : integers_ok evs -> 0 <= artifact_total evs l.
Proof.
  induction evs as [|e r IH]; intros H; [reflexivity|]. rewrite artifact_total_cons.
  assert (0 <= artifact_total r l) by (apply IH; intros x v Hx; apply H; right; auto).
  destruct (_ && _); [|lia]. unfold int_value. destruct (ev_payload e) eqn:E; [lia|]. pose proof (H e v (or_introl eq_refl) E). lia.
Qed.

(** A nested recording is analysed without panic: durations never become negative.  The other two
    conditions exclude overflows: all intervals lie in a window of [W] ns ([2^48] for every file,
    C07) and number of events times [W] fits a [Duration] (65 trillion events); artifact sizes of a
    label add up to less than [2^64], or overflow checks are off. *)
Theorem C26_no_panic : forall oc order evs t0 W, nested_recording evs -> integers_ok evs ->
  (forall e a b, In e evs -> ev_payload e = Timestamp (Interval a b) -> t0 <= a /\ b <= t0 + W) ->
  0 <= W -> zlen evs * W <= DURATION_MAX ->
  (oc = true -> forall l, artifact_total evs l < 2 ^ 64) ->
  exists r, perform_analysis oc order evs = Ok r.
Proof.
  intros oc order evs t0 W HN HI HW W0 HB HA.
  assert (HW' : forall e a b, In e evs -> ev_payload e = Timestamp (Interval a b) -> t0 <= a /\ a <= b /\ b <= t0 + W).
  { intros e a b He Hp. destruct (HW e a b He Hp). apply in_split in He. destruct He as (x & y & ->).
    apply nested_app_inv in HN. destruct HN as [_ HN]. apply nested_len in HN. unfold ev_len in HN. rewrite Hp in HN. lia. }
  assert (R : exists s, foldM (analysis_step oc) astate_init (rev evs) = Ok s).
  { assert (HT : time_sum (fun _ => true) evs <= DURATION_MAX) by (pose proof (time_sum_window W t0 evs HW' W0); lia).
    clear HB HW HW'. induction evs as [|e r IH]; [eexists; reflexivity|]. rewrite foldM_rev_cons.
    pose proof (nested_cons_inv _ _ HN) as HNr. pose proof (nested_len _ _ HN) as HL. cbn [time_sum] in HT.
    assert (HIr : integers_ok r) by (intros x v Hx; apply HI; right; auto).
    destruct IH as [s Hs]; auto; [|lia|].
    { intros Hoc l. specialize (HA Hoc l). rewrite artifact_total_cons in HA.
      assert (0 <= int_value e) by (unfold int_value; destruct (ev_payload e) eqn:E; [lia|]; pose proof (HI e v (or_introl eq_refl) E); lia).
      destruct (_ && _); lia. }
    rewrite Hs. cbn [bind].
    destruct (p_is_integer (ev_payload e)) eqn:EI; [|eapply step_runs; eauto; [eapply inv_run; eauto|eapply ninv_run; eauto]].
    unfold analysis_step. destruct (ev_payload e) as [|v] eqn:He; [discriminate|]. rewrite <- (is_artifact_int e v He).
    destruct (is_artifact e) eqn:EA; [|eauto]. pose proof (ainv_run oc r HIr s Hs) as [A1 A2 A3].
    assert (V : oc = true -> art_value (match map_get beq (ev_label e) (a_artifacts s) with Some a => a | None => mkArt (ev_label e) 0 end) + v < U64).
    { intros Hoc. specialize (HA Hoc (ev_label e)). rewrite artifact_total_cons, EA, beq_refl in HA. cbn [andb] in HA. unfold int_value in HA. rewrite He in HA.
      pose proof (artifact_total_nonneg r (ev_label e) HIr). pose proof (HI e v (or_introl eq_refl) He).
      destruct (map_get beq (ev_label e) (a_artifacts s)) as [x|] eqn:G.
      - destruct (A3 _ _ G) as (_ & _ & -> & HX). rewrite Z.mod_small; unfold U64 in *; lia.
      - cbn [art_value]. unfold U64. lia. }
    cbn zeta. unfold u64_add. destruct (Z.ltb_spec (art_value (match map_get beq (ev_label e) (a_artifacts s) with Some a => a | None => mkArt (ev_label e) 0 end) + v) U64) as [L|L].
    - cbn [bind]. eauto.
    - destruct oc; [specialize (V eq_refl); lia|]. cbn [bind]. eauto. }
  destruct R as [s Hs]. unfold perform_analysis. rewrite Hs. cbn [bind]. pose proof (inv_run _ _ _ Hs) as I.
  assert (TH : forall t th, In (t, th) (a_threads s) -> spans_thread evs t (th_start th) (th_end th)).
  { intros t th Hin. apply (In_get Z.eqb zeqb_eq) in Hin; [|apply I]. pose proof (i_thread _ _ I t) as T. rewrite Hin in T. exact T. }
  assert (TW : forall t th, In (t, th) (a_threads s) -> th_start th <= th_end th <= th_start th + W).
  { intros t th Hin. destruct (TH t th Hin) as ((y & Y) & (x & X) & B).
    apply thread_spans_In in Y, X. destruct Y as (e1 & Y1 & Y2 & Y3). destruct X as (e2 & X1 & X2 & X3).
    pose proof (HW' _ _ _ Y1 Y3). pose proof (HW' _ _ _ X1 X3).
    assert (In (x, th_end th) (thread_spans t evs)) by (apply thread_spans_In; eauto). apply B in H1. lia. }
  unfold sum_spans. rewrite sum_spans_acc; [cbn [bind]; eauto|..].
  - intros t th Hin. apply (TW t th Hin).
  - lia.
  - assert (zsum (map (fun x => th_end (snd x) - th_start (snd x)) (a_threads s)) <= zlen (a_threads s) * W).
    { apply zsum_bound. intros [t th] Hin. cbn [snd]. pose proof (TW t th Hin). lia. }
    assert (zlen (a_threads s) <= zlen evs).
    { unfold zlen. apply inj_le. rewrite <- (map_length fst). rewrite <- (map_length ev_thread evs). apply NoDup_incl_length; [apply I|].
      intros t Ht. apply in_map_iff in Ht. destruct Ht as ([t' th] & <- & Hin). cbn [fst].
      destruct (TH _ _ Hin) as ((y & Y) & _). apply thread_spans_In in Y. destruct Y as (e1 & Y1 & Y2 & _).
      rewrite <- Y2. apply in_map; auto. }
    nia.
Qed.
Print Assumptions C26_no_panic.

(** The nesting condition is needed: guards that overlap instead of nesting (which the recording API
    permits) make the analysis panic, whatever the build settings. *)
Definition overlap_prog : list (gop * Z) :=
  [(GStart 1 1 10 7, 0); (GStart 2 1 20 7, 0); (GStart 3 1 20 7, 5); (GDrop 2, 10); (GDrop 3, 15); (GDrop 1, 15)].
Definition overlap_events : list event :=
  [mkEv (str "GenericActivity") (str "b") [] (Timestamp (Interval 0 10)) 7;
   mkEv (str "GenericActivity") (str "b") [] (Timestamp (Interval 5 15)) 7;
   mkEv (str "GenericActivity") (str "a") [] (Timestamp (Interval 0 15)) 7].
Theorem C26_overlap_refuted :
  monotone overlap_prog /\
  spans (grun (fun _ => None) overlap_prog) = thread_spans 7 overlap_events /\
  forall oc order, perform_analysis oc order overlap_events = Panic.
Proof.
  split; [unfold monotone; cbn; repeat constructor; lia|]. split; [reflexivity|].
  intros oc order. unfold perform_analysis.
  assert (E : foldM (analysis_step oc) astate_init (rev overlap_events) = Panic) by (destruct oc; vm_compute; reflexivity).
  rewrite E. reflexivity.
Qed.
Print Assumptions C26_overlap_refuted.

(** ** C27 *)
Lemma foldM_spans (l : list (Z * thread_state)) : forall acc tot, foldM (fun acc t => do d <- thread_span (snd t); dadd acc d) acc l = Ok tot ->
  tot = acc + zsum (map (fun x => th_end (snd x) - th_start (snd x)) l).
Proof.
  induction l as [|[t th] l IH]; intros acc tot; cbn [foldM map zsum fold_right]; [intros [= <-]; lia|].
  cbn [snd]. unfold thread_span at 1. destruct (th_start th <=? th_end th); cbn [bind]; [|discriminate].
  unfold dadd at 1. destruct (_ <=? _); cbn [bind]; [|discriminate]. intros H. apply IH in H. unfold zsum in *. lia.
Qed.
(** Whenever the analysis returns, the total time is the sum over the threads with an interval of
    latest end minus earliest start. *)
Theorem C27_total_time : forall oc order evs r, perform_analysis oc order evs = Ok r ->
  exists l, all_thread_spans evs l /\ total_time r = zsum (map (fun x => snd (snd x) - fst (snd x)) l).
Proof.
  intros oc order evs r H. destruct (analysis_inv _ _ _ _ H) as (s & Hs & I & _ & _ & HT).
  exists (map (fun x => (fst x, (th_start (snd x), th_end (snd x)))) (a_threads s)).
  assert (E : map fst (map (fun x => (fst x, (th_start (snd x), th_end (snd x)))) (a_threads s)) = map fst (a_threads s)) by (rewrite map_map; reflexivity).
  split.
  - unfold all_thread_spans. rewrite E. split; [apply I|]. split.
    + intros t. pose proof (i_thread _ _ I t) as T. destruct (map_get Z.eqb t (a_threads s)) as [th|] eqn:G.
      * split; [|intros _; apply (get_In Z.eqb zeqb_eq) in G; apply (in_map fst) in G; auto].
        intros _. destruct T as ((y & Y) & _). destruct (thread_spans t evs); [destruct Y|discriminate].
      * apply (get_None Z.eqb zeqb_eq) in G. split; [tauto|congruence].
    + intros t a b Hin. apply in_map_iff in Hin. destruct Hin as ([t' th] & [= <- <- <-] & Hin). cbn [fst snd].
      apply (In_get Z.eqb zeqb_eq) in Hin; [|apply I]. pose proof (i_thread _ _ I t') as T. rewrite Hin in T. exact T.
  - unfold sum_spans in HT. apply foldM_spans in HT. rewrite HT, map_map. reflexivity.
Qed.
Print Assumptions C27_total_time.
(** That list is unique up to order, so the number above is determined by the events alone. *)
Theorem C27_unique : forall evs l l', all_thread_spans evs l -> all_thread_spans evs l' -> Permutation l l'.
Proof.
  intros evs l l' (N1 & K1 & S1) (N2 & K2 & S2).
  assert (U : forall t a b a' b', spans_thread evs t a b -> spans_thread evs t a' b' -> (a, b) = (a', b')).
  { intros t a b a' b' ((y & Y) & (x & X) & B) ((y' & Y') & (x' & X') & B').
    apply B' in Y as ?. apply B' in X as ?. apply B in Y' as ?. apply B in X' as ?. f_equal; lia. }
  assert (HI : forall l l' : list (Z * (Z * Z)), NoDup (map fst l) -> NoDup (map fst l') ->
    (forall t, In t (map fst l) <-> thread_spans t evs <> []) -> (forall t, In t (map fst l') <-> thread_spans t evs <> []) ->
    (forall t a b, In (t, (a, b)) l -> spans_thread evs t a b) -> (forall t a b, In (t, (a, b)) l' -> spans_thread evs t a b) ->
    incl l l').
  { clear -U. intros l l' N1 N2 K1 K2 S1 S2 [t [a b]] Hin. assert (Ht : In t (map fst l')).
    { apply K2, K1. apply (in_map fst) in Hin. auto. }
    apply in_map_iff in Ht. destruct Ht as ([t' [a' b']] & E & Hin'). cbn [fst] in E. subst t'.
    rewrite (U t a b a' b'); auto. }
  apply NoDup_Permutation; [eapply NoDup_map_inv; eauto..|]. intros x. split; [apply (HI l l')|apply (HI l' l)]; auto.
Qed.
Print Assumptions C27_unique.

(** ** C28 *)
(** For every event list the analysis accepts, nested or not: one row per contributing label, with
    exact counts (and times). *)
Theorem C28_counts : forall oc order evs r, (forall l, Permutation l (order l)) -> perform_analysis oc order evs = Ok r ->
  NoDup (map q_label (query_data r)) /\
  (forall l, In l (map q_label (query_data r)) <-> has_row evs l) /\
  (forall q, In q (query_data r) -> let x := expected_row evs (q_label q) in
     q_count q = q_count x /\ q_hits q = q_hits x /\ q_misses q = q_misses x /\ q_time q = q_time x /\ q_blocked q = q_blocked x).
Proof.
  intros oc order evs r HO H. destruct (analysis_inv _ _ _ _ H) as (s & Hs & I & Hq & _ & _). rewrite Hq.
  pose proof (HO (map snd (a_query s))) as HP. set (m := a_query s) in *.
  destruct (values_NoDup m (i_qnodup _ _ I) (i_label _ _ I)) as [V1 V2].
  split; [eapply Permutation_NoDup; [|exact V1]; apply Permutation_map; auto|]. split.
  - intros l. rewrite <- (i_rows _ _ I l). fold m. transitivity (In l (map q_label (map snd m))).
    { split; apply Permutation_in; apply Permutation_map; auto. apply Permutation_sym; auto. }
    rewrite in_map_iff. split.
    + intros (q & <- & Hin). apply V2 in Hin. eauto.
    + intros (d & G). exists d. pose proof (i_label _ _ I _ _ G) as L. split; auto. apply V2. fold m in G. congruence.
  - intros q Hin. apply Permutation_sym in HP. apply (Permutation_in _ HP) in Hin. apply V2 in Hin. cbn zeta.
    pose proof (row_of_some _ _ _ Hin) as R. rewrite <- (i_count _ _ I), <- (i_hits _ _ I), <- (i_misses _ _ I), <- (i_time _ _ I), <- (i_blocked _ _ I).
    fold m. rewrite R. auto.
Qed.
Print Assumptions C28_counts.

(** ** C29 *)
Theorem C29_artifacts : forall oc order evs r, integers_ok evs -> perform_analysis oc order evs = Ok r ->
  StronglySorted lex_lt (map art_label (artifact_sizes r)) /\
  forall l v, In (mkArt l v) (artifact_sizes r) <->
    (exists e, In e evs /\ is_artifact e = true /\ ev_label e = l) /\
    v = artifact_total evs l mod 2 ^ 64 /\ (oc = true -> artifact_total evs l < 2 ^ 64).
Proof.
  intros oc order evs r HI H. destruct (analysis_inv _ _ _ _ H) as (s & Hs & _ & _ & HA & _). rewrite HA.
  pose proof (ainv_run oc evs HI s Hs) as [A1 A2 A3]. pose proof (sorted_NoDup _ A1) as ND.
  assert (E : map art_label (map snd (a_artifacts s)) = map fst (a_artifacts s)).
  { rewrite map_map. apply map_ext_in. intros [k v] Hin. cbn [fst snd]. apply (In_get beq beq_eq) in Hin; auto. destruct (A3 _ _ Hin) as (_ & -> & _). auto. }
  split; [rewrite E; auto|]. intros l v. split.
  - intros Hin. apply in_map_iff in Hin. destruct Hin as ([k x] & Ex & Hin). cbn [snd] in Ex. subst x.
    apply (In_get beq beq_eq) in Hin; auto. destruct (A3 _ _ Hin) as (B1 & B2 & B3 & B4). cbn [art_label art_value] in *. subst k. auto.
  - intros (B1 & B2 & B3). destruct (map_get beq l (a_artifacts s)) as [x|] eqn:G.
    + destruct (A3 _ _ G) as (_ & C2 & C3 & _). apply (get_In beq beq_eq) in G. apply (in_map snd) in G. cbn [snd] in G.
      replace (mkArt l v) with x; auto. destruct x as [xl xv]; cbn [art_label art_value] in *. subst. reflexivity.
    + apply A2 in G. tauto.
Qed.
Print Assumptions C29_artifacts.

(** ** A concrete case: two threads, nesting, a cache hit, hashing, loading and artifacts *)
Definition ex_events : list event :=
  [mkEv (str "IncrementalResultHashing") (str "q") [] (Timestamp (Interval 12 14)) 1;
   mkEv (str "Query") (str "p") [] (Timestamp (Interval 3 5)) 2;
   mkEv (str "QueryCacheHit") (str "q") [] (Timestamp (Instant 15)) 1;
   mkEv (str "Query") (str "q") [] (Timestamp (Interval 10 20)) 1;
   mkEv (str "ArtifactSize") (str "x") [] (Integer 4) 1;
   mkEv (str "IncrementalLoadResult") (str "q") [] (Timestamp (Interval 20 21)) 1;
   mkEv (str "ArtifactSize") (str "a") [] (Integer 5) 1;
   mkEv (str "ArtifactSize") (str "x") [] (Integer 6) 2;
   mkEv (str "GenericActivity") (str "p") [] (Timestamp (Interval 10 30)) 1].
Example ex_nested : nested_recording ex_events /\ integers_ok ex_events.
Proof.
  split.
  - intros t. unfold ex_events. cbn [thread_spans ev_payload ev_thread].
    destruct (Z.eqb_spec 1 t), (Z.eqb_spec 2 t); try lia; cbn [laminar]; unfold nests; cbn [fst snd]; repeat split; try lia;
      repeat (constructor; cbn [fst snd]; try lia).
  - intros e v Hin. cbn in Hin. repeat (destruct Hin as [<-|Hin]; [cbn; try discriminate; intros [= <-]; lia|]). destruct Hin.
Qed.
Example ex_result : perform_analysis true (fun l => rev l) ex_events =
  Ok (mkRes [mkQ (str "q") 11 11 1 1 2 0 1 2; mkQ (str "p") 22 11 2 0 2 0 0 0]
            [mkArt (str "a") 5; mkArt (str "x") 10] 22).
Proof. vm_compute. reflexivity. Qed.
