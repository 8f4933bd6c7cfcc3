(** C96: thread ids are only names.  Specification S_Rename.v. *)
From Coq Require Import String ZArith List Lia Bool.
From Verif Require Import M_Base F_Base M_Raw M_V8 M_Map M_Iter M_Analysis M_Collapse M_Diff M_Aggregate M_Tools S_Shift S_Rename Prop_Shift Prop_Shift2.
Import ListNotations.
Open Scope Z_scope.
Local Open Scope list_scope.

Section Rename.
Variable f : Z -> Z.
Hypothesis Hf : distinct f.
Notation R := (rethread f).
Lemma eqb_f a b : (f a =? f b) = (a =? b).
Proof. destruct (Z.eqb_spec (f a) (f b)) as [E|E], (Z.eqb_spec a b) as [E'|E']; auto; [apply Hf in E; contradiction|subst; contradiction]. Qed.

Section Maps.
Context {V : Type} (g : V -> V).
Notation up := (map (fun x : Z * V => (f (fst x), g (snd x)))).
Lemma get_ren t m : map_get Z.eqb (f t) (up m) = option_map g (map_get Z.eqb t m).
Proof. induction m as [|(t', v) m IH]; cbn [map map_get fst snd]; [reflexivity|]. rewrite eqb_f. destruct (t =? t'); [reflexivity|exact IH]. Qed.
Lemma put_ren t v m : map_put Z.eqb (f t) (g v) (up m) = up (map_put Z.eqb t v m).
Proof. induction m as [|(t', v') m IH]; cbn [map map_put fst snd]; [reflexivity|]. rewrite eqb_f. destruct (t =? t'); cbn [map fst snd]; [reflexivity|]. rewrite IH. reflexivity. Qed.
End Maps.

(** ** summarize *)
Definition th_ren (t : thread_state) : thread_state := mkTh (map R (th_stack t)) (th_start t) (th_end t).
Definition a_ren (s : astate) : astate := mkA (a_query s) (a_artifacts s) (map (fun x => (f (fst x), th_ren (snd x))) (a_threads s)).
Lemma pop_ren stack e : pop_non_parents (map R stack) (R e) = map R (pop_non_parents stack e).
Proof. induction stack as [|t stack IH]; cbn [pop_non_parents map]; [reflexivity|]. cbn [rethread ev_payload]. destruct (contains _ _); [reflexivity|exact IH]. Qed.
Lemma step_ren oc s e : analysis_step oc (a_ren s) (R e) = rmap a_ren (analysis_step oc s e).
Proof.
  unfold analysis_step. change (ev_kind (R e)) with (ev_kind e). change (ev_label (R e)) with (ev_label e). change (ev_payload (R e)) with (ev_payload e). change (ev_thread (R e)) with (f (ev_thread e)).
  pose proof (pop_ren) as P. destruct (ev_payload e) as [[s0 e0|t0]|v] eqn:E.
  - rewrite <- E in *. cbn [a_ren a_threads a_query a_artifacts].
    rewrite get_ren. set (th := match map_get Z.eqb (ev_thread e) (a_threads s) with Some t => t | None => mkTh [] s0 e0 end).
    replace (match option_map th_ren (map_get Z.eqb (ev_thread e) (a_threads s)) with Some t => t | None => mkTh [] s0 e0 end) with (th_ren th) by (unfold th; destruct (map_get Z.eqb (ev_thread e) (a_threads s)); reflexivity).
    cbn [th_ren th_stack th_start th_end]. rewrite P. rewrite rmap_bind. apply bind_same. intros dur.
    set (st := pop_non_parents (th_stack th) e).
    replace (match map R st with [] => Ok (a_query s) | top :: _ => record_event_data (a_query s) (ev_label top) (parent_update (ev_kind top) dur) end)
      with (match st with [] => Ok (a_query s) | top :: _ => record_event_data (a_query s) (ev_label top) (parent_update (ev_kind top) dur) end) by (destruct st; reflexivity).
    rewrite rmap_bind. apply bind_same. intros q1. rewrite rmap_bind. apply bind_same. intros q2. cbn [rmap]. unfold a_ren. cbn [a_query a_artifacts a_threads]. f_equal. f_equal.
    rewrite <- (put_ren th_ren). reflexivity.
  - destruct (beq (ev_kind e) QUERY_CACHE_HIT_EVENT_KIND); [|reflexivity]. cbn [a_ren a_query a_artifacts a_threads]. rewrite rmap_bind. apply bind_same. reflexivity.
  - destruct (beq (ev_kind e) ARTIFACT_SIZE_EVENT_KIND); [|reflexivity]. cbn [a_ren a_query a_artifacts a_threads]. rewrite rmap_bind. apply bind_same. reflexivity.
Qed.
Lemma spans_ren l : sum_spans (map (fun x => (f (fst x), th_ren (snd x))) l) = sum_spans l.
Proof.
  unfold sum_spans. rewrite (foldM_sim (fun acc t => do d <- thread_span (snd t); dadd acc d) (fun acc t => do d <- thread_span (snd t); dadd acc d) (fun x : Z => x) (fun x : Z * thread_state => (f (fst x), th_ren (snd x)))); [apply rmap_id|].
  intros s (t, th). rewrite rmap_id. reflexivity.
Qed.

(** ** stack_collapse *)
Definition ct_ren (t : cthread) : cthread := mkCt (map R (ct_stack t)) (ct_id t) (ct_start t) (ct_end t) (ct_total t).
Definition c_ren (s : cstate) : cstate := mkC (c_counters s) (map (fun x => (f (fst x), ct_ren (snd x))) (c_threads s)).
Lemma c_pop_ren stack e : forall id, c_pop (map R stack) id (R e) = rmap (fun p => (map R (fst p), snd p)) (c_pop stack id e).
Proof.
  induction stack as [|t stack IH]; intros id; cbn [c_pop map]; [reflexivity|]. change (ev_payload (R t)) with (ev_payload t). change (ev_payload (R e)) with (ev_payload e). destruct (contains _ _); [reflexivity|].
  change (ev_label (R t)) with (ev_label t). destruct (zlen (ev_label t) + 1 <=? zlen id); [apply IH|reflexivity].
Qed.
Lemma c_step_ren oc s e : collapse_step oc (c_ren s) (R e) = rmap c_ren (collapse_step oc s e).
Proof.
  unfold collapse_step, nanos_u64. change (ev_label (R e)) with (ev_label e). change (ev_payload (R e)) with (ev_payload e). change (ev_thread (R e)) with (f (ev_thread e)).
  destruct (ev_payload e) as [[s0 e0|t0]|v] eqn:E; [|reflexivity|reflexivity].
  cbn [c_ren c_threads c_counters]. rewrite get_ren. set (th := match map_get Z.eqb (ev_thread e) (c_threads s) with Some t => t | None => mkCt [] (str "rustc") s0 e0 0 end).
  replace (match option_map ct_ren (map_get Z.eqb (ev_thread e) (c_threads s)) with Some t => t | None => mkCt [] (str "rustc") s0 e0 0 end) with (ct_ren th) by (unfold th; destruct (map_get Z.eqb (ev_thread e) (c_threads s)); reflexivity).
  cbn [ct_ren ct_stack ct_id ct_start ct_end ct_total]. rewrite c_pop_ren, rmap_bind, bind_rmap. apply bind_same. intros (stack, id). cbn [fst snd].
  match goal with |- bind ?x _ = rmap _ (bind ?y _) => replace x with y by (destruct stack; reflexivity) end.
  rewrite rmap_bind. apply bind_same. intros (counters, total). rewrite rmap_bind. apply bind_same. intros d. rewrite rmap_bind. apply bind_same. intros v. cbn [rmap]. unfold c_ren. cbn [c_counters c_threads]. f_equal. f_equal.
  rewrite <- (put_ren ct_ren). reflexivity.
Qed.
Lemma gaps_ren oc l : foldM (gap_step oc) 0 (map (fun x => (f (fst x), ct_ren (snd x))) l) = foldM (gap_step oc) 0 l.
Proof.
  rewrite (foldM_sim (gap_step oc) (gap_step oc) (fun x : Z => x) (fun x : Z * cthread => (f (fst x), ct_ren (snd x)))); [apply rmap_id|].
  intros s (t, th). rewrite rmap_id. reflexivity.
Qed.

(** ** aggregate *)
Definition wp_ren (w : with_parent event) : with_parent event := mkW (R (w_this w)) (option_map R (w_parent w)).
Definition pt_ren (p : spoint (with_parent event)) : spoint (with_parent event) := sp_map wp_ren p.
Definition same_sp (s' s : spoints) : Prop :=
  rev_events s' = map R (rev_events s) /\ sp_stack s' = map R (sp_stack s) /\ (rev_events s = [] \/ expected_thread s' = f (expected_thread s)).
Definition same_si (i' i : sintervals) : Prop := fst i' = option_map pt_ren (fst i) /\ same_sp (snd i') (snd i).
Definition iv_ren (i : sinterval (with_parent event)) : sinterval (with_parent event) := mkSI (pt_ren (si_start i)) (pt_ren (si_end i)).
Lemma new_ren evs : same_sp (sp_new (map R evs)) (sp_new evs).
Proof.
  unfold sp_new, same_sp. rewrite <- map_rev. cbn [expected_thread rev_events sp_stack].
  assert (E : filter (fun e => negb (p_is_integer (ev_payload e))) (map R (rev evs)) = map R (filter (fun e => negb (p_is_integer (ev_payload e))) (rev evs))).
  { induction (rev evs) as [|e l IH]; cbn [filter map]; [reflexivity|]. change (ev_payload (R e)) with (ev_payload e). destruct (negb _); cbn [map]; rewrite IH; reflexivity. }
  rewrite E. split; [reflexivity|]. split; [reflexivity|]. destruct (filter _ (rev evs)); [left; reflexivity|right; reflexivity].
Qed.
Lemma sp_next_ren s' s : same_sp s' s -> rel (orel (fun x y => fst x = pt_ren (fst y) /\ same_sp (snd x) (snd y))) (sp_next s') (sp_next s).
Proof.
  destruct s' as [x r' st'], s as [x0 r st]. unfold same_sp. cbn [rev_events sp_stack expected_thread]. intros (-> & -> & HX). unfold sp_next. cbn [rev_events sp_stack expected_thread].
  destruct r as [|e r]; cbn [map].
  - destruct st as [|top st]; cbn [map]; [exact I|]. cbn [rel orel fst snd]. split; [destruct st; reflexivity|]. split; [reflexivity|]. split; [reflexivity|left; reflexivity].
  - destruct HX as [HX|HX]; [discriminate|]. subst x. change (ev_payload (R e)) with (ev_payload e). change (ev_thread (R e)) with (f (ev_thread e)). rewrite eqb_f.
    destruct (p_is_integer (ev_payload e)); [exact I|]. destruct (negb (ev_thread e =? x0)); [exact I|]. cbv zeta.
    assert (HE : rel (orel (fun x y => fst x = pt_ren (fst y) /\ same_sp (snd x) (snd y)))
      (match ev_payload e with Timestamp (Interval _ _) => Ok (Some (SEnd (mkW (R e) (nth_error (R e :: map R st) 1)), mkSP (f x0) (map R r) (R e :: map R st)))
        | Timestamp (Instant _) => Ok (Some (SInstant (mkW (R e) (hd_error (map R st))), mkSP (f x0) (map R r) (map R st))) | Integer _ => Panic end)
      (match ev_payload e with Timestamp (Interval _ _) => Ok (Some (SEnd (mkW e (nth_error (e :: st) 1)), mkSP x0 r (e :: st)))
        | Timestamp (Instant _) => Ok (Some (SInstant (mkW e (hd_error st)), mkSP x0 r st)) | Integer _ => Panic end)).
    { destruct (ev_payload e) as [[s0 e0|t0]|v]; cbn [rel orel fst snd]; [| |exact I]; (split; [destruct st; reflexivity|]; split; [reflexivity|]; split; [reflexivity|right; reflexivity]). }
    destruct st as [|top st]; cbn [map] in *; [exact HE|]. change (ev_payload (R top)) with (ev_payload top). destruct (negb (contains (ev_payload top) (ev_payload e))); [|exact HE].
    cbn [rel orel fst snd]. split; [destruct st; reflexivity|]. split; [reflexivity|]. split; [reflexivity|right; reflexivity].
Qed.
Lemma si_next_ren i' i : same_si i' i -> rel (orel (fun x y => same_iv (fst x) (fst y) /\ same_si (snd x) (snd y))) (si_next i') (si_next i).
Proof.
  destruct i' as (o', s'), i as (o, s). intros (E & HS). cbn [fst snd] in E, HS. subst o'. unfold si_next. cbn [fst snd]. eapply rel_bind; [exact (sp_next_ren s' s HS)|].
  intros [(p', s1')|] [(p, s1)|]; cbn [orel fst snd]; try contradiction; [|intros; exact I]. intros (-> & HS1). destruct o as [q|]; cbn [option_map]; [|exact I].
  cbn [rel orel fst snd]. split; [|split; [reflexivity|exact HS1]].
  assert (W : forall w, w_map desc_of (wp_ren w) = w_map desc_of w) by (intros w; unfold w_map, wp_ren; cbn [w_this w_parent]; destruct (w_parent w); reflexivity).
  split.
  - unfold describe_interval, si_map, pt_ren. cbn [si_start si_end]. destruct p, q; cbn [sp_map]; rewrite !W; reflexivity.
  - unfold si_duration, pt_ren. cbn [si_start si_end]. destruct p, q; reflexivity.
Qed.
Lemma si_new_ren evs : rel same_si (si_new (sp_new (map R evs))) (si_new (sp_new evs)).
Proof.
  unfold si_new. eapply rel_bind; [exact (sp_next_ren _ _ (new_ren evs))|]. intros [(p', s1')|] [(p, s1)|]; cbn [orel fst snd]; try contradiction.
  - intros (-> & HS). split; [reflexivity|exact HS].
  - intros _. split; [reflexivity|apply new_ren].
Qed.
End Rename.
(** summarize *)
Theorem C96_summary : forall f oc order evs, distinct f -> perform_analysis oc order (map (rethread f) evs) = perform_analysis oc order evs.
Proof.
  intros f oc order evs Hf. unfold perform_analysis. rewrite <- map_rev. change astate_init with (a_ren f astate_init) at 1.
  rewrite (foldM_sim (analysis_step oc) (analysis_step oc) (a_ren f) (rethread f) (step_ren f Hf oc)), bind_rmap. apply bind_same. intros s.
  cbn [a_ren a_threads a_query a_artifacts]. rewrite spans_ren. reflexivity.
Qed.
(** stack_collapse and flamegraph *)
Theorem C96_stacks : forall f oc evs, distinct f -> collapse_stacks oc (map (rethread f) evs) = collapse_stacks oc evs.
Proof.
  intros f oc evs Hf. unfold collapse_stacks. rewrite <- map_rev. change (mkC [] []) with (c_ren f (mkC [] [])) at 1.
  rewrite (foldM_sim (collapse_step oc) (collapse_step oc) (c_ren f) (rethread f) (c_step_ren f Hf oc)), bind_rmap. apply bind_same. intros s.
  cbn [c_ren c_threads c_counters]. rewrite gaps_ren. reflexivity.
Qed.
(** summarize aggregate: every profile with its own thread ids *)
Theorem C96_aggregate : forall oc ps' ps r, other_threads ps' ps -> (aggregate_profiles oc ps' r <-> aggregate_profiles oc ps r).
Proof.
  intros oc ps' ps r F. set (same := fun i' i => exists f, distinct f /\ same_si f i' i).
  assert (HN : forall i' i, same i' i -> rel (orel (fun x y => same_iv (fst x) (fst y) /\ same (snd x) (snd y))) (si_next i') (si_next i)).
  { intros i' i (f & Hf & HS). eapply rel_weaken; [|exact (si_next_ren f Hf i' i HS)]. intros [x|] [y|]; cbn [orel]; auto. intros (A & B). split; [exact A|]. exists f. auto. }
  apply (aggregate_same same HN). induction F as [|evs' evs l m (f & Hf & ->) F IH]; constructor; [|exact IH].
  eapply rel_weaken; [|exact (si_new_ren f Hf evs)]. intros a b H. exists f. auto.
Qed.

(** Two threads, recorded under other ids. *)
Definition ex_two : list event :=
  [mkEv (str "Query") (str "inner") [] (Timestamp (Interval 1500 1700)) 1;
   mkEv (str "Query") (str "other") [] (Timestamp (Interval 1200 1900)) 2;
   mkEv (str "Query") (str "outer") [] (Timestamp (Interval 1000 2000)) 1].
Example ex_C96 : distinct (fun t => 7 - t) /\ map (rethread (fun t => 7 - t)) ex_two <> ex_two /\
  (exists m, collapse_stacks true (map (rethread (fun t => 7 - t)) ex_two) = Ok m /\ map_get beq (str "rustc;outer;inner") m = Some 200) /\
  (exists r, perform_analysis true (fun l => l) (map (rethread (fun t => 7 - t)) ex_two) = Ok r /\ total_time r = 1700) /\
  (* ids that are not kept apart do matter *)
  collapse_stacks true (map (rethread (fun _ => 1)) ex_two) <> collapse_stacks true ex_two.
Proof.
  split; [intros a b H; lia|]. split; [discriminate|]. split; [eexists; split; vm_compute; reflexivity|]. split; [eexists; split; vm_compute; reflexivity|].
  intro E. vm_compute in E. discriminate.
Qed.
Example ex_C96_aggregate : exists ps' ps, other_threads ps' ps /\ ps' <> ps /\ exists r, aggregate_profiles true ps (Ok r) /\ aggregate_profiles true ps' (Ok r).
Proof.
  set (run1 := [mkEv (str "Query") (str "inner") [] (Timestamp (Interval 1500 1700)) 1; mkEv (str "Query") (str "outer") [] (Timestamp (Interval 1000 2000)) 1]).
  exists [run1; map (rethread (fun t => t + 5)) run1], [run1; run1].
  assert (H : other_threads [run1; map (rethread (fun t => t + 5)) run1] [run1; run1]).
  { constructor; [exists (fun t => t); split; [intros a b E; exact E|reflexivity]|]. constructor; [exists (fun t => t + 5); split; [intros a b E; lia|reflexivity]|constructor]. }
  split; [exact H|]. split; [discriminate|].
  assert (A : exists r, aggregate_profiles true [run1; run1] (Ok r)).
  { eassert (B : aggregate_profiles true [run1; run1] _).
    { eapply ap_ok; [vm_compute; reflexivity|]. eapply dr_step; [vm_compute; reflexivity|]. eapply dr_step; [vm_compute; reflexivity|]. eapply dr_step; [vm_compute; reflexivity|].
      apply dr_done. vm_compute. reflexivity. }
    match type of B with aggregate_profiles _ _ ?x => let y := eval vm_compute in x in change x with y in B end. eexists. exact B. }
  destruct A as (r & A). exists r. split; [exact A|]. apply (C96_aggregate true _ _ (Ok r) H). exact A.
Qed.
Print Assumptions C96_summary.
Print Assumptions C96_stacks.
Print Assumptions C96_aggregate.
