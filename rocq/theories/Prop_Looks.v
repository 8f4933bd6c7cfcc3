(** C97: what the analyses look at.  Specification S_Looks.v. *)
From Coq Require Import String ZArith List Lia Bool.
From Verif Require Import M_Base F_Base M_Raw M_V8 M_Map M_Session M_Iter M_Analysis M_Collapse M_Diff M_Aggregate M_Crox S_Shift S_Looks Prop_Shift.
Import ListNotations.
Open Scope Z_scope.
Local Open Scope list_scope.

Lemma foldM_skip {A S} (p : A -> bool) (f : S -> A -> res S) : (forall s a, p a = false -> f s a = Ok s) -> forall l s, foldM f s (filter p l) = foldM f s l.
Proof.
  intros H l. induction l as [|a l IH]; intros s; cbn [filter foldM]; [reflexivity|]. destruct (p a) eqn:E; cbn [foldM]; [apply bind_same; intros; apply IH|].
  rewrite (H s a E). cbn [bind]. apply IH.
Qed.
Lemma filter_rev' {A} (p : A -> bool) l : filter p (rev l) = rev (filter p l).
Proof. induction l as [|a l IH]; cbn [rev filter]; [reflexivity|]. rewrite filter_app, IH. cbn [filter]. destruct (p a); cbn [rev]; [reflexivity|apply app_nil_r]. Qed.

(** ** summarize *)
Notation R := no_args.
Definition th_bare (t : thread_state) : thread_state := mkTh (map R (th_stack t)) (th_start t) (th_end t).
Definition a_bare (s : astate) : astate := mkA (a_query s) (a_artifacts s) (map (fun x => (fst x, th_bare (snd x))) (a_threads s)).
Lemma pop_bare stack e : pop_non_parents (map R stack) (R e) = map R (pop_non_parents stack e).
Proof. induction stack as [|t stack IH]; cbn [pop_non_parents map]; [reflexivity|]. cbn [no_args ev_payload]. destruct (contains _ _); [reflexivity|exact IH]. Qed.
Lemma step_bare oc s e : analysis_step oc (a_bare s) (R e) = rmap a_bare (analysis_step oc s e).
Proof.
  unfold analysis_step. change (ev_kind (R e)) with (ev_kind e). change (ev_label (R e)) with (ev_label e). change (ev_payload (R e)) with (ev_payload e). change (ev_thread (R e)) with (ev_thread e).
  pose proof (pop_bare) as P. destruct (ev_payload e) as [[s0 e0|t0]|v] eqn:E.
  - rewrite <- E in *. cbn [a_bare a_threads a_query a_artifacts].
    rewrite get_up. set (th := match map_get Z.eqb (ev_thread e) (a_threads s) with Some t => t | None => mkTh [] s0 e0 end).
    replace (match option_map th_bare (map_get Z.eqb (ev_thread e) (a_threads s)) with Some t => t | None => mkTh [] s0 e0 end) with (th_bare th) by (unfold th; destruct (map_get Z.eqb (ev_thread e) (a_threads s)); reflexivity).
    cbn [th_bare th_stack th_start th_end]. rewrite P. rewrite rmap_bind. apply bind_same. intros dur.
    set (st := pop_non_parents (th_stack th) e).
    replace (match map R st with [] => Ok (a_query s) | top :: _ => record_event_data (a_query s) (ev_label top) (parent_update (ev_kind top) dur) end)
      with (match st with [] => Ok (a_query s) | top :: _ => record_event_data (a_query s) (ev_label top) (parent_update (ev_kind top) dur) end) by (destruct st; reflexivity).
    rewrite rmap_bind. apply bind_same. intros q1. rewrite rmap_bind. apply bind_same. intros q2. cbn [rmap]. unfold a_bare. cbn [a_query a_artifacts a_threads]. f_equal. f_equal.
    rewrite <- (put_up Z.eqb th_bare). reflexivity.
  - destruct (beq (ev_kind e) QUERY_CACHE_HIT_EVENT_KIND); [|reflexivity]. cbn [a_bare a_query a_artifacts a_threads]. rewrite rmap_bind. apply bind_same. reflexivity.
  - destruct (beq (ev_kind e) ARTIFACT_SIZE_EVENT_KIND); [|reflexivity]. cbn [a_bare a_query a_artifacts a_threads]. rewrite rmap_bind. apply bind_same. reflexivity.
Qed.
Lemma spans_bare l : sum_spans (map (fun x => (fst x, th_bare (snd x))) l) = sum_spans l.
Proof.
  unfold sum_spans. rewrite (foldM_sim (fun acc t => do d <- thread_span (snd t); dadd acc d) (fun acc t => do d <- thread_span (snd t); dadd acc d) (fun x : Z => x) (fun x : Z * thread_state => (fst x, th_bare (snd x)))); [apply rmap_id|].
  intros s (t, th). rewrite rmap_id. reflexivity.
Qed.
Lemma summary_bare oc order evs : perform_analysis oc order (map no_args (filter summarized evs)) = perform_analysis oc order evs.
Proof.
  unfold perform_analysis. rewrite <- map_rev, <- filter_rev'. change astate_init with (a_bare astate_init) at 1.
  rewrite (foldM_sim (analysis_step oc) (analysis_step oc) a_bare no_args (step_bare oc)), bind_rmap.
  rewrite foldM_skip.
  - apply bind_same. intros s. cbn [a_bare a_threads a_query a_artifacts]. rewrite spans_bare. reflexivity.
  - intros s e H. unfold summarized in H. unfold analysis_step. destruct (ev_payload e) as [[s0 e0|t0]|v]; [discriminate| |]; rewrite H; reflexivity.
Qed.
(** summarize looks at nothing but the kinds, labels, times and threads of intervals, cache hits and artifact sizes. *)
Theorem C97_summary : forall oc order evs evs', map no_args (filter summarized evs) = map no_args (filter summarized evs') ->
  perform_analysis oc order evs = perform_analysis oc order evs'.
Proof. intros oc order evs evs' H. rewrite <- (summary_bare oc order evs), <- (summary_bare oc order evs'), H. reflexivity. Qed.

(** ** stack_collapse *)
Notation K := no_kind.
Definition ct_bare (t : cthread) : cthread := mkCt (map K (ct_stack t)) (ct_id t) (ct_start t) (ct_end t) (ct_total t).
Definition c_bare (s : cstate) : cstate := mkC (c_counters s) (map (fun x => (fst x, ct_bare (snd x))) (c_threads s)).
Lemma c_pop_bare stack e : forall id, c_pop (map K stack) id (K e) = rmap (fun p => (map K (fst p), snd p)) (c_pop stack id e).
Proof.
  induction stack as [|t stack IH]; intros id; cbn [c_pop map]; [reflexivity|]. change (ev_payload (K t)) with (ev_payload t). change (ev_payload (K e)) with (ev_payload e). destruct (contains _ _); [reflexivity|].
  change (ev_label (K t)) with (ev_label t). destruct (zlen (ev_label t) + 1 <=? zlen id); [apply IH|reflexivity].
Qed.
Lemma c_step_bare oc s e : collapse_step oc (c_bare s) (K e) = rmap c_bare (collapse_step oc s e).
Proof.
  unfold collapse_step, nanos_u64. change (ev_label (K e)) with (ev_label e). change (ev_payload (K e)) with (ev_payload e). change (ev_thread (K e)) with (ev_thread e).
  destruct (ev_payload e) as [[s0 e0|t0]|v] eqn:E; [|reflexivity|reflexivity].
  cbn [c_bare c_threads c_counters]. rewrite get_up. set (th := match map_get Z.eqb (ev_thread e) (c_threads s) with Some t => t | None => mkCt [] (str "rustc") s0 e0 0 end).
  replace (match option_map ct_bare (map_get Z.eqb (ev_thread e) (c_threads s)) with Some t => t | None => mkCt [] (str "rustc") s0 e0 0 end) with (ct_bare th) by (unfold th; destruct (map_get Z.eqb (ev_thread e) (c_threads s)); reflexivity).
  cbn [ct_bare ct_stack ct_id ct_start ct_end ct_total]. rewrite c_pop_bare, rmap_bind, bind_rmap. apply bind_same. intros (stack, id). cbn [fst snd].
  match goal with |- bind ?x _ = rmap _ (bind ?y _) => replace x with y by (destruct stack; reflexivity) end.
  rewrite rmap_bind. apply bind_same. intros (counters, total). rewrite rmap_bind. apply bind_same. intros d. rewrite rmap_bind. apply bind_same. intros v. cbn [rmap]. unfold c_bare. cbn [c_counters c_threads]. f_equal. f_equal.
  rewrite <- (put_up Z.eqb ct_bare). reflexivity.
Qed.
Lemma gaps_bare oc l : foldM (gap_step oc) 0 (map (fun x => (fst x, ct_bare (snd x))) l) = foldM (gap_step oc) 0 l.
Proof.
  rewrite (foldM_sim (gap_step oc) (gap_step oc) (fun x : Z => x) (fun x : Z * cthread => (fst x, ct_bare (snd x)))); [apply rmap_id|].
  intros s (t, th). rewrite rmap_id. reflexivity.
Qed.
Lemma stacks_bare oc evs : collapse_stacks oc (map no_kind (filter is_interval_event evs)) = collapse_stacks oc evs.
Proof.
  unfold collapse_stacks. rewrite <- map_rev, <- filter_rev'. change (mkC [] []) with (c_bare (mkC [] [])) at 1.
  rewrite (foldM_sim (collapse_step oc) (collapse_step oc) c_bare no_kind (c_step_bare oc)), bind_rmap. rewrite foldM_skip.
  - apply bind_same. intros s. cbn [c_bare c_threads c_counters]. rewrite gaps_bare. reflexivity.
  - intros s e H. unfold is_interval_event in H. unfold collapse_step. destruct (ev_payload e) as [[s0 e0|t0]|v]; [discriminate| |]; reflexivity.
Qed.
(** stack_collapse and flamegraph look at nothing but the labels, times and threads of intervals. *)
Theorem C97_stacks : forall oc evs evs', map no_kind (filter is_interval_event evs) = map no_kind (filter is_interval_event evs') -> collapse_stacks oc evs = collapse_stacks oc evs'.
Proof. intros oc evs evs' H. rewrite <- (stacks_bare oc evs), <- (stacks_bare oc evs'), H. reflexivity. Qed.

(** ** aggregate *)
Theorem C97_aggregate : forall oc ps ps' r, map (filter has_time) ps = map (filter has_time) ps' -> (aggregate_profiles oc ps r <-> aggregate_profiles oc ps' r).
Proof.
  assert (N : forall evs, sp_new (filter has_time evs) = sp_new evs).
  { intros evs. unfold sp_new. rewrite filter_rev'. rewrite filter_rev'. replace (filter (fun e => negb (p_is_integer (ev_payload e))) (filter has_time evs)) with (filter (fun e => negb (p_is_integer (ev_payload e))) evs); [reflexivity|].
    induction evs as [|e evs IH]; cbn [filter]; [reflexivity|]. unfold has_time at 1. destruct (ev_payload e) as [[s0 e0|t0]|v] eqn:E; cbn [p_is_integer negb filter]; rewrite ?E; cbn [p_is_integer negb]; rewrite IH; reflexivity. }
  assert (C : forall ps, collectM (fun evs => si_new (sp_new evs)) ps = collectM (fun evs => si_new (sp_new evs)) (map (filter has_time) ps)).
  { induction ps as [|evs ps IH]; cbn [map collectM]; [reflexivity|]. rewrite N, IH. reflexivity. }
  assert (G : forall oc ps ps' r, map (filter has_time) ps = map (filter has_time) ps' -> aggregate_profiles oc ps r -> aggregate_profiles oc ps' r).
  { intros oc ps ps' r H A. destruct A as [E|its E D|its iv E D]; rewrite C, H, <- C in E; [apply ap_new_panic|eapply ap_loop_panic|eapply ap_ok]; eauto. }
  intros oc ps ps' r H. split; apply G; [exact H|symmetry; exact H].
Qed.

(** ** crox *)
Lemma spans_times evs : thread_start_and_end (map only_times (filter has_time evs)) = thread_start_and_end evs.
Proof.
  unfold thread_start_and_end. generalize (@nil (Z * (Z * Z))). induction evs as [|e evs IH]; intros m; cbn [filter map fold_left]; [reflexivity|].
  assert (E : note_span m (only_times e) = note_span m e) by reflexivity. destruct (has_time e) eqn:H; cbn [map fold_left]; [rewrite E; apply IH|].
  replace (note_span m e) with m; [apply IH|]. unfold has_time in H. unfold note_span. destruct (ev_payload e); [discriminate|reflexivity].
Qed.
(** Which threads are collapsed depends on the times and threads of intervals and instants only. *)
Theorem C97_threads : forall oc collapse evs evs' m, map only_times (filter has_time evs) = map only_times (filter has_time evs') ->
  (thread_mapping oc collapse evs m <-> thread_mapping oc collapse evs' m).
Proof.
  assert (G : forall oc collapse evs evs' m, map only_times (filter has_time evs) = map only_times (filter has_time evs') -> thread_mapping oc collapse evs m -> thread_mapping oc collapse evs' m).
  { intros oc collapse evs evs' m H T. destruct T as [E|ends starts E He Hs]; [apply tm_off; exact E|].
    rewrite <- (spans_times evs), H, spans_times in He, Hs. apply tm_on; assumption. }
  intros oc collapse evs evs' m H. split; apply G; [exact H|symmetry; exact H].
Qed.
(** Only intervals give records. *)
Theorem C97_records : forall oc minimum mapping md evs evs', filter is_interval_event evs = filter is_interval_event evs' ->
  export_file oc minimum mapping md evs = export_file oc minimum mapping md evs'.
Proof.
  assert (G : forall oc minimum mapping md evs, export_file oc minimum mapping md (filter is_interval_event evs) = export_file oc minimum mapping md evs).
  { intros oc minimum mapping md evs. unfold export_file.
    assert (C : (do rs <- collectM (export_event oc minimum mapping (md_process_id md)) (filter is_interval_event evs); Ok (concat rs)) =
                (do rs <- collectM (export_event oc minimum mapping (md_process_id md)) evs; Ok (concat rs))).
    { induction evs as [|e evs IH]; cbn [filter collectM]; [reflexivity|]. destruct (is_interval_event e) eqn:E; cbn [collectM].
      - destruct (export_event oc minimum mapping (md_process_id md) e); cbn [bind]; try reflexivity.
        destruct (collectM _ (filter is_interval_event evs)), (collectM _ evs); cbn [bind] in *; try congruence. cbn [concat]. congruence.
      - replace (export_event oc minimum mapping (md_process_id md) e) with (Ok (@nil record)); [|unfold is_interval_event in E; unfold export_event; destruct (ev_payload e) as [[s0 e0|t0]|v]; [discriminate| |]; reflexivity].
        cbn [bind]. destruct (collectM _ (filter is_interval_event evs)), (collectM _ evs); cbn [bind concat app] in *; congruence. }
    destruct (collectM _ (filter is_interval_event evs)), (collectM _ evs); cbn [bind] in *; try congruence. injection C as ->. reflexivity. }
  intros oc minimum mapping md evs evs' H. rewrite <- (G oc minimum mapping md evs), <- (G oc minimum mapping md evs'), H. reflexivity.
Qed.
(** A recording before and after events of kinds unknown to the tools and arguments are added. *)
Definition ex_old : list event :=
  [mkEv (str "Query") (str "inner") [] (Timestamp (Interval 1500 1700)) 1; mkEv (str "Query") (str "outer") [] (Timestamp (Interval 1000 2000)) 1].
Definition ex_new : list event :=
  [mkEv (str "NewKind") (str "x") [] (Timestamp (Instant 900)) 3; mkEv (str "Query") (str "inner") [str "arg"] (Timestamp (Interval 1500 1700)) 1;
   mkEv (str "NewKind") (str "outer") [] (Integer 4) 1; mkEv (str "Query") (str "outer") [] (Timestamp (Interval 1000 2000)) 1].
Example ex_C97 : map no_args (filter summarized ex_new) = map no_args (filter summarized ex_old) /\ ex_new <> ex_old /\
  map no_kind (filter is_interval_event ex_new) = map no_kind (filter is_interval_event ex_old) /\
  (exists r, perform_analysis true (fun l => l) ex_new = Ok r /\ total_time r = 1000) /\
  (* crox does look at instants when it collapses threads *)
  map fst (thread_start_and_end ex_new) <> map fst (thread_start_and_end ex_old).
Proof.
  split; [reflexivity|]. split; [discriminate|]. split; [reflexivity|]. split; [eexists; split; vm_compute; reflexivity|]. vm_compute. discriminate.
Qed.
Print Assumptions C97_summary.
Print Assumptions C97_stacks.
Print Assumptions C97_aggregate.
Print Assumptions C97_threads.
Print Assumptions C97_records.
