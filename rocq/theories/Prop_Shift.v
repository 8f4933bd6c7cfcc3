(** C95: when a recording started does not matter.  Specification S_Shift.v. *)
From Coq Require Import String ZArith List Lia Bool Permutation Sorted.
From Verif Require Import M_Base F_Base M_Raw M_V8 M_Map M_Session M_Iter M_Run M_Analysis M_Crox M_Collapse M_Tools S_Shift.
Import ListNotations.
Open Scope Z_scope.
Local Open Scope list_scope.

Lemma rmap_bind {A B C} (g : B -> C) (r : res A) (f : A -> res B) : rmap g (bind r f) = bind r (fun a => rmap g (f a)).
Proof. destruct r; reflexivity. Qed.
Lemma bind_rmap {A B C} (g : A -> B) (r : res A) (f : B -> res C) : bind (rmap g r) f = bind r (fun a => f (g a)).
Proof. destruct r; reflexivity. Qed.
Lemma bind_same {A B} (r : res A) (f g : A -> res B) : (forall a, f a = g a) -> bind r f = bind r g.
Proof. intros H. destruct r; cbn [bind]; auto. Qed.
Lemma rmap_id {A} (r : res A) : rmap (fun x => x) r = r.
Proof. destruct r; reflexivity. Qed.
Lemma foldM_sim {A A' S S'} (f : S -> A -> res S) (f' : S' -> A' -> res S') (g : S -> S') (h : A -> A') :
  (forall s a, f' (g s) (h a) = rmap g (f s a)) -> forall l s, foldM f' (g s) (map h l) = rmap g (foldM f s l).
Proof.
  intros H l. induction l as [|x l IH]; intros s; cbn [foldM map]; [reflexivity|]. rewrite H, rmap_bind, bind_rmap. apply bind_same. intros a. apply IH.
Qed.
Section Values.
Context {K V : Type} (eqb : K -> K -> bool) (f : V -> V).
Notation up := (map (fun x : K * V => (fst x, f (snd x)))).
Lemma get_up k m : map_get eqb k (up m) = option_map f (map_get eqb k m).
Proof. induction m as [|(k', v) m IH]; cbn [map map_get fst snd]; [reflexivity|]. destruct (eqb k k'); [reflexivity|exact IH]. Qed.
Lemma put_up k v m : map_put eqb k (f v) (up m) = up (map_put eqb k v m).
Proof. induction m as [|(k', v') m IH]; cbn [map map_put fst snd]; [reflexivity|]. destruct (eqb k k'); cbn [map fst snd]; [reflexivity|]. rewrite IH. reflexivity. Qed.
End Values.

Section Later.
Variable k : Z.
Notation L := (later k).
Lemma later_contains a b : contains (ev_payload (L a)) (ev_payload (L b)) = contains (ev_payload a) (ev_payload b).
Proof.
  unfold later. cbn [ev_payload]. destruct (ev_payload a) as [[s e|t]|v], (ev_payload b) as [[s' e'|t']|v']; cbn [contains]; try reflexivity; f_equal;
    match goal with |- (?x <=? ?y) = (?u <=? ?v) => destruct (Z.leb_spec x y), (Z.leb_spec u v); auto; lia end.
Qed.
Lemma later_duration a : duration (ev_payload (L a)) = duration (ev_payload a).
Proof.
  unfold later. cbn [ev_payload]. destruct (ev_payload a) as [[s e|t]|v]; cbn [duration ts_duration]; try reflexivity.
  destruct (Z.leb_spec (s + k) (e + k)), (Z.leb_spec s e); try lia; [f_equal; lia|reflexivity].
Qed.

(** ** Reading *)
Definition with_start (k : Z) (d : decoder) : decoder :=
  mkDecoder (event_data d) (stringtable d) (mkMd (md_start_time (d_metadata d) + k) (md_process_id (d_metadata d)) (md_cmd (d_metadata d))).
Definition lw_later (l : lw_event) : lw_event := mkLw (lw_index l) (lw_thread l) (ev_payload (L (mkEv [] [] [] (lw_payload l) 0))).
Definition p_later (p : payload) : payload := ev_payload (L (mkEv [] [] [] p 0)).
Lemma payload_later e st : payload_from_raw_event e (st + k) = rmap p_later (payload_from_raw_event e st).
Proof.
  unfold payload_from_raw_event, timestamp_from_raw_event. destruct (is_integer e); [reflexivity|]. destruct (is_instant e); cbn [bind rmap]; unfold p_later, later; cbn [ev_payload];
    replace (st + k + start_value e) with (st + start_value e + k) by lia; [reflexivity|]. replace (st + k + end_value e) with (st + end_value e + k) by lia. reflexivity.
Qed.
Lemma lw_later_decode en d i : decode_lightweight_event en (with_start k d) i = rmap lw_later (decode_lightweight_event en d i).
Proof.
  unfold decode_lightweight_event. rewrite rmap_bind. apply bind_same. intros e. cbn [with_start d_metadata md_start_time].
  rewrite payload_later, rmap_bind, bind_rmap. apply bind_same. intros p. reflexivity.
Qed.
Lemma full_later_decode fuel en d i : decode_full_event fuel en (with_start k d) i = rmap L (decode_full_event fuel en d i).
Proof.
  unfold decode_full_event. rewrite rmap_bind. apply bind_same. intros e. cbn [with_start d_metadata md_start_time stringtable].
  rewrite payload_later, rmap_bind, bind_rmap. apply bind_same. intros p. rewrite rmap_bind. apply bind_same. intros id. rewrite rmap_bind. apply bind_same. intros ps.
  rewrite rmap_bind. apply bind_same. intros kd. reflexivity.
Qed.
Lemma collect_later {A} (f f' : Z -> res A) (g : A -> A) : (forall i, f' i = rmap g (f i)) -> forall fuel it, iter_collect f' fuel it = rmap (map g) (iter_collect f fuel it).
Proof.
  intros H fuel. induction fuel as [|n IH]; intros it; cbn [iter_collect]; [reflexivity|]. unfold iter_next. destruct (forward_idx it =? backward_idx it); [reflexivity|].
  rewrite H. destruct (f (forward_idx it)) as [a| | |]; cbn [rmap bind]; try reflexivity.
  destruct (forward_idx it + 1 <? 18446744073709551616); [|reflexivity]. cbn [bind fst snd]. rewrite IH, rmap_bind, bind_rmap. apply bind_same. reflexivity.
Qed.
Lemma mapM_later {A} (f f' : A -> res event) (g : A -> A) : (forall a, f' (g a) = rmap L (f a)) -> forall l, mapM f' (map g l) = rmap (map L) (mapM f l).
Proof.
  intros H l. induction l as [|a l IH]; cbn [mapM map]; [reflexivity|]. rewrite H, IH, !rmap_bind, !bind_rmap. apply bind_same. intros b. rewrite rmap_bind, bind_rmap. apply bind_same. reflexivity.
Qed.

(** ** summarize *)
Definition th_later (t : thread_state) : thread_state := mkTh (map L (th_stack t)) (th_start t + k) (th_end t + k).
Definition a_later (s : astate) : astate := mkA (a_query s) (a_artifacts s) (map (fun x => (fst x, th_later (snd x))) (a_threads s)).
Lemma pop_later stack e : pop_non_parents (map L stack) (L e) = map L (pop_non_parents stack e).
Proof. induction stack as [|t stack IH]; cbn [pop_non_parents map]; [reflexivity|]. rewrite later_contains. destruct (contains _ _); [reflexivity|exact IH]. Qed.
Lemma step_later oc s e : analysis_step oc (a_later s) (L e) = rmap a_later (analysis_step oc s e).
Proof.
  unfold analysis_step. pose proof (later_duration e) as D. change (ev_kind (L e)) with (ev_kind e). change (ev_label (L e)) with (ev_label e). change (ev_thread (L e)) with (ev_thread e).
  pose proof (pop_later) as P. destruct (ev_payload e) as [[s0 e0|t0]|v] eqn:E.
  - rewrite <- E in *. assert (E' : ev_payload (L e) = Timestamp (Interval (s0 + k) (e0 + k))) by (unfold later; cbn [ev_payload]; rewrite E; reflexivity). rewrite E'. rewrite <- E', D. cbn [a_later a_threads a_query a_artifacts].
    rewrite get_up. set (th := match map_get Z.eqb (ev_thread e) (a_threads s) with Some t => t | None => mkTh [] s0 e0 end).
    replace (match option_map th_later (map_get Z.eqb (ev_thread e) (a_threads s)) with Some t => t | None => mkTh [] (s0 + k) (e0 + k) end) with (th_later th) by (unfold th; destruct (map_get Z.eqb (ev_thread e) (a_threads s)); reflexivity).
    cbn [th_later th_stack th_start th_end]. rewrite P. rewrite rmap_bind. apply bind_same. intros dur.
    set (st := pop_non_parents (th_stack th) e).
    replace (match map L st with [] => Ok (a_query s) | top :: _ => record_event_data (a_query s) (ev_label top) (parent_update (ev_kind top) dur) end)
      with (match st with [] => Ok (a_query s) | top :: _ => record_event_data (a_query s) (ev_label top) (parent_update (ev_kind top) dur) end) by (destruct st; reflexivity).
    rewrite rmap_bind. apply bind_same. intros q1. rewrite rmap_bind. apply bind_same. intros q2. cbn [rmap]. unfold a_later. cbn [a_query a_artifacts a_threads]. f_equal. f_equal.
    rewrite <- (put_up Z.eqb th_later). f_equal. unfold th_later. cbn [th_stack th_start th_end map]. f_equal; lia.
  - assert (E' : ev_payload (L e) = Timestamp (Instant (t0 + k))) by (unfold later; cbn [ev_payload]; rewrite E; reflexivity). rewrite E'.
    destruct (beq (ev_kind e) QUERY_CACHE_HIT_EVENT_KIND); [|reflexivity]. cbn [a_later a_query a_artifacts a_threads]. rewrite rmap_bind. apply bind_same. reflexivity.
  - assert (E' : ev_payload (L e) = Integer v) by (unfold later; cbn [ev_payload]; rewrite E; reflexivity). rewrite E'.
    destruct (beq (ev_kind e) ARTIFACT_SIZE_EVENT_KIND); [|reflexivity]. cbn [a_later a_query a_artifacts a_threads]. rewrite rmap_bind. apply bind_same. reflexivity.
Qed.
Lemma spans_later l : sum_spans (map (fun x => (fst x, th_later (snd x))) l) = sum_spans l.
Proof.
  unfold sum_spans. rewrite (foldM_sim (fun acc t => do d <- thread_span (snd t); dadd acc d) (fun acc t => do d <- thread_span (snd t); dadd acc d) (fun x : Z => x) (fun x : Z * thread_state => (fst x, th_later (snd x)))); [apply rmap_id|].
  intros s (t, th). rewrite rmap_id. cbn [snd]. f_equal. unfold thread_span, th_later. cbn [th_start th_end].
  destruct (Z.leb_spec (th_start th + k) (th_end th + k)), (Z.leb_spec (th_start th) (th_end th)); try lia; [f_equal; lia|reflexivity].
Qed.

(** ** stack_collapse *)
Definition ct_later (t : cthread) : cthread := mkCt (map L (ct_stack t)) (ct_id t) (ct_start t + k) (ct_end t + k) (ct_total t).
Definition c_later (s : cstate) : cstate := mkC (c_counters s) (map (fun x => (fst x, ct_later (snd x))) (c_threads s)).
Lemma c_pop_later stack e : forall id, c_pop (map L stack) id (L e) = rmap (fun p => (map L (fst p), snd p)) (c_pop stack id e).
Proof.
  induction stack as [|t stack IH]; intros id; cbn [c_pop map]; [reflexivity|]. rewrite later_contains. destruct (contains _ _); [reflexivity|].
  change (ev_label (L t)) with (ev_label t). destruct (zlen (ev_label t) + 1 <=? zlen id); [apply IH|reflexivity].
Qed.
Lemma c_step_later oc s e : collapse_step oc (c_later s) (L e) = rmap c_later (collapse_step oc s e).
Proof.
  unfold collapse_step, nanos_u64. change (ev_label (L e)) with (ev_label e). change (ev_thread (L e)) with (ev_thread e).
  destruct (ev_payload e) as [[s0 e0|t0]|v] eqn:E.
  - pose proof (later_duration e) as D. rewrite E in D. rewrite D. assert (E' : ev_payload (L e) = Timestamp (Interval (s0 + k) (e0 + k))) by (unfold later; cbn [ev_payload]; rewrite E; reflexivity). rewrite E'.
    cbn [c_later c_threads c_counters]. rewrite get_up. set (th := match map_get Z.eqb (ev_thread e) (c_threads s) with Some t => t | None => mkCt [] (str "rustc") s0 e0 0 end).
    replace (match option_map ct_later (map_get Z.eqb (ev_thread e) (c_threads s)) with Some t => t | None => mkCt [] (str "rustc") (s0 + k) (e0 + k) 0 end) with (ct_later th) by (unfold th; destruct (map_get Z.eqb (ev_thread e) (c_threads s)); reflexivity).
    cbn [ct_later ct_stack ct_id ct_start ct_end ct_total]. rewrite c_pop_later, rmap_bind, bind_rmap. apply bind_same. intros (stack, id). cbn [fst snd].
    match goal with |- bind ?x _ = rmap _ (bind ?y _) => replace x with y by (destruct stack; reflexivity) end.
    rewrite rmap_bind. apply bind_same. intros (counters, total). rewrite rmap_bind. apply bind_same. intros d. rewrite rmap_bind. apply bind_same. intros v. cbn [rmap]. unfold c_later. cbn [c_counters c_threads]. f_equal. f_equal.
    rewrite <- (put_up Z.eqb ct_later). f_equal. unfold ct_later. cbn [ct_stack ct_id ct_start ct_end ct_total map]. f_equal. lia.
  - assert (E' : ev_payload (L e) = Timestamp (Instant (t0 + k))) by (unfold later; cbn [ev_payload]; rewrite E; reflexivity). rewrite E'. reflexivity.
  - assert (E' : ev_payload (L e) = Integer v) by (unfold later; cbn [ev_payload]; rewrite E; reflexivity). rewrite E'. reflexivity.
Qed.
Lemma gaps_later oc l : foldM (gap_step oc) 0 (map (fun x => (fst x, ct_later (snd x))) l) = foldM (gap_step oc) 0 l.
Proof.
  rewrite (foldM_sim (gap_step oc) (gap_step oc) (fun x : Z => x) (fun x : Z * cthread => (fst x, ct_later (snd x)))); [apply rmap_id|].
  intros s (t, th). rewrite rmap_id. unfold gap_step, ct_later. cbn [snd ct_start ct_end ct_total].
  replace (ct_start th + k <=? ct_end th + k) with (ct_start th <=? ct_end th) by (destruct (Z.leb_spec (ct_start th + k) (ct_end th + k)), (Z.leb_spec (ct_start th) (ct_end th)); auto; lia).
  replace (ct_end th + k - (ct_start th + k)) with (ct_end th - ct_start th) by lia. reflexivity.
Qed.

(** ** mmview *)
Lemma micros_later t g : micros_since (t + k) (g + k) = micros_since t g.
Proof. unfold micros_since. destruct (Z.leb_spec (g + k) (t + k)), (Z.leb_spec g t); try lia; f_equal; lia. Qed.
Lemma print_later e g : print_event (L e) (g + k) = print_event e g.
Proof.
  unfold print_event. change (ev_kind (L e)) with (ev_kind e). change (ev_label (L e)) with (ev_label e). change (ev_thread (L e)) with (ev_thread e). change (ev_args (L e)) with (ev_args e).
  replace (payload_text (ev_payload (L e)) (g + k)) with (payload_text (ev_payload e) g); [reflexivity|].
  unfold later. cbn [ev_payload]. destruct (ev_payload e) as [[s0 e0|t0]|v]; cbn [payload_text]; rewrite ?micros_later; reflexivity.
Qed.
Lemma starts_later evs : starts_of (map L evs) = map (fun t => t + k) (starts_of evs).
Proof.
  unfold starts_of. induction evs as [|e evs IH]; cbn [map concat]; [reflexivity|]. rewrite map_app, <- IH. f_equal.
  unfold later. cbn [ev_payload]. destruct (ev_payload e) as [[s0 e0|t0]|v]; reflexivity.
Qed.
Lemma fold_min_later l : forall x, fold_left Z.min (map (fun t => t + k) l) (x + k) = fold_left Z.min l x + k.
Proof. induction l as [|y l IH]; intros x; cbn [map fold_left]; [reflexivity|]. replace (Z.min (x + k) (y + k)) with (Z.min x y + k) by lia. apply IH. Qed.
Lemma prints_later t g evs : print_events t (g + k) (map L evs) = print_events t g evs.
Proof. induction evs as [|e evs IH]; cbn [print_events map]; [reflexivity|]. rewrite IH, print_later. reflexivity. Qed.

(** ** crox *)
Lemma span_later evs : thread_start_and_end (map L evs) = map (fun x => (fst x, (fst (snd x) + k, snd (snd x) + k))) (thread_start_and_end evs).
Proof.
  unfold thread_start_and_end. set (f := fun p : Z * Z => (fst p + k, snd p + k)).
  change (map (fun x : Z * (Z * Z) => (fst x, (fst (snd x) + k, snd (snd x) + k)))) with (map (fun x : Z * (Z * Z) => (fst x, f (snd x)))).
  assert (G : forall m, fold_left note_span (map L evs) (map (fun x : Z * (Z * Z) => (fst x, f (snd x))) m) = map (fun x : Z * (Z * Z) => (fst x, f (snd x))) (fold_left note_span evs m)); [|exact (G [])].
  induction evs as [|e evs IH]; intros m; cbn [map fold_left]; [reflexivity|]. rewrite <- IH. f_equal. unfold note_span. change (ev_thread (L e)) with (ev_thread e).
  assert (T : p_timestamp (ev_payload (L e)) = option_map (fun t => match t with Interval a b => Interval (a + k) (b + k) | Instant t => Instant (t + k) end) (p_timestamp (ev_payload e))).
  { unfold later. cbn [ev_payload]. destruct (ev_payload e) as [[s0 e0|t0]|v]; reflexivity. }
  rewrite T. destruct (p_timestamp (ev_payload e)) as [t|]; cbn [option_map]; [|reflexivity]. rewrite get_up.
  assert (M : ts_min_max (match t with Interval a b => Interval (a + k) (b + k) | Instant t => Instant (t + k) end) = f (ts_min_max t)) by (destruct t; unfold f; cbn [ts_min_max fst snd]; f_equal; lia).
  rewrite M. destruct (map_get Z.eqb (ev_thread e) m) as [(a, b)|]; cbn [option_map].
  - rewrite <- put_up. f_equal. unfold f. cbn [fst snd]. destruct (ts_min_max t) as (u, w). cbn [fst snd]. rewrite Z.add_min_distr_r, Z.add_max_distr_r. reflexivity.
  - apply put_up.
Qed.
Lemma sorted_later pairs result : sorted_by_key pairs result -> sorted_by_key (map (fun x : Z * Z => (fst x + k, snd x)) pairs) (map (fun x : Z * Z => (fst x + k, snd x)) result).
Proof.
  intros (P & S). split; [apply Permutation_map, P|]. clear P. induction S as [|x l S IH F]; cbn [map]; constructor; auto.
  rewrite Forall_forall in *. intros y Hy. apply in_map_iff in Hy. destruct Hy as (z & <- & Hz). cbn [fst]. specialize (F z Hz). cbv beta in F. lia.
Qed.
Definition cx_later (s : cx) : cx := mkCx (map (fun x : Z * Z => (fst x + k, snd x)) (next_ends s)) (mapping s) (current_thread_id s).
Lemma collapse_one_later oc s x : collapse_one oc (cx_later s) (fst x + k, snd x) = rmap cx_later (collapse_one oc s x).
Proof.
  unfold collapse_one, cx_later. cbn [next_ends mapping current_thread_id fst snd]. destruct (next_ends s) as [|(e, t) rest]; cbn [map fst snd]; [reflexivity|].
  replace (e + k <? fst x + k) with (e <? fst x) by (destruct (Z.ltb_spec (e + k) (fst x + k)), (Z.ltb_spec e (fst x)); auto; lia).
  destruct (e <? fst x); [reflexivity|]. rewrite rmap_bind. apply bind_same. reflexivity.
Qed.
Lemma mapping_later oc collapse evs m : thread_mapping oc collapse evs m -> thread_mapping oc collapse (map L evs) m.
Proof.
  intros H. destruct H as [E|ends starts E He Hs]; [apply tm_off; exact E|].
  replace (do s <- foldM (collapse_one oc) (mkCx ends [] 0) starts; Ok (mapping s)) with
    (do s <- foldM (collapse_one oc) (mkCx (map (fun x : Z * Z => (fst x + k, snd x)) ends) [] 0) (map (fun x : Z * Z => (fst x + k, snd x)) starts); Ok (mapping s)).
  - apply tm_on; [exact E| |]; rewrite span_later, map_map.
    + apply sorted_later in He. rewrite map_map in He. exact He.
    + apply sorted_later in Hs. rewrite map_map in Hs. exact Hs.
  - change (mkCx (map (fun x : Z * Z => (fst x + k, snd x)) ends) [] 0) with (cx_later (mkCx ends [] 0)).
    rewrite (foldM_sim (collapse_one oc) (collapse_one oc) cx_later (fun x : Z * Z => (fst x + k, snd x)) (collapse_one_later oc)), bind_rmap. reflexivity.
Qed.
End Later.
Lemma later_back k e : later (- k) (later k e) = e.
Proof. destruct e as [kd lb ar p th]. unfold later. cbn [ev_kind ev_label ev_args ev_payload ev_thread]. destruct p as [[s0 e0|t0]|v]; [replace (s0 + k + - k) with s0 by lia; replace (e0 + k + - k) with e0 by lia|replace (t0 + k + - k) with t0 by lia|]; reflexivity. Qed.
Lemma micros_exact oc d : 0 <= d -> d / 1000 < 2 ^ 64 -> as_micros oc d = Ok (d / 1000).
Proof.
  intros H0 H. assert (E : d / 1000000000 * 1000000 + d mod 1000000000 / 1000 = d / 1000) by (Z.to_euclidean_division_equations; lia).
  assert (H1 : 0 <= d mod 1000000000 / 1000) by (Z.to_euclidean_division_equations; lia). unfold as_micros, U64.
  change 18446744073709551616 with (2 ^ 64). destruct (Z.ltb_spec (d / 1000000000 * 1000000) (2 ^ 64)) as [X|X]; [|lia]. cbn [bind].
  unfold u64_add, U64. change 18446744073709551616 with (2 ^ 64). rewrite E. destruct (Z.ltb_spec (d / 1000) (2 ^ 64)); [reflexivity|lia].
Qed.

(** A profile whose metadata names another start time has the same events, later. *)
Theorem C95_events : forall k fuel en d start pid cmd, d_metadata d = mkMd start pid cmd ->
  iter_full fuel en (mkDecoder (event_data d) (stringtable d) (mkMd (start + k) pid cmd)) = rmap (map (later k)) (iter_full fuel en d).
Proof.
  intros k fuel en d start pid cmd Hm. replace (mkDecoder (event_data d) (stringtable d) (mkMd (start + k) pid cmd)) with (with_start k d) by (unfold with_start; rewrite Hm; reflexivity).
  unfold iter_full. change (num_events (with_start k d)) with (num_events d). rewrite rmap_bind. apply bind_same. intros n.
  rewrite (collect_later (decode_lightweight_event en d) (decode_lightweight_event en (with_start k d)) (lw_later k) (lw_later_decode k en d)), rmap_bind, bind_rmap. apply bind_same. intros lws.
  apply mapM_later. intros l. cbn [lw_later lw_index]. apply full_later_decode.
Qed.
(** summarize *)
Theorem C95_summary : forall k oc order evs, perform_analysis oc order (map (later k) evs) = perform_analysis oc order evs.
Proof.
  intros k oc order evs. unfold perform_analysis. rewrite <- map_rev. change astate_init with (a_later k astate_init) at 1.
  rewrite (foldM_sim (analysis_step oc) (analysis_step oc) (a_later k) (later k) (step_later k oc)), bind_rmap. apply bind_same. intros s.
  cbn [a_later a_threads a_query a_artifacts]. rewrite spans_later. reflexivity.
Qed.
(** stack_collapse and flamegraph *)
Theorem C95_stacks : forall k oc evs, collapse_stacks oc (map (later k) evs) = collapse_stacks oc evs.
Proof.
  intros k oc evs. unfold collapse_stacks. rewrite <- map_rev. change (mkC [] []) with (c_later k (mkC [] [])) at 1.
  rewrite (foldM_sim (collapse_step oc) (collapse_step oc) (c_later k) (later k) (c_step_later k oc)), bind_rmap. apply bind_same. intros s.
  cbn [c_later c_threads c_counters]. rewrite gaps_later. reflexivity.
Qed.
(** mmview *)
Theorem C95_mmview : forall k thread_id evs, mmview_main thread_id (map (later k) evs) = mmview_main thread_id evs.
Proof.
  intros k thread_id evs. unfold mmview_main. rewrite starts_later. destruct (starts_of evs) as [|t l]; [reflexivity|]. cbn [map iter_min].
  rewrite fold_min_later, prints_later. reflexivity.
Qed.
(** crox: the same collapsed threads, and the same records with later times *)
Theorem C95_threads : forall k oc collapse evs m, thread_mapping oc collapse (map (later k) evs) m <-> thread_mapping oc collapse evs m.
Proof.
  intros k oc collapse evs m. split; intros H; [|apply mapping_later, H]. apply (mapping_later (- k)) in H. rewrite map_map in H.
  rewrite (map_ext _ (fun e => e)) in H by (intros; apply later_back). rewrite map_id in H. exact H.
Qed.
Theorem C95_chrome : forall j oc minimum mapping pid e rs,
  (forall a b, ev_payload e = Timestamp (Interval a b) -> 0 <= a + 1000 * j /\ (a + 1000 * j) / 1000 < 2 ^ 64 /\ a / 1000 < 2 ^ 64) ->
  export_event oc minimum mapping pid e = Ok rs ->
  export_event oc minimum mapping pid (later (1000 * j) e) = Ok (map (record_later j) rs).
Proof.
  intros j oc minimum mapping pid e rs HB. unfold export_event. rewrite later_duration.
  change (ev_kind (later (1000 * j) e)) with (ev_kind e). change (ev_label (later (1000 * j) e)) with (ev_label e). change (ev_thread (later (1000 * j) e)) with (ev_thread e). change (get_args (later (1000 * j) e)) with (get_args e).
  destruct (ev_payload e) as [[a b|t0]|v] eqn:E.
  - assert (E' : ev_payload (later (1000 * j) e) = Timestamp (Interval (a + 1000 * j) (b + 1000 * j))) by (unfold later; cbn [ev_payload]; rewrite E; reflexivity). rewrite E'.
    cbn [p_is_interval negb p_timestamp option_map ts_start]. destruct (duration (Timestamp (Interval a b))) as [d|]; cbn [unwrap bind]; [|discriminate].
    destruct (match minimum with Some m => d / 1000 <? m | None => false end); [intros [= <-]; reflexivity|].
    destruct (HB a b eq_refl) as (B1 & B2 & B3). destruct (Z.leb_spec 0 a) as [A|A]; cbn [bind]; [|discriminate].
    destruct (Z.leb_spec 0 (a + 1000 * j)); [|lia]. cbn [bind]. rewrite (micros_exact oc a) by lia. rewrite (micros_exact oc (a + 1000 * j)) by lia. cbn [bind].
    destruct (as_micros oc d) as [m| | |]; cbn [bind]; try discriminate. intros [= <-]. cbn [map record_later].
    replace ((a + 1000 * j) / 1000) with (a / 1000 + j); [reflexivity|]. replace (a + 1000 * j) with (a + j * 1000) by lia. rewrite Z.div_add by lia. reflexivity.
  - assert (E' : ev_payload (later (1000 * j) e) = Timestamp (Instant (t0 + 1000 * j))) by (unfold later; cbn [ev_payload]; rewrite E; reflexivity). rewrite E'. intros [= <-]. reflexivity.
  - assert (E' : ev_payload (later (1000 * j) e) = Integer v) by (unfold later; cbn [ev_payload]; rewrite E; reflexivity). rewrite E'. intros [= <-]. reflexivity.
Qed.

(** A recording of two threads, read with two start times. *)
Definition ex_doll : list event :=
  [mkEv (str "Query") (str "inner") [] (Timestamp (Interval 1500 1700)) 1;
   mkEv (str "Query") (str "outer") [] (Timestamp (Interval 1000 2000)) 1;
   mkEv (str "Query") (str "hit") [] (Timestamp (Instant 2100)) 1;
   mkEv (str "Query") (str "other") [str "a"] (Timestamp (Interval 2500 4500)) 2].
Example ex_C95 :
  map (later 7000) ex_doll <> ex_doll /\
  mmview_main None (map (later 7000) ex_doll) = mmview_main None ex_doll /\
  (mmview_main None ex_doll <> NoEvents) /\
  (exists m, collapse_stacks true (map (later 7000) ex_doll) = Ok m /\ map_get beq (str "rustc;outer;inner") m = Some 200) /\
  (exists rs, export_event true None [(1, 1); (2, 2)] 9 (mkEv (str "Query") (str "other") [str "a"] (Timestamp (Interval 2500 4500)) 2) = Ok rs /\ map (record_later 7) rs <> rs) /\
  export_event true None [(1, 1); (2, 2)] 9 (later (1000 * 7) (mkEv (str "Query") (str "other") [str "a"] (Timestamp (Interval 2500 4500)) 2)) =
    Ok [Complete (str "other") (str "Query") 9 2 9 2 (Some [(str "arg0", str "a")])].
Proof.
  split; [discriminate|]. split; [apply C95_mmview|]. split; [intro E; vm_compute in E; discriminate|]. split; [eexists; split; vm_compute; reflexivity|].
  split; [eexists; split; [vm_compute; reflexivity|discriminate]|vm_compute; reflexivity].
Qed.
Print Assumptions C95_events.
Print Assumptions C95_summary.
Print Assumptions C95_stacks.
Print Assumptions C95_mmview.
Print Assumptions C95_threads.
Print Assumptions C95_chrome.
