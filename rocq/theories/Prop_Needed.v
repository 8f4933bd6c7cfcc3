(** C73: only what is shown has to be readable.  Model M_Programs.v, specification S_Programs.v. *)
From Coq Require Import String ZArith List Lia Bool Permutation Sorted.
From Flocq Require Import BinarySingleNaN.
From Verif Require Import M_Base F_Base M_Map M_Raw M_V8 M_Header M_Strings M_StrTable M_EventId M_Session M_Run M_Iter M_Path M_Crox M_Open M_Analysis M_Folded M_Json M_Diff M_Tools M_Collapse
  M_Programs S_Utf8 S_Json S_Crox Prop_Path M_Utf8 F_Utf8 Prop_Utf8 M_Sink F_Sink F_Session2 S_Programs Prop_Programs M_Conc M_Float Prop_Open.
From Verif Require Prop_Run Prop_Strings S_Tools.
Import ListNotations.
Open Scope Z_scope.

Definition alike (l : lw_event) (e : event) : Prop := lw_thread l = ev_thread e /\ lw_payload l = ev_payload e.
(** ** Full events are readable events *)
Lemma mapM_Forall2 {A B} (f : A -> res B) l : forall r, mapM f l = Ok r -> Forall2 (fun a b => f a = Ok b) l r.
Proof.
  induction l as [|a l IH]; cbn [mapM]; intros r H; [injection H as <-; constructor|].
  destruct (f a) as [b| | |] eqn:E; cbn [bind] in H; try discriminate. destruct (mapM f l) as [bs| | |]; cbn [bind] in H; try discriminate.
  injection H as <-. constructor; auto.
Qed.
Lemma iter_collect_all {A} (P : A -> Prop) decode fuel : forall it l, (forall i a, decode i = Ok a -> P a) -> iter_collect decode fuel it = Ok l -> Forall P l.
Proof.
  induction fuel as [|f IH]; cbn [iter_collect]; intros it l HP H; [discriminate|]. unfold iter_next in H.
  destruct (forward_idx it =? backward_idx it); cbn [bind fst snd] in H; [injection H as <-; constructor|].
  destruct (decode (forward_idx it)) as [a| | |] eqn:E; cbn [bind fst snd] in H; try discriminate.
  destruct (_ <? _); cbn [bind fst snd] in H; try discriminate.
  match type of H with context [iter_collect ?d f ?x] => destruct (iter_collect d f x) as [rest| | |] eqn:E2 end; cbn [bind] in H; try discriminate. injection H as <-. constructor; eauto.
Qed.
(** When all events of a file of the current format can be read, then they are readable in the sense of S_Programs.v, whatever is needed. *)
Theorem C73_full : forall s d es, pf_iter_full (profile_of s d) = Ok es -> forall need, readable need (profile_of s d) es.
Proof.
  intros s d es H need. unfold pf_iter_full in H. destruct (pf_iter (profile_of s d)) as [lws| | |] eqn:E; cbn [bind] in H; try discriminate.
  exists lws. split; [exact E|]. apply mapM_Forall2 in H.
  assert (D : Forall (fun l => decode_lightweight_event (en s) d (lw_index l) = Ok l) lws).
  { cbn [profile_of pf_iter] in E. destruct (num_events d) as [n| | |]; cbn [bind] in E; try discriminate. eapply iter_collect_all; [|exact E].
    intros i l Hl. enough (lw_index l = i) by congruence. unfold decode_lightweight_event in Hl. destruct (raw_at (en s) d i); cbn [bind] in Hl; try discriminate.
    destruct (payload_from_raw_event _ _); cbn [bind] in Hl; try discriminate. injection Hl as <-. reflexivity. }
  clear E. induction H as [|l e lws es H F IH]; constructor; inversion D as [|? ? D1 D2]; subst; auto. cbn [profile_of pf_full] in *.
  enough (lw_thread l = ev_thread e /\ lw_payload l = ev_payload e) by tauto. clear - D1 H.
  unfold decode_full_event, decode_lightweight_event in *. destruct (raw_at (en s) d (lw_index l)) as [r| | |] eqn:RA; cbn [bind] in *; try discriminate.
  destruct (payload_from_raw_event r _) as [py| | |]; cbn [bind] in *; try discriminate. injection D1 as D1. rewrite <- D1.
  destruct (to_string _ _ (event_id r)) as [id| | |]; cbn [bind] in H; try discriminate. destruct (parse_event_id id) as [pa| | |]; cbn [bind] in H; try discriminate.
  destruct (to_string _ _ (event_kind r)) as [k| | |]; cbn [bind] in H; try discriminate. injection H as H. rewrite <- H. split; reflexivity.
Qed.

(** ** mmview *)
Lemma starts_alike lws es : Forall2 alike lws es -> lw_starts lws = starts_of es.
Proof.
  intros H. unfold lw_starts, starts_of. f_equal. induction H as [|l e lws es (_ & HP) _ IH]; [reflexivity|]. cbn [map]. rewrite IH, HP. reflexivity.
Qed.
Lemma readable_alike (need : event -> bool) p lws es :
  Forall2 (fun l e => lw_thread l = ev_thread e /\ lw_payload l = ev_payload e /\ (need e = true -> pf_full p (lw_index l) = Ok e)) lws es -> Forall2 alike lws es.
Proof. intros H. induction H; constructor; auto. split; tauto. Qed.
(** The events of the thread asked for (or all events). *)
Definition wanted (thread_id : option Z) (e : event) : bool := match thread_id with Some t => ev_thread e =? t | None => true end.
(** mmview prints the events of the thread asked for, although the strings of other events are damaged. *)
Theorem C73_view : forall s w file thread_id p es, open_profile s w file = EOk p -> readable (wanted thread_id) p es ->
  mmview_cmd s w file thread_id = mkRun (Some (mmview_main thread_id es)) w Success.
Proof.
  intros s w file thread_id p es O (lws & I & F). unfold mmview_cmd. rewrite O. cbn [try]. rewrite I. cbn [sure with_text try]. rewrite (starts_alike lws es) by (eapply readable_alike; eauto).
  unfold mmview_main. destruct (iter_min (starts_of es)) as [g|]; [|reflexivity].
  enough (E : view_events (pf_full p) thread_id g lws = (print_events thread_id g es, Success)) by (rewrite E; reflexivity).
  clear I O. induction F as [|l e lws es (HT & _ & HN) F IH]; [reflexivity|]. cbn [view_events print_events]. rewrite HT, IH. unfold wanted in HN. destruct thread_id as [t|].
  - destruct (ev_thread e =? t); cbn [negb]; [rewrite HN by reflexivity; reflexivity|reflexivity].
  - rewrite HN by reflexivity. reflexivity.
Qed.
(** It does have to read those: if one of them cannot be read, the program crashes (or does not end). *)
Theorem C73_view_needs : forall s w file thread_id p lws l, open_profile s w file = EOk p -> pf_iter p = Ok lws -> In l lws ->
  match thread_id with Some t => lw_thread l = t | None => True end -> (forall e, pf_full p (lw_index l) <> Ok e) ->
  (exists l', In l' lws /\ p_timestamp (lw_payload l') <> None) ->
  ends (mmview_cmd s w file thread_id) = Crash \/ ends (mmview_cmd s w file thread_id) = Hang.
Proof.
  intros s w file thread_id p lws l O I HI HW HF (l' & HI' & HT). unfold mmview_cmd. rewrite O. cbn [try]. rewrite I. cbn [sure with_text try].
  assert (G : exists g, iter_min (lw_starts lws) = Some g).
  { destruct (p_timestamp (lw_payload l')) as [t|] eqn:E; [|congruence]. assert (IS : In (ts_start t) (lw_starts lws)).
    { unfold lw_starts. apply in_concat. exists [ts_start t]. split; [|left; reflexivity]. apply in_map_iff. exists l'. rewrite E. auto. }
    destruct (lw_starts lws); [destruct IS|]. eexists. reflexivity. }
  destruct G as (g & ->). enough (E : snd (view_events (pf_full p) thread_id g lws) = Crash \/ snd (view_events (pf_full p) thread_id g lws) = Hang) by (destruct (view_events _ _ _ _); exact E).
  clear - HI HW HF. induction lws as [|x lws IH]; [destruct HI|]. cbn [view_events].
  destruct (match thread_id with Some t => negb (lw_thread x =? t) | None => false end) eqn:SK.
  - destruct HI as [->|HI]; [|auto]. destruct thread_id as [t|]; [|discriminate]. subst t. rewrite Z.eqb_refl in SK. discriminate.
  - destruct (pf_full p (lw_index x)) as [e| | |] eqn:E; cbn [snd ends_of]; auto. destruct HI as [->|HI]; [exfalso; eapply HF, E|]. apply IH in HI. destruct (view_events _ _ _ lws). exact HI.
Qed.

(** ** stack_collapse *)
Lemma collapse_intervals oc es : forall st, foldM (collapse_step oc) st (filter (fun e => p_is_interval (ev_payload e)) es) = foldM (collapse_step oc) st es.
Proof.
  induction es as [|e es IH]; intros st; [reflexivity|]. cbn [filter foldM]. destruct (p_is_interval (ev_payload e)) eqn:P.
  - cbn [foldM]. destruct (collapse_step oc st e); cbn [bind]; auto.
  - replace (collapse_step oc st e) with (Ok st); [cbn [bind]; apply IH|]. unfold collapse_step. destruct (ev_payload e) as [[a b|a]|v]; try reflexivity. discriminate.
Qed.
Lemma filter_rev' {A} (f : A -> bool) l : filter f (rev l) = rev (filter f l).
Proof. induction l as [|a l IH]; [reflexivity|]. cbn [rev filter]. rewrite filter_app, IH. cbn [filter]. destruct (f a); cbn [rev]; [reflexivity|apply app_nil_r]. Qed.
Lemma mapM_ok {A B} (f : A -> res B) l r : Forall2 (fun a b => f a = Ok b) l r -> mapM f l = Ok r.
Proof. intros H. induction H as [|a b l r E F IH]; [reflexivity|]. cbn [mapM]. rewrite E. cbn [bind]. rewrite IH. reflexivity. Qed.
(** stack_collapse needs the strings of the intervals only. *)
Theorem C73_stacks : forall s w file p es, open_profile s w file = EOk p -> readable (fun e => p_is_interval (ev_payload e)) p es ->
  (forall m, collapse_stacks (oc s) es = Ok m ->
    stack_collapse_cmd s w file = mkRun None (create w [Normal (str "out.stacks_folded")] (folded_text (shuffle s m))) Success) /\
  (collapse_stacks (oc s) es = Panic -> stack_collapse_cmd s w file = mkRun None w Crash).
Proof.
  intros s w file p es O (lws & I & F). unfold stack_collapse_cmd. rewrite O. cbn [try].
  assert (E : pf_intervals p = Ok (filter (fun e => p_is_interval (ev_payload e)) es)).
  { unfold pf_intervals. rewrite I. cbn [bind]. apply mapM_ok. clear I. induction F as [|l e lws es (_ & HP & HN) F IH]; [constructor|]. cbn [filter]. rewrite HP.
    destruct (p_is_interval (ev_payload e)) eqn:P; [constructor; auto|auto]. }
  rewrite E. cbn [bind]. replace (collapse_stacks (oc s) (filter (fun e => p_is_interval (ev_payload e)) es)) with (collapse_stacks (oc s) es).
  - split; [intros m|]; intros ->; reflexivity.
  - unfold collapse_stacks. rewrite <- filter_rev', collapse_intervals. reflexivity.
Qed.
(** The same for flamegraph: the lines it hands to inferno, the image it writes and how it ends. *)
Theorem C73_flamegraph : forall s inferno w file p es, open_profile s w file = EOk p -> readable (fun e => p_is_interval (ev_payload e)) p es ->
  (forall m, collapse_stacks (oc s) es = Ok m ->
    let given := inferno (flamegraph_lines (shuffle s m)) in
    flamegraph_cmd s inferno w file = mkRun None (create w [Normal (str "rustc.svg")] (fst given)) (if snd given then Success else Crash)) /\
  (collapse_stacks (oc s) es = Panic -> flamegraph_cmd s inferno w file = mkRun None w Crash).
Proof.
  intros s inferno w file p es O (lws & I & F). unfold flamegraph_cmd. rewrite O. cbn [try].
  assert (E : pf_intervals p = Ok (filter (fun e => p_is_interval (ev_payload e)) es)).
  { unfold pf_intervals. rewrite I. cbn [bind]. apply mapM_ok. clear I. induction F as [|l e lws es (_ & HP & HN) F IH]; [constructor|]. cbn [filter]. rewrite HP.
    destruct (p_is_interval (ev_payload e)) eqn:P; [constructor; auto|auto]. }
  rewrite E. cbn [bind]. replace (collapse_stacks (oc s) (filter (fun e => p_is_interval (ev_payload e)) es)) with (collapse_stacks (oc s) es).
  - split; [intros m|]; intros ->; [cbn [sure with_text try]; cbv zeta; destruct (inferno _); reflexivity|reflexivity].
  - unfold collapse_stacks. rewrite <- filter_rev', collapse_intervals. reflexivity.
Qed.

(** ** crox *)
Lemma span_alike lws es : Forall2 alike lws es -> forall m, fold_left note_span (map lw_as_event lws) m = fold_left note_span es m.
Proof.
  intros H. induction H as [|l e lws es (HT & HP) _ IH]; intros m; [reflexivity|]. cbn [map fold_left]. rewrite IH. f_equal.
  unfold note_span, lw_as_event. cbn [ev_payload ev_thread]. rewrite HT, HP. reflexivity.
Qed.
Lemma mapping_alike oc collapse lws es r : Forall2 alike lws es -> thread_mapping oc collapse (map lw_as_event lws) r <-> thread_mapping oc collapse es r.
Proof.
  intros H. assert (E : thread_start_and_end (map lw_as_event lws) = thread_start_and_end es) by (apply span_alike, H).
  split; intros T; destruct T as [HC|ends starts HC HE HS]; try (apply tm_off; exact HC); rewrite E in * || rewrite <- E in *; apply tm_on; auto.
Qed.
Lemma crox_event_alike s minimum m p l e : alike l e -> (selected minimum e = true -> pf_full p (lw_index l) = Ok e) ->
  crox_event s minimum m p l = export_event (oc s) minimum m (md_process_id (pf_metadata p)) e.
Proof.
  intros (HT & HP) HN. unfold crox_event. rewrite HT, HP.
  assert (Q : p_is_interval (ev_payload e) = true -> (exists d, duration (ev_payload e) = Some d /\ match minimum with Some m0 => d / 1000 <? m0 | None => false end = false) -> selected minimum e = true).
  { intros P (d & D & L). unfold selected. destruct (ev_payload e) as [[a b|a]|v]; try discriminate. destruct minimum as [m0|]; [|reflexivity].
    cbn [duration ts_duration] in D. destruct (a <=? b); [|discriminate]. injection D as D. apply Z.ltb_ge in L. apply Z.leb_le. Z.to_euclidean_division_equations. lia. }
  unfold export_event. destruct (p_is_interval (ev_payload e)) eqn:P; cbn [negb]; [|reflexivity].
  destruct (duration (ev_payload e)) as [d|] eqn:D; cbn [unwrap bind]; [|reflexivity].
  destruct (match minimum with Some _ => _ | None => _ end) eqn:L; [reflexivity|].
  rewrite HN by (apply Q; [reflexivity|exists d; auto]). cbn [bind ev_payload]. rewrite P. cbn [negb]. rewrite D. cbn [unwrap bind]. rewrite L. reflexivity.
Qed.
Lemma crox_events_alike s minimum m p lws es :
  Forall2 (fun l e => lw_thread l = ev_thread e /\ lw_payload l = ev_payload e /\ (selected minimum e = true -> pf_full p (lw_index l) = Ok e)) lws es ->
  forall rs, crox_events s minimum m p lws = (rs, Success) <->
    exists rss, collectM (export_event (oc s) minimum m (md_process_id (pf_metadata p))) es = Ok rss /\ rs = concat rss.
Proof.
  intros H. induction H as [|l e lws es (HT & HP & HN) _ IH]; intros rs; cbn [crox_events collectM].
  - split; [intros E; injection E as <-; exists []; auto|intros (rss & E & ->); injection E as <-; reflexivity].
  - rewrite (crox_event_alike s minimum m p l e) by (auto; split; auto). destruct (export_event _ _ _ _ e) as [r1| | |]; cbn [bind];
      try (split; [intros Q; discriminate Q|intros (rss & Q & _); discriminate Q]).
    destruct (crox_events s minimum m p lws) as (rs', x) eqn:E. destruct (collectM _ es) as [rss'| | |] eqn:C; cbn [bind].
    + assert (K : (rs', x) = (concat rss', Success)) by (apply IH; exists rss'; auto). injection K as -> ->. split.
      * intros Q. injection Q as <-. exists (r1 :: rss'). auto.
      * intros (rss & Q & ->). injection Q as <-. reflexivity.
    + split; [intros Q; injection Q as _ ->; destruct (proj1 (IH rs') eq_refl) as (? & Q & _); discriminate Q|intros (? & Q & _); discriminate Q].
    + split; [intros Q; injection Q as _ ->; destruct (proj1 (IH rs') eq_refl) as (? & Q & _); discriminate Q|intros (? & Q & _); discriminate Q].
    + split; [intros Q; injection Q as _ ->; destruct (proj1 (IH rs') eq_refl) as (? & Q & _); discriminate Q|intros (? & Q & _); discriminate Q].
Qed.
Lemma crox_run_alike s collapse minimum w ps files : Forall2 (fun f p => open_profile s w f = EOk p) files ps ->
  forall ess, Forall2 (readable (selected minimum)) ps ess ->
  forall rs, crox_inputs_run s collapse minimum w files (rs, Success) <-> crox_main (oc s) collapse minimum (combine (map pf_metadata ps) ess) (Ok rs).
Proof.
  intros H. induction H as [|f p files ps O H IH]; intros ess F rs; inversion F as [|? es ? ess' R F']; subst; cbn [map combine].
  - split; intros Q; inversion Q; subst; constructor.
  - destruct R as (lws & I & R). pose proof (readable_alike _ _ _ _ R) as AL. specialize (IH ess' F'). split; intros Q.
    + inversion Q as [|? ? ? ?|? ? ?|? ? ?|? ? ? ? N|? ? ? ? O1 I1 M1|? ? ? ? ? ? ? O1 I1 M1 E1 N|? ? ? ? ? ? ? ? O1 I1 M1 E1 P1 N|? ? p1 lws1 m rs1 qs1 out O1 I1 M1 E1 P1 R1]; subst; try congruence.
      rewrite O in O1. injection O1 as <-. rewrite I in I1. injection I1 as <-. destruct out as (rs2, x). cbn [fst snd] in *. subst x.
      apply IH in R1. apply (mapping_alike _ _ _ _ _ AL) in M1. apply (crox_events_alike s minimum m p lws es R) in E1. destruct E1 as (rss & C & ->).
      unfold crox_process in P1. destruct (sort_index_record (pf_metadata p)) as [r| | |] eqn:SI; try (injection P1 as _ P1; discriminate P1). injection P1 as <-.
      replace (Ok (concat rss ++ (crate_name_record (pf_metadata p) ++ [r]) ++ rs2)) with (do r2 <- Ok rs2; Ok ((concat rss ++ crate_name_record (pf_metadata p) ++ [r]) ++ r2)) by (cbn [bind]; rewrite <- !app_assoc; reflexivity).
      apply cm_cons with (m := m); auto. unfold export_file. rewrite C, SI. reflexivity.
    + remember ((pf_metadata p, es) :: combine (map pf_metadata ps) ess') as l eqn:El. remember (Ok rs) as rr eqn:Er.
      destruct Q as [|md evs fs M1|md evs fs m rs1 r1 M1 E1 R1|md evs fs m M1 E1]; try discriminate. injection El as -> -> ->. destruct r1 as [rs2| | |]; cbn [bind] in Er; try discriminate. injection Er as <-.
      unfold export_file in E1. destruct (collectM _ es) as [rss| | |] eqn:C; cbn [bind] in E1; try discriminate. destruct (sort_index_record (pf_metadata p)) as [r| | |] eqn:SI; cbn [bind] in E1; try discriminate. injection E1 as <-.
      replace ((concat rss ++ crate_name_record (pf_metadata p) ++ [r]) ++ rs2, Success) with (concat rss ++ (crate_name_record (pf_metadata p) ++ [r]) ++ fst (rs2, Success), snd (rs2, Success)) by (cbn [fst snd]; rewrite <- !app_assoc; reflexivity).
      apply cr_next with (p := p) (lws := lws) (m := m); auto.
      * apply (mapping_alike _ _ _ _ _ AL), M1.
      * apply (crox_events_alike s minimum m p lws es R). exists rss. auto.
      * unfold crox_process. rewrite SI. reflexivity.
      * apply IH, R1.
Qed.
Lemma export_ok_or_panic oc minimum m pid e : (exists rs, export_event oc minimum m pid e = Ok rs) \/ export_event oc minimum m pid e = Panic.
Proof.
  unfold export_event. destruct (negb _); [eauto|]. destruct (duration _) as [d|]; cbn [unwrap bind]; [|auto]. destruct (match minimum with Some _ => _ | None => _ end); [eauto|].
  destruct (option_map _ _) as [st|]; cbn [unwrap bind]; [|auto]. destruct (0 <=? st); cbn [bind]; [|auto].
  assert (K : forall d0, (exists v, as_micros oc d0 = Ok v) \/ as_micros oc d0 = Panic).
  { intros d0. unfold as_micros, u64_add. destruct oc, (_ <? U64); cbn [bind]; try (right; reflexivity); destruct (_ <? U64); eauto. }
  destruct (K st) as [(v & ->)| ->]; cbn [bind]; [|auto]. destruct (K d) as [(v2 & ->)| ->]; cbn [bind]; eauto.
Qed.
Lemma crox_events_bad s minimum m p lws es :
  Forall2 (fun l e => lw_thread l = ev_thread e /\ lw_payload l = ev_payload e /\ (selected minimum e = true -> pf_full p (lw_index l) = Ok e)) lws es ->
  snd (crox_events s minimum m p lws) <> Success ->
  snd (crox_events s minimum m p lws) = Crash /\ collectM (export_event (oc s) minimum m (md_process_id (pf_metadata p))) es = Panic.
Proof.
  intros H. induction H as [|l e lws es (HT & HP & HN) _ IH]; cbn [crox_events collectM]; [intros Q; exfalso; apply Q; reflexivity|].
  rewrite (crox_event_alike s minimum m p l e) by (auto; split; auto).
  destruct (export_ok_or_panic (oc s) minimum m (md_process_id (pf_metadata p)) e) as [(r1 & ->)| ->]; cbn [bind]; [|intros _; split; reflexivity].
  destruct (crox_events s minimum m p lws) as (rs', x). cbn [snd] in *. intros Q. destruct (IH Q) as (-> & ->). split; reflexivity.
Qed.
Lemma crox_run_bad s collapse minimum w ps files : Forall2 (fun f p => open_profile s w f = EOk p) files ps ->
  forall ess, Forall2 (readable (selected minimum)) ps ess ->
  forall out, crox_inputs_run s collapse minimum w files out -> snd out <> Success ->
    snd out = Crash /\ crox_main (oc s) collapse minimum (combine (map pf_metadata ps) ess) Panic.
Proof.
  intros H. induction H as [|f p files ps O H IH]; intros ess F out Q NS; inversion F as [|? es ? ess' R F']; subst; cbn [map combine].
  - inversion Q; subst. exfalso. apply NS. reflexivity.
  - destruct R as (lws & I & R). pose proof (readable_alike _ _ _ _ R) as AL. specialize (IH ess' F').
    inversion Q as [|? ? ? ?|? ? ?|? ? ?|? ? ? O1 N|? ? p1 lws1 O1 I1 M1|? ? p1 lws1 m rs1 x1 O1 I1 M1 E1 N|? ? p1 lws1 m rs1 qs1 x1 O1 I1 M1 E1 P1 N|? ? p1 lws1 m rs1 qs1 out1 O1 I1 M1 E1 P1 R1]; subst; try congruence; cbn [snd fst] in *;
      rewrite O in O1; injection O1 as <-; try (rewrite I in I1; injection I1 as <-).
    + split; [reflexivity|]. apply cm_map_panic. apply (mapping_alike _ _ _ _ _ AL), M1.
    + pose proof (crox_events_bad s minimum m p lws es R) as B. rewrite E1 in B. cbn [snd] in B. destruct (B N) as (-> & C). split; [reflexivity|].
      apply cm_panic with (m := m); [apply (mapping_alike _ _ _ _ _ AL), M1|]. unfold export_file. rewrite C. reflexivity.
    + apply (crox_events_alike s minimum m p lws es R) in E1. destruct E1 as (rss & C & ->). unfold crox_process in P1. destruct (sort_index_record (pf_metadata p)) as [r| | |] eqn:SI; try (injection P1 as _ <-; congruence).
      * unfold sort_index_record in SI. destruct (0 <=? _); discriminate.
      * injection P1 as _ <-. split; [reflexivity|]. apply cm_panic with (m := m); [apply (mapping_alike _ _ _ _ _ AL), M1|]. unfold export_file. rewrite C, SI. reflexivity.
      * unfold sort_index_record in SI. destruct (0 <=? _); discriminate.
    + destruct (IH _ R1 NS) as (-> & C2). split; [reflexivity|]. apply (crox_events_alike s minimum m p lws es R) in E1. destruct E1 as (rss & C & ->).
      unfold crox_process in P1. destruct (sort_index_record (pf_metadata p)) as [r| | |] eqn:SI; try (injection P1 as _ P1; discriminate P1).
      change (@Panic (list record)) with (do r2 <- @Panic (list record); Ok ((concat rss ++ crate_name_record (pf_metadata p) ++ [r]) ++ r2)).
      apply cm_cons with (m := m); [apply (mapping_alike _ _ _ _ _ AL), M1| |exact C2]. unfold export_file. rewrite C, SI. reflexivity.
Qed.
Lemma not_chrome f : reader_path f <> chrome_file.
Proof.
  intros E. unfold reader_path in E. destruct (file_name f) as [n|] eqn:FN.
  - apply file_name_Some in FN. destruct FN as (dir & ->). rewrite with_extension_in_dir in E. change chrome_file with (in_dir [] (str "chrome_profiler" ++ str ".json")) in E. apply same_name in E.
    change ([DOT] ++ FILE_EXTENSION) with (str ".mm_profdata") in E. revert E. ends_differ.
  - rewrite with_extension_None in E by exact FN. subst f. discriminate.
Qed.
(** crox needs the strings of the exported events only: the documents a successful run can write are those of the events, and a run that
    does not succeed is one in which these events (or the start time) cannot be exported. *)
Theorem C73_crox : forall s inferno w prefixes entries collapse minimum ps ess,
  Forall2 (fun f p => open_profile s w f = EOk p) (prefixes ++ filter crox_picks entries) ps -> Forall2 (readable (selected minimum)) ps ess ->
  (forall text, (exists w', ran s inferno w (Crox prefixes entries collapse minimum) w' Success /\ w' chrome_file = Some text) <->
    exists rs, crox_main (oc s) collapse minimum (combine (map pf_metadata ps) ess) (Ok rs) /\ text = crox_text rs) /\
  (forall w' e, ran s inferno w (Crox prefixes entries collapse minimum) w' e -> e <> Success ->
    e = Crash /\ crox_main (oc s) collapse minimum (combine (map pf_metadata ps) ess) Panic).
Proof.
  intros s inferno w prefixes entries collapse minimum ps ess O R.
  assert (O' : Forall2 (fun f p => open_profile s (create w chrome_file []) f = EOk p) (prefixes ++ filter crox_picks entries) ps).
  { clear R. induction O as [|f p fs qs E _ IH]; constructor; [|exact IH]. rewrite <- E. apply open_profile_same; [apply create_other, not_chrome|].
    intros N. unfold open_profile, profiling_data_new in E. unfold reader_path in N. rewrite N in E. destruct (_ || _ || _); discriminate. }
  split; [intros text; split|].
  - intros (w' & Q & T). remember (Crox prefixes entries collapse minimum) as c eqn:Ec. remember Success as e eqn:Ee. destruct Q; try discriminate. injection Ec as -> -> -> ->.
    destruct H as [rs x text' out Q HT]. cbn [after ends] in *. subst x. change out with chrome_file in T. rewrite create_same in T. injection T as ->. exists rs. split; [|exact HT].
    apply (crox_run_alike s collapse minimum _ ps _ O' ess R). exact Q.
  - intros (rs & M & ->). eexists. split.
    + apply (ran_crox s inferno w prefixes entries collapse minimum (mkRun None (create w chrome_file (crox_text rs)) Success)). apply crox_ran with (rs := rs); [|reflexivity].
      apply (crox_run_alike s collapse minimum _ ps _ O' ess R), M.
    + cbn [after]. apply create_same.
  - intros w' e Q NS. remember (Crox prefixes entries collapse minimum) as c eqn:Ec. destruct Q; try discriminate. injection Ec as -> -> -> ->.
    destruct H as [rs x text' out Q HT]. cbn [after ends] in *. exact (crox_run_bad s collapse minimum _ ps _ O' ess R _ Q NS).
Qed.

(** ** The texts of events are valid strings *)
Lemma text_utf8 tbl : bytes_ok (string_data tbl) -> forall fuel,
  (forall id t, write_to_string fuel tbl id = Ok t -> utf8 t) /\ (forall pos t, write_loop fuel tbl pos = Ok t -> utf8 t).
Proof.
  intros B. induction fuel as [|f (IH1 & IH2)]; (split; [intros id t H|intros pos t H]); try discriminate; cbn [write_to_string write_loop] in H.
  - destruct (get_addr tbl id) as [addr| | |]; try discriminate; [eapply IH2; eauto|]. injection H as <-. apply utf8_ascii_list. repeat constructor; lia.
  - destruct (znth pos (string_data tbl)) as [b|]; [|discriminate]. destruct (b =? TERMINATOR); [injection H as <-; apply utf8_nil|]. destruct (b =? STRING_REF_TAG).
    + destruct (decode_string_ref_from_data _) as [id| | |]; cbn [bind] in H; try discriminate. destruct (write_to_string f tbl id) as [s1| | |] eqn:E1; cbn [bind] in H; try discriminate.
      destruct (write_loop f tbl _) as [s2| | |] eqn:E2; cbn [bind] in H; try discriminate. injection H as <-. apply utf8_app; eauto.
    + destruct (memchr2 _ _ _) as [len|].
      * destruct (write_loop f tbl _) as [s2| | |] eqn:E2; cbn [bind] in H; try discriminate. injection H as <-. apply utf8_app; [apply C50_lossy, ztake_bytes_ok, zdrop_bytes_ok, B|eauto].
      * injection H as <-. apply utf8_ascii_list. repeat constructor; lia.
Qed.
Lemma to_string_utf8 tbl : bytes_ok (string_data tbl) -> forall fuel id t, to_string fuel tbl id = Ok t -> utf8 t.
Proof.
  intros B. induction fuel as [|f IH]; intros id t H; [discriminate|]. cbn [to_string] in H. destruct (get_addr tbl id) as [pos| | |]; try discriminate; [|injection H as <-; apply utf8_ascii_list; repeat constructor; lia].
  destruct (_ <? _); [discriminate|]. destruct (memchr _ _) as [tp|]; [|discriminate]. destruct (znth _ _) as [b|]; [|discriminate]. destruct (_ && _).
  - destruct (decode_string_ref_from_data _) as [id'| | |]; cbn [bind] in H; try discriminate. eauto.
  - destruct (utf8_valid _) eqn:V; [|eapply (proj1 (text_utf8 tbl B f)); eauto]. injection H as <-. apply utf8_valid_iff; [apply ztake_bytes_ok, zdrop_bytes_ok, B|exact V].
Qed.
Lemma separator_utf8 p t p' : bytes_ok (full_text p) -> parse_separator_terminated_text p = (Ok t, p') -> utf8 t /\ full_text p' = full_text p.
Proof.
  intros B H. unfold parse_separator_terminated_text in H. destruct (_ <? _); [discriminate|]. cbv zeta in H.
  match type of H with context [pos p =? ?e] => generalize dependent e end. intros e H.
  destruct (pos p =? e); [unfold parser_err in H; destruct (utf8_valid _); discriminate|]. destruct (existsb _ _); [unfold parser_err in H; destruct (utf8_valid _); discriminate|].
  unfold substring in H. cbn [full_text] in H. destruct (utf8_valid _) eqn:V; [|discriminate]. injection H as <- <-. split; [|reflexivity].
  apply utf8_valid_iff; [apply ztake_bytes_ok, zdrop_bytes_ok, B|exact V].
Qed.
Lemma args_utf8 fuel : forall p a, bytes_ok (full_text p) -> parse_args fuel p = Ok a -> Forall utf8 a.
Proof.
  induction fuel as [|f IH]; intros p a B H; [discriminate|]. cbn [parse_args] in H. destruct (_ =? _); [injection H as <-; constructor|].
  destruct (parse_arg p) as ([arg| | |], p') eqn:E; try discriminate; [|injection H as <-; constructor].
  destruct (parse_args f p') as [rest| | |] eqn:E2; cbn [bind] in H; try discriminate. injection H as <-.
  unfold parse_arg in E. destruct (znth _ _) as [b|]; [|discriminate]. destruct (b =? SEPARATOR_BYTE); [|unfold parser_err in E; destruct (utf8_valid _); discriminate].
  apply separator_utf8 in E; [|exact B]. destruct E as (E & EF). cbn [full_text] in EF. constructor; [exact E|]. eapply IH; [|exact E2]. rewrite EF. exact B.
Qed.
Lemma parse_utf8 id l a : bytes_ok id -> parse_event_id id = Ok (l, a) -> utf8 l /\ Forall utf8 a.
Proof.
  intros B H. unfold parse_event_id, parse_label in H. cbn [pos] in H. change (0 =? 0) with true in H. cbv iota in H. destruct (parse_separator_terminated_text _) as ([label| | |], p') eqn:E; try discriminate.
  - apply separator_utf8 in E; [|exact B]. destruct E as (E & EF). destruct (parse_args _ p') as [args| | |] eqn:E2; cbn [bind] in H; try discriminate. injection H as <- <-. split; [exact E|].
    eapply args_utf8; [|exact E2]. rewrite EF. exact B.
  - injection H as <- <-. split; [|constructor]. apply utf8_ascii_list. repeat constructor; lia.
Qed.
Lemma event_utf8 fuel en d i e : bytes_ok (string_data (stringtable d)) -> decode_full_event fuel en d i = Ok e -> event_strings e.
Proof.
  intros B H. unfold decode_full_event in H. destruct (raw_at en d i) as [r| | |]; cbn [bind] in H; try discriminate. destruct (payload_from_raw_event r _) as [py| | |]; cbn [bind] in H; try discriminate.
  destruct (to_string _ _ (event_id r)) as [id| | |] eqn:E1; cbn [bind] in H; try discriminate. destruct (parse_event_id id) as [(l, a)| | |] eqn:E2; cbn [bind] in H; try discriminate.
  destruct (to_string _ _ (event_kind r)) as [k| | |] eqn:E3; cbn [bind] in H; try discriminate. injection H as <-. apply (to_string_utf8 _ B) in E1, E3. apply parse_utf8 in E2; [|apply utf8_bytes_ok, E1].
  unfold event_strings. cbn [ev_label ev_kind ev_args fst snd]. tauto.
Qed.
(** The string data of a decoder is part of the file. *)
Lemma split_bytes f : forall data acc r, bytes_ok data -> (forall t b, tget t acc = Some b -> bytes_ok b) -> split_loop f data acc = Ok r -> forall t b, tget t r = Some b -> bytes_ok b.
Proof.
  induction f as [|f IH]; intros data acc r B A H; cbn [split_loop] in H; (destruct data as [|tb rest]; [injection H as <-; exact A|]); [discriminate|].
  destruct (tag_of_byte tb) as [t0|]; [|discriminate]. destruct (_ <? 4); [discriminate|]. cbv zeta in H. destruct (_ <=? 0); [discriminate|]. destruct (_ <? _); [discriminate|].
  assert (BR : bytes_ok rest) by (inversion B; auto). eapply IH; [| |exact H]; [apply zdrop_bytes_ok, zdrop_bytes_ok, BR|].
  intros t b T. destruct (tag_eq_dec t t0) as [->|N].
  - rewrite tget_tset_same in T. injection T as <-. apply Forall_app. split; [|apply ztake_bytes_ok, zdrop_bytes_ok, BR]. destruct (tget t0 acc) eqn:E; [eapply A, E|constructor].
  - rewrite tget_tset_other in T by congruence. eapply A, T.
Qed.
Lemma decoder_bytes parse fuel data d : bytes_ok data -> decoder_new parse fuel data = Ok d -> bytes_ok (string_data (stringtable d)).
Proof.
  intros B H. unfold decoder_new in H. destruct (verify_file_header _ _); cbn [bind] in H; try discriminate. destruct (split_streams _) as [sp| | |] eqn:S; cbn [bind] in H; try discriminate.
  destruct (tget TStrData sp) as [sd|] eqn:E; cbn [ok_or_err bind] in H; try discriminate. destruct (tget TStrIndex sp) as [ix|]; cbn [ok_or_err bind] in H; try discriminate.
  destruct (tget TEvents sp) as [ev|]; cbn [ok_or_err bind] in H; try discriminate. unfold from_separate_buffers in H. destruct (verify_file_header ev _); cbn [bind] in H; try discriminate.
  destruct (string_table_new sd ix) as [tbl| | |] eqn:T; cbn [bind] in H; try discriminate. destruct (metadata_string _ _); cbn [bind] in H; try discriminate. destruct (parse _); cbn [bind] in H; try discriminate.
  injection H as <-. cbn [stringtable]. unfold string_table_new in T. destruct (verify_file_header sd _); cbn [bind] in T; try discriminate. destruct (verify_file_header ix _); cbn [bind] in T; try discriminate.
  destruct (_ =? 0); [|discriminate]. destruct (strip_file_header ix); cbn [bind] in T; try discriminate. destruct (collect_index _); cbn [bind] in T; try discriminate. injection T as <-. cbn [string_data].
  eapply (split_bytes _ _ _ _ (zdrop_bytes_ok _ _ B)); [|exact S|exact E]. intros [] b Q; discriminate Q.
Qed.
(** Whatever a file contains, all texts of the events that can be read from it are valid strings. *)
Theorem C73_texts : forall s data d, bytes_ok data -> decoder_new (parse_metadata s) (fuel s) data = Ok d ->
  (forall i e, pf_full (profile_of s d) i = Ok e -> event_strings e) /\
  (forall es, pf_iter_full (profile_of s d) = Ok es -> Forall event_strings es).
Proof.
  intros s data d B D. apply decoder_bytes in D; [|exact B]. assert (K : forall i e, pf_full (profile_of s d) i = Ok e -> event_strings e).
  { intros i e H. eapply event_utf8; [exact D|exact H]. }
  split; [exact K|]. intros es H. unfold pf_iter_full in H. destruct (pf_iter _) as [lws| | |]; cbn [bind] in H; try discriminate. apply mapM_Forall2 in H. induction H; constructor; eauto.
Qed.
Print Assumptions C73_full.
Print Assumptions C73_view.
Print Assumptions C73_view_needs.
Print Assumptions C73_stacks.
Print Assumptions C73_flamegraph.
Print Assumptions C73_crox.
Print Assumptions C73_texts.

Lemma open_decoded s w stem data d : w (reader_path stem) = Some data -> decoder_new (parse_metadata s) (fuel s) data = Ok d -> open_profile s w stem = EOk (profile_of s d).
Proof.
  intros W D. unfold open_profile, profiling_data_new. unfold reader_path in W. rewrite W.
  pose proof (C69_same (parse_metadata s) (json_error s) (fuel s) (A8 s) (v8 s) data (display s (with_extension stem FILE_EXTENSION))) as (S1 & S2).
  rewrite D in S1.
  assert (V : from_paged_buffer (fun d0 => do a <- forget (v8 s d0 (display s (with_extension stem FILE_EXTENSION))); Ok (inl a)) (fun d0 => do a <- decoder_new (parse_metadata s) (fuel s) d0; Ok (inr a)) data = Ok (inr d)).
  { unfold from_paged_buffer, read_file_header. assert (Q := D). unfold decoder_new, verify_file_header in Q. destruct (zlen data <? FILE_HEADER_SIZE); [discriminate Q|].
    destruct (beq _ _); [|discriminate Q]. cbv zeta in Q. destruct (le_val _ =? CURRENT_FILE_FORMAT_VERSION) eqn:V; [|discriminate Q]. cbn [bind]. apply Z.eqb_eq in V. rewrite V. cbn [Z.eqb V8_FILE_FORMAT V9_FILE_FORMAT CURRENT_FILE_FORMAT_VERSION Pos.eqb].
    rewrite D. reflexivity. }
  rewrite V in S2. destruct (e_from_paged_buffer _ _ _ _ _ data _) as [x| | |]; cbn [forget] in S2; try discriminate. injection S2 as ->. reflexivity.
Qed.

(** A concrete case: two threads; the instant of thread 2 has a kind that was never allocated.  All about thread 1 can be shown. *)
Definition ex_damaged : bytes :=
  file_of (disk (snd (run_ops [ODrop TEvents; ODrop TStrData; ODrop TStrIndex] (cmem (uc (urun LittleEndian
    ([UCall 1 (KAlloc (SStr [97])); UTick 1; UCall 2 (KAlloc (SStr [98])); UTick 2] ++ repeat (UTick 1) 5 ++ repeat (UTick 2) 5 ++
     [UCall 1 (KInterval (16 + 100000003) (16 + 100000003) 1 5 9); UCall 2 (KInstant (999 + 100000003) (16 + 100000003) 2 7); UTick 2] ++
     repeat (UTick 2) 5 ++ repeat (UTick 1) 5) (mkU (Prop_Run.start_conf Prop_Strings.ex_md) []))))))).
Definition ex_setup : setup :=
  mkSetup (fun _ => Ok (mkMd 1000 1 [])) (fun b => b) (fun _ => []) 50 BigEndian unit (fun _ _ => EErr []) (fun _ => mkPf (mkMd 0 0 []) Panic (fun _ => Panic))
    (fun _ => []) true (fun l => l) (fun _ l => l) (fun l => l) true (fun _ => []) (fun _ => []).
Definition ex_file : path := in_dir [] (str "run-7").
Definition ex_world (data : bytes) : world := create (fun _ => None) (in_dir [] (str "run-7.mm_profdata")) data.
Definition ex_shown : bytes := S_Tools.lines [str "{"; str "    kind: a,"; str "    label: a,"; str "    additional_data: [],"; str "    payload: 0 μs - 0 μs,"; str "    thread_id: 1,"; str "}"].
Example ex_C73 :
  (exists d, open_profile ex_setup (ex_world ex_damaged) ex_file = EOk (profile_of ex_setup d) /\
    readable (wanted (Some 1)) (profile_of ex_setup d) [mkEv [] [] [] (Timestamp (Instant 1007)) 2; mkEv [97] [97] [] (Timestamp (Interval 1005 1009)) 1] /\
    pf_iter_full (profile_of ex_setup d) = Panic) /\
  shown (mmview_cmd ex_setup (ex_world ex_damaged) ex_file (Some 1)) = Some (Printed ex_shown) /\
  ends (mmview_cmd ex_setup (ex_world ex_damaged) ex_file (Some 1)) = Success /\
  ends (mmview_cmd ex_setup (ex_world ex_damaged) ex_file (Some 2)) = Crash /\
  ends (mmview_cmd ex_setup (ex_world ex_damaged) ex_file None) = Crash /\
  ends (summarize_cmd ex_setup (ex_world ex_damaged) ex_file false (B754_zero false)) = Crash /\
  after (stack_collapse_cmd ex_setup (ex_world ex_damaged) ex_file) [Normal (str "out.stacks_folded")] = Some (str "rustc;a 4" ++ [10] ++ str "rustc 0" ++ [10]).
Proof.
  split.
  { eexists. split; [apply (open_decoded ex_setup (ex_world ex_damaged) ex_file ex_damaged); [apply create_same|vm_compute; reflexivity]|]. split; [|vm_compute; reflexivity]. eexists. split; [vm_compute; reflexivity|].
    constructor; [|constructor; [|constructor]]; (split; [reflexivity|]; split; [reflexivity|]); intros H; [discriminate H|vm_compute; reflexivity]. }
  split; [vm_compute; reflexivity|]. split; [vm_compute; reflexivity|]. split; [vm_compute; reflexivity|]. split; [vm_compute; reflexivity|]. split; vm_compute; reflexivity.
Qed.
