(** C92: how a file is cut into pages does not matter.  Specification S_Paging.v. *)
From Coq Require Import String ZArith List Lia Bool.
From Verif Require Import M_Base F_Base M_Map M_Raw M_Header M_Strings M_StrTable M_V8 M_Session M_Path M_Crox M_Open M_Iter M_Programs M_Sink S_Sink F_Sink M_Tools M_Collapse S_Open Prop_Tools Prop_Open Prop_Edit Prop_Programs M_Programs S_Paging.
Import ListNotations.
Open Scope Z_scope.
Local Open Scope list_scope.

Lemma repaged_same_open s b b' file : repaged b b' ->
  e_from_paged_buffer (parse_metadata s) (json_error s) (fuel s) (A8 s) (v8 s) b file = e_from_paged_buffer (parse_metadata s) (json_error s) (fuel s) (A8 s) (v8 s) b' file.
Proof.
  intros H. inversion H as [|ps qs Fp Fq St]; subst; [reflexivity|].
  assert (N : forall rest, e_from_paged_buffer (parse_metadata s) (json_error s) (fuel s) (A8 s) (v8 s) (str "MMPD" ++ le_bytes 4 9 ++ rest) file =
    edo d <- e_decoder_new (parse_metadata s) (json_error s) (fuel s) (str "MMPD" ++ le_bytes 4 9 ++ rest) file; EOk (inr d)).
  { intros rest. unfold e_from_paged_buffer. change (str "MMPD") with MMPD. rewrite e_read_ok by lia. reflexivity. }
  rewrite !N. f_equal. unfold e_decoder_new.
  assert (V : forall rest, e_verify_file_header (str "MMPD" ++ le_bytes 4 9 ++ rest) FILE_MAGIC_TOP_LEVEL file (str "top-level") = EOk tt).
  { intros rest. apply verify_good; [reflexivity|]. exists rest. reflexivity. }
  rewrite !V. cbn [ebind].
  assert (D : forall rest, zdrop FILE_HEADER_SIZE (str "MMPD" ++ le_bytes 4 9 ++ rest) = rest).
  { intros rest. destruct (start_parts (str "MMPD") 9 rest eq_refl ltac:(lia)) as (_ & _ & _ & E). exact E. }
  rewrite !D, !split_pages by auto. unfold streams_of. rewrite !St. reflexivity.
Qed.

Lemma same_new s w w' f : same_files w w' ->
  profiling_data_new (parse_metadata s) (json_error s) (fuel s) (A8 s) (v8 s) (display s) w f = profiling_data_new (parse_metadata s) (json_error s) (fuel s) (A8 s) (v8 s) (display s) w' f.
Proof.
  intros H. unfold profiling_data_new.
  assert (X : forall p, match w p with Some _ => true | None => false end = match w' p with Some _ => true | None => false end).
  { intros p. pose proof (sf_exists _ _ H p) as (X1 & X2). destruct (w p), (w' p); try reflexivity; [specialize (X2 eq_refl)|specialize (X1 eq_refl)]; discriminate. }
  rewrite !X. pose proof (X (with_extension f FILE_EXTENSION)) as X0. pose proof (sf_contents _ _ H (with_extension f FILE_EXTENSION)) as C.
  destruct (w (with_extension f FILE_EXTENSION)) as [b|], (w' (with_extension f FILE_EXTENSION)) as [b'|]; try discriminate; [|reflexivity].
  apply repaged_same_open. auto.
Qed.
Lemma same_open s w w' f : same_files w w' -> open_profile s w f = open_profile s w' f.
Proof. intros H. unfold open_profile. rewrite (same_new s w w') by auto. reflexivity. Qed.
Lemma same_create w w' p c : same_files w w' -> same_files (create w p c) (create w' p c).
Proof.
  intros [H1 H2 H3]. constructor; unfold create; intros q.
  - destruct (path_eq_dec q p); [split; discriminate|apply H1].
  - intros b b'. destruct (path_eq_dec q p); [|apply H2]. intros [= <-] [= <-]. constructor.
  - intros J. destruct (path_eq_dec q p); [reflexivity|apply H3, J].
Qed.
(** The programs get the same profile or the same error. *)
Theorem C92_open : forall s w w' stem, same_files w w' ->
  profiling_data_new (parse_metadata s) (json_error s) (fuel s) (A8 s) (v8 s) (display s) w stem = profiling_data_new (parse_metadata s) (json_error s) (fuel s) (A8 s) (v8 s) (display s) w' stem.
Proof. exact same_new. Qed.

(** The same run on the other files. *)
Definition alike {A} (w w' : world) (r r' : run A) : Prop := shown r = shown r' /\ ends r = ends r' /\ same_change w (after r) w' (after r').
Lemma alike_none {A} w w' x e : @alike A w w' (mkRun x w e) (mkRun x w' e).
Proof. unfold alike, same_change. cbn. auto. Qed.
Lemma alike_create {A} w w' x p c e : @alike A w w' (mkRun x (create w p c) e) (mkRun x (create w' p c) e).
Proof. unfold alike, same_change. cbn. split; [reflexivity|]. split; [reflexivity|]. right. exists p, c. split; reflexivity. Qed.
Lemma alike_try {A B} w w' (r : eres A) (k k' : A -> run B) : (forall a, alike w w' (k a) (k' a)) -> alike w w' (try w r k) (try w' r k').
Proof. intros H. destruct r; cbn [try]; auto using alike_none. Qed.

Lemma same_results s w w' f : same_files w w' -> load_results s w f = load_results s w' f.
Proof.
  intros H. unfold load_results, process_results. destruct (ends_with f (str "json")) eqn:E.
  - rewrite (sf_json _ _ H f); [reflexivity|]. unfold ends_with in E. destruct (file_name f) as [n|]; [|discriminate]. apply beq_true in E. subst n. reflexivity.
  - rewrite (same_open s w w') by auto. reflexivity.
Qed.
Lemma same_summarize s w w' f j p : same_files w w' -> alike w w' (summarize_cmd s w f j p) (summarize_cmd s w' f j p).
Proof.
  intros H. unfold summarize_cmd. rewrite (same_open s w w' f) by auto. apply alike_try. intros a. apply alike_try. intros r.
  destruct j; [apply alike_create|]. match goal with |- context [match ?x with Some _ => _ | None => _ end] => destruct x end; apply alike_none.
Qed.
Lemma same_diff s w w' b c x j : same_files w w' -> alike w w' (diff_cmd s w b c x j) (diff_cmd s w' b c x j).
Proof.
  intros H. unfold diff_cmd. rewrite !(same_results s w w') by auto. do 3 (apply alike_try; intros ?). destruct j; [apply alike_create|apply alike_none].
Qed.
Lemma same_stacks s w w' f : same_files w w' -> alike w w' (stack_collapse_cmd s w f) (stack_collapse_cmd s w' f).
Proof. intros H. unfold stack_collapse_cmd. rewrite (same_open s w w' f) by auto. do 2 (apply alike_try; intros ?). apply alike_create. Qed.
Lemma same_flame s inferno w w' f : same_files w w' -> alike w w' (flamegraph_cmd s inferno w f) (flamegraph_cmd s inferno w' f).
Proof. intros H. unfold flamegraph_cmd. rewrite (same_open s w w' f) by auto. do 2 (apply alike_try; intros ?). destruct (inferno _). apply alike_create. Qed.
Lemma same_view s w w' f t : same_files w w' -> alike w w' (mmview_cmd s w f t) (mmview_cmd s w' f t).
Proof.
  intros H. unfold mmview_cmd. rewrite (same_open s w w' f) by auto. do 2 (apply alike_try; intros ?). match goal with |- context [match iter_min ?x with Some _ => _ | None => _ end] => destruct (iter_min x) end; [|apply alike_none].
  destruct (view_events _ _ _ _). apply alike_none.
Qed.
Lemma same_open_all s w w' : same_files w w' -> forall fs, open_all s w fs = open_all s w' fs.
Proof. intros H fs. induction fs as [|f fs IH]; cbn [open_all]; [reflexivity|]. rewrite (same_open s w w' f), IH by auto. reflexivity. Qed.
Lemma same_aggregate s w w' fs r : same_files w w' -> aggregate_cmd s w fs r -> exists r', aggregate_cmd s w' fs r' /\ alike w w' r r'.
Proof.
  intros H Hr. destruct Hr as [t E|E|E|ps es out E M P|ps E M]; rewrite (same_open_all s w w' H) in E.
  - eexists. split; [eapply ac_fails; exact E|apply alike_none].
  - eexists. split; [eapply ac_crash; exact E|apply alike_none].
  - eexists. split; [eapply ac_hang; exact E|apply alike_none].
  - eexists. split; [eapply ac_run; [exact E|exact M|exact P]|]. apply alike_try. intros a. apply alike_none.
  - eexists. split; [eapply ac_events; [exact E|exact M]|apply alike_none].
Qed.
(** mmedit rejects version 9 without a look at the pages. *)
Lemma same_edit s w w' f : same_files w w' -> alike w w' (mmedit_cmd s w f) (mmedit_cmd s w' f).
Proof.
  intros H. unfold mmedit_cmd. pose proof (sf_exists _ _ H f) as (X1 & X2). pose proof (sf_contents _ _ H f) as C.
  destruct (w f) as [b|], (w' f) as [b'|].
  - replace (e_truncate b') with (e_truncate b); [apply alike_try; intros a; apply alike_create|].
    specialize (C b b' eq_refl eq_refl). inversion C as [|ps qs F1 F2 St]; subst; [reflexivity|].
    unfold e_truncate. change (str "MMPD") with MMPD. rewrite !e_read_ok by lia. reflexivity.
  - specialize (X2 eq_refl). discriminate.
  - specialize (X1 eq_refl). discriminate.
  - apply alike_none.
Qed.
Lemma same_crox_run s collapse minimum w w' fs out : same_files w w' -> crox_inputs_run s collapse minimum w fs out -> crox_inputs_run s collapse minimum w' fs out.
Proof.
  intros H R. induction R as [|f fs t E|f fs E|f fs E|f fs p E N|f fs p lws E I T|f fs p lws m rs x E I T V N|f fs p lws m rs qs x E I T V P N|f fs p lws m rs qs out E I T V P R IH];
    try rewrite (same_open s w w') in E by auto; [constructor|..].
  - apply cr_fails; auto.
  - apply cr_crash; auto.
  - apply cr_hang; auto.
  - apply cr_iter; auto.
  - eapply cr_mapping; eauto.
  - eapply cr_stops; eauto.
  - eapply cr_process; eauto.
  - eapply cr_next; eauto.
Qed.
Lemma same_crox s w w' ps es c m r : same_files w w' -> crox_cmd s w ps es c m r -> exists r', crox_cmd s w' ps es c m r' /\ alike w w' r r'.
Proof.
  intros H R. destruct R as [rs x text out R T]. exists (mkRun None (create w' out text) x). split; [|apply alike_create].
  eapply crox_ran; [|exact T]. eapply same_crox_run; [|exact R]. apply same_create, H.
Qed.

(** Every program: it ends in the same way and writes the same file. *)
Theorem C92_commands : forall s inferno w w' c w1 e, same_files w w' -> ran s inferno w c w1 e ->
  exists w1', ran s inferno w' c w1' e /\ same_change w w1 w' w1' /\ same_files w1 w1'.
Proof.
  intros s inferno w w' c w1 e H R.
  assert (G : exists w1', ran s inferno w' c w1' e /\ same_change w w1 w' w1').
  { destruct R as [f j p r|b c x j r|fs r R|f r|f r|f t r|f r|ps es c m r R].
    - destruct (same_summarize s w w' f j p H) as (_ & E & A). subst r. rewrite E. eexists. split; [apply ran_summarize|exact A].
    - destruct (same_diff s w w' b c x j H) as (_ & E & A). subst r. rewrite E. eexists. split; [apply ran_diff|exact A].
    - destruct (same_aggregate s w w' fs r H R) as (r' & R' & _ & E & A). rewrite E. eexists. split; [apply ran_aggregate; exact R'|exact A].
    - destruct (same_stacks s w w' f H) as (_ & E & A). subst r. rewrite E. eexists. split; [apply ran_stacks|exact A].
    - destruct (same_flame s inferno w w' f H) as (_ & E & A). subst r. rewrite E. eexists. split; [apply ran_flamegraph|exact A].
    - destruct (same_view s w w' f t H) as (_ & E & A). subst r. rewrite E. eexists. split; [apply ran_view|exact A].
    - destruct (same_edit s w w' f H) as (_ & E & A). subst r. rewrite E. eexists. split; [apply ran_truncate|exact A].
    - destruct (same_crox s w w' ps es c m r H R) as (r' & R' & _ & E & A). rewrite E. eexists. split; [apply ran_crox; exact R'|exact A]. }
  destruct G as (w1' & R' & A). exists w1'. split; [exact R'|]. split; [exact A|].
  destruct A as [(-> & ->)|(p & t & -> & ->)]; auto using same_create.
Qed.
(** Any number of programs, one after the other. *)
Theorem C92_session : forall s inferno w w' l w1, same_files w w' -> session s inferno w l w1 ->
  exists w1', session s inferno w' l w1' /\ same_files w1 w1'.
Proof.
  intros s inferno w w' l w1 H R. revert w' H. induction R as [w|w c w1 e l w2 R S IH]; intros w' H; [exists w'; split; [constructor|exact H]|].
  destruct (C92_commands s inferno w w' c w1 e H R) as (w1' & R' & _ & H1). destruct (IH w1' H1) as (w2' & S' & H2).
  exists w2'. split; [econstructor; eauto|exact H2].
Qed.
(** What is printed. *)
Theorem C92_printed : forall s w w', same_files w w' ->
  (forall f json percent, shown (summarize_cmd s w f json percent) = shown (summarize_cmd s w' f json percent)) /\
  (forall base change exclude json, shown (diff_cmd s w base change exclude json) = shown (diff_cmd s w' base change exclude json)) /\
  (forall f thread, shown (mmview_cmd s w f thread) = shown (mmview_cmd s w' f thread)) /\
  (forall fs r, aggregate_cmd s w fs r -> exists r', aggregate_cmd s w' fs r' /\ shown r = shown r' /\ ends r = ends r').
Proof.
  intros s w w' H. split; [|split; [|split]].
  - intros f j p. apply (same_summarize s w w' f j p H).
  - intros b c x j. apply (same_diff s w w' b c x j H).
  - intros f t. apply (same_view s w w' f t H).
  - intros fs r R. destruct (same_aggregate s w w' fs r H R) as (r' & R' & A & B & _). eauto.
Qed.
(** mmedit keeps the first page of events, whatever its size: for the versions it accepts, the pages do matter. *)
Theorem C92_mmedit_refuted : forall v e1 e2, v = 7 \/ v = 8 -> 0 < zlen e1 -> 0 < zlen e2 -> zlen (e1 ++ e2) < 2 ^ 32 ->
  let one := [(TEvents, e1 ++ e2)] in let two := [(TEvents, e1); (TEvents, e2)] in
  let file ps := str "MMPD" ++ le_bytes 4 v ++ enc_pages ps in
  Forall page_wf one /\ Forall page_wf two /\ (forall t, stream t one = stream t two) /\
  e_truncate (file one) = EOk (file one) /\ e_truncate (file two) = EOk (file [(TEvents, e1)]) /\
  stream TEvents one <> stream TEvents [(TEvents, e1)].
Proof.
  intros v e1 e2 Hv L1 L2 L one two file.
  assert (W1 : Forall page_wf one). { constructor; [|constructor]. unfold page_wf. cbn [snd]. rewrite zlen_app in *. change (256 ^ 4) with (2 ^ 32). lia. }
  assert (W2 : Forall page_wf two). { rewrite zlen_app in L. constructor; [|constructor; [|constructor]]; unfold page_wf; cbn [snd]; change (256 ^ 4) with (2 ^ 32); lia. }
  split; [exact W1|]. split; [exact W2|]. split.
  { intros t. unfold one, two. destruct t; cbn [stream tag_eqb]; rewrite ?app_nil_r; reflexivity. }
  assert (T : forall ps, Forall page_wf ps -> e_truncate (file ps) = EOk (file (keep false ps))).
  { intros ps F. unfold file. change (str "MMPD") with MMPD. rewrite e_truncate_known by exact Hv.
    unfold truncate. rewrite read_ok by (destruct Hv; lia). cbn [bind].
    replace ((v <? 7) || (8 <? v)) with false by (destruct Hv; subst v; reflexivity).
    assert (D : zdrop FILE_HEADER_SIZE (MMPD ++ le_bytes 4 v ++ enc_pages ps) = enc_pages ps). { destruct (start_parts MMPD v (enc_pages ps) eq_refl ltac:(destruct Hv; lia)) as (_ & _ & _ & E). exact E. }
    assert (K : ztake FILE_HEADER_SIZE (MMPD ++ le_bytes 4 v ++ enc_pages ps) = MMPD ++ le_bytes 4 v). { rewrite app_assoc. apply ztake_app_eq. unfold zlen. rewrite app_length, le_bytes_len. reflexivity. }
    rewrite D, K. rewrite truncate_loop_pages by (auto; apply length_enc_pages_ge). unfold sure, with_text. rewrite <- app_assoc. reflexivity. }
  split; [exact (T one W1)|]. split; [exact (T two W2)|].
  unfold one. cbn [stream tag_eqb]. rewrite !app_nil_r. intros X. apply (f_equal zlen) in X. rewrite zlen_app in X. lia.
Qed.
(** Two files with the same streams in different pages, that differ. *)
Example ex_C92 : exists b b', b <> b' /\ repaged b b' /\
  same_files (fun p => if path_eq_dec p [Normal (str "p.mm_profdata")] then Some b else None) (fun p => if path_eq_dec p [Normal (str "p.mm_profdata")] then Some b' else None).
Proof.
  set (ps := [(TStrData, [1; 2]); (TEvents, [3; 4]); (TStrData, [5])]). set (qs := [(TEvents, [3]); (TStrData, [1; 2; 5]); (TEvents, [4])]).
  exists (str "MMPD" ++ le_bytes 4 9 ++ enc_pages ps), (str "MMPD" ++ le_bytes 4 9 ++ enc_pages qs).
  assert (R : repaged (str "MMPD" ++ le_bytes 4 9 ++ enc_pages ps) (str "MMPD" ++ le_bytes 4 9 ++ enc_pages qs)).
  { apply rp_pages; [repeat constructor| repeat constructor|]. intros []; reflexivity. }
  split; [discriminate|]. split; [exact R|]. constructor.
  - intros p. destruct (path_eq_dec p _); split; intros; auto; discriminate.
  - intros p b b'. destruct (path_eq_dec p _); [|discriminate]. intros [= <-] [= <-]. exact R.
  - intros p Hp. destruct (path_eq_dec p _) as [->|]; [discriminate Hp|reflexivity].
Qed.
Print Assumptions C92_open.
Print Assumptions C92_commands.
Print Assumptions C92_session.
Print Assumptions C92_printed.
Print Assumptions C92_mmedit_refuted.
