(** C72: the programs and the file system.  Model M_Programs.v, specification S_Programs.v. *)
From Coq Require Import String ZArith List Lia Bool Permutation Sorted.
From Flocq Require Import BinarySingleNaN.
From Verif Require Import M_Base F_Base M_Map M_Raw M_V8 M_Header M_Session M_Run M_Iter M_Path M_Crox M_Open M_Analysis M_Folded M_Metadata M_Json M_Diff M_DiffJson M_Float
  M_Text M_Aggregate M_AggText M_Tools M_Collapse M_Programs S_Utf8 S_Json S_Crox Prop_Path Prop_Crox Prop_Crox2 Prop_Json S_Programs.
From Verif Require Prop_Aggregate2.
Import ListNotations.
Open Scope Z_scope.

Lemma create_other w p c q : q <> p -> create w p c q = w q.
Proof. intros H. unfold create. destruct (path_eq_dec q p); [contradiction|reflexivity]. Qed.
Lemma create_same w p c : create w p c p = Some c.
Proof. unfold create. destruct (path_eq_dec p p); [reflexivity|contradiction]. Qed.
Lemma try_after {A B} w (r : eres A) (k : A -> run B) : (exists a, r = EOk a /\ try w r k = k a) \/ (after (try w r k) = w /\ ends (try w r k) <> Success).
Proof. destruct r; cbn [try]; [left; eauto|right..]; cbn [after ends]; split; auto; discriminate. Qed.
Ltac step_try := match goal with
  | |- context [try ?w ?r ?k] => let H := fresh in let a := fresh in destruct (try_after w r k) as [(a & _ & H)|(H & ?)]; [rewrite H; clear H|]
  end.

(** One program run: every file but the documented output keeps its contents. *)
Theorem C72_output_only : forall s inferno w c w' e, ran s inferno w c w' e -> named c ->
  forall p, ~ may_write c p -> w' p = w p.
Proof.
  intros s inferno w c w' e R N p NP. destruct R; try (subst r); cbn [named] in N.
  - unfold summarize_cmd. do 2 (step_try; [|congruence]). destruct j.
    + cbn [after]. destruct N as (dir & n & _ & ->). apply create_other. intros ->. apply NP. unfold json_path. rewrite with_extension_in_dir. constructor.
    + destruct (summarize_text _ _ _); reflexivity.
  - unfold diff_cmd. do 3 (step_try; [|congruence]). destruct j; [|reflexivity].
    cbn [after]. destruct N as (dir & n & _ & ->). apply create_other. intros ->. apply NP. unfold json_path. rewrite with_extension_in_dir. constructor.
  - destruct H; try reflexivity. step_try; [reflexivity|congruence].
  - unfold stack_collapse_cmd. do 2 (step_try; [|congruence]). cbn [after]. apply create_other. intros ->. apply NP. constructor.
  - unfold flamegraph_cmd. do 2 (step_try; [|congruence]). destruct (inferno _) as (svg & fine). cbn [after]. apply create_other. intros ->. apply NP. constructor.
  - unfold mmview_cmd. do 2 (step_try; [|congruence]). destruct (iter_min _); [|reflexivity]. destruct (view_events _ _ _ _). reflexivity.
  - unfold mmedit_cmd. destruct (w f) eqn:Ef; [|reflexivity]. step_try; [|congruence]. cbn [after]. destruct N as (dir & n & _ & ->).
    apply create_other. intros ->. apply NP. unfold truncated_path. rewrite with_extension_in_dir. constructor.
  - destruct H. cbn [after]. apply create_other. intros ->. apply NP. constructor.
Qed.
(** A program that does not succeed changes nothing at all, except crox, and flamegraph when inferno fails. *)
Theorem C72_failure : forall s inferno w c w' e, ran s inferno w c w' e -> e <> Success ->
  match c with
  | Crox _ _ _ _ => True
  | Flamegraph _ => w' = w \/ exists lines, w' = create w [Normal (str "rustc.svg")] (fst (inferno lines)) /\ snd (inferno lines) = false
  | _ => w' = w
  end.
Proof.
  intros s inferno w c w' e R NE. destruct R; try (subst r).
  - unfold summarize_cmd in *. do 2 (revert NE; step_try; intros NE; [|congruence]). destruct j; [cbn [ends] in NE; congruence|]. destruct (summarize_text _ _ _); reflexivity.
  - unfold diff_cmd in *. do 3 (revert NE; step_try; intros NE; [|congruence]). destruct j; [cbn [ends] in NE; congruence|reflexivity].
  - destruct H; try reflexivity. step_try; [reflexivity|congruence].
  - unfold stack_collapse_cmd in *. do 2 (revert NE; step_try; intros NE; [|congruence]). cbn [ends] in NE. congruence.
  - unfold flamegraph_cmd in *. do 2 (revert NE; step_try; intros NE; [|left; congruence]). right. revert NE.
    match goal with |- context [inferno ?l] => destruct (inferno l) as (svg & fine) eqn:E; exists l; rewrite E end. cbn [ends after] in *. destruct fine; [congruence|]. auto.
  - unfold mmview_cmd in *. do 2 (step_try; [|congruence]). destruct (iter_min _); [|reflexivity]. destruct (view_events _ _ _ _). reflexivity.
  - unfold mmedit_cmd in *. destruct (w f) eqn:Ef; [|reflexivity]. revert NE; step_try; intros NE; [|congruence]. cbn [ends] in NE. congruence.
  - exact I.
Qed.
Lemma same_name d d' n n' : in_dir d n = in_dir d' n' -> n = n'.
Proof. intros E. unfold in_dir in E. apply app_inj_tail in E. destruct E as (_ & E). congruence. Qed.
Lemma last_differs (a b : bytes) x y : x <> y -> a ++ [x] <> b ++ [y].
Proof. intros N E. apply app_inj_tail in E. destruct E. auto. Qed.
Ltac ends_differ := match goal with |- ?a ++ str ?u = ?b ++ str ?v -> False =>
  let u' := eval vm_compute in (removelast (str u)) in let x := eval vm_compute in (last (str u) 0) in
  let v' := eval vm_compute in (removelast (str v)) in let y := eval vm_compute in (last (str v) 0) in
  change (str u) with (u' ++ [x]); change (str v) with (v' ++ [y]); rewrite !app_assoc; apply last_differs; lia end.
(** No program but mmedit ever changes a profile (a file with the extension mm_profdata), whatever it is given; none ever changes a
    file of results called json, which diff reads; and mmedit does not change the file it truncates. *)
Theorem C72_inputs_kept : forall s inferno w c w' e, ran s inferno w c w' e -> named c ->
  match c with
  | Truncate f => w' f = w f
  | _ => forall dir n, w' (in_dir dir (n ++ str ".mm_profdata")) = w (in_dir dir (n ++ str ".mm_profdata"))
  end /\ forall dir, w' (in_dir dir (str "json")) = w (in_dir dir (str "json")).
Proof.
  intros s inferno w c w' e R N. pose proof (C72_output_only s inferno w c w' e R N) as K.
  assert (J : forall dir, ~ may_write c (in_dir dir (str "json"))).
  { intros dir M. remember (in_dir dir (str "json")) as q eqn:E. assert (S : forall d n x, path_ok (in_dir d n) -> name_stem n ++ x = str "json" -> (List.length x < 4)%nat).
    { intros d n x PO Q. apply (f_equal (@List.length Z)) in Q. rewrite app_length in Q. change (List.length (str "json")) with 4%nat in Q.
      unfold path_ok in PO. rewrite Forall_forall in PO. specialize (PO (Normal n) ltac:(unfold in_dir; apply in_app_iff; right; left; reflexivity)). destruct PO as (PO & _).
      apply name_stem_nonempty in PO. destruct (name_stem n); [congruence|cbn [List.length] in Q; lia]. }
    destruct M; cbn [named] in N; try (destruct N as (d' & n' & PO & EN)); try (change [Normal ?x] with (in_dir [] x) in E); apply same_name in E; try discriminate.
    - apply (S dir0 n) in E; [cbn in E; lia|exact PO].
    - apply (S dir0 n) in E; [cbn in E; lia|exact PO].
    - apply (S dir0 n) in E; [cbn in E; lia|exact PO]. }
  assert (P : (forall f, c <> Truncate f) -> forall dir n, ~ may_write c (in_dir dir (n ++ str ".mm_profdata"))).
  { intros NT dir n M. remember (in_dir dir (n ++ str ".mm_profdata")) as q eqn:E.
    destruct M; try (change [Normal ?x] with (in_dir [] x) in E); try apply same_name in E.
    - revert E. ends_differ.
    - revert E. ends_differ.
    - change (str "out.stacks_folded") with (str "out.stacks" ++ str "_folded") in E. revert E. ends_differ.
    - change (str "rustc.svg") with (str "rustc" ++ str ".svg") in E. revert E. ends_differ.
    - eapply NT. reflexivity.
    - change (str "chrome_profiler.json") with (str "chrome_profiler" ++ str ".json") in E. revert E. ends_differ. }
  split; [|intros dir; apply K, J].
  destruct c; try (intros dir n; apply K, P; discriminate).
  apply K. intros M. destruct N as (d & n & PO & ->). remember (Truncate (in_dir d n)) as c eqn:Ec. remember (in_dir d n) as q eqn:Eq.
  destruct M as [| | | |d' n'|]; try discriminate. injection Ec as Ec. rewrite Eq in Ec. apply same_name in Ec as E1. apply same_name in Eq as E. subst n'. symmetry in E. rewrite Eq in PO.
  assert (Hn : n <> []). { unfold path_ok in PO. rewrite Forall_forall in PO. specialize (PO (Normal n) ltac:(unfold in_dir; apply in_app_iff; right; left; reflexivity)). apply PO. }
  clear - E Hn. pose proof (split_spec n) as S. unfold name_stem in E. destruct (split_last_dot n) as [([|a x], y)|].
  - apply (f_equal (@List.length Z)) in E. rewrite app_length in E. cbn in E. lia.
  - destruct S as (-> & Hy). assert (E2 : (a :: x) ++ [DOT] ++ y = ((a :: x) ++ str ".truncated") ++ [DOT] ++ str "mm_profdata") by (rewrite <- app_assoc; exact E).
    pose proof (split_join (a :: x) y Hy) as Q1. rewrite E2, split_join in Q1 by (vm_compute; intuition discriminate). injection Q1 as Q1 _.
    apply (f_equal (@List.length Z)) in Q1. rewrite app_length in Q1. cbn in Q1. lia.
  - apply (f_equal (@List.length Z)) in E. rewrite app_length in E. cbn in E. lia.
Qed.

(** * crox *)
Lemma export_strings oc minimum m pid e rs : event_strings e -> export_event oc minimum m pid e = Ok rs -> Forall record_strings rs.
Proof.
  intros (U1 & U2 & U3). unfold export_event. destruct (negb _); [intros E; injection E as <-; constructor|].
  destruct (unwrap (duration _)) as [d| | |]; cbn [bind]; try discriminate. destruct (match minimum with Some _ => _ | None => _ end); [intros E; injection E as <-; constructor|].
  destruct (unwrap _) as [start| | |]; cbn [bind]; try discriminate. destruct (0 <=? start); cbn [bind]; try discriminate.
  destruct (as_micros oc start) as [ts| | |]; cbn [bind]; try discriminate. destruct (as_micros oc d) as [du| | |]; cbn [bind]; try discriminate.
  intros E; injection E as <-. constructor; [|constructor]. cbn [record_strings]. split; auto. split; auto.
  apply get_args_strings, U3.
Qed.
Lemma crate_name_strings md : utf8 (md_cmd md) -> Forall record_strings (crate_name_record md).
Proof.
  intros U. destruct (C37_crate_name md) as [(name & HN & ->)|(_ & ->)]; [|constructor]. constructor; [|constructor]. cbn [record_strings]. eapply crate_name_utf8; eauto.
Qed.
Lemma crox_event_strings s minimum m p l rs : texts_ok p -> crox_event s minimum m p l = Ok rs -> Forall record_strings rs.
Proof.
  intros (_ & T). unfold crox_event. destruct (negb _); [intros E; injection E as <-; constructor|]. destruct (unwrap _); cbn [bind]; try discriminate.
  destruct (match minimum with Some _ => _ | None => _ end); [intros E; injection E as <-; constructor|]. destruct (pf_full p (lw_index l)) as [e| | |] eqn:E; cbn [bind]; try discriminate.
  apply export_strings. apply T in E. exact E.
Qed.
Lemma crox_events_strings s minimum m p lws : texts_ok p -> Forall record_strings (fst (crox_events s minimum m p lws)).
Proof.
  intros T. induction lws as [|l lws IH]; cbn [crox_events]; [constructor|]. destruct (crox_event s minimum m p l) as [rs| | |] eqn:E; try constructor.
  destruct (crox_events s minimum m p lws) as (rs' & x). cbn [fst] in *. apply Forall_app. split; auto. eapply crox_event_strings; eauto.
Qed.
Lemma crox_process_strings md : utf8 (md_cmd md) -> Forall record_strings (fst (crox_process md)).
Proof.
  intros U. unfold crox_process, sort_index_record. destruct (0 <=? _); cbn [fst]; [|apply crate_name_strings, U]. apply Forall_app. split; [apply crate_name_strings, U|]. constructor; [exact I|constructor].
Qed.
Lemma crox_run_strings s collapse minimum w files out :
  (forall f p, In f files -> open_profile s w f = EOk p -> texts_ok p) -> crox_inputs_run s collapse minimum w files out -> Forall record_strings (fst out).
Proof.
  intros T R. induction R as [| | | | | |f files p lws m rs x O I M E N|f files p lws m rs qs x O I M E Q N|f files p lws m rs qs out O I M E Q R IH]; try constructor.
  - pose proof (crox_events_strings s minimum m p lws (T f p ltac:(left; reflexivity) O)) as H. rewrite E in H. exact H.
  - assert (T1 : texts_ok p) by (apply (T f); [left; reflexivity|exact O]). pose proof (crox_events_strings s minimum m p lws T1) as H. rewrite E in H.
    pose proof (crox_process_strings _ (proj1 T1)) as H2. rewrite Q in H2. cbn [fst] in *. apply Forall_app. auto.
  - assert (T1 : texts_ok p) by (apply (T f); [left; reflexivity|exact O]). pose proof (crox_events_strings s minimum m p lws T1) as H. rewrite E in H.
    pose proof (crox_process_strings _ (proj1 T1)) as H2. rewrite Q in H2. cbn [fst] in *. apply Forall_app. split; [exact H|]. apply Forall_app. split; [exact H2|].
    apply IH. intros f' p' Hf. apply T. right; auto.
Qed.
Definition chrome_file : path := [Normal (str "chrome_profiler.json")].
(** If crox fails, then whatever its output file contained before is gone, and what is there now is no JSON document; in particular that is
    so when the first profile does not exist (a defect: the output is created before the inputs are opened). *)
Theorem C72_crox_output_lost_refuted : forall s inferno w prefixes entries collapse minimum,
  (forall w' e, ran s inferno w (Crox prefixes entries collapse minimum) w' e -> e <> Success ->
    (forall f p, In f (prefixes ++ entries) -> open_profile s (create w chrome_file []) f = EOk p -> texts_ok p) ->
    exists text, w' chrome_file = Some text /\ forall v, ~ document text v) /\
  (forall dir n more, prefixes = in_dir dir n :: more -> w (in_dir dir (name_stem n ++ str ".mm_profdata")) = None ->
    exists w' text, ran s inferno w (Crox prefixes entries collapse minimum) w' (Failure text) /\
      starts_with (str "Could not find profiling data file `") text = true /\ w' chrome_file = Some (str "[")).
Proof.
  intros s inferno w prefixes entries collapse minimum. split.
  - intros w' e R NE T. remember (Crox prefixes entries collapse minimum) as c eqn:Ec. destruct R; try discriminate. injection Ec as -> -> -> ->.
    destruct H as [rs x text out R HT]. cbn [after ends] in *. exists text. split; [change chrome_file with out; apply create_same|].
    intros v. apply crox_run_strings in R.
    + assert (K : exists rest, crox_written rs = text ++ rest) by (destruct x; [congruence|exists []; rewrite app_nil_r; auto..|exact HT]). destruct K as (rest & K).
      apply (C58_unfinished rs text (rest ++ [93])); [exact R| |destruct rest; discriminate]. unfold crox_text. rewrite K, <- app_assoc. reflexivity.
    + intros f p Hf. apply T. apply in_app_iff in Hf. apply in_app_iff. destruct Hf as [Hf|Hf]; [left; auto|right; apply filter_In in Hf; apply Hf].
  - intros dir n more -> H.
    assert (NF : create w chrome_file [] (reader_path (in_dir dir n)) = None).
    { rewrite create_other; [unfold reader_path; rewrite with_extension_in_dir; exact H|]. unfold reader_path. rewrite with_extension_in_dir. intros E. change chrome_file with (in_dir [] (str "chrome_profiler" ++ str ".json")) in E.
      apply same_name in E. change ([DOT] ++ FILE_EXTENSION) with (str ".mm_profdata") in E. revert E. ends_differ. }
    assert (O : exists text, open_profile s (create w chrome_file []) (in_dir dir n) = EErr text /\ starts_with (str "Could not find profiling data file `") text = true).
    { unfold open_profile, profiling_data_new. unfold reader_path in NF. rewrite NF. destruct (_ || _ || _); eexists; split; try reflexivity; cbn; reflexivity. }
    destruct O as (text & O & ST). eexists. exists text. split.
    + apply (ran_crox s inferno w (in_dir dir n :: more) entries collapse minimum (mkRun None (create w chrome_file (crox_written [])) (Failure text))).
      apply (crox_ran s w (in_dir dir n :: more) entries collapse minimum [] (Failure text)); [|reflexivity]. apply cr_fails. exact O.
    + split; [exact ST|]. cbn [after]. apply create_same.
Qed.

(** * The results of summarize, read by diff *)
Lemma open_profile_same s w w' stem : w' (reader_path stem) = w (reader_path stem) -> w (reader_path stem) <> None -> open_profile s w' stem = open_profile s w stem.
Proof. intros E N. unfold open_profile, profiling_data_new. unfold reader_path in *. rewrite E. destruct (w _); [reflexivity|congruence]. Qed.
(** [summarize --json] writes a file; copied to a file called json, it takes the place of the profile in [diff], on either side. *)
Theorem C72_json_results : forall s inferno w dir n percent w1 p es,
  (forall l, Permutation l (row_order s l)) -> n <> str "json" ->
  open_profile s w (in_dir dir n) = EOk p -> pf_iter_full p = Ok es -> Forall event_ok es -> zlen es < 2 ^ 64 ->
  ran s inferno w (Summarize (in_dir dir n) true percent) w1 Success ->
  exists text, w1 (in_dir dir (name_stem n ++ str ".json")) = Some text /\
  forall w2 d, w2 (in_dir d (str "json")) = Some text ->
    w2 (in_dir dir (name_stem n ++ str ".mm_profdata")) = w (in_dir dir (name_stem n ++ str ".mm_profdata")) ->
    (forall change x j, diff_cmd s w2 (in_dir d (str "json")) change x j = diff_cmd s w2 (in_dir dir n) change x j) /\
    (forall base x, diff_cmd s w2 base (in_dir d (str "json")) x false = diff_cmd s w2 base (in_dir dir n) x false).
Proof.
  intros s inferno w dir n percent w1 p es HP NJ O I OK L R.
  remember (Summarize (in_dir dir n) true percent) as c eqn:Ec. remember Success as e eqn:Ee. destruct R; try discriminate. injection Ec as -> -> ->. subst r. revert Ee.
  unfold summarize_cmd. rewrite O. cbn [try]. rewrite I. cbn [sure with_text ebind]. destruct (perform_analysis (oc s) (row_order s) es) as [r| | |] eqn:A; cbn [with_text try ends]; try discriminate.
  intros _. cbn [after]. exists (results_text r). split; [unfold json_path; rewrite with_extension_in_dir; apply create_same|].
  intros w2 d J P.
  assert (NP : w (reader_path (in_dir dir n)) <> None).
  { intros E. unfold open_profile, profiling_data_new in O. unfold reader_path in E. rewrite E in O. destruct (_ || _ || _); discriminate. }
  assert (O2 : open_profile s w2 (in_dir dir n) = EOk p).
  { rewrite <- O. apply open_profile_same; [|exact NP]. unfold reader_path. rewrite with_extension_in_dir. exact P. }
  assert (L1 : load_results s w2 (in_dir d (str "json")) = EOk r).
  { unfold load_results, process_results. replace (ends_with (in_dir d (str "json")) (str "json")) with true.
    - rewrite J. rewrite (C57_analysis _ _ _ _ HP OK L A). reflexivity.
    - symmetry. unfold ends_with. rewrite file_name_in_dir. apply beq_refl. }
  assert (L2 : load_results s w2 (in_dir dir n) = EOk r).
  { unfold load_results, process_results. replace (ends_with (in_dir dir n) (str "json")) with false.
    - rewrite O2. cbn [ebind]. rewrite I. cbn [sure with_text ebind]. rewrite A. reflexivity.
    - symmetry. unfold ends_with. rewrite file_name_in_dir. apply beq_false, NJ. }
  split; [intros change x j|intros base x]; unfold diff_cmd; rewrite L1, L2; reflexivity.
Qed.
(** * Every run ends *)
Lemma foldM_ends {A B} (f : A -> B -> res A) : (forall a b, (exists x, f a b = Ok x) \/ f a b = Panic) ->
  forall l a, (exists x, foldM f a l = Ok x) \/ foldM f a l = Panic.
Proof.
  intros H. induction l as [|b l IH]; intros a; cbn [foldM]; [eauto|]. destruct (H a b) as [(x & ->)| ->]; cbn [bind]; [apply IH|right; reflexivity].
Qed.
Lemma mapping_ends oc collapse evs : (exists m, thread_mapping oc collapse evs (Ok m)) \/ thread_mapping oc collapse evs Panic.
Proof.
  destruct collapse; [|left; exists []; constructor; reflexivity].
  destruct (Prop_Crox.sortable (map (fun x => (snd (snd x), fst x)) (thread_start_and_end evs))) as (ends & E).
  destruct (Prop_Crox.sortable (map (fun x => (fst (snd x), fst x)) (thread_start_and_end evs))) as (starts & S0).
  pose proof (tm_on oc true evs ends starts eq_refl E S0) as T.
  assert (F : (exists x, foldM (collapse_one oc) (mkCx ends [] 0) starts = Ok x) \/ foldM (collapse_one oc) (mkCx ends [] 0) starts = Panic).
  { apply foldM_ends. intros a b. unfold collapse_one. destruct (next_ends a) as [|[ne nt] rest]; [right; reflexivity|].
    destruct (ne <? fst b); [left; eauto|]. unfold u32_add. destruct (_ <? _); [left; cbn [bind]; eauto|]. destruct oc; [right; reflexivity|left; cbn [bind]; eauto]. }
  destruct F as [(x & F)|F]; rewrite F in T; cbn [bind] in T; [left; eauto|right; exact T].
Qed.
Lemma crox_inputs_end s collapse minimum w : forall files, exists out, crox_inputs_run s collapse minimum w files out.
Proof.
  induction files as [|f files (out & IH)]; [exists ([], Success); constructor|]. destruct (open_profile s w f) as [p|t| |] eqn:O.
  - destruct (pf_iter p) as [lws| | |] eqn:I.
    + destruct (mapping_ends (oc s) collapse (map lw_as_event lws)) as [(m & T)|T]; [|eexists; eapply cr_mapping; eauto].
      destruct (crox_events s minimum m p lws) as [rs x] eqn:CE.
      assert (D : x = Success \/ x <> Success) by (destruct x; [left; reflexivity|right; discriminate|right; discriminate|right; discriminate|right; discriminate]).
      destruct D as [->|D]; [|eexists; eapply cr_stops; eauto].
      destruct (crox_process (pf_metadata p)) as [qs y] eqn:CP.
      assert (D : y = Success \/ y <> Success) by (destruct y; [left; reflexivity|right; discriminate|right; discriminate|right; discriminate|right; discriminate]).
      destruct D as [->|D]; [eexists; eapply cr_next; eauto|eexists; eapply cr_process; eauto].
    + eexists. eapply cr_iter; eauto. rewrite I. discriminate.
    + eexists. eapply cr_iter; eauto. rewrite I. discriminate.
    + eexists. eapply cr_iter; eauto. rewrite I. discriminate.
  - eexists. eapply cr_fails; eauto.
  - eexists. eapply cr_crash; eauto.
  - eexists. eapply cr_hang; eauto.
Qed.
(** Whatever the files contain, every command has an outcome, and only one, except for crox: which threads share a line, and how much of
    the output has reached the disk when the stack overflows, may vary. *)
Theorem C72_ends : forall s inferno w c,
  (exists w' e, ran s inferno w c w' e) /\
  match c with
  | Crox _ _ _ _ => True
  | _ => forall w1 e1 w2 e2, ran s inferno w c w1 e1 -> ran s inferno w c w2 e2 -> w1 = w2 /\ e1 = e2
  end.
Proof.
  intros s inferno w c.
  assert (AG : forall fs, exists r, aggregate_cmd s w fs r /\ forall r', aggregate_cmd s w fs r' -> r' = r).
  { intros fs. destruct (open_all s w fs) as [ps|t| |] eqn:O.
    - destruct (mapM pf_iter_full ps) as [es| | |] eqn:I.
      + destruct (Prop_Aggregate2.C35_total (oc s) es) as (r & R & _ & U).
        assert (AP : aggregate_prints (ties s) (show_f64 s) (oc s) es (do r <- r; Ok (report_text (ties s) (show_f64 s) r))) by (exists r; auto).
        eexists. split; [eapply ac_run; eauto|]. intros r' R'. destruct R' as [t R'|R'|R'|ps' es' out R' I' P|ps' R' I']; try congruence.
        * assert (ps' = ps) by congruence. subst ps'. assert (es' = es) by congruence. subst es'. destruct P as (r2 & P & ->). rewrite (U r2 P). reflexivity.
      + eexists. split; [eapply ac_events; [exact O|rewrite I; discriminate]|]. intros r' R'.
        destruct R' as [t R'|R'|R'|ps' es' out R' I' P|ps' R' I']; congruence.
      + eexists. split; [eapply ac_events; [exact O|rewrite I; discriminate]|]. intros r' R'.
        destruct R' as [t R'|R'|R'|ps' es' out R' I' P|ps' R' I']; congruence.
      + eexists. split; [eapply ac_events; [exact O|rewrite I; discriminate]|]. intros r' R'.
        destruct R' as [t R'|R'|R'|ps' es' out R' I' P|ps' R' I']; congruence.
    - eexists. split; [eapply ac_fails; exact O|]. intros r' R'. destruct R' as [t' R'|R'|R'|ps' es' out R' I' P|ps' R' I']; congruence.
    - eexists. split; [eapply ac_crash; exact O|]. intros r' R'. destruct R' as [t' R'|R'|R'|ps' es' out R' I' P|ps' R' I']; congruence.
    - eexists. split; [eapply ac_hang; exact O|]. intros r' R'. destruct R' as [t' R'|R'|R'|ps' es' out R' I' P|ps' R' I']; congruence. }
  split.
  - destruct c as [f j p|b c x j|fs|f|f|f t|f|ps es cl m]; try (do 2 eexists; constructor; fail).
    + destruct (AG fs) as (r & R & _). do 2 eexists. constructor. exact R.
    + destruct (crox_inputs_end s cl m (create w [Normal (str "chrome_profiler.json")] []) (ps ++ filter crox_picks es)) as ((rs & x) & R).
      assert (T : exists text, match x with Success => text = crox_text rs | Hang => exists rest, crox_written rs = text ++ rest | _ => text = crox_written rs end).
      { destruct x; try (eexists; reflexivity). exists (crox_written rs), []. rewrite app_nil_r. reflexivity. }
      destruct T as (text & T). do 2 eexists. constructor. exact (crox_ran s w ps es cl m rs x text R T).
  - destruct c as [f j p|b c x j|fs|f|f|f t|f|ps es cl m]; try exact I; intros w1 e1 w2 e2 R1 R2; inversion R1; inversion R2; subst; try (split; reflexivity).
    destruct (AG fs) as (ru & _ & U). match goal with H1 : aggregate_cmd s w fs ?a, H2 : aggregate_cmd s w fs ?b |- _ => rewrite (U a H1), (U b H2) end. split; reflexivity.
Qed.
(** * A profile that cannot be opened is reported *)
Lemma open_all_fails s w l1 f l2 t : Forall (fun g => exists p, open_profile s w g = EOk p) l1 -> open_profile s w f = EErr t -> open_all s w (l1 ++ f :: l2) = EErr t.
Proof. intros H E. induction H as [|g l1 (p & Hp) H IH]; cbn [app open_all]; [rewrite E; reflexivity|]. rewrite Hp. cbn [ebind]. rewrite IH. reflexivity. Qed.
(** If a profile cannot be opened, every program that is given it ends with the reason as its error, prints nothing and leaves every file
    alone - except crox, which has already replaced its output. *)
Theorem C72_reports : forall s inferno w f t, open_profile s w f = EErr t ->
  (forall json percent, summarize_cmd s w f json percent = mkRun None w (Failure t)) /\
  (forall change x json, ends_with f (str "json") = false -> diff_cmd s w f change x json = mkRun None w (Failure t)) /\
  (forall base r x json, ends_with f (str "json") = false -> load_results s w base = EOk r -> diff_cmd s w base f x json = mkRun None w (Failure t)) /\
  (forall before more r, Forall (fun g => exists p, open_profile s w g = EOk p) before -> (aggregate_cmd s w (before ++ f :: more) r <-> r = mkRun None w (Failure t))) /\
  stack_collapse_cmd s w f = mkRun None w (Failure t) /\
  flamegraph_cmd s inferno w f = mkRun None w (Failure t) /\
  (forall thread_id, mmview_cmd s w f thread_id = mkRun None w (Failure t)) /\
  (forall w0 more entries collapse minimum r, w = create w0 chrome_file [] ->
    (crox_cmd s w0 (f :: more) entries collapse minimum r <-> r = mkRun None (create w0 chrome_file (str "[")) (Failure t))).
Proof.
  intros s inferno w f t E.
  assert (LR : ends_with f (str "json") = false -> load_results s w f = EErr t) by (intros J; unfold load_results, process_results; rewrite J, E; reflexivity).
  split; [intros; unfold summarize_cmd; rewrite E; reflexivity|]. split; [intros change x json J; unfold diff_cmd; rewrite (LR J); reflexivity|].
  split; [intros base r x json J B; unfold diff_cmd; rewrite B; cbn [try]; rewrite (LR J); reflexivity|].
  split; [intros before more r B; pose proof (open_all_fails s w before f more t B E) as A; split|].
  - intros R. destruct R; rewrite A in H; try discriminate. injection H as <-. reflexivity.
  - intros ->. apply ac_fails, A.
  - split; [unfold stack_collapse_cmd; rewrite E; reflexivity|]. split; [unfold flamegraph_cmd; rewrite E; reflexivity|]. split; [intros; unfold mmview_cmd; rewrite E; reflexivity|].
    intros w0 more entries collapse minimum r W. split.
    + intros R. destruct R as [rs x text out R HT]. fold chrome_file in out. subst out. rewrite <- W in R. cbn [app] in R. inversion R; try congruence. subst. assert (t0 = t) as -> by congruence. rewrite HT. reflexivity.
    + intros ->. apply (crox_ran s w0 (f :: more) entries collapse minimum [] (Failure t) (str "[")); [|reflexivity]. cbn [app]. apply cr_fails. change [Normal (str "chrome_profiler.json")] with chrome_file. rewrite <- W. exact E.
Qed.
(** The same for a file of results that is missing or is no document of results, and for the file mmedit is to truncate. *)
Theorem C72_reports_files : forall s w,
  (forall dir x base change j, w (in_dir dir (str "json")) = None ->
    diff_cmd s w (in_dir dir (str "json")) change x j = mkRun None w (Failure (io_error s (in_dir dir (str "json")))) /\
    (forall r, load_results s w base = EOk r -> diff_cmd s w base (in_dir dir (str "json")) x j = mkRun None w (Failure (io_error s (in_dir dir (str "json")))))) /\
  (forall dir x base change j text, w (in_dir dir (str "json")) = Some text -> read_results text = Err ->
    diff_cmd s w (in_dir dir (str "json")) change x j = mkRun None w (Failure (json_error s text)) /\
    (forall r, load_results s w base = EOk r -> diff_cmd s w base (in_dir dir (str "json")) x j = mkRun None w (Failure (json_error s text)))) /\
  (forall f, w f = None -> mmedit_cmd s w f = mkRun None w (Failure (io_error s f))) /\
  (forall f contents t, w f = Some contents -> e_truncate contents = EErr t -> mmedit_cmd s w f = mkRun None w (Failure t)).
Proof.
  intros s w.
  assert (J : forall dir, process_results (in_dir dir (str "json")) = JsonResults (in_dir dir (str "json"))).
  { intros dir. unfold process_results. replace (ends_with (in_dir dir (str "json")) (str "json")) with true; [reflexivity|]. symmetry. unfold ends_with. rewrite file_name_in_dir. apply beq_refl. }
  split; [|split; [|split]].
  - intros dir x base change j H. assert (L : load_results s w (in_dir dir (str "json")) = EErr (io_error s (in_dir dir (str "json")))) by (unfold load_results; rewrite J, H; reflexivity).
    split; [unfold diff_cmd; rewrite L; reflexivity|]. intros r B. unfold diff_cmd. rewrite B. cbn [try]. rewrite L. reflexivity.
  - intros dir x base change j text H R. assert (L : load_results s w (in_dir dir (str "json")) = EErr (json_error s text)) by (unfold load_results; rewrite J, H, R; reflexivity).
    split; [unfold diff_cmd; rewrite L; reflexivity|]. intros r B. unfold diff_cmd. rewrite B. cbn [try]. rewrite L. reflexivity.
  - intros f H. unfold mmedit_cmd. rewrite H. reflexivity.
  - intros f contents t H E. unfold mmedit_cmd. rewrite H, E. reflexivity.
Qed.
Print Assumptions C72_output_only.
Print Assumptions C72_failure.
Print Assumptions C72_inputs_kept.
Print Assumptions C72_crox_output_lost_refuted.
Print Assumptions C72_json_results.
Print Assumptions C72_reports.
Print Assumptions C72_reports_files.

(** A concrete case: crox of a profile that does not exist replaces its previous output by an opening bracket; stack_collapse of it changes nothing. *)
Example ex_C72 : forall s inferno,
  let w := create (fun _ => None) chrome_file (str "[]") in
  named (Summarize (in_dir [Normal (str "p")] (str "a.b")) true (B754_zero false)) /\
  may_write (Summarize (in_dir [Normal (str "p")] (str "a.b")) true (B754_zero false)) (in_dir [Normal (str "p")] (str "a.json")) /\
  (exists w' text, ran s inferno w (Crox [in_dir [] (str "none")] [] false None) w' (Failure text) /\ w' chrome_file = Some (str "[")) /\
  (exists text, ran s inferno w (StackCollapse (in_dir [] (str "none"))) w (Failure text)).
Proof.
  intros s inferno w. split.
  { cbn [named]. eexists _, _. split; [|reflexivity]. unfold path_ok. repeat constructor; try discriminate; vm_compute; intuition discriminate. }
  split; [apply (mw_summary [Normal (str "p")] (str "a.b"))|]. split.
  - destruct (proj2 (C72_crox_output_lost_refuted s inferno w [in_dir [] (str "none")] [] false None) [] (str "none") [] eq_refl) as (w' & text & H1 & _ & H2); [reflexivity|eauto].
  - assert (E : exists text, open_profile s w (in_dir [] (str "none")) = EErr text).
    { unfold open_profile, profiling_data_new. replace (w (with_extension (in_dir [] (str "none")) FILE_EXTENSION)) with (@None bytes) by reflexivity. destruct (_ || _ || _); eexists; reflexivity. }
    destruct E as (text & E). exists text. pose proof (ran_stacks s inferno w (in_dir [] (str "none"))) as R. cbv zeta in R. unfold stack_collapse_cmd in R. rewrite E in R. exact R.
Qed.
