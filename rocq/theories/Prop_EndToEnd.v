(** C74: from timing guards to what the programs print.  Specification S_EndToEnd.v. *)
From Coq Require Import String ZArith List Lia Bool Permutation Sorted Reals.
From Flocq Require Import BinarySingleNaN.
From Verif Require Import M_Base F_Base M_Sink S_Sink M_Conc S_Conc M_Raw M_Header M_V8 M_Iter M_Session S_Session M_Run S_Run Prop_Run S_Utf8 S_Whole Prop_Whole Prop_Whole2
  M_Map M_Path Prop_Path M_Open Prop_Open M_Analysis S_Analysis S_Summary F_Analysis F_Analysis2 F_Analysis3 Prop_Analysis M_Diff S_Diff M_DiffJson M_Float M_Text
  F_Session2 F_Run S_Guard M_Collapse S_Collapse M_Tools M_Folded S_Folded M_Crox M_Json M_Programs S_Programs Prop_Programs Prop_Needed S_EndToEnd.
From Verif Require Import M_Strings S_Strings S_Json Prop_Json Prop_Crox Prop_Crox2 Prop_Collapse Prop_Folded Prop_Tools.
From Verif Require Prop_Strings F_Utf8 S_Summarize S_Crox S_Tools S_Float S_Text Prop_Text Prop_Text2 Prop_Float.
Import ListNotations.
Open Scope Z_scope.

(** ** Opening the file of a session *)
Lemma recording_opens en0 s x : proper en0 (parse_metadata s) x ->
  exists K, linearization (uhist (final en0 x)) K /\
    forall es, zlen es < 2 ^ 64 -> records x K es ->
      nested_recording es /\ Forall (within (md_start_time (md_value x))) es /\ Forall event_strings es /\
      exists n, forall f w stem, (n <= f)%nat -> w (reader_path stem) = Some (written_file en0 x) ->
        exists p, open_profile (with_fuel s f) w stem = EOk p /\ pf_metadata p = md_value x /\ pf_iter_full p = Ok es /\ forall need, readable need p es.
Proof.
  intros (Hmd & Hst & Hok & Hidle & Hd & Hall & Hm & HU & HO). unfold final in *.
  destruct (concurrent_session en0 (md_text x) (first_ref x) (initial x) (acts x) (drops x) Hmd Hst Hok Hidle Hd Hall) as (K & L & HK & HS & Hsp).
  exists K. split; [exact HK|]. intros es Hlen HF. unfold records in HF.
  split. { intros n. rewrite (spans_read _ _ _ _ _ _ HF n). apply laminar_shift. eapply laminar_numbered; eauto. }
  split; [eapply read_bounds; eauto|].
  destruct (session_decoder_new en0 _ _ K L HS (parse_metadata s) (md_value x) _ Hm Hsp) as (n & Hn).
  destruct (session_iter_full en0 _ _ K L HS (en s) (md_value x) es) as (n' & Hn'); auto.
  { unfold zlen in *. rewrite (Forall2_len _ _ _ HF). lia. }
  assert (I : forall f, (n + n' <= f)%nat -> pf_iter_full (profile_of (with_fuel s f) (session_decoder K L (md_value x))) = Ok es).
  { intros f Hf. rewrite <- (Hn' f) by lia. unfold pf_iter_full, iter_full, profile_of. cbn [pf_iter pf_full with_fuel M_Programs.en M_Programs.fuel]. destruct (num_events _); reflexivity. }
  split.
  - pose proof (I _ (le_n _)) as H. unfold pf_iter_full in H. destruct (pf_iter _) as [lws| | |]; cbn [bind] in H; try discriminate. apply mapM_Forall2 in H.
    pose proof (session_data_ok en0 _ _ K L HS) as B. clear - H B. induction H; constructor; eauto. eapply event_utf8; [|exact H]. exact B.
  - exists (n + n')%nat. intros f w stem Hf HW. exists (profile_of (with_fuel s f) (session_decoder K L (md_value x))).
    split; [apply (open_decoded (with_fuel s f) w stem _ _ HW (Hn f ltac:(lia)))|]. split; [reflexivity|]. split; [exact (I f Hf)|]. apply C73_full, I, Hf.
Qed.

(** ** The analysis of the events *)
Lemma sum_le P es : nested_recording es -> 0 <= self_time_sum P es <= time_sum (fun _ => true) es.
Proof.
  intros N. pose proof (self_time_sum_le P es N). pose proof (time_sum_le P es N). rewrite self_time_sum_eq in *.
  pose proof (allkids_bound P es [] N) as B. pose proof (allkids_child_sum P es) as E. rewrite E in B. lia.
Qed.
Lemma count_le P es : 0 <= count P es <= zlen es.
Proof. induction es as [|e es IH]; [cbn; change (zlen (@nil event)) with 0; unfold count; cbn [filter]; change (zlen (@nil event)) with 0; lia|]. rewrite count_cons, zlen_cons. destruct (P e); cbn [b2z]; lia. Qed.
Lemma laminar_le l : laminar l -> forall a b, In (a, b) l -> a <= b.
Proof. induction l as [|x l IH]; intros H a b []; destruct H as (H1 & _ & H2); [subst; cbn in H1; lia|eauto]. Qed.
Lemma life_times_nonneg es spans : nested_recording es -> all_thread_spans es spans -> 0 <= life_times spans.
Proof.
  intros N (_ & _ & A). unfold life_times. assert (F : Forall (fun x => fst (snd x) <= snd (snd x)) spans).
  { apply Forall_forall. intros (t, (a, b)) H. apply A in H. destruct H as ((y & Hy) & _ & HB). cbn [fst snd]. pose proof (laminar_le _ (N t) a y Hy). apply HB in Hy. lia. }
  clear A N. induction F as [|x l Hx F IH]; [reflexivity|]. cbn [map]. rewrite zsum_cons. lia.
Qed.
Lemma analysis_results oc0 order0 es st : (forall l, Permutation l (order0 l)) -> nested_recording es -> Forall (within st) es -> in_range es ->
  exists r, perform_analysis oc0 order0 es = Ok r /\ results_of es r /\ results_fit r /\ S_Text.results_valid r.
Proof.
  intros HP HN HB (L & TS & LT & AT). rewrite Forall_forall in HB.
  assert (HI : integers_ok es). { intros e v He Ee. destruct (HB e He) as (_ & H). rewrite Ee in H. exact H. }
  destruct (C26_no_panic oc0 order0 es st (2 ^ 48) HN HI) as (r & Hr).
  { intros e a b He Ee. destruct (HB e He) as (_ & H). rewrite Ee in H. exact H. }
  { lia. }
  { unfold DURATION_MAX. lia. }
  { intros _ l. specialize (AT l). lia. }
  destruct (C25_rows oc0 order0 es r HP HN Hr) as (R1 & R2). destruct (C29_artifacts oc0 order0 es r HI Hr) as (A1 & A2). destruct (C27_total_time oc0 order0 es r Hr) as (spans & T1 & T2).
  exists r. split; [exact Hr|].
  assert (AT0 : forall l, 0 <= artifact_total es l < 2 ^ 63) by (intros l; split; [apply artifact_total_nonneg, HI|apply AT]).
  assert (RO : results_of es r).
  { split; [exact R1|]. split; [exact R2|]. split; [exact A1|]. split; [|exists spans; auto]. intros l v. rewrite A2. specialize (AT0 l). rewrite Z.mod_small by lia. intuition lia. }
  assert (F : results_fit r).
  { destruct RO as (_ & RQ & _ & RA & sp & S1 & S2). split; [|split].
    - apply Forall_forall. intros q Hq. apply RQ in Hq. destruct Hq as (_ & ->). unfold row_fits, dur_fits, num_fits, expected_row. cbn [q_time q_self_time q_blocked q_load q_hashing q_misses q_hits q_count].
      assert (B1 : forall P, 0 <= time_sum P es < 2 ^ 64) by (intros P; pose proof (time_sum_nonneg P es HN); pose proof (time_sum_le P es HN); lia).
      assert (B2 : forall P, 0 <= self_time_sum P es < 2 ^ 64) by (intros P; pose proof (sum_le P es HN); lia).
      assert (B3 : forall P, 0 <= count P es < 2 ^ 63) by (intros P; pose proof (count_le P es); lia).
      split; [apply B1|]. split; [apply B2|]. split; [apply B1|]. split; [apply B2|]. split; [apply B2|]. split; [apply B3|]. split; apply B3.
    - apply Forall_forall. intros (l, v) Ha. apply RA in Ha. destruct Ha as (_ & ->). apply AT0.
    - rewrite S2. split; [eapply life_times_nonneg; eauto|apply LT, S1]. }
  split; [exact RO|]. split; [exact F|]. destruct F as (F1 & F2 & F3). unfold S_Text.results_valid, S_Float.is_duration. split; [unfold dur_fits in F3; lia|]. split.
  - eapply Forall_impl; [|exact F1]. unfold row_fits, dur_fits, num_fits, S_Text.row_valid, S_Float.is_duration. intros q (G1 & G2 & G3 & G4 & G5 & G6 & G7 & G8). split; [lia|]. split; [lia|]. split; [lia|]. split; [lia|]. split; [lia|]. split; lia.
  - eapply Forall_impl; [|exact F2]. unfold num_fits. intros a H. lia.
Qed.

Lemma Ok_inj {A} (a b : A) : Ok a = Ok b -> a = b.
Proof. congruence. Qed.
(** ** The programs *)
Definition profile_at (w : world) (dir : path) (n : bytes) : option bytes := w (in_dir dir (name_stem n ++ str ".mm_profdata")).
Lemma profile_at_reader w dir n : profile_at w dir n = w (reader_path (in_dir dir n)).
Proof. unfold profile_at, reader_path. rewrite with_extension_in_dir. reflexivity. Qed.
Lemma loads s w dir n p es r : n <> str "json" -> open_profile s w (in_dir dir n) = EOk p -> pf_iter_full p = Ok es -> perform_analysis (oc s) (row_order s) es = Ok r ->
  load_results s w (in_dir dir n) = EOk r.
Proof.
  intros NJ O I A. unfold load_results, process_results. replace (ends_with (in_dir dir n) (str "json")) with false.
  - rewrite O. cbn [ebind]. rewrite I. cbn [sure with_text ebind]. rewrite A. reflexivity.
  - symmetry. unfold ends_with. rewrite file_name_in_dir. apply beq_false, NJ.
Qed.
(** The numbers of a row, and that they are those of the events. *)
Definition numeric (field : qdata -> Z) : Prop :=
  In field [q_time; q_self_time; q_misses; q_hits; q_count; q_blocked; q_load; q_hashing].
Lemma no_row_zero es l field : numeric field -> ~ has_row es l -> field (expected_row es l) = 0.
Proof.
  intros NF NR. assert (N : forall e, In e es -> labelled l e = true -> is_interval e = false /\ is_cache_hit e = false).
  { intros e He Hl. apply beq_true in Hl. split; [destruct (is_interval e) eqn:E|destruct (is_cache_hit e) eqn:E]; auto; exfalso; apply NR; exists e; auto. }
  assert (NI : forall e, is_interval e = false -> ev_len e = 0 /\ forall before, children_time before e = 0).
  { intros e H. unfold is_interval, p_is_interval in H. unfold ev_len. split; [destruct (ev_payload e) as [[]|]; congruence|].
    induction before as [|x before IH]; [reflexivity|]. cbn [children_time]. rewrite IH. unfold encloses. destruct (ev_payload e) as [[]|]; [discriminate|reflexivity..]. }
  assert (T : forall P, (forall e, P e = true -> labelled l e = true) -> time_sum P es = 0).
  { intros P HP. clear NF NR. induction es as [|e r IH]; [reflexivity|]. cbn [time_sum]. rewrite IH by (intros x Hx; apply N; right; exact Hx). destruct (P e) eqn:E; [|lia].
    apply HP in E. destruct (N e (or_introl eq_refl) E) as (H1 & _). apply NI in H1. lia. }
  assert (S : forall P, (forall e, P e = true -> labelled l e = true) -> self_time_sum P es = 0).
  { intros P HP. unfold self_time_sum. generalize (@nil event) as before. clear NF NR T. induction es as [|e r IH]; intros before; [reflexivity|]. cbn [self_from].
    rewrite IH by (intros x Hx; apply N; right; exact Hx). destruct (P e) eqn:E; [|lia]. apply HP in E. destruct (N e (or_introl eq_refl) E) as (H1 & _). apply NI in H1. destruct H1 as (H1 & H2). rewrite H1, H2. lia. }
  assert (C : forall P, (forall e, P e = true -> labelled l e = true /\ (is_cache_hit e = true \/ is_interval e = true)) -> count P es = 0).
  { intros P HP. clear NF NR T S. induction es as [|e r IH]; [reflexivity|]. rewrite count_cons, IH by (intros x Hx; apply N; right; exact Hx). destruct (P e) eqn:E; [|reflexivity].
    apply HP in E. destruct E as (E1 & E2). destruct (N e (or_introl eq_refl) E1) as (H1 & H2). rewrite H1, H2 in E2. destruct E2; discriminate. }
  unfold numeric in NF. cbn [In] in NF. unfold expected_row.
  assert (A1 : forall a b, a && b = true -> a = true) by (intros [] []; auto). assert (A2 : forall a b, a && b = true -> b = true) by (intros [] []; auto).
  destruct NF as [<-|[<-|[<-|[<-|[<-|[<-|[<-|[<-|[]]]]]]]]]; cbn [q_time q_self_time q_misses q_hits q_count q_blocked q_load q_hashing].
  - apply T. eauto.
  - apply S. auto.
  - apply C. intros e He. split; [|right]; eauto.
  - apply C. intros e He. split; [|left]; eauto.
  - apply C. intros e He. split; [eauto|]. apply A2 in He. apply orb_prop in He. destruct He as [He|He]; eauto.
  - apply T. eauto.
  - apply S. eauto.
  - apply S. eauto.
Qed.
Lemma value_expected es r l field : numeric field -> results_of es r -> value q_label field (query_data r) l = field (expected_row es l).
Proof.
  intros NF (ND & RQ & _). unfold value, entry. destruct (find _ (rev (query_data r))) as [q|] eqn:F.
  - apply find_some in F. destruct F as (F1 & F2). apply beq_true in F2. apply in_rev in F1. apply RQ in F1. destruct F1 as (_ & F1). rewrite F1, F2. reflexivity.
  - symmetry. apply no_row_zero; [exact NF|]. intros H. assert (In (expected_row es l) (query_data r)) as HI by (apply RQ; split; [exact H|reflexivity]).
    apply in_rev in HI. apply (find_none _ _ F) in HI. change (beq l l = false) in HI. rewrite beq_refl in HI. discriminate.
Qed.
Lemma rows_of es r l : results_of es r -> In l (map q_label (query_data r)) <-> has_row es l.
Proof.
  intros (_ & RQ & _). rewrite in_map_iff. split; [intros (q & <- & Hq); apply RQ in Hq; apply Hq|]. intros H. exists (expected_row es l). split; [reflexivity|]. apply RQ. split; [exact H|reflexivity].
Qed.
Lemma StronglySorted_weaken {A} (R R' : A -> A -> Prop) l : (forall a b, R a b -> R' a b) -> StronglySorted R l -> StronglySorted R' l.
Proof. intros H S. induction S; constructor; auto. eapply Forall_impl; [|eassumption]. auto. Qed.
(** Two programs have been recorded, whatever the interleaving of their threads.  Then [summarize diff] of the two profiles succeeds and prints
    the exact differences of what the events add up to. *)
Theorem C74_diff : forall s en1 en2 x1 x2 d1 n1 d2 n2 exclude,
  proper en1 (parse_metadata s) x1 -> proper en2 (parse_metadata s) x2 -> n1 <> str "json" -> n2 <> str "json" ->
  (forall l, Permutation l (row_order s l)) -> (forall k l, Permutation (order s k l) l) ->
  exists K1 K2, linearization (uhist (final en1 x1)) K1 /\ linearization (uhist (final en2 x2)) K2 /\
  forall es1 es2, records x1 K1 es1 -> records x2 K2 es2 -> in_range es1 -> in_range es2 ->
  exists n r1 r2, results_of es1 r1 /\ results_of es2 r2 /\
  forall f w, (n <= f)%nat -> profile_at w d1 n1 = Some (written_file en1 x1) -> profile_at w d2 n2 = Some (written_file en2 x2) ->
  exists labels activities total artifacts sizes,
    diff_cmd (with_fuel s f) w (in_dir d1 n1) (in_dir d2 n2) exclude false = mkRun (Some
      (map str ["Item"; "Self Time"; "Self Time Change"; "Time"; "Time Change"; "Item count"; "Cache hits"; "Blocked time"; "Incremental load time"; "Incremental hashing time"]%string :: activities,
       str "Total cpu time: " ++ total, map str ["Item"; "Artifact Size Change"]%string :: sizes)) w Success /\
    let kept l := ~ exists e, In e exclude /\ S_Summarize.substring e l in
    NoDup labels /\ (forall l, In l labels <-> (has_row es1 l \/ has_row es2 l) /\ kept l) /\
    descending (fun l => Z.abs (self_time_sum (labelled l) es2 - self_time_sum (labelled l) es1)) labels /\
    Forall2 (S_Text.diff_row_says (query_data r1) (query_data r2)) labels activities /\
    (forall l field, numeric field -> delta q_label field (query_data r1) (query_data r2) l = field (expected_row es2 l) - field (expected_row es1 l)) /\
    S_Text.says_signed total (total_time r2 - total_time r1) /\
    Forall2 (S_Text.diff_artifact_says (artifact_sizes r1) (artifact_sizes r2)) artifacts sizes.
Proof.
  intros s en1 en2 x1 x2 d1 n1 d2 n2 exclude P1 P2 J1 J2 RO OO.
  destruct (recording_opens en1 s x1 P1) as (K1 & L1 & H1). destruct (recording_opens en2 s x2 P2) as (K2 & L2 & H2). exists K1, K2. split; [exact L1|]. split; [exact L2|].
  intros es1 es2 R1 R2 I1 I2. assert (G1 := proj1 I1). assert (G2 := proj1 I2).
  destruct (H1 es1 ltac:(lia) R1) as (N1 & W1 & _ & f1 & F1). destruct (H2 es2 ltac:(lia) R2) as (N2 & W2 & _ & f2 & F2). clear H1 H2.
  destruct (analysis_results (oc s) (row_order s) es1 _ RO N1 W1 I1) as (r1 & A1 & B1 & C1 & _). destruct (analysis_results (oc s) (row_order s) es2 _ RO N2 W2 I2) as (r2 & A2 & B2 & C2 & _).
  exists (f1 + f2)%nat, r1, r2. split; [exact B1|]. split; [exact B2|]. intros f w Hf Q1 Q2. rewrite profile_at_reader in Q1, Q2.
  destruct (F1 f w (in_dir d1 n1) ltac:(lia) Q1) as (p1 & O1 & _ & E1 & _). destruct (F2 f w (in_dir d2 n2) ltac:(lia) Q2) as (p2 & O2 & _ & E2 & _).
  pose proof (loads (with_fuel s f) w d1 n1 p1 es1 r1 J1 O1 E1 A1) as D1. pose proof (loads (with_fuel s f) w d2 n2 p2 es2 r2 J2 O2 E2 A2) as D2.
  destruct (Prop_Text2.C66_diff (ties s) (oc s) (order s) exclude r1 r2 OO C1 C2) as (labels & activities & total & artifacts & sizes & E & X1 & X2 & X3 & X4 & X5 & _ & _ & _ & X6).
  exists labels, activities, total, artifacts, sizes. split.
  - unfold diff_cmd. rewrite D1. cbn [try]. rewrite D2. cbn [try]. cbn [with_fuel oc order ties]. unfold diff_print in E.
    destruct (full_calculate_diff (oc s) (order s) r1 r2) as [fd| | |]; cbn [bind] in E; try discriminate. cbn [sure with_text try]. apply Ok_inj in E. rewrite E. reflexivity.
  - assert (DL : forall l field, numeric field -> delta q_label field (query_data r1) (query_data r2) l = field (expected_row es2 l) - field (expected_row es1 l)).
    { intros l field NF. unfold delta. rewrite (value_expected es2 r2 l field NF B2), (value_expected es1 r1 l field NF B1). reflexivity. }
    cbv zeta. split; [exact X1|]. split; [|split; [|split; [exact X4|split; [exact DL|split; [exact X5|exact X6]]]]].
    + intros l. rewrite X2. rewrite (rows_of es1 r1 l B1), (rows_of es2 r2 l B2). reflexivity.
    + unfold descending in *. eapply StronglySorted_weaken; [|exact X3]. intros a b. cbv beta. rewrite !DL by (unfold numeric; cbn [In]; auto). auto.
Qed.

(** [summarize] of the profile: refused for a threshold that is no percentage, otherwise the table of what the events add up to (C65 says what each
    printed cell is). *)
Theorem C74_summarize : forall s en1 x d n p,
  proper en1 (parse_metadata s) x -> (forall l, Permutation l (row_order s l)) ->
  exists K, linearization (uhist (final en1 x)) K /\ forall es, records x K es -> in_range es ->
  exists m r, results_of es r /\
  forall f w, (m <= f)%nat -> profile_at w d n = Some (written_file en1 x) ->
    ((p = B754_nan \/ is_finite p = true /\ (0 <= B2R p <= 100)%R) ->
      exists out, summarize_cmd (with_fuel s f) w (in_dir d n) false p = mkRun (Some out) w Success /\
        (exists text, out_total out = str "Total cpu time: " ++ text /\ S_Text.says_exactly text (total_time r)) /\
        exists q shown columns texts, Permutation q (query_data r) /\ descending q_self_time q /\ out_activities out = columns :: texts /\
          (forall q, In q (query_data r) -> shown q = false <->
             0 < total_time r /\ is_finite p = true /\ (B2R (percent_of (total_time r) (q_self_time q)) < B2R p)%R) /\
          Forall2 (fun q row => Forall2 (fun column text => S_Text.cell_says (total_time r) (S_Summarize.column_value q column) text) columns row) (filter shown q) texts) /\
    (~ (p = B754_nan \/ is_finite p = true /\ (0 <= B2R p <= 100)%R) -> summarize_cmd (with_fuel s f) w (in_dir d n) false p = mkRun None w ExitOne) /\
    (forall p', summarize_cmd (with_fuel s f) w (in_dir d n) true p' = mkRun None (create w (in_dir d (name_stem n ++ str ".json")) (results_text r)) Success).
Proof.
  intros s en1 x d n p P RO. destruct (recording_opens en1 s x P) as (K & L & H). exists K. split; [exact L|]. intros es R I. assert (G := proj1 I).
  destruct (H es ltac:(lia) R) as (N & W & _ & f0 & F). destruct (analysis_results (oc s) (row_order s) es _ RO N W I) as (r & A & B & _ & V). exists f0, r. split; [exact B|].
  intros f w Hf Q. rewrite profile_at_reader in Q. destruct (F f w (in_dir d n) Hf Q) as (pf & O & _ & E & _).
  assert (SC : forall j p', summarize_cmd (with_fuel s f) w (in_dir d n) j p' =
    if j then mkRun None (create w (json_path (in_dir d n)) (results_text r)) Success
    else match summarize_text (ties s) p' r with None => mkRun None w ExitOne | Some out => mkRun (Some out) w Success end).
  { intros j p'. unfold summarize_cmd. rewrite O. cbn [try]. rewrite E. cbn [sure with_text ebind]. cbn [with_fuel oc row_order ties]. rewrite A. cbn [with_text try]. reflexivity. }
  pose proof (Prop_Text2.C65_summary (ties s) p r V) as C. pose proof (Prop_Float.C61_threshold p r) as T.
  split; [|split; [|intros p'; rewrite SC; unfold json_path; rewrite with_extension_in_dir; reflexivity]].
  - intros HP. apply T in HP. specialize (SC false p). destruct (summarize_main p r) as [((t & a) & sm)|]; [|congruence]. destruct (summarize_text (ties s) p r) as [out|]; [|contradiction].
    destruct C as (q & shown & texts & C1 & C2 & C3 & C4 & _ & C5 & C6 & _). exists out. split; [exact SC|]. split; [exact C6|]. exists q, shown, (M_Summarize.header t), texts. auto.
  - intros HP. specialize (SC false p). destruct (summarize_main p r) as [((t & a) & sm)|]; [exfalso; apply HP, T; discriminate|]. destruct (summarize_text (ties s) p r) as [out|]; [contradiction|]. exact SC.
Qed.

Print Assumptions C74_diff.
Print Assumptions C74_summarize.

(** ** mmview, stack_collapse and crox *)
(** [mmview] of the profile shows the events of the thread asked for, one after the other, in the order of the recording. *)
Theorem C74_view : forall s en1 x d n thread_id,
  proper en1 (parse_metadata s) x ->
  exists K, linearization (uhist (final en1 x)) K /\ forall es, records x K es -> zlen es < 2 ^ 64 ->
  exists m, forall f w, (m <= f)%nat -> profile_at w d n = Some (written_file en1 x) ->
    (forall t0, S_Tools.earliest_start es t0 -> exists texts,
       mmview_cmd (with_fuel s f) w (in_dir d n) thread_id = mkRun (Some (Printed (concat texts))) w Success /\
       Forall2 (S_Tools.shown t0) (filter (S_Tools.wanted thread_id) es) texts) /\
    ((forall e, In e es -> exists i, ev_payload e = Integer i) -> mmview_cmd (with_fuel s f) w (in_dir d n) thread_id = mkRun (Some NoEvents) w Success).
Proof.
  intros s en1 x d n thread_id P. destruct (recording_opens en1 s x P) as (K & L & H). exists K. split; [exact L|]. intros es R G.
  destruct (H es G R) as (N & W & _ & f0 & F). exists f0. intros f w Hf Q. rewrite profile_at_reader in Q. destruct (F f w (in_dir d n) Hf Q) as (pf & O & _ & _ & E).
  rewrite (C73_view _ _ _ thread_id _ _ O (E _)). split.
  - intros t0 Ht. destruct (C38_prints thread_id es t0 Ht) as (texts & V1 & V2); [|exists texts; rewrite V1; auto].
    eapply Forall_impl; [|exact W]. intros e (H1 & H2). split; [exact H1|]. destruct (ev_payload e) as [[]|]; auto. lia.
  - intros HI. rewrite (proj2 (C38_no_events thread_id es) HI). reflexivity.
Qed.
Print Assumptions C74_view.

(** [stack_collapse] of the profile writes one line for every stack with its self time; together the lines have the life times of the threads. *)
Theorem C74_stacks : forall s en1 x d n,
  proper en1 (parse_metadata s) x -> (forall l, Permutation l (shuffle s l)) ->
  exists K, linearization (uhist (final en1 x)) K /\ forall es T, records x K es -> zlen es < 2 ^ 64 ->
    NoDup T -> zlen T < 2 ^ 16 -> (forall t, thread_spans t es <> [] -> In t T) -> Forall (fun e => ~ In 10 (ev_label e)) es ->
  exists m stacks, forall f w, (m <= f)%nat -> profile_at w d n = Some (written_file en1 x) ->
  exists text, stack_collapse_cmd (with_fuel s f) w (in_dir d n) = mkRun None (create w [Normal (str "out.stacks_folded")] text) Success /\
    (forall l, text_says text l <-> l = stacks) /\ NoDup (map fst stacks) /\
    exists spans, all_thread_spans es spans /\
    (forall k v, In (k, v) stacks <->
      (k = str "rustc" /\ v = zsum (map (fun x => snd (snd x) - fst (snd x) - top_level_time (fst x) es) spans)) \/
      ((exists before e after, es = before ++ e :: after /\ is_interval e = true /\ k = stack_line e after) /\
       v = self_time_sum (labelled k) (with_lines es))) /\
    zsum (map snd stacks) = life_times spans.
Proof.
  intros s en1 x d n P SH. destruct (recording_opens en1 s x P) as (K & L & H). exists K. split; [exact L|]. intros es T R G HT HT2 HT3 HL.
  destruct (H es G R) as (N & HB & _ & f0 & F). rewrite Forall_forall in HB.
  assert (HW : forall e a b, In e es -> ev_payload e = Timestamp (Interval a b) -> md_start_time (md_value x) <= a /\ b <= md_start_time (md_value x) + 2 ^ 48).
  { intros e a b He Ee. destruct (HB e He) as (_ & H1). rewrite Ee in H1. exact H1. }
  assert (HZ : zlen T * 2 ^ 48 < 2 ^ 64) by lia.
  destruct (C30_lines (oc s) es _ (2 ^ 48) T N ltac:(lia) HT HZ HT3 HW) as (st & spans & E1 & E2 & E3 & E4).
  exists f0, (shuffle s st). intros f w Hf Q. rewrite profile_at_reader in Q. destruct (F f w (in_dir d n) Hf Q) as (pf & O & _ & _ & E).
  exists (folded_text (shuffle s st)). split; [exact (proj1 (C73_stacks (with_fuel s f) w (in_dir d n) pf es O (E _)) st E1)|].
  split; [exact (C59_text (oc s) es st (shuffle s st) HL E1 (SH st))|].
  split; [eapply Permutation_NoDup; [apply Permutation_map, SH|exact E2]|]. exists spans. split; [exact E3|]. split.
  - intros k v. rewrite <- E4. split; apply Permutation_in; [apply Permutation_sym|]; apply SH.
  - unfold life_times. rewrite <- (C30_total (oc s) es _ (2 ^ 48) T st spans N ltac:(lia) HT HZ HT3 HW E1 E3).
    assert (ZP : forall l l', Permutation l l' -> zsum l = zsum l') by (intros l l' PP; induction PP; rewrite ?zsum_cons; lia). apply ZP, Permutation_sym, Permutation_map, SH.
Qed.
(** [flamegraph] of the profile hands inferno one line for every stack with its self time, and writes what inferno makes of them. *)
Theorem C74_flamegraph : forall s inferno en1 x d n,
  proper en1 (parse_metadata s) x -> (forall l, Permutation l (shuffle s l)) ->
  exists K, linearization (uhist (final en1 x)) K /\ forall es T, records x K es -> zlen es < 2 ^ 64 ->
    NoDup T -> zlen T < 2 ^ 16 -> (forall t, thread_spans t es <> [] -> In t T) ->
  exists m lines stacks, (forall l, Forall2 line_says lines l <-> l = stacks) /\ NoDup (map fst stacks) /\
    (exists spans, all_thread_spans es spans /\
    (forall k v, In (k, v) stacks <->
      (k = str "rustc" /\ v = zsum (map (fun x => snd (snd x) - fst (snd x) - top_level_time (fst x) es) spans)) \/
      ((exists before e after, es = before ++ e :: after /\ is_interval e = true /\ k = stack_line e after) /\
       v = self_time_sum (labelled k) (with_lines es)))) /\
  forall f w, (m <= f)%nat -> profile_at w d n = Some (written_file en1 x) ->
    flamegraph_cmd (with_fuel s f) inferno w (in_dir d n) =
      mkRun None (create w [Normal (str "rustc.svg")] (fst (inferno lines))) (if snd (inferno lines) then Success else Crash).
Proof.
  intros s inferno en1 x d n P SH. destruct (recording_opens en1 s x P) as (K & L & H). exists K. split; [exact L|]. intros es T R G HT HT2 HT3.
  destruct (H es G R) as (N & HB & _ & f0 & F). rewrite Forall_forall in HB.
  assert (HW : forall e a b, In e es -> ev_payload e = Timestamp (Interval a b) -> md_start_time (md_value x) <= a /\ b <= md_start_time (md_value x) + 2 ^ 48).
  { intros e a b He Ee. destruct (HB e He) as (_ & H1). rewrite Ee in H1. exact H1. }
  assert (HZ : zlen T * 2 ^ 48 < 2 ^ 64) by lia.
  destruct (C30_lines (oc s) es _ (2 ^ 48) T N ltac:(lia) HT HZ HT3 HW) as (st & spans & E1 & E2 & E3 & E4).
  exists f0, (flamegraph_lines (shuffle s st)), (shuffle s st). split; [exact (C59_flamegraph (oc s) es st (shuffle s st) E1 (SH st))|].
  split; [eapply Permutation_NoDup; [apply Permutation_map, SH|exact E2]|]. split.
  - exists spans. split; [exact E3|]. intros k v. rewrite <- E4. split; apply Permutation_in; [apply Permutation_sym|]; apply SH.
  - intros f w Hf Q. rewrite profile_at_reader in Q. destruct (F f w (in_dir d n) Hf Q) as (pf & O & _ & _ & E).
    exact (proj1 (C73_flamegraph (with_fuel s f) inferno w (in_dir d n) pf es O (E _)) st E1).
Qed.
Print Assumptions C74_stacks.
Print Assumptions C74_flamegraph.

(** [crox] of the profile ends well and writes one JSON document: an array with one object for every interval that is long enough, and
    those describing the process. *)
Theorem C74_crox : forall s inferno en1 x d n collapse minimum,
  proper en1 (parse_metadata s) x -> utf8 (md_cmd (md_value x)) -> 0 <= md_start_time (md_value x) < 2 ^ 63 ->
  exists K, linearization (uhist (final en1 x)) K /\ forall es, records x K es -> zlen es < 2 ^ 64 -> few_threads es ->
  exists m, forall f w, (m <= f)%nat -> profile_at w d n = Some (written_file en1 x) ->
    (exists w', ran (with_fuel s f) inferno w (Crox [in_dir d n] [] collapse minimum) w' Success) /\
    forall w' e, ran (with_fuel s f) inferno w (Crox [in_dir d n] [] collapse minimum) w' e -> e = Success /\
      exists text objects tids, w' [Normal (str "chrome_profiler.json")] = Some text /\ utf8 text /\
        (forall v, document text v <-> v = M_Metadata.JArr objects) /\ thread_mapping (oc s) collapse es (Ok tids) /\
        file_objects minimum (fun t => match map_get Z.eqb t tids with Some t' => t' | None => t end) (md_value x) es objects.
Proof.
  intros s inferno en1 x d n collapse minimum P U HT. destruct (recording_opens en1 s x P) as (K & L & H). exists K. split; [exact L|]. intros es R G HF.
  destruct (H es G R) as (HN & HB & HS & f0 & F).
  assert (HE : Forall S_Crox.exportable es).
  { clear -HN HB HT. induction es as [|e es IH]; [constructor|]. inversion HB as [|? ? H1 H2]; subst. constructor; [|apply IH; [eapply nested_cons_inv; eauto|auto]].
    pose proof (nested_len _ _ HN) as H3. destruct H1 as (_ & H1). unfold S_Crox.exportable, ev_len in *. destruct (ev_payload e) as [[a b|]|]; auto. lia. }
  assert (HT2 : 0 <= md_start_time (md_value x) < 18446744073709551616 * 1000) by lia.
  exists f0. intros f w Hf Q. rewrite profile_at_reader in Q. destruct (F f w (in_dir d n) Hf Q) as (pf & O & M & _ & E).
  pose proof (C73_crox (with_fuel s f) inferno w [in_dir d n] [] collapse minimum [pf] [es]) as X. cbn [filter app map combine] in X. rewrite M in X.
  specialize (X ltac:(constructor; auto) ltac:(constructor; auto)). cbn [with_fuel oc] in X. destruct X as (X & XB).
  assert (FO : Forall file_ok [(md_value x, es)]) by (constructor; [unfold file_ok; cbn [fst snd]; auto|constructor]).
  split.
  - destruct (C37_main_exists (oc s) collapse minimum [(md_value x, es)]) as (r & C); [eapply Forall_impl; [|exact FO]; intros ff (A & B & D & _); auto|].
    destruct (C58_document (oc s) collapse minimum _ r FO C) as (rs & _ & -> & _). destruct (proj2 (X (crox_text rs))) as (w' & RN & _); eauto.
  - intros w' e RN. assert (e = Success) as ->.
    { enough (~ e <> Success) by (destruct e; auto; exfalso; apply H0; discriminate). intros NS. destruct (XB _ _ RN NS) as (_ & C). apply (C58_document (oc s) collapse minimum _ _ FO) in C. destruct C as (? & ? & Q2 & _). discriminate. }
    split; [reflexivity|]. assert (TX : exists text, w' chrome_file = Some text).
    { remember (Crox [in_dir d n] [] collapse minimum) as c eqn:Ec. destruct RN; try discriminate. destruct H0. cbn [after]. exists text. change chrome_file with out. apply create_same. }
    destruct TX as (text & TX). destruct (proj1 (X text)) as (rs & C & ->); [eauto|].
    destruct (C58_document (oc s) collapse minimum _ _ FO C) as (rs' & oss & EQ & D1 & D2 & D3). injection EQ as <-.
    inversion D3 as [|? os ? ? (tids & T1 & T2) D4]; subst. inversion D4; subst. cbn [fst snd concat] in *. rewrite app_nil_r in D2.
    exists (crox_text rs), os, tids. auto.
Qed.
Print Assumptions C74_crox.

(** A concrete case: the two threads of [ex_run]. *)
Definition ex_recording : recording :=
  mkRecording Prop_Strings.ex_md (mkMd 1000 1 []) 8 (start_conf Prop_Strings.ex_md)
    ([UCall 1 (KAlloc (SStr [97])); UTick 1; UCall 2 (KAlloc (SStr [98])); UTick 2] ++ repeat (UTick 1) 5 ++ repeat (UTick 2) 5 ++
     [UCall 1 (KInterval (16 + 100000003) (16 + 100000003) 1 5 9); UCall 2 (KInstant (18 + 100000003) (16 + 100000003) 2 7); UTick 2] ++
     repeat (UTick 2) 5 ++ repeat (UTick 1) 5) [ODrop TEvents; ODrop TStrData; ODrop TStrIndex] (fun t => t).
Lemma ex_calls : ucalls_ok (acts ex_recording).
Proof.
  assert (F : Forall (fun a => match a with UCall _ k => call_ok k | _ => True end) (acts ex_recording)).
  { cbn [acts ex_recording]. rewrite !Forall_app. assert (R : forall t n, Forall (fun a => match a with UCall _ k => call_ok k | _ => True end) (repeat (UTick t) n)) by (intros t n; apply Forall_forall; intros x Hx; apply repeat_spec in Hx; subst x; exact I).
    assert (U : forall c, 0 <= c < 128 -> sstring_ok (SStr [c])) by (intros c Hc; cbn [sstring_ok]; apply F_Utf8.utf8_ascii_list; repeat constructor; lia).
    split; [repeat constructor; apply U; lia|]. split; [apply R|]. split; [apply R|]. split; [|split; apply R].
    constructor; [cbn [call_ok]; unfold is_u64, is_u32; lia|]. constructor; [cbn [call_ok]; unfold is_u64, is_u32; lia|]. constructor; [exact I|constructor]. }
  rewrite Forall_forall in F. intros t k H. exact (F _ H).
Qed.
Lemma ex_proper : proper LittleEndian (parse_metadata ex_setup) ex_recording.
Proof.
  assert (E : final LittleEndian ex_recording = ex_run) by (unfold final, ex_run; cbn [acts initial ex_recording]; reflexivity).
  unfold proper. rewrite E. cbn [md_text md_value first_ref initial drops numbers ex_recording]. destruct ex_C56 as (A & B & C). split; [apply F_Utf8.utf8_ascii_list; cbn; repeat constructor; lia|]. split; [exact ex_started|]. split; [exact ex_calls|].
  split; [exact A|]. split; [repeat (constructor; [eexists; reflexivity|]); constructor|]. split; [intros []; cbn; auto|]. split; [reflexivity|]. split; [exact B|exact C].
Qed.
Lemma ex_in_range : in_range Prop_Whole2.ex_events.
Proof.
  split; [reflexivity|]. split; [reflexivity|]. split.
  - intros spans (HD & HS & HA). assert (S : forall t a b, In (t, (a, b)) spans -> t = 1 /\ a = 1005 /\ b = 1009).
    { intros t a b H. apply HA in H. destruct H as ((y & H1) & (x & H2) & _). unfold Prop_Whole2.ex_events in H1, H2. cbn [thread_spans ev_payload ev_thread] in H1, H2. revert H1 H2. destruct (Z.eqb_spec 1 t) as [<-|]; [|intros []]. intros H1 H2.
      destruct H1 as [H1|[]]. destruct H2 as [H2|[]]. injection H1 as <- _. injection H2 as _ <-. auto. }
    destruct spans as [|(t1 & a1 & b1) [|(t2 & a2 & b2) spans]]; [reflexivity| |].
    + destruct (S t1 a1 b1) as (-> & -> & ->); [left; reflexivity|]. reflexivity.
    + destruct (S t1 a1 b1) as (-> & -> & ->); [left; reflexivity|]. destruct (S t2 a2 b2) as (-> & _); [right; left; reflexivity|]. cbn [map fst] in HD. inversion HD as [|? ? N _]; subst. destruct N. left; reflexivity.
  - intros l. unfold artifact_total, Prop_Whole2.ex_events. cbn. lia.
Qed.
(** The commands on a directory with the file of that recording. *)
Example ex_C74 :
  let w := ex_world (written_file LittleEndian ex_recording) in
  profile_at w [] (str "run-7") = Some (written_file LittleEndian ex_recording) /\
  shown (mmview_cmd ex_setup w ex_file (Some 1)) = Some (Printed ex_shown) /\
  after (stack_collapse_cmd ex_setup w ex_file) [Normal (str "out.stacks_folded")] = Some (str "rustc;a 4" ++ [10] ++ str "rustc 0" ++ [10]) /\
  (exists r, load_results ex_setup w ex_file = EOk r /\ total_time r = 4).
Proof.
  cbv zeta. split; [reflexivity|]. split; [vm_compute; reflexivity|]. split; [vm_compute; reflexivity|]. eexists. split; [vm_compute; reflexivity|reflexivity].
Qed.
