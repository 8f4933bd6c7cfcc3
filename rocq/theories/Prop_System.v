(** C82: from a process that profiles itself to what the tools print, on a file system.  Specification S_System.v. *)
From Coq Require Import String ZArith List Lia Bool Permutation Sorted Reals.
From Flocq Require Import BinarySingleNaN.
From Verif Require Import M_Base F_Base M_Map M_Path Prop_Path M_Raw M_Header M_V8 M_Open Prop_Open M_Analysis S_Analysis S_Summary M_Diff S_Diff M_DiffJson M_Float M_Text M_Tools M_Folded S_Folded
  M_Collapse S_Collapse M_Crox M_Json S_Json Prop_Crox Prop_Json M_Programs S_Programs Prop_Programs.
From Verif Require Import M_Sink S_Sink M_Conc S_Conc M_Session S_Session M_Run S_Run M_Guard S_Guard S_Whole S_Utf8 S_EndToEnd Prop_EndToEnd M_Counters M_Output S_Output M_Start S_Start Prop_Start.
From Verif Require Import M_Strings S_Strings Prop_Run Prop_Whole Prop_Whole2 F_Session2 F_Run Prop_Crox2 Prop_Collapse Prop_Folded Prop_Tools Prop_Needed F_Analysis F_Analysis2 F_Analysis3 Prop_Analysis.
From Verif Require Prop_Text2 Prop_Float S_Crox M_Summarize M_Metadata S_Metadata Prop_Metadata M_Cli S_Cli Prop_Cli S_Summarize S_Tools S_Text S_Float.
From Verif Require Import S_System.
Import ListNotations.
Open Scope Z_scope.

(** ** Paths *)
Lemma with_extension_snoc_other q c ext : (forall n, c <> Normal n) -> with_extension (q ++ [c]) ext = q ++ [c].
Proof.
  intros H. induction q as [|d q IH]; [destruct c; try reflexivity; exfalso; eapply H; reflexivity|].
  cbn [app]. rewrite <- IH at 2. clear IH. destruct q as [|e q]; destruct d; reflexivity.
Qed.
Lemma with_extension_inv file ext d m : with_extension file ext = in_dir d m -> exists n, file = in_dir d n /\ m = name_stem n ++ [DOT] ++ ext.
Proof.
  intros E. destruct file as [|c0 q0] eqn:Q; [destruct d; discriminate|]. assert (N : file <> []) by congruence. rewrite <- Q in *. clear Q c0 q0.
  destruct (exists_last N) as (q & c & ->). destruct c as [| | |n]; try (rewrite with_extension_snoc_other in E by discriminate; apply app_inj_tail in E; destruct E as (-> & X); discriminate X).
  change (q ++ [Normal n]) with (in_dir q n) in E |- *. rewrite with_extension_in_dir in E. apply app_inj_tail in E. destruct E as (-> & X). injection X as <-. exists n. auto.
Qed.
(** ** The process as a recording *)
Lemma plain_scalar args : S_Metadata.plain_args args -> Forall (Forall scalar) args.
Proof. intros F. eapply Forall_impl; [|exact F]. intros a Fa. eapply Forall_impl; [|exact Fa]. unfold S_Metadata.plain, scalar. lia. Qed.
Lemma place_ends p w h w' : ordinary_process p w -> leaves p w h w' -> exists d n, place p = in_dir d n.
Proof.
  intros (HA & HC & HP & F & T & HS) (w1 & c0 & E & _).
  pose proof (C80_outcome _ _ _ _ _ _ F T HS E) as O. cbv zeta in O. destruct O as (_ & _ & (_ & ND & _) & _).
  destruct (exists_last (proj1 HS)) as (q & c & EP). rewrite EP in *. destruct c as [| | |n]; [exfalso; apply (proj2 HS q); reflexivity| | |exists q, n; reflexivity].
  - exfalso. apply ND. rewrite with_extension_snoc_other by discriminate. destruct (T q CurDir [] eq_refl) as [(n & X)|X]; [discriminate|exact X].
  - exfalso. apply ND. rewrite with_extension_snoc_other by discriminate. destruct (T q ParentDir [] eq_refl) as [(n & X)|X]; [discriminate|exact X].
Qed.
Definition as_recording (p : process) (c0 : conf) : recording :=
  mkRecording (about p) (mkMd (h_clock (machine p)) (h_pid (machine p)) (S_Metadata.command_line (arguments p))) 8 c0 (actions p) (at_end p) (ids p).
Lemma recorded_process p w h w' : ordinary_process p w -> S_Metadata.plain_args (arguments p) -> leaves p w h w' -> guarded p h ->
  exists c0, let x := as_recording p c0 in proper (byte_order p) M_Metadata.parse_metadata x /\ uhist (final (byte_order p) x) = h /\
    w' (profile_path (place p)) = Some (IsFile (written_file (byte_order p) x)).
Proof.
  intros (HA & HC & HP & F & T & HS) PA (w1 & c0 & E & ST & Hok & Hi & Hd & Hall & -> & ->) (G1 & G2).
  exists c0. cbv zeta. split; [|split; [reflexivity|unfold put; destruct (path_eq_dec _ _); [reflexivity|congruence]]].
  unfold proper, as_recording. cbn [md_text md_value first_ref initial acts drops numbers]. unfold final. cbn [acts initial].
  split; [apply Prop_Metadata.metadata_utf8; [lia|lia|apply plain_scalar, PA]|].
  split; [exact ST|]. split; [exact Hok|]. split; [exact Hi|]. split; [exact Hd|]. split; [exact Hall|]. split; [apply Prop_Metadata.C41_reads_back; auto; lia|]. split; [exact G1|exact G2].
Qed.
Lemma found p w h w' w2 file : ordinary_process p w -> leaves p w h w' -> finds w2 file p w' -> forall b, w' (profile_path (place p)) = Some (IsFile b) ->
  exists d n, file = in_dir d n /\ profile_at (files_of w2) d n = Some b.
Proof.
  intros O L (E1 & E2) b HB. destruct (place_ends _ _ _ _ O L) as (d & n & EP). rewrite EP in E1. unfold profile_path in E1 at 2. rewrite with_extension_in_dir in E1.
  destruct (with_extension_inv _ _ _ _ E1) as (n' & -> & _). exists d, n'. split; [reflexivity|]. rewrite profile_at_reader. unfold files_of, reader_path. fold (profile_path (in_dir d n')) in *.
  change (with_extension (in_dir d n') FILE_EXTENSION) with (profile_path (in_dir d n')). rewrite E2, HB. reflexivity.
Qed.

(** ** What is left on the file system *)
Theorem C82_leaves : forall p w h w', ordinary_process p w -> leaves p w h w' ->
  fs_ok w' /\ (exists b, w' (profile_path (place p)) = Some (IsFile b)) /\
  (forall q b, q <> profile_path (place p) -> w q = Some (IsFile b) -> w' q = Some (IsFile b)) /\ only_made w w' (profile_path (place p)).
Proof.
  intros p w h w' (HA & HC & HP & F & T & HS) (w1 & c0 & E & ST & Hok & Hi & Hd & Hall & -> & ->).
  pose proof (C80_outcome _ _ _ _ _ _ F T HS E) as O. cbv zeta in O. destruct O as (F1 & M & _ & A & X & _). fold (profile_path (place p)) in *.
  assert (M' : forall b, only_made w (put w1 (profile_path (place p)) (IsFile b)) (profile_path (place p))).
  { intros b q N. rewrite put_other by exact N. apply M, N. }
  split. { intros q c Q H. destruct (path_eq_dec (q ++ [c]) (profile_path (place p))) as [EQ|NQ].
    - assert (D : w1 q = Some IsDir). { apply A. rewrite <- EQ. split; [exact Q|exists c, []; reflexivity]. } rewrite put_other; auto. intros ->. congruence.
    - rewrite put_other in H by exact NQ. pose proof (F1 _ _ Q H) as D. rewrite put_other; auto. intros ->. congruence. }
  split; [eexists; apply put_same|]. split; [|apply M'].
  intros q b N H. rewrite put_other by exact N. destruct (M q N) as [->|(_ & Z & _)]; [exact H|congruence].
Qed.
Print Assumptions C82_leaves.

(** ** The tools on an opened profile *)
Lemma printed_view s w file thread_id pf es st : open_profile s w file = EOk pf -> (forall need, readable need pf es) -> Forall (within st) es ->
  (forall t0, S_Tools.earliest_start es t0 -> exists texts,
     mmview_cmd s w file thread_id = mkRun (Some (Printed (concat texts))) w Success /\
     Forall2 (S_Tools.shown t0) (filter (S_Tools.wanted thread_id) es) texts) /\
  ((forall e, In e es -> exists i, ev_payload e = Integer i) -> mmview_cmd s w file thread_id = mkRun (Some NoEvents) w Success).
Proof.
  intros O E W. rewrite (C73_view _ _ _ thread_id _ _ O (E _)). split.
  - intros t0 Ht. destruct (C38_prints thread_id es t0 Ht) as (texts & V1 & V2); [|exists texts; rewrite V1; auto].
    eapply Forall_impl; [|exact W]. intros e (H1 & H2). split; [exact H1|]. destruct (ev_payload e) as [[]|]; auto. lia.
  - intros HI. rewrite (proj2 (C38_no_events thread_id es) HI). reflexivity.
Qed.
Lemma summary_of_opened s w file pf es st rf en0 : open_profile s w file = EOk pf -> pf_iter_full pf = Ok es -> nested_recording es -> Forall (within st) es ->
  (forall l, Permutation l (row_order s l)) -> in_range es -> summary_prints s w file es rf en0.
Proof.
  intros O E N W RO I. destruct (analysis_results (oc s) (row_order s) es _ RO N W I) as (r & A & B & _ & V). exists r. split; [exact B|].
  intros args json p _.
  assert (SC : forall j p', summarize_cmd s w file j p' =
    if j then mkRun None (create w (json_path file) (results_text r)) Success
    else match summarize_text (ties s) p' r with None => mkRun None w ExitOne | Some out => mkRun (Some out) w Success end).
  { intros j p'. unfold summarize_cmd. rewrite O. cbn [try]. rewrite E. cbn [sure with_text ebind]. rewrite A. cbn [with_text try]. reflexivity. }
  pose proof (Prop_Text2.C65_summary (ties s) p r V) as C. pose proof (Prop_Float.C61_threshold p r) as T. fold (percentage p) in T.
  split; [|split; [|intros _; rewrite SC; reflexivity]].
  - intros _ HP. apply T in HP. specialize (SC false p). destruct (summarize_main p r) as [((t & a) & sm)|]; [|congruence]. destruct (summarize_text (ties s) p r) as [out|]; [|contradiction].
    destruct C as (q & shown & texts & C1 & C2 & C3 & C4 & _ & C5 & C6 & _). exists out. split; [exact SC|]. split; [exact C6|]. exists q, shown, (M_Summarize.header t), texts. auto.
  - intros _ HP. specialize (SC false p). destruct (summarize_main p r) as [((t & a) & sm)|]; [exfalso; apply HP, T; discriminate|]. destruct (summarize_text (ties s) p r) as [out|]; [contradiction|]. exact SC.
Qed.
Lemma stacks_of_opened s inferno w file pf es st rf en0 : open_profile s w file = EOk pf -> (forall need, readable need pf es) -> nested_recording es -> Forall (within st) es ->
  (forall l, Permutation l (shuffle s l)) -> few_timed_threads es -> stacks_written s inferno w file es rf en0.
Proof.
  intros O E N HB SH (T & HT & HT2 & HT3). rewrite Forall_forall in HB.
  assert (HW : forall e a b, In e es -> ev_payload e = Timestamp (Interval a b) -> st <= a /\ b <= st + 2 ^ 48).
  { intros e a b He Ee. destruct (HB e He) as (_ & H1). rewrite Ee in H1. exact H1. }
  assert (HZ : zlen T * 2 ^ 48 < 2 ^ 64) by lia.
  destruct (C30_lines (oc s) es _ (2 ^ 48) T N ltac:(lia) HT HZ HT3 HW) as (l & spans & E1 & E2 & E3 & E4).
  exists (shuffle s l). split.
  - split; [eapply Permutation_NoDup; [apply Permutation_map, SH|exact E2]|]. exists spans. split; [exact E3|]. split.
    + intros k v. rewrite <- E4. split; apply Permutation_in; [apply Permutation_sym|]; apply SH.
    + unfold life_times. rewrite <- (C30_total (oc s) es _ (2 ^ 48) T l spans N ltac:(lia) HT HZ HT3 HW E1 E3).
      assert (ZP : forall l l', Permutation l l' -> zsum l = zsum l') by (intros x x' PP; induction PP; rewrite ?zsum_cons; lia). apply ZP, Permutation_sym, Permutation_map, SH.
  - split.
    + intros args _ HL. exists (folded_text (shuffle s l)). split; [exact (proj1 (C73_stacks s w file pf es O (E _)) l E1)|]. exact (C59_text (oc s) es l (shuffle s l) HL E1 (SH l)).
    + intros args _. exists (flamegraph_lines (shuffle s l)). split; [exact (proj1 (C73_flamegraph s inferno w file pf es O (E _)) l E1)|]. exact (C59_flamegraph (oc s) es l (shuffle s l) E1 (SH l)).
Qed.
Lemma crox_of_opened s inferno w file pf es md rf en0 : open_profile s w file = EOk pf -> (forall need, readable need pf es) -> pf_metadata pf = md ->
  nested_recording es -> Forall (within (md_start_time md)) es -> Forall event_strings es -> utf8 (md_cmd md) -> 0 <= md_start_time md < 2 ^ 63 -> few_threads es ->
  crox_writes s inferno w file md es rf en0.
Proof.
  intros O E M HN HB HS U HT HF args collapse minimum _.
  assert (HE : Forall S_Crox.exportable es).
  { clear -HN HB HT. induction es as [|e es IH]; [constructor|]. inversion HB as [|? ? H1 H2]; subst. constructor; [|apply IH; [eapply nested_cons_inv; eauto|auto]].
    pose proof (nested_len _ _ HN) as H3. destruct H1 as (_ & H1). unfold S_Crox.exportable, ev_len in *. destruct (ev_payload e) as [[a b|]|]; auto. lia. }
  assert (HT2 : 0 <= md_start_time md < 18446744073709551616 * 1000) by lia.
  pose proof (C73_crox s inferno w [file] [] collapse minimum [pf] [es]) as X. cbn [filter app map combine] in X. rewrite M in X.
  specialize (X ltac:(constructor; auto) ltac:(constructor; auto)). destruct X as (X & XB).
  assert (FO : Forall file_ok [(md, es)]) by (constructor; [unfold file_ok; cbn [fst snd]; auto|constructor]).
  split.
  - destruct (C37_main_exists (oc s) collapse minimum [(md, es)]) as (r & C); [eapply Forall_impl; [|exact FO]; intros ff (A & B & D & _); auto|].
    destruct (C58_document (oc s) collapse minimum _ r FO C) as (rs & _ & -> & _). destruct (proj2 (X (crox_text rs))) as (w' & RN & _); eauto.
  - intros w' e RN. assert (e = Success) as ->.
    { enough (~ e <> Success) by (destruct e; auto; exfalso; apply H; discriminate). intros NS. destruct (XB _ _ RN NS) as (_ & C). apply (C58_document (oc s) collapse minimum _ _ FO) in C. destruct C as (? & ? & Q2 & _). discriminate. }
    split; [reflexivity|]. assert (TX : exists text, w' chrome_file = Some text).
    { remember (Crox [file] [] collapse minimum) as c eqn:Ec. destruct RN; try discriminate. destruct H. cbn [after]. exists text. change chrome_file with out. apply create_same. }
    destruct TX as (text & TX). destruct (proj1 (X text)) as (rs & C & ->); [eauto|].
    destruct (C58_document (oc s) collapse minimum _ _ FO C) as (rs' & oss & EQ & D1 & D2 & D3). injection EQ as <-.
    inversion D3 as [|? os ? ? (tids & T1 & T2) D4]; subst. inversion D4; subst. cbn [fst snd concat] in *. rewrite app_nil_r in D2.
    exists (crox_text rs), os, tids. auto.
Qed.

Lemma diff_of_opened s w file change pf es st pf' es' st' rf en0 : open_profile s w file = EOk pf -> pf_iter_full pf = Ok es -> nested_recording es -> Forall (within st) es -> in_range es ->
  open_profile s w change = EOk pf' -> pf_iter_full pf' = Ok es' -> nested_recording es' -> Forall (within st') es' -> in_range es' ->
  (forall l, Permutation l (row_order s l)) -> (forall k l, Permutation (order s k l) l) -> file_name file <> Some (str "json") -> file_name change <> Some (str "json") ->
  diff_prints s w file es rf en0 change es'.
Proof.
  intros O1 E1 N1 W1 I1 O2 E2 N2 W2 I2 RO OO J1 J2.
  destruct (analysis_results (oc s) (row_order s) es _ RO N1 W1 I1) as (r1 & A1 & B1 & C1 & _). destruct (analysis_results (oc s) (row_order s) es' _ RO N2 W2 I2) as (r2 & A2 & B2 & C2 & _).
  exists r1, r2. split; [exact B1|]. split; [exact B2|]. intros args exclude _.
  assert (LD : forall q p x r, file_name q <> Some (str "json") -> open_profile s w q = EOk p -> pf_iter_full p = Ok x -> perform_analysis (oc s) (row_order s) x = Ok r -> load_results s w q = EOk r).
  { intros q p x r NJ O I A. unfold load_results, process_results, ends_with. destruct (file_name q) as [n|] eqn:FN.
    - replace (beq n (str "json")) with false by (symmetry; apply beq_false; congruence). rewrite O. cbn [ebind]. rewrite I. cbn [sure with_text ebind]. rewrite A. reflexivity.
    - rewrite O. cbn [ebind]. rewrite I. cbn [sure with_text ebind]. rewrite A. reflexivity. }
  pose proof (LD _ _ _ _ J1 O1 E1 A1) as D1. pose proof (LD _ _ _ _ J2 O2 E2 A2) as D2.
  destruct (Prop_Text2.C66_diff (ties s) (oc s) (order s) exclude r1 r2 OO C1 C2) as (labels & activities & total & artifacts & sizes & E & X1 & X2 & X3 & X4 & X5 & _ & _ & _ & X6).
  exists labels, activities, total, artifacts, sizes. split.
  - unfold diff_cmd. rewrite D1. cbn [try]. rewrite D2. cbn [try]. unfold diff_print in E.
    destruct (full_calculate_diff (oc s) (order s) r1 r2) as [fd| | |]; cbn [bind] in E; try discriminate. cbn [sure with_text try]. apply Ok_inj in E. rewrite E. reflexivity.
  - assert (DL : forall l field, numeric field -> delta q_label field (query_data r1) (query_data r2) l = field (expected_row es' l) - field (expected_row es l)).
    { intros l field NF. unfold delta. rewrite (value_expected es' r2 l field NF B2), (value_expected es r1 l field NF B1). reflexivity. }
    cbv zeta. split; [exact X1|]. split; [|split; [|split; [exact X4|split; [exact X5|exact X6]]]].
    + intros l. rewrite X2. rewrite (rows_of es r1 l B1), (rows_of es' r2 l B2). reflexivity.
    + unfold descending in *. eapply StronglySorted_weaken; [|exact X3]. intros a b. cbv beta. rewrite !DL by (unfold numeric; cbn [In]; auto). auto.
Qed.
Lemma command_utf8 args : S_Metadata.plain_args args -> utf8 (S_Metadata.command_line args).
Proof.
  intros F. unfold S_Metadata.command_line. induction F as [|a args Fa _ IH]; [exact (F_Utf8.utf8_ascii_list [] ltac:(constructor))|].
  cbn [map concat]. apply F_Utf8.utf8_app; [|exact IH]. apply F_Utf8.utf8_ascii_list, Forall_app. split; [|constructor; [lia|constructor]].
  clear IH. induction Fa as [|c a Hc _ IH]; [constructor|]. cbn [flat_map]. apply Forall_app. split; [|exact IH].
  assert (EC : encode c = [c]) by (unfold encode; destruct (Z.ltb_spec c 128) as [|L]; [reflexivity|unfold S_Metadata.plain in Hc; lia]). rewrite EC. constructor; [unfold S_Metadata.plain in Hc; lia|constructor].
Qed.

(** ** The tools on what the process left *)
Theorem C82_tools : forall s inferno read_f64 entries p w h w', ordinary_process p w -> S_Metadata.plain_args (arguments p) -> leaves p w h w' -> guarded p h ->
  parse_metadata s = M_Metadata.parse_metadata -> (forall l, Permutation l (row_order s l)) -> (forall l, Permutation l (shuffle s l)) ->
  exists K, linearization h K /\ forall es, events_of p K es -> zlen es < 2 ^ 64 ->
  exists m, forall f, (m <= f)%nat -> forall w2 file, finds w2 file p w' ->
    let s := with_fuel s f in let w := files_of w2 in
    view_prints s w file es read_f64 entries /\
    (in_range es -> summary_prints s w file es read_f64 entries) /\
    (few_timed_threads es -> stacks_written s inferno w file es read_f64 entries) /\
    (few_threads es -> h_clock (machine p) < 2 ^ 63 ->
       crox_writes s inferno w file (mkMd (h_clock (machine p)) (h_pid (machine p)) (S_Metadata.command_line (arguments p))) es read_f64 entries).
Proof.
  intros s inferno rf ent p w h w' O PA L G PM RO SH. destruct (recorded_process p w h w' O PA L G) as (c0 & P & EH & EW). rewrite <- PM in P.
  destruct (recording_opens _ s _ P) as (K & LK & H). rewrite EH in LK. exists K. split; [exact LK|]. intros es R G64.
  destruct (H es G64 R) as (N & W & HS & m & F). cbn [as_recording md_value md_start_time] in W. exists m. intros f Hf w2 file FI. cbv zeta.
  destruct (found _ _ _ _ _ _ O L FI _ EW) as (d & n & -> & Q). rewrite profile_at_reader in Q.
  destruct (F f (files_of w2) (in_dir d n) Hf Q) as (pf & OP & M & I & E). cbn [as_recording md_value] in M.
  split; [intros args t _; exact (printed_view _ _ _ _ _ _ _ OP E W)|].
  split; [intros IR; exact (summary_of_opened _ _ _ _ _ _ _ _ OP I N W RO IR)|].
  split; [intros FT; exact (stacks_of_opened _ _ _ _ _ _ _ _ _ OP E N W SH FT)|].
  intros FT HC. apply (crox_of_opened _ _ _ _ _ _ _ _ _ OP E M N); auto; cbn [md_start_time md_cmd]; [|destruct O as (_ & HC' & _); lia].
  apply command_utf8, PA.
Qed.
Print Assumptions C82_tools.

(** Two processes, one after the other, at different places; the first profile is still there, and they can be compared. *)
Theorem C82_compared : forall s read_f64 entries p1 p2 w h1 w1 h2 w2,
  ordinary_process p1 w -> S_Metadata.plain_args (arguments p1) -> leaves p1 w h1 w1 -> guarded p1 h1 ->
  ordinary_process p2 w1 -> S_Metadata.plain_args (arguments p2) -> leaves p2 w1 h2 w2 -> guarded p2 h2 ->
  profile_path (place p1) <> profile_path (place p2) ->
  parse_metadata s = M_Metadata.parse_metadata -> (forall l, Permutation l (row_order s l)) -> (forall k l, Permutation (order s k l) l) ->
  exists K1 K2, linearization h1 K1 /\ linearization h2 K2 /\
  forall es1 es2, events_of p1 K1 es1 -> events_of p2 K2 es2 -> in_range es1 -> in_range es2 ->
  exists m, forall f, (m <= f)%nat -> forall w3 base change, finds w3 base p1 w2 -> finds w3 change p2 w2 ->
    file_name base <> Some (str "json") -> file_name change <> Some (str "json") ->
    diff_prints (with_fuel s f) (files_of w3) base es1 read_f64 entries change es2 /\ diff_prints (with_fuel s f) (files_of w3) change es2 read_f64 entries base es1.
Proof.
  intros s rf ent p1 p2 w h1 w1 h2 w2 O1 PA1 L1 G1 O2 PA2 L2 G2 ND PM RO OO.
  destruct (recorded_process _ _ _ _ O1 PA1 L1 G1) as (c1 & P1 & EH1 & EW1). destruct (recorded_process _ _ _ _ O2 PA2 L2 G2) as (c2 & P2 & EH2 & EW2). rewrite <- PM in P1, P2.
  destruct (recording_opens _ s _ P1) as (K1 & LK1 & H1). destruct (recording_opens _ s _ P2) as (K2 & LK2 & H2). rewrite EH1 in LK1. rewrite EH2 in LK2.
  exists K1, K2. split; [exact LK1|]. split; [exact LK2|]. intros es1 es2 R1 R2 I1 I2. assert (B1 := proj1 I1). assert (B2 := proj1 I2).
  destruct (H1 es1 ltac:(lia) R1) as (N1 & W1 & _ & m1 & F1). destruct (H2 es2 ltac:(lia) R2) as (N2 & W2 & _ & m2 & F2).
  exists (m1 + m2)%nat. intros f Hf w3 base change FI1 FI2 J1 J2.
  destruct (C82_leaves _ _ _ _ O2 L2) as (_ & _ & KEEP & _). pose proof (KEEP _ _ ND EW1) as EW1'.
  assert (FI1' : finds w3 base p1 w1) by (destruct FI1 as (X & Y); split; [exact X|congruence]).
  destruct (found _ _ _ _ _ _ O1 L1 FI1' _ EW1) as (d1 & n1 & -> & Q1). destruct (found _ _ _ _ _ _ O2 L2 FI2 _ EW2) as (d2 & n2 & -> & Q2). rewrite profile_at_reader in Q1, Q2.
  destruct (F1 f _ _ ltac:(lia) Q1) as (pf1 & OP1 & _ & E1 & _). destruct (F2 f _ _ ltac:(lia) Q2) as (pf2 & OP2 & _ & E2 & _).
  split; [apply (diff_of_opened _ _ _ _ pf1 es1 _ pf2 es2 _ _ _ OP1 E1 N1 W1 I1 OP2 E2 N2 W2 I2 RO OO J1 J2)|apply (diff_of_opened _ _ _ _ pf2 es2 _ pf1 es1 _ _ _ OP2 E2 N2 W2 I2 OP1 E1 N1 W1 I1 RO OO J2 J1)].
Qed.
Print Assumptions C82_compared.

(** ** An apostrophe in an argument *)
Lemma open_refused s w stem pages : w (reader_path stem) = Some (file_of pages) -> decoder_new (parse_metadata s) (fuel s) (file_of pages) = Err ->
  exists text, open_profile s w stem = EErr text.
Proof.
  intros W D. unfold open_profile, profiling_data_new. unfold reader_path in W. rewrite W.
  pose proof (C69_same (parse_metadata s) (json_error s) (fuel s) (A8 s) (v8 s) (file_of pages) (display s (with_extension stem FILE_EXTENSION))) as (S1 & S2).
  assert (RH : read_file_header (file_of pages) FILE_MAGIC_TOP_LEVEL = Ok 9).
  { unfold file_of, read_file_header. assert (E : concat (header_writes FILE_MAGIC_TOP_LEVEL) = [77; 77; 80; 68; 9; 0; 0; 0]) by reflexivity. rewrite E. clear.
    unfold zlen. rewrite app_length. replace (Z.of_nat (List.length [77; 77; 80; 68; 9; 0; 0; 0] + List.length pages) <? FILE_HEADER_SIZE) with false; [reflexivity|].
    symmetry. apply Z.ltb_ge. cbn [List.length]. unfold FILE_HEADER_SIZE. lia. }
  unfold from_paged_buffer in S2. rewrite RH in S2. cbn [bind] in S2. change (9 =? V8_FILE_FORMAT) with false in S2. change (9 =? V9_FILE_FORMAT) with true in S2. cbv beta iota in S2. rewrite D in S2. cbn [bind] in S2.
  destruct (e_from_paged_buffer _ _ _ _ _ (file_of pages) _) as [x|t| |]; cbn [forget] in S2; try discriminate. exists t. reflexivity.
Qed.
Theorem C82_lost_refuted : forall s inferno p w h w', ordinary_process p w -> Forall (Forall scalar) (arguments p) -> ~ S_Metadata.plain_args (arguments p) -> leaves p w h w' ->
  parse_metadata s = M_Metadata.parse_metadata ->
  exists m, forall f, (m <= f)%nat -> forall w2 file, finds w2 file p w' -> all_refuse (with_fuel s f) inferno (files_of w2) file.
Proof.
  intros s inferno p w h w' O SC NP L PM. assert (L' := L). destruct O as (HA & HC & HP & F & T & HS). destruct L as (w1 & c0 & E & ST & Hok & Hi & Hd & Hall & -> & ->).
  destruct (Prop_Metadata.C41_profile_lost_refuted (byte_order p) (h_clock (machine p)) (h_pid (machine p)) (arguments p) (counter p) 8 c0 (actions p) (at_end p)) as (m & H); auto; try lia.
  exists m. intros f Hf w2 file FI.
  destruct (found p w _ _ w2 file ltac:(repeat (split; [assumption|]); assumption) L' FI _ ltac:(apply put_same)) as (d & n & -> & Q). rewrite profile_at_reader in Q.
  destruct (open_refused (with_fuel s f) _ _ _ Q) as (text & X). { cbn [with_fuel parse_metadata fuel]. rewrite PM. apply H, Hf. }
  exists text. unfold mmview_cmd, summarize_cmd, stack_collapse_cmd, flamegraph_cmd. rewrite X. cbn [try]. auto.
Qed.
Print Assumptions C82_lost_refuted.

(** ** It happens *)
Theorem C82_possible : forall h w stem k args, all_unicode h args -> 0 <= h_clock h -> fs_ok w -> tidy w stem -> has_place stem -> ~ may_fail (h_device h) ->
  creatable h w (profile_path stem) ->
  exists c0, all_idle c0 /\ forall en acts drops ids, let c := urun en acts (mkU c0 []) in
    ucalls_ok acts -> all_idle (uc c) -> Forall is_drop drops -> (forall t, In (ODrop t) drops) ->
    exists w', leaves (mkProcess h stem k args en acts drops ids) w (uhist c) w'.
Proof.
  intros h w stem k args HA HC F T HS NF CR. destruct (C80_starts h w stem k F T HS NF) as ((_ & H) & _). destruct H as (w1 & m & E); [split; [exact CR|split; eauto]|].
  pose proof (C80_outcome _ _ _ _ _ _ F T HS E) as O. cbv zeta in O. destruct O as (_ & _ & _ & _ & _ & args' & c0 & U' & CL & ST & CM).
  assert (EA : args' = args). { unfold all_unicode in *. rewrite HA in U'. clear -U'. revert args' U'. induction args as [|a args IH]; intros [|a' args'] X; try discriminate; auto. cbn in X. injection X as -> X. f_equal. apply IH. exact X. }
  subst args' m. exists c0. split; [destruct ST as (? & ? & ? & ? & ? & _ & I & _); exact I|].
  intros en acts drops ids c Hok Hi Hd Ha. eexists. exists w1, c0. cbn [machine place counter byte_order actions at_end]. split; [exact E|]. split; [exact ST|]. cbv zeta. fold c. auto 7.
Qed.
Print Assumptions C82_possible.

(** ** Typing the path *)
Lemma shape_plain text : ~ S_Cli.option_like text -> M_Cli.shape_of text = M_Cli.Plain.
Proof.
  intros H. destruct text as [|d [|c r]]; try reflexivity. unfold M_Cli.shape_of. destruct (Z.eqb_spec d 45) as [->|]; [|reflexivity]. exfalso. apply H. exists c, r. reflexivity.
Qed.
Lemma scan_word g text : text <> [] -> ~ S_Cli.option_like text -> (forall n, M_Cli.g_words g = Some n -> 0 < n) -> M_Cli.scan g [] false [text] = M_Cli.Pieces [M_Cli.Word text].
Proof.
  intros H1 H2 H3. cbn [M_Cli.scan]. rewrite (shape_plain _ H2). unfold M_Cli.acceptable. replace (beq text []) with false by (symmetry; apply beq_false; exact H1). cbn [negb andb].
  destruct (M_Cli.g_words g) as [n|]; [|reflexivity]. replace (zlen (M_Cli.words []) <? n) with true; [reflexivity|]. symmetry. apply Z.ltb_lt. exact (H3 n eq_refl).
Qed.
Lemma scan_two g text text' : text <> [] -> ~ S_Cli.option_like text -> text' <> [] -> ~ S_Cli.option_like text' -> M_Cli.g_words g = Some 2 ->
  M_Cli.scan g [] false [text; text'] = M_Cli.Pieces [M_Cli.Word text; M_Cli.Word text'].
Proof.
  intros H1 H2 H3 H4 H5. cbn [M_Cli.scan]. rewrite (shape_plain _ H2), (shape_plain _ H4). unfold M_Cli.acceptable. rewrite H5.
  replace (beq text []) with false by (symmetry; apply beq_false; exact H1). replace (beq text' []) with false by (symmetry; apply beq_false; exact H3). reflexivity.
Qed.
Theorem C82_typed : forall read_f64 entries text, text <> [] -> ~ S_Cli.option_like text ->
  let file := M_Cli.path_of text in let means := means read_f64 entries in
  means M_Cli.MmviewTool [text] (View file None) /\ means M_Cli.StackCollapseTool [text] (StackCollapse file) /\ means M_Cli.FlamegraphTool [text] (Flamegraph file) /\
  means M_Cli.CroxTool [text] (Crox [file] [] false None) /\
  (forall x, read_f64 (str "0.0") = Some x -> means M_Cli.SummarizeTool [str "summarize"; text] (Summarize file false x)) /\
  (forall text', text' <> [] -> ~ S_Cli.option_like text' -> means M_Cli.SummarizeTool [str "diff"; text; text'] (Diff file (M_Cli.path_of text') [] false)).
Proof.
  intros rf ent text H1 H2 file means'. unfold means', means, M_Cli.command_line.
  split; [rewrite scan_word by (auto; intros n E; injection E as <-; lia); reflexivity|].
  split; [rewrite scan_word by (auto; intros n E; injection E as <-; lia); reflexivity|].
  split; [rewrite scan_word by (auto; intros n E; injection E as <-; lia); reflexivity|].
  split; [rewrite scan_word by (auto; discriminate); reflexivity|].
  split.
  - intros x E. unfold M_Cli.subcommands. cbn [find fst]. change (beq (str "aggregate") (str "summarize")) with false. change (beq (str "diff") (str "summarize")) with false. change (beq (str "summarize") (str "summarize")) with true.
    cbv beta iota. cbn [snd]. unfold M_Cli.summarize_line. rewrite scan_word by (auto; intros n X; injection X as <-; lia). cbn [M_Cli.with_pieces M_Cli.one_word M_Cli.words flat_map app].
    change (M_Cli.value (M_Cli.PERCENT rf) [M_Cli.Word text]) with (@None bytes). cbv beta iota. rewrite E. reflexivity.
  - intros text' H3 H4. unfold M_Cli.subcommands. cbn [find fst]. change (beq (str "aggregate") (str "diff")) with false. change (beq (str "diff") (str "diff")) with true.
    cbv beta iota. cbn [snd]. unfold M_Cli.diff_line. rewrite scan_two by auto. reflexivity.
Qed.
Print Assumptions C82_typed.

(** ** A concrete case: [rustc -v] profiles itself at [/tmp/out/prof]; one thread, an instant inside an interval. *)
Definition ex_host82 : host := ex_host (mkDev [Took 3; Interrupted] false) (Some (str "-v")) 1000.
Definition ex_args82 : list (list Z) := [str "rustc"; str "-v"].
Definition ex_md82 : bytes := M_Metadata.metadata_text 1000 77 ex_args82 CWallTime.
Definition ex_ref : Z := 8 + zlen ex_md82 + 1 + 100000003.
Definition ex_acts82 : list uact :=
  [UCall 1 (KAlloc (SStr [97]))] ++ repeat (UTick 1) 8 ++ [UCall 1 (KInstant ex_ref ex_ref 1 7)] ++ repeat (UTick 1) 8 ++
     [UCall 1 (KInterval ex_ref ex_ref 1 5 9)] ++ repeat (UTick 1) 8.
Definition ex_process : process := mkProcess ex_host82 Prop_Start.ex_stem CWallTime ex_args82 LittleEndian ex_acts82 [ODrop TEvents; ODrop TStrData; ODrop TStrIndex] (fun t => t).
Lemma ex_started82 : started ex_md82 8 (start_conf ex_md82).
Proof.
  exists (flat_map (seq_acts 0) (init_headers ++ [init_alloc ex_md82; index_op METADATA_STRING_ID 8])), 0,
    (combine init_headers [4; 4; 4; 4; 4; 4]), (index_op METADATA_STRING_ID 8), 8.
  split; [reflexivity|]. split; [|split; [reflexivity|split; [reflexivity|vm_compute; reflexivity]]].
  intros tid. destruct (Z.eq_dec tid 0) as [->|Ht]; [vm_compute; reflexivity|].
  unfold start_conf. apply (idle_others tid (flat_map (seq_acts 0) (init_headers ++ [init_alloc ex_md82; index_op METADATA_STRING_ID 8])) conf0); [|reflexivity].
  intros x o Hin. apply in_flat_map in Hin. destruct Hin as (y & _ & [E|E]); [inversion E; congruence|].
  apply repeat_spec in E. discriminate.
Qed.
Definition ex_history82 : list uev :=
  [UInv 1 (KAlloc (SStr [97])); URet 1 178; UInv 1 (KInstant ex_ref ex_ref 1 7); URet 1 8; UInv 1 (KInterval ex_ref ex_ref 1 5 9); URet 1 40].
Definition ex_after82 : fsys := put (fst (with_counter ex_host82 Prop_Start.ex_fs Prop_Start.ex_stem CWallTime)) Prop_Start.ex_file
  (IsFile (file_of (disk (snd (run_ops (at_end ex_process) (cmem (uc (urun LittleEndian ex_acts82 (mkU (start_conf ex_md82) [])))))))) ).
Lemma ex_leaves : leaves ex_process Prop_Start.ex_fs ex_history82 ex_after82.
Proof.
  exists (fst (with_counter ex_host82 Prop_Start.ex_fs Prop_Start.ex_stem CWallTime)), (start_conf ex_md82).
  split. { cbn [ex_process machine place counter]. rewrite (surjective_pairing (with_counter _ _ _ _)) at 1. f_equal. }
  split; [exact ex_started82|]. cbv zeta. cbn [ex_process byte_order actions at_end place]. split.
  { assert (F : Forall (fun a => match a with UCall _ k => call_ok k | _ => True end) ex_acts82).
    { unfold ex_acts82. rewrite !Forall_app. assert (R : forall t n, Forall (fun a => match a with UCall _ k => call_ok k | _ => True end) (repeat (UTick t) n)) by (intros t n; apply Forall_forall; intros x Hx; apply repeat_spec in Hx; subst x; exact I).
      assert (RR : is_u32 ex_ref) by (vm_compute; split; congruence). assert (RR' : is_u64 ex_ref) by (vm_compute; split; congruence).
      split; [|split; [apply R|split; [|split; [apply R|split; [|apply R]]]]]; (constructor; [|constructor]); cbn [call_ok sstring_ok]; [apply F_Utf8.utf8_ascii_list; repeat constructor; lia|unfold is_u64, is_u32 in *; lia..]. }
    rewrite Forall_forall in F. intros t k H. exact (F _ H). }
  split.
  { intros tid. destruct (Z.eq_dec tid 1) as [->|N1]; [vm_compute; reflexivity|]. apply u_idle_others.
    - intros x k Hin. unfold ex_acts82 in Hin. rewrite !in_app_iff in Hin. cbn [In] in Hin.
      repeat match type of Hin with _ \/ _ => destruct Hin as [Hin|Hin] end; try discriminate Hin; try contradiction; try (apply repeat_spec in Hin; discriminate Hin); inversion Hin; subst; auto.
    - destruct ex_started82 as (acts & t0 & H & o2 & r2 & _ & HI & _). exact (HI tid). }
  split; [repeat (constructor; [eexists; reflexivity|]); constructor|]. split; [intros []; cbn; auto|]. split; [vm_compute; reflexivity|reflexivity].
Qed.
Lemma ex_guarded : guarded ex_process ex_history82.
Proof.
  split.
  - intros t. unfold uses_scopes, ex_history82. cbn [calls_by]. destruct (Z.eqb_spec 1 t) as [<-|N1].
    + exists [(GCall (KAlloc (SStr [97])), 1); (GStart 3 ex_ref ex_ref 1, 5); (GCall (KInstant ex_ref ex_ref 1 7), 7); (GDrop 3, 9)].
      split; [|split; [unfold monotone; cbn; repeat constructor; lia|reflexivity]].
      apply ne_call; [discriminate|]. apply (ne_scope _ _ 3 ex_ref ex_ref ex_ref 1 5 9 [(GCall (KInstant ex_ref ex_ref 1 7), 7)] []); [left; reflexivity|left; auto| | |constructor].
      * intros x [<-|[]]. cbn. auto.
      * apply ne_call; [discriminate|constructor].
    + exists []. split; [constructor|]. split; [constructor|reflexivity].
  - split; [auto|]. intros t kind id n s e. unfold ex_history82. cbn [calls_by]. destruct (Z.eqb_spec 1 t) as [<-|N1]; [|intros []].
    intros [H|[H|[H|[]]]]; try discriminate H. injection H as _ _ <- _ _. reflexivity.
Qed.
Lemma ex_ordinary : ordinary_process ex_process Prop_Start.ex_fs /\ S_Metadata.plain_args (arguments ex_process).
Proof.
  split. { split; [reflexivity|]. split; [cbn; lia|]. split; [cbn; lia|]. split; [exact Prop_Start.ex_fs_ok|]. split; [exact Prop_Start.ex_tidy|exact Prop_Start.ex_place]. }
  unfold S_Metadata.plain_args. apply Forall_forall. intros a Ha. apply Forall_forall. intros c Hc. destruct Ha as [<-|[<-|[]]]; cbv in Hc; repeat (destruct Hc as [<-|Hc]; [unfold S_Metadata.plain; lia|]); destruct Hc.
Qed.
Definition ex_setup82 : setup :=
  mkSetup M_Metadata.parse_metadata (fun b => b) (fun _ => []) 400 BigEndian unit (fun _ _ => EErr []) (fun _ => mkPf (mkMd 0 0 []) Panic (fun _ => Panic))
    (fun _ => []) true (fun l => l) (fun _ l => l) (fun l => l) true (fun _ => []) (fun _ => []).
Example ex_C82 :
  (ordinary_process ex_process Prop_Start.ex_fs /\ S_Metadata.plain_args (arguments ex_process)) /\
  leaves ex_process Prop_Start.ex_fs ex_history82 ex_after82 /\ guarded ex_process ex_history82 /\
  finds ex_after82 (M_Cli.path_of (str "/tmp/out/prof")) ex_process ex_after82 /\
  means (fun _ => None) (fun _ => []) M_Cli.MmviewTool [str "/tmp/out/prof"; str "-t1"] (View (M_Cli.path_of (str "/tmp/out/prof")) (Some 1)) /\
  (exists text, M_Programs.shown (mmview_cmd ex_setup82 (files_of ex_after82) (M_Cli.path_of (str "/tmp/out/prof")) (Some 1)) = Some (Printed text) /\ zlen text = 196) /\
  after (stack_collapse_cmd ex_setup82 (files_of ex_after82) (M_Cli.path_of (str "/tmp/out/prof"))) [Normal (str "out.stacks_folded")] = Some (str "rustc;a 4" ++ [10] ++ str "rustc 0" ++ [10]).
Proof.
  split; [exact ex_ordinary|]. split; [exact ex_leaves|]. split; [exact ex_guarded|]. split; [split; reflexivity|]. split; [reflexivity|]. split.
  - eexists. split; [vm_compute; reflexivity|vm_compute; reflexivity].
  - vm_compute. reflexivity.
Qed.
