(** C100: what [summarize] says about a label and what [crox] exports about it agree.  Specification S_AgreeChrome.v, S_Split.v, S_Crox.v. *)
From Coq Require Import String ZArith List Lia Bool Permutation.
From Verif Require Import M_Base F_Base M_Raw M_V8 M_Map M_Analysis M_Diff M_Crox S_Analysis S_Summary S_Crox S_Split Prop_Split S_AgreeChrome F_Analysis F_Analysis2 Prop_Analysis Prop_Crox2.
Import ListNotations.
Open Scope Z_scope.

Section Trace.
Variables (pid : Z) (tid : event -> Z) (cats : bytes -> bool) (l : bytes).
Let P (e : event) : bool := labelled l e && cats (ev_kind e).
Lemma trace_agrees evs : Forall exportable evs -> forall rs, Forall2 (fun e r => chrome_record pid (tid e) e r) (filter (selected None) evs) rs ->
  trace_count cats l rs = count (fun e => is_interval e && P e) evs /\
  0 <= time_sum P evs - 1000 * trace_micros cats l rs <= 999 * trace_count cats l rs.
Proof.
  induction 1 as [|e evs He F IH]; intros rs H.
  - cbn in H. inversion H; subst. split; [reflexivity|]. vm_compute. split; discriminate.
  - rewrite count_cons, time_sum_cons. cbn [filter] in H. unfold is_interval at 1. unfold ev_len. unfold exportable in He. unfold selected at 1 in H.
    destruct (ev_payload e) as [[a b|t]|v] eqn:EP.
    + inversion H as [|? r ? rs' R H']; subst. specialize (IH _ H'). destruct IH as (I1 & I2). destruct R as (a' & b' & ar & E' & -> & _). rewrite EP in E'. injection E' as <- <-.
      unfold trace_count, trace_micros in *. cbn [filter fold_right about]. cbn [p_is_interval andb]. change (P e) with (beq (ev_label e) l && cats (ev_kind e)).
      destruct (beq (ev_label e) l && cats (ev_kind e)); cbn [b2z].
      * rewrite zlen_cons. split; [lia|]. pose proof (Z.div_mod (b - a) 1000 ltac:(lia)). pose proof (Z.mod_pos_bound (b - a) 1000 ltac:(lia)). lia.
      * split; [lia|]. lia.
    + destruct (IH _ H) as (I1 & I2). cbn [p_is_interval andb b2z]. split; [lia|]. destruct (P e); lia.
    + destruct (IH _ H) as (I1 & I2). cbn [p_is_interval andb b2z]. split; [lia|]. destruct (P e); lia.
Qed.
End Trace.

(** The rows of the summary, for any events: what [number] says, and that a label without a row has only zeros. *)
Lemma number_counts oc order evs r : (forall l, Permutation l (order l)) -> perform_analysis oc order evs = Ok r ->
  forall field, In field [q_time; q_misses; q_hits; q_count; q_blocked] -> forall l, number field l r = field (expected_row evs l).
Proof.
  intros HO H field HF l. destruct (C28_counts _ _ _ _ HO H) as (_ & HR & R). unfold number. destruct (find _ (query_data r)) as [q|] eqn:E.
  - apply find_some in E. destruct E as (Hq & El). apply beq_true in El. specialize (R q Hq). cbv zeta in R. rewrite El in R. destruct R as (R1 & R2 & R3 & R4 & R5).
    cbn [In] in HF. destruct HF as [<-|[<-|[<-|[<-|[<-|[]]]]]]; assumption.
  - symmetry. apply no_row; [|unfold numbers; cbn [In] in *; tauto]. intros HRow. apply HR in HRow. apply in_map_iff in HRow. destruct HRow as (q & Eq & Hq).
    apply (find_none _ _ E) in Hq. cbv beta in Hq. rewrite Eq, beq_refl in Hq. discriminate.
Qed.
Lemma exported oc m md evs rs : Forall exportable evs -> 0 <= md_start_time md < 2 ^ 64 * 1000 -> export_file oc None m md evs = Ok rs ->
  exists rs', Forall2 (fun e r => chrome_record (md_process_id md) (match map_get Z.eqb (ev_thread e) m with Some t => t | None => ev_thread e end) e r) (filter (selected None) evs) rs' /\
    (forall c l, trace_count c l rs = trace_count c l rs') /\ forall c l, trace_micros c l rs = trace_micros c l rs'.
Proof.
  intros F HT H. destruct (C37_export oc None m md evs F HT) as (rs' & E & K). rewrite E in H. injection H as <-. exists rs'. split; [exact K|].
  assert (T : exists ps, crate_name_record md ++ [ProcessSortIndex (md_process_id md) (md_start_time md / 1000)] = ps /\ forall c l, filter (about c l) ps = [] /\ trace_micros c l ps = 0).
  { eexists. split; [reflexivity|]. intros c l. unfold crate_name_record. destruct (str_find _ _); split; reflexivity. }
  destruct T as (ps & -> & T). split; intros c l; destruct (T c l) as (T1 & T2).
  - unfold trace_count. rewrite filter_app, T1, app_nil_r. reflexivity.
  - unfold trace_micros in *. rewrite fold_right_app, T2. reflexivity.
Qed.
Lemma count_ext P Q evs : (forall e, In e evs -> P e = Q e) -> count P evs = count Q evs.
Proof. induction evs as [|e evs IH]; intros H; [reflexivity|]. rewrite !count_cons, (H e) by (left; reflexivity). rewrite IH by (intros x Hx; apply H; right; exact Hx). reflexivity. Qed.
Lemma time_ext P Q evs : (forall e, In e evs -> P e = Q e) -> time_sum P evs = time_sum Q evs.
Proof. induction evs as [|e evs IH]; intros H; [reflexivity|]. rewrite !time_sum_cons, (H e) by (left; reflexivity). rewrite IH by (intros x Hx; apply H; right; exact Hx). reflexivity. Qed.

Section Agree.
Variables (oc oc' : bool) (order : list qdata -> list qdata) (m : list (Z * Z)) (md : metadata) (evs : list event) (r : results) (rs : list record).
Hypothesis HO : forall l, Permutation l (order l).
Hypothesis HE : Forall exportable evs.
Hypothesis HT : 0 <= md_start_time md < 2 ^ 64 * 1000.
Hypothesis HR : perform_analysis oc order evs = Ok r.
Hypothesis HX : export_file oc' None m md evs = Ok rs.
Lemma agrees cats l : trace_count cats l rs = count (fun e => is_interval e && (labelled l e && cats (ev_kind e))) evs /\
  0 <= time_sum (fun e => labelled l e && cats (ev_kind e)) evs - 1000 * trace_micros cats l rs <= 999 * trace_count cats l rs.
Proof. destruct (exported _ _ _ _ _ HE HT HX) as (rs' & K & C1 & C2). rewrite C1, C2. exact (trace_agrees _ (fun e => match map_get Z.eqb (ev_thread e) m with Some t => t | None => ev_thread e end) cats l evs HE rs' K). Qed.
End Agree.

Definition computing (c : bytes) : bool := beq c (str "Query") || beq c (str "GenericActivity").
Definition blocking (c : bytes) : bool := beq c (str "QueryBlocked").
Definition hashing (c : bytes) : bool := beq c (str "IncrementalResultHashing").
Definition loading (c : bytes) : bool := beq c (str "IncrementalLoadResult").
Lemma count_plus P Q R evs : (forall e, In e evs -> b2z (P e) = b2z (Q e) + b2z (R e)) -> count P evs = count Q evs + count R evs.
Proof. induction evs as [|e evs IH]; intros H; [reflexivity|]. rewrite !count_cons, (H e) by (left; reflexivity). rewrite IH by (intros x Hx; apply H; right; exact Hx). lia. Qed.

(** What the summary counts as invocations without the cache hits are the trace's events of the label, but for loading and hashing. *)
Theorem C100_invocations : forall oc oc' order m md evs r rs, (forall l, Permutation l (order l)) ->
  Forall exportable evs -> 0 <= md_start_time md < 2 ^ 64 * 1000 ->
  perform_analysis oc order evs = Ok r -> export_file oc' None m md evs = Ok rs ->
  forall l, number q_count l r = number q_hits l r + trace_count (fun c => negb (loading c) && negb (hashing c)) l rs.
Proof.
  intros oc oc' order m md evs r rs HO HE HT HR HX l. destruct (agrees oc' m md evs rs HE HT HX (fun c => negb (loading c) && negb (hashing c)) l) as (-> & _).
  rewrite (number_counts oc order evs r HO HR q_count) by (cbn; tauto). rewrite (number_counts oc order evs r HO HR q_hits) by (cbn; tauto).
  cbn [expected_row q_count q_hits]. apply count_plus. intros e _. unfold is_interval, is_cache_hit, is_load, is_hashing, of_kind, loading, hashing.
  destruct (ev_payload e) as [[a b|t]|v]; cbn [p_is_interval p_is_instant andb orb]; destruct (labelled l e), (beq (ev_kind e) (str "QueryCacheHit")), (beq (ev_kind e) (str "IncrementalLoadResult")), (beq (ev_kind e) (str "IncrementalResultHashing")); reflexivity.
Qed.
(** The misses are the events of the categories Query and GenericActivity. *)
Theorem C100_misses : forall oc oc' order m md evs r rs, (forall l, Permutation l (order l)) ->
  Forall exportable evs -> 0 <= md_start_time md < 2 ^ 64 * 1000 ->
  perform_analysis oc order evs = Ok r -> export_file oc' None m md evs = Ok rs ->
  forall l, number q_misses l r = trace_count computing l rs.
Proof.
  intros oc oc' order m md evs r rs HO HE HT HR HX l. destruct (agrees oc' m md evs rs HE HT HX computing l) as (-> & _).
  rewrite (number_counts oc order evs r HO HR q_misses) by (cbn; tauto). cbn [expected_row q_misses]. apply count_ext. intros e _. unfold is_computed, of_kind, computing. rewrite andb_assoc. reflexivity.
Qed.
(** The time of a label, without hashing, is the time of its events in the trace, which loses less than a microsecond at each of them. *)
Theorem C100_time : forall oc oc' order m md evs r rs, (forall l, Permutation l (order l)) ->
  Forall exportable evs -> 0 <= md_start_time md < 2 ^ 64 * 1000 ->
  perform_analysis oc order evs = Ok r -> export_file oc' None m md evs = Ok rs ->
  forall l, 0 <= number q_time l r - 1000 * trace_micros (fun c => negb (hashing c)) l rs <= 999 * trace_count (fun c => negb (hashing c)) l rs.
Proof.
  intros oc oc' order m md evs r rs HO HE HT HR HX l. destruct (agrees oc' m md evs rs HE HT HX (fun c => negb (hashing c)) l) as (_ & B).
  rewrite (number_counts oc order evs r HO HR q_time) by (cbn; tauto). exact B.
Qed.
Theorem C100_blocked : forall oc oc' order m md evs r rs, (forall l, Permutation l (order l)) ->
  Forall exportable evs -> 0 <= md_start_time md < 2 ^ 64 * 1000 ->
  perform_analysis oc order evs = Ok r -> export_file oc' None m md evs = Ok rs ->
  forall l, 0 <= number q_blocked l r - 1000 * trace_micros blocking l rs <= 999 * trace_count blocking l rs.
Proof.
  intros oc oc' order m md evs r rs HO HE HT HR HX l. destruct (agrees oc' m md evs rs HE HT HX blocking l) as (_ & B).
  rewrite (number_counts oc order evs r HO HR q_blocked) by (cbn; tauto). exact B.
Qed.
(** A label has a row if and only if it names an event of the trace or has cache hits. *)
Theorem C100_rows : forall oc oc' order m md evs r rs, (forall l, Permutation l (order l)) ->
  Forall exportable evs -> 0 <= md_start_time md < 2 ^ 64 * 1000 ->
  perform_analysis oc order evs = Ok r -> export_file oc' None m md evs = Ok rs ->
  forall l, In l (map q_label (query_data r)) <-> trace_count (fun _ => true) l rs <> 0 \/ number q_hits l r <> 0.
Proof.
  intros oc oc' order m md evs r rs HO HE HT HR HX l. destruct (agrees oc' m md evs rs HE HT HX (fun _ => true) l) as (-> & _).
  rewrite (number_counts oc order evs r HO HR q_hits) by (cbn; tauto). cbn [expected_row q_hits]. destruct (C28_counts _ _ _ _ HO HR) as (_ & H & _). rewrite H. unfold has_row.
  assert (N : forall P, count P evs <> 0 <-> exists e, In e evs /\ P e = true).
  { intros P. unfold count. split.
    - intros C. destruct (filter P evs) as [|e l'] eqn:E; [contradiction C; reflexivity|]. exists e. apply filter_In. rewrite E. left. reflexivity.
    - intros (e & He) C. apply filter_In in He. destruct (filter P evs); [contradiction|]. rewrite zlen_cons in C. pose proof (zlen_nonneg l0). lia. }
  rewrite !N. split.
  - intros (e & He & <- & [HI|HC]).
    + left. exists e. split; [exact He|]. rewrite HI. unfold labelled. rewrite beq_refl. reflexivity.
    + right. exists e. split; [exact He|]. rewrite HC. unfold labelled. rewrite beq_refl. reflexivity.
  - intros [(e & He & HP)|(e & He & HP)].
    + apply andb_prop in HP. destruct HP as (HI & HP). apply andb_prop in HP. destruct HP as (HL & _). exists e. split; [exact He|]. split; [apply beq_true, HL|]. left. exact HI.
    + apply andb_prop in HP. destruct HP as (HC & HL). exists e. split; [exact He|]. split; [apply beq_true, HL|]. right. exact HC.
Qed.
Local Lemma bind_Ok {A B} (r : res A) (k : A -> res B) b : (do a <- r; k a) = Ok b -> exists a, r = Ok a /\ k a = Ok b.
Proof. destruct r; cbn [bind]; intros H; try discriminate H. eauto. Qed.
(** A minimum duration only leaves out the events of the trace that are shorter. *)
Theorem C100_minimum : forall oc k m md evs rs, Forall exportable evs ->
  export_file oc None m md evs = Ok rs -> export_file oc (Some k) m md evs = Ok (filter (long_enough k) rs).
Proof.
  intros oc k m md evs rs HE H. unfold export_file in *. apply bind_Ok in H. destruct H as (rss & E & H). apply bind_Ok in H. destruct H as (last & EL & H). injection H as <-.
  assert (K : exists rss', collectM (export_event oc (Some k) m (md_process_id md)) evs = Ok rss' /\ concat rss' = filter (long_enough k) (concat rss)).
  { revert rss E. induction HE as [|e evs He HE IH]; intros rss E; cbn [collectM] in *; [injection E as <-; exists []; split; reflexivity|].
    apply bind_Ok in E. destruct E as (x & E1 & E). apply bind_Ok in E. destruct E as (xs & E2 & E). injection E as <-. destruct (IH _ E2) as (xs' & -> & C).
    assert (X : exists x', export_event oc (Some k) m (md_process_id md) e = Ok x' /\ x' = filter (long_enough k) x).
    { clear -He E1. unfold export_event in *. destruct (negb (p_is_interval (ev_payload e))) eqn:EI; [injection E1 as <-; exists []; split; reflexivity|].
      apply bind_Ok in E1. destruct E1 as (d & ED & E1). rewrite ED. cbn [bind]. apply bind_Ok in E1. destruct E1 as (st & ES & E1). apply bind_Ok in E1. destruct E1 as (se & EE & E1).
      apply bind_Ok in E1. destruct E1 as (ts & ET & E1). apply bind_Ok in E1. destruct E1 as (du & EU & E1). injection E1 as <-. rewrite ES. cbn [bind]. rewrite EE. cbn [bind]. rewrite ET. cbn [bind]. rewrite EU. cbn [bind].
      assert (D : du = d / 1000).
      { unfold exportable in He. destruct (ev_payload e) as [[a b|t]|v]; try discriminate EI. cbn [duration ts_duration] in ED. destruct (Z.leb_spec a b); [|discriminate ED]. injection ED as <-.
        rewrite C37_micros in EU by lia. injection EU as <-. reflexivity. }
      subst du. cbn [filter long_enough]. destruct (Z.ltb_spec (d / 1000) k); destruct (Z.leb_spec k (d / 1000)); try lia; (eexists; split; reflexivity). }
    destruct X as (x' & -> & ->). cbn [bind]. eexists. split; [reflexivity|]. cbn [concat]. rewrite filter_app, C. reflexivity. }
  destruct K as (rss' & -> & C). cbn [bind]. rewrite EL. cbn [bind]. rewrite C, !filter_app.
  replace (filter (long_enough k) (crate_name_record md)) with (crate_name_record md) by (unfold crate_name_record; destruct (str_find _ _); reflexivity).
  replace (filter (long_enough k) [last]) with [last]; [reflexivity|]. unfold sort_index_record in EL. destruct (0 <=? md_start_time md); [|discriminate EL]. injection EL as <-. reflexivity.
Qed.

(** A query that is computed, hit and hashed, and takes 1000 ns and 1500 ns. *)
Definition ex_chrome : list event :=
  [mkEv (str "Query") (str "typeck") [] (Timestamp (Interval 1500 2500)) 1;
   mkEv (str "IncrementalResultHashing") (str "typeck") [] (Timestamp (Interval 2500 4600)) 1;
   mkEv (str "QueryCacheHit") (str "typeck") [] (Timestamp (Instant 4700)) 1;
   mkEv (str "Query") (str "typeck") [] (Timestamp (Interval 5500 7000)) 1].
Example ex_C100 : (forall e, In e ex_chrome -> exportable e) /\
  exists r rs, perform_analysis true (fun l => l) ex_chrome = Ok r /\ export_file true None [] (mkMd 5000 99 (str "rustc a.rs")) ex_chrome = Ok rs /\
    number q_count (str "typeck") r = 3 /\ number q_hits (str "typeck") r = 1 /\ number q_misses (str "typeck") r = 2 /\
    trace_count computing (str "typeck") rs = 2 /\ trace_count (fun _ => true) (str "typeck") rs = 3 /\
    number q_time (str "typeck") r = 2500 /\ trace_micros (fun c => negb (hashing c)) (str "typeck") rs = 2.
Proof.
  split.
  - intros e He. unfold ex_chrome in He. cbn [In] in He. destruct He as [<-|[<-|[<-|[<-|[]]]]]; cbn; lia.
  - eexists. eexists. split; [vm_compute; reflexivity|]. split; [vm_compute; reflexivity|]. vm_compute. auto 10.
Qed.
Print Assumptions C100_rows.
