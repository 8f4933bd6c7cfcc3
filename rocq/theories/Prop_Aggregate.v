(** C34 and C35: sample points and aggregation.  Model M_Aggregate.v, specification S_Aggregate.v. *)
From Coq Require Import ZArith List Lia Bool Sorted String.
From Verif Require Import M_Base F_Base M_Raw M_V8 M_Map S_Guard M_Analysis S_Analysis F_Analysis M_Diff F_Diff M_Aggregate S_Aggregate F_Aggregate
  S_Extrema Prop_Extrema.
Import ListNotations.
Open Scope Z_scope.

Lemma timed_rev evs : filter (fun e => negb (p_is_integer (ev_payload e))) (rev evs) = rev (timed evs).
Proof.
  unfold timed. induction evs as [|e evs IH]; auto. cbn [rev filter]. rewrite filter_app, IH. cbn [filter].
  destruct (negb (p_is_integer (ev_payload e))); cbn [rev]; auto. apply app_nil_r.
Qed.
Lemma timed_not_integer evs : Forall (fun e => p_is_integer (ev_payload e) = false) (rev (timed evs)).
Proof. apply Forall_forall. intros e H. apply in_rev, filter_In in H. destruct H as (_ & H). apply negb_true_iff in H. auto. Qed.
Definition thread_of (evs : list event) : Z := match rev (timed evs) with e :: _ => ev_thread e | [] => 0 end.
Lemma sp_new_eq evs : sp_new evs = mkSP (thread_of evs) (rev (timed evs)) [].
Proof. unfold sp_new, thread_of. rewrite timed_rev. reflexivity. Qed.
Lemma single_good evs : single_thread evs -> Forall (good (thread_of evs)) (rev (timed evs)).
Proof.
  intros H. pose proof (timed_not_integer evs) as HI. rewrite Forall_forall in *. intros e He. split; auto.
  unfold thread_of. destruct (rev (timed evs)) as [|x l] eqn:E; [destruct He|]. apply H; apply in_rev; rewrite E; auto. left; auto.
Qed.

(** The sample points of every single-threaded recording: a properly parenthesised walk that meets
    exactly the instants and intervals recorded, latest first. *)
Theorem C34_walk : forall evs, single_thread evs ->
  exists pts, drains sp_next (sp_new evs) (Ok pts) /\ walk None pts /\ met pts = rev (timed evs).
Proof.
  intros evs H. rewrite sp_new_eq. destruct (points_exist _ (thread_of evs) (rev (timed evs)) [] (le_n _) (single_good _ H)) as (pts & D & U & M).
  exists pts. split; auto. split; auto. inversion U; auto.
Qed.
(** Every point of a walk is the end, the start or the instant of an event it meets, and each
    interval's end and start come in pairs: as many starts as ends of every event. *)
Theorem C34_balanced : forall par pts, walk par pts ->
  forall P : event -> bool,
    zlen (filter (fun p => match p with SStart w => P (w_this w) | _ => false end) pts) =
    zlen (filter (fun p => match p with SEnd w => P (w_this w) | _ => false end) pts).
Proof.
  intros par pts W P. induction W as [par|par e l H W IH|par e inner l H W1 IH1 W2 IH2]; auto.
  cbn [filter w_this]. rewrite !filter_app. cbn [filter w_this]. destruct (P e); rewrite ?zlen_cons, !zlen_app, ?zlen_cons; lia.
Qed.
(** With events of two threads the walk panics. *)
Theorem C34_threads : forall evs, ~ single_thread evs -> drains sp_next (sp_new evs) Panic.
Proof.
  intros evs H. rewrite sp_new_eq. eapply points_panic; [apply le_n|apply timed_not_integer|].
  destruct (Forall_Exists_dec (fun e => ev_thread e = thread_of evs) (fun e => Z.eq_dec _ _) (rev (timed evs))) as [F|F].
  - exfalso. apply H. rewrite Forall_forall in F. intros e e' He He'. apply in_rev in He, He'. rewrite (F _ He), (F _ He'). reflexivity.
  - apply Exists_exists in F. destruct F as (e & He & N). eauto.
Qed.
Lemma between_sorted (R : point -> point -> Prop) l : Sorted R l -> forall i, In i (between l) -> R (si_end i) (si_start i) /\ In (si_start i) l /\ In (si_end i) l.
Proof.
  induction l as [|p l IH]; intros S i H; [destruct H|]. destruct l as [|q l]; [destruct H|]. inversion S as [|? ? S1 R1]; subst. inversion R1; subst.
  destruct H as [<-|H]; [cbn; auto|]. destruct (IH S1 i H) as (A & B & C). split; auto. split; right; auto.
Qed.
Lemma desc_refl (a : desc) : (if desc_eq_dec a a then true else false) = true.
Proof. destruct (desc_eq_dec a a); congruence. Qed.
Lemma opt_desc_refl a : opt_desc_eqb a a = true.
Proof. destruct a; auto. apply desc_refl. Qed.
(** The parent relations asserted when neighbouring points are described always hold. *)
Theorem C34_describe : forall evs pts i n, drains sp_next (sp_new evs) (Ok pts) -> In i (between pts) ->
  exists text, describe n (SOne (describe_interval i)) = Ok (Text text).
Proof.
  intros evs pts i n D H.
  assert (ST : single_thread evs). { destruct (Forall_Exists_dec (fun e => ev_thread e = thread_of evs) (fun e => Z.eq_dec _ _) (rev (timed evs))) as [F|F].
    - rewrite Forall_forall in F. intros e e' He He'. apply in_rev in He, He'. rewrite (F _ He), (F _ He'). reflexivity.
    - exfalso. apply Exists_exists in F. destruct F as (e & He & N). rewrite sp_new_eq in D.
      pose proof (drains_det _ _ _ D _ (points_panic _ (thread_of evs) (rev (timed evs)) [] (le_n _) (timed_not_integer evs) (ex_intro _ e (conj He N)))). discriminate. }
  destruct (C34_walk evs ST) as (pts' & D' & W & _). pose proof (drains_det _ _ _ D _ D') as E. injection E as <-.
  destruct (between_sorted _ _ (walk_sorted _ W) i H) as (N & _ & _). destruct i as [s e]. cbn [si_start si_end] in N.
  unfold describe, describe_interval. cbn [si_map si_start si_end].
  destruct s as [s|s|s], e as [e|e|e]; cbn [sp_map neighbours] in *; subst; cbn [w_map w_this w_parent];
    try (rewrite N; cbn [option_map opt_desc_eqb]; rewrite desc_refl; eauto; fail).
  - unfold w_eqb. rewrite desc_refl, opt_desc_refl. cbn [andb]. eauto.
  - rewrite N, opt_desc_refl. destruct (option_map desc_of (w_parent e)); eauto.
  - rewrite N, opt_desc_refl. destruct (option_map desc_of (w_parent e)); eauto.
  - rewrite N, opt_desc_refl. destruct (option_map desc_of (w_parent e)); eauto.
  - rewrite N, opt_desc_refl. destruct (option_map desc_of (w_parent e)); eauto.
Qed.
(** In a recording in time order no duration computation fails: going back in time from point to
    point, the timestamps never increase. *)
Theorem C34_times : forall evs pts, chronological evs -> single_thread evs -> drains sp_next (sp_new evs) (Ok pts) ->
  (forall p, In p pts -> exists t, sp_timestamp p = Ok t) /\
  (forall i, In i (between pts) -> exists s e, sp_timestamp (si_start i) = Ok s /\ sp_timestamp (si_end i) = Ok e /\ s <= e /\ si_duration i = Ok (e - s)).
Proof.
  intros evs pts HC ST D. destruct (C34_walk evs ST) as (pts' & D' & W & _). pose proof (drains_det _ _ _ D _ D') as E. injection E as <-. clear D'.
  pose proof (walk_matches _ _ W) as HM. rewrite Forall_forall in HM. rewrite sp_new_eq in D.
  assert (T : Sorted (fun a b => time_of b <= time_of a) pts).
  { destruct (points_times _ _ D (match rev (timed evs) with e :: _ => snd (span e) | [] => 0 end) pts eq_refl) as (S & _); auto; cbn [rev_events sp_stack expected_thread].
    - destruct (rev (timed evs)); auto. lia.
    - exact I.
    - exact I.
    - constructor.
    - rewrite rev_involutive. exact HC.
    - intros x y _ [].
    - apply single_good; auto. }
  split.
  - intros p Hp. exists (time_of p). apply matches_time. auto.
  - intros i Hi. destruct (between_sorted _ _ T i Hi) as (L & I1 & I2). exists (time_of (si_start i)), (time_of (si_end i)).
    unfold si_duration. rewrite !matches_time by auto. cbn [bind]. destruct (Z.leb_spec (time_of (si_start i)) (time_of (si_end i))); [auto|lia].
Qed.
(** Otherwise one can: the unwrap in [duration] panics. *)
Theorem C34_overlap_refuted : exists evs pts i, single_thread evs /\ drains sp_next (sp_new evs) (Ok pts) /\ In i (between pts) /\ si_duration i = Panic.
Proof.
  set (a := mkEv (str "Query") (str "a") [] (Timestamp (Interval 0 10)) 1). set (b := mkEv (str "Query") (str "b") [] (Timestamp (Interval 5 15)) 1).
  exists [a; b], [SEnd (mkW b None); SStart (mkW b None); SEnd (mkW a None); SStart (mkW a None)], (mkSI (SEnd (mkW a None)) (SStart (mkW b None))).
  split; [|split; [|split]].
  - intros e e' [<-|[<-|[]]] [<-|[<-|[]]]; reflexivity.
  - repeat (eapply dr_step; [reflexivity|]). constructor. reflexivity.
  - right. left. reflexivity.
  - reflexivity.
Qed.
Definition agg_events : list event :=
  [mkEv (str "Query") (str "in") [str "x"] (Timestamp (Interval 2 4)) 7; mkEv (str "QueryCacheHit") (str "hit") [] (Timestamp (Instant 5)) 7;
   mkEv (str "ArtifactSize") (str "s") [] (Integer 3) 9; mkEv (str "GenericActivity") (str "out") [] (Timestamp (Interval 1 6)) 7].
Example C34_example : chronological agg_events /\ single_thread agg_events /\
  exists pts, drains sp_next (sp_new agg_events) (Ok pts) /\ map (fun i => si_duration i) (between pts) = [Ok 1; Ok 1; Ok 2; Ok 1].
Proof.
  split; [|split].
  - unfold chronological, agg_events, timed. cbn [filter ev_payload p_is_integer negb map span laminar fst snd]. unfold nests. cbn [fst snd].
    repeat split; try lia; repeat (constructor; cbn [fst snd]; try lia).
  - intros e e' H H'. vm_compute in H, H'. repeat (destruct H as [<-|H]; [|]); try destruct H; repeat (destruct H' as [<-|H']; [reflexivity|]); destruct H'.
  - eexists. split; [repeat (eapply dr_step; [reflexivity|]); constructor; reflexivity|]. reflexivity.
Qed.
Print Assumptions C34_times.
