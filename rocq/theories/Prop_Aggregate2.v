(** C35: aggregation over profiles.  Model M_Aggregate.v, specification S_Aggregate.v. *)
From Coq Require Import String ZArith List Lia Bool Sorted.
From Verif Require Import M_Base F_Base M_Raw M_V8 M_Map S_Guard M_Analysis S_Analysis F_Analysis M_Diff F_Diff M_Aggregate S_Aggregate F_Aggregate
  S_Extrema Prop_Extrema Prop_Aggregate.
Import ListNotations.
Open Scope Z_scope.
Notation ival := (sinterval (with_parent event)).

(** ** Intervals of one profile *)
Lemma si_drains_aux s r : drains sp_next s r -> forall p,
  drains si_next (Some p, s) (match r with Ok l => Ok (between (p :: l)) | _ => Panic end).
Proof.
  induction 1 as [s H|s a s' l H HD IH|s a s' H HD IH|s H]; intros p.
  - apply dr_done. unfold si_next. cbn [snd]. rewrite H. reflexivity.
  - cbn [between]. eapply dr_step; [|apply IH]. unfold si_next. cbn [snd fst]. rewrite H. reflexivity.
  - eapply dr_step_panic; [|apply IH]. unfold si_next. cbn [snd fst]. rewrite H. reflexivity.
  - apply dr_panic. unfold si_next. cbn [snd]. rewrite H. reflexivity.
Qed.
Lemma si_drains s l : drains sp_next s (Ok l) -> exists it, si_new s = Ok it /\ drains si_next it (Ok (between l)).
Proof.
  intros D. unfold si_new. inversion D as [? H|? a s' l' H HD| |]; subst; rewrite H; cbn [bind].
  - eexists. split; [reflexivity|]. apply dr_done. unfold si_next. cbn [snd]. rewrite H. reflexivity.
  - eexists. split; [reflexivity|]. apply (si_drains_aux _ _ HD a).
Qed.
Lemma si_drains_panic s : drains sp_next s Panic -> si_new s = Panic \/ exists it, si_new s = Ok it /\ drains si_next it Panic.
Proof.
  intros D. unfold si_new. inversion D as [| |? a s' H HD|? H]; subst; rewrite H; cbn [bind]; auto.
  right. eexists. split; [reflexivity|]. apply (si_drains_aux _ _ HD a).
Qed.

(** ** All profiles in step *)
Lemma collectM_Ok {A B} (f : A -> res B) l ys : collectM f l = Ok ys <-> Forall2 (fun x y => f x = Ok y) l ys.
Proof.
  revert ys. induction l as [|x l IH]; intros ys; cbn [collectM].
  - split; [intros [= <-]; constructor|inversion 1; auto].
  - split.
    + destruct (f x) as [y| | |] eqn:E; cbn [bind]; try discriminate. destruct (collectM f l) as [zs| | |]; cbn [bind]; try discriminate. intros [= <-]. constructor; auto. apply IH. reflexivity.
    + inversion 1 as [|? y ? zs H1 H2]; subst. rewrite H1. cbn [bind]. apply IH in H2. rewrite H2. reflexivity.
Qed.
Lemma fold_min l : forall a, forall m, m = fold_left Z.min l a -> (m = a \/ In m l) /\ m <= a /\ forall d, In d l -> m <= d.
Proof.
  induction l as [|x l IH]; intros a m Em; cbn [fold_left] in Em; [subst; split; auto; split; [lia|intros d []]|]. destruct (IH (Z.min a x) m Em) as (H1 & H2 & H3).
  split; [|split; [lia|]].
  - destruct H1 as [H1|H1]; [|right; right; auto]. destruct (Z.min_spec a x) as [(_ & E)|(_ & E)]; [left; lia|right; left; lia].
  - intros d [<-|Hd]; [lia|auto].
Qed.
Lemma fold_max l : forall a, forall m, m = fold_left Z.max l a -> (m = a \/ In m l) /\ a <= m /\ forall d, In d l -> d <= m.
Proof.
  induction l as [|x l IH]; intros a m Em; cbn [fold_left] in Em; [subst; split; auto; split; [lia|intros d []]|]. destruct (IH (Z.max a x) m Em) as (H1 & H2 & H3).
  split; [|split; [lia|]].
  - destruct H1 as [H1|H1]; [|right; right; auto]. destruct (Z.max_spec a x) as [(_ & E)|(_ & E)]; [right; left; lia|left; lia].
  - intros d [<-|Hd]; [lia|auto].
Qed.
Lemma agg_other_Ok d it x : agg_other d it = Ok x <->
  exists i it', si_next it = Ok (Some (i, it')) /\ describe_interval i = d /\ si_duration i = Ok (fst x) /\ snd x = it'.
Proof.
  unfold agg_other. split.
  - destruct (si_next it) as [[(i, it')|]| | |] eqn:E; cbn [bind]; try discriminate.
    destruct (si_duration i) as [q| | |] eqn:E2; cbn [bind]; try discriminate. destruct (descriptions_eq_dec d (describe_interval i)); try discriminate.
    intros [= <-]. exists i, it'. auto.
  - intros (i & it' & -> & <- & E & <-). cbn [bind]. rewrite E. cbn [bind]. destruct (descriptions_eq_dec (describe_interval i) (describe_interval i)); [|congruence].
    destruct x; reflexivity.
Qed.

(** One step of the aggregation succeeds exactly when every profile has a next interval, they look
    the same and their durations can be computed; the result is what it has to be. *)
Lemma agg_next_Some it its a its' : agg_next (it :: its) = Ok (Some (a, its')) <->
  exists is, Forall2 (fun x y => si_next x = Ok (Some y)) (it :: its) (combine is its') /\ length is = length its' /\ combines is a.
Proof.
  split.
  - unfold agg_next. destruct (si_next it) as [[(i, it')|]| | |] eqn:E; cbn [bind]; try discriminate.
    2:{ destruct (collectM _ _); cbn [bind]; discriminate. }
    destruct (si_duration i) as [d| | |] eqn:E2; cbn [bind]; try discriminate.
    destruct (collectM (agg_other (describe_interval i)) its) as [os| | |] eqn:E3; cbn [bind]; try discriminate.
    apply collectM_Ok in E3.
    set (lo := fold_left Z.min (map fst os) d). set (hi := fold_left Z.max (map fst os) d).
    unfold dsub. destruct (Z.leb_spec lo hi) as [L|L]; cbn [bind]; [|discriminate]. intros [= <- <-].
    assert (K : exists is, Forall2 (fun x y => si_next x = Ok (Some y)) its (combine is (map snd os)) /\ length is = length (map snd os) /\
        (forall j, In j is -> describe_interval j = describe_interval i) /\ Forall2 (fun i d => si_duration i = Ok d) is (map fst os)).
    { clear - E3. induction E3 as [|x y l os H E3 IH]; [exists []; cbn; split; [constructor|split; [reflexivity|split; [intros j []|constructor]]]|]. destruct IH as (is & I1 & I2 & I3 & I4).
      apply agg_other_Ok in H. destruct H as (j & it' & H1 & H2 & H3 & H4). exists (j :: is). cbn [map combine length]. subst it'.
      split; [constructor; auto|]. split; [auto|]. split; [intros k [<-|Hk]; auto|]. constructor; auto. }
    destruct K as (is & I1 & I2 & I3 & I4). exists (i :: is). split; [constructor; auto|]. split; [cbn; auto|]. split.
    + intros j [<-|Hj]; cbn [ag_desc]; auto.
    + exists (d :: map fst os). split; [constructor; auto|]. cbn [ag_min ag_range]. replace (lo + (hi - lo)) with hi by lia.
      destruct (fold_min (map fst os) d _ eq_refl) as (M1 & M2 & M3). destruct (fold_max (map fst os) d _ eq_refl) as (N1 & N2 & N3). fold lo in M1, M2, M3. fold hi in N1, N2, N3.
      split; [cbn; intuition|]. split; [cbn; intuition|]. intros e [<-|He]; [lia|]. specialize (M3 _ He). specialize (N3 _ He). lia.
  - intros (is & H1 & H2 & (H3 & ds & H4 & H5 & H6 & H7)). inversion H1 as [|? ? ? ? A1 A2 A3 A4]; subst.
    destruct is as [|i is]; [discriminate|]. destruct its' as [|it' its']; [discriminate|]. cbn [combine] in A4. injection A4 as -> ->.
    inversion H4 as [|? d ? ds' D1 D2]; subst. unfold agg_next. rewrite A1. cbn [bind]. rewrite D1. cbn [bind].
    assert (K : Forall2 (fun x y => agg_other (describe_interval i) x = Ok y) its (combine ds' its')).
    { assert (H3' : forall j, In j is -> describe_interval j = describe_interval i). { intros j Hj. rewrite (H3 i (or_introl eq_refl)). apply H3. right; auto. }
      clear - A2 H2 D2 H3'. cbn [length] in H2. revert its its' ds' A2 H2 D2. induction is as [|j is IH]; intros its its' ds' A2 H2 D2.
      - inversion D2; subst. destruct its'; [|discriminate]. inversion A2; subst. constructor.
      - destruct its' as [|u its']; [discriminate|]. inversion D2 as [|? e ? ds'' Q1 Q2]; subst. cbn [combine] in *. inversion A2; subst. constructor.
        + apply agg_other_Ok. exists j, u. repeat split; auto. apply H3'. left; auto.
        + apply IH; auto. intros; apply H3'; right; auto. }
    apply collectM_Ok in K. rewrite K. cbn [bind].
    assert (LD : length ds' = length its'). { clear - D2 H2. cbn [length] in H2. assert (length is = length ds') by (clear H2; induction D2; cbn; auto). lia. }
    assert (F1 : map fst (combine ds' its') = ds'). { clear - LD. revert its' LD. induction ds' as [|x l IH]; intros [|y l'] H; try discriminate; auto. cbn. rewrite IH; auto. }
    assert (F2 : map snd (combine ds' its') = its'). { clear - LD. revert its' LD. induction ds' as [|x l IH]; intros [|y l'] H; try discriminate; auto. cbn. rewrite IH; auto. }
    rewrite F1, F2. set (lo := fold_left Z.min ds' d). set (hi := fold_left Z.max ds' d).
    destruct (fold_min ds' d _ eq_refl) as (M1 & M2 & M3). destruct (fold_max ds' d _ eq_refl) as (N1 & N2 & N3). fold lo in M1, M2, M3. fold hi in N1, N2, N3.
    assert (QL : In lo (d :: ds')) by (cbn; intuition). assert (QH : In hi (d :: ds')) by (cbn; intuition).
    assert (E1 : lo = ag_min a). { pose proof (H7 _ QL). destruct H5 as [H5|H5]; [|specialize (M3 _ H5)]; lia. }
    assert (E2 : hi = ag_min a + ag_range a). { pose proof (H7 _ QH). destruct H6 as [H6|H6]; [|specialize (N3 _ H6)]; lia. }
    unfold dsub. destruct (Z.leb_spec lo hi); [|lia]. cbn [bind]. rewrite (H3 i (or_introl eq_refl)). replace (hi - lo) with (ag_range a) by lia. rewrite E1. destruct a; reflexivity.
Qed.
Lemma agg_next_None it its : agg_next (it :: its) = Ok None <-> Forall (fun x => si_next x = Ok None) (it :: its).
Proof.
  unfold agg_next. split.
  - destruct (si_next it) as [[(i, it')|]| | |] eqn:E; cbn [bind]; try discriminate.
    + destruct (si_duration i); cbn [bind]; try discriminate. destruct (collectM _ _); cbn [bind]; try discriminate. destruct (dsub _ _); discriminate.
    + destruct (collectM _ (it :: its)) as [us| | |] eqn:C; cbn [bind]; try discriminate. intros _. apply collectM_Ok in C. clear E.
      induction C as [|x y l ys H C IH]; constructor; auto. destruct (si_next x) as [[?|]| | |]; cbn [bind] in H; try discriminate. reflexivity.
  - intros H. inversion H as [|? ? H1 H2]; subst. rewrite H1. cbn [bind].
    replace (collectM _ (it :: its)) with (Ok (map (fun _ => tt) (it :: its))); [reflexivity|]. symmetry. apply collectM_Ok. clear H1 H2.
    induction H as [|x l Hx H IH]; constructor; auto. rewrite Hx. reflexivity.
Qed.

(** The aggregation of at least one profile succeeds exactly when every profile can be walked and
    all walks describe the same sequence of intervals, and then reports for each interval its
    description, the minimum and the spread over the profiles. *)
Theorem C35_aggregation : forall its aggs, its <> [] ->
  (drains agg_next its (Ok aggs) <-> exists IS, Forall2 (fun it I => drains si_next it (Ok I)) its IS /\ aggregated IS aggs).
Proof.
  intros its aggs NE. split.
  - intros D. remember (Ok aggs) as r eqn:Er. revert aggs Er NE. induction D as [s H|s a s' l H HD IH|s a s' H HD IH|s H]; intros aggs Er NE; try discriminate; injection Er as <-.
    + destruct s as [|it its]; [congruence|]. apply agg_next_None in H. exists (map (fun _ => []) (it :: its)). split.
      * clear NE. induction H; constructor; auto. apply dr_done; auto.
      * constructor. apply Forall_forall. intros l Hl. apply in_map_iff in Hl. destruct Hl as (? & <- & _). reflexivity.
    + destruct s as [|it its]; [congruence|]. apply agg_next_Some in H. destruct H as (is & H1 & H2 & H3).
      destruct (IH l eq_refl) as (IS & F & A). { intros ->. inversion H1; subst. destruct is; discriminate. }
      assert (LI : length is = length IS). { rewrite H2. clear - F. induction F; cbn; auto. }
      exists (map (fun c => fst c :: snd c) (combine is IS)). split.
      * clear - H1 H2 F LI. revert H1 H2 LI. generalize (it :: its). intros its0. revert its0 is. induction F as [|x I s' IS Hx F IHF]; intros its0 is H1 H2 LI.
        { destruct is; [|discriminate]. inversion H1; subst. constructor. }
        destruct is as [|i is]; [discriminate|]. cbn [combine] in H1. inversion H1 as [|u ? us ? Hu Hus]; subst. cbn [combine map fst snd]. constructor.
        -- eapply dr_step; eauto.
        -- apply IHF; auto.
      * assert (F1 : map fst (combine is IS) = is). { clear - LI. revert IS LI. induction is as [|x l IHl]; intros [|y l'] H; try discriminate; auto. cbn. rewrite IHl; auto. }
        assert (F2 : map snd (combine is IS) = IS). { clear - LI. revert IS LI. induction is as [|x l IHl]; intros [|y l'] H; try discriminate; auto. cbn. rewrite IHl; auto. }
        constructor; [rewrite F1; auto|rewrite F2; auto].
  - intros (IS & F & A). revert its F NE. induction A as [IS HE|columns a aggs HC HA IH]; intros its F NE.
    + apply dr_done. destruct its as [|it its]; [congruence|]. apply agg_next_None. clear NE. induction F as [|x I l IS Hx F IHF]; constructor; inversion HE; subst; auto.
      inversion Hx; auto.
    + assert (K : exists its', Forall2 (fun x y => si_next x = Ok (Some y)) its (combine (map fst columns) its') /\ length (map fst columns) = length its' /\
          Forall2 (fun it I => drains si_next it (Ok I)) its' (map snd columns)).
      { clear - F. revert its F. induction columns as [|c columns IHc]; intros its F.
        - inversion F; subst. exists []. cbn. split; [constructor|split; [reflexivity|constructor]].
        - cbn [map] in F. inversion F as [|it ? its0 ? Hx F']; subst. inversion Hx as [|? ? it' ? Hn Hd| |]; subst. destruct (IHc _ F') as (its' & K1 & K2 & K3).
          exists (it' :: its'). cbn [map combine length]. split; [constructor; auto|]. split; [auto|constructor; auto]. }
      destruct K as (its' & K1 & K2 & K3). eapply dr_step.
      * destruct its as [|it its]; [congruence|]. apply agg_next_Some. exists (map fst columns). eauto.
      * apply IH; auto. intros ->. destruct columns; [|discriminate]. cbn in K1. inversion K1; subst. congruence.
Qed.

(** ** From events to the report *)
(** Each profile is walked to the end; [sources] of the aggregation. *)
Definition opened (profiles : list (list event)) (its : list sintervals) : Prop :=
  collectM (fun evs => si_new (sp_new evs)) profiles = Ok its.
Lemma si_next_res it : (exists x, si_next it = Ok x) \/ si_next it = Panic.
Proof.
  unfold si_next. assert (K : (exists x, sp_next (snd it) = Ok x) \/ sp_next (snd it) = Panic).
  { destruct it as [last [t r stk]]. unfold sp_next. cbn [snd rev_events sp_stack expected_thread]. destruct r as [|e r].
    - destruct stk; eauto.
    - destruct (p_is_integer (ev_payload e)); auto. destruct (negb (ev_thread e =? t)); auto.
      destruct stk as [|top stk]; [|destruct (negb (contains (ev_payload top) (ev_payload e))); eauto]; destruct (ev_payload e) as [[a b|i]|v]; eauto. }
  destruct K as [([(p, s')|] & ->)| ->]; cbn [bind]; eauto. destruct (fst it); eauto.
Qed.
Lemma si_duration_res i : (exists x, si_duration i = Ok x) \/ si_duration i = Panic.
Proof.
  unfold si_duration. assert (K : forall p, (exists x, sp_timestamp p = Ok x) \/ sp_timestamp p = Panic).
  { intros p. unfold sp_timestamp. destruct (ev_payload (w_this (sp_event p))) as [[a b|t]|v]; destruct p; eauto. }
  destruct (K (si_end i)) as [(x & ->)| ->]; cbn [bind]; auto. destruct (K (si_start i)) as [(y & ->)| ->]; cbn [bind]; auto. destruct (y <=? x); eauto.
Qed.
Lemma collectM_res {A B} (f : A -> res B) l : (forall x, (exists y, f x = Ok y) \/ f x = Panic) -> (exists ys, collectM f l = Ok ys) \/ collectM f l = Panic.
Proof.
  intros H. induction l as [|x l IH]; cbn [collectM]; eauto. destruct (H x) as [(y & ->)| ->]; cbn [bind]; auto. destruct IH as [(ys & ->)| ->]; cbn [bind]; eauto.
Qed.
Lemma agg_next_res its : (exists x, agg_next its = Ok x) \/ agg_next its = Panic.
Proof.
  unfold agg_next. destruct its as [|it its]; eauto. destruct (si_next_res it) as [([(i, it')|] & ->)| ->]; cbn [bind]; auto.
  - destruct (si_duration_res i) as [(d & ->)| ->]; cbn [bind]; auto.
    destruct (collectM_res (agg_other (describe_interval i)) its) as [(os & ->)| ->]; cbn [bind]; auto.
    + intros x. unfold agg_other. destruct (si_next_res x) as [([(j, x')|] & ->)| ->]; cbn [bind]; auto. destruct (si_duration_res j) as [(e & ->)| ->]; cbn [bind]; auto.
      destruct (descriptions_eq_dec _ _); eauto.
    + unfold dsub. destruct (_ <=? _); cbn [bind]; eauto.
  - match goal with |- (exists x, bind ?m _ = _) \/ _ => assert (K : (exists ys, m = Ok ys) \/ m = Panic) end.
    { apply collectM_res. intros x. destruct (si_next_res x) as [([(j, x')|] & ->)| ->]; cbn [bind]; eauto. }
    destruct K as [(ys & ->)| ->]; cbn [bind]; eauto.
Qed.
Lemma drains_si_total it r : drains si_next it r -> forall its, exists r', drains agg_next (it :: its) r'.
Proof.
  induction 1 as [s H|s a s' l H HD IH|s a s' H HD IH|s H]; intros its.
  - destruct (agg_next_res (s :: its)) as [([(a, its')|] & E)|E].
    + exfalso. revert E. unfold agg_next. rewrite H. cbn [bind]. destruct (collectM _ _); discriminate.
    + exists (Ok []). constructor. auto.
    + exists Panic. apply dr_panic. auto.
  - destruct (agg_next_res (s :: its)) as [([(b, its')|] & E)|E].
    + destruct its' as [|it' its']. { exists (Ok [b]). eapply dr_step; eauto. constructor. reflexivity. }
      assert (it' = s'). { apply agg_next_Some in E. destruct E as (is & E1 & E2 & _). inversion E1 as [|? ? ? ? A B C D]; subst. destruct is as [|i is]; [discriminate|]. cbn in D. congruence. }
      subst it'. destruct (IH its') as (r' & D). destruct r' as [l'| | |]; try (inversion D; fail).
      * eexists. eapply dr_step; eauto.
      * eexists. eapply dr_step_panic; eauto.
    + exists (Ok []). constructor. auto.
    + exists Panic. apply dr_panic. auto.
  - destruct (agg_next_res (s :: its)) as [([(b, its')|] & E)|E].
    + destruct its' as [|it' its']. { exists (Ok [b]). eapply dr_step; eauto. constructor. reflexivity. }
      assert (it' = s'). { apply agg_next_Some in E. destruct E as (is & E1 & E2 & _). inversion E1 as [|? ? ? ? A B C D]; subst. destruct is as [|i is]; [discriminate|]. cbn in D. congruence. }
      subst it'. destruct (IH its') as (r' & D). destruct r' as [l'| | |]; try (inversion D; fail).
      * eexists. eapply dr_step; eauto.
      * eexists. eapply dr_step_panic; eauto.
    + exists (Ok []). constructor. auto.
    + exists Panic. apply dr_panic. auto.
  - exists Panic. apply dr_panic. unfold agg_next. rewrite H. reflexivity.
Qed.
Lemma drains_res {S A} (next : S -> res (option (A * S))) s r : drains next s r -> (exists l, r = Ok l) \/ r = Panic.
Proof. destruct 1; eauto. Qed.
Lemma profile_drains evs : (exists it r, si_new (sp_new evs) = Ok it /\ drains si_next it r) \/ si_new (sp_new evs) = Panic.
Proof.
  assert (K : exists r, drains sp_next (sp_new evs) r).
  { destruct (Forall_Exists_dec (fun e => ev_thread e = thread_of evs) (fun e => Z.eq_dec _ _) (rev (timed evs))) as [F|F].
    - destruct (C34_walk evs) as (pts & D & _); eauto. rewrite Forall_forall in F. intros e e' He He'. apply in_rev in He, He'. rewrite (F _ He), (F _ He'). reflexivity.
    - exists Panic. apply C34_threads. intros ST. apply single_good in ST. apply Exists_exists in F. destruct F as (e & He & N). rewrite Forall_forall in ST. apply ST in He. apply N, He. }
  destruct K as (r & D). destruct (drains_res _ _ _ D) as [(l & ->)| ->].
  - destruct (si_drains _ _ D) as (it & E & D'). eauto.
  - destruct (si_drains_panic _ D) as [E|(it & E & D')]; eauto.
Qed.
(** Aggregation always finishes, in one way: with tables or with a panic. *)
Lemma agg_drains_total profiles its : opened profiles its -> exists r, drains agg_next its r.
Proof.
  unfold opened. intros H. apply collectM_Ok in H. destruct H as [|evs it profiles its H F]; [exists (Ok []); constructor; reflexivity|].
  destruct (profile_drains evs) as [(it' & r & E & D)|E]; [|congruence]. rewrite H in E. injection E as <-. eapply drains_si_total; eauto.
Qed.
Lemma i32_add_res oc a b : (exists x, i32_add oc a b = Ok x) \/ i32_add oc a b = Panic.
Proof. unfold i32_add. destruct (a + b <? 2 ^ 31); eauto. destruct oc; eauto. Qed.
Lemma foldM_res {A S} (f : S -> A -> res S) : (forall s x, (exists y, f s x = Ok y) \/ f s x = Panic) -> forall l s, (exists y, foldM f s l = Ok y) \/ foldM f s l = Panic.
Proof. intros H l. induction l as [|x l IH]; intros s; cbn [foldM]; eauto. destruct (H s x) as [(y & ->)| ->]; cbn [bind]; auto. Qed.
Lemma ex_add_range_res {S} (x : extrema S) lo hi s : (exists y, ex_add_range x lo hi s = Ok y) \/ ex_add_range x lo hi s = Panic.
Proof.
  unfold ex_add_range.
  assert (K1 : forall m, (exists y, ex_add_smallest (ex_limit x) lo s m = Ok y) \/ ex_add_smallest (ex_limit x) lo s m = Panic).
  { intros m. unfold ex_add_smallest. destruct (zlen m <? ex_limit x); eauto. unfold unwrap. destruct (hd_error _); cbn [bind]; auto. destruct (negb _); eauto. destruct (zlen _ =? _); eauto. }
  assert (K2 : forall m, (exists y, ex_add_largest (ex_limit x) hi s m = Ok y) \/ ex_add_largest (ex_limit x) hi s m = Panic).
  { intros m. unfold ex_add_largest. destruct (zlen m <? ex_limit x); eauto. unfold unwrap. destruct (hd_error _); cbn [bind]; auto. destruct (negb _); eauto. destruct (zlen _ =? _); eauto. }
  destruct (K1 (ex_smallest x)) as [(y & ->)| ->]; cbn [bind]; auto. destruct (K2 (ex_largest x)) as [(z & ->)| ->]; cbn [bind]; eauto.
Qed.
Lemma agg_step_res oc t i : (exists y, agg_step oc t i = Ok y) \/ agg_step oc t i = Panic.
Proof.
  unfold agg_step, ex_add, ag_max, dadd. destruct t as ((n, du), va). destruct (i32_add_res oc n 1) as [(m & ->)| ->]; cbn [bind]; auto.
  destruct (_ <=? _); cbn [bind]; auto.
  destruct (ex_add_range_res du (ag_min i) (ag_min i + ag_range i) (ag_desc i)) as [(y & ->)| ->]; cbn [bind]; auto.
  destruct (ex_add_range_res va (ag_range i) (ag_range i) (ag_desc i)) as [(z & ->)| ->]; cbn [bind]; eauto.
Qed.
Lemma describe_res n d : (exists y, describe n d = Ok y) \/ describe n d = Panic.
Proof.
  unfold describe. destruct d as [|[s e]|k]; eauto. cbn [si_start si_end].
  destruct s, e; repeat match goal with |- context [if ?b then _ else _] => destruct b end; eauto; destruct (w_parent _); eauto.
Qed.
Lemma print_report_res t : (exists y, print_report t = Ok y) \/ print_report t = Panic.
Proof.
  unfold print_report, describe_all. destruct t as ((n, du), va).
  assert (K : forall m, (exists y, collectM (fun x : Z * sources descriptions => do d <- describe n (snd x); Ok (fst x, d)) m = Ok y) \/ collectM (fun x : Z * sources descriptions => do d <- describe n (snd x); Ok (fst x, d)) m = Panic).
  { intros m. apply collectM_res. intros x. destruct (describe_res n (snd x)) as [(y & ->)| ->]; cbn [bind]; eauto. }
  destruct (K (ex_smallest du)) as [(y1 & ->)| ->]; cbn [bind]; auto. destruct (K (ex_largest du)) as [(y2 & ->)| ->]; cbn [bind]; auto.
  destruct (K (ex_smallest va)) as [(y3 & ->)| ->]; cbn [bind]; auto. destruct (K (ex_largest va)) as [(y4 & ->)| ->]; cbn [bind]; eauto.
Qed.
Theorem C35_total : forall oc profiles, exists r, aggregate_profiles oc profiles r /\ ((exists x, r = Ok x) \/ r = Panic) /\ forall r', aggregate_profiles oc profiles r' -> r' = r.
Proof.
  intros oc profiles.
  destruct (collectM_res (fun evs => si_new (sp_new evs)) profiles) as [(its & E)|E].
  { intros evs. destruct (profile_drains evs) as [(it & r & E & _)|E]; eauto. }
  - destruct (agg_drains_total _ _ E) as (r & D). destruct (drains_res _ _ _ D) as [(l & ->)| ->].
    + eexists. split; [eapply ap_ok; eauto|]. split.
      * destruct (foldM_res (agg_step oc) (agg_step_res oc) l (0, ex_new 10, ex_new 10)) as [(t & ->)| ->]; cbn [bind]; auto. apply print_report_res.
      * intros r' H. inversion H as [E'|its' E' D'|its' l' E' D']; subst; try congruence; rewrite E in E'; injection E' as <-; pose proof (drains_det _ _ _ D _ D') as Q; congruence.
    + exists Panic. split; [eapply ap_loop_panic; eauto|]. split; auto.
      intros r' H. inversion H as [E'|its' E' D'|its' l' E' D']; subst; try congruence; rewrite E in E'; injection E' as <-; pose proof (drains_det _ _ _ D _ D') as Q; congruence.
  - exists Panic. split; [apply ap_new_panic; auto|]. split; auto. intros r' H. inversion H as [E'|its' E' D'|its' l' E' D']; congruence.
Qed.

(** ** The property, in terms of events *)
Lemma opened_points profiles its : opened profiles its -> forall IS, Forall2 (fun it I => drains si_next it (Ok I)) its IS ->
  exists PS, Forall2 points_of profiles PS /\ IS = map between PS.
Proof.
  unfold opened. intros H. apply collectM_Ok in H. induction H as [|evs it profiles its H F IH]; intros IS K; inversion K as [|? I ? IS' K1 K2]; subst.
  - exists []. split; [constructor|reflexivity].
  - destruct (IH _ K2) as (PS & A & ->).
    assert (D : exists r, drains sp_next (sp_new evs) r).
    { destruct (Forall_Exists_dec (fun e => ev_thread e = thread_of evs) (fun e => Z.eq_dec _ _) (rev (timed evs))) as [Fa|Fa].
      - destruct (C34_walk evs) as (pts & D & _); eauto. rewrite Forall_forall in Fa. intros e e' He He'. apply in_rev in He, He'. rewrite (Fa _ He), (Fa _ He'). reflexivity.
      - exists Panic. apply C34_threads. intros ST. apply single_good in ST. apply Exists_exists in Fa. destruct Fa as (e & He & N). rewrite Forall_forall in ST. apply ST in He. apply N, He. }
    destruct D as (r & D). destruct (drains_res _ _ _ D) as [(pts & ->)| ->].
    + destruct (si_drains _ _ D) as (it' & E & D'). rewrite H in E. injection E as <-. pose proof (drains_det _ _ _ K1 _ D') as Q. injection Q as ->.
      exists (pts :: PS). split; [constructor; auto|reflexivity].
    + destruct (si_drains_panic _ D) as [E|(it' & E & D')]; [congruence|]. rewrite H in E. injection E as <-. pose proof (drains_det _ _ _ K1 _ D'). discriminate.
Qed.
Lemma points_opened profiles PS : Forall2 points_of profiles PS -> exists its, opened profiles its /\ Forall2 (fun it I => drains si_next it (Ok I)) its (map between PS).
Proof.
  unfold opened. induction 1 as [|evs pts profiles PS H F (its & A & B)]; [exists []; split; [reflexivity|constructor]|].
  destruct (si_drains _ _ H) as (it & E & D). exists (it :: its). cbn [collectM map]. rewrite E. cbn [bind]. rewrite A. split; [reflexivity|constructor; auto].
Qed.
(** The same, from the recorded events on: aggregation succeeds iff all profiles can be walked and
    their walks aggregate. *)
Theorem C35_events : forall profiles aggs, profiles <> [] ->
  ((exists its, opened profiles its /\ drains agg_next its (Ok aggs)) <->
   exists PS, Forall2 points_of profiles PS /\ aggregated (map between PS) aggs).
Proof.
  intros profiles aggs NE. assert (NI : forall its, opened profiles its -> its <> []). { unfold opened. intros its H ->. apply collectM_Ok in H. inversion H. congruence. }
  split.
  - intros (its & O & D). apply C35_aggregation in D; [|eauto]. destruct D as (IS & F & A). destruct (opened_points _ _ O _ F) as (PS & P & ->). eauto.
  - intros (PS & P & A). destruct (points_opened _ _ P) as (its & O & F). exists its. split; auto. apply C35_aggregation; eauto.
Qed.
Lemma aggregated_look IS aggs : aggregated IS aggs -> forall I, In I IS -> map describe_interval I = map ag_desc aggs.
Proof.
  induction 1 as [IS H|columns a aggs (H1 & _) H2 IH]; intros I HI.
  - rewrite Forall_forall in H. rewrite (H _ HI). reflexivity.
  - apply in_map_iff in HI. destruct HI as (c & <- & Hc). cbn [map]. f_equal; [|apply IH, in_map, Hc]. apply H1, in_map, Hc.
Qed.
Lemma between_outline pts : (2 <= zlen pts) -> forall pts', map describe_interval (between pts) = map describe_interval (between pts') -> outline pts = outline pts'.
Proof.
  induction pts as [|p [|q pts] IH]; intros L pts' H; try (unfold zlen in L; cbn in L; lia).
  destruct pts' as [|p' [|q' pts']]; try discriminate. cbn [between map] in H. injection H as Hs He H.
  unfold outline in *. cbn [map]. f_equal; [assumption|]. destruct pts as [|x pts].
  - destruct pts' as [|x' pts']; [|discriminate]. cbn [map]. f_equal. assumption.
  - specialize (IH ltac:(unfold zlen; cbn; lia) (q' :: pts') H). exact IH.
Qed.
Lemma met_outline pts : map desc_of (met pts) = flat_map (fun p => match p with SStart _ => [] | SEnd w | SInstant w => [w_this w] end) (outline pts).
Proof. unfold outline. induction pts as [|[w|w|w] pts IH]; cbn; auto; f_equal; auto. Qed.
(** Profiles are only accepted together if they show the same events at the same points, or have no
    interval between sample points at all (see [C35_single_refuted]). *)
Theorem C35_alike : forall profiles its aggs, opened profiles its -> drains agg_next its (Ok aggs) ->
  forall evs evs', In evs profiles -> In evs' profiles -> exists pts pts', points_of evs pts /\ points_of evs' pts' /\
    ((outline pts = outline pts' /\ map desc_of (timed evs) = map desc_of (timed evs')) \/ (zlen pts <= 1 /\ zlen pts' <= 1)).
Proof.
  intros profiles its aggs O D evs evs' H H'. assert (NE : profiles <> []) by (intros ->; destruct H).
  destruct (proj1 (C35_events _ aggs NE) (ex_intro _ its (conj O D))) as (PS & F & A).
  assert (G : forall ev, In ev profiles -> exists pts, points_of ev pts /\ In pts PS /\ met pts = rev (timed ev)).
  { intros ev He. assert (K : exists pts, points_of ev pts /\ In pts PS). { clear - F He. induction F as [|x y l PS Hx F IH]; [destruct He|]. destruct He as [<-|He]; [exists y; split; [auto|left; auto]|].
      destruct (IH He) as (pts & A & B). exists pts. split; [auto|right; auto]. }
    destruct K as (pts & Hp & Hi). exists pts. split; auto. split; auto.
    assert (ST : single_thread ev). { destruct (Forall_Exists_dec (fun e => ev_thread e = thread_of ev) (fun e => Z.eq_dec _ _) (rev (timed ev))) as [Fa|Fa].
      - rewrite Forall_forall in Fa. intros e e' K K'. apply in_rev in K, K'. rewrite (Fa _ K), (Fa _ K'). reflexivity.
      - exfalso. assert (NS : ~ single_thread ev). { intros ST. apply single_good in ST. apply Exists_exists in Fa. destruct Fa as (e & K & N). rewrite Forall_forall in ST. apply ST in K. apply N, K. }
        pose proof (drains_det _ _ _ Hp _ (C34_threads _ NS)). discriminate. }
    destruct (C34_walk ev ST) as (pts' & D' & _ & M). pose proof (drains_det _ _ _ Hp _ D') as Q. injection Q as <-. auto. }
  destruct (G _ H) as (pts & P1 & P2 & P3). destruct (G _ H') as (pts' & Q1 & Q2 & Q3). exists pts, pts'. split; auto. split; auto.
  pose proof (aggregated_look _ _ A _ (in_map _ _ _ P2)) as L1. pose proof (aggregated_look _ _ A _ (in_map _ _ _ Q2)) as L2.
  assert (OUT : outline pts = outline pts' -> map desc_of (timed evs) = map desc_of (timed evs')).
  { intros E. assert (E' : rev (map desc_of (timed evs)) = rev (map desc_of (timed evs'))). { rewrite <- !map_rev, <- P3, <- Q3, !met_outline, E. reflexivity. }
    rewrite <- (rev_involutive (map desc_of (timed evs))), E', rev_involutive. reflexivity. }
  destruct (Z_le_gt_dec 2 (zlen pts)) as [G1|G1].
  - left. assert (E : outline pts = outline pts') by (apply between_outline; [lia|congruence]). auto.
  - destruct (Z_le_gt_dec 2 (zlen pts')) as [G2|G2]; [|right; lia].
    left. assert (E : outline pts = outline pts') by (symmetry; apply between_outline; [lia|congruence]). auto.
Qed.
Lemma not_ok_panics oc profiles r : aggregate_profiles oc profiles r -> (forall its aggs, opened profiles its -> ~ drains agg_next its (Ok aggs)) -> r = Panic.
Proof. intros H N. inversion H as [E|its E D|its l E D]; subst; auto. exfalso. eapply N; eauto. Qed.
(** Profiles with different events are refused, as soon as one of them has an interval or two events. *)
Theorem C35_refuses : forall oc profiles evs evs' pts r, In evs profiles -> In evs' profiles ->
  points_of evs pts -> 2 <= zlen pts -> map desc_of (timed evs) <> map desc_of (timed evs') ->
  aggregate_profiles oc profiles r -> r = Panic.
Proof.
  intros oc profiles evs evs' pts r H H' P L N A. eapply not_ok_panics; eauto. intros its aggs O D.
  destruct (C35_alike _ _ _ O D _ _ H H') as (p1 & p2 & P1 & P2 & [(_ & E)|(L1 & _)]); [auto|].
  pose proof (drains_det _ _ _ P _ P1) as Q. injection Q as <-. lia.
Qed.
Theorem C35_refuses_threads : forall oc profiles evs r, In evs profiles -> ~ single_thread evs -> aggregate_profiles oc profiles r -> r = Panic.
Proof.
  intros oc profiles evs r H N A. eapply not_ok_panics; eauto. intros its aggs O D.
  destruct (C35_alike _ _ _ O D _ _ H H) as (p1 & p2 & P1 & _). pose proof (drains_det _ _ _ P1 _ (C34_threads _ N)). discriminate.
Qed.
(** Two profiles with one instant each, of different events: nothing to compare, accepted. *)
Theorem C35_single_refuted : exists evs evs', map desc_of (timed evs) <> map desc_of (timed evs') /\
  forall oc, exists r, aggregate_profiles oc [evs; evs'] (Ok r).
Proof.
  set (a := mkEv (str "Query") (str "a") [] (Timestamp (Instant 3)) 1). set (b := mkEv (str "Query") (str "b") [] (Timestamp (Instant 4)) 1).
  exists [a], [b]. split; [discriminate|]. intros oc. eexists. eapply (ap_ok oc [[a]; [b]] _ []); [reflexivity|]. constructor. reflexivity.
Qed.

(** ** The report *)
Lemma dur_hist aggs : map (fun a => (ag_min a, ag_desc a)) aggs = lows (map (fun a => (ag_min a, ag_min a + ag_range a, ag_desc a)) aggs) /\
  map (fun a => (ag_min a + ag_range a, ag_desc a)) aggs = highs (map (fun a => (ag_min a, ag_min a + ag_range a, ag_desc a)) aggs).
Proof. unfold lows, highs. rewrite !map_map. auto. Qed.
Lemma var_hist aggs : map (fun a => (ag_range a, ag_desc a)) aggs = lows (map (fun a => (ag_range a, ag_range a, ag_desc a)) aggs) /\
  map (fun a => (ag_range a, ag_desc a)) aggs = highs (map (fun a => (ag_range a, ag_range a, ag_desc a)) aggs).
Proof. unfold lows, highs. rewrite !map_map. auto. Qed.
Lemma as_i32_small n : 0 <= n < 2 ^ 31 -> as_i32 n = n.
Proof. intros H. unfold as_i32. rewrite Z.mod_small; lia. Qed.
Lemma i32_add_1 oc n : (oc = true -> 0 <= n /\ n + 1 < 2 ^ 31) -> i32_add oc (as_i32 n) 1 = Ok (as_i32 (n + 1)).
Proof.
  intros H. unfold i32_add. destruct oc.
  - specialize (H eq_refl). rewrite !as_i32_small by lia. destruct (Z.ltb_spec (n + 1) (2 ^ 31)); [reflexivity|lia].
  - unfold as_i32. destruct (Z.ltb_spec ((n + 2 ^ 31) mod 2 ^ 32 - 2 ^ 31 + 1) (2 ^ 31)); f_equal; Z.to_euclidean_division_equations; lia.
Qed.
Lemma agg_loop oc aggs : (oc = true -> zlen aggs < 2 ^ 31) -> Forall (fun a => ag_min a + ag_range a <= DURATION_MAX) aggs -> forall du va,
  insert_all (ex_new 10) (map (fun a => (ag_min a, ag_min a + ag_range a, ag_desc a)) aggs) = Ok du ->
  insert_all (ex_new 10) (map (fun a => (ag_range a, ag_range a, ag_desc a)) aggs) = Ok va ->
  foldM (agg_step oc) (0, ex_new 10, ex_new 10) aggs = Ok (as_i32 (zlen aggs), du, va).
Proof.
  unfold insert_all. induction aggs as [|a aggs IH] using rev_ind; intros L F du va HD HV.
  - cbn in *. injection HD as <-. injection HV as <-. reflexivity.
  - rewrite map_app, foldM_app in HD, HV. cbn [map foldM fst snd] in HD, HV.
    destruct (foldM _ _ (map (fun a => (ag_min a, ag_min a + ag_range a, ag_desc a)) aggs)) as [du0| | |] eqn:E1; cbn [bind] in HD; try discriminate.
    destruct (foldM _ _ (map (fun a => (ag_range a, ag_range a, ag_desc a)) aggs)) as [va0| | |] eqn:E2; cbn [bind] in HV; try discriminate.
    rewrite zlen_app in *. change (zlen [a]) with 1 in *. apply Forall_app in F. destruct F as (F1 & F2). inversion F2; subst.
    rewrite foldM_app, (IH ltac:(intros Q; specialize (L Q); lia) F1 du0 va0 eq_refl eq_refl). cbn [bind foldM]. unfold agg_step, ag_max, dadd, ex_add.
    rewrite i32_add_1 by (intros Q; specialize (L Q); pose proof (zlen_nonneg aggs); lia). cbn [bind]. destruct (Z.leb_spec (ag_min a + ag_range a) DURATION_MAX); [|lia]. cbn [bind].
    destruct (ex_add_range du0 (ag_min a) (ag_min a + ag_range a) (ag_desc a)) as [du1| | |]; cbn [bind] in HD |- *; try discriminate. injection HD as ->.
    destruct (ex_add_range va0 (ag_range a) (ag_range a) (ag_desc a)) as [va1| | |]; cbn [bind] in HV |- *; try discriminate. injection HV as ->. reflexivity.
Qed.
Lemma occurrences_one {S} (hist : list (Z * S)) v s : occurrences hist v = SOne s -> In s (map snd hist).
Proof.
  unfold occurrences. destruct (filter _ hist) as [|x [|y l]] eqn:E; try discriminate. intros [= <-]. apply in_map. assert (In x [x]) as K by (left; auto). rewrite <- E in K. apply filter_In in K. apply K.
Qed.
Lemma describe_table n t : (forall v x, In (v, x) t -> exists y, describe n x = Ok y) -> exists p, describe_all n t = Ok p /\ described_table n t p.
Proof.
  unfold describe_all, described_table. induction t as [|(v, x) t IH]; intros H; cbn [collectM]; [exists []; split; [reflexivity|constructor]|].
  destruct (H v x (or_introl eq_refl)) as (y & E). destruct IH as (p & E' & F). { intros v' x' Q. eapply H. right; eauto. }
  cbn [snd fst]. rewrite E. cbn [bind]. rewrite E'. cbn [bind]. eexists. split; [reflexivity|]. constructor; cbn; auto.
Qed.
(** The report of aggregated intervals, when they can be described. *)
Lemma report_of oc aggs : (oc = true -> zlen aggs < 2 ^ 31) -> Forall (fun a => ag_min a + ag_range a <= DURATION_MAX) aggs ->
  (forall a n, In a aggs -> exists y, describe n (SOne (ag_desc a)) = Ok y) ->
  exists r, (do t <- foldM (agg_step oc) (0, ex_new 10, ex_new 10) aggs; print_report t) = Ok r /\ reports_count (as_i32 (zlen aggs)) aggs r.
Proof.
  intros L F HD.
  destruct (C33_exact _ 10 (map (fun a => (ag_min a, ag_min a + ag_range a, ag_desc a)) aggs) ltac:(lia)) as (du & E1 & D1 & D2).
  destruct (C33_exact _ 10 (map (fun a => (ag_range a, ag_range a, ag_desc a)) aggs) ltac:(lia)) as (va & E2 & V1 & V2).
  rewrite (agg_loop oc aggs L F du va E1 E2). cbn [bind print_report].
  destruct (dur_hist aggs) as (A1 & A2). destruct (var_hist aggs) as (B1 & B2). rewrite <- A1 in D1. rewrite <- A2 in D2. rewrite <- B1 in V1. rewrite <- B2 in V2.
  assert (G : forall hist, map snd hist = map ag_desc aggs -> forall v x, x = occurrences hist v -> exists y, describe (as_i32 (zlen aggs)) x = Ok y).
  { intros hist HS v x ->. destruct (occurrences hist v) as [|s|k] eqn:E; try (eexists; reflexivity). apply occurrences_one in E. rewrite HS in E. apply in_map_iff in E. destruct E as (a & <- & Ha). auto. }
  assert (GM : forall f : agg -> Z, map snd (map (fun a => (f a, ag_desc a)) aggs) = map ag_desc aggs) by (intros f; rewrite map_map; reflexivity).
  destruct (describe_table (as_i32 (zlen aggs)) (ex_smallest du)) as (p1 & Q1 & R1). { intros v x Hx. apply D1 in Hx. destruct Hx as (_ & _ & Hx). exact (G _ (GM ag_min) v x Hx). }
  destruct (describe_table (as_i32 (zlen aggs)) (ex_largest du)) as (p2 & Q2 & R2). { intros v x Hx. apply D2 in Hx. destruct Hx as (_ & _ & Hx). exact (G _ (GM (fun a => ag_min a + ag_range a)) v x Hx). }
  destruct (describe_table (as_i32 (zlen aggs)) (ex_smallest va)) as (p3 & Q3 & R3). { intros v x Hx. apply V1 in Hx. destruct Hx as (_ & _ & Hx). exact (G _ (GM ag_range) v x Hx). }
  destruct (describe_table (as_i32 (zlen aggs)) (ex_largest va)) as (p4 & Q4 & R4). { intros v x Hx. apply V2 in Hx. destruct Hx as (_ & _ & Hx). exact (G _ (GM ag_range) v x Hx). }
  rewrite Q1, Q2, Q3, Q4. cbn [bind]. eexists. split; [reflexivity|]. unfold reports_count. cbn. split; [eauto|]. split; [eauto|]. split; eauto.
Qed.
Lemma walk_length par pts : walk par pts -> zlen pts <= 2 * zlen (met pts).
Proof.
  induction 1 as [par|par e l H W IH|par e inner l H W1 IH1 W2 IH2]; [unfold zlen; cbn [met List.length]; lia| |].
  - cbn [met]. rewrite !zlen_cons. lia.
  - cbn [met]. rewrite met_app. cbn [met]. rewrite !zlen_cons, !zlen_app, !zlen_cons. lia.
Qed.
(** Column-wise aggregation exists whenever all intervals look alike and have durations. *)
Lemma aggregated_exists look : forall IS, IS <> [] -> (forall I, In I IS -> map describe_interval I = look) -> (forall I i, In I IS -> In i I -> exists d, si_duration i = Ok d) ->
  exists aggs, aggregated IS aggs.
Proof.
  induction look as [|d look IH]; intros IS NE HL HD.
  - exists []. constructor. apply Forall_forall. intros I HI. specialize (HL _ HI). destruct I; [auto|discriminate].
  - assert (K : exists columns, IS = map (fun c => fst c :: snd c) columns).
    { clear - HL. induction IS as [|I IS IHS]; [exists []; reflexivity|]. destruct IHS as (cs & ->). { intros; apply HL; right; auto. }
      specialize (HL I (or_introl eq_refl)). destruct I as [|i I]; [discriminate|]. exists ((i, I) :: cs). reflexivity. }
    destruct K as (cs & ->).
    assert (HL' : forall c, In c cs -> describe_interval (fst c) = d /\ map describe_interval (snd c) = look).
    { intros c Hc. specialize (HL _ (in_map (fun c => fst c :: snd c) _ _ Hc)). cbn [map] in HL. injection HL as E1 E2. auto. }
    destruct (IH (map snd cs)) as (aggs & A).
    + destruct cs; [cbn in NE; congruence|discriminate].
    + intros I HI. apply in_map_iff in HI. destruct HI as (c & <- & Hc). apply HL', Hc.
    + intros I i HI Hi. apply in_map_iff in HI. destruct HI as (c & <- & Hc). eapply HD; [apply (in_map (fun c => fst c :: snd c)), Hc|right; exact Hi].
    + assert (KD : exists ds, Forall2 (fun i d => si_duration i = Ok d) (map fst cs) ds).
      { assert (HD' : forall i, In i (map fst cs) -> exists d, si_duration i = Ok d).
        { intros i Hi. apply in_map_iff in Hi. destruct Hi as (c & <- & Hc). eapply HD; [apply (in_map (fun c => fst c :: snd c)), Hc|left; reflexivity]. }
        clear - HD'. induction (map fst cs) as [|i l IHl]; [exists []; constructor|]. destruct (HD' i (or_introl eq_refl)) as (x & Hx). destruct IHl as (xs & Hxs). { intros; apply HD'; right; auto. } exists (x :: xs). constructor; auto. }
      destruct KD as (ds & FD). destruct ds as [|x ds]. { inversion FD as [Q|]. destruct cs; [cbn in NE; congruence|discriminate]. }
      destruct (fold_min ds x _ eq_refl) as (M1 & M2 & M3). destruct (fold_max ds x _ eq_refl) as (N1 & N2 & N3).
      set (lo := fold_left Z.min ds x) in *. set (hi := fold_left Z.max ds x) in *.
      exists (mkAgg d lo (hi - lo) :: aggs). constructor; auto. split.
      * intros i Hi. apply in_map_iff in Hi. destruct Hi as (c & <- & Hc). apply HL', Hc.
      * exists (x :: ds). split; auto. cbn [ag_min ag_range]. replace (lo + (hi - lo)) with hi by lia.
        split; [cbn; intuition|]. split; [cbn; intuition|]. intros e [<-|He]; [lia|]. specialize (M3 _ He). specialize (N3 _ He). lia.
Qed.
Lemma aggregated_len IS aggs : aggregated IS aggs -> forall I, In I IS -> length I = length aggs.
Proof. intros A I H. pose proof (f_equal (@length _) (aggregated_look _ _ A _ H)) as E. rewrite !map_length in E. auto. Qed.
Lemma aggregated_bound IS aggs B : IS <> [] -> aggregated IS aggs -> (forall I i d, In I IS -> In i I -> si_duration i = Ok d -> d <= B) -> Forall (fun a => ag_min a + ag_range a <= B) aggs.
Proof.
  intros NE A. revert NE. induction A as [IS H|columns a aggs (H1 & ds & F & _ & M & _) H2 IH]; intros NE HB; constructor.
  - assert (K : exists i, In i (map fst columns) /\ si_duration i = Ok (ag_min a + ag_range a)).
    { clear - F M. induction F as [|i d l ds Hi F IHF]; [destruct M|]. destruct M as [<-|M]; [exists i; split; [left; auto|auto]|]. destruct (IHF M) as (j & A & B). exists j. split; [right; auto|auto]. }
    destruct K as (i & Hi & Ei). apply in_map_iff in Hi. destruct Hi as (c & <- & Hc). eapply HB; [apply (in_map (fun c => fst c :: snd c)), Hc|left; reflexivity|exact Ei].
  - apply IH.
    + destruct columns; [cbn in NE; congruence|discriminate].
    + intros I i d HI Hi. apply in_map_iff in HI. destruct HI as (c & <- & Hc). eapply HB; [apply (in_map (fun c => fst c :: snd c)), Hc|right; exact Hi].
Qed.
Lemma between_length pts : zlen (between pts) <= zlen pts.
Proof. induction pts as [|p [|q pts] IH]; try (unfold zlen; cbn [between List.length]; lia). change (between (p :: q :: pts)) with (mkSI q p :: between (q :: pts)). rewrite !zlen_cons in *. lia. Qed.
Definition times_ok (evs : list event) : Prop := forall e, In e (timed evs) -> 0 <= fst (span e) <= snd (span e) /\ snd (span e) <= DURATION_MAX.
Lemma walk_events par pts : walk par pts -> forall p, In p pts -> In (w_this (sp_event p)) (met pts).
Proof.
  induction 1 as [par|par e l H W IH|par e inner l H W1 IH1 W2 IH2]; intros p Hp; [destruct Hp| |].
  - destruct Hp as [<-|Hp]; [left; reflexivity|right; auto].
  - cbn [met]. rewrite met_app. cbn [met]. destruct Hp as [<-|Hp]; [left; reflexivity|]. apply in_app_iff in Hp.
    destruct Hp as [Hp|[<-|Hp]]; [|left; reflexivity|]; right; apply in_app_iff; auto.
Qed.
Lemma time_bounds evs pts : times_ok evs -> single_thread evs -> points_of evs pts -> forall p, In p pts -> 0 <= time_of p <= DURATION_MAX.
Proof.
  intros T ST D p Hp. destruct (C34_walk evs ST) as (pts' & D' & W & M). pose proof (drains_det _ _ _ D _ D') as E. injection E as <-.
  pose proof (walk_events _ _ W _ Hp) as He. rewrite M in He. apply in_rev, T in He. unfold time_of. destruct p; cbn [sp_event] in He; lia.
Qed.
Lemma report_gen : forall oc profiles PS, profiles <> [] -> Forall single_thread profiles -> Forall chronological profiles -> Forall times_ok profiles ->
  (oc = true -> Forall (fun evs => zlen (timed evs) < 2 ^ 30) profiles) ->
  Forall2 points_of profiles PS -> (forall pts pts', In pts PS -> In pts' PS -> outline pts = outline pts') ->
  exists aggs r, aggregate_profiles oc profiles (Ok r) /\ aggregated (map between PS) aggs /\ reports_count (as_i32 (zlen aggs)) aggs r.
Proof.
  intros oc profiles PS NE ST HC HT HL F HO. rewrite Forall_forall in ST, HC, HT.
  assert (G : forall pts, In pts PS -> exists evs, In evs profiles /\ points_of evs pts).
  { clear - F. induction F as [|x y l PS Hx F IH]; intros pts Hp; [destruct Hp|]. destruct Hp as [<-|Hp]; [exists x; split; [left; auto|auto]|]. destruct (IH _ Hp) as (evs & A & B). exists evs. split; [right; auto|auto]. }
  assert (NP : PS <> []) by (intros ->; inversion F; congruence).
  destruct PS as [|p0 PS']; [congruence|]. set (PS := p0 :: PS') in *.
  destruct (aggregated_exists (map describe_interval (between p0)) (map between PS)) as (aggs & A).
  - discriminate.
  - intros I HI. apply in_map_iff in HI. destruct HI as (pts & <- & Hp).
    assert (E : outline pts = outline p0) by (apply HO; auto; left; reflexivity). clear - E. unfold outline in E. revert p0 E.
    induction pts as [|p [|q pts] IH]; intros [|p' [|q' pts']] E; try discriminate; auto. injection E as E1 E2 E3.
    cbn [between map]. f_equal; [unfold describe_interval, si_map; cbn [si_start si_end]; rewrite E1, E2; reflexivity|]. specialize (IH (q' :: pts')). cbn [between map] in IH. apply IH. f_equal; auto.
  - intros I i HI Hi. apply in_map_iff in HI. destruct HI as (pts & <- & Hp). destruct (G _ Hp) as (evs & He & Hpt).
    destruct (proj2 (C34_times evs pts (HC _ He) (ST _ He) Hpt) i Hi) as (s & e & _ & _ & _ & E). eauto.
  - destruct (proj2 (C35_events profiles aggs NE) (ex_intro _ PS (conj F A))) as (its & O & D).
    assert (P0 : In p0 PS) by (left; reflexivity). destruct (G _ P0) as (ev0 & He0 & Hp0).
    destruct (report_of oc aggs) as (r & E & R).
    + intros Eoc. specialize (HL Eoc). rewrite Forall_forall in HL. assert (zlen aggs <= zlen p0). { rewrite <- (between_length p0). unfold zlen. rewrite <- (aggregated_len _ _ A (between p0)); [lia|apply in_map, P0]. }
      destruct (C34_walk ev0 (ST _ He0)) as (p0' & D' & W & M). pose proof (drains_det _ _ _ Hp0 _ D') as Q. injection Q as <-.
      pose proof (walk_length _ _ W) as LW. rewrite M in LW. unfold zlen in LW at 2. rewrite rev_length in LW. fold (zlen (timed ev0)) in LW. specialize (HL _ He0). cbv beta in HL. lia.
    + eapply aggregated_bound; eauto; [discriminate|]. intros I i d HI Hi Hd. apply in_map_iff in HI. destruct HI as (pts & <- & Hp). destruct (G _ Hp) as (evs & He & Hpt).
      destruct (C34_walk evs (ST _ He)) as (pts' & D' & W & M). pose proof (drains_det _ _ _ Hpt _ D') as Q. injection Q as <-.
      destruct (between_sorted _ _ (walk_sorted _ W) i Hi) as (_ & I1 & I2). pose proof (walk_matches _ _ W) as HM. rewrite Forall_forall in HM.
      unfold si_duration in Hd. rewrite !matches_time in Hd by auto. cbn [bind] in Hd. destruct (_ <=? _); [|discriminate]. injection Hd as <-.
      pose proof (time_bounds _ _ (HT _ He) (ST _ He) Hpt _ I1). pose proof (time_bounds _ _ (HT _ He) (ST _ He) Hpt _ I2). lia.
    + intros a n Ha. pose proof (aggregated_look _ _ A (between p0) (in_map _ _ _ P0)) as E. apply (in_map ag_desc) in Ha. rewrite <- E in Ha. apply in_map_iff in Ha. destruct Ha as (i & <- & Hi).
      destruct (C34_describe _ _ _ n Hp0 Hi) as (text & T). eauto.
    + exists aggs, r. split; auto. rewrite <- E. eapply ap_ok; eauto.
Qed.
Lemma aggs_small profiles PS aggs : profiles <> [] -> Forall single_thread profiles -> Forall (fun evs => zlen (timed evs) < 2 ^ 30) profiles ->
  Forall2 points_of profiles PS -> aggregated (map between PS) aggs -> zlen aggs < 2 ^ 31.
Proof.
  intros NE ST HL F A. destruct F as [|ev0 p0 profiles PS Hp0 F]; [congruence|]. inversion ST; subst. inversion HL; subst.
  assert (zlen aggs <= zlen p0). { rewrite <- (between_length p0). unfold zlen. rewrite <- (aggregated_len _ _ A (between p0)); [lia|left; reflexivity]. }
  destruct (C34_walk ev0 ltac:(assumption)) as (p0' & D' & W & M). pose proof (drains_det _ _ _ Hp0 _ D') as Q. injection Q as <-.
  pose proof (walk_length _ _ W) as LW. rewrite M in LW. unfold zlen in LW at 2. rewrite rev_length in LW. fold (zlen (timed ev0)) in LW. lia.
Qed.
(** The whole tool: single-threaded recordings in time order, with representable times, fewer than
    2^30 events each, that show the same events at the same points, are aggregated; the four tables
    are those of the aggregated intervals. *)
Theorem C35_report : forall oc profiles PS, profiles <> [] -> Forall single_thread profiles -> Forall chronological profiles -> Forall times_ok profiles ->
  Forall (fun evs => zlen (timed evs) < 2 ^ 30) profiles ->
  Forall2 points_of profiles PS -> (forall pts pts', In pts PS -> In pts' PS -> outline pts = outline pts') ->
  exists aggs r, aggregate_profiles oc profiles (Ok r) /\ aggregated (map between PS) aggs /\ reports aggs r.
Proof.
  intros oc profiles PS NE ST HC HT HL F HO. destruct (report_gen oc profiles PS NE ST HC HT (fun _ => HL) F HO) as (aggs & r & H1 & H2 & H3).
  exists aggs, r. split; [exact H1|]. split; [exact H2|]. unfold reports. rewrite <- (as_i32_small (zlen aggs)) at 1; [exact H3|].
  pose proof (zlen_nonneg aggs). pose proof (aggs_small _ _ _ NE ST HL F H2). lia.
Qed.
(** Without overflow checks (a release build) there is no limit on the number of events, and only
    the number of intervals named in the report wraps around. *)
Theorem C35_count_wraps : forall profiles PS, profiles <> [] -> Forall single_thread profiles -> Forall chronological profiles -> Forall times_ok profiles ->
  Forall2 points_of profiles PS -> (forall pts pts', In pts PS -> In pts' PS -> outline pts = outline pts') ->
  exists aggs r, aggregate_profiles false profiles (Ok r) /\ aggregated (map between PS) aggs /\ reports_count (as_i32 (zlen aggs)) aggs r.
Proof. intros profiles PS NE ST HC HT F HO. apply (report_gen false profiles PS); auto. discriminate. Qed.
(** The number of intervals is counted in an [i32]: with overflow checks no more than 2^31 sample
    points are survived. *)
Lemma count_bound aggs : forall n du va t, foldM (agg_step true) (n, du, va) aggs = Ok t -> aggs <> [] -> n + zlen aggs < 2 ^ 31.
Proof.
  induction aggs as [|a aggs IH]; intros n du va t H NE; [congruence|]. cbn [foldM] in H. unfold agg_step in H at 1.
  unfold i32_add in H. destruct (Z.ltb_spec (n + 1) (2 ^ 31)); cbn [bind] in H; [|discriminate].
  destruct (ag_max a); cbn [bind] in H; try discriminate. destruct (ex_add_range du _ _ _); cbn [bind] in H; try discriminate. destruct (ex_add va _ _) as [va'| | |]; cbn [bind] in H; try discriminate.
  rewrite zlen_cons. destruct aggs as [|b aggs]; [unfold zlen; cbn [List.length]; lia|]. apply IH in H; [lia|discriminate].
Qed.
Theorem C35_count_overflow : forall profiles evs pts r, In evs profiles -> points_of evs pts -> 2 ^ 31 < zlen pts -> aggregate_profiles true profiles r -> r = Panic.
Proof.
  intros profiles evs pts r H P L A. inversion A as [E|its E D|its l E D]; subst; auto.
  assert (NE : profiles <> []) by (intros ->; destruct H).
  destruct (proj1 (C35_events _ l NE) (ex_intro _ its (conj E D))) as (PS & F & AG).
  assert (K : In pts PS). { clear - F H P. induction F as [|x y m PS Hx F IH]; [destruct H|]. destruct H as [<-|H]; [|right; auto]. left. pose proof (drains_det _ _ _ P _ Hx). congruence. }
  assert (LB : zlen (between pts) + 1 = zlen pts). { clear - L. assert (NZ : zlen pts <> 0) by lia. clear L. induction pts as [|p [|q pts] IH]; [destruct NZ; reflexivity|reflexivity|]. change (between (p :: q :: pts)) with (mkSI q p :: between (q :: pts)). rewrite !zlen_cons in *. rewrite <- IH; [lia|]. pose proof (zlen_nonneg pts). lia. }
  assert (LA : zlen l = zlen (between pts)). { unfold zlen. rewrite <- (aggregated_len _ _ AG (between pts)); auto. apply in_map, K. }
  destruct (foldM (agg_step true) (0, ex_new 10, ex_new 10) l) as [t| | |] eqn:EF; cbn [bind]; auto.
  - apply count_bound in EF; [lia|]. intros ->. unfold zlen in LA at 1. cbn [List.length] in LA. lia.
  - destruct (foldM_res (agg_step true) (agg_step_res true) l (0, ex_new 10, ex_new 10)) as [(t & Q)|Q]; congruence.
  - destruct (foldM_res (agg_step true) (agg_step_res true) l (0, ex_new 10, ex_new 10)) as [(t & Q)|Q]; congruence.
Qed.
(** Such profiles exist: that many instants. *)
Theorem C35_count_example : forall n, 0 <= n -> exists evs pts, single_thread evs /\ points_of evs pts /\ n <= zlen pts.
Proof.
  intros n Hn. set (e := mkEv (str "Query") (str "a") [] (Timestamp (Instant 3)) 1). exists (repeat e (Z.to_nat n)).
  assert (T : timed (repeat e (Z.to_nat n)) = repeat e (Z.to_nat n)). { induction (Z.to_nat n) as [|k IH]; auto. cbn [repeat timed filter]. unfold timed in IH. cbn. f_equal. exact IH. }
  assert (ST : single_thread (repeat e (Z.to_nat n))). { intros x y Hx Hy. rewrite T in Hx, Hy. apply repeat_spec in Hx, Hy. subst. reflexivity. }
  destruct (C34_walk _ ST) as (pts & D & W & M). exists pts. split; auto. split; auto.
  assert (K : zlen (met pts) <= zlen pts). { clear. induction pts as [|[w|w|w] pts IH]; cbn [met]; rewrite ?zlen_cons; unfold zlen in *; cbn [List.length]; lia. }
  rewrite M, T in K. unfold zlen in K at 1. rewrite rev_length, repeat_length in K. lia.
Qed.
(** Two runs of the same program: an outer activity with a query inside. *)
Example C35_example : exists r,
  aggregate_profiles true
    [[mkEv (str "Query") (str "q") [] (Timestamp (Interval 10 14)) 1; mkEv (str "GenericActivity") (str "a") [] (Timestamp (Interval 0 30)) 1];
     [mkEv (str "Query") (str "q") [] (Timestamp (Interval 5 12)) 7; mkEv (str "GenericActivity") (str "a") [] (Timestamp (Interval 0 22)) 7]] (Ok r) /\
  map fst (r_small_dur r) = [4; 5; 10] /\ map fst (r_large_dur r) = [7; 10; 16] /\ map fst (r_small_var r) = [3; 5; 6].
Proof.
  eexists. split.
  - eapply (eq_rect (do t <- foldM (agg_step true) _ _; print_report t)); [eapply ap_ok; [reflexivity|]; repeat (eapply dr_step; [reflexivity|]); constructor; reflexivity|]. reflexivity.
  - repeat split.
Qed.
Print Assumptions C35_report.
