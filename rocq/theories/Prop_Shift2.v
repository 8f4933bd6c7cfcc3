(** C95 for summarize aggregate: every profile may have started at its own time. *)
From Coq Require Import String ZArith List Lia Bool.
From Verif Require Import M_Base F_Base M_Raw M_V8 M_Map M_Iter M_Analysis M_Diff M_Aggregate S_Shift Prop_Shift.
Import ListNotations.
Open Scope Z_scope.
Local Open Scope list_scope.

(** Results of the same kind, with values related by [P]. *)
Definition rel {A B} (P : A -> B -> Prop) (x : res A) (y : res B) : Prop :=
  match x, y with Ok a, Ok b => P a b | Err, Err => True | Panic, Panic => True | Diverge, Diverge => True | _, _ => False end.
Definition orel {A B} (P : A -> B -> Prop) (x : option A) (y : option B) : Prop :=
  match x, y with Some a, Some b => P a b | None, None => True | _, _ => False end.
Lemma rel_bind {A B C D} (P : A -> B -> Prop) (Q : C -> D -> Prop) x y f g : rel P x y -> (forall a b, P a b -> rel Q (f a) (g b)) -> rel Q (bind x f) (bind y g).
Proof. intros H HF. destruct x, y; cbn [rel bind] in *; try contradiction; auto. Qed.
Lemma rel_eq {A} (x y : res A) : rel eq x y -> x = y.
Proof. destruct x, y; cbn [rel]; intros H; try contradiction; subst; reflexivity. Qed.
Lemma rel_refl {A} (x : res A) : rel eq x x.
Proof. destruct x; cbn [rel]; auto. Qed.
Lemma rel_flip {A B} (P : A -> B -> Prop) x y : rel P x y -> rel (fun b a => P a b) y x.
Proof. destruct x, y; cbn [rel]; auto. Qed.
Lemma rel_weaken {A B} (P Q : A -> B -> Prop) x y : (forall a b, P a b -> Q a b) -> rel P x y -> rel Q x y.
Proof. intros H. destruct x, y; cbn [rel]; auto. Qed.
Lemma orel_flip {A B} (P : A -> B -> Prop) x y : orel P x y -> orel (fun b a => P a b) y x.
Proof. destruct x, y; cbn [orel]; auto. Qed.
(** An item and the state behind it. *)
Definition stepr {A S S'} (R : S -> S' -> Prop) : option (A * S) -> option (A * S') -> Prop := orel (fun x y => fst x = fst y /\ R (snd x) (snd y)).
Lemma drains_fwd {A S S'} (next : S -> res (option (A * S))) (next' : S' -> res (option (A * S'))) (R : S' -> S -> Prop) :
  (forall s' s, R s' s -> rel (stepr R) (next' s') (next s)) -> forall s r, drains next s r -> forall s', R s' s -> drains next' s' r.
Proof.
  intros H s r D. induction D as [s E|s a s1 l E D IH|s a s1 E D IH|s E]; intros s' HR; pose proof (H s' s HR) as HS; rewrite E in HS; destruct (next' s') as [[(a', s1')|]| | |] eqn:E'; cbn in HS; try contradiction.
  - apply dr_done. exact E'.
  - destruct HS as (HA & HR1). subst a'. eapply dr_step; [exact E'|apply IH; exact HR1].
  - destruct HS as (HA & HR1). subst a'. eapply dr_step_panic; [exact E'|apply IH; exact HR1].
  - apply dr_panic. exact E'.
Qed.
Lemma collect_rel {A B C D} (P : A -> B -> Prop) (Q : C -> D -> Prop) f g : (forall a b, P a b -> rel Q (f a) (g b)) -> forall l m, Forall2 P l m -> rel (Forall2 Q) (collectM f l) (collectM g m).
Proof.
  intros H l m F. induction F as [|a b l m HP F IH]; cbn [collectM]; [constructor|]. eapply rel_bind; [apply H, HP|]. intros c d HQ. eapply rel_bind; [exact IH|].
  intros cs ds HF. cbn [rel]. constructor; assumption.
Qed.

Section One.
Variable k : Z.
Notation L := (later k).
Definition wp_later (w : with_parent event) : with_parent event := mkW (L (w_this w)) (option_map L (w_parent w)).
Definition pt_later (p : spoint (with_parent event)) : spoint (with_parent event) := sp_map wp_later p.
Definition sp_later (s : spoints) : spoints := mkSP (expected_thread s) (map L (rev_events s)) (map L (sp_stack s)).
Definition it_later (i : sintervals) : sintervals := (option_map pt_later (fst i), sp_later (snd i)).
Definition iv_later (i : sinterval (with_parent event)) : sinterval (with_parent event) := mkSI (pt_later (si_start i)) (pt_later (si_end i)).
Lemma integer_later e : p_is_integer (ev_payload (L e)) = p_is_integer (ev_payload e).
Proof. unfold later. cbn [ev_payload]. destruct (ev_payload e) as [[s0 e0|t0]|v]; reflexivity. Qed.
Lemma new_later evs : sp_new (map L evs) = sp_later (sp_new evs).
Proof.
  unfold sp_new, sp_later. rewrite <- map_rev. cbn [expected_thread rev_events sp_stack].
  replace (filter (fun e => negb (p_is_integer (ev_payload e))) (map L (rev evs))) with (map L (filter (fun e => negb (p_is_integer (ev_payload e))) (rev evs))).
  - cbn [map]. destruct (filter _ (rev evs)); reflexivity.
  - induction (rev evs) as [|e l IH]; cbn [filter map]; [reflexivity|]. rewrite integer_later. destruct (negb _); cbn [map]; rewrite IH; reflexivity.
Qed.
Lemma sp_next_later s : sp_next (sp_later s) = rmap (option_map (fun x => (pt_later (fst x), sp_later (snd x)))) (sp_next s).
Proof.
  unfold sp_next, sp_later. cbn [rev_events sp_stack expected_thread]. destruct (rev_events s) as [|e r]; cbn [map].
  - destruct (sp_stack s) as [|top stack]; cbn [map]; [reflexivity|]. cbn [rmap option_map fst snd]. unfold pt_later, wp_later. cbn [sp_map w_this w_parent expected_thread rev_events sp_stack map]. destruct stack; reflexivity.
  - rewrite integer_later. change (ev_thread (L e)) with (ev_thread e). destruct (p_is_integer (ev_payload e)) eqn:I; [reflexivity|]. destruct (negb (ev_thread e =? expected_thread s)); [reflexivity|].
    assert (P : forall X Y, (X = rmap (option_map (fun x => (pt_later (fst x), sp_later (snd x)))) Y) -> X = rmap (option_map (fun x => (pt_later (fst x), sp_later (snd x)))) Y) by auto.
    set (enter := match ev_payload e with Timestamp (Interval _ _) => let stack := e :: sp_stack s in Ok (Some (SEnd (mkW e (nth_error stack 1)), mkSP (expected_thread s) r stack))
      | Timestamp (Instant _) => Ok (Some (SInstant (mkW e (hd_error (sp_stack s))), mkSP (expected_thread s) r (sp_stack s))) | Integer _ => Panic end).
    set (enter' := match ev_payload (L e) with Timestamp (Interval _ _) => let stack := L e :: map L (sp_stack s) in Ok (Some (SEnd (mkW (L e) (nth_error stack 1)), mkSP (expected_thread s) (map L r) stack))
      | Timestamp (Instant _) => Ok (Some (SInstant (mkW (L e) (hd_error (map L (sp_stack s)))), mkSP (expected_thread s) (map L r) (map L (sp_stack s)))) | Integer _ => Panic end).
    assert (HE : enter' = rmap (option_map (fun x => (pt_later (fst x), sp_later (snd x)))) enter).
    { unfold enter', enter. clear P enter enter'. destruct (ev_payload e) as [[s0 e0|t0]|v] eqn:E.
      - assert (E' : ev_payload (L e) = Timestamp (Interval (s0 + k) (e0 + k))) by (unfold later; cbn [ev_payload]; rewrite E; reflexivity). rewrite E'.
        cbn [rmap option_map fst snd]. unfold pt_later, wp_later, sp_later. cbn [sp_map w_this w_parent expected_thread rev_events sp_stack map nth_error]. destruct (sp_stack s); reflexivity.
      - assert (E' : ev_payload (L e) = Timestamp (Instant (t0 + k))) by (unfold later; cbn [ev_payload]; rewrite E; reflexivity). rewrite E'.
        cbn [rmap option_map fst snd]. unfold pt_later, wp_later, sp_later. cbn [sp_map w_this w_parent expected_thread rev_events sp_stack map]. destruct (sp_stack s); reflexivity.
      - assert (E' : ev_payload (L e) = Integer v) by (unfold later; cbn [ev_payload]; rewrite E; reflexivity). rewrite E'. reflexivity. }
    cbv zeta. destruct (sp_stack s) as [|top stack] eqn:ES; cbn [map]; [exact HE|]. rewrite later_contains. destruct (negb (contains (ev_payload top) (ev_payload e))); [|exact HE].
    cbn [rmap option_map fst snd]. unfold pt_later, wp_later, sp_later. cbn [sp_map w_this w_parent expected_thread rev_events sp_stack map]. destruct stack; reflexivity.
Qed.
Lemma si_new_later s : si_new (sp_later s) = rmap it_later (si_new s).
Proof. unfold si_new. rewrite sp_next_later, rmap_bind, bind_rmap. apply bind_same. intros [(p, s')|]; reflexivity. Qed.
Lemma si_next_later i : si_next (it_later i) = rmap (option_map (fun x => (iv_later (fst x), it_later (snd x)))) (si_next i).
Proof. unfold si_next. destruct i as (o, s). cbn [it_later fst snd]. rewrite sp_next_later, rmap_bind, bind_rmap. apply bind_same. intros [(p, s')|]; [|reflexivity]. destruct o; reflexivity. Qed.
Lemma ts_later p : sp_timestamp (pt_later p) = rmap (fun t => t + k) (sp_timestamp p).
Proof.
  unfold sp_timestamp, pt_later. destruct p as [w|w|w]; cbn [sp_map sp_event wp_later w_this]; unfold later; cbn [ev_payload]; destruct (ev_payload (w_this w)) as [[s0 e0|t0]|v]; reflexivity.
Qed.
Lemma si_duration_later i : si_duration (iv_later i) = si_duration i.
Proof.
  unfold si_duration, iv_later. cbn [si_start si_end]. rewrite !ts_later, bind_rmap. apply bind_same. intros e. rewrite bind_rmap. apply bind_same. intros s.
  destruct (Z.leb_spec (s + k) (e + k)), (Z.leb_spec s e); try lia; [f_equal; lia|reflexivity].
Qed.
Lemma describe_later i : describe_interval (iv_later i) = describe_interval i.
Proof.
  assert (W : forall w, w_map desc_of (wp_later w) = w_map desc_of w) by (intros w; unfold w_map, wp_later; cbn [w_this w_parent]; destruct (w_parent w); reflexivity).
  unfold describe_interval, si_map, iv_later. cbn [si_start si_end]. destruct i as [p q]. cbn [si_start si_end]. unfold pt_later. destruct p, q; cbn [sp_map]; rewrite !W; reflexivity.
Qed.
End One.

(** The same interval, seen by the tool. *)
Definition same_iv (i' i : sinterval (with_parent event)) : Prop := describe_interval i' = describe_interval i /\ si_duration i' = si_duration i.
(** Iterators related by [RI] yield the same. *)
Section Iterators.
Variable RI : sintervals -> sintervals -> Prop.
Hypothesis HN : forall i' i, RI i' i -> rel (orel (fun x y => same_iv (fst x) (fst y) /\ RI (snd x) (snd y))) (si_next i') (si_next i).
Lemma other_same d i' i : RI i' i -> rel (fun x y => fst x = fst y /\ RI (snd x) (snd y)) (agg_other d i') (agg_other d i).
Proof.
  intros H. unfold agg_other. eapply rel_bind; [exact (HN i' i H)|]. intros [(v', i1')|] [(v, i1)|]; cbn [orel]; try contradiction; [|intros _; exact I].
  cbn [fst snd]. intros ((E1 & E2) & HR). rewrite E2. eapply rel_bind; [apply rel_refl|]. intros a b ->. rewrite E1. destruct (descriptions_eq_dec d (describe_interval v)); cbn [rel]; auto.
Qed.
Lemma others_fst os' os : Forall2 (fun x y : Z * sintervals => fst x = fst y /\ RI (snd x) (snd y)) os' os -> map fst os' = map fst os /\ Forall2 RI (map snd os') (map snd os).
Proof. intros F. induction F as [|x y l m (A & B) F (IH1 & IH2)]; cbn [map]; [split; constructor|]. rewrite A, IH1. split; [reflexivity|constructor; assumption]. Qed.
Lemma agg_next_same its' its : Forall2 RI its' its -> rel (stepr (Forall2 RI)) (agg_next its') (agg_next its).
Proof.
  intros F. destruct F as [|i' i l' l HI F]; [exact I|]. unfold agg_next. eapply rel_bind; [exact (HN i' i HI)|].
  intros [(v', i1')|] [(v, i1)|]; cbn [orel]; try contradiction.
  - cbn [fst snd]. intros ((E1 & E2) & HR). rewrite E2. eapply rel_bind; [apply rel_refl|]. intros a b ->. rewrite E1. cbv zeta.
    eapply rel_bind; [apply (collect_rel RI _ _ _ (other_same (describe_interval v)) l' l F)|]. intros os' os HO. apply others_fst in HO. destruct HO as (O1 & O2). rewrite O1.
    eapply rel_bind; [apply rel_refl|]. intros x y ->. cbn [rel stepr orel fst snd]. split; [reflexivity|constructor; assumption].
  - intros _. eapply (rel_bind (Forall2 eq)); [|intros; exact I]. apply (collect_rel RI); [|constructor; assumption].
    intros x y H. eapply rel_bind; [exact (HN x y H)|]. intros [?|] [?|]; cbn [orel]; try contradiction; intros _; cbn [rel]; auto.
Qed.

Lemma same_flip its' its : (forall its' its, Forall2 RI its' its -> rel (stepr (Forall2 RI)) (agg_next its') (agg_next its)) ->
  (fun a b => Forall2 RI b a) its its' -> rel (stepr (fun a b => Forall2 RI b a)) (agg_next its) (agg_next its').
Proof.
  intros H F. apply H in F. destruct (agg_next its') as [[(a', s')|]| | |], (agg_next its) as [[(a, s)|]| | |]; cbn [rel stepr orel fst snd] in *; auto. destruct F as (-> & F). auto.
Qed.
Lemma aggregate_same oc ps' ps r : Forall2 (fun evs' evs => rel RI (si_new (sp_new evs')) (si_new (sp_new evs))) ps' ps -> (aggregate_profiles oc ps' r <-> aggregate_profiles oc ps r).
Proof.
  intros H. apply (collect_rel _ RI (fun evs => si_new (sp_new evs)) (fun evs => si_new (sp_new evs)) (fun a b H => H)) in H. pose proof agg_next_same as N.
  assert (N' : forall its its', Forall2 RI its' its -> rel (stepr (fun a b => Forall2 RI b a)) (agg_next its) (agg_next its')) by (intros; apply same_flip; [exact N|assumption]).
  split; intros A; destruct A as [E|its E D|its iv E D]; rewrite E in H.
  - destruct (collectM _ ps) eqn:E2; cbn [rel] in H; try contradiction. apply ap_new_panic. exact E2.
  - destruct (collectM _ ps) as [i2| | |] eqn:E2; cbn [rel] in H; try contradiction. eapply ap_loop_panic; [exact E2|]. exact (drains_fwd agg_next agg_next (fun a b => Forall2 RI b a) (fun a b F => N' a b F) its _ D i2 H).
  - destruct (collectM _ ps) as [i2| | |] eqn:E2; cbn [rel] in H; try contradiction. eapply ap_ok; [exact E2|]. exact (drains_fwd agg_next agg_next (fun a b => Forall2 RI b a) (fun a b F => N' a b F) its _ D i2 H).
  - destruct (collectM _ ps') eqn:E2; cbn [rel] in H; try contradiction. apply ap_new_panic. exact E2.
  - destruct (collectM _ ps') as [i2| | |] eqn:E2; cbn [rel] in H; try contradiction. eapply ap_loop_panic; [exact E2|]. exact (drains_fwd agg_next agg_next (Forall2 RI) N its _ D i2 H).
  - destruct (collectM _ ps') as [i2| | |] eqn:E2; cbn [rel] in H; try contradiction. eapply ap_ok; [exact E2|]. exact (drains_fwd agg_next agg_next (Forall2 RI) N its _ D i2 H).
Qed.
End Iterators.

(** The same iterator, at another time. *)
Definition same_it (i' i : sintervals) : Prop := exists k, i' = it_later k i.
Lemma si_next_same i' i : same_it i' i -> rel (orel (fun x y => same_iv (fst x) (fst y) /\ same_it (snd x) (snd y))) (si_next i') (si_next i).
Proof.
  intros (k & ->). rewrite si_next_later. destruct (si_next i) as [[(v, i1)|]| | |]; cbn [rmap option_map rel orel fst snd]; auto.
  split; [split; [apply describe_later|apply si_duration_later]|exists k; reflexivity].
Qed.
Theorem C95_aggregate : forall oc ps' ps r, other_starts ps' ps -> (aggregate_profiles oc ps' r <-> aggregate_profiles oc ps r).
Proof.
  intros oc ps' ps r F. apply (aggregate_same same_it si_next_same). induction F as [|evs' evs l m (k & ->) F IH]; constructor; [|exact IH].
  rewrite new_later, si_new_later. destruct (si_new (sp_new evs)); cbn [rmap rel]; auto. exists k. reflexivity.
Qed.

(** Two runs of the same compilation, the second a minute later. *)
Example ex_C95_aggregate : exists ps' ps, other_starts ps' ps /\ ps' <> ps /\ exists r, aggregate_profiles true ps (Ok r) /\ aggregate_profiles true ps' (Ok r).
Proof.
  set (run1 := [mkEv (str "Query") (str "inner") [] (Timestamp (Interval 1500 1700)) 1; mkEv (str "Query") (str "outer") [] (Timestamp (Interval 1000 2000)) 1]).
  exists [run1; map (later 60000000000) run1], [run1; run1].
  assert (H : other_starts [run1; map (later 60000000000) run1] [run1; run1]).
  { constructor; [exists 0; reflexivity|]. constructor; [exists 60000000000; reflexivity|constructor]. }
  split; [exact H|]. split; [discriminate|].
  assert (A : exists r, aggregate_profiles true [run1; run1] (Ok r)).
  { eassert (B : aggregate_profiles true [run1; run1] _).
    { eapply ap_ok; [vm_compute; reflexivity|]. eapply dr_step; [vm_compute; reflexivity|]. eapply dr_step; [vm_compute; reflexivity|]. eapply dr_step; [vm_compute; reflexivity|].
      apply dr_done. vm_compute. reflexivity. }
    match type of B with aggregate_profiles _ _ ?x => let y := eval vm_compute in x in change x with y in B end. eexists. exact B. }
  destruct A as (r & A). exists r. split; [exact A|]. apply (C95_aggregate true _ _ (Ok r) H). exact A.
Qed.
Print Assumptions C95_aggregate.
