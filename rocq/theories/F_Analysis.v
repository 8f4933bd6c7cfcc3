(** Facts behind the analysis theorems. *)
From Coq Require Import ZArith List Lia Bool Permutation.
From Verif Require Import M_Base F_Base M_Raw M_V8 M_Map M_Session S_Guard S_Analysis.
Import ListNotations.
Open Scope Z_scope.

(** ** Association lists *)
Section MapFacts.
  Context {K V : Type} (eqb : K -> K -> bool) (eqb_spec : forall a b, eqb a b = true <-> a = b).
  Lemma eqb_refl' k : eqb k k = true. Proof. apply eqb_spec; auto. Qed.
  Lemma get_put_same k (v : V) m : map_get eqb k (map_put eqb k v m) = Some v.
  Proof.
    induction m as [|[k' v'] m IH]; cbn [map_put map_get]; [now rewrite eqb_refl'|].
    destruct (eqb k k') eqn:E; cbn [map_get]; [now rewrite eqb_refl'|]. now rewrite E.
  Qed.
  Lemma get_put_other k k' (v : V) m : k' <> k -> map_get eqb k' (map_put eqb k v m) = map_get eqb k' m.
  Proof.
    intros N. induction m as [|[k1 v1] m IH]; cbn [map_put map_get].
    - destruct (eqb k' k) eqn:E; auto. apply eqb_spec in E. congruence.
    - destruct (eqb k k1) eqn:E; cbn [map_get].
      + apply eqb_spec in E. subst k1. destruct (eqb k' k) eqn:E'; auto. apply eqb_spec in E'. congruence.
      + now rewrite IH.
  Qed.
  Lemma get_put k k' (v : V) m : map_get eqb k' (map_put eqb k v m) = if eqb k' k then Some v else map_get eqb k' m.
  Proof.
    destruct (eqb k' k) eqn:E.
    - apply eqb_spec in E. subst. apply get_put_same.
    - apply get_put_other. intros ->. rewrite eqb_refl' in E. discriminate.
  Qed.
  Lemma put_keys k (v : V) m x : In x (map fst (map_put eqb k v m)) <-> x = k \/ In x (map fst m).
  Proof.
    induction m as [|[k1 v1] m IH]; cbn [map_put map fst In]; [intuition|].
    destruct (eqb k k1) eqn:E; cbn [map fst In].
    - apply eqb_spec in E. subst. intuition.
    - rewrite IH. intuition.
  Qed.
  Lemma put_NoDup k (v : V) m : NoDup (map fst m) -> NoDup (map fst (map_put eqb k v m)).
  Proof.
    induction m as [|[k1 v1] m IH]; cbn [map_put map fst]; intros H.
    - constructor; auto.
    - inversion H; subst. destruct (eqb k k1) eqn:E; cbn [map fst].
      + apply eqb_spec in E. subst. constructor; auto.
      + constructor; auto. rewrite put_keys. intros [->|X]; auto. rewrite eqb_refl' in E. discriminate.
  Qed.
  Lemma get_In k (v : V) m : map_get eqb k m = Some v -> In (k, v) m.
  Proof.
    induction m as [|[k1 v1] m IH]; cbn [map_get]; [discriminate|]. destruct (eqb k k1) eqn:E.
    - apply eqb_spec in E. intros [= ->]. left; congruence.
    - intros; right; auto.
  Qed.
  Lemma In_get k (v : V) m : NoDup (map fst m) -> In (k, v) m -> map_get eqb k m = Some v.
  Proof.
    induction m as [|[k1 v1] m IH]; cbn [map_get map fst In]; [tauto|]. intros H [E|X]; inversion H; subst.
    - injection E as -> ->. now rewrite eqb_refl'.
    - destruct (eqb k k1) eqn:E; auto. apply eqb_spec in E. subst. exfalso. apply H2. apply (in_map fst) in X. auto.
  Qed.
  Lemma get_None k (m : list (K * V)) : map_get eqb k m = None <-> ~ In k (map fst m).
  Proof.
    induction m as [|[k1 v1] m IH]; cbn [map_get map fst In]; [intuition discriminate|].
    destruct (eqb k k1) eqn:E.
    - apply eqb_spec in E. subst. split; [discriminate|]. intros H. exfalso; apply H; auto.
    - rewrite IH. split; [|tauto]. intros H [X|X]; auto. subst. rewrite eqb_refl' in E. discriminate.
  Qed.
End MapFacts.
Lemma beq_eq a b : beq a b = true <-> a = b. Proof. apply beq_true. Qed.
Lemma zeqb_eq a b : Z.eqb a b = true <-> a = b. Proof. apply Z.eqb_eq. Qed.
#[global] Hint Resolve beq_eq zeqb_eq : core.

Lemma foldM_app {A S} (f : S -> A -> res S) l1 : forall s l2, foldM f s (l1 ++ l2) = do s' <- foldM f s l1; foldM f s' l2.
Proof. induction l1 as [|x l1 IH]; intros; cbn [foldM app bind]; auto. destruct (f s x); cbn [bind]; auto. Qed.
Lemma foldM_rev_cons {A S} (f : S -> A -> res S) s x l : foldM f s (rev (x :: l)) = do s' <- foldM f s (rev l); f s' x.
Proof. cbn [rev]. rewrite foldM_app. destruct (foldM f s (rev l)); cbn [bind foldM]; auto. destruct (f a x); auto. Qed.

(** ** Parents *)
Lemma encloses_contains x e : encloses x e = is_interval x && is_interval e && (ev_thread x =? ev_thread e) && contains (ev_payload x) (ev_payload e).
Proof.
  unfold encloses, is_interval, contains, p_is_interval.
  destruct (ev_payload x) as [[]|], (ev_payload e) as [[]|]; cbn [andb]; auto;
    destruct (ev_thread x =? ev_thread e); reflexivity.
Qed.

(** The parent as seen from the child. *)
Definition parent_in (later : list event) (e : event) : option event := find (fun x => encloses x e) later.
Definition charge (P : event -> bool) (o : option event) (d : Z) : Z :=
  match o with Some p => if P p then d else 0 | None => 0 end.
Fixpoint child_sum (P : event -> bool) (evs : list event) : Z :=
  match evs with
  | [] => 0
  | e :: r => charge P (parent_in r e) (ev_len e) + child_sum P r
  end.
Fixpoint allkids (P : event -> bool) (w r : list event) : Z :=
  match r with
  | [] => 0
  | p :: r' => (if P p then children_time w p else 0) + allkids P (w ++ [p]) r'
  end.
Lemma self_from_kids P r : forall w, self_from P w r = time_sum P r - allkids P w r.
Proof. induction r as [|p r IH]; intros; cbn [self_from time_sum allkids]; [lia|]. rewrite IH. destruct (P p); lia. Qed.

Lemma allkids_cons P e r : forall w, allkids P (e :: w) r =
  allkids P w r + (if existsb (fun x => encloses x e) w then 0 else charge P (parent_in r e) (ev_len e)).
Proof.
  induction r as [|p r IH]; intros w; cbn [allkids parent_in find].
  - cbn [charge]. destruct (existsb _ w); lia.
  - change ((e :: w) ++ [p]) with (e :: (w ++ [p])). rewrite IH, existsb_app. cbn [existsb children_time].
    destruct (existsb (fun x => encloses x e) w) eqn:E1, (encloses p e) eqn:E2; cbn [negb andb orb charge];
      unfold parent_in, charge in *; destruct (P p); lia.
Qed.
Lemma allkids_child_sum P evs : allkids P [] evs = child_sum P evs.
Proof.
  induction evs as [|e r IH]; cbn [allkids child_sum app children_time]; auto.
  rewrite allkids_cons, IH. cbn [existsb]. destruct (P e); lia.
Qed.
Lemma self_time_sum_eq P evs : self_time_sum P evs = time_sum P evs - child_sum P evs.
Proof. unfold self_time_sum. rewrite self_from_kids, allkids_child_sum. reflexivity. Qed.

(** ** Children fit into their parent *)
Lemma thread_spans_app t a b : thread_spans t (a ++ b) = thread_spans t a ++ thread_spans t b.
Proof.
  induction a as [|e a IH]; cbn [thread_spans app]; auto. rewrite IH.
  destruct (ev_payload e) as [[]|]; auto. destruct (ev_thread e =? t); auto.
Qed.
Lemma thread_spans_In t evs a b : In (a, b) (thread_spans t evs) <->
  exists e, In e evs /\ ev_thread e = t /\ ev_payload e = Timestamp (Interval a b).
Proof.
  induction evs as [|e r IH]; cbn [thread_spans In].
  - split; [tauto|intros (e & [] & _)].
  - assert (X : In (a, b) (thread_spans t r) <-> (exists e0, In e0 r /\ ev_thread e0 = t /\ ev_payload e0 = Timestamp (Interval a b))) by exact IH.
    split.
    + intros H. destruct (ev_payload e) as [[s f|]|] eqn:E; try (apply X in H; destruct H as (e0 & ? & ? & ?); exists e0; auto).
      destruct (Z.eqb_spec (ev_thread e) t) as [Ht|Ht]; [|apply X in H; destruct H as (e0 & ? & ? & ?); exists e0; auto].
      destruct H as [[= -> ->]|H]; [exists e; auto|]. apply X in H; destruct H as (e0 & ? & ? & ?); exists e0; auto.
    + intros (e0 & [->|H] & H2 & H3).
      * rewrite H3. destruct (Z.eqb_spec (ev_thread e0) t); [left; auto|congruence].
      * assert (Y : In (a, b) (thread_spans t r)) by (apply X; eauto).
        destruct (ev_payload e) as [[s f|]|]; auto. destruct (ev_thread e =? t); auto. right; auto.
Qed.
Lemma laminar_app_inv a b : laminar (a ++ b) -> laminar a /\ laminar b.
Proof.
  induction a as [|x a IH]; cbn [app laminar]; [auto|]. intros (H1 & H2 & H3). destruct (IH H3).
  apply Forall_app in H2. destruct H2. auto.
Qed.

Lemma kids_bound w p a b : ev_payload p = Timestamp (Interval a b) ->
  laminar (thread_spans (ev_thread p) (w ++ [p])) ->
  exists m, a <= m <= b /\ children_time w p <= b - m /\ 0 <= children_time w p /\
    (m = b \/ exists y, In (m, y) (thread_spans (ev_thread p) w)).
Proof.
  intros Hp. induction w as [|e w IH]; intros HL.
  - cbn [app thread_spans children_time] in *. rewrite Hp, Z.eqb_refl in HL. cbn [laminar fst snd] in HL.
    exists b. cbn [children_time]. lia.
  - cbn [children_time]. cbn [app] in HL.
    assert (HL' : laminar (thread_spans (ev_thread p) (w ++ [p]))).
    { cbn [thread_spans] in HL. destruct (ev_payload e) as [[]|]; auto. destruct (ev_thread e =? ev_thread p); auto. apply HL. }
    destruct (IH HL') as (m & Hm & Hk & Hk0 & Hw).
    destruct (encloses p e && negb (existsb (fun x => encloses x e) w)) eqn:E.
    + apply andb_true_iff in E. destruct E as [E1 E2]. rewrite negb_true_iff in E2.
      unfold encloses in E1. rewrite Hp in E1. unfold ev_len. cbn [thread_spans] in *.
      destruct (ev_payload e) as [[c d|]|] eqn:Ee; try discriminate.
      rewrite !andb_true_iff in E1. destruct E1 as [[T1 T2] T3].
      apply Z.eqb_eq in T1. assert (T : (ev_thread e =? ev_thread p) = true) by (apply Z.eqb_eq; congruence).
      rewrite T in *. cbn [laminar fst snd] in HL. destruct HL as (L1 & L2 & L3).
      assert (D : d <= m).
      { destruct Hw as [->|[y Hy]]; [lia|].
        assert (N : nests (c, d) (m, y)).
        { rewrite Forall_forall in L2. apply L2. rewrite thread_spans_app. apply in_or_app; auto. }
        destruct N as [N|N]; cbn [fst snd] in N; auto. exfalso.
        apply thread_spans_In in Hy. destruct Hy as (x & Hx & Tx & Px).
        assert (X : existsb (fun x => encloses x e) w = true); [|congruence].
        apply existsb_exists. exists x. split; auto. unfold encloses. rewrite Px, Ee.
        rewrite !andb_true_iff, !Z.leb_le, Z.eqb_eq. split; [split; [congruence|lia]|lia]. }
      exists c. split; [lia|]. split; [lia|]. split; [lia|]. right. exists d. left; auto.
    + exists m. split; auto. split; [lia|]. split; [lia|]. destruct Hw as [->|[y Hy]]; auto. right. exists y.
      cbn [thread_spans]. destruct (ev_payload e) as [[]|]; auto. destruct (ev_thread e =? ev_thread p); auto. right; auto.
Qed.

Lemma nested_app_inv a b : nested_recording (a ++ b) -> nested_recording a /\ nested_recording b.
Proof.
  intros H. split; intros t; specialize (H t); rewrite thread_spans_app in H; apply laminar_app_inv in H; tauto.
Qed.
Lemma nested_cons_inv e b : nested_recording (e :: b) -> nested_recording b.
Proof. intros H. apply (nested_app_inv [e] b H). Qed.
Lemma children_fit w p : nested_recording (w ++ [p]) -> 0 <= children_time w p <= ev_len p.
Proof.
  intros H. destruct (ev_payload p) as [[a b|]|] eqn:E.
  - destruct (kids_bound w p a b E (H _)) as (m & ? & ? & ? & _). unfold ev_len. rewrite E. lia.
  - assert (X : children_time w p = 0).
    { clear H. induction w as [|e w IH]; cbn [children_time]; auto. unfold encloses at 1. rewrite E, IH. reflexivity. }
    rewrite X. unfold ev_len. rewrite E. lia.
  - assert (X : children_time w p = 0).
    { clear H. induction w as [|e w IH]; cbn [children_time]; auto. unfold encloses at 1. rewrite E, IH. reflexivity. }
    rewrite X. unfold ev_len. rewrite E. lia.
Qed.
Lemma allkids_bound P r : forall w, nested_recording (w ++ r) -> 0 <= allkids P w r <= time_sum P r.
Proof.
  induction r as [|p r IH]; intros w H; cbn [allkids time_sum]; [lia|].
  assert (H' : nested_recording ((w ++ [p]) ++ r)) by (rewrite <- app_assoc; exact H).
  specialize (IH _ H'). apply nested_app_inv in H'. destruct H' as [H' _]. apply children_fit in H'.
  destruct (P p); lia.
Qed.
(** After charging the next event to its parent, and before crediting it to itself, nothing is negative. *)
Lemma charge_bound P e r : nested_recording (e :: r) ->
  0 <= time_sum P r - child_sum P r - charge P (parent_in r e) (ev_len e).
Proof.
  intros H. pose proof (allkids_bound P r [e] H) as B. rewrite allkids_cons in B. cbn [existsb] in B.
  rewrite allkids_child_sum in B. lia.
Qed.
Lemma nested_len e r : nested_recording (e :: r) -> 0 <= ev_len e.
Proof.
  intros H. specialize (H (ev_thread e)). cbn [thread_spans] in H. unfold ev_len.
  destruct (ev_payload e) as [[a b|]|]; try lia. rewrite Z.eqb_refl in H. cbn [laminar fst snd] in H. lia.
Qed.
Lemma time_sum_nonneg P r : nested_recording r -> 0 <= time_sum P r.
Proof.
  induction r as [|e r IH]; intros H; cbn [time_sum]; [lia|]. pose proof (nested_len _ _ H).
  specialize (IH (nested_cons_inv _ _ H)). destruct (P e); lia.
Qed.
Lemma time_sum_le P r : nested_recording r -> time_sum P r <= time_sum (fun _ => true) r.
Proof.
  induction r as [|e r IH]; intros H; cbn [time_sum]; [lia|]. pose proof (nested_len _ _ H).
  specialize (IH (nested_cons_inv _ _ H)). destruct (P e); lia.
Qed.
Lemma child_sum_nonneg P r : nested_recording r -> 0 <= child_sum P r.
Proof. intros H. rewrite <- allkids_child_sum. apply (allkids_bound P r [] H). Qed.

(** ** The stack finds the parent *)
Definition fits (t : Z) (r : list event) (e : event) : Prop :=
  exists a b, ev_payload e = Timestamp (Interval a b) /\ ev_thread e = t /\ a <= b /\ Forall (nests (a, b)) (thread_spans t r).

(** [pop_non_parents] of both analyses *)
Fixpoint pop_until (st : list event) (e : event) : list event :=
  match st with
  | [] => []
  | top :: rest => if contains (ev_payload top) (ev_payload e) then st else pop_until rest e
  end.
Definition stack_ok (st : list event) (t : Z) (r : list event) : Prop :=
  (forall x, In x st -> In x r /\ ev_thread x = t /\ is_interval x = true) /\
  (forall e, fits t r e -> find (fun x => contains (ev_payload x) (ev_payload e)) st = parent_in r e).

Lemma pop_hd st e : hd_error (pop_until st e) = find (fun x => contains (ev_payload x) (ev_payload e)) st.
Proof. induction st as [|x st IH]; cbn [pop_until find hd_error]; auto. destruct (contains _ _); auto. Qed.
Lemma pop_incl st e x : In x (pop_until st e) -> In x st.
Proof. induction st as [|y st IH]; cbn [pop_until]; auto. destruct (contains _ _); auto. intros; right; auto. Qed.
Lemma find_pop (c : event -> bool) st e :
  (forall x, In x st -> contains (ev_payload x) (ev_payload e) = false -> c x = false) ->
  find c (pop_until st e) = find c st.
Proof.
  induction st as [|x st IH]; cbn [pop_until find]; auto. intros H.
  destruct (contains (ev_payload x) (ev_payload e)) eqn:E; [reflexivity|].
  rewrite IH by (intros; apply H; auto; right; auto). rewrite (H x (or_introl eq_refl) E). reflexivity.
Qed.
Lemma stack_empty t r : thread_spans t r = [] -> stack_ok [] t r.
Proof.
  intros H. split; [intros x []|]. intros e (a & b & He & Ht & Hab & _). cbn [find]. unfold parent_in.
  symmetry. destruct (find (fun x => encloses x e) r) eqn:E; auto. apply find_some in E. destruct E as [E1 E2].
  unfold encloses in E2. rewrite He in E2. destruct (ev_payload e0) as [[c d|]|] eqn:E3; try discriminate.
  rewrite !andb_true_iff in E2. destruct E2 as [[E2 _] _]. apply Z.eqb_eq in E2.
  assert (X : In (c, d) (thread_spans t r)) by (apply thread_spans_In; exists e0; split; auto; split; auto; congruence).
  rewrite H in X. destruct X.
Qed.
Lemma fits_cons t e r e' : fits t (e :: r) e' -> fits t r e'.
Proof.
  intros (a & b & H1 & H2 & H3 & H4). exists a, b. split; auto. split; auto. split; auto.
  cbn [thread_spans] in H4. destruct (ev_payload e) as [[]|]; auto. destruct (ev_thread e =? t); auto. inversion H4; auto.
Qed.
(** Events that are not intervals, or belong to other threads, do not matter for this thread's stack. *)
Lemma stack_other st t e r : (is_interval e = false \/ ev_thread e <> t) -> stack_ok st t r -> stack_ok st t (e :: r).
Proof.
  intros H (S1 & S2). split; [intros x Hx; destruct (S1 x Hx) as (?&?&?); split; [right|]; auto|].
  intros e' F. rewrite S2 by (eapply fits_cons; eauto). unfold parent_in. cbn [find].
  destruct F as (a & b & H1 & H2 & _).
  assert (X : encloses e e' = false); [|rewrite X; reflexivity].
  rewrite encloses_contains. destruct H as [->|N]; auto. destruct (Z.eqb_spec (ev_thread e) (ev_thread e')); [congruence|].
  rewrite andb_false_r. reflexivity.
Qed.
Lemma stack_push st t e r : fits t r e -> stack_ok st t r -> stack_ok (e :: pop_until st e) t (e :: r).
Proof.
  intros (a & b & He & Ht & Hab & HF) (S1 & S2). split.
  - intros x [<-|Hx]; [split; [left; auto|]; split; auto; unfold is_interval; rewrite He; reflexivity|].
    apply pop_incl in Hx. destruct (S1 x Hx) as (?&?&?); split; [right|]; auto.
  - intros e' F'. pose proof (fits_cons _ _ _ _ F') as F''. unfold parent_in. cbn [find].
    destruct F' as (c & d & He' & Ht' & Hcd & HF').
    assert (X : contains (ev_payload e) (ev_payload e') = encloses e e').
    { rewrite encloses_contains. unfold is_interval. rewrite He, He'. cbn [p_is_interval]. rewrite Ht, Ht', Z.eqb_refl. reflexivity. }
    rewrite X. destruct (encloses e e') eqn:E; auto.
    change (find (fun x => encloses x e') r) with (parent_in r e'). rewrite <- (S2 e' F''). apply find_pop.
    intros x Hx Hc. destruct (S1 x Hx) as (X1 & X2 & X3).
    unfold is_interval, p_is_interval in X3. destruct (ev_payload x) as [[p q|]|] eqn:Ex; try discriminate.
    assert (Nx : nests (a, b) (p, q)).
    { rewrite Forall_forall in HF. apply HF. apply thread_spans_In. exists x. auto. }
    assert (Ne : nests (c, d) (a, b)).
    { rewrite Forall_forall in HF'. apply HF'. apply thread_spans_In. exists e. split; [left; auto|auto]. }
    unfold contains in *. rewrite He in *. rewrite He' in *. unfold nests in *. cbn [fst snd] in *.
    unfold encloses in E. rewrite He, He', Ht, Ht', Z.eqb_refl in E. cbn [andb] in E. clear X.
    destruct (Z.leb_spec p a), (Z.leb_spec b q), (Z.leb_spec a c), (Z.leb_spec d b), (Z.leb_spec p c), (Z.leb_spec d q);
      cbn [andb] in *; try discriminate; auto; lia.
Qed.
Lemma fits_next e r : is_interval e = true -> nested_recording (e :: r) -> fits (ev_thread e) r e.
Proof.
  intros H HN. specialize (HN (ev_thread e)). unfold is_interval, p_is_interval in H.
  destruct (ev_payload e) as [[a b|]|] eqn:E; try discriminate. cbn [thread_spans] in HN. rewrite E, Z.eqb_refl in HN.
  cbn [laminar fst snd] in HN. exists a, b. tauto.
Qed.

(** The specification's notion of parent is the innermost enclosing event: every event of the
    thread around [e] is around the parent too (unless [e] has no length at all). *)
Lemma parent_innermost e r p x : nested_recording (e :: r) -> parent_in r e = Some p -> In x r -> encloses x e = true ->
  0 < ev_len e -> encloses x p = true.
Proof.
  intros HN Hp Hx He Hl. apply nested_cons_inv in HN. revert Hp Hx HN. unfold parent_in. induction r as [|y r IH]; [intros _ []|].
  cbn [find]. intros Hp Hx HN. destruct (encloses y e) eqn:Ey.
  - injection Hp as ->. unfold encloses in *. unfold ev_len in Hl.
    destruct (ev_payload x) as [[a b|]|] eqn:Px; try discriminate. destruct (ev_payload p) as [[c d|]|] eqn:Pp; try discriminate.
    destruct (ev_payload e) as [[s t|]|] eqn:Pe; try discriminate.
    rewrite !andb_true_iff, !Z.leb_le, Z.eqb_eq in *. destruct He as [[? ?] ?], Ey as [[? ?] ?].
    destruct Hx as [->|Hx].
    + rewrite Px in Pp. injection Pp as -> ->. lia.
    + specialize (HN (ev_thread p)). cbn [thread_spans] in HN. rewrite Pp, Z.eqb_refl in HN. cbn [laminar] in HN. destruct HN as (_ & HN & _).
      assert (N : nests (c, d) (a, b)).
      { rewrite Forall_forall in HN. apply HN. apply thread_spans_In. exists x. split; auto. split; auto. congruence. }
      unfold nests in N. cbn [fst snd] in N. split; [split|]; try congruence; lia.
  - destruct Hx as [->|Hx]; [congruence|]. apply IH; auto. eapply nested_cons_inv; eauto.
Qed.
