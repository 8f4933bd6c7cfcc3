(** Facts behind C30. *)
From Coq Require Import ZArith List Lia Bool Permutation String.
From Verif Require Import M_Base F_Base M_Raw M_V8 M_Map M_Session S_Guard S_Analysis F_Analysis M_Collapse S_Collapse.
Import ListNotations.
Open Scope Z_scope.

(** ** Annotated events *)
Lemma relabel_encl x l e : encloses (relabel x l) e = encloses x e.
Proof. reflexivity. Qed.
Lemma encl_relabel x l e : encloses x (relabel e l) = encloses x e.
Proof. reflexivity. Qed.
Lemma with_lines_spans t evs : thread_spans t (with_lines evs) = thread_spans t evs.
Proof. induction evs as [|e r IH]; cbn [with_lines thread_spans]; auto. cbn [relabel ev_payload ev_thread]. rewrite IH. reflexivity. Qed.
Lemma with_lines_nested evs : nested_recording evs -> nested_recording (with_lines evs).
Proof. intros H t. rewrite with_lines_spans. apply H. Qed.
Lemma parent_line r e p : parent_in (with_lines r) e = Some p -> ev_label p = ancestors e r.
Proof.
  unfold parent_in. revert p. induction r as [|x r IH]; intros p; cbn [with_lines find ancestors]; [discriminate|].
  rewrite relabel_encl. destruct (encloses x e); auto. intros [= <-]. reflexivity.
Qed.
Lemma parent_none r e : parent_in (with_lines r) e = None <-> existsb (fun x => encloses x e) r = false.
Proof.
  unfold parent_in. induction r as [|x r IH]; cbn [with_lines find existsb]; [tauto|].
  rewrite relabel_encl. destruct (encloses x e); cbn [orb]; auto. split; discriminate.
Qed.
Lemma parent_in_lines r e p : parent_in (with_lines r) e = Some p -> In p (with_lines r) /\ is_interval p = true.
Proof.
  intros H. apply find_some in H. destruct H as [H1 H2]. split; auto. rewrite encloses_contains in H2.
  rewrite !andb_true_iff in H2. tauto.
Qed.

(** ** The id string is the rendering of the stack *)
Fixpoint render (st : list event) : bytes :=
  match st with
  | [] => str "rustc"
  | x :: st' => render st' ++ str ";" ++ ev_label x
  end.
Lemma c_pop_render st e : c_pop st (render st) e = Ok (pop_until st e, render (pop_until st e)).
Proof.
  induction st as [|x st IH]; cbn [c_pop pop_until]; auto. destruct (contains (ev_payload x) (ev_payload e)); auto.
  cbn [render]. rewrite !zlen_app. change (zlen (str ";")) with 1. pose proof (zlen_nonneg (render st)).
  destruct (Z.leb_spec (zlen (ev_label x) + 1) (zlen (render st) + (1 + zlen (ev_label x)))); [|lia].
  replace (zlen (render st) + (1 + zlen (ev_label x)) - (zlen (ev_label x) + 1)) with (zlen (render st)) by lia.
  rewrite ztake_app. exact IH.
Qed.
Definition path_ok (st : list event) (t : Z) (r : list event) : Prop :=
  forall e, fits t r e -> render (pop_until st e) = ancestors e r.
Lemma pop_pop st e e' : (forall x, In x st -> contains (ev_payload x) (ev_payload e) = false -> contains (ev_payload x) (ev_payload e') = false) ->
  pop_until (pop_until st e) e' = pop_until st e'.
Proof.
  induction st as [|x st IH]; cbn [pop_until]; auto. intros H.
  destruct (contains (ev_payload x) (ev_payload e)) eqn:E; [reflexivity|].
  rewrite (H x (or_introl eq_refl) E). apply IH. intros; apply H; auto. right; auto.
Qed.
Lemma path_empty t r : thread_spans t r = [] -> path_ok [] t r.
Proof.
  intros H e (a & b & He & Ht & _). cbn [pop_until render]. induction r as [|x r IH]; cbn [ancestors]; auto.
  assert (X : encloses x e = false).
  { destruct (encloses x e) eqn:E; auto. unfold encloses in E. rewrite He in E. cbn [thread_spans] in H.
    destruct (ev_payload x) as [[c d|]|]; try discriminate. rewrite !andb_true_iff in E. destruct E as [[E _] _].
    rewrite Ht in E. rewrite E in H. discriminate. }
  rewrite X. apply IH. cbn [thread_spans] in H. destruct (ev_payload x) as [[c d|]|]; auto. destruct (ev_thread x =? t); auto. discriminate.
Qed.
Lemma path_other st t e r : (is_interval e = false \/ ev_thread e <> t) -> path_ok st t r -> path_ok st t (e :: r).
Proof.
  intros H S e' F. rewrite S by (eapply fits_cons; eauto). cbn [ancestors].
  destruct F as (a & b & H1 & H2 & _).
  assert (X : encloses e e' = false); [|rewrite X; reflexivity].
  rewrite encloses_contains. destruct H as [->|N]; auto. destruct (Z.eqb_spec (ev_thread e) (ev_thread e')); [congruence|].
  rewrite andb_false_r. reflexivity.
Qed.
Lemma path_push st t e r : fits t r e -> stack_ok st t r -> path_ok st t r -> path_ok (e :: pop_until st e) t (e :: r).
Proof.
  intros F0 (S1 & S2) P e' F'. pose proof (fits_cons _ _ _ _ F') as F''. pose proof F0 as (a & b & He & Ht & Hab & HF).
  cbn [pop_until ancestors].
  destruct F' as (c & d & He' & Ht' & Hcd & HF').
  assert (X : contains (ev_payload e) (ev_payload e') = encloses e e').
  { rewrite encloses_contains. unfold is_interval. rewrite He, He'. cbn [p_is_interval]. rewrite Ht, Ht', Z.eqb_refl. reflexivity. }
  rewrite X. destruct (encloses e e') eqn:E.
  - cbn [render]. rewrite (P e F0). reflexivity.
  - rewrite <- (P e' F''). f_equal. apply pop_pop.
    intros x Hx Hc. destruct (S1 x Hx) as (X1 & X2 & X3).
    unfold is_interval, p_is_interval in X3. destruct (ev_payload x) as [[p q|]|] eqn:Ex; try discriminate.
    assert (Nx : nests (a, b) (p, q)).
    { rewrite Forall_forall in HF. apply HF. apply thread_spans_In. exists x. auto. }
    assert (Ne : nests (c, d) (a, b)).
    { rewrite Forall_forall in HF'. apply HF'. apply thread_spans_In. exists e. split; [left; auto|auto]. }
    unfold contains in *. rewrite He in *. rewrite He' in *. unfold nests in *. cbn [fst snd] in *.
    unfold encloses in E. rewrite He, He', Ht, Ht', Z.eqb_refl in E. cbn [andb] in E. clear X.
    destruct (Z.leb_spec p a), (Z.leb_spec b q), (Z.leb_spec a c), (Z.leb_spec d b), (Z.leb_spec p c), (Z.leb_spec d q);
      cbn [andb] in *; try discriminate; auto; lia.
Qed.

(** ** Top-level time fits the thread's span *)
Definition virtual (t a b : Z) : event := mkEv [] [] [] (Timestamp (Interval a b)) t.
Lemma top_virtual t a b evs : (forall x y, In (x, y) (thread_spans t evs) -> a <= x /\ y <= b) ->
  top_level_time t evs = children_time evs (virtual t a b).
Proof.
  induction evs as [|e r IH]; intros H; cbn [top_level_time children_time]; auto. rewrite IH.
  - f_equal. destruct (Z.eqb_spec (ev_thread e) t) as [E|E].
    + unfold encloses at 2. cbn [virtual ev_payload ev_thread]. cbn [thread_spans] in H.
      destruct (ev_payload e) as [[x y|]|] eqn:P.
      * rewrite E, Z.eqb_refl. assert (In (x, y) (if ev_thread e =? t then (x, y) :: thread_spans t r else thread_spans t r)).
        { destruct (Z.eqb_spec (ev_thread e) t); [left; auto|congruence]. }
        apply H in H0. destruct (Z.leb_spec a x), (Z.leb_spec y b); try lia. reflexivity.
      * cbn [andb]. unfold ev_len. rewrite P. destruct (negb _); reflexivity.
      * cbn [andb]. unfold ev_len. rewrite P. destruct (negb _); reflexivity.
    + cbn [andb]. unfold encloses at 1. cbn [virtual ev_payload ev_thread].
      destruct (ev_payload e) as [[x y|]|]; auto. destruct (Z.eqb_spec t (ev_thread e)); [congruence|]. reflexivity.
  - intros x y Hin. apply H. cbn [thread_spans]. destruct (ev_payload e) as [[]|]; auto. destruct (ev_thread e =? t); auto. right; auto.
Qed.
Lemma laminar_snoc l a b : laminar l -> a <= b -> (forall x y, In (x, y) l -> a <= x /\ y <= b) -> laminar (l ++ [(a, b)]).
Proof.
  induction l as [|[x y] l IH]; cbn [app laminar]; intros H Hab HB.
  - cbn [fst snd]. auto.
  - destruct H as (H1 & H2 & H3). split; auto. split.
    + apply Forall_app. split; auto. constructor; auto. unfold nests. cbn [fst snd]. right. apply HB. left; auto.
    + apply IH; auto. intros; apply HB; right; auto.
Qed.
Lemma top_level_bound t a b evs : nested_recording evs -> spans_thread evs t a b -> 0 <= top_level_time t evs <= b - a.
Proof.
  intros HN ((y & Y) & (x & X) & B). rewrite (top_virtual t a b evs B).
  assert (Hab : a <= b).
  { apply thread_spans_In in Y. destruct Y as (e & E1 & E2 & E3). apply in_split in E1. destruct E1 as (l1 & l2 & ->).
    apply nested_app_inv in HN. destruct HN as [_ HN]. apply nested_len in HN. unfold ev_len in HN. rewrite E3 in HN.
    assert (In (a, y) (thread_spans t (l1 ++ e :: l2))) by (apply thread_spans_In; exists e; split; auto; apply in_or_app; right; left; auto).
    apply B in H. lia. }
  destruct (kids_bound evs (virtual t a b) a b eq_refl) as (m & ? & ? & ? & _); [|lia].
  rewrite thread_spans_app. cbn [thread_spans virtual ev_payload ev_thread]. rewrite Z.eqb_refl.
  apply laminar_snoc; auto.
Qed.
Lemma top_level_none t evs : thread_spans t evs = [] -> top_level_time t evs = 0.
Proof.
  induction evs as [|e r IH]; cbn [thread_spans top_level_time]; auto. intros H.
  destruct (ev_payload e) as [[x y|]|] eqn:P; unfold ev_len; rewrite P; try (rewrite IH by auto; destruct (_ && _); reflexivity).
  destruct (ev_thread e =? t); [discriminate|]. cbn [andb]. rewrite IH by auto. reflexivity.
Qed.

(** ** Self times add up to top-level times *)
Definition on_threads (T : list Z) (e : event) : bool := existsb (Z.eqb (ev_thread e)) T.
Lemma self_total T : NoDup T -> forall evs, (forall t, thread_spans t evs <> [] -> In t T) ->
  self_time_sum (fun _ => true) evs = zsum (map (fun t => top_level_time t evs) T).
Proof.
  intros HT. induction evs as [|e r IH]; intros H.
  - rewrite self_time_sum_eq. cbn [time_sum child_sum top_level_time]. induction T as [|t T IHT]; cbn [map zsum fold_right]; auto.
    inversion HT; subst. rewrite Z.sub_diag in *. unfold zsum in IHT. rewrite <- IHT; auto. intros t' N; destruct (N eq_refl).
  - rewrite self_time_sum_eq. cbn [time_sum child_sum].
    assert (Hr : forall t, thread_spans t r <> [] -> In t T).
    { intros t N. apply H. cbn [thread_spans]. destruct (ev_payload e) as [[]|]; auto. destruct (ev_thread e =? t); auto. discriminate. }
    specialize (IH Hr). rewrite self_time_sum_eq in IH.
    assert (S : zsum (map (fun t => top_level_time t (e :: r)) T) =
      (if existsb (fun x => encloses x e) r then 0 else ev_len e) + zsum (map (fun t => top_level_time t r) T)).
    { assert (G : forall U, NoDup U -> zsum (map (fun t => top_level_time t (e :: r)) U) =
        (if existsb (Z.eqb (ev_thread e)) U then (if existsb (fun x => encloses x e) r then 0 else ev_len e) else 0) + zsum (map (fun t => top_level_time t r) U)).
      { clear. induction U as [|t U IHU]; intros HU; cbn [map zsum fold_right existsb]; auto.
        inversion HU; subst. unfold zsum in *. rewrite IHU by auto. cbn [top_level_time]. destruct (Z.eqb_spec (ev_thread e) t) as [E|E]; cbn [andb orb].
        - subst t. assert (X : existsb (Z.eqb (ev_thread e)) U = false).
          { destruct (existsb (Z.eqb (ev_thread e)) U) eqn:E; auto. apply existsb_exists in E. destruct E as (x & Hx & E). apply Z.eqb_eq in E. congruence. }
          rewrite X. destruct (existsb (fun x => encloses x e) r); cbn [negb]; lia.
        - destruct (existsb (Z.eqb (ev_thread e)) U), (existsb (fun x => encloses x e) r); lia. }
      rewrite (G T HT). destruct (existsb (Z.eqb (ev_thread e)) T) eqn:E; auto.
      assert (ev_len e = 0).
      { unfold ev_len. destruct (ev_payload e) as [[a b|]|] eqn:P; auto. exfalso.
        assert (In (ev_thread e) T). { apply H. cbn [thread_spans]. rewrite P, Z.eqb_refl. discriminate. }
        assert (existsb (Z.eqb (ev_thread e)) T = true); [|congruence]. apply existsb_exists. exists (ev_thread e). split; auto. apply Z.eqb_refl. }
      rewrite H0. destruct (existsb (fun x => encloses x e) r); reflexivity. }
    rewrite S, <- IH. unfold parent_in.
    assert (C : charge (fun _ => true) (find (fun x => encloses x e) r) (ev_len e) = if existsb (fun x => encloses x e) r then ev_len e else 0).
    { clear. induction r as [|x r IH]; cbn [find existsb]; auto. destruct (encloses x e); cbn [orb charge]; auto. }
    rewrite C. destruct (existsb (fun x => encloses x e) r); lia.
Qed.
Lemma self_from_mono P r : forall w, nested_recording (w ++ r) -> 0 <= self_from P w r <= self_from (fun _ => true) w r.
Proof.
  induction r as [|p r IH]; intros w HN; cbn [self_from]; [lia|].
  assert (H' : nested_recording ((w ++ [p]) ++ r)) by (rewrite <- app_assoc; exact HN).
  specialize (IH _ H'). apply nested_app_inv in H'. destruct H' as [H' _]. apply children_fit in H'. destruct (P p); lia.
Qed.
Lemma with_lines_top t evs : top_level_time t (with_lines evs) = top_level_time t evs.
Proof.
  induction evs as [|e r IH]; cbn [with_lines top_level_time]; auto. rewrite IH. f_equal.
  cbn [relabel ev_thread ev_payload]. assert (X : existsb (fun x => encloses x (relabel e (stack_line e r))) (with_lines r) = existsb (fun x => encloses x e) r).
  { clear IH. generalize (stack_line e r). intros l. induction r as [|x r IH]; cbn [with_lines existsb]; auto. rewrite IH. reflexivity. }
  rewrite X. reflexivity.
Qed.
