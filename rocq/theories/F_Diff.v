(** Lemmas about the diff. *)
From Coq Require Import ZArith List Lia Bool Permutation Sorted.
From Verif Require Import M_Base F_Base M_Map M_Analysis S_Analysis F_Analysis M_Diff S_Diff.
Import ListNotations.
Open Scope Z_scope.

(** * Sorting *)
Lemma insert_desc_perm {A} (key : A -> Z) x l : Permutation (insert_desc key x l) (x :: l).
Proof.
  induction l as [|y l IH]; cbn [insert_desc]; auto. destruct (key x <? key y); auto.
  rewrite IH. constructor.
Qed.
Lemma sort_desc_perm {A} (key : A -> Z) l : Permutation (sort_desc key l) l.
Proof. induction l as [|x l IH]; cbn [sort_desc]; auto. rewrite insert_desc_perm. auto. Qed.
Lemma insert_desc_sorted {A} (key : A -> Z) x l : descending key l -> descending key (insert_desc key x l).
Proof.
  unfold descending. induction l as [|y l IH]; cbn [insert_desc]; intros H.
  - repeat constructor.
  - inversion H as [|? ? Hs Hf]; subst. destruct (Z.ltb_spec (key x) (key y)) as [L|L].
    + constructor; auto. eapply Permutation_Forall; [symmetry; apply insert_desc_perm|]. constructor; auto. lia.
    + constructor; auto. constructor; auto. eapply Forall_impl; [|exact Hf]. cbn. intros; lia.
Qed.
Lemma sort_desc_sorted {A} (key : A -> Z) l : descending key (sort_desc key l).
Proof. induction l as [|x l IH]; cbn [sort_desc]; [constructor|]. apply insert_desc_sorted; auto. Qed.

(** * Lookup *)
Section Lookup.
  Context {A : Type} (label : A -> bytes).
  Lemma entry_snoc data x l : entry label (data ++ [x]) l = if beq (label x) l then Some x else entry label data l.
  Proof. unfold entry. rewrite rev_app_distr. cbn. destruct (beq (label x) l); auto. Qed.
  Lemma entry_Some data l x : entry label data l = Some x -> In x data /\ label x = l.
  Proof. unfold entry. intros H. apply find_some in H. destruct H as (H1 & H2). apply in_rev in H1. apply beq_true in H2. auto. Qed.
  Lemma entry_None data l : entry label data l = None -> ~ In l (map label data).
  Proof.
    unfold entry. intros H Hin. apply in_map_iff in Hin. destruct Hin as (x & E & Hin).
    apply in_rev in Hin. eapply find_none in H; eauto. cbn in H. subst l. rewrite (proj2 (beq_true _ _)) in H; auto. discriminate.
  Qed.
  Lemma entry_not_In data l : ~ In l (map label data) -> entry label data l = None.
  Proof.
    intros H. destruct (entry label data l) as [x|] eqn:E; auto. apply entry_Some in E. destruct E as (E1 & E2).
    destruct H. subst l. apply in_map; auto.
  Qed.
  Lemma build_lookup_ok data : forall suf pre m,
    data = pre ++ suf ->
    (forall l, match map_get beq l m with Some i => exists x, znth i data = Some x /\ entry label pre l = Some x | None => entry label pre l = None end) ->
    forall l, match map_get beq l (build_lookup_from label (zlen pre) suf m) with
              | Some i => exists x, znth i data = Some x /\ entry label data l = Some x
              | None => entry label data l = None end.
  Proof.
    induction suf as [|x suf IH]; intros pre m D H l.
    - cbn [build_lookup_from]. rewrite app_nil_r in D. subst pre. apply H.
    - cbn [build_lookup_from]. replace (zlen pre + 1) with (zlen (pre ++ [x])) by (rewrite zlen_app; reflexivity).
      apply IH. { rewrite <- app_assoc. auto. }
      intros l'. rewrite (get_put beq beq_eq), entry_snoc. destruct (beq l' (label x)) eqn:E.
      + apply beq_true in E. subst l'. rewrite (proj2 (beq_true _ _)); auto. exists x. split; auto.
        rewrite D. pose proof (zlen_nonneg pre). unfold znth, zlen. destruct (Z.ltb_spec (Z.of_nat (length pre)) 0); try lia.
        rewrite Nat2Z.id, nth_error_app2; auto. rewrite Nat.sub_diag. reflexivity.
      + destruct (beq (label x) l') eqn:E'; [|apply H]. apply beq_true in E'. subst l'. rewrite (proj2 (beq_true _ _)) in E; auto. discriminate.
  Qed.
  Lemma lookup_entry data l : lookup_get (build_lookup label data) data l = Ok (entry label data l).
  Proof.
    unfold lookup_get, build_lookup. pose proof (build_lookup_ok data data [] [] eq_refl) as H. change (zlen (@nil A)) with 0 in H.
    specialize (H (fun l => eq_refl) l).
    destruct (map_get beq l (build_lookup_from label 0 data [])) as [i|].
    - destruct H as (x & -> & ->). reflexivity.
    - rewrite H. reflexivity.
  Qed.
End Lookup.

(** * Label sets *)
Lemma label_set_aux ls : forall m : list (bytes * unit), NoDup (map fst m) ->
  NoDup (map fst (fold_left (fun m l => map_put beq l tt m) ls m)) /\
  forall l, In l (map fst (fold_left (fun m l => map_put beq l tt m) ls m)) <-> In l (map fst m) \/ In l ls.
Proof.
  induction ls as [|a ls IH]; intros m H; cbn [fold_left].
  - split; auto. cbn. tauto.
  - destruct (IH (map_put beq a tt m)) as (H1 & H2). { apply put_NoDup; auto. }
    split; auto. intros l. rewrite H2. cbn [In].
    assert (K : In l (map fst (map_put beq a tt m)) <-> l = a \/ In l (map fst m)).
    { clear. induction m as [|(k & []) m IH]; cbn [map_put]; [cbn; intuition|]. destruct (beq a k) eqn:E; cbn [map fst In].
      - apply beq_true in E. subst. intuition.
      - rewrite IH. intuition. }
    rewrite K. intuition.
Qed.
Lemma label_set_NoDup ls : NoDup (label_set ls).
Proof. apply label_set_aux. constructor. Qed.
Lemma label_set_In ls l : In l (label_set ls) <-> In l ls.
Proof. unfold label_set. rewrite (proj2 (label_set_aux ls [] (NoDup_nil _))). cbn. tauto. Qed.

(** * Arithmetic *)
Lemma to_i64_id n : num_fits n -> to_i64 n = n.
Proof. unfold num_fits, to_i64, I64, U64. intros H. rewrite Z.mod_small; lia. Qed.
Lemma i64_op_ok oc v : - 2 ^ 63 <= v < 2 ^ 63 -> i64_op oc v = Ok v.
Proof.
  unfold i64_op, I64. intros. replace ((_ <=? v) && (v <? _)) with true; auto. symmetry. apply andb_true_intro. split; [apply Z.leb_le|apply Z.ltb_lt]; lia.
Qed.
Lemma i64_sub_ok oc a b : num_fits a -> num_fits b -> i64_sub oc a b = Ok (a - b).
Proof. unfold num_fits, i64_sub. intros. apply i64_op_ok. lia. Qed.
Lemma i64_neg_ok oc a : num_fits a -> i64_neg oc a = Ok (- a).
Proof. unfold num_fits, i64_neg. intros. apply i64_op_ok. lia. Qed.
Lemma from_nanos_ok n : - 2 ^ 64 < n < 2 ^ 64 -> as_nanos (from_nanos n) = n /\ sd_duration (from_nanos n) = Z.abs n.
Proof.
  intros H. unfold as_nanos, from_nanos, U64. cbn [sd_duration sd_is_positive]. rewrite Z.mod_small by lia.
  destruct (Z.leb_spec 0 n); lia.
Qed.
Lemma sd_sub_ok a b : dur_fits a -> dur_fits b ->
  as_nanos (sd_sub (sd_from a) (sd_from b)) = a - b /\ sd_duration (sd_sub (sd_from a) (sd_from b)) = Z.abs (a - b).
Proof.
  unfold dur_fits. intros. unfold sd_sub, sd_from. unfold as_nanos at 2 3 4 5. cbn [sd_duration sd_is_positive].
  rewrite !Z.mul_1_l. apply from_nanos_ok. lia.
Qed.

Lemma collectM_ok {A B} (f : A -> res B) (P : A -> B -> Prop) l : (forall x, In x l -> exists y, f x = Ok y /\ P x y) ->
  exists ys, collectM f l = Ok ys /\ Forall2 P l ys.
Proof.
  induction l as [|x l IH]; intros H; cbn [collectM].
  - exists []. split; auto.
  - destruct (H x (or_introl eq_refl)) as (y & E & Py). destruct IH as (ys & E2 & F). { intros; apply H; right; auto. }
    exists (y :: ys). rewrite E. cbn [bind]. rewrite E2. split; auto.
Qed.
