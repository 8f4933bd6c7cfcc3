(** Elementary facts about the common vocabulary. *)
From Coq Require Import ZArith List Lia Bool.
From Verif Require Import M_Base.
Import ListNotations.
Open Scope Z_scope.

Lemma zlen_nonneg {A} (l : list A) : 0 <= zlen l.
Proof. unfold zlen; lia. Qed.

Lemma zlen_app {A} (a b : list A) : zlen (a ++ b) = zlen a + zlen b.
Proof. unfold zlen; rewrite app_length; lia. Qed.

Lemma zlen_cons {A} (x : A) l : zlen (x :: l) = 1 + zlen l.
Proof. unfold zlen; simpl length; lia. Qed.

Lemma zlen_nil {A} : zlen (@nil A) = 0.
Proof. reflexivity. Qed.

Lemma zlen_0 {A} (l : list A) : zlen l = 0 -> l = [].
Proof. destruct l; [auto|]. rewrite zlen_cons. pose proof (zlen_nonneg l); lia. Qed.

Lemma zlen_zeros n : 0 <= n -> zlen (zeros n) = n.
Proof. intros; unfold zlen, zeros; rewrite repeat_length; lia. Qed.

Lemma zlen_map {A B} (f : A -> B) l : zlen (map f l) = zlen l.
Proof. unfold zlen; rewrite map_length; reflexivity. Qed.

Lemma ztake_zdrop {A} n (l : list A) : ztake n l ++ zdrop n l = l.
Proof. apply firstn_skipn. Qed.

Lemma zlen_ztake {A} n (l : list A) : 0 <= n <= zlen l -> zlen (ztake n l) = n.
Proof. unfold zlen, ztake; intros. rewrite firstn_length. lia. Qed.

Lemma zlen_zdrop {A} n (l : list A) : 0 <= n <= zlen l -> zlen (zdrop n l) = zlen l - n.
Proof. unfold zlen, zdrop; intros. rewrite skipn_length. lia. Qed.

Lemma zdrop_all {A} n (l : list A) : zlen l <= n -> zdrop n l = [].
Proof. unfold zlen, zdrop; intros; apply skipn_all2; lia. Qed.

Lemma ztake_all {A} n (l : list A) : zlen l <= n -> ztake n l = l.
Proof. unfold zlen, ztake; intros; apply firstn_all2; lia. Qed.

Lemma zdrop_0 {A} (l : list A) : zdrop 0 l = l.
Proof. reflexivity. Qed.

Lemma ztake_0 {A} (l : list A) : ztake 0 l = [].
Proof. reflexivity. Qed.

Lemma zdrop_app {A} (a b : list A) : zdrop (zlen a) (a ++ b) = b.
Proof.
  unfold zdrop, zlen. rewrite Nat2Z.id, skipn_app, skipn_all, Nat.sub_diag. reflexivity.
Qed.

Lemma ztake_app {A} (a b : list A) : ztake (zlen a) (a ++ b) = a.
Proof.
  unfold ztake, zlen. rewrite Nat2Z.id, firstn_app, firstn_all, Nat.sub_diag.
  simpl. apply app_nil_r.
Qed.

Lemma zdrop_app_eq {A} n (a b : list A) : n = zlen a -> zdrop n (a ++ b) = b.
Proof. intros ->; apply zdrop_app. Qed.

Lemma ztake_app_eq {A} n (a b : list A) : n = zlen a -> ztake n (a ++ b) = a.
Proof. intros ->; apply ztake_app. Qed.

Lemma zdrop_app_ge {A} n (a b : list A) :
  zlen a <= n -> zdrop n (a ++ b) = zdrop (n - zlen a) b.
Proof.
  unfold zdrop, zlen; intros. rewrite skipn_app.
  rewrite skipn_all2 by lia. simpl. f_equal. lia.
Qed.

Lemma zdrop_app_le {A} n (a b : list A) :
  0 <= n <= zlen a -> zdrop n (a ++ b) = zdrop n a ++ b.
Proof.
  unfold zdrop, zlen; intros. rewrite skipn_app.
  replace (Z.to_nat n - length a)%nat with 0%nat by lia. reflexivity.
Qed.

Lemma ztake_app_le {A} n (a b : list A) :
  0 <= n <= zlen a -> ztake n (a ++ b) = ztake n a.
Proof.
  unfold ztake, zlen; intros. rewrite firstn_app.
  replace (Z.to_nat n - length a)%nat with 0%nat by lia. simpl. apply app_nil_r.
Qed.

Lemma ztake_app_ge {A} n (a b : list A) :
  zlen a <= n -> ztake n (a ++ b) = a ++ ztake (n - zlen a) b.
Proof.
  unfold ztake, zlen; intros. rewrite firstn_app. rewrite firstn_all2 by lia.
  f_equal. f_equal. lia.
Qed.

Lemma zdrop_zdrop {A} a b (l : list A) : 0 <= a -> 0 <= b -> zdrop a (zdrop b l) = zdrop (a + b) l.
Proof.
  unfold zdrop; intros. replace (Z.to_nat (a + b)) with (Z.to_nat b + Z.to_nat a)%nat by lia.
  generalize (Z.to_nat b) as m. intro m. revert l. induction m; intros l; simpl; auto.
  destruct l; simpl; auto. apply skipn_nil.
Qed.

Lemma zslice_mid {A} (a b c : list A) :
  zslice (zlen a) (zlen a + zlen b) (a ++ b ++ c) = b.
Proof.
  unfold zslice. rewrite zdrop_app. replace (zlen a + zlen b - zlen a) with (zlen b) by lia.
  apply ztake_app.
Qed.

Lemma zslice_mid_eq {A} n m (a b c : list A) :
  n = zlen a -> m = zlen a + zlen b -> zslice n m (a ++ b ++ c) = b.
Proof. intros -> ->; apply zslice_mid. Qed.

Lemma bytes_ok_app a b : bytes_ok (a ++ b) <-> bytes_ok a /\ bytes_ok b.
Proof. apply Forall_app. Qed.

Lemma bytes_ok_zeros n : bytes_ok (zeros n).
Proof. unfold bytes_ok, zeros. apply Forall_forall. intros x H. apply repeat_spec in H. subst; unfold byte_ok; lia. Qed.

Lemma le_bytes_len n v : length (le_bytes n v) = n.
Proof. revert v; induction n; simpl; intros; auto. Qed.

Lemma zlen_le_bytes n v : zlen (le_bytes n v) = Z.of_nat n.
Proof. unfold zlen; rewrite le_bytes_len; reflexivity. Qed.

Lemma le_bytes_ok n v : bytes_ok (le_bytes n v).
Proof.
  revert v; induction n; simpl; intros; constructor.
  - apply Z.mod_pos_bound; lia.
  - apply IHn.
Qed.

Lemma le_val_bytes n v : le_val (le_bytes n v) = v mod 256 ^ Z.of_nat n.
Proof.
  revert v; induction n; intros v.
  - simpl. rewrite Z.mod_1_r. reflexivity.
  - change (le_val (le_bytes (S n) v)) with (v mod 256 + 256 * le_val (le_bytes n (v / 256))).
    rewrite IHn. rewrite Nat2Z.inj_succ, Z.pow_succ_r by lia.
    rewrite Z.rem_mul_r by (try lia; apply Z.pow_pos_nonneg; lia). reflexivity.
Qed.

Lemma le_val_range bs : bytes_ok bs -> 0 <= le_val bs < 256 ^ zlen bs.
Proof.
  induction 1 as [|b bs Hb _ IH].
  - simpl. unfold zlen; simpl. lia.
  - rewrite zlen_cons. replace (1 + zlen bs) with (Z.succ (zlen bs)) by lia.
    rewrite Z.pow_succ_r by apply zlen_nonneg. cbn [le_val]. unfold byte_ok in Hb.
    generalize dependent (256 ^ zlen bs). intros; lia.
Qed.

Lemma le_bytes_val bs : bytes_ok bs -> le_bytes (length bs) (le_val bs) = bs.
Proof.
  induction 1 as [|b bs Hb _ IH]; simpl; auto. unfold byte_ok in Hb. f_equal.
  - rewrite Z.mul_comm, Z.mod_add by lia. apply Z.mod_small; lia.
  - rewrite Z.mul_comm, Z.div_add by lia. rewrite Z.div_small by lia. rewrite Z.add_0_l. exact IH.
Qed.

Lemma le_val_bytes_small n v : 0 <= v < 256 ^ Z.of_nat n -> le_val (le_bytes n v) = v.
Proof. intros; rewrite le_val_bytes; apply Z.mod_small; auto. Qed.

Lemma le_val_app a b : le_val (a ++ b) = le_val a + 256 ^ zlen a * le_val b.
Proof.
  induction a as [|x a IH]; simpl app.
  - unfold zlen; simpl. lia.
  - rewrite zlen_cons. replace (1 + zlen a) with (Z.succ (zlen a)) by lia.
    rewrite Z.pow_succ_r by apply zlen_nonneg. cbn [le_val]. rewrite IH. ring.
Qed.

Lemma beq_true a b : beq a b = true <-> a = b.
Proof.
  revert b; induction a as [|x a IH]; destruct b as [|y b]; simpl; try (split; congruence); try tauto.
  rewrite andb_true_iff, Z.eqb_eq, IH. split; [intros []; congruence|]. intros E; inversion E; auto.
Qed.

Lemma beq_refl a : beq a a = true.
Proof. apply beq_true; reflexivity. Qed.

Lemma beq_false a b : beq a b = false <-> a <> b.
Proof. rewrite <- beq_true. destruct (beq a b); split; congruence. Qed.

Lemma zsum_app a b : zsum (a ++ b) = zsum a + zsum b.
Proof. unfold zsum. induction a; simpl; lia. Qed.

Lemma zsum_cons x l : zsum (x :: l) = x + zsum l.
Proof. reflexivity. Qed.

Lemma znth_Some_lt {A} n (l : list A) x : znth n l = Some x -> 0 <= n < zlen l.
Proof.
  unfold znth, zlen. destruct (Z.ltb_spec n 0); [discriminate|]. intros E.
  assert (nth_error l (Z.to_nat n) <> None) by congruence.
  apply nth_error_Some in H0. lia.
Qed.

Lemma znth_lt_Some {A} n (l : list A) : 0 <= n < zlen l -> exists x, znth n l = Some x.
Proof.
  unfold znth, zlen. intros H. destruct (Z.ltb_spec n 0); [lia|].
  destruct (nth_error l (Z.to_nat n)) eqn:E; eauto.
  apply nth_error_None in E. lia.
Qed.

Lemma znth_None {A} n (l : list A) : n < 0 \/ zlen l <= n <-> znth n l = None.
Proof.
  unfold znth, zlen. destruct (Z.ltb_spec n 0).
  - split; auto.
  - rewrite nth_error_None. lia.
Qed.

Lemma znth_app_r {A} n (a b : list A) : zlen a <= n -> znth n (a ++ b) = znth (n - zlen a) b.
Proof.
  unfold znth, zlen; intros. destruct (Z.ltb_spec n 0), (Z.ltb_spec (n - Z.of_nat (length a)) 0); try lia.
  rewrite nth_error_app2 by lia. f_equal. lia.
Qed.

Lemma znth_app_l {A} n (a b : list A) : n < zlen a -> znth n (a ++ b) = znth n a.
Proof.
  unfold znth, zlen; intros. destruct (Z.ltb_spec n 0); auto.
  apply nth_error_app1. lia.
Qed.

Lemma znth_mid {A} (a : list A) x b : znth (zlen a) (a ++ x :: b) = Some x.
Proof. rewrite znth_app_r by lia. rewrite Z.sub_diag. reflexivity. Qed.

Lemma znth_In {A} n (l : list A) x : znth n l = Some x -> In x l.
Proof. unfold znth. destruct (n <? 0); [discriminate|]. apply nth_error_In. Qed.

Lemma znth_map {A B} (f : A -> B) n l : znth n (map f l) = option_map f (znth n l).
Proof. unfold znth. destruct (n <? 0); auto. apply nth_error_map. Qed.

Lemma concat_snoc {A} (l : list (list A)) x : concat (l ++ [x]) = concat l ++ x.
Proof. rewrite concat_app. simpl. rewrite app_nil_r. reflexivity. Qed.

#[global] Arguments le_bytes : simpl never.
