(** C50, continued: what lossy decoding gives, exactly. *)
From Coq Require Import ZArith List Lia Bool.
From Verif Require Import M_Base F_Base M_Utf8 S_Utf8 F_Utf8 S_Lossy.
Import ListNotations.
Open Scope Z_scope.

Lemma starts_prefix p q : starts (p ++ q) -> starts p.
Proof. intros (c & t & Hc & E). exists c, (q ++ t). rewrite app_assoc. auto. Qed.
Lemma step_starts p q n : bytes_ok (p ++ q) -> p <> [] -> utf8_step (p ++ q) = (true, n) -> (length p <= n)%nat -> starts p.
Proof.
  intros OK Hp E L. destruct (step_valid_inv (p ++ q) n OK) as (c & rest & Hc & Eq & En); [destruct p; [congruence|discriminate]|auto|].
  exists c. assert (firstn (length (encode c)) (p ++ q) = encode c) as F by (rewrite Eq; apply firstn_len).
  rewrite firstn_app in F. rewrite firstn_all2 in F by lia. eexists. split; [auto|]. symmetry. exact F.
Qed.

Ltac conds :=
  repeat match goal with
  | H : (_, _) = (_, _) |- _ => inversion H; clear H; subst
  | H : context [if ?b <? 128 then _ else _] |- _ => destruct (Z.ltb_spec b 128)
  | H : context [if between ?a ?b ?c then _ else _] |- _ =>
      let E := fresh "E" in destruct (between a b c) eqn:E
  | H : context [if is_cont ?c then _ else _] |- _ => let E := fresh "E" in destruct (is_cont c) eqn:E
  | H : context [if second3 ?c ?d then _ else _] |- _ => let E := fresh "E" in destruct (second3 c d) eqn:E
  | H : context [if second4 ?c ?d then _ else _] |- _ => let E := fresh "E" in destruct (second4 c d) eqn:E
  | H : context [match ?r with [] => _ | _ => _ end] |- _ => destruct r
  end; try discriminate.

(** the step is decided by the skipped bytes and the next one *)
Lemma step_false_local bs n b r t : utf8_step bs = (false, n) -> bs = firstn n bs ++ b :: r -> utf8_step (firstn n bs ++ b :: t) = (false, n).
Proof.
  intros H E. destruct bs as [|b0 bs]; [discriminate|]. unfold utf8_step in H. conds; cbn [firstn app] in *; inversion E; subst;
    unfold utf8_step; rewrite ?E0, ?E1, ?E2, ?E3, ?E4, ?E5; destruct (Z.ltb_spec b0 128); try lia; try reflexivity; try congruence.
Qed.

Definition lead (b : Z) : bool := between 194 244 b.
Lemma lead_starts b : lead b = true -> starts [b].
Proof.
  unfold lead. intros H. apply between_true in H.
  assert (exists q n, bytes_ok ([b] ++ q) /\ utf8_step ([b] ++ q) = (true, n) /\ (1 <= n)%nat) as (q & n & OK & E & L).
  { exists [if b =? 224 then 160 else if b =? 240 then 144 else 128; 128; 128].
    destruct (Z.leb_spec b 223); [exists 2%nat|destruct (Z.leb_spec b 239); [exists 3%nat|exists 4%nat]]; (split; [|split; [|lia]]).
    1,3,5: unfold bytes_ok, byte_ok; repeat constructor; repeat destruct (_ =? _); lia.
    all: cbn [app]; unfold utf8_step, second3, second4, is_cont, between;
      repeat match goal with |- context [?x =? ?y] => destruct (Z.eqb_spec x y); try lia | |- context [?x <? ?y] => destruct (Z.ltb_spec x y); try lia
        | |- context [?x <=? ?y] => destruct (Z.leb_spec x y); try lia end; try reflexivity; cbn; lia. }
  eapply (step_starts [b] q n); auto. discriminate.
Qed.
Lemma starts2 b0 b1 : byte_ok b0 -> byte_ok b1 -> (between 224 239 b0 = true /\ second3 b0 b1 = true \/ between 240 244 b0 = true /\ second4 b0 b1 = true) -> starts [b0; b1].
Proof.
  intros O0 O1 H. assert (bytes_ok ([b0; b1] ++ [128; 128])) as OK by (repeat constructor; auto; unfold byte_ok in *; lia).
  destruct H as [(H1 & H2)|(H1 & H2)].
  - eapply (step_starts [b0; b1] [128; 128] 3); auto; [discriminate|]. cbn [app]. unfold utf8_step. rewrite H1, H2. apply between_true in H1.
    destruct (Z.ltb_spec b0 128); [lia|]. destruct (between 194 223 b0) eqn:E; [apply between_true in E; lia|]. reflexivity.
  - eapply (step_starts [b0; b1] [128; 128] 4); auto; [discriminate|]. cbn [app]. unfold utf8_step. rewrite H1, H2. apply between_true in H1.
    destruct (Z.ltb_spec b0 128); [lia|]. destruct (between 194 223 b0) eqn:E; [apply between_true in E; lia|].
    destruct (between 224 239 b0) eqn:E'; [apply between_true in E'; lia|]. reflexivity.
Qed.
Lemma starts3 b0 b1 b2 : byte_ok b0 -> byte_ok b1 -> byte_ok b2 -> between 240 244 b0 = true -> second4 b0 b1 = true -> is_cont b2 = true -> starts [b0; b1; b2].
Proof.
  intros O0 O1 O2 H1 H2 H3. assert (bytes_ok ([b0; b1; b2] ++ [128])) as OK by (repeat constructor; auto; unfold byte_ok in *; lia).
  eapply (step_starts [b0; b1; b2] [128] 4); auto; [discriminate|]. cbn [app]. unfold utf8_step. rewrite H1, H2, H3. apply between_true in H1.
  destruct (Z.ltb_spec b0 128); [lia|]. destruct (between 194 223 b0) eqn:E; [apply between_true in E; lia|].
  destruct (between 224 239 b0) eqn:E'; [apply between_true in E'; lia|]. reflexivity.
Qed.

Lemma not_char bs n c t : utf8_step bs = (false, n) -> scalar c -> bs <> encode c ++ t.
Proof. intros H Hc ->. rewrite step_encode in H by auto. discriminate. Qed.

Lemma step_false_bad bs n : bytes_ok bs -> utf8_step bs = (false, n) -> bad_piece (firstn n bs) (skipn n bs).
Proof.
  intros OK H. assert (bs <> []) as NE by (intros ->; discriminate). pose proof (step_progress bs NE) as L. rewrite H in L. cbn [snd] in L. split.
  - destruct bs as [|b0 bs]; [congruence|]. destruct n; [lia|]. discriminate.
  - assert (forall b r, skipn n bs = b :: r -> ~ starts (firstn n bs ++ [b])) as M.
    { intros b r Er (c & t & Hc & Ec). pose proof (step_encode c [] Hc) as S. rewrite app_nil_r, Ec, <- app_assoc in S. cbn [app] in S.
      rewrite (step_false_local bs n b r t H) in S; [discriminate|]. rewrite <- Er. symmetry. apply firstn_skipn. }
    destruct bs as [|b0 bs]; [congruence|]. unfold bytes_ok in OK. inversion OK as [|? ? O0 OK1]; subst.
    unfold utf8_step in H. conds; cbn [firstn skipn] in *;
      try (left; split; [|exact M]; first
        [ apply lead_starts; unfold lead, between in *; rewrite !andb_true_iff, !Z.leb_le in *; lia
        | inversion OK1 as [|? ? O1 OK2]; subst; apply starts2; [assumption|assumption|]; first [left; split; assumption|right; split; assumption]
        | inversion OK1 as [|? ? O1 OK2]; subst; inversion OK2; subst; apply starts3; assumption ]).
    right. split; [reflexivity|]. intros (c & t & Hc & Ec). pose proof (step_encode c [] Hc) as S. rewrite app_nil_r, Ec in S.
    cbn [app] in S. unfold utf8_step in S. rewrite E, E0, E1 in S. destruct (Z.ltb_spec b0 128); [lia|discriminate].
Qed.

Lemma bad_unique p rest p' rest' : p ++ rest = p' ++ rest' -> bad_piece p rest -> bad_piece p' rest' -> p = p'.
Proof.
  assert (forall p rest p' rest', p ++ rest = p' ++ rest' -> bad_piece p rest -> bad_piece p' rest' -> (length p < length p')%nat -> False) as K.
  { clear. intros p rest p' rest' E (NE & B) (NE' & B') L.
    assert (exists b q, p' = p ++ b :: q) as (b & q & ->).
    { assert (p' = p ++ skipn (length p) p') as F.
      { rewrite <- (firstn_skipn (length p) p') at 1. f_equal. apply (f_equal (firstn (length p))) in E. rewrite firstn_len, firstn_app in E.
        replace (length p - length p')%nat with O in E by lia. cbn [firstn] in E. rewrite app_nil_r in E. congruence. }
      destruct (skipn (length p) p') as [|b q]; [rewrite app_nil_r in F; subst; lia|]. eauto. }
    assert (starts (p ++ b :: q)) as S.
    { destruct B' as [(S & _)|(Z1 & _)]; [auto|]. rewrite zlen_app, zlen_cons in Z1. pose proof (zlen_nonneg q). destruct p; [congruence|]. rewrite zlen_cons in Z1. pose proof (zlen_nonneg p). lia. }
    destruct B as [(_ & M)|(_ & N)].
    - rewrite <- app_assoc in E. apply app_inv_head in E. apply (M b (q ++ rest')); [exact E|]. apply (starts_prefix (p ++ [b]) q). rewrite <- app_assoc. exact S.
    - apply N. eapply starts_prefix; eauto. }
  intros E B B'. destruct (Nat.lt_trichotomy (length p) (length p')) as [L|[L|L]].
  - exfalso; eauto.
  - apply (f_equal (firstn (length p))) in E. rewrite firstn_len, L, firstn_len in E. exact E.
  - exfalso. eapply K; [symmetry; exact E| | |exact L]; auto.
Qed.

Lemma lossy_decoded fuel : forall bs, bytes_ok bs -> (length bs <= fuel)%nat -> decoded bs (lossy_fuel fuel bs).
Proof.
  induction fuel as [|f IH]; intros bs OK L; destruct bs as [|b bs]; [constructor|cbn in L; lia|constructor|].
  assert (b :: bs <> []) as NE by discriminate. pose proof (step_progress (b :: bs) NE) as P.
  set (w := b :: bs) in *. change (lossy_fuel (S f) w) with (let '(ok, n) := utf8_step w in (if ok then firstn n w else replacement) ++ lossy_fuel f (skipn n w)).
  destruct (utf8_step w) as [[|] n] eqn:E; cbn [snd] in P.
  - destruct (step_valid_inv w n OK NE E) as (c & rest & Hc & Ew & ->). rewrite Ew, skipn_len, firstn_len. apply dec_char; [auto|].
    apply IH; [rewrite Ew in OK; apply bytes_ok_app in OK; tauto|]. apply (f_equal (@length Z)) in Ew. rewrite app_length in Ew. lia.
  - rewrite <- (firstn_skipn n w) at 1. change replacement with (encode 65533). apply dec_bad.
    + rewrite firstn_skipn. intros c t. apply (not_char w n c t E).
    + apply step_false_bad; auto.
    + apply IH; [rewrite <- (firstn_skipn n w) in OK; apply bytes_ok_app in OK; tauto|]. rewrite skipn_length. lia.
Qed.
Lemma decoded_unique bs out : bytes_ok bs -> decoded bs out -> forall out', decoded bs out' -> out = out'.
Proof.
  intros OK H. induction H as [|c rest out Hc H IH|p rest out NC B H IH]; intros out' H'.
  - inversion H' as [|c rest o Hc H0 E|p rest o NC B H0 E]; [reflexivity| |].
    + destruct (encode c) eqn:Ee; [pose proof (encode_len c); rewrite Ee in *; cbn in *; lia|discriminate].
    + destruct p; [destruct B; congruence|discriminate].
  - assert (bytes_ok rest) as Or by (apply bytes_ok_app in OK; tauto). inversion H' as [E|c' rest' o Hc' H0 E|p rest' o NC B H0 E].
    + destruct (encode c) eqn:Ee; [pose proof (encode_len c); rewrite Ee in *; cbn in *; lia|discriminate].
    + pose proof (step_encode c rest Hc) as S. rewrite <- E, step_encode in S by auto. injection S as S.
      assert (encode c' = encode c /\ rest' = rest) as (E1 & E2).
      { pose proof E as E'. apply (f_equal (firstn (length (encode c)))) in E. rewrite firstn_len, <- S, firstn_len in E.
        rewrite E in E'. apply app_inv_head in E'. auto. }
      subst rest'. rewrite E1. f_equal. auto.
    + destruct (NC c rest Hc). auto.
  - assert (bytes_ok rest) as Or by (apply bytes_ok_app in OK; tauto). inversion H' as [E|c' rest' o Hc' H0 E|p' rest' o NC' B' H0 E].
    + destruct p; [destruct B; congruence|discriminate].
    + destruct (NC c' rest' Hc'). auto.
    + assert (p' = p) by (eapply bad_unique; eauto). subst p'. apply app_inv_head in E. subst rest'. f_equal. auto.
Qed.

(** Lossy decoding keeps the characters and replaces every maximal ill-formed piece by U+FFFD. *)
Theorem C50_lossy_exact : forall bs, bytes_ok bs -> forall out, decoded bs out <-> out = lossy bs.
Proof.
  intros bs OK out. pose proof (lossy_decoded (length bs) bs OK (Nat.le_refl _)) as D. split.
  - intros H. eapply decoded_unique; eauto.
  - intros ->. exact D.
Qed.
Print Assumptions C50_lossy_exact.

Example ex_C50_lossy : decoded [65; 240; 159; 66; 192; 175; 237; 160; 128; 226; 130; 172; 226; 130]
  ([65] ++ encode 65533 ++ [66] ++ encode 65533 ++ encode 65533 ++ encode 65533 ++ encode 65533 ++ encode 65533 ++ [226; 130; 172] ++ encode 65533).
Proof.
  apply C50_lossy_exact; [|vm_compute; reflexivity]. repeat constructor; lia.
Qed.
