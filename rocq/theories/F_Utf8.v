From Coq Require Import ZArith List Lia Bool.
From Verif Require Import M_Base F_Base M_Utf8 S_Utf8.
Import ListNotations.
Open Scope Z_scope.

Lemma between_true lo hi b : between lo hi b = true <-> lo <= b <= hi.
Proof. unfold between. rewrite andb_true_iff, !Z.leb_le. tauto. Qed.
Lemma between_false lo hi b : between lo hi b = false <-> b < lo \/ hi < b.
Proof. unfold between. rewrite andb_false_iff, !Z.leb_gt. tauto. Qed.

Ltac bcase :=
  repeat match goal with
  | |- context [?a <? ?b] => destruct (Z.ltb_spec a b); try lia
  | |- context [?a =? ?b] => destruct (Z.eqb_spec a b); try lia
  | |- context [between ?a ?b ?c] =>
      let E := fresh "E" in destruct (between a b c) eqn:E;
      [apply between_true in E; try lia | apply between_false in E; try lia]
  end.

Ltac divmod := Z.to_euclidean_division_equations; lia.

Lemma step_encode c rest : scalar c ->
  utf8_step (encode c ++ rest) = (true, length (encode c)).
Proof.
  intros Hc. unfold scalar in Hc. unfold encode.
  destruct (Z.ltb_spec c 128).
  { simpl. destruct (Z.ltb_spec c 128); [auto|lia]. }
  destruct (Z.ltb_spec c 2048).
  { assert (194 <= 192 + c / 64 <= 223) by divmod.
    assert (128 <= 128 + c mod 64 <= 191) by divmod.
    simpl. unfold is_cont. bcase. auto. }
  destruct (Z.ltb_spec c 65536).
  { assert (224 <= 224 + c / 4096 <= 239) by divmod.
    assert (128 <= 128 + c mod 64 <= 191) by divmod.
    assert (128 <= 128 + (c / 64) mod 64 <= 191) by divmod.
    assert (224 + c / 4096 = 224 -> 160 <= 128 + (c / 64) mod 64) by divmod.
    assert (224 + c / 4096 = 237 -> 128 + (c / 64) mod 64 <= 159) by divmod.
    simpl. unfold second3, is_cont. bcase; auto. }
  assert (240 <= 240 + c / 262144 <= 244) by divmod.
  assert (128 <= 128 + c mod 64 <= 191) by divmod.
  assert (128 <= 128 + (c / 64) mod 64 <= 191) by divmod.
  assert (128 <= 128 + (c / 4096) mod 64 <= 191) by divmod.
  assert (240 + c / 262144 = 240 -> 144 <= 128 + (c / 4096) mod 64) by divmod.
  assert (240 + c / 262144 = 244 -> 128 + (c / 4096) mod 64 <= 143) by divmod.
  simpl. unfold second4, is_cont. bcase; auto.
Qed.

Lemma encode_len c : (1 <= length (encode c))%nat.
Proof.
  unfold encode. destruct (c <? 128); [simpl; lia|]. destruct (c <? 2048); [simpl; lia|].
  destruct (c <? 65536); simpl; lia.
Qed.

Lemma skipn_len {A} (a b : list A) : skipn (length a) (a ++ b) = b.
Proof. rewrite skipn_app, skipn_all, Nat.sub_diag. reflexivity. Qed.
Lemma firstn_len {A} (a b : list A) : firstn (length a) (a ++ b) = a.
Proof. rewrite firstn_app, firstn_all, Nat.sub_diag. simpl. apply app_nil_r. Qed.

Lemma step_valid_inv bs n : bytes_ok bs -> bs <> [] -> utf8_step bs = (true, n) ->
  exists c rest, scalar c /\ bs = encode c ++ rest /\ n = length (encode c).
Proof.
  intros Hb Hne H. destruct bs as [|b0 r0]; [congruence|]. clear Hne.
  inversion Hb as [|? ? H0 Hr0]; subst. unfold byte_ok in H0. simpl in H.
  destruct (Z.ltb_spec b0 128).
  { exists b0, r0. unfold encode, scalar. destruct (Z.ltb_spec b0 128); [|lia].
    inversion H; subst. simpl; repeat split; auto; lia. }
  destruct (between 194 223 b0) eqn:E0.
  { apply between_true in E0. destruct r0 as [|b1 r1]; [discriminate|].
    destruct (is_cont b1) eqn:E1; [|discriminate]. apply between_true in E1. inversion H; subst.
    exists ((b0 - 192) * 64 + (b1 - 128)), r1. unfold encode, scalar.
    destruct (Z.ltb_spec ((b0 - 192) * 64 + (b1 - 128)) 128); [lia|].
    destruct (Z.ltb_spec ((b0 - 192) * 64 + (b1 - 128)) 2048); [|lia].
    split; [lia|]. split; auto. simpl. f_equal; [divmod|]. f_equal. divmod. }
  destruct (between 224 239 b0) eqn:E0'.
  { apply between_true in E0'. destruct r0 as [|b1 r1]; [discriminate|].
    destruct (second3 b0 b1) eqn:E1; [|discriminate].
    destruct r1 as [|b2 r2]; [discriminate|].
    destruct (is_cont b2) eqn:E2; [|discriminate]. apply between_true in E2. inversion H; subst.
    assert (Hb1 : 128 <= b1 <= 191 /\ (b0 = 224 -> 160 <= b1) /\ (b0 = 237 -> b1 <= 159)).
    { unfold second3, is_cont in E1. destruct (Z.eqb_spec b0 224), (Z.eqb_spec b0 237);
      apply between_true in E1; lia. }
    exists ((b0 - 224) * 4096 + (b1 - 128) * 64 + (b2 - 128)), r2. unfold encode, scalar.
    set (c := (b0 - 224) * 4096 + (b1 - 128) * 64 + (b2 - 128)) in *.
    assert (2048 <= c < 65536) by (unfold c; lia).
    destruct (Z.ltb_spec c 128); [lia|]. destruct (Z.ltb_spec c 2048); [lia|].
    destruct (Z.ltb_spec c 65536); [|lia].
    split; [unfold c; lia|]. split; auto. simpl.
    f_equal; [unfold c; divmod|]. f_equal; [unfold c; divmod|]. f_equal. unfold c; divmod. }
  destruct (between 240 244 b0) eqn:E0''; [|discriminate].
  apply between_true in E0''. destruct r0 as [|b1 r1]; [discriminate|].
  destruct (second4 b0 b1) eqn:E1; [|discriminate].
  destruct r1 as [|b2 r2]; [discriminate|].
  destruct (is_cont b2) eqn:E2; [|discriminate].
  destruct r2 as [|b3 r3]; [discriminate|].
  destruct (is_cont b3) eqn:E3; [|discriminate].
  apply between_true in E2. apply between_true in E3. inversion H; subst.
  assert (Hb1 : 128 <= b1 <= 191 /\ (b0 = 240 -> 144 <= b1) /\ (b0 = 244 -> b1 <= 143)).
  { unfold second4, is_cont in E1. destruct (Z.eqb_spec b0 240), (Z.eqb_spec b0 244);
    apply between_true in E1; lia. }
  exists ((b0 - 240) * 262144 + (b1 - 128) * 4096 + (b2 - 128) * 64 + (b3 - 128)), r3. unfold encode, scalar.
  set (c := (b0 - 240) * 262144 + (b1 - 128) * 4096 + (b2 - 128) * 64 + (b3 - 128)) in *.
  assert (65536 <= c < 1114112) by (unfold c; lia).
  destruct (Z.ltb_spec c 128); [lia|]. destruct (Z.ltb_spec c 2048); [lia|].
  destruct (Z.ltb_spec c 65536); [lia|].
  split; [lia|]. split; auto. simpl.
  f_equal; [unfold c; divmod|]. f_equal; [unfold c; divmod|]. f_equal; [unfold c; divmod|]. f_equal. unfold c; divmod.
Qed.

Lemma encode_bytes_ok c : scalar c -> bytes_ok (encode c).
Proof.
  intros Hc. unfold scalar in Hc. unfold encode, bytes_ok, byte_ok.
  destruct (Z.ltb_spec c 128); [repeat constructor; lia|].
  destruct (Z.ltb_spec c 2048); [repeat constructor; divmod|].
  destruct (Z.ltb_spec c 65536); repeat constructor; divmod.
Qed.

Lemma utf8_bytes_ok s : utf8 s -> bytes_ok s.
Proof.
  intros (cs & H & ->). induction H; simpl; [constructor|]. apply bytes_ok_app. split; auto.
  apply encode_bytes_ok; auto.
Qed.

Lemma utf8_nil : utf8 [].
Proof. exists []. split; constructor. Qed.
Lemma utf8_app a b : utf8 a -> utf8 b -> utf8 (a ++ b).
Proof.
  intros (ca & Ha & ->) (cb & Hb & ->). exists (ca ++ cb). split; [apply Forall_app; auto|].
  symmetry. apply flat_map_app.
Qed.
Lemma utf8_ascii c : 0 <= c < 128 -> utf8 [c].
Proof.
  intros H. exists [c]. split; [constructor; [left; lia|constructor]|]. simpl. unfold encode.
  destruct (Z.ltb_spec c 128); [auto|lia].
Qed.
Lemma utf8_ascii_list l : Forall (fun c => 0 <= c < 128) l -> utf8 l.
Proof.
  induction 1; [apply utf8_nil|]. apply (utf8_app [x] l); auto. apply utf8_ascii; auto.
Qed.

Lemma valid_fuel_encodes cs : Forall scalar cs -> forall fuel,
  (length (flat_map encode cs) <= fuel)%nat -> utf8_valid_fuel fuel (flat_map encode cs) = true.
Proof.
  induction 1 as [|c cs Hc _ IH]; intros fuel Hf; [destruct fuel; reflexivity|].
  simpl in *. pose proof (encode_len c).
  rewrite app_length in Hf. destruct fuel as [|fuel]; [lia|].
  destruct (encode c ++ flat_map encode cs) as [|x l] eqn:E.
  { destruct (encode c); simpl in *; [lia|discriminate]. }
  cbn [utf8_valid_fuel]. rewrite <- E, step_encode by auto. rewrite skipn_len. apply IH. lia.
Qed.

Lemma valid_fuel_sound fuel : forall bs, bytes_ok bs -> utf8_valid_fuel fuel bs = true -> utf8 bs.
Proof.
  induction fuel; intros bs Hb H.
  - destruct bs; [apply utf8_nil|discriminate].
  - destruct bs as [|b bs]; [apply utf8_nil|]. cbn [utf8_valid_fuel] in H.
    destruct (utf8_step (b :: bs)) as [ok n] eqn:E. destruct ok; [|discriminate].
    destruct (step_valid_inv (b :: bs) n Hb ltac:(discriminate) E) as (c & rest & Hc & Eb & ->).
    rewrite Eb in *. rewrite skipn_len in H. apply bytes_ok_app in Hb.
    apply utf8_app.
    + exists [c]. simpl. rewrite app_nil_r. split; auto.
    + apply IHfuel; tauto.
Qed.

Lemma utf8_valid_iff bs : bytes_ok bs -> utf8_valid bs = true <-> utf8 bs.
Proof.
  intros Hb. split.
  - apply valid_fuel_sound; auto.
  - intros (cs & H & ->). apply valid_fuel_encodes; auto.
Qed.

Lemma utf8_valid_true s : utf8 s -> utf8_valid s = true.
Proof. intros H. apply utf8_valid_iff; auto. apply utf8_bytes_ok; auto. Qed.

Lemma lossy_fuel_encodes cs : Forall scalar cs -> forall fuel,
  (length (flat_map encode cs) <= fuel)%nat -> lossy_fuel fuel (flat_map encode cs) = flat_map encode cs.
Proof.
  induction 1 as [|c cs Hc _ IH]; intros fuel Hf; [destruct fuel; reflexivity|].
  simpl in *. pose proof (encode_len c).
  rewrite app_length in Hf. destruct fuel as [|fuel]; [lia|].
  destruct (encode c ++ flat_map encode cs) as [|x l] eqn:E.
  { destruct (encode c); simpl in *; [lia|discriminate]. }
  cbn [lossy_fuel]. rewrite <- E, step_encode by auto. rewrite skipn_len, firstn_len. rewrite IH by lia. auto.
Qed.

Lemma lossy_id s : utf8 s -> lossy s = s.
Proof. intros (cs & H & ->). apply lossy_fuel_encodes; auto. Qed.

Lemma step_progress bs : bs <> [] -> (1 <= snd (utf8_step bs) <= length bs)%nat.
Proof.
  destruct bs as [|b0 [|b1 [|b2 [|b3 r]]]]; intros H; [congruence|..]; simpl;
  repeat match goal with |- context [if ?b then _ else _] => destruct b end; simpl; lia.
Qed.

Lemma utf8_replacement : utf8 replacement.
Proof. exists [65533]. split; [constructor; [right; lia|constructor]|reflexivity]. Qed.

(** lossy decoding always yields a valid string *)
Lemma lossy_fuel_utf8 fuel : forall bs, bytes_ok bs -> utf8 (lossy_fuel fuel bs).
Proof.
  induction fuel; intros bs Hb; destruct bs as [|b bs]; try apply utf8_nil.
  cbn [lossy_fuel]. destruct (utf8_step (b :: bs)) as [ok n] eqn:E.
  assert (Hs : bytes_ok (skipn n (b :: bs))).
  { rewrite <- (firstn_skipn n (b :: bs)) in Hb. apply bytes_ok_app in Hb. tauto. }
  apply utf8_app; auto. destruct ok; [|apply utf8_replacement].
  destruct (step_valid_inv (b :: bs) n Hb ltac:(discriminate) E) as (c & rest & Hc & Eb & ->).
  rewrite Eb, firstn_len. exists [c]. simpl. rewrite app_nil_r. auto.
Qed.

(** every byte of a valid string is at most F4 *)
Lemma utf8_max s b : utf8 s -> In b s -> 0 <= b <= 244.
Proof.
  intros (cs & H & ->). induction H as [|c cs Hc _ IH]; simpl; [tauto|].
  rewrite in_app_iff. intros [Hb|Hb]; auto.
  unfold scalar in Hc. unfold encode in Hb.
  destruct (Z.ltb_spec c 128) as [H|H]. { destruct Hb as [<-|[]]; lia. }
  destruct (Z.ltb_spec c 2048) as [H1|H1].
  { simpl in Hb. destruct Hb as [E|[E|[]]]; divmod. }
  destruct (Z.ltb_spec c 65536) as [H2|H2]; simpl in Hb.
  - destruct Hb as [E|[E|[E|[]]]]; divmod.
  - destruct Hb as [E|[E|[E|[E|[]]]]]; divmod.
Qed.

Lemma encode_ascii_byte c x : scalar c -> 0 <= x < 128 -> In x (encode c) -> encode c = [x].
Proof.
  intros Hc Hx Hin. unfold scalar in Hc. unfold encode in *.
  destruct (Z.ltb_spec c 128) as [H|H]. { destruct Hin as [<-|[]]; auto. }
  exfalso.
  destruct (Z.ltb_spec c 2048) as [H1|H1].
  { simpl in Hin. destruct Hin as [E|[E|[]]]; divmod. }
  destruct (Z.ltb_spec c 65536) as [H2|H2]; simpl in Hin.
  - destruct Hin as [E|[E|[E|[]]]]; divmod.
  - destruct Hin as [E|[E|[E|[E|[]]]]]; divmod.
Qed.

(** cutting a valid string at an ASCII character leaves valid strings *)
Lemma utf8_split_ascii a x b : 0 <= x < 128 -> utf8 (a ++ x :: b) -> utf8 a /\ utf8 b.
Proof.
  intros Hx (cs & H & E). revert a E. induction H as [|c cs Hc Hcs IH]; intros a E.
  - destruct a; discriminate.
  - simpl in E.
    assert (Hcase : (exists a', a = encode c ++ a' /\ a' ++ x :: b = flat_map encode cs) \/
                    (exists z, encode c = a ++ x :: z /\ b = z ++ flat_map encode cs)).
    { clear IH Hc Hcs. revert a E. generalize (encode c) as e. induction e as [|y e IH]; intros a E.
      - left. exists a. auto.
      - destruct a as [|w a]; simpl in E; inversion E; subst.
        + right. exists e. auto.
        + destruct (IH a H1) as [(a' & -> & E')|(z & -> & E')]; [left; exists a'; split; auto|right; exists z; split; auto]. }
    destruct Hcase as [(a' & -> & E')|(z & Ez & ->)].
    + destruct (IH a' E') as [Ha Hb]. split; auto. apply utf8_app; auto.
      exists [c]. simpl. rewrite app_nil_r. auto.
    + assert (Hin : In x (encode c)) by (rewrite Ez; apply in_or_app; right; left; auto).
      apply encode_ascii_byte in Hin; auto. rewrite Hin in Ez.
      destruct a as [|w a].
      * inversion Ez; subst z. split; [apply utf8_nil|]. exists cs; auto.
      * inversion Ez. destruct a; discriminate.
Qed.

Lemma utf8_app_inv a b : utf8 a -> utf8 (a ++ b) -> utf8 b.
Proof.
  intros (ca & Ha & ->). revert b. induction Ha as [|c ca Hc _ IH]; intros b H; auto.
  simpl in H. rewrite <- app_assoc in H. apply IH.
  destruct H as (cs & Hcs & E). destruct Hcs as [|c' cs Hc' Hcs].
  { pose proof (encode_len c). destruct (encode c); simpl in *; [lia|discriminate]. }
  simpl in E. exists cs. split; auto.
  pose proof (step_encode c (flat_map encode ca ++ b) Hc) as S1.
  pose proof (step_encode c' (flat_map encode cs) Hc') as S2.
  rewrite E, S2 in S1. assert (Hl : length (encode c') = length (encode c)) by congruence.
  apply (f_equal (skipn (length (encode c)))) in E. rewrite skipn_len in E.
  rewrite <- Hl, skipn_len in E. auto.
Qed.
