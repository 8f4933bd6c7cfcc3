(** The parser of M_Metadata.v accepts exactly the texts of S_Json.v. *)
From Coq Require Import String ZArith List Lia Bool.
From Verif Require Import M_Base F_Base M_Map S_Utf8 M_Crox S_Crox M_Metadata S_Json.
Import ListNotations.
Open Scope Z_scope.

Ltac eqbs := repeat match goal with
  | |- context [?a =? ?b] => first [replace (a =? b) with false by (symmetry; apply Z.eqb_neq; lia) | replace (a =? b) with true by (symmetry; apply Z.eqb_eq; lia)]
  end.
Lemma digit_iff c : is_digit c = true <-> 48 <= c <= 57.
Proof. unfold is_digit. rewrite andb_true_iff, !Z.leb_le. lia. Qed.
Lemma digit_no c : is_digit c = false <-> ~ 48 <= c <= 57.
Proof. rewrite <- digit_iff. destruct (is_digit c); split; congruence. Qed.
Lemma utf8_bytes_encode c : utf8_bytes c = encode c.
Proof. reflexivity. Qed.

(** ** White space *)
Definition is_ws (c : Z) : bool := (c =? 32) || (c =? 9) || (c =? 10) || (c =? 13).
Lemma is_ws_iff c : is_ws c = true <-> c = 32 \/ c = 9 \/ c = 10 \/ c = 13.
Proof. unfold is_ws. rewrite !orb_true_iff, !Z.eqb_eq. tauto. Qed.
Lemma skip_ws_cons c r : skip_ws (c :: r) = if is_ws c then skip_ws r else c :: r.
Proof. reflexivity. Qed.
Lemma skip_ws_app w b : ws w -> skip_ws (w ++ b) = skip_ws b.
Proof. induction 1 as [|c w H F IH]; cbn [app]; auto. rewrite skip_ws_cons. apply is_ws_iff in H. rewrite H. auto. Qed.
Lemma skip_ws_inv b : exists w, b = w ++ skip_ws b /\ ws w.
Proof.
  induction b as [|c b IH]; [exists []; split; constructor|]. rewrite skip_ws_cons. destruct (is_ws c) eqn:E; [|exists []; split; [reflexivity|constructor]].
  destruct IH as (w & E1 & H). exists (c :: w). split; [cbn [app]; f_equal; auto|]. constructor; auto. apply is_ws_iff, E.
Qed.
Lemma skip_ws_stop c r : is_ws c = false -> skip_ws (c :: r) = c :: r.
Proof. intros H. rewrite skip_ws_cons, H. reflexivity. Qed.
Lemma skip_ws_idem b : skip_ws (skip_ws b) = skip_ws b.
Proof. induction b as [|c b IH]; auto. rewrite skip_ws_cons. destruct (is_ws c) eqn:E; auto. apply skip_ws_stop, E. Qed.
Lemma ws_skip w : ws w -> skip_ws w = [].
Proof. intros H. rewrite <- (app_nil_r w). rewrite skip_ws_app by auto. reflexivity. Qed.
Lemma skip_ws_nil b : skip_ws b = [] -> ws b.
Proof. intros H. destruct (skip_ws_inv b) as (w & E & W). rewrite H, app_nil_r in E. subst. auto. Qed.

(** ** Digits and numbers *)
Definition not_digit_first (b : bytes) : Prop := match b with c :: _ => ~ 48 <= c <= 57 | [] => True end.
Lemma take_digits_ok ds r : digits ds -> not_digit_first r -> take_digits (ds ++ r) = (ds, r).
Proof.
  intros F HR. induction F as [|d ds Hd F IH]; cbn [app].
  - destruct r as [|c r]; cbn [take_digits]; [reflexivity|]. apply digit_no in HR. rewrite HR. reflexivity.
  - cbn [take_digits]. apply digit_iff in Hd. rewrite Hd, IH. reflexivity.
Qed.
Lemma take_digits_inv b ds r : take_digits b = (ds, r) -> b = ds ++ r /\ digits ds /\ not_digit_first r.
Proof.
  revert ds r. induction b as [|c b IH]; intros ds r; cbn [take_digits]; [intros E; inversion E; subst; repeat split; constructor|].
  destruct (is_digit c) eqn:D.
  - destruct (take_digits b) as (d, r'). intros E. inversion E; subst. destruct (IH _ _ eq_refl) as (-> & F & N). split; auto. split; auto. constructor; auto. apply digit_iff, D.
  - intros E. inversion E; subst. split; auto. split; [constructor|]. apply digit_no, D.
Qed.
(** nothing that would continue a number *)
Definition ends (b : bytes) : Prop := match b with c :: _ => ~ 48 <= c <= 57 /\ c <> 46 /\ c <> 101 /\ c <> 69 | [] => True end.
Lemma frac_ok f r : frac_part f -> (match r with c :: _ => ~ 48 <= c <= 57 /\ c <> 46 | [] => True end) -> frac (f ++ r) = Some (match f with [] => false | _ => true end, r).
Proof.
  intros [->|(ds & -> & N & D)] H.
  - cbn [app]. destruct r as [|c r]; [reflexivity|]. destruct H as (_ & H). unfold frac. destruct c as [|p|p]; try reflexivity. repeat (destruct p as [p|p|]; try reflexivity). congruence.
  - cbn [app]. change (46 :: ds ++ r) with (46 :: (ds ++ r)). unfold frac. rewrite take_digits_ok; auto; [|destruct r; [exact I|apply H]]. destruct ds; [congruence|reflexivity].
Qed.
Lemma expo_ok e r : exp_part e -> ends r -> expo (e ++ r) = Some (match e with [] => false | _ => true end, r).
Proof.
  intros [->|(m & s & ds & -> & Hm & Hs & N & D)] H.
  - cbn [app]. destruct r as [|c r]; [reflexivity|]. destruct H as (_ & _ & H1 & H2). unfold expo. eqbs. reflexivity.
  - cbn [app]. unfold expo. replace ((m =? 101) || (m =? 69)) with true by (symmetry; apply orb_true_iff; rewrite !Z.eqb_eq; auto).
    assert (K : match (s ++ ds) ++ r with s0 :: r1 => if (s0 =? 43) || (s0 =? 45) then r1 else (s ++ ds) ++ r | [] => (s ++ ds) ++ r end = ds ++ r).
    { destruct Hs as [->|[->| ->]]; cbn [app]; try reflexivity. destruct ds as [|d ds]; [congruence|]. cbn [app]. inversion D; subst. eqbs. reflexivity. }
    rewrite K. rewrite take_digits_ok; auto; [|destruct r; [exact I|apply H]]. destruct ds; [congruence|reflexivity].
Qed.
Lemma frac_inv b f r : frac b = Some (f, r) -> exists t, b = t ++ r /\ frac_part t /\ f = match t with [] => false | _ => true end.
Proof.
  destruct b as [|c b]; [intros E; inversion E; subst; exists []; split; [auto|]; split; [left; auto|auto]|].
  destruct (Z.eq_dec c 46) as [->|NC].
  - unfold frac. destruct (take_digits b) as (d, r') eqn:T. apply take_digits_inv in T. destruct T as (-> & D & _). destruct d as [|x d]; [discriminate|].
    intros E. inversion E; subst. exists (46 :: x :: d). split; [reflexivity|]. split; [right; exists (x :: d); repeat split; auto; discriminate|reflexivity].
  - assert (K : frac (c :: b) = Some (false, c :: b)).
    { unfold frac. destruct c as [|p|p]; try reflexivity. repeat (destruct p as [p|p|]; try reflexivity). congruence. }
    rewrite K. intros E. inversion E; subst. exists []. split; [auto|]. split; [left; auto|auto].
Qed.
Lemma expo_inv b f r : expo b = Some (f, r) -> exists t, b = t ++ r /\ exp_part t /\ f = match t with [] => false | _ => true end.
Proof.
  unfold expo. cbv zeta. destruct b as [|c b]; [intros E; inversion E; subst; exists []; split; [auto|]; split; [left; auto|auto]|].
  destruct ((c =? 101) || (c =? 69)) eqn:C.
  - apply orb_true_iff in C. rewrite !Z.eqb_eq in C.
    assert (K : exists s, (s = [] \/ s = [43] \/ s = [45]) /\ b = s ++ match b with s0 :: r1 => if (s0 =? 43) || (s0 =? 45) then r1 else b | [] => b end).
    { destruct b as [|x b]; [exists []; auto|]. destruct ((x =? 43) || (x =? 45)) eqn:X; [|exists []; auto]. apply orb_true_iff in X. rewrite !Z.eqb_eq in X. exists [x]. split; [destruct X as [->| ->]; auto|reflexivity]. }
    destruct K as (s & Hs & Eb). match goal with |- context [take_digits ?m] => destruct (take_digits m) as (d, r') eqn:T end.
    apply take_digits_inv in T. destruct T as (T & D & _). assert (Eb' : b = s ++ d ++ r') by (etransitivity; [exact Eb|]; f_equal; exact T). clear Eb T. destruct d as [|x d]; [discriminate|]. intros E. inversion E; subst r' f.
    exists (c :: s ++ x :: d). split; [rewrite Eb'; cbn [app]; rewrite <- app_assoc; reflexivity|]. split; [|reflexivity]. right. exists c, s, (x :: d). repeat split; auto. discriminate.
  - intros E. inversion E; subst. exists []. split; [auto|]. split; [left; auto|auto].
Qed.
Lemma int_part_head ds : int_part ds -> exists d t, ds = d :: t /\ 48 <= d <= 57 /\ (d =? 48) && negb (zlen t =? 0) = false.
Proof.
  intros (F & [->|(d & t & -> & N)]); [exists 48, []; repeat split; lia|]. exists d, t. inversion F; subst. split; auto. split; auto. eqbs. reflexivity.
Qed.
Lemma token_text {A} (a b c r : list A) : ztake (zlen (a ++ b ++ c ++ r) - zlen r) (a ++ b ++ c ++ r) = a ++ b ++ c.
Proof. replace (a ++ b ++ c ++ r) with ((a ++ b ++ c) ++ r) by (rewrite <- !app_assoc; reflexivity). apply ztake_app_eq. rewrite zlen_app. lia. Qed.
Lemma number_negative_zero r : ends r -> number true (48 :: r) = Some (JFloat (str "-0"), r).
Proof.
  intros R. change (48 :: r) with ([48] ++ [] ++ [] ++ r).
  assert (N1 : match r with c :: _ => ~ 48 <= c <= 57 /\ c <> 46 | [] => True end) by (destruct r; auto; unfold ends in R; tauto).
  unfold number. rewrite take_digits_ok; [|constructor; [lia|constructor]|cbn [app]; destruct r; cbn; tauto].
  rewrite frac_ok by (auto; left; auto). rewrite expo_ok by (auto; left; auto). rewrite token_text. reflexivity.
Qed.
Lemma number_ok neg ds f e r : int_part ds -> frac_part f -> exp_part e -> ends r -> f ++ e <> [] \/ ~ (neg = true /\ ds = [48]) ->
  number neg (ds ++ f ++ e ++ r) = Some (match f ++ e with [] => JInt (if neg then - denotes ds else denotes ds) | _ => JFloat (sign neg ++ ds ++ f ++ e) end, r).
Proof.
  intros I F E R NZ. destruct (int_part_head ds I) as (d & t & Ed & Dd & K).
  assert (N1 : match e ++ r with c :: _ => ~ 48 <= c <= 57 /\ c <> 46 | [] => True end).
  { destruct E as [->|(m & s & x & -> & Hm & _)]; cbn [app]; [destruct r; auto; unfold ends in R; tauto|lia]. }
  assert (N2 : not_digit_first (f ++ e ++ r)).
  { destruct F as [->|(x & -> & _)]; cbn [app]; [destruct (e ++ r); cbn; tauto|cbn; lia]. }
  unfold number. rewrite take_digits_ok; [|apply I|auto]. rewrite Ed at 1. rewrite K. rewrite frac_ok by auto. rewrite expo_ok by auto. rewrite token_text. change (if neg then [45] else []) with (sign neg).
  assert (K2 : f ++ e = [] -> neg && (d =? 48) = false).
  { intros E0. destruct NZ as [NZ|NZ]; [contradiction|]. destruct neg; [|reflexivity]. cbn [andb]. apply Z.eqb_neq. intros ->. apply NZ. split; [reflexivity|]. change (48 =? 48) with true in K. cbn [andb] in K. apply negb_false_iff, Z.eqb_eq, zlen_0 in K. subst t. exact Ed. }
  destruct f as [|x f]; destruct e as [|y e]; try reflexivity. rewrite K2 by reflexivity. reflexivity.
Qed.
Lemma number_inv neg b v r : number neg b = Some (v, r) -> exists t, b = t ++ r /\ jtext (sign neg ++ t) v.
Proof.
  unfold number. destruct (take_digits b) as (d, r0) eqn:T. apply take_digits_inv in T. destruct T as (-> & D & N). destruct d as [|z t]; [discriminate|].
  destruct ((z =? 48) && negb (zlen t =? 0)) eqn:Z0; [discriminate|].
  assert (I : int_part (z :: t)).
  { split; auto. destruct (Z.eq_dec z 48) as [->|NZ]; [|right; eauto]. left. change (48 =? 48) with true in Z0. cbn [andb] in Z0. apply negb_false_iff, Z.eqb_eq in Z0. destruct t; [reflexivity|]. rewrite zlen_cons in Z0. pose proof (zlen_nonneg t). lia. }
  destruct (frac r0) as [(f, r1)|] eqn:F; [|discriminate]. apply frac_inv in F. destruct F as (tf & -> & HF & ->).
  destruct (expo r1) as [(e, r2)|] eqn:E; [|discriminate]. apply expo_inv in E. destruct E as (te & -> & HE & ->).
  intros K. change (if neg then [45] else []) with (sign neg) in K. rewrite (token_text (z :: t) tf te r2) in K. inversion K; subst r v. exists ((z :: t) ++ tf ++ te). split; [rewrite <- !app_assoc; reflexivity|].
  destruct tf as [|x tf]; [destruct te as [|y te]|]; cbn [app orb].
  - rewrite app_nil_r. destruct (neg && (z =? 48)) eqn:NZ.
    + apply andb_true_iff in NZ. destruct NZ as (-> & NZ). apply Z.eqb_eq in NZ. subst z. change (48 =? 48) with true in Z0. cbn [andb] in Z0. apply negb_false_iff, Z.eqb_eq, zlen_0 in Z0. subst t. apply T_negative_zero.
    + apply (T_int neg (z :: t)); [auto|]. intros (-> & E). injection E as -> ->. discriminate NZ.
  - apply (T_float neg (z :: t) [] (y :: te)); auto. discriminate.
  - apply (T_float neg (z :: t) (x :: tf) te); auto. discriminate.
Qed.

(** ** Strings *)
Lemma hex_value_iff h d : hex_value h = Some d <-> hex_is h d.
Proof.
  unfold hex_value, hex_is. destruct (is_digit h) eqn:D; [apply digit_iff in D; split; [intros E; inversion E; subst; left; lia|intros [H|[H|H]]; f_equal; lia]|apply digit_no in D].
  destruct ((97 <=? h) && (h <=? 102)) eqn:A; [apply andb_true_iff in A; rewrite !Z.leb_le in A; split; [intros E; inversion E; subst; right; left; lia|intros [H|[H|H]]; f_equal; lia]|apply andb_false_iff in A; rewrite !Z.leb_gt in A].
  destruct ((65 <=? h) && (h <=? 70)) eqn:B; [apply andb_true_iff in B; rewrite !Z.leb_le in B; split; [intros E; inversion E; subst; right; right; lia|intros [H|[H|H]]; f_equal; lia]|apply andb_false_iff in B; rewrite !Z.leb_gt in B].
  split; [discriminate|]. intros H. exfalso. lia.
Qed.
Lemma hex4_iff a b c d u : hex4 a b c d = Some u <-> hex4_is a b c d u.
Proof.
  unfold hex4, hex4_is. split.
  - destruct (hex_value a) as [a'|] eqn:A; [|discriminate]. destruct (hex_value b) as [b'|] eqn:B; [|discriminate]. destruct (hex_value c) as [c'|] eqn:C; [|discriminate]. destruct (hex_value d) as [d'|] eqn:D; [|discriminate].
    apply hex_value_iff in A, B, C, D. intros E. injection E as <-. exists a', b', c', d'. repeat (split; auto). lia.
  - intros (a' & b' & c' & d' & A & B & C & D & ->). apply hex_value_iff in A, B, C, D. rewrite A, B, C, D. f_equal. lia.
Qed.
Definition put (s : bytes) (o : option (bytes * bytes)) := match o with Some (x, r) => Some (s ++ x, r) | None => None end.
Lemma put_inv s o x r : put s o = Some (x, r) -> exists y, o = Some (y, r) /\ x = s ++ y.
Proof. destruct o as [(y, r')|]; cbn; [|discriminate]. intros E. inversion E; subst. eauto. Qed.
Definition after_u (r' : bytes) : option (bytes * bytes) :=
  match r' with
  | h1 :: h2 :: h3 :: h4 :: r2 =>
      match hex4 h1 h2 h3 h4 with
      | None => None
      | Some u =>
          if (55296 <=? u) && (u <=? 56319) then
            match r2 with
            | b1 :: b2 :: l1 :: l2 :: l3 :: l4 :: r3 =>
                if (b1 =? 92) && (b2 =? 117) then
                  match hex4 l1 l2 l3 l4 with
                  | Some v => if (56320 <=? v) && (v <=? 57343) then put (utf8_bytes (65536 + (u - 55296) * 1024 + (v - 56320))) (string_rest r3) else None
                  | None => None
                  end
                else None
            | _ => None
            end
          else if (56320 <=? u) && (u <=? 57343) then None
          else put (utf8_bytes u) (string_rest r2)
      end
  | _ => None
  end.
Definition after_escape (e : Z) (r' : bytes) : option (bytes * bytes) :=
  if (e =? 34) || (e =? 92) || (e =? 47) then put [e] (string_rest r')
  else if e =? 98 then put [8] (string_rest r')
  else if e =? 102 then put [12] (string_rest r')
  else if e =? 110 then put [10] (string_rest r')
  else if e =? 114 then put [13] (string_rest r')
  else if e =? 116 then put [9] (string_rest r')
  else if e =? 117 then after_u r'
  else None.
Lemma string_rest_cons c r : string_rest (c :: r) =
  if c =? 34 then Some ([], r)
  else if c =? 92 then match r with [] => None | e :: r' => after_escape e r' end
  else if c <? 32 then None else put [c] (string_rest r).
Proof. reflexivity. Qed.
Lemma string_ok b s r : jchars b s -> string_rest (b ++ 34 :: r) = Some (s, r).
Proof.
  induction 1 as [|c b s H1 H2 H3 H IH|e c b s HE H IH|h1 h2 h3 h4 u b s HX NS H IH|h1 h2 h3 h4 u l1 l2 l3 l4 v b s HX US HY VS H IH]; cbn [app]; rewrite string_rest_cons.
  - reflexivity.
  - eqbs. destruct (Z.ltb_spec c 32); [lia|]. rewrite IH. reflexivity.
  - change (92 =? 34) with false. change (92 =? 92) with true. cbv iota. unfold after_escape. rewrite IH. unfold short_escapes in HE.
    repeat (destruct HE as [HE|HE]; [injection HE as <- <-; reflexivity|]). destruct HE.
  - apply hex4_iff in HX. change (92 =? 34) with false. change (92 =? 92) with true. cbv iota.
    change (after_escape 117 (h1 :: h2 :: h3 :: h4 :: b ++ 34 :: r)) with (after_u (h1 :: h2 :: h3 :: h4 :: b ++ 34 :: r)). unfold after_u.
    rewrite HX, IH. replace ((55296 <=? u) && (u <=? 56319)) with false by (symmetry; apply andb_false_iff; rewrite !Z.leb_gt; lia). replace ((56320 <=? u) && (u <=? 57343)) with false by (symmetry; apply andb_false_iff; rewrite !Z.leb_gt; lia). reflexivity.
  - apply hex4_iff in HX, HY. change (92 =? 34) with false. change (92 =? 92) with true. cbv iota.
    match goal with |- after_escape 117 ?x = _ => change (after_u x = Some (encode (65536 + (u - 55296) * 1024 + (v - 56320)) ++ s, r)) end. unfold after_u.
    change (92 =? 92) with true. change (117 =? 117) with true. cbn [andb]. cbv iota.
    rewrite HX, HY, IH. replace ((55296 <=? u) && (u <=? 56319)) with true by (symmetry; apply andb_true_iff; rewrite !Z.leb_le; lia). replace ((56320 <=? v) && (v <=? 57343)) with true by (symmetry; apply andb_true_iff; rewrite !Z.leb_le; lia). reflexivity.
Qed.
Lemma string_inv n b s r : (List.length b <= n)%nat -> string_rest b = Some (s, r) -> exists t, b = t ++ 34 :: r /\ jchars t s.
Proof.
  revert b s r. induction n as [|n IH]; intros b s r L; (destruct b as [|c b]; [discriminate|]); [cbn in L; lia|]. rewrite string_rest_cons. cbn [List.length] in L.
  destruct (Z.eqb_spec c 34) as [->|N34]; [intros E; inversion E; subst; exists []; split; [reflexivity|constructor]|].
  destruct (Z.eqb_spec c 92) as [->|N92].
  - destruct b as [|e b]; [discriminate|]. cbn [List.length] in L. unfold after_escape.
    assert (S1 : forall c', In (e, c') short_escapes -> put [c'] (string_rest b) = Some (s, r) -> exists t, 92 :: e :: b = t ++ 34 :: r /\ jchars t s).
    { intros c' HI HP. apply put_inv in HP. destruct HP as (y & HS & ->). apply IH in HS; [|lia]. destruct HS as (t & -> & J). exists (92 :: e :: t). split; [reflexivity|]. cbn [app]. constructor; auto. }
    destruct ((e =? 34) || (e =? 92) || (e =? 47)) eqn:E0; [apply S1; rewrite !orb_true_iff, !Z.eqb_eq in E0; unfold short_escapes; cbn [In]; destruct E0 as [[->| ->]| ->]; auto|].
    destruct (Z.eqb_spec e 98) as [->|]; [apply S1; cbn; tauto|]. destruct (Z.eqb_spec e 102) as [->|]; [apply S1; cbn; tauto|]. destruct (Z.eqb_spec e 110) as [->|]; [apply S1; cbn; tauto|].
    destruct (Z.eqb_spec e 114) as [->|]; [apply S1; cbn; tauto|]. destruct (Z.eqb_spec e 116) as [->|]; [apply S1; cbn; tauto|]. clear S1. destruct (Z.eqb_spec e 117) as [->|]; [|discriminate]. unfold after_u.
    destruct b as [|h1 [|h2 [|h3 [|h4 b]]]]; try discriminate. cbn [List.length] in L. destruct (hex4 h1 h2 h3 h4) as [u|] eqn:HX; [|discriminate]. apply hex4_iff in HX.
    destruct ((55296 <=? u) && (u <=? 56319)) eqn:HI.
    + apply andb_true_iff in HI. rewrite !Z.leb_le in HI. destruct b as [|b1 [|b2 [|l1 [|l2 [|l3 [|l4 b]]]]]]; try discriminate. cbn [List.length] in L. destruct ((b1 =? 92) && (b2 =? 117)) eqn:B12; [|discriminate].
      apply andb_true_iff in B12. rewrite !Z.eqb_eq in B12. destruct B12 as (-> & ->). destruct (hex4 l1 l2 l3 l4) as [v|] eqn:HY; [|discriminate]. apply hex4_iff in HY. destruct ((56320 <=? v) && (v <=? 57343)) eqn:LO; [|discriminate].
      apply andb_true_iff in LO. rewrite !Z.leb_le in LO. intros HP. apply put_inv in HP. destruct HP as (y & HS & ->). apply IH in HS; [|lia]. destruct HS as (t & -> & J).
      exists (92 :: 117 :: h1 :: h2 :: h3 :: h4 :: 92 :: 117 :: l1 :: l2 :: l3 :: l4 :: t). split; [reflexivity|]. rewrite utf8_bytes_encode. apply (C_pair h1 h2 h3 h4 u l1 l2 l3 l4 v); auto.
    + destruct ((56320 <=? u) && (u <=? 57343)) eqn:LO; [discriminate|]. apply andb_false_iff in HI, LO. rewrite !Z.leb_gt in HI, LO.
      intros HP. apply put_inv in HP. destruct HP as (y & HS & ->). apply IH in HS; [|lia]. destruct HS as (t & -> & J).
      exists (92 :: 117 :: h1 :: h2 :: h3 :: h4 :: t). split; [reflexivity|]. rewrite utf8_bytes_encode. apply (C_u h1 h2 h3 h4 u); auto. lia.
  - destruct (Z.ltb_spec c 32) as [|G]; [discriminate|]. intros HP. apply put_inv in HP. destruct HP as (y & HS & ->). apply IH in HS; [|lia]. destruct HS as (t & -> & J). exists (c :: t). split; [reflexivity|]. constructor; auto.
Qed.

(** ** Values *)
Lemma literal_app l r : literal l (l ++ r) = Some r.
Proof. induction l as [|x l IH]; [reflexivity|]. cbn [app literal]. rewrite Z.eqb_refl. auto. Qed.
Lemma literal_inv l b r : literal l b = Some r -> b = l ++ r.
Proof.
  revert b. induction l as [|x l IH]; intros b; cbn [literal]; [intros E; inversion E; auto|]. destruct b as [|y b]; [discriminate|]. destruct (Z.eqb_spec x y) as [->|]; [|discriminate]. intros E. apply IH in E. subst. reflexivity.
Qed.
(** the first character of a value *)
Lemma jtext_head b v : jtext b v -> exists c t, b = c :: t /\ is_ws c = false /\ c <> 93 /\ c <> 125.
Proof.
  intros H. destruct H as [| | |neg ds I NZ| |neg ds f e I|b s|w|b l|w|b l].
  1: exists 110, (str "ull"); split; [reflexivity|]; split; [reflexivity|lia].
  1: exists 116, (str "rue"); split; [reflexivity|]; split; [reflexivity|lia].
  1: exists 102, (str "alse"); split; [reflexivity|]; split; [reflexivity|lia].
  2: exists 45, (str "0"); split; [reflexivity|]; split; [reflexivity|lia].
  3-7: eexists; eexists; split; [reflexivity|]; split; [reflexivity|lia].
  - destruct (int_part_head ds I) as (d & t & -> & D & _). destruct neg; cbn [sign app].
    + eexists; eexists; split; [reflexivity|]; split; [reflexivity|lia].
    + eexists; eexists; split; [reflexivity|]. split; [|lia]. destruct (is_ws d) eqn:E; [|reflexivity]. apply is_ws_iff in E. lia.
  - destruct (int_part_head ds I) as (d & t & -> & D & _). destruct neg; cbn [sign app].
    + eexists; eexists; split; [reflexivity|]; split; [reflexivity|lia].
    + eexists; eexists; split; [reflexivity|]. split; [|lia]. destruct (is_ws d) eqn:E; [|reflexivity]. apply is_ws_iff in E. lia.
Qed.
Definition is_number (v : json) : Prop := match v with JInt _ | JFloat _ => True | _ => False end.
Lemma ends_ws w r : ws w -> ends r -> ends (w ++ r).
Proof. intros H HR. destruct H as [|c w H F]; cbn [app]; auto. cbn [ends]. destruct H as [->|[->|[->| ->]]]; lia. Qed.
Lemma value_number f neg ds rest w : ws w -> int_part ds -> value (S f) (w ++ sign neg ++ ds ++ rest) = number neg (ds ++ rest).
Proof.
  intros W I. destruct (int_part_head ds I) as (d & t & -> & D & _). cbn [value]. rewrite skip_ws_app by auto. destruct neg; cbn [sign app].
  - rewrite skip_ws_stop by reflexivity. reflexivity.
  - rewrite skip_ws_stop by (destruct (is_ws d) eqn:E; [apply is_ws_iff in E; lia|reflexivity]). eqbs. rewrite (proj2 (digit_iff d) D). reflexivity.
Qed.
Lemma complete :
  (forall b v, jtext b v -> forall f r w, ws w -> (List.length b <= f)%nat -> (is_number v -> ends r) -> value f (w ++ b ++ r) = Some (v, r)) /\
  (forall b l, jelems b l -> (exists c t, skip_ws b = c :: t /\ c <> 93) /\ forall f r, (List.length b < f)%nat -> elements f (b ++ 93 :: r) = Some (l, r)) /\
  (forall b l, jmembers b l -> (exists t, skip_ws b = 34 :: t) /\ forall f r, (List.length b < f)%nat -> members f (b ++ 125 :: r) = Some (l, r)).
Proof.
  apply jtext_mutind.
  - intros f r w W L _. destruct f as [|f]; [cbn in L; lia|]. cbn [value]. rewrite skip_ws_app by auto. reflexivity.
  - intros f r w W L _. destruct f as [|f]; [cbn in L; lia|]. cbn [value]. rewrite skip_ws_app by auto. reflexivity.
  - intros f r w W L _. destruct f as [|f]; [cbn in L; lia|]. cbn [value]. rewrite skip_ws_app by auto. reflexivity.
  - intros neg ds I NZ f r w W L E. destruct f as [|f]; [destruct (int_part_head ds I) as (d & t & -> & _); rewrite app_length in L; cbn in L; lia|].
    rewrite <- app_assoc. rewrite value_number by auto. apply (number_ok neg ds [] [] r); [auto|left; auto|left; auto|apply E; exact Logic.I|right; exact NZ].
  - intros f r w W L E. destruct f as [|f]; [cbn in L; lia|]. change (str "-0" ++ r) with (sign true ++ [48] ++ r). rewrite value_number; [|auto|split; [constructor; [lia|constructor]|left; reflexivity]]. apply number_negative_zero, E. exact Logic.I.
  - intros neg ds ff e I F X N f r w W L E. destruct f as [|f]; [destruct (int_part_head ds I) as (d & t & -> & _); rewrite app_length in L; cbn in L; lia|].
    rewrite <- !app_assoc. rewrite value_number by auto. rewrite (number_ok neg ds ff e r); [|auto|auto|auto|apply E; exact Logic.I|left; exact N]. destruct (ff ++ e); [congruence|reflexivity].
  - intros b s J f r w W L _. destruct f as [|f]; [cbn in L; lia|]. cbn [value]. rewrite skip_ws_app by auto. cbn [app]. rewrite skip_ws_stop by reflexivity.
    change (34 =? 123) with false. change (34 =? 91) with false. change (34 =? 34) with true. cbv iota. rewrite <- app_assoc. cbn [app]. rewrite string_ok with (s := s) by auto. reflexivity.
  - intros w0 W0 f r w W L _. destruct f as [|f]; [cbn in L; lia|]. cbn [value]. rewrite skip_ws_app by auto. cbn [app]. rewrite skip_ws_stop by reflexivity.
    change (91 =? 123) with false. change (91 =? 91) with true. cbv iota. rewrite <- app_assoc. cbn [app]. rewrite skip_ws_app by auto. rewrite skip_ws_stop by reflexivity. reflexivity.
  - intros b l J (HD & IH) f r w W L _. cbn [List.length] in L. rewrite app_length in L. cbn [List.length] in L. destruct f as [|f]; [lia|]. cbn [value]. rewrite skip_ws_app by auto. cbn [app]. rewrite skip_ws_stop by reflexivity.
    change (91 =? 123) with false. change (91 =? 91) with true. cbv iota. rewrite <- app_assoc. cbn [app]. rewrite IH by lia.
    destruct HD as (c & t & E & N). destruct (skip_ws_inv b) as (w1 & E1 & W1). rewrite E in E1. rewrite E1, <- app_assoc, skip_ws_app by auto. cbn [app].
    assert (C : is_ws c = false). { pose proof (skip_ws_idem b) as K. rewrite E in K. rewrite skip_ws_cons in K. destruct (is_ws c) eqn:Q; [|reflexivity]. exfalso. apply is_ws_iff in Q. destruct (skip_ws_inv t) as (w2 & E2 & _). rewrite K in E2. apply (f_equal (@List.length Z)) in E2. rewrite app_length in E2. cbn in E2. lia. }
    rewrite skip_ws_stop by auto. eqbs. reflexivity.
  - intros w0 W0 f r w W L _. destruct f as [|f]; [cbn in L; lia|]. cbn [value]. rewrite skip_ws_app by auto. cbn [app]. rewrite skip_ws_stop by reflexivity.
    change (123 =? 123) with true. cbv iota. rewrite <- app_assoc. cbn [app]. rewrite skip_ws_app by auto. rewrite skip_ws_stop by reflexivity. reflexivity.
  - intros b l J (HD & IH) f r w W L _. cbn [List.length] in L. rewrite app_length in L. cbn [List.length] in L. destruct f as [|f]; [lia|]. cbn [value]. rewrite skip_ws_app by auto. cbn [app]. rewrite skip_ws_stop by reflexivity.
    change (123 =? 123) with true. cbv iota. rewrite <- app_assoc. cbn [app]. rewrite IH by lia.
    destruct HD as (t & E). destruct (skip_ws_inv b) as (w1 & E1 & W1). rewrite E in E1. rewrite E1, <- app_assoc, skip_ws_app by auto. cbn [app]. rewrite skip_ws_stop by reflexivity. reflexivity.
  - intros w1 b w2 v W1 J IH W2. destruct (jtext_head b v J) as (c & t & Eb & C & N93 & _). split.
    + exists c, (t ++ w2). rewrite skip_ws_app, Eb by auto. cbn [app]. rewrite skip_ws_stop by auto. auto.
    + intros f r L. rewrite !app_length in L. destruct f as [|f]; [lia|]. cbn [elements]. rewrite <- !app_assoc. rewrite IH; auto; [|lia|intros _; apply ends_ws; auto; cbn [ends]; lia].
      rewrite skip_ws_app by auto. reflexivity.
  - intros w1 b w2 v b' l W1 J IH W2 J' (_ & IH'). destruct (jtext_head b v J) as (c & t & Eb & C & N93 & _). split.
    + exists c, (t ++ w2 ++ 44 :: b'). rewrite skip_ws_app, Eb by auto. cbn [app]. rewrite skip_ws_stop by auto. auto.
    + intros f r L. rewrite !app_length in L. cbn [List.length] in L. destruct f as [|f]; [lia|]. cbn [elements]. rewrite <- !app_assoc. rewrite IH; auto; [|lia|intros _; apply ends_ws; auto; cbn [ends app]; lia].
      rewrite skip_ws_app by auto. cbn [app]. rewrite skip_ws_stop by reflexivity. change (44 =? 93) with false. change (44 =? 44) with true. cbv iota. rewrite IH' by lia. reflexivity.
  - intros w1 kb k w2 w3 b w4 v W1 JK W2 W3 J IH W4. split.
    + eexists. rewrite skip_ws_app by auto. cbn [app]. rewrite skip_ws_stop by reflexivity. reflexivity.
    + intros f r L. rewrite !app_length in L. cbn [List.length] in L. rewrite !app_length in L. cbn [List.length] in L. rewrite !app_length in L. cbn [List.length] in L. rewrite !app_length in L. destruct f as [|f]; [lia|]. cbn [members].
      rewrite <- !app_assoc. rewrite skip_ws_app by auto. cbn [app]. rewrite skip_ws_stop by reflexivity. change (34 =? 34) with true. cbv iota.
      rewrite <- !app_assoc. cbn [app]. rewrite string_ok with (s := k) by auto. rewrite <- !app_assoc. rewrite skip_ws_app by auto. cbn [app]. rewrite skip_ws_stop by reflexivity. change (58 =? 58) with true. cbv iota.
      rewrite <- !app_assoc. rewrite IH; auto; [|lia|intros _; apply ends_ws; auto; cbn [ends]; lia]. rewrite skip_ws_app by auto. reflexivity.
  - intros w1 kb k w2 w3 b w4 v b' l W1 JK W2 W3 J IH W4 J' (_ & IH'). split.
    + eexists. rewrite skip_ws_app by auto. cbn [app]. rewrite skip_ws_stop by reflexivity. reflexivity.
    + intros f r L. rewrite !app_length in L. cbn [List.length] in L. rewrite !app_length in L. cbn [List.length] in L. rewrite !app_length in L. cbn [List.length] in L. rewrite !app_length in L. cbn [List.length] in L. destruct f as [|f]; [lia|]. cbn [members].
      rewrite <- !app_assoc. rewrite skip_ws_app by auto. cbn [app]. rewrite skip_ws_stop by reflexivity. change (34 =? 34) with true. cbv iota.
      rewrite <- !app_assoc. cbn [app]. rewrite string_ok with (s := k) by auto. rewrite <- !app_assoc. rewrite skip_ws_app by auto. cbn [app]. rewrite skip_ws_stop by reflexivity. change (58 =? 58) with true. cbv iota.
      rewrite <- !app_assoc. rewrite IH; auto; [|lia|intros _; apply ends_ws; auto; cbn [ends app]; lia]. rewrite skip_ws_app by auto. cbn [app]. rewrite skip_ws_stop by reflexivity. change (44 =? 125) with false. change (44 =? 44) with true. cbv iota. rewrite IH' by lia. reflexivity.
Qed.
Lemma sound f :
  (forall b v r, value f b = Some (v, r) -> exists w t, b = w ++ t ++ r /\ ws w /\ jtext t v) /\
  (forall b l r, members f b = Some (l, r) -> exists t, b = t ++ 125 :: r /\ jmembers t l) /\
  (forall b l r, elements f b = Some (l, r) -> exists t, b = t ++ 93 :: r /\ jelems t l).
Proof.
  induction f as [|f (IV & IM & IE)]; [split; [|split]; intros b v r E; discriminate|]. split; [|split].
  - intros b v r. cbn [value]. destruct (skip_ws_inv b) as (w & Eb & W). destruct (skip_ws b) as [|c b1]; [discriminate|].
    assert (K : forall t, c :: b1 = t ++ r -> jtext t v -> exists w t, b = w ++ t ++ r /\ ws w /\ jtext t v).
    { intros t E J. exists w, t. rewrite Eb, E. auto. }
    destruct (Z.eqb_spec c 123) as [->|].
    { destruct (skip_ws_inv b1) as (w1 & Eb1 & W1). destruct (skip_ws b1) as [|q b2] eqn:S1; [discriminate|]. destruct (Z.eqb_spec q 125) as [->|].
      - intros E. inversion E; subst b2 v. apply (K (123 :: w1 ++ [125])); [rewrite Eb1; cbn [app]; rewrite <- app_assoc; reflexivity|constructor; auto].
      - destruct (members f b1) as [(ms, r2)|] eqn:E1; [|discriminate]. intros E. inversion E; subst r2 v. apply IM in E1. destruct E1 as (t & Et & J). apply (K (123 :: t ++ [125])); [rewrite Et; cbn [app]; rewrite <- app_assoc; reflexivity|constructor; auto]. }
    destruct (Z.eqb_spec c 91) as [->|].
    { destruct (skip_ws_inv b1) as (w1 & Eb1 & W1). destruct (skip_ws b1) as [|q b2] eqn:S1; [discriminate|]. destruct (Z.eqb_spec q 93) as [->|].
      - intros E. inversion E; subst b2 v. apply (K (91 :: w1 ++ [93])); [rewrite Eb1; cbn [app]; rewrite <- app_assoc; reflexivity|constructor; auto].
      - destruct (elements f b1) as [(ms, r2)|] eqn:E1; [|discriminate]. intros E. inversion E; subst r2 v. apply IE in E1. destruct E1 as (t & Et & J). apply (K (91 :: t ++ [93])); [rewrite Et; cbn [app]; rewrite <- app_assoc; reflexivity|constructor; auto]. }
    destruct (Z.eqb_spec c 34) as [->|].
    { destruct (string_rest b1) as [(s, r')|] eqn:E1; [|discriminate]. intros E. inversion E; subst r' v. apply (string_inv (List.length b1)) in E1; [|lia]. destruct E1 as (t & Et & J). apply (K (34 :: t ++ [34])); [rewrite Et; cbn [app]; rewrite <- app_assoc; reflexivity|constructor; auto]. }
    destruct (Z.eqb_spec c 45) as [->|].
    { intros E. apply number_inv in E. destruct E as (t & Et & J). apply (K (45 :: t)); [rewrite Et; reflexivity|exact J]. }
    destruct (is_digit c).
    { intros E. apply number_inv in E. destruct E as (t & Et & J). apply (K t); [auto|exact J]. }
    destruct (Z.eqb_spec c 116) as [->|].
    { destruct (literal (str "rue") b1) as [r'|] eqn:E1; [|discriminate]. intros E. inversion E; subst r' v. apply literal_inv in E1. apply (K (str "true")); [rewrite E1; reflexivity|constructor]. }
    destruct (Z.eqb_spec c 102) as [->|].
    { destruct (literal (str "alse") b1) as [r'|] eqn:E1; [|discriminate]. intros E. inversion E; subst r' v. apply literal_inv in E1. apply (K (str "false")); [rewrite E1; reflexivity|constructor]. }
    destruct (Z.eqb_spec c 110) as [->|]; [|discriminate].
    destruct (literal (str "ull") b1) as [r'|] eqn:E1; [|discriminate]. intros E. inversion E; subst r' v. apply literal_inv in E1. apply (K (str "null")); [rewrite E1; reflexivity|constructor].
  - intros b l r. cbn [members]. destruct (skip_ws_inv b) as (w1 & Eb & W1). destruct (skip_ws b) as [|q b1]; [discriminate|]. destruct (Z.eqb_spec q 34) as [->|]; [|discriminate].
    destruct (string_rest b1) as [(k, r1)|] eqn:E1; [|discriminate]. apply (string_inv (List.length b1)) in E1; [|lia]. destruct E1 as (kb & -> & JK).
    destruct (skip_ws_inv r1) as (w2 & Er1 & W2). destruct (skip_ws r1) as [|c r2]; [discriminate|]. destruct (Z.eqb_spec c 58) as [->|]; [|discriminate].
    destruct (value f r2) as [(v, r3)|] eqn:EV; [|discriminate]. apply IV in EV. destruct EV as (w3 & t & -> & W3 & J).
    destruct (skip_ws_inv r3) as (w4 & Er3 & W4). destruct (skip_ws r3) as [|d r4]; [discriminate|]. destruct (Z.eqb_spec d 125) as [->|].
    + intros E. inversion E; subst r4 l. exists (w1 ++ 34 :: kb ++ 34 :: w2 ++ 58 :: w3 ++ t ++ w4). split; [|constructor; auto].
      rewrite Eb, Er1, Er3. repeat (rewrite <- ?app_assoc; cbn [app]). reflexivity.
    + destruct (Z.eqb_spec d 44) as [->|]; [|discriminate]. destruct (members f r4) as [(ms, r5)|] eqn:EM; [|discriminate]. intros E. inversion E; subst r5 l. apply IM in EM. destruct EM as (t' & -> & J').
      exists (w1 ++ 34 :: kb ++ 34 :: w2 ++ 58 :: w3 ++ t ++ w4 ++ 44 :: t'). split; [|constructor; auto]. rewrite Eb, Er1, Er3. repeat (rewrite <- ?app_assoc; cbn [app]). reflexivity.
  - intros b l r. cbn [elements]. destruct (value f b) as [(v, r3)|] eqn:EV; [|discriminate]. apply IV in EV. destruct EV as (w1 & t & -> & W1 & J).
    destruct (skip_ws_inv r3) as (w4 & Er3 & W4). destruct (skip_ws r3) as [|d r4]; [discriminate|]. destruct (Z.eqb_spec d 93) as [->|].
    + intros E. inversion E; subst r4 l. exists (w1 ++ t ++ w4). split; [|constructor; auto]. rewrite Er3. rewrite <- !app_assoc. reflexivity.
    + destruct (Z.eqb_spec d 44) as [->|]; [|discriminate]. destruct (elements f r4) as [(ms, r5)|] eqn:EM; [|discriminate]. intros E. inversion E; subst r5 l. apply IE in EM. destruct EM as (t' & -> & J').
      exists (w1 ++ t ++ w4 ++ 44 :: t'). split; [|constructor; auto]. rewrite Er3. repeat (rewrite <- ?app_assoc; cbn [app]). reflexivity.
Qed.
Lemma from_str_iff b v : from_str b = Some v <-> document b v.
Proof.
  unfold from_str, document. split.
  - destruct (value (S (List.length b)) b) as [(v', r)|] eqn:E; [|discriminate]. apply (proj1 (sound _)) in E. destruct E as (w & t & -> & W & J). destruct (skip_ws r) eqn:R; [|discriminate].
    intros K. inversion K; subst v'. exists w, t, r. repeat (split; auto). apply skip_ws_nil, R.
  - intros (w1 & t & w2 & -> & W1 & W2 & J). rewrite (proj1 complete t v J); auto.
    + rewrite ws_skip by auto. reflexivity.
    + rewrite !app_length. lia.
    + intros _. rewrite <- (app_nil_r w2). apply ends_ws; [auto|exact I].
Qed.
(** A text that ends early is never a document (for arrays and objects). *)
Lemma no_proper_prefix p q v v' : jtext (p ++ q) v -> document p v' -> (forall n, v' <> JInt n) -> (forall t, v' <> JFloat t) -> q = [].
Proof.
  intros J (w1 & t & w2 & -> & W1 & W2 & J') NI NF.
  assert (E1 : value (List.length ((w1 ++ t ++ w2) ++ q)) ((w1 ++ t ++ w2) ++ q) = Some (v, [])).
  { pose proof (proj1 complete _ _ J (List.length ((w1 ++ t ++ w2) ++ q)) [] [] ltac:(constructor) ltac:(lia) ltac:(intros; exact I)) as K. rewrite app_nil_r in K. exact K. }
  assert (E2 : value (List.length ((w1 ++ t ++ w2) ++ q)) ((w1 ++ t ++ w2) ++ q) = Some (v', w2 ++ q)).
  { replace ((w1 ++ t ++ w2) ++ q) with (w1 ++ t ++ (w2 ++ q)) by (rewrite <- !app_assoc; reflexivity). apply (proj1 complete _ _ J'); auto; [rewrite !app_length; lia|]. intros K. destruct v'; try destruct K; [destruct (NI n eq_refl)|destruct (NF _ eq_refl)]. }
  rewrite E1 in E2. injection E2 as _ E2. symmetry in E2. apply app_eq_nil in E2. apply E2.
Qed.
