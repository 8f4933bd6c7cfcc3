(** C83: thresholds on the command line.  Model M_ReadF64.v, specification S_ReadF64.v. *)
From Coq Require Import String ZArith Reals List Lia Lra Bool.
From Flocq Require Import Core BinarySingleNaN.
From Verif Require Import M_Base F_Base M_Map M_Float M_Cli M_Analysis M_Summarize Prop_Float M_Utf8 F_Utf8 S_Utf8 M_Tools S_Tools Prop_Tools S_Text S_AggText S_Cli Prop_Cli M_ReadF64 S_ReadF64.
Import ListNotations.
Open Scope Z_scope.

(** * The nearest number *)
Lemma ratio_nearest (neg : bool) (m n : positive) : nearest_f64 ((if neg then -1 else 1) * (IZR (Zpos m) / IZR (Zpos n)))%R neg (ratio neg m n).
Proof.
  unfold ratio. pose proof (proj2 (Bdiv_correct_aux 53 1024 prec_pos prec_small mode_NE neg m 0 false n 0)) as H.
  generalize (proj1 (Bdiv_correct_aux 53 1024 prec_pos prec_small mode_NE neg m 0 false n 0)). cbv zeta in H |- *.
  set (z := let '(mz, ez, lz) := _ in _) in *. clearbody z. intros V.
  assert (EX : (F2R (Float radix2 (cond_Zopp neg (Zpos m)) 0) / F2R (Float radix2 (cond_Zopp false (Zpos n)) 0) = (if neg then -1 else 1) * (IZR (Zpos m) / IZR (Zpos n)))%R).
  { unfold F2R. cbn [Fnum Fexp bpow cond_Zopp]. rewrite !Rmult_1_r. destruct neg; cbn [cond_Zopp].
    - change (Zneg m) with (- Zpos m)%Z. rewrite opp_IZR. unfold Rdiv. ring.
    - rewrite Rmult_1_l. reflexivity. }
  rewrite EX in H. change (round_mode mode_NE) with ZnearestE in H.
  change (SpecFloat.fexp 53 1024) with (FLT_exp (-1074) 53) in H.
  unfold nearest_f64. cbv zeta. set (r := round radix2 (FLT_exp (-1074) 53) ZnearestE _) in *.
  destruct (Rlt_bool_spec (Rabs r) (bpow radix2 1024)) as [L|L].
  - destruct H as (H1 & H2 & H3). split; [|intros X; exfalso; lra]. intros _. rewrite is_finite_SF2B, B2R_SF2B, Bsign_SF2B. rewrite xorb_false_r in H3. auto.
  - split; [intros X; exfalso; lra|]. intros _. rewrite xorb_false_r in H. apply B2SF_inj. rewrite B2SF_SF2B, H. reflexivity.
Qed.
Lemma zero_nearest neg : nearest_f64 0 neg (B754_zero neg).
Proof.
  unfold nearest_f64. cbv zeta. rewrite round_0 by apply valid_rnd_N. rewrite Rabs_R0. split; [auto|]. intros H. exfalso. pose proof (bpow_gt_0 radix2 1024). lra.
Qed.
Lemma decimal_nearest neg m e : 0 <= m -> nearest_f64 (decimal_value neg m e) neg (of_decimal neg m e).
Proof.
  intros Hm. unfold of_decimal, decimal_value. destruct m as [|p|p]; [|destruct (Z.leb_spec 0 e) as [L|L]|lia].
  - rewrite Rmult_0_l, Rmult_0_r. apply zero_nearest.
  - assert (P : 0 < 10 ^ e) by (apply Z.pow_pos_nonneg; lia). replace (IZR (Zpos p) * powerRZ 10 e)%R with (IZR (Zpos (Z.to_pos (Zpos p * 10 ^ e))) / IZR 1)%R; [apply ratio_nearest|].
    rewrite Z2Pos.id by lia. rewrite mult_IZR. unfold Rdiv. rewrite Rinv_1, Rmult_1_r. f_equal. rewrite <- (Z2Nat.id e) by lia. rewrite <- pow_IZR, <- pow_powerRZ. reflexivity.
  - assert (P : 0 < 10 ^ (- e)) by (apply Z.pow_pos_nonneg; lia). replace (IZR (Zpos p) * powerRZ 10 e)%R with (IZR (Zpos p) / IZR (Zpos (Z.to_pos (10 ^ (- e)))))%R; [apply ratio_nearest|].
    rewrite Z2Pos.id by lia. unfold Rdiv. f_equal. replace e with (- - e) at 2 by lia. rewrite powerRZ_neg' by lra || idtac. rewrite <- (Z2Nat.id (- e)) by lia. rewrite <- pow_IZR, <- pow_powerRZ. reflexivity.
Qed.
Lemma nearest_unique r neg x y : nearest_f64 r neg x -> nearest_f64 r neg y -> x = y.
Proof.
  intros (X1 & X2) (Y1 & Y2). cbv zeta in *. set (n := round _ _ _ r) in *. destruct (Rlt_le_dec (Rabs n) (bpow radix2 1024)) as [L|L].
  - destruct (X1 L) as (A1 & A2 & A3). destruct (Y1 L) as (B1 & B2 & B3). apply B2R_Bsign_inj; auto; congruence.
  - rewrite (X2 L), (Y2 L). reflexivity.
Qed.

(** * Reading *)
Definition digit (c : Z) : bool := (48 <=? c) && (c <=? 57).
Lemma digit_spec c : digit c = true <-> 48 <= c <= 57.
Proof. unfold digit. rewrite andb_true_iff, !Z.leb_le. reflexivity. Qed.
Definition stops (r : bytes) : Prop := match r with [] => True | c :: _ => ~ 48 <= c <= 57 end.
Lemma take_digits_app ds r : is_digits ds -> stops r -> take_digits (ds ++ r) = (ds, r).
Proof.
  intros D S. induction D as [|c ds H _ IH].
  - destruct r as [|c r]; [reflexivity|]. cbn [app take_digits]. fold (digit c). destruct (digit c) eqn:E; [apply digit_spec in E; contradiction|reflexivity].
  - cbn [app take_digits]. fold (digit c). rewrite (proj2 (digit_spec c) H), IH. reflexivity.
Qed.
Lemma take_digits_inv b ds r : take_digits b = (ds, r) -> b = ds ++ r /\ is_digits ds /\ stops r.
Proof.
  revert ds r. induction b as [|c b IH]; intros ds r; cbn [take_digits].
  - intros E. injection E as <- <-. split; [reflexivity|]. split; [constructor|exact I].
  - fold (digit c). destruct (digit c) eqn:D.
    + destruct (take_digits b) as (d & r'). intros E. injection E as <- <-. destruct (IH d r' eq_refl) as (-> & H1 & H2). split; [reflexivity|]. split; [constructor; [apply digit_spec, D|exact H1]|exact H2].
    + intros E. injection E as <- <-. split; [reflexivity|]. split; [constructor|]. cbn [stops]. intros X. apply digit_spec in X. congruence.
Qed.
Lemma digits_spec b : forall acc n, digits b acc = Some n <-> is_digits b /\ n = fold_left (fun n c => 10 * n + (c - 48)) b acc.
Proof.
  induction b as [|c b IH]; intros acc n; cbn [digits fold_left].
  - split; [intros E; injection E as <-; split; [constructor|reflexivity]|intros (_ & ->); reflexivity].
  - fold (digit c). destruct (digit c) eqn:D.
    + rewrite IH. split; intros (H1 & H2); (split; [|exact H2]); [constructor; [apply digit_spec, D|exact H1]|inversion H1; auto].
    + split; [discriminate|]. intros (H1 & _). inversion H1 as [|? ? H2 _]; subst. apply digit_spec in H2. congruence.
Qed.
Lemma unsigned_spec b n : unsigned b = Some n <-> is_digits b /\ b <> [] /\ n = worth b.
Proof.
  unfold unsigned, worth. destruct b as [|c b]; [split; [discriminate|intros (_ & X & _); congruence]|]. rewrite digits_spec. split; [intros (A & B)|intros (A & _ & B)]; auto. split; [exact A|]. split; [discriminate|exact B].
Qed.
Definition no_sign (b : bytes) : Prop := match b with [] => True | c :: _ => c <> 43 /\ c <> 45 end.
Definition is_neg (s : option bool) : bool := match s with Some false => true | _ => false end.
Lemma sign_inv b s r : sign b = (s, r) -> exists t, signed t (is_neg s) /\ b = t ++ r.
Proof.
  unfold sign. destruct b as [|c b]; [intros E; injection E as <- <-; exists []; split; [left; auto|reflexivity]|].
  destruct (Z.eqb_spec c 43) as [->|N1]; [intros E; injection E as <- <-; exists (str "+"); split; [left; auto|reflexivity]|].
  destruct (Z.eqb_spec c 45) as [->|N2]; [intros E; injection E as <- <-; exists (str "-"); split; [right; auto|reflexivity]|].
  intros E. injection E as <- <-. exists []. split; [left; auto|reflexivity].
Qed.
Lemma sign_app t neg r : signed t neg -> no_sign r -> exists s, sign (t ++ r) = (s, r) /\ is_neg s = neg.
Proof.
  intros [(-> & [->| ->])|(-> & ->)] N.
  - cbn [app]. exists None. split; [|reflexivity]. destruct r as [|c r]; [reflexivity|]. cbn [no_sign] in N. unfold sign. destruct (Z.eqb_spec c 43); [lia|]. destruct (Z.eqb_spec c 45); [lia|reflexivity].
  - exists (Some true). split; reflexivity.
  - exists (Some false). split; reflexivity.
Qed.
Lemma digits_no_sign ds r : is_digits ds -> ds <> [] -> no_sign (ds ++ r).
Proof. intros H N. destruct H; [congruence|]. cbn. lia. Qed.
Lemma exponent_inv b n : read_exponent b = Some n -> exponent_part (str "e" ++ b) n /\ exponent_part (str "E" ++ b) n.
Proof.
  unfold read_exponent. destruct (sign b) as (s & r) eqn:S. destruct (unsigned r) as [k|] eqn:U; [|discriminate]. intros E.
  assert (EN : n = if is_neg s then - k else k) by (injection E as <-; destruct s as [[]|]; reflexivity). apply sign_inv in S. destruct S as (t & T & ->). apply unsigned_spec in U. destruct U as (U1 & U2 & ->).
  split; right; [exists (str "e")|exists (str "E")]; exists t, (is_neg s), r; (split; [auto|]); (split; [exact T|]); (split; [exact U1|]); (split; [exact U2|]); split; auto.
Qed.
Lemma exponent_read s neg ds : signed s neg -> is_digits ds -> ds <> [] -> read_exponent (s ++ ds) = Some (if neg then - worth ds else worth ds).
Proof.
  intros S D N. destruct (sign_app s neg ds S) as (o & E & <-). { rewrite <- (app_nil_r ds). apply digits_no_sign; auto. }
  unfold read_exponent. rewrite E. rewrite (proj2 (unsigned_spec ds _) (conj D (conj N eq_refl))). destruct o as [[]|]; reflexivity.
Qed.
Definition number_text (r : bytes) (d e : Z) : Prop :=
  exists i f body x n, plain_decimal i f body /\ exponent_part x n /\ r = body ++ x /\ d = worth (i ++ f) /\ e = n - zlen f.
Lemma exponent_stops x n : exponent_part x n -> stops x /\ match x with c :: _ => c <> 46 | [] => True end.
Proof. intros [(-> & _)|(e & s & neg & ds & [->| ->] & _ & _ & _ & -> & _)]; [split; exact I|split; cbn; lia..]. Qed.
Lemma exponent_tail (ds f x : bytes) (n : Z) : exponent_part x n ->
  match x with
  | [] => Some (value_of ds, - zlen f)
  | c :: r' => if (c =? 101) || (c =? 69) then match read_exponent r' with Some x => Some (value_of ds, x - zlen f) | None => None end else None
  end = Some (worth ds, n - zlen f).
Proof.
  intros [(-> & ->)|(e & s & neg & dd & [->| ->] & S & D & N & -> & ->)].
  - reflexivity.
  - cbn [str app String.list_ascii_of_string map]. change (str "e" ++ s ++ dd) with (101 :: s ++ dd). cbn [Z.eqb orb Pos.eqb]. rewrite (exponent_read s neg dd S D N). reflexivity.
  - change (str "E" ++ s ++ dd) with (69 :: s ++ dd). cbn [Z.eqb orb Pos.eqb]. rewrite (exponent_read s neg dd S D N). reflexivity.
Qed.
Lemma number_read r d e : read_number r = Some (d, e) <-> number_text r d e.
Proof.
  split.
  - unfold read_number. destruct (take_digits r) as (i & r1) eqn:T1. apply take_digits_inv in T1. destruct T1 as (-> & I1 & S1).
    set (q := match r1 with c :: r' => if c =? 46 then take_digits r' else ([], r1) | [] => ([], r1) end).
    assert (Q : is_digits (fst q) /\ stops (snd q) /\ (fst q = [] /\ r1 = snd q \/ r1 = str "." ++ fst q ++ snd q)).
    { unfold q. destruct r1 as [|c r1]; [split; [constructor|]; split; [exact I|auto]|]. destruct (Z.eqb_spec c 46) as [->|N].
      - destruct (take_digits r1) as (f & r2) eqn:T2. apply take_digits_inv in T2. destruct T2 as (-> & I2 & S2). auto.
      - split; [constructor|]. split; [exact S1|auto]. }
    destruct q as (f & r2). cbn [fst snd] in Q. destruct Q as (I2 & S2 & E2). destruct (i ++ f) as [|x ds] eqn:EF; [discriminate|]. intros H.
    assert (NE : i ++ f <> []) by congruence. rewrite <- EF in H.
    assert (B : exists body, plain_decimal i f body /\ i ++ r1 = body ++ r2).
    { destruct E2 as [(-> & ->)| ->]; [exists i; split; [|reflexivity]; split; [exact I1|]; split; [exact I2|]; split; [exact NE|]; left; auto|].
      exists (i ++ str "." ++ f). split; [split; [exact I1|]; split; [exact I2|]; split; [exact NE|]; right; auto|]. rewrite <- !app_assoc. reflexivity. }
    destruct B as (body & PD & EB). rewrite EB. destruct r2 as [|c r3].
    + injection H as <- <-. exists i, f, body, [], 0. split; [exact PD|]. split; [left; auto|]. split; [reflexivity|]. split; [reflexivity|lia].
    + destruct ((c =? 101) || (c =? 69)) eqn:EC; [|discriminate]. destruct (read_exponent r3) as [n|] eqn:RE; [|discriminate]. injection H as <- <-. apply exponent_inv in RE. destruct RE as (R1 & R2).
      exists i, f, body, (c :: r3), n. split; [exact PD|]. split; [|auto]. apply orb_prop in EC. destruct EC as [EC|EC]; apply Z.eqb_eq in EC; subst c; [exact R1|exact R2].
  - intros (i & f & body & x & n & (I1 & I2 & NE & B) & X & -> & -> & ->). destruct (exponent_stops x n X) as (SX & DX). unfold read_number.
    destruct B as [(-> & ->)| ->].
    + rewrite (take_digits_app i x I1 SX). rewrite app_nil_r in NE |- *. replace (match x with c :: r' => if c =? 46 then take_digits r' else ([], x) | [] => ([], x) end) with (@nil Z, x).
      2: { destruct x as [|c x]; [reflexivity|]. destruct (Z.eqb_spec c 46); [contradiction|reflexivity]. }
      rewrite app_nil_r. pose proof (exponent_tail i [] x n X) as T. destruct i as [|c i]; [congruence|exact T].
    + rewrite <- app_assoc. rewrite (take_digits_app i _ I1) by (cbn; lia). cbn [str app]. change (str "." ++ f) with (46 :: f). cbn [app]. change (46 =? 46) with true. cbv beta iota. rewrite (take_digits_app f x I2 SX).
      pose proof (exponent_tail (i ++ f) f x n X) as T. destruct (i ++ f) as [|c ds]; [congruence|exact T].
Qed.
Lemma number_no_sign r d e : number_text r d e -> no_sign r.
Proof.
  intros (i & f & body & x & n & (I1 & I2 & NE & B) & X & -> & _). destruct I1 as [|c i H1 I1].
  - destruct B as [(-> & ->)| ->]; [cbn in NE; congruence|]. cbn. lia.
  - destruct B as [(-> & ->)| ->]; cbn; lia.
Qed.
Lemma lower_spec word b : Forall (fun a => 97 <= a <= 122) word -> (map lower b = word <-> same_letters word b).
Proof.
  intros F. revert b. induction F as [|a word H _ IH]; intros b; (destruct b as [|c b]; cbn [map]; [split; intros X; [try discriminate; constructor|inversion X; auto]|]).
  - split; intros X; [discriminate|inversion X].
  - assert (L : lower c = a <-> c = a \/ c = a - 32). { unfold lower. destruct (Z.leb_spec 65 c); destruct (Z.leb_spec c 90); cbn [andb]; lia. }
    split; intros X; [injection X as X1 X2; constructor; [apply L, X1|apply IH, X2]|]. inversion X; subst. f_equal; [apply L; auto|apply IH; auto].
Qed.
Lemma letters_no_number word b : Forall (fun a => 97 <= a <= 122) word -> word <> [] -> same_letters word b -> read_number b = None /\ no_sign b.
Proof.
  intros F N S. destruct S as [|a c word b H S]; [congruence|]. inversion F; subst. assert (ND : digit c = false) by (destruct (digit c) eqn:D; [apply digit_spec in D; lia|reflexivity]).
  split; [|cbn; lia]. unfold read_number. cbn [take_digits]. fold (digit c). rewrite ND. destruct (Z.eqb_spec c 46); [lia|]. reflexivity.
Qed.
(** A text is read as [x] exactly when it stands for [x]. *)
Theorem C83_reads : forall text x, read_f64 text = Some x <-> stands_for text x.
Proof.
  intros text x. assert (WN : forall w : string, In w ["nan"; "inf"; "infinity"]%string -> Forall (fun a => 97 <= a <= 122) (str w) /\ str w <> []).
  { intros w [<-|[<-|[<-|[]]]]; (split; [cbv; repeat constructor; discriminate|discriminate]). }
  split.
  - unfold read_f64. destruct (sign text) as (s & r) eqn:S. apply sign_inv in S. destruct S as (t & T & ->). fold (is_neg s). destruct (read_number r) as [(d & e)|] eqn:R.
    + intros E. injection E as <-. apply number_read in R. left. exists (is_neg s), d, e. split.
      * destruct R as (i & f & body & x & n & H1 & H2 & -> & -> & ->). exists t, i, f, body, x, n. auto 6.
      * apply decimal_nearest. destruct R as (i & f & body & x & n & (I1 & I2 & _) & _ & _ & -> & _).
        assert (P : forall ds a, is_digits ds -> 0 <= a -> 0 <= fold_left (fun n c => 10 * n + (c - 48)) ds a) by (intros ds a H; revert a; induction H; intros a Ha; cbn [fold_left]; [lia|apply IHForall; lia]).
        apply P; [apply Forall_app; auto|lia].
    + unfold read_inf_nan. destruct (beq (map lower r) (str "nan")) eqn:B1.
      * intros E. injection E as <-. apply beq_true in B1. apply lower_spec in B1; [|apply WN; cbn; auto]. right. right. exists t, (is_neg s), r. auto.
      * destruct (beq (map lower r) (str "inf")) eqn:B2; [|destruct (beq (map lower r) (str "infinity")) eqn:B3; [|discriminate]]; cbn [orb]; intros E; injection E as <-; right; left; exists t, (is_neg s), r.
        -- apply beq_true in B2. apply lower_spec in B2; [|apply WN; cbn; auto]. exists "inf"%string. auto 6.
        -- apply beq_true in B3. apply lower_spec in B3; [|apply WN; cbn; auto]. exists "infinity"%string. auto 6.
  - intros [(neg & d & e & (t & i & f & body & y & n & T & PD & X & -> & ED & EE) & NR)|[(t & neg & w & word & T & -> & HW & SL & ->)|(t & neg & w & T & -> & SL & ->)]].
    + assert (NT : number_text (body ++ y) d e) by (exists i, f, body, y, n; auto 6). destruct (sign_app t neg (body ++ y) T (number_no_sign _ _ _ NT)) as (s & E & <-).
      unfold read_f64. rewrite E. rewrite (proj2 (number_read _ _ _) NT). f_equal. fold (is_neg s). apply (nearest_unique (decimal_value (is_neg s) d e) (is_neg s)); [|exact NR]. apply decimal_nearest.
      subst d. destruct PD as (I1 & I2 & _).
        assert (P : forall ds a, is_digits ds -> 0 <= a -> 0 <= fold_left (fun n c => 10 * n + (c - 48)) ds a) by (intros ds a H; revert a; induction H; intros a Ha; cbn [fold_left]; [lia|apply IHForall; lia]).
        apply P; [apply Forall_app; auto|lia].
    + destruct (WN word) as (F & N); [cbn; destruct HW as [->| ->]; auto|]. destruct (letters_no_number _ _ F N SL) as (RN & NS). destruct (sign_app t neg w T NS) as (s & E & <-).
      unfold read_f64. rewrite E, RN. fold (is_neg s). unfold read_inf_nan. apply (lower_spec _ _ F) in SL. rewrite SL. destruct HW as [->| ->]; reflexivity.
    + destruct (WN "nan"%string) as (F & N); [cbn; auto|]. destruct (letters_no_number _ _ F N SL) as (RN & NS). destruct (sign_app t neg w T NS) as (s & E & <-).
      unfold read_f64. rewrite E, RN. unfold read_inf_nan. apply (lower_spec _ _ F) in SL. rewrite SL. reflexivity.
Qed.

(** * Which thresholds summarize accepts *)
Lemma nearest_round r neg x : nearest_f64 r neg x -> is_finite x = true -> round radix2 (FLT_exp (-1074) 53) ZnearestE r = B2R x.
Proof.
  intros (H1 & H2) F. cbv zeta in *. destruct (Rlt_le_dec (Rabs (round radix2 (FLT_exp (-1074) 53) ZnearestE r)) (bpow radix2 1024)) as [L|L].
  - destruct (H1 L) as (_ & E & _). auto.
  - rewrite (H2 L) in F. discriminate.
Qed.
Definition least : R := (- / IZR (2 ^ 1075))%R.
Definition greatest : R := (100 + / IZR (2 ^ 47))%R.
Lemma round_least : round radix2 (FLT_exp (-1074) 53) ZnearestE least = 0%R.
Proof.
  pose proof (ratio_nearest true 1 (Z.to_pos (2 ^ 1075))) as H. set (x := ratio true 1 (Z.to_pos (2 ^ 1075))) in H. assert (E : x = B754_zero true) by (apply B2SF_inj; unfold x, ratio; rewrite B2SF_SF2B; vm_compute; reflexivity). rewrite E in H.
  apply nearest_round in H; [|reflexivity]. rewrite Z2Pos.id in H by lia. replace least with (-1 * (1 / IZR (2 ^ 1075)))%R; [exact H|]. unfold least, Rdiv. ring.
Qed.
Lemma round_greatest : round radix2 (FLT_exp (-1074) 53) ZnearestE greatest = 100%R.
Proof.
  pose proof (ratio_nearest false (Z.to_pos (100 * 2 ^ 47 + 1)) (Z.to_pos (2 ^ 47))) as H. set (x := ratio false _ _) in H. assert (E : x = of_int 100) by (apply B2SF_inj; unfold x, ratio; rewrite B2SF_SF2B; vm_compute; reflexivity). rewrite E in H.
  apply nearest_round in H; [|reflexivity]. rewrite !Z2Pos.id in H by lia. rewrite (proj1 hundred) in H. replace greatest with (1 * (IZR (100 * 2 ^ 47 + 1) / IZR (2 ^ 47)))%R; [exact H|].
  unfold greatest. rewrite plus_IZR, mult_IZR. field. apply IZR_neq. lia.
Qed.
Lemma nearest_of r g : generic_format radix2 (FLT_exp (-1074) 53) g -> (Rabs (round radix2 (FLT_exp (-1074) 53) ZnearestE r - r) <= Rabs (g - r))%R.
Proof. intros G. apply (proj2 (round_N_pt radix2 (FLT_exp (-1074) 53) (fun x => negb (Z.even x)) r)), G. Qed.
Lemma below_least r : (r < least)%R -> (round radix2 (FLT_exp (-1074) 53) ZnearestE r < 0)%R.
Proof.
  intros L. apply Rnot_le_lt. intros N. assert (G : generic_format radix2 (FLT_exp (-1074) 53) (2 * least)).
  { replace (2 * least)%R with (F2R (Float radix2 (-1) (-1074))).
    - apply generic_format_FLT. exists (Float radix2 (-1) (-1074)); [reflexivity|cbn [Fnum]; vm_compute; reflexivity|cbn [Fexp]; lia].
    - unfold F2R. cbn [Fnum Fexp]. unfold least. change (bpow radix2 (-1074)) with (/ IZR (Z.pow_pos 2 1074))%R. change (2 ^ 1075) with (2 * Z.pow_pos 2 1074). rewrite mult_IZR. assert (IZR (Z.pow_pos 2 1074) <> 0)%R by (apply IZR_neq; discriminate). field. auto. }
  pose proof (nearest_of r _ G) as H. assert (P : (least < 0)%R) by (unfold least; apply Ropp_lt_gt_0_contravar, Rinv_0_lt_compat, IZR_lt; reflexivity).
  rewrite Rabs_pos_eq in H by lra. unfold Rabs in H. destruct (Rcase_abs (2 * least - r)); lra.
Qed.
Lemma above_greatest r : (greatest < r)%R -> (100 < round radix2 (FLT_exp (-1074) 53) ZnearestE r)%R.
Proof.
  intros L. apply Rnot_le_lt. intros N. assert (P : (0 < / IZR (2 ^ 47))%R) by (apply Rinv_0_lt_compat, IZR_lt; reflexivity). assert (G : generic_format radix2 (FLT_exp (-1074) 53) (2 * greatest - 100)).
  { replace (2 * greatest - 100)%R with (F2R (Float radix2 (100 * 2 ^ 46 + 1) (-46))).
    - apply generic_format_FLT. exists (Float radix2 (100 * 2 ^ 46 + 1) (-46)); [reflexivity|cbn [Fnum]; vm_compute; reflexivity|cbn [Fexp]; lia].
    - unfold F2R. cbn [Fnum Fexp]. unfold greatest. change (bpow radix2 (-46)) with (/ IZR (Z.pow_pos 2 46))%R. change (2 ^ 47) with (2 * Z.pow_pos 2 46). change (2 ^ 46) with (Z.pow_pos 2 46). rewrite mult_IZR, plus_IZR, mult_IZR. assert (IZR (Z.pow_pos 2 46) <> 0)%R by (apply IZR_neq; discriminate). field. auto. }
  pose proof (nearest_of r _ G) as H. unfold greatest in *. rewrite Rabs_left1 in H by lra. unfold Rabs in H. destruct (Rcase_abs (2 * (100 + / IZR (2 ^ 47)) - 100 - r)); lra.
Qed.
(** A decimal number is accepted exactly if it lies between 0 and 100, up to half the distance to the next machine number; the word
    nan is accepted, the infinities are not. *)
Theorem C83_accepted : forall text x r, stands_for text x ->
  (summarize_main x r <> None <->
   (exists negative d e, decimal_text text negative d e /\ (- / IZR (2 ^ 1075) <= decimal_value negative d e <= 100 + / IZR (2 ^ 47))%R) \/
   exists s negative w, signed s negative /\ text = s ++ w /\ same_letters (str "nan") w).
Proof.
  intros text x r SF. rewrite C61_threshold. split.
  - intros A. destruct SF as [(neg & d & e & T & N)|[(s & neg & w & word & _ & _ & _ & _ & ->)|(s & neg & w & T & E & L & _)]]; [|destruct A as [A|(A & _)]; discriminate|right; exists s, neg, w; auto].
    left. exists neg, d, e. split; [exact T|]. destruct A as [->|(F & A)].
    + exfalso. destruct N as (N1 & N2). cbv zeta in *. destruct (Rlt_le_dec (Rabs (round radix2 (FLT_exp (-1074) 53) ZnearestE (decimal_value neg d e))) (bpow radix2 1024)) as [L|L]; [destruct (N1 L); discriminate|discriminate (N2 L)].
    + pose proof (nearest_round _ _ _ N F) as R. fold least. fold greatest. split; apply Rnot_lt_le; intros X; [apply below_least in X|apply above_greatest in X]; rewrite R in X; lra.
  - intros A. assert (E0 : read_f64 text = Some x) by (apply C83_reads, SF). destruct A as [(neg & d & e & T & L & G)|(s & neg & w & S & E & W)].
    + right. fold least in L. fold greatest in G. apply (round_le radix2 (FLT_exp (-1074) 53) ZnearestE) in L. apply (round_le radix2 (FLT_exp (-1074) 53) ZnearestE) in G. rewrite round_least in L. rewrite round_greatest in G.
      set (n := round radix2 (FLT_exp (-1074) 53) ZnearestE (decimal_value neg d e)) in *.
      assert (NN : nearest_f64 (decimal_value neg d e) neg x).
      { destruct T as (s & i & f & body & y & k & T1 & T2 & T3 & T4 & T5 & T6). assert (NT : number_text (body ++ y) d e) by (exists i, f, body, y, k; auto 6).
        destruct (sign_app s neg (body ++ y) T1 (number_no_sign _ _ _ NT)) as (o & E & <-). unfold read_f64 in E0. rewrite T4, E in E0. rewrite (proj2 (number_read _ _ _) NT) in E0. injection E0 as <-. fold (is_neg o). apply decimal_nearest.
        subst d. destruct T2 as (I1 & I2 & _).
        assert (P : forall ds a, is_digits ds -> 0 <= a -> 0 <= fold_left (fun n c => 10 * n + (c - 48)) ds a) by (intros ds a H; revert a; induction H; intros a Ha; cbn [fold_left]; [lia|apply IHForall; lia]).
        apply P; [apply Forall_app; auto|lia]. }
      destruct NN as (N1 & _). cbv zeta in N1. fold n in N1. destruct N1 as (F & -> & _); [|split; auto]. rewrite Rabs_pos_eq by lra. apply Rle_lt_trans with 100%R; [lra|]. apply Rlt_le_trans with (bpow radix2 7); [change (bpow radix2 7) with 128%R; lra|apply bpow_le; lia].
    + left. assert (E1 : read_f64 text = Some B754_nan) by (apply C83_reads; right; right; exists s, neg, w; auto). congruence.
Qed.

(** * Texts of numbers *)
Lemma nonneg_digits ds : is_digits ds -> 0 <= worth ds.
Proof.
  assert (P : forall ds a, is_digits ds -> 0 <= a -> 0 <= fold_left (fun n c => 10 * n + (c - 48)) ds a) by (intros l a H; revert a; induction H; intros a Ha; cbn [fold_left]; [lia|apply IHForall; lia]).
  intros H. apply P; [exact H|lia].
Qed.
(** A machine number whose value is written down exactly is read. *)
Theorem C83_exact : forall text negative d e x, decimal_text text negative d e -> is_finite x = true -> Bsign x = negative -> B2R x = decimal_value negative d e -> read_f64 text = Some x.
Proof.
  intros text neg d e x T F S V. apply C83_reads. left. exists neg, d, e. split; [exact T|]. rewrite <- V. unfold nearest_f64. cbv zeta.
  rewrite (round_generic radix2 (FLT_exp (-1074) 53) ZnearestE (B2R x) (generic_format_B2R 53 1024 x)). split; [auto|]. intros H. exfalso. pose proof (abs_B2R_lt_emax 53 1024 x). lra.
Qed.
(** What is displayed for a machine number is read back as that number. *)
Theorem C83_roundtrip : forall x text, is_finite x = true -> Bsign x = false -> displays x text -> read_f64 text = Some x.
Proof.
  intros x text F S (i & f & d & e & -> & (NI & DF) & _ & Hd & EV & RA & _). apply C83_reads. left. exists false, (worth (i ++ f)), (0 - zlen f). split.
  - exists [], i, f, (S_Text.number_text i f), [], 0. split; [left; auto|]. split; [|split; [left; auto|]; split; [rewrite app_nil_r; reflexivity|auto]]. destruct NI as (DI & _ & N0 & N1). split; [exact DI|]. split; [exact DF|]. split.
    + intros E. apply app_eq_nil in E. destruct E as (-> & ->). specialize (N0 eq_refl). discriminate.
    + unfold S_Text.number_text. destruct f as [|c f]; [left; rewrite app_nil_r; auto|right; reflexivity].
  - assert (V : decimal_value false (worth (i ++ f)) (0 - zlen f) = dec d e).
    { rewrite <- EV. unfold decimal_value, Rdiv. rewrite Rmult_1_l. f_equal. replace (0 - zlen f) with (- zlen f) by lia. rewrite powerRZ_neg' by lra || idtac. pose proof (zlen_nonneg f). rewrite <- (Z2Nat.id (zlen f)) by lia. rewrite <- pow_IZR, <- pow_powerRZ. reflexivity. }
    rewrite V. unfold reads_as in RA. unfold nearest_f64. cbv zeta. rewrite RA. split; [auto|]. intros H. exfalso. pose proof (abs_B2R_lt_emax 53 1024 x). lra.
Qed.
(** Every machine number can be written. *)
Theorem C83_every : forall x, exists text, read_f64 text = Some x.
Proof.
  intros x. set (s := fun neg : bool => if neg then str "-" else []). assert (HS : forall neg, signed (s neg) neg) by (intros []; [right; auto|left; auto]).
  destruct x as [neg|neg| |neg m e B].
  - exists (s neg ++ str "0"). destruct neg; reflexivity.
  - exists (s neg ++ str "inf"). destruct neg; reflexivity.
  - exists (str "nan"). reflexivity.
  - set (k := Z.max 0 (- e)). set (D := Zpos m * 2 ^ (e + k) * 5 ^ k).
    assert (P2 : 0 < 2 ^ (e + k)) by (apply Z.pow_pos_nonneg; lia). assert (P5 : 0 < 5 ^ k) by (apply Z.pow_pos_nonneg; lia). assert (PD : 0 <= D) by (unfold D; apply Z.mul_nonneg_nonneg; [apply Z.mul_nonneg_nonneg; lia|lia]).
    pose proof (decimal_numeral D PD) as (D1 & D2 & D3 & D4). pose proof (decimal_numeral k ltac:(lia)) as (K1 & K2 & K3 & K4).
    assert (ND : M_Crox.decimal D <> []). { intros E. rewrite E in *. unfold S_Crox.denotes in D2. cbn in D2. specialize (D3 (eq_sym D2)). discriminate. }
    assert (NK : M_Crox.decimal k <> []). { intros E. rewrite E in *. unfold S_Crox.denotes in K2. cbn in K2. specialize (K3 (eq_sym K2)). discriminate. }
    exists (s neg ++ M_Crox.decimal D ++ str "e-" ++ M_Crox.decimal k). apply (C83_exact _ neg D (- k)).
    + exists (s neg), (M_Crox.decimal D), [], (M_Crox.decimal D), (str "e-" ++ M_Crox.decimal k), (- k). split; [apply HS|]. split; [split; [exact D1|]; split; [constructor|]; split; [rewrite app_nil_r; exact ND|left; auto]|].
      split; [|split; [reflexivity|]; split; [rewrite app_nil_r; symmetry; exact D2|change (zlen (@nil Z)) with 0; lia]].
      right. exists (str "e"), (str "-"), true, (M_Crox.decimal k). split; [auto|]. split; [right; auto|]. split; [exact K1|]. split; [exact NK|]. split; [reflexivity|]. f_equal. symmetry. exact K2.
    + reflexivity.
    + reflexivity.
    + assert (A : (IZR (Zpos m) * bpow radix2 e = IZR D * powerRZ 10 (- k))%R).
      { rewrite powerRZ_neg' by lra || idtac. replace (powerRZ 10 k) with (IZR (10 ^ k)) by (rewrite <- (Z2Nat.id k) by lia; rewrite <- pow_IZR, <- pow_powerRZ; reflexivity).
        unfold D. replace 10 with (2 * 5) by reflexivity. rewrite Z.pow_mul_l, !mult_IZR. change 2 with (radix_val radix2). rewrite !IZR_Zpower by lia. rewrite bpow_plus. assert (IZR (5 ^ k) <> 0)%R by (apply IZR_neq; lia). pose proof (bpow_gt_0 radix2 k). field. split; [auto|lra]. }
      unfold B2R, F2R, decimal_value. cbn [Fnum Fexp]. rewrite <- A. destruct neg; cbn [cond_Zopp]; [change (Zneg m) with (- Zpos m); rewrite opp_IZR|]; ring.
Qed.
Lemma ascii_utf8 b : Forall (fun c => 0 <= c < 128) b -> utf8_valid b = true.
Proof.
  intros F. apply utf8_valid_true. exists b. split; [eapply Forall_impl; [|exact F]; intros c H; cbv beta in H; left; lia|]. induction F as [|c b H F IH]; [reflexivity|]. cbn [flat_map]. rewrite <- IH. unfold encode. replace (c <? 128) with true by (symmetry; apply Z.ltb_lt; lia). reflexivity.
Qed.
Lemma stands_ascii text x : stands_for text x -> Forall (fun c => 0 <= c < 128) text.
Proof.
  assert (DG : forall ds, is_digits ds -> Forall (fun c => 0 <= c < 128) ds) by (intros ds; apply Forall_impl; intros c H; cbv beta in H; lia).
  assert (SG : forall s n, signed s n -> Forall (fun c => 0 <= c < 128) s) by (intros s n [(_ & [->| ->])|(_ & ->)]; cbv; repeat constructor; discriminate).
  assert (SL : forall w t, Forall (fun a => 97 <= a <= 122) w -> same_letters w t -> Forall (fun c => 0 <= c < 128) t).
  { intros w t F L. induction L as [|a c w t H L IH]; [constructor|]. inversion F; subst. constructor; [lia|auto]. }
  intros [(neg & d & e & (s & i & f & body & y & n & S & (I & F & _ & B) & X & -> & _) & _)|[(s & neg & w & word & S & -> & HW & L & _)|(s & neg & w & S & -> & L & _)]]; apply Forall_app; (split; [eapply SG; eauto|]).
  - apply Forall_app. split.
    + destruct B as [(-> & ->)| ->]; [auto|]. apply Forall_app. split; [auto|]. apply Forall_app. split; [cbv; repeat constructor; discriminate|auto].
    + destruct X as [(-> & _)|(ee & s' & neg' & ds & E & S' & D & _ & -> & _)]; [constructor|]. apply Forall_app. split; [destruct E as [->| ->]; cbv; repeat constructor; discriminate|]. apply Forall_app. split; [eapply SG; eauto|auto].
  - apply (SL (str word)); [|exact L]. destruct HW as [->| ->]; cbv; repeat constructor; discriminate.
  - apply (SL (str "nan")); [|exact L]. cbv; repeat constructor; discriminate.
Qed.
(** [summarize summarize] starts with the threshold its command line stands for. *)
Theorem C83_command : exists json percent,
  described json (str "json") None Flag (fun _ => True) /\
  described percent (str "percent-above") (Some (str "p")) Single (fun v => exists x, stands_for v x) /\
  forall e args file b x, command_line read_f64 e SummarizeTool args = Start (M_Programs.Summarize file b x) <->
  exists rest ps name text, let g := mkG [json; percent] (Some 1) in args = str "summarize" :: rest /\ typed g ps rest /\ allowed g ps /\
     words ps = [name] /\ file = path_of name /\ flag_given ps (str "json") b /\
     (In (Valued (str "percent-above") text) ps \/ (forall v, ~ In (Valued (str "percent-above") v) ps) /\ text = str "0.0") /\ stands_for text x.
Proof.
  destruct (C81_summarize read_f64) as (exclude & json & percent & _ & DJ & (P1 & P2 & P3 & P4) & H). exists json, percent. split; [exact DJ|]. split.
  { split; [exact P1|]. split; [exact P2|]. split; [exact P3|]. intros v. rewrite P4. split; [intros (_ & x & E); exists x; apply C83_reads, E|].
    intros (x & E). split; [apply ascii_utf8, (stands_ascii v x E)|exists x; apply C83_reads, E]. }
  intros e args file b x. rewrite H. cbv zeta. split.
  - intros [(rest & ps & _ & _ & _ & X)|[(rest & ps & base & ch & b' & _ & _ & _ & _ & _ & X)|(rest & ps & name & b' & text & x' & E & T & A & W & FG & V & R & X)]]; [discriminate|discriminate|].
    injection X as -> -> ->. exists rest, ps, name, text. split; [exact E|]. split; [exact T|]. split; [exact A|]. split; [exact W|]. split; [reflexivity|]. split; [exact FG|]. split; [exact V|]. apply C83_reads, R.
  - intros (rest & ps & name & text & E & T & A & W & -> & FG & V & R). right. right. exists rest, ps, name, b, text, x. split; [exact E|]. split; [exact T|]. split; [exact A|]. split; [exact W|]. split; [exact FG|]. split; [exact V|]. split; [apply C83_reads, R|reflexivity].
Qed.

(** * Examples *)
(** The default threshold, 0.1 (which is no machine number), half a percent written in three ways, and texts that are no numbers. *)
Definition ex_read (text : string) : option SpecFloat.spec_float := option_map B2SF (read_f64 (str text)).
Lemma sf_read text x : ex_read text = Some (B2SF x) -> stands_for (str text) x.
Proof.
  intros E. apply C83_reads. unfold ex_read in E. destruct (read_f64 (str text)) as [y|]; [|discriminate]. injection E as E. apply B2SF_inj in E. subst y. reflexivity.
Qed.
Example ex_C83 :
  stands_for (str "0.0") (B754_zero false) /\ ex_read "0.1" = Some (SpecFloat.S754_finite false 7205759403792794 (-56)) /\
  (exists x, B2R x = (/ 2)%R /\ Forall (fun t => stands_for (str t) x) [".5"; "+5e-1"; "50E-2"; "0.5000"]%string) /\
  stands_for (str "1e400") (B754_infinity false) /\ stands_for (str "-1e-400") (B754_zero true) /\ stands_for (str "NaN") B754_nan /\
  map read_f64 (map str [""; "."; "+"; "e1"; "1e"; "1 "; "5%"; "0x1"; "1,5"; "--1"]%string) = repeat None 10 /\
  (forall r, exists x, stands_for (str "100.000000000000007") x /\ summarize_main x r <> None) /\
  (forall r, exists x, stands_for (str "100.00000000000001") x /\ summarize_main x r = None).
Proof.
  split; [apply sf_read; vm_compute; reflexivity|]. split; [vm_compute; reflexivity|]. split.
  { exists (@B754_finite 53 1024 false 4503599627370496 (-53) eq_refl). split; [unfold B2R, F2R; cbn [Fnum Fexp cond_Zopp]; change (bpow radix2 (-53)) with (/ IZR (Z.pow_pos 2 53))%R; change (Z.pow_pos 2 53) with (2 * 4503599627370496); rewrite mult_IZR; field; apply IZR_neq; lia|].
    constructor; [apply sf_read; vm_compute; reflexivity|]. constructor; [apply sf_read; vm_compute; reflexivity|]. constructor; [apply sf_read; vm_compute; reflexivity|]. constructor; [apply sf_read; vm_compute; reflexivity|constructor]. }
  split; [apply sf_read; vm_compute; reflexivity|]. split; [apply sf_read; vm_compute; reflexivity|]. split; [apply sf_read; vm_compute; reflexivity|]. split; [vm_compute; reflexivity|]. split.
  - intros r. assert (S : stands_for (str "100.000000000000007") (of_int 100)) by (apply sf_read; vm_compute; reflexivity). exists (of_int 100). split; [exact S|]. apply C61_threshold. right. destruct hundred as (H1 & H2). rewrite H1. split; [exact H2|lra].
  - intros r. assert (S : stands_for (str "100.00000000000001") (@B754_finite 53 1024 false 7036874417766401 (-46) eq_refl)) by (apply sf_read; vm_compute; reflexivity).
    exists (@B754_finite 53 1024 false 7036874417766401 (-46) eq_refl). split; [exact S|]. destruct (summarize_main _ r) eqn:E; [exfalso|reflexivity].
    assert (X : summarize_main (@B754_finite 53 1024 false 7036874417766401 (-46) eq_refl) r <> None) by (rewrite E; discriminate). apply C61_threshold in X. destruct X as [X|(_ & _ & X)]; [discriminate|].
    unfold B2R, F2R in X. cbn [Fnum Fexp cond_Zopp] in X. change (bpow radix2 (-46)) with (/ IZR (Z.pow_pos 2 46))%R in X. apply (Rmult_le_compat_r (IZR (Z.pow_pos 2 46))) in X; [|apply IZR_le; discriminate].
    rewrite Rmult_assoc, Rinv_l, Rmult_1_r in X by (apply IZR_neq; discriminate). rewrite <- mult_IZR in X. apply le_IZR in X. vm_compute in X. congruence.
Qed.
Print Assumptions C83_accepted.
Print Assumptions C83_command.
