(** C84: the texts of machine numbers.  Model M_ShowF64.v, specification S_AggText.v ([displays]), S_ReadF64.v, S_Json.v. *)
From Coq Require Import String ZArith Reals List Lia Lra Bool.
From Flocq Require Import Core BinarySingleNaN.
From Verif Require Import M_Base F_Base M_Map M_Float M_Crox S_Tools Prop_Tools S_Crox S_Json S_Text Prop_Text S_AggText M_ReadF64 S_ReadF64 Prop_ReadF64 M_ShowF64 S_ShowF64.
Import ListNotations.
Open Scope Z_scope.

(** * Powers of ten *)
Lemma p10_pos s : (0 < powerRZ 10 s)%R.
Proof. apply powerRZ_lt. lra. Qed.
Lemma p10_add a b : powerRZ 10 (a + b) = (powerRZ 10 a * powerRZ 10 b)%R.
Proof. apply powerRZ_add. lra. Qed.
Lemma p10_Z k : 0 <= k -> powerRZ 10 k = IZR (10 ^ k).
Proof. intros H. rewrite <- (Z2Nat.id k) by lia. rewrite <- pow_IZR, <- pow_powerRZ. reflexivity. Qed.
Lemma p10_le a b : a <= b -> (powerRZ 10 a <= powerRZ 10 b)%R.
Proof.
  intros H. replace b with (a + (b - a)) by lia. rewrite p10_add. rewrite <- (Rmult_1_r (powerRZ 10 a)) at 1. apply Rmult_le_compat_l; [apply Rlt_le, p10_pos|]. rewrite p10_Z by lia. apply IZR_le. assert (0 < 10 ^ (b - a)) by (apply Z.pow_pos_nonneg; lia). lia.
Qed.
Lemma dec_shift k j s : 0 <= j -> dec k (s + j) = dec (k * 10 ^ j) s.
Proof. intros H. unfold dec. rewrite p10_add, mult_IZR, <- (p10_Z j H). ring. Qed.
Lemma dec_le a b s : a <= b -> (dec a s <= dec b s)%R.
Proof. intros H. apply Rmult_le_compat_r; [apply Rlt_le, p10_pos|apply IZR_le, H]. Qed.
Lemma dec_p10 s : dec 1 s = powerRZ 10 s.
Proof. unfold dec. ring. Qed.

Lemma Rle_div_r (a b c : R) : (0 < c)%R -> (a <= b / c <-> a * c <= b)%R.
Proof. intros H. split; intros L; [apply (Rmult_le_compat_r c) in L; [|lra]; replace (b / c * c)%R with b in L by (field; lra); exact L|]. apply (Rmult_le_reg_r c); [exact H|]. replace (b / c * c)%R with b by (field; lra). exact L. Qed.
Lemma Rlt_div_l (a b c : R) : (0 < c)%R -> (a / c < b <-> a < b * c)%R.
Proof. intros H. split; intros L; [apply (Rmult_lt_compat_r c) in L; [|lra]; replace (a / c * c)%R with a in L by (field; lra); exact L|]. apply (Rmult_lt_reg_r c); [exact H|]. replace (a / c * c)%R with a by (field; lra). exact L. Qed.

(** * The search *)
Section Shortest.
Set Default Proof Using "All".
Variables (x : f64) (A B : Z).
Hypotheses (HA : 0 < A) (HB : 0 < B) (FX : is_finite x = true) (VX : B2R x = (IZR A / IZR B)%R).
Notation X := (B2R x).
Notation ok := (fun r => reads_as r x).

Lemma X_pos : (0 < X)%R.
Proof. rewrite VX. apply Rdiv_lt_0_compat; apply IZR_lt; lia. Qed.
Lemma ok_X : ok X.
Proof. unfold reads_as. apply round_generic; [apply valid_rnd_N|apply (generic_format_B2R 53 1024 x)]. Qed.
Lemma ok_between a b r : ok a -> ok b -> (a <= r <= b)%R -> ok r.
Proof.
  unfold reads_as. intros HA' HB' (H1 & H2). apply (round_le radix2 (FLT_exp (-1074) 53) ZnearestE) in H1. apply (round_le radix2 (FLT_exp (-1074) 53) ZnearestE) in H2. lra.
Qed.
Lemma not_ok_0 e : ~ ok (dec 0 e).
Proof. unfold reads_as, dec. rewrite Rmult_0_l, round_0 by apply valid_rnd_N. pose proof X_pos. lra. Qed.
Lemma reads_ok d s : 0 <= d -> (reads x d s = true <-> ok (dec d s)).
Proof.
  intros Hd. pose proof (decimal_nearest false d s Hd) as (N1 & N2). cbv zeta in *. unfold decimal_value in *. rewrite Rmult_1_l in *. fold (dec d s) in *. set (r := round radix2 (FLT_exp (-1074) 53) ZnearestE (dec d s)) in *.
  unfold reads_as. fold r. unfold reads. destruct (Rlt_le_dec (Rabs r) (bpow radix2 1024)) as [L|L].
  - destruct (N1 L) as (F & V & _). rewrite (Bcompare_correct _ _ _ _ F FX). rewrite <- V. destruct (Rcompare_spec (B2R (of_decimal false d s)) X); (split; [intros; try discriminate; auto|intros; try lra; auto]).
  - rewrite (N2 L). pose proof (abs_B2R_lt_emax 53 1024 x). split; [|intros E; rewrite E in L; lra]. destruct x as [s0|s0| |s0 m e H0]; try discriminate FX; cbn; destruct s0; discriminate.
Qed.
Lemma scaled_spec s : let '(n, d) := scaled A B s in 0 <= n /\ 0 < d /\ (IZR n / IZR d * powerRZ 10 s = X)%R.
Proof.
  unfold scaled. destruct (Z.leb_spec 0 s) as [L|L].
  - assert (P : 0 < 10 ^ s) by (apply Z.pow_pos_nonneg; lia). split; [lia|]. split; [apply Z.mul_pos_pos; lia|]. rewrite VX, mult_IZR, (p10_Z s L). field. split; apply IZR_neq; lia.
  - assert (P : 0 < 10 ^ (- s)) by (apply Z.pow_pos_nonneg; lia). split; [apply Z.mul_nonneg_nonneg; lia|]. split; [lia|]. rewrite VX, mult_IZR. replace (IZR (10 ^ - s)) with (/ powerRZ 10 s)%R.
    + pose proof (p10_pos s). field. split; [apply IZR_neq; lia|lra].
    + rewrite <- powerRZ_neg'. apply p10_Z. lia.
Qed.
Definition lo (s : Z) : Z := let '(n, d) := scaled A B s in n / d.
Lemma lo_spec s : 0 <= lo s /\ (dec (lo s) s <= X < dec (lo s + 1) s)%R.
Proof.
  unfold lo. pose proof (scaled_spec s) as S. destruct (scaled A B s) as (n & d). destruct S as (Hn & Hd & E). pose proof (p10_pos s) as P. split; [apply Z.div_pos; lia|].
  assert (F1 : (IZR (n / d) <= IZR n / IZR d)%R). { apply Rle_div_r; [apply IZR_lt; lia|]. rewrite <- mult_IZR. apply IZR_le. rewrite Z.mul_comm. apply Z.mul_div_le. lia. }
  assert (F2 : (IZR n / IZR d < IZR (n / d + 1))%R). { apply Rlt_div_l; [apply IZR_lt; lia|]. rewrite <- mult_IZR. apply IZR_lt. pose proof (Z.mod_pos_bound n d ltac:(lia)). pose proof (Z.div_mod n d ltac:(lia)). lia. }
  unfold dec. rewrite <- E. split; [apply Rmult_le_compat_r; lra|apply Rmult_lt_compat_r; lra].
Qed.
(** The half-way test *)
Lemma half_spec s : let '(n, d) := scaled A B s in (d <=? 2 * (n mod d)) = true <-> (dec (lo s + 1) s - X <= X - dec (lo s) s)%R.
Proof.
  pose proof (scaled_spec s) as S. unfold lo. destruct (scaled A B s) as (n & d). destruct S as (Hn & Hd & E). pose proof (p10_pos s) as P. rewrite Z.leb_le.
  assert (ED : (IZR n / IZR d = IZR (n / d) + IZR (n mod d) / IZR d)%R). { rewrite (Z.div_mod n d) at 1 by lia. rewrite plus_IZR, mult_IZR. field. apply IZR_neq. lia. }
  unfold dec. rewrite <- E, ED, plus_IZR. assert (D : (0 < IZR d)%R) by (apply IZR_lt; lia). set (q := IZR (n / d)). set (r := (IZR (n mod d) / IZR d)%R).
  assert (R : d <= 2 * (n mod d) <-> (1 <= 2 * r)%R).
  { unfold r. replace (2 * (IZR (n mod d) / IZR d))%R with (IZR (2 * (n mod d)) / IZR d)%R by (rewrite mult_IZR; field; lra). split; intros H.
    - apply Rle_div_r; [exact D|]. rewrite Rmult_1_l. apply IZR_le, H.
    - apply le_IZR. apply Rle_div_r in H; [|exact D]. rewrite Rmult_1_l in H. exact H. }
  rewrite R. replace ((q + 1) * powerRZ 10 s - (q + r) * powerRZ 10 s)%R with ((1 - r) * powerRZ 10 s)%R by ring. replace ((q + r) * powerRZ 10 s - q * powerRZ 10 s)%R with (r * powerRZ 10 s)%R by ring.
  split; intros H; [apply Rmult_le_compat_r; lra|]. apply Rmult_le_reg_r in H; lra.
Qed.
(** A multiple of [10 ^ s] that is read as [x] is not nearer than the neighbours of [x] *)
Lemma cover s k : ok (dec k s) -> exists c, (c = lo s \/ c = lo s + 1) /\ ok (dec c s) /\ (Rabs (dec c s - X) <= Rabs (dec k s - X))%R.
Proof.
  intros H. destruct (lo_spec s) as (_ & L & U). destruct (Z.le_gt_cases k (lo s)) as [K|K].
  - exists (lo s). split; [auto|]. pose proof (dec_le k (lo s) s K). split; [apply (ok_between (dec k s) X); [exact H|exact ok_X|lra]|]. rewrite !Rabs_left1 by lra. lra.
  - exists (lo s + 1). split; [auto|]. pose proof (dec_le (lo s + 1) k s ltac:(lia)). split; [apply (ok_between X (dec k s)); [exact ok_X|exact H|lra]|]. rewrite !Rabs_pos_eq by lra. lra.
Qed.
Lemma search_spec fuel : forall s, (exists k s0, s - Z.of_nat fuel < s0 <= s /\ ok (dec k s0)) ->
  let '(d, s') := search fuel x A B s in s' <= s /\ (d = lo s' \/ d = lo s' + 1) /\ ok (dec d s') /\
    (forall c, c = lo s' \/ c = lo s' + 1 -> ok (dec c s') -> (Rabs (dec d s' - X) <= Rabs (dec c s' - X))%R) /\
    forall s'' k, s' < s'' <= s -> ~ ok (dec k s'').
Proof.
  induction fuel as [|fuel IH]; intros s (k & s0 & HS & HK); [lia|]. cbn [search]. pose proof (half_spec s) as HH. pose proof (lo_spec s) as (L0 & L1 & L2). pose proof (reads_ok (lo s) s L0) as R1. pose proof (reads_ok (lo s + 1) s ltac:(lia)) as R2.
  unfold lo in L0, L1, L2, R1, R2. unfold lo in HH at 1 2. destruct (scaled A B s) as (n & d) eqn:ES. assert (EL : lo s = n / d) by (unfold lo; rewrite ES; reflexivity).
  assert (LO : lo s = n / d) by exact EL. cbv zeta. destruct (reads x (n / d + 1) s) eqn:U; [destruct (reads x (n / d) s) eqn:D; [destruct (d <=? 2 * (n mod d)) eqn:T|]|destruct (reads x (n / d) s) eqn:D]; cbn [andb negb orb].
  - split; [lia|]. split; [right; congruence|]. split; [apply R2; reflexivity|]. split; [|intros; lia]. apply proj1 in HH. specialize (HH eq_refl). intros c [->| ->] _; rewrite LO; [rewrite Rabs_pos_eq, Rabs_left1 by lra; lra|lra].
  - split; [lia|]. split; [left; congruence|]. split; [apply R1; reflexivity|]. split; [|intros; lia]. assert (NH : ~ (dec (n / d + 1) s - X <= X - dec (n / d) s)%R) by (intros Y; apply HH in Y; discriminate). intros c [->| ->] _; rewrite LO; [lra|]. rewrite Rabs_left1, Rabs_pos_eq by lra. lra.
  - split; [lia|]. split; [right; congruence|]. split; [apply R2; reflexivity|]. split; [|intros; lia]. intros c [->| ->] O; rewrite LO in *; [apply R1 in O; discriminate|lra].
  - split; [lia|]. split; [left; congruence|]. split; [apply R1; reflexivity|]. split; [|intros; lia]. intros c [->| ->] O; rewrite LO in *; [lra|apply R2 in O; discriminate].
  - assert (NO : forall k', ~ ok (dec k' s)). { intros k' O. destruct (cover s k' O) as (c & [->| ->] & O' & _); rewrite LO in O'; [apply R1 in O'|apply R2 in O']; discriminate. }
    assert (s0 <> s) by (intros ->; exact (NO k HK)). specialize (IH (s - 1)). destruct (search fuel x A B (s - 1)) as (d' & s'). destruct IH as (I1 & I2 & I3 & I4 & I5); [exists k, s0; split; [lia|exact HK]|].
    split; [lia|]. split; [exact I2|]. split; [exact I3|]. split; [exact I4|]. intros s'' k' HS'. destruct (Z.eq_dec s'' s) as [->|N]; [apply NO|apply I5; lia].
Qed.
Lemma top_spec fuel : forall t, (X < powerRZ 10 (t + 1))%R -> (powerRZ 10 (t - Z.of_nat fuel) <= X)%R -> let t' := top fuel A B t in t' <= t /\ (powerRZ 10 t' <= X < powerRZ 10 (t' + 1))%R.
Proof.
  induction fuel as [|fuel IH]; intros t U L; cbn [top].
  - cbv zeta. replace (t - Z.of_nat 0) with t in L by lia. split; [lia|auto].
  - pose proof (scaled_spec t) as S. destruct (scaled A B t) as (n & d). destruct S as (Hn & Hd & E). pose proof (p10_pos t) as P. assert (D : (0 < IZR d)%R) by (apply IZR_lt; lia). destruct (Z.leb_spec d n) as [K|K].
    + cbv zeta. split; [lia|]. split; [|exact U]. rewrite <- E. rewrite <- (Rmult_1_l (powerRZ 10 t)) at 1. apply Rmult_le_compat_r; [lra|]. apply Rle_div_r; [exact D|]. rewrite Rmult_1_l. apply IZR_le, K.
    + cbv zeta in *. destruct (IH (t - 1)) as (I1 & I2).
      * replace (t - 1 + 1) with t by lia. rewrite <- E. rewrite <- (Rmult_1_l (powerRZ 10 t)) at 2. apply Rmult_lt_compat_r; [lra|]. apply Rlt_div_l; [exact D|]. rewrite Rmult_1_l. apply IZR_lt, K.
      * replace (t - 1 - Z.of_nat fuel) with (t - Z.of_nat (S fuel)) by lia. exact L.
      * split; [lia|exact I2].
Qed.
(** ** Few digits, and near *)
Definition best (d s : Z) : Prop :=
  0 < d /\ d mod 10 <> 0 /\ ok (dec d s) /\
  forall d' e', 0 <= d' -> ok (dec d' e') ->
    (forall n, 0 <= n -> d' < 10 ^ n -> d < 10 ^ n) /\
    ((forall n, 0 <= n -> d < 10 ^ n -> d' < 10 ^ n) -> (Rabs (dec d s - X) <= Rabs (dec d' e' - X))%R).
Lemma dec_lt a b s : a < b -> (dec a s < dec b s)%R.
Proof. intros H. apply Rmult_lt_compat_r; [apply p10_pos|apply IZR_lt, H]. Qed.
Lemma dec_le_exp a s s' : 0 <= a -> s <= s' -> (dec a s <= dec a s')%R.
Proof. intros H L. apply Rmult_le_compat_l; [apply IZR_le, H|apply p10_le, L]. Qed.
Lemma dec_pow n s : 0 <= n -> dec (10 ^ n) s = dec 1 (s + n).
Proof. intros H. rewrite (dec_shift 1 n s H). f_equal. lia. Qed.
Lemma dec_lt_inv a b s : (dec a s < dec b s)%R -> a < b.
Proof. intros H. destruct (Z.lt_ge_cases a b) as [L|L]; [exact L|]. pose proof (dec_le b a s L). lra. Qed.
Lemma lo_ge a s : (dec a s <= X)%R -> a <= lo s.
Proof. intros H. destruct (lo_spec s) as (_ & _ & U). assert (a < lo s + 1) by (apply (dec_lt_inv _ _ s); lra). lia. Qed.
Lemma lo_lt a s : (X < dec a s)%R -> lo s < a.
Proof. intros H. destruct (lo_spec s) as (_ & L & _). apply (dec_lt_inv _ _ s). lra. Qed.
Lemma pow10_between d : 10 <= d -> exists k, 1 <= k /\ 10 ^ k <= d < 10 ^ (k + 1).
Proof.
  intros H. assert (E : exists k, 0 <= k /\ d < 10 ^ k) by (exists d; split; [lia|apply Z.pow_gt_lin_r; lia]).
  destruct E as (k & K0 & K). revert K. pattern k. apply (natlike_ind); [|intros j J IH K|exact K0].
  - cbn. intros. lia.
  - destruct (Z.lt_ge_cases d (10 ^ j)) as [L|L]; [exact (IH L)|]. exists j. split; [destruct (Z.eq_dec j 0) as [->|]; [change (Z.succ 0) with 1 in K; rewrite Z.pow_1_r in K; lia|lia]|]. split; [exact L|]. unfold Z.succ in K. exact K.
Qed.
Lemma best_of T fuel : (powerRZ 10 T <= X < powerRZ 10 (T + 1))%R -> (exists k s0, T - Z.of_nat fuel < s0 <= T /\ ok (dec k s0)) ->
  let '(d, s) := search fuel x A B T in let '(d, s) := if d =? 10 then (1, s + 1) else (d, s) in best d s.
Proof.
  intros (T1 & T2) HE. pose proof (search_spec fuel T HE) as HS. destruct (search fuel x A B T) as (d & s). destruct HS as (S1 & S2 & S3 & S4 & S5). rewrite <- dec_p10 in T1, T2.
  assert (NR : forall d' e', s < T -> ok (dec d' e') -> e' <= s).
  { intros d' e' L O. destruct (Z.le_gt_cases e' s) as [E|E]; [exact E|]. exfalso. apply (S5 (s + 1) (d' * 10 ^ (e' - (s + 1)))); [lia|]. rewrite <- dec_shift by lia. replace (s + 1 + (e' - (s + 1))) with e' by lia. exact O. }
  assert (SC : forall d' e', s <= e' -> ok (dec d' e') -> (Rabs (dec d s - X) <= Rabs (dec d' e' - X))%R).
  { intros d' e' L O. replace e' with (s + (e' - s)) in O |- * by lia. rewrite dec_shift in O |- * by lia. destruct (cover s _ O) as (c & HC & OC & NC). pose proof (S4 c HC OC). lra. }
  destruct (lo_spec s) as (L0 & L1 & L2).
  destruct (Z.eq_dec s T) as [->|NE].
  - assert (LB : 1 <= lo T) by (apply lo_ge; exact T1). assert (UB : lo T < 10). { apply lo_lt. rewrite (dec_shift 1 1 T) in T2 by lia. exact T2. }
    assert (RD : 1 <= d <= 10) by lia.
    assert (NEAR : forall d' e', 0 <= d' < 10 -> ok (dec d' e') -> (Rabs (dec d T - X) <= Rabs (dec d' e' - X))%R).
    { intros d' e' D' O. destruct (Z.le_gt_cases T e') as [L|L]; [apply SC; [exact L|exact O]|]. pose proof (dec_le_exp d' e' (T - 1) ltac:(lia) ltac:(lia)) as Q1. pose proof (dec_lt d' 10 (T - 1) ltac:(lia)) as Q2. change (dec 10 (T - 1)) with (dec (1 * 10 ^ 1) (T - 1)) in Q2. rewrite <- (dec_shift 1 1 (T - 1)) in Q2 by lia. replace (T - 1 + 1) with T in Q2 by lia. pose proof (dec_le 1 (lo T) T LB) as Q3.
      assert (OL : ok (dec (lo T) T)) by (apply (ok_between (dec d' e') X); [exact O|exact ok_X|lra]). pose proof (S4 (lo T) (or_introl eq_refl) OL) as Q4. rewrite (Rabs_left1 (dec (lo T) T - X)) in Q4 by lra. rewrite (Rabs_left1 (dec d' e' - X)) by lra. lra. }
    assert (FIN : forall d0 s0, 1 <= d0 <= 9 -> dec d0 s0 = dec d T -> best d0 s0).
    { intros d0 s0 D0 E0. split; [lia|]. split; [rewrite Z.mod_small by lia; lia|]. rewrite E0. split; [exact S3|]. intros d' e' D' O. split.
      - intros n Hn Hl. destruct (Z.eq_dec n 0) as [->|N0]; [rewrite Z.pow_0_r in Hl; replace d' with 0 in O by lia; destruct (not_ok_0 e' O)|]. assert (10 ^ 1 <= 10 ^ n) by (apply Z.pow_le_mono_r; lia). lia.
      - intros Hn. specialize (Hn 1 ltac:(lia) ltac:(lia)). apply NEAR; [lia|exact O]. }
    destruct (Z.eqb_spec d 10) as [->|N10]; [|apply FIN; [lia|reflexivity]]. apply FIN; [lia|]. rewrite (dec_shift 1 1 T) by lia. reflexivity.
  - assert (SL : s < T) by lia. assert (LB : 10 <= lo s). { apply lo_ge. change 10 with (1 * 10 ^ 1). rewrite <- dec_shift by lia. pose proof (dec_le_exp 1 (s + 1) T ltac:(lia) ltac:(lia)). lra. }
    assert (NP : forall k, 1 <= k -> ~ ok (dec (10 ^ k) s)).
    { intros k K O. apply (S5 (s + 1) (10 ^ (k - 1))); [lia|]. rewrite dec_shift by lia. rewrite <- Z.pow_add_r by lia. replace (k - 1 + 1) with k by lia. exact O. }
    assert (MD : d mod 10 <> 0). { intros M. apply (S5 (s + 1) (d / 10)); [lia|]. rewrite dec_shift by lia. replace (d / 10 * 10 ^ 1) with d; [exact S3|]. pose proof (Z.div_mod d 10 ltac:(lia)). lia. }
    destruct (Z.eqb_spec d 10) as [->|N10]; [destruct (MD eq_refl)|]. split; [lia|]. split; [exact MD|]. split; [exact S3|]. intros d' e' D' O. pose proof (NR d' e' SL O) as EL. split.
    + intros n Hn Hl. destruct (Z.lt_ge_cases d (10 ^ n)) as [G|G]; [exact G|]. exfalso. destruct (Z.eq_dec n 0) as [->|N0]; [rewrite Z.pow_0_r in Hl; replace d' with 0 in O by lia; destruct (not_ok_0 e' O)|].
      apply (NP n ltac:(lia)). pose proof (dec_le (10 ^ n) d s G). pose proof (dec_lt d' (10 ^ n) s Hl). pose proof (dec_le_exp d' e' s D' EL). apply (ok_between (dec d' e') (dec d s)); [exact O|exact S3|lra].
    + intros Hn. destruct (Z.eq_dec e' s) as [->|NS]; [apply SC; [lia|exact O]|]. exfalso. destruct (pow10_between d ltac:(lia)) as (k & K1 & K2 & K3). specialize (Hn (k + 1) ltac:(lia) K3). apply (NP k K1).
      pose proof (dec_le_exp d' e' (s - 1) D' ltac:(lia)) as Q1. pose proof (dec_lt d' (10 ^ (k + 1)) (s - 1) Hn) as Q2. rewrite dec_pow in Q2 by lia. replace (s - 1 + (k + 1)) with (s + k) in Q2 by lia. rewrite <- dec_pow in Q2 by lia. pose proof (dec_le (10 ^ k) d s K2) as Q3.
      destruct (Rle_lt_dec (dec (10 ^ k) s) X) as [G|G]; [apply (ok_between (dec d' e') X); [exact O|exact ok_X|lra]|apply (ok_between X (dec d s)); [exact ok_X|exact S3|lra]].
Qed.
End Shortest.

(** ** The digits of a machine number *)
Lemma pow2_p10 : (bpow radix2 1024 <= powerRZ 10 309)%R.
Proof. rewrite p10_Z by lia. rewrite <- IZR_Zpower by lia. apply IZR_le. apply Z.leb_le. vm_compute. reflexivity. Qed.
Lemma tiny_p10 : (powerRZ 10 (-325) <= bpow radix2 (-1074))%R.
Proof.
  change (-325) with (- (325)). rewrite powerRZ_neg'. rewrite p10_Z by lia. change (-1074) with (- (1074)). rewrite bpow_opp. rewrite <- IZR_Zpower by lia. apply Rinv_le; [apply IZR_lt; reflexivity|]. apply IZR_le. apply Z.leb_le. vm_compute. reflexivity.
Qed.
Lemma value_AB m e : (IZR (Zpos m * 2 ^ Z.max 0 e) / IZR (2 ^ Z.max 0 (- e)) = IZR (Zpos m) * bpow radix2 e)%R.
Proof.
  rewrite mult_IZR. destruct (Z.le_ge_cases 0 e) as [H|H].
  - rewrite Z.max_r, Z.max_l by lia. rewrite Z.pow_0_r. change 2 with (radix_val radix2). rewrite IZR_Zpower by lia. field.
  - rewrite Z.max_l, Z.max_r by lia. rewrite Z.pow_0_r. change 2 with (radix_val radix2). rewrite IZR_Zpower by lia. rewrite bpow_opp. pose proof (bpow_gt_0 radix2 e). field. lra.
Qed.
Lemma shortest_best m e H : let '(d, s) := shortest m e (B754_finite false m e H) in best (B754_finite false m e H) d s.
Proof.
  set (x := B754_finite false m e H : f64). assert (FX : is_finite x = true) by reflexivity. set (A := Zpos m * 2 ^ Z.max 0 e). set (B := 2 ^ Z.max 0 (- e)).
  assert (HB : 0 < B) by (apply Z.pow_pos_nonneg; lia). assert (HA : 0 < A) by (apply Z.mul_pos_pos; [lia|apply Z.pow_pos_nonneg; lia]).
  assert (VX : B2R x = (IZR A / IZR B)%R) by (unfold A, B; rewrite value_AB; reflexivity).
  pose proof (abs_B2R_lt_emax 53 1024 x) as UX. pose proof (abs_B2R_ge_emin 53 1024 x eq_refl) as LX. pose proof (X_pos x A B HA HB FX VX) as PX. rewrite Rabs_pos_eq in UX, LX by lra. change (SpecFloat.emin 53 1024) with (-1074) in LX.
  assert (LE : -1074 <= e). { pose proof H as H'. apply andb_prop in H'. destruct H' as (H1 & _). apply Zeq_bool_eq in H1. unfold SpecFloat.fexp, SpecFloat.emin in H1. lia. }
  unfold shortest. fold A B. pose proof (top_spec x A B HA HB FX VX 633 308) as TS. cbv zeta in TS |- *. set (T := top 633 A B 308) in *. clearbody T. destruct TS as (T0 & T1 & T2).
  { pose proof pow2_p10. change (308 + 1) with 309. lra. }
  { pose proof tiny_p10. change (308 - Z.of_nat 633) with (-325). lra. }
  assert (HE : exists k s0, T - Z.of_nat (Z.to_nat (T - Z.min 0 e + 1)) < s0 <= T /\ reads_as (dec k s0) x).
  { assert (MT : Z.min 0 e <= T).
    { destruct (Z.le_gt_cases (Z.min 0 e) T) as [L|L]; [exact L|]. exfalso. pose proof (p10_le (T + 1) (Z.min 0 e) ltac:(lia)) as Q. assert (C : (powerRZ 10 (Z.min 0 e) <= B2R x)%R); [|lra]. rewrite VX. apply Rle_div_r; [apply IZR_lt; lia|].
      destruct (Z.le_ge_cases 0 e) as [E|E]; [rewrite Z.min_l by lia; unfold B; rewrite Z.max_l by lia; rewrite Z.pow_0_r; change (powerRZ 10 0) with 1%R; rewrite Rmult_1_l; apply IZR_le; lia|].
      rewrite Z.min_r by lia. unfold B. rewrite Z.max_r by lia. replace e with (- (- e)) at 1 by lia. rewrite powerRZ_neg', p10_Z by lia. assert (PP : 0 < 10 ^ (- e)) by (apply Z.pow_pos_nonneg; lia).
      apply (Rmult_le_reg_l (IZR (10 ^ (- e)))); [apply IZR_lt; lia|]. rewrite <- Rmult_assoc, Rinv_r, Rmult_1_l by (apply IZR_neq; lia). rewrite <- mult_IZR. apply IZR_le.
      assert (2 ^ (- e) <= 10 ^ (- e)) by (apply Z.pow_le_mono_l; lia). assert (10 ^ (- e) * 1 <= 10 ^ (- e) * A) by (apply Z.mul_le_mono_nonneg_l; lia). lia. }
    exists (A * 5 ^ Z.max 0 (- e)), (Z.min 0 e). split; [lia|]. replace (dec (A * 5 ^ Z.max 0 (- e)) (Z.min 0 e)) with (B2R x); [exact (ok_X x A B HA HB FX VX)|].
    rewrite VX. unfold dec. rewrite mult_IZR. unfold B. destruct (Z.le_ge_cases 0 e) as [E|E].
    - rewrite (Z.max_l 0 (- e)), (Z.min_l 0 e) by lia. rewrite !Z.pow_0_r. change (powerRZ 10 0) with 1%R. field.
    - rewrite (Z.max_r 0 (- e)), (Z.min_r 0 e) by lia. replace (powerRZ 10 e) with (powerRZ 10 (- (- e))) by (f_equal; lia). rewrite powerRZ_neg', p10_Z by lia. assert (Q2 : 0 < 2 ^ (- e)) by (apply Z.pow_pos_nonneg; lia). assert (Q5 : 0 < 5 ^ (- e)) by (apply Z.pow_pos_nonneg; lia).
      change 10 with (2 * 5). rewrite Z.pow_mul_l, mult_IZR. field. split; apply IZR_neq; lia. }
  pose proof (best_of x A B HA HB FX VX T _ (conj T1 T2) HE) as BO. destruct (search _ x A B T) as (d & s). exact BO.
Qed.

(** ** Numerals *)
Lemma digits_fuel_eq f : forall f' n acc, 0 <= n < 2 ^ Z.of_nat f -> n < 2 ^ Z.of_nat f' -> (f <> 0)%nat -> (f' <> 0)%nat -> digits_fuel f n acc = digits_fuel f' n acc.
Proof.
  induction f as [|f IH]; intros [|f'] n acc H H' N N'; try congruence. cbn [digits_fuel]. destruct (Z.eqb_spec (n / 10) 0) as [E|E]; [reflexivity|].
  rewrite Nat2Z.inj_succ, Z.pow_succ_r in H, H' by lia. assert (D1 : 0 <= n / 10 < 2 ^ Z.of_nat f) by (Z.to_euclidean_division_equations; lia). assert (D2 : n / 10 < 2 ^ Z.of_nat f') by (Z.to_euclidean_division_equations; lia).
  apply IH; [exact D1|exact D2| |]; intros ->; change (2 ^ Z.of_nat 0) with 1 in *; lia.
Qed.
Lemma digits_of_decimal n : 0 < n -> digits_of n = M_Crox.decimal n.
Proof.
  intros H. apply digits_fuel_eq; try lia; rewrite Nat2Z.inj_succ.
  - rewrite Z2Nat.id by apply Z.log2_nonneg. split; [lia|]. apply Z.log2_spec. lia.
  - rewrite Z2Nat.id by lia. rewrite Z.pow_succ_r by lia. pose proof (Z.pow_gt_lin_r 2 n ltac:(lia) ltac:(lia)). lia.
Qed.
Lemma digits_of_numeral n : 0 < n -> numeral (digits_of n) n.
Proof. intros H. rewrite digits_of_decimal by exact H. apply decimal_numeral. lia. Qed.
Lemma numeral_last ds d : numeral ds d -> d mod 10 <> 0 -> exists f c, ds = f ++ [c] /\ c <> 48.
Proof.
  intros (F & D & _ & _) M. destruct (exists_last (l := ds)) as (f & c & ->); [intros ->; unfold denotes in D; cbn in D; subst d; apply M; reflexivity|]. exists f, c. split; [reflexivity|]. intros ->. rewrite denotes_app in D. change (P (length [48])) with 10 in D. change (denotes [48]) with 0 in D. subst d. apply M. rewrite Z.add_0_r. apply Z.mod_mul. lia.
Qed.
Lemma zlen_zeros n : 0 <= n -> zlen (zeros_text n) = n.
Proof. intros H. unfold zeros_text, zlen. rewrite repeat_length. lia. Qed.
Lemma zeros_digits n : Forall (fun c => 48 <= c <= 57) (zeros_text n).
Proof. apply Forall_forall. intros c H. apply repeat_spec in H. lia. Qed.
Lemma P_zlen (ds : bytes) : P (length ds) = 10 ^ zlen ds.
Proof. reflexivity. Qed.
Lemma denotes_zeros_text n ds : denotes (zeros_text n ++ ds) = denotes ds.
Proof. unfold zeros_text. rewrite denotes_app, denotes_zeros. lia. Qed.
Lemma numeral_zeros ds d s : 0 < d -> 0 <= s -> numeral ds d -> numeral (ds ++ zeros_text s) (d * 10 ^ s).
Proof.
  intros Hd Hs (F & D & _ & L). assert (PS : 0 < 10 ^ s) by (apply Z.pow_pos_nonneg; lia). assert (PD : 0 < d * 10 ^ s) by (apply Z.mul_pos_pos; lia). split; [apply Forall_app; split; [exact F|apply zeros_digits]|]. split.
  - rewrite denotes_app, P_zlen, zlen_zeros, D by exact Hs. replace (denotes (zeros_text s)) with 0; [lia|]. symmetry. apply denotes_zeros.
  - split; [lia|]. intros _. destruct (L Hd) as (c & t & -> & N). exists c, (t ++ zeros_text s). auto.
Qed.
Lemma value_split (a : Z) (f : bytes) s : zlen f = - s -> (IZR a / IZR (10 ^ zlen f))%R = dec a s.
Proof.
  intros E. rewrite E. pose proof (zlen_nonneg f). unfold dec, Rdiv. f_equal. replace s with (- (- s)) at 2 by lia. rewrite powerRZ_neg', p10_Z by lia. reflexivity.
Qed.
Lemma head_numeral (ds : bytes) (d k : Z) : 0 < d -> numeral ds d -> 0 < k <= zlen ds -> numeral (ztake k ds) (denotes (ztake k ds)).
Proof.
  intros Hd (F & D & _ & L) K. destruct (L Hd) as (c & t & -> & N). pose proof (ztake_zdrop k (c :: t)) as E. rewrite <- E in F. apply Forall_app in F. destruct F as (F & _).
  assert (ET : exists u, ztake k (c :: t) = c :: u). { unfold ztake. destruct (Z.to_nat k) eqn:K'; [lia|]. cbn [firstn]. eauto. } destruct ET as (u & ET). split; [exact F|]. split; [reflexivity|]. rewrite ET in F |- *. pose proof (Forall_inv F) as FC. apply Forall_inv_tail in F. split; [|eauto].
  intros Z0. rewrite denotes_cons in Z0. pose proof (denotes_range u F) as RU. pose proof (P_pos (length u)). cbv beta in FC. clear - Z0 FC N RU H. exfalso. assert (1 * P (length u) <= (c - 48) * P (length u)) by (apply Z.mul_le_mono_nonneg_r; lia). lia.
Qed.
Lemma tail_digits (ds : bytes) k : Forall (fun c => 48 <= c <= 57) ds -> Forall (fun c => 48 <= c <= 57) (zdrop k ds).
Proof. intros F. rewrite <- (ztake_zdrop k ds) in F. apply Forall_app in F. apply F. Qed.
Lemma tail_last (a b : bytes) (f : bytes) c : b <> [] -> a ++ b = f ++ [c] -> exists f', b = f' ++ [c].
Proof.
  intros N E. destruct (exists_last N) as (b' & c' & ->). rewrite app_assoc in E. apply app_inj_tail in E. destruct E as (_ & <-). eauto.
Qed.
Lemma zlen_nonempty (l : bytes) : 0 < zlen l -> l <> [].
Proof. intros H ->. change (zlen (@nil Z)) with 0 in H. lia. Qed.
Lemma number_text_cons i f : f <> [] -> S_Text.number_text i f = i ++ str "." ++ f.
Proof. intros H. destruct f; [congruence|reflexivity]. Qed.

Lemma positional_spec d s : 0 < d -> d mod 10 <> 0 -> exists i f, positional d s = S_Text.number_text i f /\ decimal_number i f /\ (f = [] \/ exists f' c, f = f' ++ [c] /\ c <> 48) /\
  (IZR (denotes (i ++ f)) / IZR (10 ^ zlen f))%R = dec d s.
Proof.
  intros Hd Hm. pose proof (digits_of_numeral d Hd) as N. pose proof N as (F & D & _ & L). destruct (numeral_last _ _ N Hm) as (f0 & c0 & EL & NC). unfold positional. cbv zeta. set (ds := digits_of d) in *.
  assert (ZL : 0 < zlen ds) by (rewrite EL, zlen_app; pose proof (zlen_nonneg f0); change (zlen [c0]) with 1; lia). set (k := zlen ds + s). destruct (Z.leb_spec k 0) as [K|K]; [|destruct (Z.ltb_spec k (zlen ds)) as [K'|K']].
  - exists [48], (zeros_text (- k) ++ ds). split; [|split; [|split]].
    + rewrite number_text_cons; [reflexivity|]. intros E. apply app_eq_nil in E. destruct E as (_ & E). rewrite E in ZL. change (zlen (@nil Z)) with 0 in ZL. lia.
    + split; [split; [repeat constructor; lia|]; split; [reflexivity|]; split; [reflexivity|]; intros H; cbv in H; discriminate|]. apply Forall_app. split; [apply zeros_digits|exact F].
    + right. exists (zeros_text (- k) ++ f0), c0. rewrite EL, app_assoc. auto.
    + change (denotes ([48] ++ zeros_text (- k) ++ ds)) with (denotes (zeros_text (- k) ++ ds)). rewrite denotes_zeros_text, D. apply value_split. rewrite zlen_app, zlen_zeros by lia. lia.
  - exists (ztake k ds), (zdrop k ds). assert (ZD : zlen (zdrop k ds) = - s) by (rewrite zlen_zdrop by lia; lia). assert (ND : zdrop k ds <> []) by (apply zlen_nonempty; lia). split; [|split; [|split]].
    + rewrite number_text_cons by exact ND. reflexivity.
    + split; [apply (head_numeral ds d); [exact Hd|exact N|lia]|apply tail_digits, F].
    + right. destruct (tail_last (ztake k ds) (zdrop k ds) f0 c0 ND) as (f' & E'); [rewrite ztake_zdrop; exact EL|]. exists f', c0. auto.
    + rewrite ztake_zdrop, D. apply value_split, ZD.
  - exists (ds ++ zeros_text (k - zlen ds)), []. assert (Hs : 0 <= s) by lia. replace (k - zlen ds) with s by lia. pose proof (numeral_zeros ds d s Hd Hs N) as N'. split; [|split; [|split]].
    + unfold S_Text.number_text. rewrite app_nil_r. reflexivity.
    + split; [|constructor]. destruct N' as (N1 & N2 & N3 & N4). split; [exact N1|]. split; [reflexivity|]. rewrite N2. auto.
    + left. reflexivity.
    + rewrite app_nil_r. destruct N' as (_ & -> & _). change (10 ^ zlen (@nil Z)) with 1. unfold dec. rewrite mult_IZR, <- p10_Z by exact Hs. field.
Qed.

(** The texts of finite numbers: [{}] *)
Lemma best_shortest x d s : best x d s -> shortest_decimal x d s.
Proof. intros (H1 & H2 & H3 & H4). split; [lia|]. split; [exact H3|exact H4]. Qed.
Theorem C84_displays : forall x, is_finite x = true -> Bsign x = false -> displays x (show_f64 x).
Proof.
  intros x FX SX. destruct x as [neg|neg| |neg m e H]; try discriminate FX; cbn in SX; subst neg.
  - exists [48], [], 0, 0. split; [reflexivity|]. split; [split; [split; [repeat constructor; lia|]; split; [reflexivity|]; split; [reflexivity|]; intros H; cbv in H; discriminate|constructor]|]. split; [left; reflexivity|]. split; [lia|].
    assert (D0 : dec 0 0 = 0%R) by (unfold dec; ring). rewrite D0. split; [change (denotes ([48] ++ [])) with 0; unfold Rdiv; ring|]. split; [unfold reads_as; rewrite round_0 by apply valid_rnd_N; reflexivity|].
    intros d' e' _ _. split; [intros n Hn _; apply Z.pow_pos_nonneg; lia|]. intros _. change (B2R (B754_zero false)) with 0%R. rewrite Rminus_0_r, Rabs_R0. apply Rabs_pos.
  - cbn [show_f64]. pose proof (shortest_best m e H) as SB. destruct (shortest m e (B754_finite false m e H)) as (d & s). pose proof (best_shortest _ _ _ SB) as (S1 & S2 & S3). destruct SB as (B1 & B2 & _).
    destruct (positional_spec d s B1 B2) as (i & f & P1 & P2 & P3 & P4). exists i, f, d, s. split; [exact P1|]. auto 10.
Qed.
Theorem C84_negative : forall x, is_finite x = true -> Bsign x = true -> show_f64 x = str "-" ++ show_f64 (Bopp x).
Proof.
  intros [neg|neg| |neg m e H] FX SX; try discriminate FX; cbn in SX; subst neg; [reflexivity|]. cbn [show_f64 Bopp negb]. destruct (shortest m e (B754_finite false m e H)) as (d & s). reflexivity.
Qed.
(** ** Reading them *)
Definition with_sign (neg : bool) (x : f64) : f64 := if neg then Bopp x else x.
Lemma reads_signed neg x d e text : is_finite x = true -> Bsign x = false -> decimal_text text neg d e -> reads_as (dec d e) x -> read_f64 text = Some (with_sign neg x).
Proof.
  intros FX SX DT RA. apply C83_reads. left. exists neg, d, e. split; [exact DT|]. unfold reads_as in RA. unfold nearest_f64. cbv zeta.
  assert (V : round radix2 (FLT_exp (-1074) 53) ZnearestE (decimal_value neg d e) = B2R (with_sign neg x)).
  { unfold decimal_value, with_sign. fold (dec d e). destruct neg; [|rewrite Rmult_1_l; exact RA]. replace (-1 * dec d e)%R with (- dec d e)%R by ring. rewrite round_NE_opp, RA, B2R_Bopp. reflexivity. }
  rewrite V. split; [|intros H; exfalso; pose proof (abs_B2R_lt_emax 53 1024 (with_sign neg x)); lra]. intros _. split; [destruct neg; cbn; [rewrite is_finite_Bopp|]; exact FX|]. split; [reflexivity|].
  destruct neg; cbn; [|exact SX]. rewrite Bsign_Bopp; [rewrite SX; reflexivity|]. destruct x; try discriminate FX; reflexivity.
Qed.
Lemma minus_signed neg : signed (minus neg) neg.
Proof. destruct neg; [right; auto|left; auto]. Qed.
Lemma numeral_nonempty i n : numeral i n -> i <> [].
Proof. intros (_ & D & N0 & _) ->. unfold denotes in D. cbn in D. specialize (N0 (eq_sym D)). discriminate. Qed.
(** integer part, fractional part, exponent part *)
Lemma parts_text neg (i f x : bytes) n body : is_digits i -> is_digits f -> i <> [] -> body = S_Text.number_text i f -> exponent_part x n -> decimal_text (minus neg ++ body ++ x) neg (denotes (i ++ f)) (n - zlen f).
Proof.
  intros DI DF NI -> EP. exists (minus neg), i, f, (S_Text.number_text i f), x, n. split; [apply minus_signed|]. split; [|auto]. split; [exact DI|]. split; [exact DF|]. split; [intros E; apply app_eq_nil in E; destruct E; congruence|].
  unfold S_Text.number_text. destruct f as [|c f]; [left; rewrite app_nil_r; auto|right; reflexivity].
Qed.
Lemma value_parts (a : Z) (f : bytes) n : (IZR a / IZR (10 ^ zlen f) * powerRZ 10 n = dec a (n - zlen f))%R.
Proof.
  rewrite (value_split a f (- zlen f)) by lia. unfold dec. replace (n - zlen f) with (- zlen f + n) by lia. rewrite p10_add. ring.
Qed.
(** What [{}] writes for a machine number, whichever it is, is read as that number. *)
Theorem C84_reads_back : forall x, read_f64 (show_f64 x) = Some x.
Proof.
  intros [neg|neg| |neg m e H]; [destruct neg; reflexivity|destruct neg; reflexivity|reflexivity|]. cbn [show_f64]. pose proof (shortest_best m e H) as SB. destruct (shortest m e (B754_finite false m e H)) as (d & s). destruct SB as (B1 & B2 & B3 & _).
  destruct (positional_spec d s B1 B2) as (i & f & P1 & (P2 & P2') & P3 & P4). pose proof (parts_text neg i f [] 0 (positional d s) (proj1 P2) P2' (numeral_nonempty _ _ P2) P1 (or_introl (conj eq_refl eq_refl))) as DT. rewrite app_nil_r in DT.
  rewrite (reads_signed neg (B754_finite false m e H) _ _ _ eq_refl eq_refl DT); [destruct neg; reflexivity|]. rewrite <- value_parts, P4. change (powerRZ 10 0) with 1%R. rewrite Rmult_1_r. exact B3.
Qed.

(** ** JSON *)
Lemma exponent_text_spec k : k <> 0 -> exists s neg ds, exponent_text k = s ++ ds /\ signed s neg /\ (s = [] \/ s = str "-") /\ is_digits ds /\ ds <> [] /\ k = (if neg then - worth ds else worth ds).
Proof.
  intros H. unfold exponent_text. destruct (Z.ltb_spec k 0) as [L|L].
  - pose proof (digits_of_numeral (- k) ltac:(lia)) as N. exists (str "-"), true, (digits_of (- k)). split; [reflexivity|]. split; [right; auto|]. split; [auto|]. split; [apply N|]. split; [eapply numeral_nonempty, N|]. destruct N as (_ & D & _). change (worth (digits_of (- k))) with (denotes (digits_of (- k))). lia.
  - pose proof (digits_of_numeral k ltac:(lia)) as N. exists [], false, (digits_of k). split; [reflexivity|]. split; [left; auto|]. split; [auto|]. split; [apply N|]. split; [eapply numeral_nonempty, N|]. destruct N as (_ & D & _). change (worth (digits_of k)) with (denotes (digits_of k)). lia.
Qed.
Definition ryu_parts (i f x : bytes) (n : Z) (text : bytes) : Prop :=
  is_digits i /\ is_digits f /\ (i = [48] \/ exists c t, i = c :: t /\ c <> 48) /\ text = S_Text.number_text i f ++ x /\ exponent_part x n /\ exp_part x /\ f ++ x <> [].
Lemma ryu_spec d s : 0 < d -> exists i f x n, ryu_parts i f x n (ryu d s) /\ (IZR (denotes (i ++ f)) / IZR (10 ^ zlen f) * powerRZ 10 n = dec d s)%R.
Proof.
  intros Hd. pose proof (digits_of_numeral d Hd) as N. pose proof N as (F & D & _ & L). specialize (L Hd). unfold ryu. cbv zeta. set (ds := digits_of d) in *. assert (NE : ds <> []) by (eapply numeral_nonempty, N).
  assert (ZL : 0 < zlen ds). { destruct L as (c & t & E & _). rewrite E, zlen_cons. pose proof (zlen_nonneg t). lia. } set (k := zlen ds + s).
  assert (X0 : exponent_part [] 0) by (left; auto). assert (E0 : exp_part []) by (left; auto). change (powerRZ 10 0) with 1%R in *.
  destruct ((0 <=? s) && (k <=? 16)) eqn:C1; [|destruct ((0 <? k) && (k <=? 16)) eqn:C2; [|destruct ((-5 <? k) && (k <=? 0)) eqn:C3]].
  - apply andb_true_iff in C1. destruct C1 as (C1 & _). apply Z.leb_le in C1. pose proof (numeral_zeros ds d s Hd C1 N) as (N1 & N2 & _ & _). exists (ds ++ zeros_text s), [48], [], 0. split.
    + split; [exact N1|]. split; [repeat constructor; lia|]. split; [right; destruct L as (c & t & -> & NC); exists c, (t ++ zeros_text s); auto|]. split; [unfold S_Text.number_text; rewrite app_nil_r, <- app_assoc; reflexivity|]. split; [exact X0|]. split; [exact E0|discriminate].
    + rewrite denotes_app, N2. change (P (length [48])) with 10. change (denotes [48]) with 0. change (10 ^ zlen [48]) with 10. rewrite Z.add_0_r. unfold dec. rewrite (p10_Z s C1). rewrite !mult_IZR. change (powerRZ 10 0) with 1%R. field.
  - apply andb_true_iff in C2. destruct C2 as (C2 & C2'). apply Z.ltb_lt in C2. apply Z.leb_le in C2'. assert (SN : s < 0). { destruct (Z.leb_spec 0 s) as [Q|Q]; [|exact Q]. rewrite (proj2 (Z.leb_le k 16) C2') in C1. discriminate. }
    assert (ND : zdrop k ds <> []) by (apply zlen_nonempty; rewrite zlen_zdrop by lia; lia). exists (ztake k ds), (zdrop k ds), [], 0. split.
    + pose proof (head_numeral ds d k Hd N ltac:(lia)) as HN. split; [apply HN|]. split; [apply tail_digits, F|]. split; [right; destruct L as (c & t & -> & NC); unfold ztake; destruct (Z.to_nat k) eqn:K; [lia|]; cbn [firstn]; eauto|]. split; [rewrite app_nil_r, number_text_cons by exact ND; reflexivity|]. split; [exact X0|]. split; [exact E0|]. rewrite app_nil_r. exact ND.
    + rewrite ztake_zdrop, D. rewrite (value_split d (zdrop k ds) s) by (rewrite zlen_zdrop by lia; lia). change (powerRZ 10 0) with 1%R. ring.
  - apply andb_true_iff in C3. destruct C3 as (_ & C3). apply Z.leb_le in C3. assert (NF : zeros_text (- k) ++ ds <> []) by (intros E; apply app_eq_nil in E; destruct E as (_ & E); exact (NE E)). exists [48], (zeros_text (- k) ++ ds), [], 0. split.
    + split; [repeat constructor; lia|]. split; [apply Forall_app; split; [apply zeros_digits|exact F]|]. split; [auto|]. split; [rewrite app_nil_r, number_text_cons by exact NF; reflexivity|]. split; [exact X0|]. split; [exact E0|]. rewrite app_nil_r. exact NF.
    + change (denotes ([48] ++ zeros_text (- k) ++ ds)) with (denotes (zeros_text (- k) ++ ds)). rewrite denotes_zeros_text, D. rewrite (value_split d _ s) by (rewrite zlen_app, zlen_zeros by lia; lia). change (powerRZ 10 0) with 1%R. ring.
  - assert (KN : k - 1 <> 0). { intros E. replace k with 1 in * by lia. discriminate. } destruct (exponent_text_spec (k - 1) KN) as (sg & neg & es & X1 & X2 & X3 & X4 & X5 & X6).
    assert (EP : exponent_part (str "e" ++ exponent_text (k - 1)) (k - 1)) by (right; exists (str "e"), sg, neg, es; rewrite X1; auto 10).
    assert (EX : exp_part (str "e" ++ exponent_text (k - 1))) by (right; exists 101, sg, es; rewrite X1; split; [reflexivity|]; split; [auto|]; split; [destruct X3 as [->| ->]; auto|auto]).
    destruct (Z.eqb_spec (zlen ds) 1) as [L1|L1].
    + exists ds, [], (str "e" ++ exponent_text (k - 1)), (k - 1). split; [split; [exact F|]; split; [constructor|]; split; [right; destruct L as (c & t & E & NC); eauto|]; split; [unfold S_Text.number_text; rewrite app_nil_r; reflexivity|]; split; [exact EP|]; split; [exact EX|discriminate]|].
      rewrite value_parts, app_nil_r, D. change (zlen (@nil Z)) with 0. f_equal. lia.
    + assert (ND : zdrop 1 ds <> []) by (apply zlen_nonempty; rewrite zlen_zdrop by lia; lia). exists (ztake 1 ds), (zdrop 1 ds), (str "e" ++ exponent_text (k - 1)), (k - 1). split.
      * pose proof (head_numeral ds d 1 Hd N ltac:(lia)) as HN. split; [apply HN|]. split; [apply tail_digits, F|]. split; [right; destruct L as (c & t & -> & NC); exists c, []; auto|]. split; [rewrite number_text_cons by exact ND; rewrite <- !app_assoc; reflexivity|]. split; [exact EP|]. split; [exact EX|]. intros E. apply app_eq_nil in E. destruct E; auto.
      * rewrite value_parts, ztake_zdrop, D. rewrite zlen_zdrop by lia. f_equal. lia.
Qed.
(** What is written for a finite machine number in the file of [--json] is a JSON number, with a fraction or an exponent, that is read as that
    number and stands for the same decimal number as what [{}] writes. *)
Theorem C84_json : forall x, is_finite x = true ->
  float_text (json_f64 x) /\ read_f64 (json_f64 x) = Some x /\
  exists d e d0 e0, shortest_decimal (if Bsign x then Bopp x else x) d e /\ decimal_text (json_f64 x) (Bsign x) d0 e0 /\ dec d0 e0 = dec d e.
Proof.
  intros [neg|neg| |neg m e H] FX; try discriminate FX.
  - split; [|split; [destruct neg; reflexivity|]].
    + exists neg, [48], [46; 48], []. split; [destruct neg; reflexivity|]. split; [split; [repeat constructor; lia|auto]|]. split; [right; exists [48]; split; [reflexivity|]; split; [discriminate|repeat constructor; lia]|]. split; [left; reflexivity|discriminate].
    + exists 0, 0, 0, (-1). replace (if Bsign (B754_zero neg) then Bopp (B754_zero neg) else B754_zero neg) with (B754_zero false : f64) by (destruct neg; reflexivity).
      assert (D0 : forall e, dec 0 e = 0%R) by (intros; unfold dec; ring). split; [|split; [|rewrite !D0; reflexivity]].
      * split; [lia|]. rewrite D0. split; [unfold reads_as; rewrite round_0 by apply valid_rnd_N; reflexivity|]. intros d' e' _ _. split; [intros n Hn _; apply Z.pow_pos_nonneg; lia|]. intros _. change (B2R (B754_zero false)) with 0%R. rewrite Rminus_0_r, Rabs_R0. apply Rabs_pos.
      * exists (minus neg), [48], [48], (str "0.0"), [], 0. split; [apply minus_signed|]. split; [|split; [left; auto|]; split; [destruct neg; reflexivity|]; split; [reflexivity|reflexivity]]. split; [repeat constructor; lia|]. split; [repeat constructor; lia|]. split; [discriminate|right; reflexivity].
  - cbn [json_f64]. pose proof (shortest_best m e H) as SB. destruct (shortest m e (B754_finite false m e H)) as (d & s). pose proof (best_shortest _ _ _ SB) as SD. destruct SB as (B1 & B2 & B3 & _).
    destruct (ryu_spec d s B1) as (i & f & x & n & (R1 & R2 & R3 & R4 & R5 & R6 & R7) & V).
    assert (NI : i <> []) by (destruct R3 as [->|(c & t & -> & _)]; discriminate).
    pose proof (parts_text neg i f x n _ R1 R2 NI eq_refl R5) as DT. rewrite <- R4 in DT. rewrite value_parts in V. split; [|split].
    + exists neg, i, (match f with [] => [] | _ => 46 :: f end), x. rewrite R4. split; [unfold S_Text.number_text; rewrite <- !app_assoc; destruct neg; reflexivity|]. split; [split; [exact R1|destruct R3 as [->|(c & t & E & N)]; eauto]|]. split; [|split; [exact R6|destruct f; [exact R7|discriminate]]].
      destruct f as [|c f]; [left; reflexivity|right; exists (c :: f); split; [reflexivity|]; split; [discriminate|exact R2]].
    + rewrite (reads_signed neg (B754_finite false m e H) _ _ _ eq_refl eq_refl DT); [destruct neg; reflexivity|]. rewrite V. exact B3.
    + exists d, s, (denotes (i ++ f)), (n - zlen f). split; [destruct neg; exact SD|]. split; [exact DT|exact V].
Qed.

(** ** Seventeen digits *)
Lemma magnitude r : (0 < r)%R -> exists T, (powerRZ 10 T <= r < powerRZ 10 (T + 1))%R.
Proof.
  intros H. set (r10 := Build_radix 10 eq_refl). destruct (mag r10 r) as (e & He). specialize (He ltac:(lra)). rewrite !bpow_powerRZ in He. change (IZR r10) with 10%R in He. rewrite Rabs_pos_eq in He by lra. exists (e - 1). replace (e - 1 + 1) with e by lia. exact He.
Qed.
Lemma u53 : bpow radix2 (- (53)) = (/ 9007199254740992)%R.
Proof. reflexivity. Qed.
Lemma near_reads x r : (0 < B2R x)%R -> (Rabs (r - B2R x) <= / 2 * / 10000000000000000 * B2R x)%R -> reads_as r x.
Proof.
  intros PX N. unfold reads_as. pose proof (generic_format_B2R 53 1024 x) as GX. change (SpecFloat.fexp 53 1024) with (FLT_exp (-1074) 53) in GX. set (X := B2R x) in *. pose proof (nearest_of r X GX) as Q. set (g := round radix2 (FLT_exp (-1074) 53) ZnearestE r) in *.
  assert (GG : generic_format radix2 (FLT_exp (-1074) 53) g) by (apply generic_format_round; [apply FLT_exp_valid; reflexivity|apply valid_rnd_N]).
  assert (DG : (Rabs (g - X) <= / 10000000000000000 * X)%R). { replace (g - X)%R with ((g - r) + (r - X))%R by ring. eapply Rle_trans; [apply Rabs_triang|]. rewrite (Rabs_minus_sym X r) in Q. lra. }
  assert (Hp : Prec_gt_0 53) by reflexivity. destruct (Rtotal_order g X) as [L|[E|L]]; [exfalso|exact E|exfalso].
  - rewrite Rabs_left1 in DG by lra. assert (PG : (0 < g)%R) by lra. pose proof (succ_le_lt radix2 (FLT_exp (-1074) 53) g X GG GX L) as S. rewrite succ_eq_pos in S by lra. pose proof (ulp_FLT_gt radix2 (-1074) 53 g) as U. rewrite Rabs_pos_eq, u53 in U by lra. lra.
  - rewrite Rabs_pos_eq in DG by lra. pose proof (succ_le_lt radix2 (FLT_exp (-1074) 53) X g GX GG L) as S. rewrite succ_eq_pos in S by lra. pose proof (ulp_FLT_gt radix2 (-1074) 53 X) as U. rewrite Rabs_pos_eq, u53 in U by lra. lra.
Qed.
(** No machine number needs more than seventeen digits. *)
Theorem C84_seventeen : forall x d e, is_finite x = true -> Bsign x = false -> shortest_decimal x d e -> d < 10 ^ 17.
Proof.
  intros x d e FX SX (H0 & _ & M). assert (XN : (0 <= B2R x)%R). { destruct x as [s|s| |s m k Hb]; try discriminate FX; cbn in SX; subst s; cbn; [lra|]. apply F2R_ge_0. cbn. lia. }
  destruct XN as [PX|E0].
  - destruct (magnitude _ PX) as (T & T1 & T2). pose proof (p10_pos (T - 16)) as PP. replace T with (T - 16 + 16) in T1 by lia. replace (T + 1) with (T - 16 + 17) in T2 by lia. rewrite p10_add in T1, T2. rewrite (p10_Z 16) in T1 by lia. rewrite (p10_Z 17) in T2 by lia. change (IZR (10 ^ 16)) with 10000000000000000%R in T1. set (q := powerRZ 10 (T - 16)) in *.
    set (y := (B2R x / q)%R). assert (EY : (B2R x = y * q)%R) by (unfold y; field; lra). assert (Y2 : (y < IZR (10 ^ 17))%R) by (unfold y; apply Rlt_div_l; lra). assert (Y1 : (0 <= y)%R) by (unfold y; apply Rle_div_r; lra).
    set (c := Zfloor (y + / 2)). pose proof (Zfloor_lb (y + / 2)) as C1. pose proof (Zfloor_ub (y + / 2)) as C2. fold c in C1, C2.
    assert (RC : reads_as (dec c (T - 16)) x).
    { apply near_reads; [exact PX|]. unfold dec. fold q. rewrite EY. replace (IZR c * q - y * q)%R with ((IZR c - y) * q)%R by ring. rewrite Rabs_mult, (Rabs_pos_eq q) by lra. assert (A : (Rabs (IZR c - y) <= / 2)%R) by (apply Rabs_le; lra). apply (Rmult_le_compat_r q) in A; [|lra]. rewrite <- EY. lra. }
    assert (C0 : 0 <= c) by (unfold c; apply Zfloor_lub; lra). assert (CU : c < 10 ^ 17 + 1) by (apply lt_IZR; rewrite plus_IZR; lra).
    destruct (Z.eq_dec c (10 ^ 17)) as [E|NE]; [|apply (proj1 (M c (T - 16) C0 RC)); lia].
    assert (R1 : reads_as (dec 1 (T - 16 + 17)) x) by (rewrite (dec_shift 1 17) by lia; rewrite Z.mul_1_l, <- E; exact RC). pose proof (proj1 (M 1 _ ltac:(lia) R1) 1 ltac:(lia) ltac:(reflexivity)). lia.
  - assert (R0 : reads_as (dec 0 0) x) by (unfold reads_as, dec; rewrite Rmult_0_l, round_0 by apply valid_rnd_N; exact E0). pose proof (proj1 (M 0 0 ltac:(lia) R0) 0 ltac:(lia) ltac:(reflexivity)). lia.
Qed.
