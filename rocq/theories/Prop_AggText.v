(** C67: the text of [summarize aggregate].  Model M_AggText.v, specification S_AggText.v. *)
From Coq Require Import String ZArith Reals List Lia Lra Bool Sorted.
From Flocq Require Import Core BinarySingleNaN.
From Verif Require Import M_Base F_Base M_Raw M_V8 M_Map M_Crox S_Crox Prop_Crox2 M_Tools S_Tools Prop_Tools M_Analysis M_Diff M_Float S_Float Prop_Float M_Text S_Text Prop_Text Prop_Text2 M_Aggregate S_Aggregate F_Aggregate Prop_Aggregate S_Extrema Prop_Extrema Prop_Aggregate2 M_AggText S_AggText.
Import ListNotations.
Open Scope Z_scope.

(** ** Decimal numbers *)
Lemma dec_int d e : 0 <= e -> dec d e = IZR (d * 10 ^ e).
Proof. intros H. unfold dec. rewrite mult_IZR. f_equal. rewrite <- (Z2Nat.id e H). rewrite <- pow_powerRZ, pow_IZR. reflexivity. Qed.
Lemma dec_frac d e : e < 0 -> (10 * dec d e <= IZR d)%R \/ (IZR d < 0)%R.
Proof.
  intros H. destruct (Rlt_or_le (IZR d) 0) as [L|L]; [right; exact L|left]. unfold dec. replace e with (- Z.of_nat (Z.to_nat (- e))) by lia. set (n := Z.to_nat (- e)).
  assert (N : (1 <= n)%nat) by (subst n; lia). rewrite powerRZ_neg', <- pow_powerRZ.
  assert (T : (10 <= 10 ^ n)%R). { replace 10%R with (10 ^ 1)%R at 1 by ring. apply Rle_pow; [lra|exact N]. }
  assert (I : (10 * / 10 ^ n <= 1)%R). { apply (Rmult_le_reg_r (10 ^ n)); [lra|]. rewrite Rmult_assoc, Rinv_l by lra. lra. }
  replace (10 * (IZR d * / 10 ^ n))%R with (IZR d * (10 * / 10 ^ n))%R by ring. rewrite <- (Rmult_1_r (IZR d)) at 2. apply Rmult_le_compat_l; auto.
Qed.
Lemma dec_tenth d : dec d (-1) = (IZR d / 10)%R.
Proof. unfold dec. replace (powerRZ 10 (-1)) with (/ 10)%R; [reflexivity|]. change (powerRZ 10 (-1)) with (/ (10 * 1))%R. lra. Qed.
Lemma reads_near r x : reads_as r x -> (0 <= B2R x < bpow radix2 52)%R -> (Rabs (r - B2R x) <= / 4)%R.
Proof.
  unfold reads_as. intros E H. pose proof (error_le_half_ulp_round radix2 (FLT_exp (-1074) 53) (fun x => negb (Z.even x)) r) as K. cbv beta in K. rewrite E in K. rewrite Rabs_minus_sym. eapply Rle_trans; [exact K|].
  assert (U : (ulp radix2 (FLT_exp (-1074) 53) (B2R x) <= / 2)%R); [|lra].
  change (/ 2)%R with (bpow radix2 (-1)). destruct (Req_dec (B2R x) 0) as [Z|NZ].
  - rewrite Z. rewrite (ulp_FLT_0 radix2 (-1074) 53). apply bpow_le. lia.
  - rewrite ulp_neq_0 by exact NZ. apply bpow_le. unfold cexp, FLT_exp. assert (mag radix2 (B2R x) <= 52)%Z; [|lia]. apply mag_le_bpow; [exact NZ|]. rewrite Rabs_pos_eq by lra. lra.
Qed.
Lemma IZR_near a b : (Rabs (IZR a - IZR b) <= / 4)%R -> a = b.
Proof.
  intros H. rewrite <- minus_IZR, <- abs_IZR in H. assert (Z.abs (a - b) < 1); [|lia]. apply lt_IZR. lra.
Qed.
Lemma digits_of N : 0 < N -> exists n, 0 <= n /\ 10 ^ n <= N < 10 ^ (n + 1).
Proof.
  intros H. set (B := Build_radix 10 eq_refl). pose proof (Zdigits_correct B N) as K. pose proof (Zdigits_gt_0 B N ltac:(lia)) as G. exists (Zdigits B N - 1). split; [lia|]. rewrite Z.sub_add. rewrite Z.abs_eq in K by lia. exact K.
Qed.
(** the shortest text of a number with a short enough decimal expansion is that expansion *)
Lemma shortest_exact (x : f64) d e N e0 : (0 <= B2R x < bpow radix2 52)%R -> B2R x = dec N e0 -> 0 <= N -> (e0 = 0 \/ e0 = -1 /\ N mod 10 = 5) ->
  0 <= d -> reads_as (dec d e) x ->
  (forall d' e', 0 <= d' -> reads_as (dec d' e') x ->
      (forall n, 0 <= n -> d' < 10 ^ n -> d < 10 ^ n) /\
      ((forall n, 0 <= n -> d < 10 ^ n -> d' < 10 ^ n) -> (Rabs (dec d e - B2R x) <= Rabs (dec d' e' - B2R x))%R)) ->
  dec d e = B2R x.
Proof.
  intros HX EX HN HE HD HR HS. assert (RX : reads_as (dec N e0) x).
  { unfold reads_as. rewrite <- EX. apply round_generic; [apply valid_rnd_N|]. apply (generic_format_B2R 53 1024). }
  destruct (HS N e0 HN RX) as (S1 & S2). pose proof (reads_near _ _ HR HX) as NR.
  assert (EQ : (Rabs (dec d e - B2R x) <= Rabs (dec N e0 - B2R x))%R -> dec d e = B2R x).
  { intros H. rewrite <- EX in H. rewrite (Rminus_diag_eq (B2R x) (B2R x) eq_refl), Rabs_R0 in H. pose proof (Rabs_pos (dec d e - B2R x)) as P0. assert (Z0 : (Rabs (dec d e - B2R x) = 0)%R) by lra. destruct (Req_dec (dec d e - B2R x) 0) as [Q|Q]; [lra|]. apply Rabs_no_R0 in Q. lra. }
  destruct (Z.eq_dec N 0) as [->|NN].
  { assert (d = 0). { assert (S0 : d < 10 ^ 0) by (apply S1; [lia|reflexivity]). change (10 ^ 0) with 1 in S0. clear - S0 HD. lia. } subst d. rewrite EX. unfold dec. rewrite !Rmult_0_l. reflexivity. }
  destruct (digits_of N ltac:(lia)) as (n & Hn & L & U). destruct (Z_lt_le_dec d (10 ^ n)) as [DL|DL].
  - apply Rabs_le_inv in NR as NR'. assert (D1 : dec N 0 = IZR N) by (rewrite dec_int by lia; f_equal; apply Z.mul_1_r). assert (D2 : (10 * dec N (-1) = IZR N)%R) by (rewrite dec_tenth; lra).
    destruct (Z_lt_le_dec e 0) as [EL|EL].
    + exfalso. destruct (dec_frac d e EL) as [K|K]; [|apply lt_IZR in K; lia]. assert (1 <= 10 ^ n) by (apply (Z.pow_le_mono_r 10 0 n); lia). destruct HE as [->|(-> & HM)].
      * rewrite EX, D1 in NR'. assert (LB : 10 * N - 3 < d). { apply lt_IZR. rewrite minus_IZR, mult_IZR. lra. } lia.
      * rewrite EX in NR'. assert (LB : N - 3 < d). { apply lt_IZR. rewrite minus_IZR. lra. } pose proof (Z.div_mod N 10 ltac:(lia)). destruct (Z.eq_dec n 0) as [->|NZ]; [change (10 ^ 0) with 1 in *; lia|]. replace n with (Z.succ (n - 1)) in L, DL by lia. rewrite Z.pow_succ_r in L, DL by lia. lia.
    + rewrite dec_int in * by exact EL. destruct HE as [->|(-> & HM)].
      * rewrite EX, D1 in *. rewrite (IZR_near _ _ NR). reflexivity.
      * exfalso. rewrite EX in NR'. pose proof (Z.div_mod N 10 ltac:(lia)) as DM. set (M := d * 10 ^ e) in *. set (q := N / 10) in *. assert (NE : IZR N = (10 * IZR q + 5)%R) by (rewrite DM, HM, plus_IZR, mult_IZR; reflexivity).
        assert (A1 : 4 * M < 4 * q + 4) by (apply lt_IZR; rewrite plus_IZR, !mult_IZR; lra). assert (A2 : 4 * q < 4 * M) by (apply lt_IZR; rewrite !mult_IZR; lra). lia.
  - apply EQ, S2. intros m Hm DM. assert (n < m). { destruct (Z_lt_le_dec n m); auto. assert (10 ^ m <= 10 ^ n) by (apply Z.pow_le_mono_r; lia). lia. } assert (10 ^ (n + 1) <= 10 ^ m) by (apply Z.pow_le_mono_r; lia). lia.
Qed.

(** ** Halves *)
Lemma two_ok : B2R (of_int 2) = 2%R /\ is_finite (of_int 2) = true.
Proof. destruct (of_int_ok 2) as (A & B & _); [lia|]. rewrite A, B. split; auto. apply rnd_int. reflexivity. Qed.
Lemma half_ok k : 0 <= k < 2 ^ 100 -> is_finite (half k) = true /\ B2R (half k) = rnd (rnd (IZR k) / 2).
Proof.
  intros H. destruct (of_int_ok k) as (A & B & _); [lia|]. destruct two_ok as (C & D). destruct (div_ok (of_int k) (of_int 2) B D) as (E & F & _); [rewrite C; lra| |].
  - rewrite A. apply rnd_abs_le; [lia|]. apply abs_int; lia.
  - unfold half. rewrite E, A, C. auto.
Qed.
Lemma rnd_half k : 0 <= k < 2 ^ 53 -> rnd (IZR k / 2) = (IZR k / 2)%R.
Proof. intros H. apply round_generic; [apply valid_rnd_N|]. apply generic_format_FLT. exists (Float radix2 k (-1)); unfold F2R; cbn [Fnum Fexp]; [change (bpow radix2 (-1)) with (/ 2)%R; reflexivity|change (Z.abs k < 2 ^ 53); lia|lia]. Qed.
Lemma half_exact k : 0 <= k < 2 ^ 53 -> B2R (half k) = (IZR k / 2)%R.
Proof. intros H. rewrite (proj2 (half_ok k ltac:(lia))), rnd_int, rnd_half by lia. reflexivity. Qed.
Lemma exact_text k i f : 0 <= k -> decimal_number i f -> (f = [] \/ exists f' c, f = f' ++ [c] /\ c <> 48) ->
  (IZR (denotes (i ++ f)) / IZR (10 ^ zlen f) = IZR k / 2)%R -> exact_half k (number_text i f).
Proof.
  intros HK (HI & HF) HL E. rewrite <- zlen_P in E. pose proof (P_pos (length f)) as PP. assert (E' : 2 * denotes (i ++ f) = k * P (length f)).
  { apply eq_IZR. rewrite !mult_IZR. assert (0 < IZR (P (length f)))%R by (apply IZR_lt; lia). replace (IZR (denotes (i ++ f))) with (IZR k / 2 * IZR (P (length f)))%R by (rewrite <- E; field; lra). lra. }
  rewrite denotes_app in E'. pose proof (denotes_range f HF) as RF. set (a := denotes i) in *. set (b := denotes f) in *. set (Q := P (length f)) in *. assert (C : k = 2 * a \/ k = 2 * a + 1).
  { assert (K : (k - 2 * a) * Q = 2 * b) by lia. destruct (Z_lt_le_dec (k - 2 * a) 0) as [L|L]; [pose proof (Z.mul_neg_pos _ _ L PP); lia|]. destruct (Z_lt_le_dec (k - 2 * a) 2) as [U|U]; [lia|]. pose proof (Z.mul_le_mono_pos_r 2 (k - 2 * a) Q PP) as W. apply W in U. lia. }
  exists i. unfold number_text. destruct C as [->| ->].
  - replace (2 * a / 2) with a by (rewrite Z.mul_comm, Z.div_mul; lia). split; [exact HI|]. rewrite Z.even_mul. cbn [Z.even orb]. destruct HL as [->|(f' & c & -> & NC)]; [apply app_nil_r|]. exfalso.
    assert (Z0 : denotes (f' ++ [c]) = 0) by (subst b; lia). rewrite denotes_app in Z0. change (P (length [c])) with 10 in Z0. replace (denotes [c]) with (c - 48) in Z0 by (unfold denotes; cbn [fold_left]; lia). apply Forall_app in HF. destruct HF as (F1 & F2). apply Forall_inv in F2. pose proof (denotes_range f' F1). lia.
  - replace ((2 * a + 1) / 2) with a by (Z.to_euclidean_division_equations; lia). split; [exact HI|]. rewrite Z.even_add, Z.even_mul. cbn [Z.even orb Bool.eqb]. destruct HL as [->|(f' & c & -> & NC)]; [subst b Q; change (P (length [])) with 1 in E'; change (denotes []) with 0 in E'; lia|].
    subst b Q. rewrite denotes_app, app_length in E'. change (length [c]) with 1%nat in E'. rewrite P_add in E'. change (P 1) with 10 in E'. replace (denotes [c]) with (c - 48) in E' by (unfold denotes; cbn [fold_left]; lia). apply Forall_app in HF. destruct HF as (F1 & F2). apply Forall_inv in F2.
    destruct f' as [|c' f']; [|exfalso; cbn [length] in E'; rewrite P_S in E'; lia]. change (P (length [])) with 1 in E'. change (denotes []) with 0 in E'. assert (c = 53) by lia. subst c. reflexivity.
Qed.
Lemma half_dec k : 0 <= k -> exists N e0, (IZR k / 2)%R = dec N e0 /\ 0 <= N /\ (e0 = 0 \/ e0 = -1 /\ N mod 10 = 5).
Proof.
  intros H. pose proof (Z.div_mod k 2 ltac:(lia)) as D. pose proof (Z.mod_pos_bound k 2 ltac:(lia)) as M. pose proof (Z.div_pos k 2 H ltac:(lia)) as G. assert (C : exists q, 0 <= q /\ (k = 2 * q \/ k = 2 * q + 1)) by (exists (k / 2); lia). clear D M G. destruct C as (q & Q & [->| ->]).
  - exists q, 0. split; [|lia]. rewrite dec_int by lia. rewrite mult_IZR. replace (q * 10 ^ 0) with q by (symmetry; apply Z.mul_1_r). lra.
  - exists (10 * q + 5), (-1). split; [|split; [lia|right; split; [reflexivity|]]]. { rewrite dec_tenth, !plus_IZR, !mult_IZR. lra. } rewrite Z.add_comm, Z.mul_comm, Z_mod_plus_full. reflexivity.
Qed.
Lemma strip N : 0 < N -> exists d j, 0 <= j /\ 0 < d /\ N = d * 10 ^ j /\ d mod 10 <> 0.
Proof.
  intros H. assert (G : 0 <= N) by lia. revert H. revert N G. apply (Z_lt_induction (fun N => 0 < N -> exists d j, 0 <= j /\ 0 < d /\ N = d * 10 ^ j /\ d mod 10 <> 0)).
  intros N IH H. destruct (Z.eq_dec (N mod 10) 0) as [E|E]; [|exists N, 0; rewrite Z.mul_1_r; auto with zarith].
  pose proof (Z.div_mod N 10 ltac:(lia)) as D. destruct (IH (N / 10)) as (d & j & J & P1 & E1 & M); [lia|lia|]. exists d, (Z.succ j). split; [lia|]. split; [lia|]. split; [|exact M]. rewrite Z.pow_succ_r by lia. lia.
Qed.
(** the contract of the standard library determines the text of halves, and an exact text satisfies it *)
Lemma half_bound k : 0 <= k < 2 ^ 53 -> (0 <= B2R (half k) < bpow radix2 52)%R.
Proof.
  intros H. rewrite half_exact by exact H. assert (0 <= IZR k)%R by (apply IZR_le; lia). split; [lra|]. change (bpow radix2 52) with (IZR (2 ^ 52)). apply (Rmult_lt_reg_r 2); [lra|]. replace (IZR k / 2 * 2)%R with (IZR k) by field. rewrite <- mult_IZR. apply IZR_lt. lia.
Qed.
Lemma dec_read (x : f64) d e : dec d e = B2R x -> reads_as (dec d e) x.
Proof. intros E. unfold reads_as. rewrite E. apply round_generic; [apply valid_rnd_N|]. apply (generic_format_B2R 53 1024). Qed.
Lemma displays_half k txt : 0 <= k < 2 ^ 53 -> displays (half k) txt <-> exact_half k txt.
Proof.
  intros H. pose proof (half_bound k H) as HB. pose proof (half_exact k H) as EX. split.
  - intros (i & f & d & e & T & DN & HL & H0 & EV & HR & HS). destruct (half_dec k ltac:(lia)) as (N & e0 & EN & HN & HE). rewrite T. apply exact_text; [lia|exact DN|exact HL|]. rewrite EV, <- EX.
    apply (shortest_exact (half k) d e N e0); auto. rewrite EX; exact EN.
  - intros (i & NI & ->). pose proof NI as (DI & VI & _). assert (C : exists q, 0 <= q /\ q = k / 2 /\ (k = 2 * q /\ Z.even k = true \/ k = 2 * q + 1 /\ Z.even k = false)).
    { exists (k / 2). pose proof (Z.div_mod k 2 ltac:(lia)). pose proof (Zmod_even k). split; [apply Z.div_pos; lia|]. split; [reflexivity|]. destruct (Z.even k); [left|right]; split; auto; lia. }
    destruct C as (q & Q0 & Q1 & [(KQ & EV)|(KQ & EV)]); rewrite EV; rewrite <- Q1 in *.
    + assert (XQ : B2R (half k) = IZR q) by (rewrite EX, KQ, mult_IZR; lra).
      assert (S : exists d j, 0 <= d /\ 0 <= j /\ q = d * 10 ^ j /\ (0 < q -> d mod 10 <> 0)).
      { destruct (Z.eq_dec q 0) as [->|NZ]; [exists 0, 0; lia|]. destruct (strip q ltac:(lia)) as (d & j & A & B & C & D). exists d, j. split; [lia|auto]. }
      destruct S as (d & j & D0 & J0 & E & M). assert (DE : dec d j = B2R (half k)) by (rewrite dec_int, <- E, XQ by exact J0; reflexivity).
      exists i, [], d, j. split; [unfold number_text; rewrite app_nil_r; reflexivity|]. split; [split; [rewrite VI; exact NI|constructor]|]. split; [auto|]. split; [exact D0|]. split; [rewrite app_nil_r, VI, DE, XQ; change (10 ^ zlen []) with 1; lra|]. split; [apply dec_read, DE|].
      intros d' e' D0' R'. split; [|rewrite DE, (Rminus_diag_eq (B2R (half k)) _ eq_refl), Rabs_R0; intros _; apply Rabs_pos].
      intros n N0 L. pose proof (reads_near _ _ R' HB) as NR. apply Rabs_le_inv in NR as NR'. rewrite XQ in NR'.
      destruct (Z.eq_dec q 0) as [->|NZ]. { assert (0 < 10 ^ j) by (apply Z.pow_pos_nonneg; lia). assert (0 < 10 ^ n) by (apply Z.pow_pos_nonneg; lia). symmetry in E. apply Z.mul_eq_0 in E. lia. }
      enough (d <= d') by lia. destruct (Z_lt_le_dec e' 0) as [EL|EL].
      * destruct (dec_frac d' e' EL) as [K|K]; [|apply lt_IZR in K; lia]. assert (LB : 10 * q - 3 < d'). { apply lt_IZR. rewrite minus_IZR, mult_IZR. lra. } assert (d <= q). { rewrite E. assert (1 <= 10 ^ j) by (apply (Z.pow_le_mono_r 10 0 j); lia). rewrite <- (Z.mul_1_r d) at 1. apply Z.mul_le_mono_nonneg_l; lia. } lia.
      * rewrite dec_int in NR by exact EL. rewrite XQ in NR. apply IZR_near in NR. rewrite E in NR. destruct (Z_le_gt_dec e' j) as [LJ|LJ].
        -- replace j with ((j - e') + e') in NR by lia. rewrite Z.pow_add_r, Z.mul_assoc in NR by lia. apply Z.mul_cancel_r in NR; [|apply Z.pow_nonzero; lia]. rewrite NR. assert (1 <= 10 ^ (j - e')) by (apply (Z.pow_le_mono_r 10 0); lia). rewrite <- (Z.mul_1_r d) at 1. apply Z.mul_le_mono_nonneg_l; lia.
        -- exfalso. replace e' with (Z.succ (e' - j - 1) + j) in NR by lia. rewrite Z.pow_add_r, Z.mul_assoc in NR by lia. apply Z.mul_cancel_r in NR; [|apply Z.pow_nonzero; lia]. apply M; [lia|]. rewrite <- NR, Z.pow_succ_r by lia. replace (d' * (10 * 10 ^ (e' - j - 1))) with (d' * 10 ^ (e' - j - 1) * 10) by ring. apply Z.mod_mul. lia.
    + assert (XQ : (10 * B2R (half k) = IZR (10 * q + 5))%R) by (rewrite EX, KQ, !plus_IZR, !mult_IZR; lra).
      assert (DE : dec (10 * q + 5) (-1) = B2R (half k)) by (rewrite dec_tenth; lra).
      exists i, [53], (10 * q + 5), (-1). split; [reflexivity|]. split; [split; [rewrite VI; exact NI|constructor; [lia|constructor]]|]. split; [right; exists [], 53; split; [reflexivity|lia]|]. split; [lia|].
      split. { rewrite DE. replace (B2R (half k)) with (IZR (10 * q + 5) / 10)%R by lra. rewrite denotes_app, VI. change (10 ^ zlen [53]) with 10. change (P (length [53])) with 10. change (denotes [53]) with 5. rewrite (Z.mul_comm q 10). reflexivity. }
      split; [apply dec_read, DE|]. intros d' e' D0' R'. split; [|rewrite DE, (Rminus_diag_eq (B2R (half k)) _ eq_refl), Rabs_R0; intros _; apply Rabs_pos].
      intros n N0 L. pose proof (reads_near _ _ R' HB) as NR. apply Rabs_le_inv in NR. destruct (Z_lt_le_dec e' 0) as [EL|EL].
      * destruct (dec_frac d' e' EL) as [K|K]; [|apply lt_IZR in K; lia]. assert (LB : 10 * q + 5 - 3 < d'). { apply lt_IZR. rewrite minus_IZR, <- XQ. lra. } destruct (Z.eq_dec n 0) as [->|NZ]; [change (10 ^ 0) with 1 in *; lia|]. replace n with (Z.succ (n - 1)) in * by lia. rewrite Z.pow_succ_r in * by lia. lia.
      * exfalso. rewrite dec_int in NR by exact EL. set (M := d' * 10 ^ e') in *. rewrite plus_IZR, mult_IZR in XQ.
        assert (A1 : 4 * M < 4 * q + 4) by (apply lt_IZR; rewrite plus_IZR, !mult_IZR; lra). assert (A2 : 4 * q < 4 * M) by (apply lt_IZR; rewrite !mult_IZR; lra). lia.
Qed.
(** what is read back as a number is that number up to a relative error *)
Lemma reads_relative r (x : f64) : reads_as r x -> (1 <= B2R x)%R -> (Rabs (r - B2R x) <= / 2 ^ 53 * B2R x)%R.
Proof.
  unfold reads_as. intros E H. pose proof (error_le_half_ulp_round radix2 (FLT_exp (-1074) 53) (fun x => negb (Z.even x)) r) as K. cbv beta in K. rewrite E in K. rewrite Rabs_minus_sym. eapply Rle_trans; [exact K|].
  assert (U : (ulp radix2 (FLT_exp (-1074) 53) (B2R x) <= Rabs (B2R x) * bpow radix2 (1 - 53))%R). { apply ulp_FLT_le. rewrite Rabs_pos_eq by lra. eapply Rle_trans; [|exact H]. change 1%R with (bpow radix2 0). apply bpow_le. lia. }
  rewrite Rabs_pos_eq in U by lra. change (bpow radix2 (1 - 53)) with (/ IZR 4503599627370496)%R in U. replace (2 ^ 53)%R with (IZR 9007199254740992) by (symmetry; apply (pow_IZR 2 53)). lra.
Qed.
Lemma half_relative k : 2 <= k < 2 ^ 100 -> (1 <= B2R (half k) /\ B2R (half k) <= (1 + 3 * / 2 ^ 53) * (IZR k / 2) /\ Rabs (B2R (half k) - IZR k / 2) <= 3 * / 2 ^ 53 * (IZR k / 2))%R.
Proof.
  intros H. rewrite (proj2 (half_ok k ltac:(lia))). assert (K2 : (2 <= IZR k)%R) by (apply IZR_le; lia). assert (R2 : (2 <= rnd (IZR k))%R) by (rewrite <- (rnd_int 2) by reflexivity; apply rnd_le; exact K2).
  assert (B1 : (bpow radix2 (-1000) <= 1)%R) by (change 1%R with (bpow radix2 0); apply bpow_le; lia).
  destruct (rnd_rel (IZR k)) as (e1 & H1 & E1); [rewrite Rabs_pos_eq; lra|]. destruct (rnd_rel (rnd (IZR k) / 2)) as (e2 & H2 & E2); [rewrite Rabs_pos_eq; lra|].
  assert (R1 : (1 <= rnd (rnd (IZR k) / 2))%R) by (rewrite <- (rnd_int 1) by reflexivity; apply rnd_le; lra). split; [exact R1|]. rewrite E2, E1 in *.
  set (u := (/ 2 ^ 53)%R) in *. assert (U : (0 < u <= / 4)%R). { unfold u. replace (2 ^ 53)%R with (IZR 9007199254740992) by (symmetry; apply (pow_IZR 2 53)). lra. }
  assert (D : (Rabs (IZR k * (1 + e1) / 2 * (1 + e2) - IZR k / 2) <= 3 * u * (IZR k / 2))%R).
  { replace (IZR k * (1 + e1) / 2 * (1 + e2) - IZR k / 2)%R with ((e1 + e2 + e1 * e2) * (IZR k / 2))%R by field. rewrite Rabs_mult, (Rabs_pos_eq (IZR k / 2)) by lra. apply Rmult_le_compat_r; [lra|].
    eapply Rle_trans; [apply Rabs_triang|]. eapply Rle_trans; [apply Rplus_le_compat; [apply Rabs_triang|apply Req_le, Rabs_mult]|].
    assert (Q : (Rabs e1 * Rabs e2 <= u * 1)%R) by (apply Rmult_le_compat; [apply Rabs_pos|apply Rabs_pos|exact H1|lra]). lra. }
  split; [|exact D]. apply Rabs_le_inv in D. lra.
Qed.
Lemma half_text k txt : 0 <= k < 2 ^ 100 -> displays (half k) txt -> half_says k txt.
Proof.
  intros HK HD. split; [intros L; apply displays_half; [lia|exact HD]|]. pose proof HD as (i & f & d & e & T & DN & HL & H0 & EV & HR & HS).
  exists i, f. split; [exact T|]. split; [exact DN|]. rewrite EV. destruct (Z_lt_le_dec k (2 ^ 53)) as [L|L].
    + pose proof (half_exact k ltac:(lia)) as EX. destruct (half_dec k ltac:(lia)) as (N & e0 & EN & HN & HE). assert (Q : dec d e = B2R (half k)).
      { apply (shortest_exact (half k) d e N e0); auto; [apply half_bound; lia|rewrite EX; exact EN]. }
      rewrite Q, EX, Rminus_diag_eq, Rabs_R0 by reflexivity. assert (0 <= IZR k)%R by (apply IZR_le; lia). assert (0 < / 2 ^ 50)%R by (apply Rinv_0_lt_compat, pow_lt; lra). assert (0 <= / 2 ^ 50 * IZR k)%R by (apply Rmult_le_pos; lra). lra.
    + destruct (half_relative k ltac:(lia)) as (A & B & C). pose proof (reads_relative _ _ HR A) as D. assert (0 <= IZR k)%R by (apply IZR_le; lia).
      replace (dec d e - IZR k / 2)%R with ((dec d e - B2R (half k)) + (B2R (half k) - IZR k / 2))%R by ring. eapply Rle_trans; [apply Rabs_triang|].
      replace (2 ^ 50)%R with (IZR 1125899906842624) by (symmetry; apply (pow_IZR 2 50)). replace (2 ^ 53)%R with (IZR 9007199254740992) in * by (symmetry; apply (pow_IZR 2 53)). lra.
Qed.

(** ** Names *)
Lemma join_separated l : separated l (join_args l).
Proof. induction l as [|x [|y l] IH]; [reflexivity|reflexivity|]. exists (join_args (y :: l)). split; [exact IH|reflexivity]. Qed.
Lemma show_named d : event_named d (show_desc d).
Proof.
  unfold show_desc. eexists _, (join_args (de_args d)). split; [apply join_separated|]. split; [reflexivity|]. change QUERY_EVENT_KIND with (str "Query"). change GENERIC_ACTIVITY_EVENT_KIND with (str "GenericActivity").
  destruct (beq (de_kind d) (str "Query")) eqn:E1.
  { apply beq_true in E1. split; [reflexivity|]. intros (N & _). congruence. }
  destruct (beq (de_kind d) (str "GenericActivity")) eqn:E2.
  { apply beq_true in E2. split; [reflexivity|]. intros (_ & N). congruence. }
  cbn [orb]. split; [|reflexivity]. intros [K|K]; rewrite K in *; [rewrite (proj2 (beq_true _ _) eq_refl) in E1|rewrite (proj2 (beq_true _ _) eq_refl) in E2]; discriminate.
Qed.
Lemma opt_desc_true a b : opt_desc_eqb a b = true -> a = b.
Proof. destruct a as [a|], b as [b|]; cbn [opt_desc_eqb]; try discriminate; auto. destruct (desc_eq_dec a b); [congruence|discriminate]. Qed.
Lemma describe_named n d y : describe n (SOne d) = Ok y -> exists t, y = Text t /\ interval_named d t.
Proof.
  destruct d as [s e]. unfold describe. cbn [si_start si_end]. destruct s as [[s sp]|[s sp]|[s sp]], e as [[e ep]|[e ep]|[e ep]]; cbn [w_this w_parent]; intros H.
  all: match type of H with (if ?b then _ else _) = _ => destruct b eqn:E; [|discriminate] end.
  2: { unfold w_eqb in E. cbn [w_this w_parent] in E. apply andb_true_iff in E. destruct E as (E1 & E2). apply opt_desc_true in E2. destruct (desc_eq_dec s e); [|discriminate]. subst. injection H as <-. eexists. split; [reflexivity|]. constructor. apply show_named. }
  all: apply opt_desc_true in E; subst.
  1, 2: injection H as <-; eexists; split; [reflexivity|]; apply in_before with (inner := e); auto using show_named.
  2, 5: injection H as <-; eexists; split; [reflexivity|]; apply in_after with (inner := s); auto using show_named.
  all: destruct ep as [par|]; injection H as <-; eexists; (split; [reflexivity|]); [apply in_between with (outer := par) (a := s) (b := e)|apply in_top with (a := s) (b := e)]; auto using show_named.
Qed.

(** ** Tables *)
Lemma sources_text ties n x y : 0 <= n < 2 ^ 31 -> x <> SEmpty -> (forall c, x = SCount c -> 0 <= c /\ 0 < n) -> describe n x = Ok y -> is_duration (src_count x) -> sources_named n x (described_text ties y).
Proof.
  intros HN NE HC H HD. destruct x as [|d|c]; [congruence| |].
  - destruct (describe_named _ _ _ H) as (t & -> & K). exact K.
  - cbn [describe src_count] in H, HD. injection H as <-. cbn [described_text sources_named]. destruct (HC c eq_refl) as (C0 & N0). exists (decimal c), (f64_text ties false 2 (percent_of n c)). split; [apply decimal_numeral, C0|]. split; [|reflexivity].
    assert (HT : is_duration n) by (unfold is_duration; lia). destruct (percent_sign c n) as (F & S); [apply duration_bound in HD; lia|lia|]. rewrite (proj2 (Z.ltb_ge _ _)) in S by lia.
    destruct (f64_text_ok ties false 2 (percent_of n c) F) as (t & E & R). rewrite S in E. cbn [sgn_text app] in E. rewrite E. rewrite half_2 in R. eapply says_real_near; [exact R|].
    destruct (C61_percent n c HT HD) as (K & _). destruct (K N0) as ((_ & K1) & K2 & _). rewrite (Rabs_pos_eq (B2R _)) by exact K2. rewrite (Rabs_pos_eq (share n c)) in K1; [exact K1|]. apply (share_bounds n c HD). lia.
Qed.
Lemma occurrences_bound {S} (hist : list (Z * S)) v : In v (map fst hist) -> occurrences hist v <> SEmpty /\ 0 < src_count (occurrences hist v) <= zlen hist.
Proof.
  intros H. unfold occurrences. assert (L : zlen (filter (fun x => fst x =? v) hist) <= zlen hist). { clear H. induction hist as [|a l IH]; cbn [filter]; [lia|]. destruct (fst a =? v); rewrite !zlen_cons; lia. }
  apply in_map_iff in H. destruct H as (x & <- & Hx). assert (I : In x (filter (fun y => fst y =? fst x) hist)) by (apply filter_In; split; [exact Hx|apply Z.eqb_refl]).
  destruct (filter (fun y => fst y =? fst x) hist) as [|a [|b l]]; [destruct I| |]; (split; [discriminate|]); cbn [src_count]; rewrite ?zlen_cons, ?zlen_nil in *; pose proof (zlen_nonneg hist); try pose proof (zlen_nonneg l); lia.
Qed.
Lemma table_text ties which what (value : Z -> bytes -> Prop) vt hist t printed : zlen hist < 2 ^ 31 ->
  (forall v x, In (v, x) t -> In v (map fst hist) /\ x = occurrences hist v) -> (forall v, In v (map fst hist) -> value v (vt v)) ->
  described_table (zlen hist) t printed ->
  table_says which what value (zlen hist) t
    (which ++ str " " ++ decimal (zlen printed) ++ str " " ++ what ++ str ":" ++ [10] ++ concat (map (fun x => str "  " ++ vt (fst x) ++ str " ns: " ++ described_text ties (snd x) ++ [10]) printed)).
Proof.
  intros HL HT HV HD. exists (decimal (zlen printed)), (map (fun x => str "  " ++ vt (fst x) ++ str " ns: " ++ described_text ties (snd x) ++ [10]) printed).
  assert (LE : zlen t = zlen printed). { clear - HD. unfold described_table in HD. induction HD; [reflexivity|]. rewrite !zlen_cons. lia. }
  split; [rewrite LE; apply decimal_numeral, zlen_nonneg|]. split; [reflexivity|]. clear LE. unfold described_table in HD. induction HD as [|x y t printed (E1 & E2) HD IH]; cbn [map]; constructor.
  - destruct x as (v, x), y as (v', y). cbn [fst snd] in *. subst v'. destruct (HT v x (or_introl eq_refl)) as (Hv & Hx). destruct (occurrences_bound hist v Hv) as (O1 & O2). rewrite <- Hx in O1, O2. exists (vt v), (described_text ties y). split; [apply HV, Hv|]. split; [|reflexivity].
    pose proof (zlen_nonneg hist). apply sources_text; auto; [intros c ->; cbn [src_count] in O2; lia|unfold is_duration; lia].
  - apply IH. intros v' x' K. apply HT. right. exact K.
Qed.
(** ** The whole text *)
Lemma si_duration_pos i d : si_duration i = Ok d -> 0 <= d.
Proof. unfold si_duration. destruct (sp_timestamp (si_end i)); cbn [bind]; try discriminate. destruct (sp_timestamp (si_start i)); cbn [bind]; try discriminate. destruct (Z.leb_spec a0 a); [|discriminate]. intros [= <-]. lia. Qed.
Lemma aggregated_pos IS aggs : aggregated IS aggs -> Forall (fun a => 0 <= ag_min a /\ 0 <= ag_range a) aggs.
Proof.
  induction 1 as [IS H|columns a aggs (H1 & ds & F & M1 & M & B) H2 IH]; constructor; auto. specialize (B _ M1). split; [|lia]. clear - F M1.
  induction F as [|i d l ds Hi F IHF]; [destruct M1|]. destruct M1 as [<-|M1]; [eapply si_duration_pos, Hi|auto].
Qed.
Theorem C67_text : forall ties display oc profiles PS,
  profiles <> [] -> Forall single_thread profiles -> Forall chronological profiles -> Forall times_ok profiles ->
  Forall (fun evs => zlen (timed evs) < 2 ^ 30) profiles ->
  Forall2 points_of profiles PS -> (forall pts pts', In pts PS -> In pts' PS -> outline pts = outline pts') ->
  exists aggs text, aggregated (map between PS) aggs /\ (forall out, aggregate_prints ties display oc profiles out <-> out = Ok text) /\
    ((forall a, In a aggs -> displays (half (ag_range a)) (display (half (ag_range a)))) -> report_says aggs text).
Proof.
  intros ties display oc profiles PS NE ST HC HT HL F HO. destruct (C35_report oc profiles PS NE ST HC HT HL F HO) as (aggs & r & E & A & R).
  exists aggs, (report_text ties display r). split; [exact A|]. split.
  { intros out. destruct (C35_total oc profiles) as (r0 & _ & _ & U). split.
    - intros (r' & K & ->). rewrite (U _ K), <- (U _ E). reflexivity.
    - intros ->. exists (Ok r). auto. }
  intros HD.
  assert (G : forall pts, In pts PS -> exists evs, In evs profiles /\ points_of evs pts).
    { clear - F. induction F as [|x y l PS Hx F IH]; intros pts Hp; [destruct Hp|]. destruct Hp as [<-|Hp]; [exists x; split; [left; auto|auto]|]. destruct (IH _ Hp) as (evs & A & B). exists evs. split; [right; auto|auto]. }
    rewrite Forall_forall in ST, HC, HT, HL. destruct PS as [|p0 PS']; [inversion F; congruence|]. set (PS := p0 :: PS') in *. assert (P0 : In p0 PS) by (left; reflexivity). destruct (G _ P0) as (ev0 & He0 & Hp0).
    assert (LA : zlen aggs < 2 ^ 31).
    { assert (zlen aggs <= zlen p0). { rewrite <- (between_length p0). unfold zlen. rewrite <- (aggregated_len _ _ A (between p0)); [lia|apply in_map, P0]. }
      destruct (C34_walk ev0 (ST _ He0)) as (p0' & D' & W & M). pose proof (drains_det _ _ _ Hp0 _ D') as Q. injection Q as <-.
      pose proof (walk_length _ _ W) as LW. rewrite M in LW. unfold zlen in LW at 2. rewrite rev_length in LW. fold (zlen (timed ev0)) in LW. specialize (HL _ He0). cbv beta in HL. lia. }
    pose proof (aggregated_pos _ _ A) as AP. assert (AB : Forall (fun a => ag_min a + ag_range a <= DURATION_MAX) aggs).
    { eapply aggregated_bound; eauto; [discriminate|]. intros I i d HI Hi Hd. apply in_map_iff in HI. destruct HI as (pts & <- & Hp). destruct (G _ Hp) as (evs & He & Hpt).
      destruct (C34_walk evs (ST _ He)) as (pts' & D' & W & M). pose proof (drains_det _ _ _ Hpt _ D') as Q. injection Q as <-.
      destruct (between_sorted _ _ (walk_sorted _ W) i Hi) as (_ & I1 & I2). pose proof (walk_matches _ _ W) as HM. rewrite Forall_forall in HM.
      unfold si_duration in Hd. rewrite !matches_time in Hd by auto. cbn [bind] in Hd. destruct (_ <=? _); [|discriminate]. injection Hd as <-.
      pose proof (time_bounds _ _ (HT _ He) (ST _ He) Hpt _ I1). pose proof (time_bounds _ _ (HT _ He) (ST _ He) Hpt _ I2). lia. }
    rewrite Forall_forall in AP, AB. assert (DM : DURATION_MAX < 2 ^ 100) by reflexivity.
    destruct R as ((t1 & S1 & D1) & (t2 & S2 & D2) & (t3 & S3 & D3) & (t4 & S4 & D4)).
    assert (ZL : forall f : agg -> Z, zlen (map (fun a => (f a, ag_desc a)) aggs) = zlen aggs) by (intros f; unfold zlen; rewrite map_length; reflexivity).
    assert (IV : forall (f : agg -> Z) v, In v (map fst (map (fun a => (f a, ag_desc a)) aggs)) -> exists a, In a aggs /\ v = f a).
    { intros f v Hv. rewrite map_map in Hv. cbn [fst] in Hv. apply in_map_iff in Hv. destruct Hv as (a & <- & Ha). eauto. }
    assert (HH : forall v, In v (map fst (map (fun a => (ag_range a, ag_desc a)) aggs)) -> plus_minus v ([194; 177] ++ display (half v))).
    { intros v Hv. apply IV in Hv. destruct Hv as (a & Ha & ->). specialize (AP _ Ha). specialize (AB _ Ha). cbv beta in AP, AB. exists (display (half (ag_range a))). split; [apply half_text; [lia|apply HD, Ha]|reflexivity]. }
    exists t1, t2, t3, t4, (duration_lines ties (str "Smallest") (r_small_dur r)), (duration_lines ties (str "Largest") (r_large_dur r)), (variance_lines ties display (str "Smallest") (r_small_var r)), (variance_lines ties display (str "Largest") (r_large_var r)).
    split; [reflexivity|]. split; [exact S1|]. split.
    { rewrite <- (ZL ag_min) in D1, LA |- *. apply (table_text ties (str "Smallest") (str "durations") (fun v t => numeral t v) decimal _ _ _ LA) in D1; [exact D1| |].
      - intros v x K. apply S1 in K. destruct K as (K1 & _ & K2). auto.
      - intros v Hv. apply IV in Hv. destruct Hv as (a & Ha & ->). apply decimal_numeral. specialize (AP _ Ha). cbv beta in AP. lia. }
    split; [exact S2|]. split.
    { rewrite <- (ZL (fun a => ag_min a + ag_range a)) in D2, LA |- *. apply (table_text ties (str "Largest") (str "durations") (fun v t => numeral t v) decimal _ _ _ LA) in D2; [exact D2| |].
      - intros v x K. apply S2 in K. destruct K as (K1 & _ & K2). auto.
      - intros v Hv. apply (IV (fun a => ag_min a + ag_range a)) in Hv. destruct Hv as (a & Ha & ->). apply decimal_numeral. specialize (AP _ Ha). cbv beta in AP. lia. }
    split; [exact S3|]. split.
    { rewrite <- (ZL ag_range) in D3, LA |- *. apply (table_text ties (str "Smallest") (str "variances") plus_minus (fun v => [194; 177] ++ display (half v)) _ _ _ LA) in D3; [exact D3| |exact HH].
      intros v x K. apply S3 in K. destruct K as (K1 & _ & K2). auto. }
    split; [exact S4|].
    rewrite <- (ZL ag_range) in D4, LA |- *. apply (table_text ties (str "Largest") (str "variances") plus_minus (fun v => [194; 177] ++ display (half v)) _ _ _ LA) in D4; [exact D4| |exact HH].
    intros v x K. apply S4 in K. destruct K as (K1 & _ & K2). auto.
Qed.
(** Every exact text of a half satisfies the contract, and no other text does. *)
Theorem C67_half : forall k txt, 0 <= k < 2 ^ 53 -> displays (half k) txt <-> exact_half k txt.
Proof. exact displays_half. Qed.
Definition agg_display (x : f64) : bytes := if Beqb x (half 3) then str "1.5" else if Beqb x (half 5) then str "2.5" else str "3".
Lemma half_example k i t : 0 <= k < 2 ^ 53 -> numeral i (k / 2) -> t = (if Z.even k then i else i ++ str ".5") -> displays (half k) t.
Proof. intros H N ->. apply displays_half; [exact H|]. exists i. auto. Qed.
Example C67_example :
  Forall (fun k => displays (half k) (agg_display (half k))) [3; 5; 6] /\
  aggregate_prints true agg_display true
    [[mkEv (str "Query") (str "q") [str "x"; str "y"] (Timestamp (Interval 10 14)) 1; mkEv (str "Link") (str "a") [] (Timestamp (Interval 0 30)) 1];
     [mkEv (str "Query") (str "q") [str "x"; str "y"] (Timestamp (Interval 5 12)) 7; mkEv (str "Link") (str "a") [] (Timestamp (Interval 0 22)) 7]]
    (Ok (lines [str "Smallest 3 durations:"; str "  4 ns: `q(x, y)`"; str "  5 ns: in Link `a()`, before `q(x, y)`"; str "  10 ns: in Link `a()`, after `q(x, y)`"; str "";
                str "Largest 3 durations:"; str "  7 ns: `q(x, y)`"; str "  10 ns: in Link `a()`, before `q(x, y)`"; str "  16 ns: in Link `a()`, after `q(x, y)`"; str "";
                str "Smallest 3 variances:"; str "  ±1.5 ns: `q(x, y)`"; str "  ±2.5 ns: in Link `a()`, before `q(x, y)`"; str "  ±3 ns: in Link `a()`, after `q(x, y)`"; str "";
                str "Largest 3 variances:"; str "  ±1.5 ns: `q(x, y)`"; str "  ±2.5 ns: in Link `a()`, before `q(x, y)`"; str "  ±3 ns: in Link `a()`, after `q(x, y)`"])).
Proof.
  split.
  - constructor; [|constructor; [|constructor; [|constructor]]].
    + apply (half_example 3 [49]); [lia|apply (decimal_numeral 1); lia|vm_compute; reflexivity].
    + apply (half_example 5 [50]); [lia|apply (decimal_numeral 2); lia|vm_compute; reflexivity].
    + apply (half_example 6 [51]); [lia|apply (decimal_numeral 3); lia|vm_compute; reflexivity].
  - eexists. split.
    + eapply (eq_rect (do t <- foldM (agg_step true) _ _; print_report t)); [eapply ap_ok; [reflexivity|]; repeat (eapply dr_step; [reflexivity|]); constructor; reflexivity|]. reflexivity.
    + vm_compute. reflexivity.
Qed.
