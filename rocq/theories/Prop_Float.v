(** C60, C61: the percentages of the diff and of the summary. *)
From Coq Require Import ZArith Reals List Lia Lra Bool Permutation Sorted.
From Flocq Require Import Core BinarySingleNaN Relative.
From Verif Require Import M_Base F_Base M_Map M_Analysis S_Analysis M_Diff S_Diff M_Summarize S_Summarize F_Diff Prop_Summarize M_Float S_Float.
Import ListNotations.
Open Scope R_scope.

(** ** Rounding *)
Definition rnd (x : R) : R := round radix2 (FLT_exp (-1074) 53) ZnearestE x.
Lemma rnd_le x y : x <= y -> rnd x <= rnd y.
Proof. intros H. apply round_le; auto. apply FLT_exp_valid. reflexivity. apply valid_rnd_N. Qed.
Lemma rnd_opp x : rnd (- x) = - rnd x.
Proof. apply round_NE_opp. Qed.
Lemma rnd_int z : (Z.abs z < 2 ^ 53)%Z -> rnd (IZR z) = IZR z.
Proof. intros Hz. apply round_generic; [apply valid_rnd_N|]. apply generic_format_FLT. exists (Float radix2 z 0); unfold F2R; cbn [Fnum Fexp]; [cbn; lra|exact Hz|lia]. Qed.
Lemma rnd_bpow e : (-1074 <= e)%Z -> rnd (bpow radix2 e) = bpow radix2 e.
Proof. intros H. apply round_generic; [apply valid_rnd_N|]. apply generic_format_bpow. unfold FLT_exp. lia. Qed.
Lemma rnd_0 : rnd 0 = 0.
Proof. apply (rnd_int 0). reflexivity. Qed.
Lemma rnd_abs_le x e : (-1074 <= e)%Z -> Rabs x <= bpow radix2 e -> Rabs (rnd x) <= bpow radix2 e.
Proof.
  intros He H. apply Rabs_le. apply Rabs_le_inv in H. split.
  - rewrite <- (rnd_bpow e He), <- rnd_opp. apply rnd_le. lra.
  - rewrite <- (rnd_bpow e He). apply rnd_le. lra.
Qed.
Lemma rnd_pos z : (0 < z)%Z -> 1 <= rnd (IZR z).
Proof. intros H. rewrite <- (rnd_int 1) by reflexivity. apply rnd_le, IZR_le. lia. Qed.
Definition big : R := bpow radix2 200.
Lemma rnd_rel x : bpow radix2 (-1000) <= Rabs x -> exists eps, Rabs eps <= / 2 ^ 53 /\ rnd x = x * (1 + eps).
Proof.
  intros H. destruct (relative_error_N_FLT_ex radix2 (-1074) 53 eq_refl (fun x => negb (Z.even x)) x) as (eps & H1 & H2).
  - eapply Rle_trans; [|exact H]. apply bpow_le. lia.
  - exists eps. split; [|exact H2]. eapply Rle_trans; [exact H1|]. change (bpow radix2 (- (53) + 1)) with (/ IZR 4503599627370496). replace (2 ^ 53) with (IZR 9007199254740992) by (symmetry; apply (pow_IZR 2 53)). lra.
Qed.
Lemma over x : Rabs x <= bpow radix2 300 -> Rlt_bool (Rabs x) (bpow radix2 1024) = true.
Proof. intros H. apply Rlt_bool_true. eapply Rle_lt_trans; [exact H|]. apply bpow_lt. lia. Qed.
(** ** The machine operations without overflow *)
Lemma abs_int z e : (0 <= e)%Z -> (Z.abs z <= 2 ^ e)%Z -> Rabs (IZR z) <= bpow radix2 e.
Proof. intros He H. rewrite <- abs_IZR. change 2%Z with (radix_val radix2) in H. rewrite <- IZR_Zpower by auto. apply IZR_le. exact H. Qed.
Lemma of_int_ok z : (Z.abs z <= 2 ^ 100)%Z -> B2R (of_int z) = rnd (IZR z) /\ is_finite (of_int z) = true /\ Bsign (of_int z) = (z <? 0)%Z.
Proof.
  intros H. pose proof (binary_normalize_correct 53 1024 prec_pos prec_small mode_NE z 0 false) as K. cbv zeta in K.
  assert (E : F2R (Float radix2 z 0) = IZR z) by (unfold F2R; cbn; lra). rewrite E in K.
  change (round radix2 (SpecFloat.fexp 53 1024) (round_mode mode_NE) (IZR z)) with (rnd (IZR z)) in K.
  rewrite over in K. destruct K as (K1 & K2 & K3). split; [exact K1|]. split; [exact K2|]. unfold of_int. rewrite K3. change 0 with (IZR 0) at 1. rewrite Rcompare_IZR.
  - destruct (Z.compare_spec z 0); symmetry; [apply Z.ltb_ge|apply Z.ltb_lt|apply Z.ltb_ge]; lia.
  - apply rnd_abs_le; [lia|]. apply Rle_trans with (bpow radix2 100); [|apply bpow_le; lia]. apply abs_int; [lia|exact H].
Qed.
Lemma div_ok x y : is_finite x = true -> is_finite y = true -> 1 <= B2R y -> Rabs (B2R x) <= bpow radix2 100 ->
  B2R (f64_div x y) = rnd (B2R x / B2R y) /\ is_finite (f64_div x y) = true /\ Rabs (B2R (f64_div x y)) <= bpow radix2 100.
Proof.
  intros Fx Fy Hy Hx. pose proof (Bdiv_correct 53 1024 prec_pos prec_small mode_NE x y) as K.
  assert (Q : Rabs (B2R x / B2R y) <= bpow radix2 100).
  { unfold Rdiv. rewrite Rabs_mult. rewrite (Rabs_pos_eq (/ B2R y)) by (apply Rlt_le, Rinv_0_lt_compat; lra). apply Rle_trans with (Rabs (B2R x) * 1); [|lra]. apply Rmult_le_compat_l; [apply Rabs_pos|]. rewrite <- Rinv_1. apply Rinv_le; lra. }
  assert (Q' : Rabs (rnd (B2R x / B2R y)) <= bpow radix2 100) by (apply rnd_abs_le; [lia|exact Q]).
  change (round radix2 (SpecFloat.fexp 53 1024) (round_mode mode_NE) (B2R x / B2R y)) with (rnd (B2R x / B2R y)) in K.
  rewrite over in K by (eapply Rle_trans; [exact Q'|apply bpow_le; lia]). destruct K as (K1 & K2 & _); [lra|]. unfold f64_div. rewrite K1, K2. auto.
Qed.
Lemma hundred : B2R (of_int 100) = 100 /\ is_finite (of_int 100) = true.
Proof. destruct (of_int_ok 100) as (A & B & _); [lia|]. rewrite A, B. split; auto. apply rnd_int. reflexivity. Qed.
Lemma mul_ok x : is_finite x = true -> Rabs (B2R x) <= bpow radix2 100 -> B2R (f64_mul x (of_int 100)) = rnd (B2R x * 100) /\ is_finite (f64_mul x (of_int 100)) = true.
Proof.
  intros Fx Hx. pose proof (Bmult_correct 53 1024 prec_pos prec_small mode_NE x (of_int 100)) as K. destruct hundred as (A & B). rewrite A, B, Fx in K.
  change (round radix2 (SpecFloat.fexp 53 1024) (round_mode mode_NE) (B2R x * 100)) with (rnd (B2R x * 100)) in K.
  assert (Q : Rabs (rnd (B2R x * 100)) <= bpow radix2 107).
  { apply rnd_abs_le; [lia|]. rewrite Rabs_mult, (Rabs_pos_eq 100) by lra. change 107%Z with (100 + 7)%Z. rewrite bpow_plus. apply Rmult_le_compat; [apply Rabs_pos|lra|exact Hx|change (bpow radix2 7) with 128; lra]. }
  rewrite over in K by (eapply Rle_trans; [exact Q|apply bpow_le; lia]). destruct K as (K1 & K2 & _). unfold f64_mul. auto.
Qed.
(** The quotient of two numbers of nanoseconds, in percent: the real computation with four roundings *)
Definition pct (n b : Z) : R := rnd (rnd (rnd (IZR n) / rnd (IZR b)) * 100).
Lemma percent_ok n b : (Z.abs n < 2 ^ 100)%Z -> (0 < b < 2 ^ 100)%Z -> B2R (percent_of b n) = pct n b /\ is_finite (percent_of b n) = true.
Proof.
  intros Hn Hb. destruct (of_int_ok n) as (N1 & N2 & _); [lia|]. destruct (of_int_ok b) as (B1 & B2 & _); [lia|].
  destruct (div_ok (of_int n) (of_int b)) as (D1 & D2 & D3); auto.
  - rewrite B1. apply rnd_pos. lia.
  - rewrite N1. apply rnd_abs_le; [lia|]. apply abs_int; lia.
  - destruct (mul_ok _ D2 D3) as (M1 & M2). unfold percent_of. rewrite M1, D1, N1, B1. auto.
Qed.
Lemma pct_0 b : pct 0 b = 0.
Proof. unfold pct. rewrite rnd_0. unfold Rdiv. rewrite Rmult_0_l, rnd_0, Rmult_0_l. apply rnd_0. Qed.
(** ** The error of four roundings *)
Lemma eps_div d : Rabs d <= / 2 ^ 53 -> exists e, Rabs e <= / 2 ^ 52 /\ / (1 + d) = 1 + e.
Proof.
  replace (2 ^ 53) with (IZR 9007199254740992) by (symmetry; apply (pow_IZR 2 53)). replace (2 ^ 52) with (IZR 4503599627370496) by (symmetry; apply (pow_IZR 2 52)). intros H. apply Rabs_le_inv in H.
  assert (P : 0 < 1 + d) by lra. exists (- d / (1 + d)). split; [|field; lra].
  unfold Rdiv. rewrite Rabs_mult, Rabs_Ropp. rewrite (Rabs_pos_eq (/ (1 + d))) by (apply Rlt_le, Rinv_0_lt_compat; auto).
  apply Rle_trans with (/ IZR 9007199254740992 * 2); [|lra]. apply Rmult_le_compat; [apply Rabs_pos|apply Rlt_le, Rinv_0_lt_compat; auto|apply Rabs_le; lra|].
  replace 2 with (/ / 2) by lra. apply Rinv_le; lra.
Qed.
Lemma eps_mul a b u v w : Rabs a <= u -> Rabs b <= v -> u + v + u * v <= w -> exists e, Rabs e <= w /\ (1 + a) * (1 + b) = 1 + e.
Proof.
  intros Ha Hb H. exists (a + b + a * b). split; [|ring]. pose proof (Rabs_pos a). pose proof (Rabs_pos b). apply Rle_trans with (u + v + u * v); [|exact H].
  eapply Rle_trans; [apply Rabs_triang|]. apply Rplus_le_compat; [eapply Rle_trans; [apply Rabs_triang|]; lra|]. rewrite Rabs_mult. apply Rmult_le_compat; auto.
Qed.
Lemma lower_bound x : bpow radix2 (-500) <= Rabs x -> bpow radix2 (-1000) <= Rabs x.
Proof. intros H. eapply Rle_trans; [|exact H]. apply bpow_le. lia. Qed.
Lemma pct_rel n b : n <> 0%Z -> (Z.abs n < 2 ^ 100)%Z -> (0 < b < 2 ^ 100)%Z -> exists eps, Rabs eps <= / 2 ^ 50 /\ pct n b = 100 * IZR n / IZR b * (1 + eps).
Proof.
  intros N Hn Hb.
  assert (AN : 1 <= Rabs (IZR n)) by (rewrite <- abs_IZR; apply IZR_le; lia).
  assert (AB : 1 <= IZR b) by (apply IZR_le; lia).
  assert (BB : IZR b <= bpow radix2 100) by (rewrite <- (Rabs_pos_eq (IZR b)) by lra; apply abs_int; lia).
  destruct (rnd_rel (IZR n)) as (e1 & E1 & R1); [apply lower_bound; apply Rle_trans with (bpow radix2 0); [apply bpow_le; lia|exact AN]|].
  destruct (rnd_rel (IZR b)) as (e2 & E2 & R2); [apply lower_bound; apply Rle_trans with (bpow radix2 0); [apply bpow_le; lia|rewrite Rabs_pos_eq by lra; exact AB]|].
  destruct (eps_div e2 E2) as (e2' & E2' & R2').
  assert (K53 : 2 ^ 53 = IZR 9007199254740992) by (apply (pow_IZR 2 53)). assert (K52 : 2 ^ 52 = IZR 4503599627370496) by (apply (pow_IZR 2 52)). assert (K50 : 2 ^ 50 = IZR 1125899906842624) by (apply (pow_IZR 2 50)).
  rewrite K53, ?K52, ?K50 in *.
  destruct (eps_mul e1 e2' _ _ (/ IZR 3000000000000000) E1 E2') as (f1 & F1 & S1); [lra|].
  assert (Q : rnd (IZR n) / rnd (IZR b) = IZR n / IZR b * (1 + f1)).
  { rewrite R1, R2. unfold Rdiv. rewrite Rinv_mult. rewrite R2', <- S1. ring. }
  assert (AQ : bpow radix2 (-100) <= Rabs (IZR n / IZR b)).
  { unfold Rdiv. rewrite Rabs_mult. rewrite (Rabs_pos_eq (/ IZR b)) by (apply Rlt_le, Rinv_0_lt_compat; lra). change (-100)%Z with (- (100))%Z. rewrite bpow_opp. rewrite <- (Rmult_1_l (/ bpow radix2 100)). apply Rmult_le_compat; [lra| |exact AN|]; [apply Rlt_le, Rinv_0_lt_compat, bpow_gt_0|apply Rinv_le; lra]. }
  assert (HF : forall f, Rabs f <= / 2 -> / 2 <= Rabs (1 + f)) by (intros f Hf; apply Rabs_le_inv in Hf; rewrite Rabs_pos_eq; lra).
  assert (AQ2 : bpow radix2 (-101) <= Rabs (IZR n / IZR b * (1 + f1))).
  { rewrite Rabs_mult. change (-101)%Z with (-100 + -1)%Z. rewrite bpow_plus. apply Rmult_le_compat; [apply bpow_ge_0|apply bpow_ge_0|exact AQ|]. apply HF. lra. }
  destruct (rnd_rel (IZR n / IZR b * (1 + f1))) as (e3 & E3 & R3); [apply lower_bound; eapply Rle_trans; [|exact AQ2]; apply bpow_le; lia|].
  rewrite K53 in E3. destruct (eps_mul f1 e3 _ _ (/ IZR 2000000000000000) F1 E3) as (f2 & F2 & S2); [lra|].
  assert (Q2 : rnd (rnd (IZR n) / rnd (IZR b)) = IZR n / IZR b * (1 + f2)) by (rewrite Q, R3, <- S2; ring).
  assert (AQ3 : bpow radix2 (-101) <= Rabs (IZR n / IZR b * (1 + f2) * 100)).
  { rewrite Rmult_assoc, Rabs_mult. change (-101)%Z with (-100 + -1)%Z. rewrite bpow_plus. apply Rmult_le_compat; [apply bpow_ge_0|apply bpow_ge_0|exact AQ|]. rewrite Rabs_mult, (Rabs_pos_eq 100) by lra. assert (/ 2 <= Rabs (1 + f2)) by (apply HF; lra). change (bpow radix2 (-1)) with (/ 2). lra. }
  destruct (rnd_rel (IZR n / IZR b * (1 + f2) * 100)) as (e4 & E4 & R4); [apply lower_bound; eapply Rle_trans; [|exact AQ3]; apply bpow_le; lia|].
  rewrite K53 in E4. destruct (eps_mul f2 e4 _ _ (/ IZR 1125899906842624) F2 E4) as (f3 & F3 & S3); [lra|].
  exists f3. split; [exact F3|]. unfold pct. rewrite Q2, R4, <- S3. unfold Rdiv. ring.
Qed.
Lemma pct_le n m b : (0 < b)%Z -> (n <= m)%Z -> pct n b <= pct m b.
Proof.
  intros Hb H. pose proof (rnd_pos b Hb). apply rnd_le. apply Rmult_le_compat_r; [lra|]. apply rnd_le. apply Rmult_le_compat_r; [apply Rlt_le, Rinv_0_lt_compat; lra|]. apply rnd_le, IZR_le, H.
Qed.
Lemma pct_whole b : (0 < b)%Z -> pct b b = 100.
Proof. intros Hb. pose proof (rnd_pos b Hb). unfold pct, Rdiv. rewrite Rinv_r by lra. rewrite (rnd_int 1) by reflexivity. rewrite Rmult_1_l. apply (rnd_int 100). reflexivity. Qed.
Lemma pct_minus b : (0 < b)%Z -> pct (- b) b = -100.
Proof. intros Hb. pose proof (rnd_pos b Hb). unfold pct, Rdiv. rewrite opp_IZR, rnd_opp, Ropp_mult_distr_l_reverse, Rinv_r by lra. replace (- (1)) with (IZR (-1)) by lra. rewrite (rnd_int (-1)) by reflexivity. replace (-1 * 100) with (-100) by lra. apply (rnd_int (-100)). reflexivity. Qed.
Lemma pct_pos n b : (0 < n < 2 ^ 100)%Z -> (0 < b < 2 ^ 100)%Z -> 0 < pct n b.
Proof.
  intros Hn Hb. destruct (pct_rel n b) as (e & E & ->); [lia|lia|lia|]. rewrite (pow_IZR 2 50) in E. change (IZR (2 ^ Z.of_nat 50)) with (IZR 1125899906842624) in E. apply Rabs_le_inv in E.
  assert (0 < IZR n) by (apply IZR_lt; lia). assert (0 < IZR b) by (apply IZR_lt; lia). apply Rmult_lt_0_compat; [|lra]. apply Rmult_lt_0_compat; [lra|]. apply Rinv_0_lt_compat; auto.
Qed.
Lemma pct_neg n b : (- 2 ^ 100 < n < 0)%Z -> (0 < b < 2 ^ 100)%Z -> pct n b < 0.
Proof.
  intros Hn Hb. replace n with (- - n)%Z by lia. assert (K : pct (- - n) b = - pct (- n) b).
  { unfold pct. rewrite opp_IZR, rnd_opp. unfold Rdiv. rewrite Ropp_mult_distr_l_reverse, rnd_opp, Ropp_mult_distr_l_reverse. apply rnd_opp. }
  rewrite K. pose proof (pct_pos (- n) b). assert (0 < pct (- n) b) by (apply H; lia). lra.
Qed.
Lemma percent_shows n b : (Z.abs n < 2 ^ 100)%Z -> (0 < b < 2 ^ 100)%Z -> shows (percent_of b n) (100 * IZR n / IZR b).
Proof.
  intros Hn Hb. destruct (percent_ok n b Hn Hb) as (E & F). split; [exact F|]. rewrite E. destruct (Z.eq_dec n 0) as [->|N].
  - rewrite pct_0. unfold Rdiv. rewrite Rmult_0_r, Rmult_0_l, Rminus_0_r, Rabs_R0. lra.
  - destruct (pct_rel n b N Hn Hb) as (e & HE & ->). replace (100 * IZR n / IZR b * (1 + e) - 100 * IZR n / IZR b) with (e * (100 * IZR n / IZR b)) by ring. rewrite Rabs_mult. apply Rmult_le_compat_r; [apply Rabs_pos|exact HE].
Qed.
Lemma duration_bound d : is_duration d -> (0 <= d < 2 ^ 100)%Z.
Proof. unfold is_duration. lia. Qed.
Lemma of_int_positive n : (0 < n < 2 ^ 100)%Z -> exists m e H, of_int n = B754_finite false m e H.
Proof.
  intros Hn. destruct (of_int_ok n) as (A & B & C); [lia|]. pose proof (rnd_pos n ltac:(lia)) as P. rewrite <- A in P. replace (n <? 0)%Z with false in C by (symmetry; apply Z.ltb_ge; lia).
  destruct (of_int n) as [s|s| |s m e H]; cbn in P, B, C; try discriminate; try lra. subst s. eauto.
Qed.
(** ** Division by zero *)
Lemma percent_nan : is_nan (percent_of 0 0) = true.
Proof. vm_compute. reflexivity. Qed.
Lemma percent_inf n : (0 < n < 2 ^ 100)%Z -> percent_of 0 n = f64_infinity.
Proof. intros Hn. unfold percent_of. destruct (of_int_positive n Hn) as (m & e & H & ->). destruct (of_int_positive 100) as (m' & e' & H' & ->); [lia|]. reflexivity. Qed.
(** ** C60 *)
Theorem C60_diff_percent : forall field base change l,
  Forall (fun q => is_duration (field q)) base -> Forall (fun q => is_duration (field q)) change ->
  In l (map q_label base ++ map q_label change) ->
  exists x, row_percent field base change l = Ok x /\
  match entry q_label base l, entry q_label change l with
  | Some b, Some c =>
      ((0 < field b)%Z -> shows x (change_in_percent (field b) (field c)) /\ -100 <= B2R x /\
         (B2R x < 0 <-> (field c < field b)%Z) /\ (B2R x = 0 <-> field c = field b) /\ (B2R x > 0 <-> (field c > field b)%Z) /\
         (field c = 0%Z -> B2R x = -100)) /\
      (field b = 0%Z -> (0 < field c)%Z -> x = B754_infinity false) /\
      (field b = 0%Z -> field c = 0%Z -> x = B754_nan)
  | Some b, None => is_finite x = true /\ B2R x = -100
  | None, Some c => x = B754_infinity false
  | None, None => False
  end.
Proof.
  intros field base change l Fb Fc HI. unfold row_percent. rewrite !lookup_entry. cbn [bind].
  assert (KE : forall data (b : qdata), entry q_label data l = Some b -> Forall (fun q => is_duration (field q)) data -> (0 <= field b < 2 ^ 100)%Z).
  { intros data b E F. unfold entry in E. apply find_some in E. destruct E as (E & _). apply in_rev in E. rewrite Forall_forall in F. apply duration_bound, F, E. }
  destruct (entry q_label base l) as [b|] eqn:EB; destruct (entry q_label change l) as [c|] eqn:EC; try (eexists; split; [reflexivity|]).
  - pose proof (KE _ _ EB Fb) as HB. pose proof (KE _ _ EC Fc) as HC. change (percentage_change (field b) (field c)) with (percent_of (field b) (field c - field b)). split; [|split].
    + intros HP. assert (HN : (Z.abs (field c - field b) < 2 ^ 100)%Z) by lia. assert (HB' : (0 < field b < 2 ^ 100)%Z) by lia. destruct (percent_ok _ _ HN HB') as (E & _). split; [|rewrite E; split; [|]].
      * unfold change_in_percent. rewrite <- minus_IZR. apply percent_shows; auto.
      * rewrite <- (pct_minus (field b) HP). apply pct_le; [auto|lia].
      * destruct (Z.lt_total (field c) (field b)) as [H|[H|H]].
        -- assert (K : pct (field c - field b) (field b) < 0) by (apply pct_neg; lia). split; [|split; [|split]]; [split; [lia|lra]|split; [lra|lia]|split; [lra|lia]|]. intros E0. rewrite E0. apply pct_minus. auto.
        -- rewrite H, Z.sub_diag, pct_0. split; [|split; [|split]]; [split; [lra|lia]|split; auto|split; [lra|lia]|lia].
        -- assert (K : 0 < pct (field c - field b) (field b)) by (apply pct_pos; lia). split; [|split; [|split]]; [split; [lra|lia]|split; [lra|lia]|split; [lia|lra]|lia].
    + intros -> HP. apply percent_inf. lia.
    + intros -> ->. vm_compute. reflexivity.
  - destruct (of_int_ok (-100)) as (A & B & _); [lia|]. split; [exact B|]. rewrite A. apply (rnd_int (-100)). reflexivity.
  - reflexivity.
  - exfalso. unfold entry in EB, EC. apply in_app_iff in HI. rewrite !in_map_iff in HI. destruct HI as [(q & E & HI)|(q & E & HI)]; apply in_rev in HI; [eapply find_none in EB|eapply find_none in EC]; eauto; cbn in *; subst; rewrite (proj2 (beq_true _ _)) in * by auto; discriminate.
Qed.
Print Assumptions C60_diff_percent.
(** A query whose time is zero in both profiles shows NaN, not 0%. *)
Example C60_example : forall l, let q t := mkQ l t t 0 0 1 0 0 0 in
  row_percent q_time [q 0%Z] [q 0%Z] l = Ok B754_nan /\
  exists x, row_percent q_time [q 3%Z] [q 5%Z] l = Ok x /\ is_finite x = true /\ Rabs (B2R x - 200 / 3) <= / 2 ^ 50 * (200 / 3).
Proof.
  intros l q. split.
  - unfold row_percent. rewrite !lookup_entry. cbn [bind]. unfold entry. cbn [rev app find]. rewrite !(proj2 (beq_true _ _)) by reflexivity. reflexivity.
  - destruct (C60_diff_percent q_time [q 3%Z] [q 5%Z] l) as (x & E & H).
    + repeat constructor; unfold is_duration; cbn; lia.
    + repeat constructor; unfold is_duration; cbn; lia.
    + left. reflexivity.
    + exists x. split; [exact E|]. unfold entry in H. cbn [rev app find] in H. rewrite !(proj2 (beq_true _ _)) in H by reflexivity. cbn [q_time q] in H. destruct H as (H & _). destruct H as ((F & H) & _); [lia|]. split; [exact F|].
      unfold change_in_percent in H. replace (100 * (5 - 3) / 3) with (200 / 3) in H by lra. rewrite (Rabs_pos_eq (200 / 3)) in H by lra. exact H.
Qed.

(** ** C61: the percentages of the summary *)
Lemma f64_lt_ok x y : is_finite x = true -> is_finite y = true -> f64_lt x y = true <-> B2R x < B2R y.
Proof. intros Fx Fy. unfold f64_lt. rewrite Bltb_correct by auto. destruct (Rlt_bool_spec (B2R x) (B2R y)); split; auto; try discriminate; lra. Qed.
Lemma f64_lt_nan_r x : f64_lt x B754_nan = false.
Proof. destruct x as [| | |]; reflexivity. Qed.
Lemma f64_lt_nan_l x : f64_lt B754_nan x = false.
Proof. destruct x as [| | |]; reflexivity. Qed.
Lemma f64_lt_inf x : is_finite x = true -> f64_lt f64_infinity x = false.
Proof. destruct x as [s|s| |s m e H]; try discriminate; intros _; destruct s; reflexivity. Qed.
Lemma zero_ok : B2R (of_int 0) = 0 /\ is_finite (of_int 0) = true.
Proof. split; reflexivity. Qed.
(** The command is refused unless the threshold is a number between 0 and 100, or not a number. *)
Theorem C61_threshold : forall p r, summarize_main p r <> None <-> p = B754_nan \/ is_finite p = true /\ 0 <= B2R p <= 100.
Proof.
  intros p r. unfold summarize_main. destruct hundred as (H1 & H2). destruct zero_ok as (Z1 & Z2). destruct (is_finite p) eqn:FP.
  - pose proof (f64_lt_ok (of_int 100) p H2 FP) as A. pose proof (f64_lt_ok p (of_int 0) FP Z2) as B. rewrite H1 in A. rewrite Z1 in B.
    destruct (f64_lt (of_int 100) p); [split; [congruence|]; intros [->|(_ & K)]; [discriminate|]; assert (100 < B2R p) by (apply A; auto); lra|].
    destruct (f64_lt p (of_int 0)); [split; [congruence|]; intros [->|(_ & K)]; [discriminate|]; assert (B2R p < 0) by (apply B; auto); lra|].
    split; [intros _; right; split; auto|intros _; discriminate]. split; apply Rnot_lt_le; intros K; [apply B in K|apply A in K]; discriminate.
  - destruct p as [s|s| |s m e H]; try discriminate.
    + split; [|intros [K|(K & _)]; discriminate]. destruct s; vm_compute; congruence.
    + rewrite f64_lt_nan_r, f64_lt_nan_l. split; auto. intros _. discriminate.
Qed.
(** The percentage of a row: the share of its self time in the total time. *)
Theorem C61_percent : forall total self, is_duration total -> is_duration self ->
  ((0 < total)%Z -> shows (percent_of total self) (share total self) /\ 0 <= B2R (percent_of total self) /\
     ((self <= total)%Z -> B2R (percent_of total self) <= 100) /\ (self = total -> B2R (percent_of total self) = 100) /\
     (forall self', is_duration self' -> (self <= self')%Z -> B2R (percent_of total self) <= B2R (percent_of total self'))) /\
  (total = 0%Z -> self = 0%Z -> percent_of total self = B754_nan) /\
  (total = 0%Z -> (0 < self)%Z -> percent_of total self = B754_infinity false).
Proof.
  intros total self Ht Hs. apply duration_bound in Ht, Hs. split; [|split].
  - intros HP. assert (A : (Z.abs self < 2 ^ 100)%Z) by lia. assert (B : (0 < total < 2 ^ 100)%Z) by lia. destruct (percent_ok _ _ A B) as (E & _). split; [apply percent_shows; auto|]. rewrite E. split; [|split; [|split]].
    + rewrite <- (pct_0 total). apply pct_le; lia.
    + intros H. rewrite <- (pct_whole total HP). apply pct_le; lia.
    + intros ->. apply pct_whole. auto.
    + intros self' Hs' H. apply duration_bound in Hs'. destruct (percent_ok self' total) as (E' & _); [lia|lia|]. rewrite E'. apply pct_le; lia.
  - intros -> ->. vm_compute. reflexivity.
  - intros -> H. apply percent_inf. lia.
Qed.
Lemma below_iff p total self : is_duration total -> is_duration self -> p = B754_nan \/ is_finite p = true ->
  below p total self = true <-> (0 < total)%Z /\ is_finite p = true /\ B2R (percent_of total self) < B2R p.
Proof.
  intros Ht Hs HP. unfold below. destruct HP as [->|FP].
  - rewrite f64_lt_nan_r. split; [discriminate|]. intros (_ & K & _). discriminate.
  - destruct (C61_percent total self Ht Hs) as (A & B & C). unfold is_duration in Ht, Hs. destruct (Z.eq_dec total 0) as [E|N].
    + destruct (Z.eq_dec self 0) as [E'|N']; [rewrite B, f64_lt_nan_l by auto|rewrite C by lia; pose proof (f64_lt_inf p FP) as K; unfold f64_infinity in K; rewrite K]; (split; [discriminate|lia]).
    + destruct A as ((F & _) & _); [lia|]. rewrite (f64_lt_ok _ _ F FP). split; [intros K; split; [lia|auto]|tauto].
Qed.
(** ** The sum of the percentages *)
Lemma account_fold p total l : (forall x y, is_duration x -> is_duration y -> (x <= y)%Z -> below p total y = true -> below p total x = true) ->
  descending q_self_time l -> Forall (fun q => is_duration (q_self_time q)) l ->
  forall acc, account p total acc l = fold_left (fun a q => f64_add a (percent_of total (q_self_time q))) (filter (fun q => negb (below p total (q_self_time q))) l) acc.
Proof.
  intros M S D. induction l as [|q l IH]; intros acc; [reflexivity|]. inversion S as [|? ? S1 S2]; subst. inversion D as [|? ? D1 D2]; subst. cbn [account filter]. destruct (below p total (q_self_time q)) eqn:B; cbn [negb fold_left]; [|apply IH; auto].
  replace (filter (fun q0 => negb (below p total (q_self_time q0))) l) with (@nil qdata); [reflexivity|]. clear IH S S1 D. induction l as [|x l IH]; [reflexivity|]. inversion S2; subst. inversion D2; subst. cbn [filter]. rewrite (M (q_self_time x) (q_self_time q)) by auto. cbn [negb]. apply IH; auto.
Qed.
Lemma rnd_rel' x : 0 <= x -> x = 0 \/ bpow radix2 (-500) <= x -> exists eps, Rabs eps <= / 2 ^ 53 /\ rnd x = x * (1 + eps).
Proof.
  intros P [->|H]; [exists 0; rewrite Rabs_R0, rnd_0; split; [|ring]; apply Rlt_le, Rinv_0_lt_compat, pow_lt; lra|]. apply rnd_rel, lower_bound. rewrite Rabs_pos_eq; auto.
Qed.
Lemma share_bounds total x : is_duration x -> (0 < total < 2 ^ 100)%Z -> 0 <= share total x <= bpow radix2 101 /\ (share total x = 0 \/ bpow radix2 (-100) <= share total x).
Proof.
  unfold is_duration, share. intros Hx Ht. assert (T1 : 1 <= IZR total) by (apply IZR_le; lia). assert (X1 : 0 <= IZR x) by (apply IZR_le; lia).
  assert (I : 0 < / IZR total <= 1) by (split; [apply Rinv_0_lt_compat; lra|rewrite <- Rinv_1; apply Rinv_le; lra]).
  split; [split|].
  - apply Rmult_le_pos; lra.
  - change 101%Z with (7 + 94)%Z. rewrite bpow_plus. apply Rle_trans with (100 * IZR x * 1); [apply Rmult_le_compat_l; lra|]. rewrite Rmult_1_r. apply Rmult_le_compat; [lra|lra|change (bpow radix2 7) with 128; lra|]. rewrite <- (Rabs_pos_eq (IZR x)) by lra. apply abs_int; lia.
  - destruct (Z.eq_dec x 0) as [->|N]; [left; unfold Rdiv; ring|right]. assert (X2 : 1 <= IZR x) by (apply IZR_le; lia). change (-100)%Z with (- (100))%Z. rewrite bpow_opp. rewrite <- (Rmult_1_l (/ bpow radix2 100)). unfold Rdiv. apply Rmult_le_compat; [lra|apply Rlt_le, Rinv_0_lt_compat, bpow_gt_0|lra|]. apply Rinv_le; [lra|]. rewrite <- (Rabs_pos_eq (IZR total)) by lra. apply abs_int; lia.
Qed.
Lemma shares_snoc total l x : shares total (l ++ [x]) = shares total l + share total x.
Proof. induction l as [|y l IH]; cbn [app shares fold_right]; [unfold shares; cbn; ring|]. fold (shares total (l ++ [x])). fold (shares total l). rewrite IH. ring. Qed.
Lemma sum_ok total l : is_duration total -> (0 < total)%Z -> Forall (fun q => is_duration (q_self_time q)) l -> (zlen l <= 2 ^ 50)%Z ->
  let x := fold_left (fun a q => f64_add a (percent_of total (q_self_time q))) l (of_int 0) in
  is_finite x = true /\ Rabs (B2R x - shares total (map q_self_time l)) <= (IZR (zlen l) + 8) / 2 ^ 52 * shares total (map q_self_time l).
Proof.
  intros Ht HT. apply duration_bound in Ht.
  enough (K : Forall (fun q => is_duration (q_self_time q)) l -> (zlen l <= 2 ^ 50)%Z ->
    let x := fold_left (fun a q => f64_add a (percent_of total (q_self_time q))) l (of_int 0) in
    let S := shares total (map q_self_time l) in
    is_finite x = true /\ 0 <= S <= IZR (zlen l) * bpow radix2 101 /\ (S = 0 \/ bpow radix2 (-100) <= S) /\
    exists a, Rabs a <= (IZR (zlen l) + 8) / 2 ^ 52 /\ B2R x = S * (1 + a)).
  { intros F Z. destruct (K F Z) as (K1 & K2 & _ & a & A & E). split; [exact K1|]. rewrite E. set (S := shares total (map q_self_time l)) in *. replace (S * (1 + a) - S) with (a * S) by ring. rewrite Rabs_mult, (Rabs_pos_eq S) by lra. apply Rmult_le_compat_r; [lra|exact A]. }
  assert (K52 : 2 ^ 52 = IZR 4503599627370496) by (apply (pow_IZR 2 52)). assert (K53 : 2 ^ 53 = IZR 9007199254740992) by (apply (pow_IZR 2 53)). assert (K50 : 2 ^ 50 = IZR 1125899906842624) by (apply (pow_IZR 2 50)).
  induction l as [|q l IH] using rev_ind; intros F Z; cbv zeta.
  - cbn [fold_left map shares fold_right]. split; [reflexivity|]. split; [change (zlen (@nil qdata)) with 0%Z; lra|]. split; [left; reflexivity|]. exists 0. split; [|unfold of_int; cbn; ring]. rewrite Rabs_R0, K52. change (zlen (@nil qdata)) with 0%Z. lra.
  - apply Forall_app in F. destruct F as (F & Fq). inversion Fq as [|? ? Dq _]; subst. assert (ZL : zlen (l ++ [q]) = (zlen l + 1)%Z) by (unfold zlen; rewrite app_length; cbn [length]; lia). pose proof (zlen_nonneg l) as ZP. rewrite ZL in *.
    destruct (IH F) as (I1 & I2 & I3 & a & A & E); [lia|]. clear IH. rewrite fold_left_app, map_app. cbn [fold_left map]. rewrite shares_snoc.
    set (x := fold_left (fun a q => f64_add a (percent_of total (q_self_time q))) l (of_int 0)) in *. set (S := shares total (map q_self_time l)) in *. set (s := share total (q_self_time q)).
    destruct (share_bounds total (q_self_time q) Dq) as (B1 & B2); [lia|]. fold s in B1, B2.
    assert (DB : (Z.abs (q_self_time q) < 2 ^ 100)%Z) by (apply duration_bound in Dq; lia).
    destruct (percent_shows (q_self_time q) total DB) as (P1 & P2); [lia|]. fold (share total (q_self_time q)) in P2. fold s in P2. set (y := percent_of total (q_self_time q)) in *.
    set (N := IZR (zlen l)) in *. assert (N0 : 0 <= N) by (apply IZR_le; lia). assert (N1 : N + 1 <= IZR 1125899906842624) by (unfold N; rewrite <- plus_IZR; apply IZR_le; lia). rewrite plus_IZR. fold N.
    rewrite (Rabs_pos_eq s) in P2 by lra. rewrite K50 in P2. rewrite K52 in A |- *.
    assert (SS : 0 <= S + s) by lra.
    assert (DX : Rabs (B2R x + B2R y - (S + s)) <= (N + 8) / IZR 4503599627370496 * (S + s)).
    { replace (B2R x + B2R y - (S + s)) with (a * S + (B2R y - s)) by (rewrite E; ring). eapply Rle_trans; [apply Rabs_triang|]. rewrite Rabs_mult, (Rabs_pos_eq S) by lra. rewrite Rmult_plus_distr_l. apply Rplus_le_compat; [apply Rmult_le_compat_r; lra|]. eapply Rle_trans; [exact P2|]. apply Rmult_le_compat_r; lra. }
    assert (AA : exists a', Rabs a' <= (N + 8) / IZR 4503599627370496 /\ B2R x + B2R y = (S + s) * (1 + a')).
    { destruct (Req_dec (S + s) 0) as [Z0|NZ].
      - exists 0. rewrite Rabs_R0. split; [lra|]. rewrite Z0 in DX |- *. rewrite Rmult_0_r, Rminus_0_r in DX. apply Rabs_le_inv in DX. lra.
      - exists ((B2R x + B2R y - (S + s)) / (S + s)). split; [|field; exact NZ]. unfold Rdiv at 1. rewrite Rabs_mult, (Rabs_pos_eq (/ (S + s))) by (apply Rlt_le, Rinv_0_lt_compat; lra). apply Rmult_le_reg_r with (S + s); [lra|]. rewrite Rmult_assoc, Rinv_l by exact NZ. rewrite Rmult_1_r. exact DX. }
    destruct AA as (a' & A' & E'). assert (A1 : Rabs a' <= / 2) by lra. apply Rabs_le_inv in A1 as A2.
    assert (BS : S + s <= (N + 1) * bpow radix2 101) by lra.
    assert (BX : 0 <= B2R x + B2R y <= bpow radix2 200).
    { rewrite E'. split; [apply Rmult_le_pos; lra|]. apply Rle_trans with ((N + 1) * bpow radix2 101 * 2); [apply Rmult_le_compat; lra|]. change 200%Z with (98 + 1 + 101)%Z. rewrite !bpow_plus. change (bpow radix2 1) with 2. pose proof (bpow_gt_0 radix2 101). assert (N + 1 <= bpow radix2 98) by (apply Rle_trans with (bpow radix2 50); [exact N1|apply bpow_le; lia]). nra. }
    destruct (rnd_rel' (B2R x + B2R y)) as (e & HE & RE); [lra| |].
    { destruct (Req_dec (S + s) 0) as [Z0|NZ]; [left; rewrite E', Z0; ring|right]. rewrite E'. apply Rle_trans with (bpow radix2 (-100 + -1)); [apply bpow_le; lia|]. rewrite bpow_plus. apply Rmult_le_compat; [apply bpow_ge_0|apply bpow_ge_0| |change (bpow radix2 (-1)) with (/ 2); lra].
      destruct I3 as [I3|I3]; destruct B2 as [B2|B2]; lra. }
    rewrite K53 in HE. pose proof (Bplus_correct 53 1024 prec_pos prec_small mode_NE x y I1 P1) as BP. change (round radix2 (SpecFloat.fexp 53 1024) (round_mode mode_NE) (B2R x + B2R y)) with (rnd (B2R x + B2R y)) in BP.
    rewrite over in BP. 2:{ apply rnd_abs_le; [lia|]. rewrite Rabs_pos_eq by lra. eapply Rle_trans; [exact (proj2 BX)|apply bpow_le; lia]. }
    destruct BP as (BP1 & BP2 & _). unfold f64_add. split; [exact BP2|]. split; [lra|]. split; [destruct I3 as [I3|I3]; destruct B2 as [B2|B2]; lra|].
    destruct (eps_mul a' e _ _ ((N + 1 + 8) / IZR 4503599627370496) A' HE) as (f & F1 & F2); [nra|]. exists f. split; [exact F1|]. rewrite BP1, RE, E', <- F2. ring.
Qed.
Lemma filter_all {A} f (l : list A) : Forall (fun x => f x = true) l -> filter f l = l.
Proof. intros H. induction H; cbn [filter]; [reflexivity|]. rewrite H, IHForall. reflexivity. Qed.
(** With an accepted threshold the table shows, in order of decreasing self time, exactly the rows whose
    percentage is not below it: all rows if the threshold is 0 or not a number or the total time is zero. *)
Theorem C61_rows : forall p r t a s, is_duration (total_time r) -> Forall (fun q => is_duration (q_self_time q)) (query_data r) ->
  summarize_main p r = Some (t, a, s) ->
  exists q shown, Permutation q (query_data r) /\ descending q_self_time q /\
    rows t = map (fun q => map (column_value q) (header t)) (filter shown q) /\
    (forall q, In q (query_data r) -> shown q = false <-> (0 < total_time r)%Z /\ is_finite p = true /\ B2R (percent_of (total_time r) (q_self_time q)) < B2R p) /\
    (p = B754_nan \/ total_time r = 0%Z \/ B2R p = 0 -> filter shown q = q) /\
    (s = None <-> is_finite p = true /\ B2R p = 0) /\
    (forall x, s = Some x -> (0 < total_time r)%Z -> (zlen (filter shown q) <= 2 ^ 50)%Z ->
       is_finite x = true /\ Rabs (B2R x - shares (total_time r) (map q_self_time (filter shown q))) <= (IZR (zlen (filter shown q)) + 8) / 2 ^ 52 * shares (total_time r) (map q_self_time (filter shown q))).
Proof.
  intros p r t a s Ht Hq E. assert (HP : p = B754_nan \/ is_finite p = true /\ 0 <= B2R p <= 100) by (apply (C61_threshold p r); rewrite E; discriminate).
  assert (HP' : p = B754_nan \/ is_finite p = true) by tauto.
  set (total := total_time r) in *. set (clamp := fun x => Z.max 0 (Z.min x (2 ^ 64 * 10 ^ 9 - 1))).
  assert (CD : forall x, is_duration (clamp x)) by (intros x; unfold clamp, is_duration; lia).
  assert (CI : forall x, is_duration x -> clamp x = x) by (intros x; unfold clamp, is_duration; lia).
  assert (MB : forall x y, is_duration x -> is_duration y -> (x <= y)%Z -> below p total y = true -> below p total x = true).
  { intros x y Hx Hy Hxy. rewrite !below_iff by auto. intros (P & F & L). split; auto. split; auto. destruct (C61_percent total x Ht Hx) as (K & _). destruct (K P) as (_ & _ & _ & _ & M). specialize (M y Hy Hxy). lra. }
  set (q := sort_desc q_self_time (query_data r)). assert (PQ : Permutation q (query_data r)) by apply sort_desc_perm. assert (SQ : descending q_self_time q) by apply sort_desc_sorted.
  assert (DQ : Forall (fun q => is_duration (q_self_time q)) q) by (eapply Permutation_Forall; [apply Permutation_sym; exact PQ|exact Hq]).
  assert (ES : summarize (below p total) r = summarize (fun x => below p total (clamp x)) r).
  { unfold summarize. fold q. f_equal. f_equal. generalize (set_flags (mkFlags false false false false) q). clear -DQ CI. induction DQ as [|x l Hx DQ IH]; intros f; [reflexivity|]. cbn [summary_rows]. rewrite (CI _ Hx), IH. reflexivity. }
  destruct (C43_rows (fun x => below p total (clamp x)) r) as (q' & _ & _ & _).
  { intros x y Hxy. apply MB; auto. unfold clamp. lia. }
  unfold summarize_main in E. fold total in E. destruct (f64_lt (of_int 100) p); [discriminate|]. destruct (f64_lt p (of_int 0)); [discriminate|]. remember (if f64_ne p (of_int 0) then Some (account p total (of_int 0) (sort_desc q_self_time (query_data r))) else None) as o eqn:E2. symmetry in E2. remember (summarize (below p total) r) as sm eqn:ET. destruct sm as (t1, a1). injection E as -> -> ->. apply (f_equal fst) in ET. cbn [fst] in ET.
  exists q, (fun q => negb (below p total (q_self_time q))). split; [exact PQ|]. split; [exact SQ|].
  assert (RT : rows t = map (fun q => map (column_value q) (header t)) (filter (fun q => negb (below p total (q_self_time q))) q)).
  { apply (f_equal fst) in ES. cbn [fst] in ES. rewrite ES. unfold summarize. cbn [fst rows header]. fold q.
    rewrite (summary_rows_filter _ (fun x => below p total (clamp x))); [|intros x y Hxy; apply MB; auto; unfold clamp; lia|exact SQ].
    replace (filter (fun q0 => negb (below p total (clamp (q_self_time q0)))) q) with (filter (fun q0 => negb (below p total (q_self_time q0))) q).
    - apply map_ext. intros x. apply cells_columns.
    - apply filter_ext_in. intros x Hx. rewrite Forall_forall in DQ. rewrite (CI _ (DQ _ Hx)). reflexivity. }
  split; [exact RT|]. split; [|split; [|split]].
  - intros x Hx. rewrite Forall_forall in Hq. rewrite negb_false_iff. apply below_iff; auto.
  - intros HH. apply filter_all. rewrite Forall_forall in DQ |- *. intros x Hx. apply negb_true_iff. apply not_true_is_false. intros B. apply below_iff in B; auto. destruct B as (B1 & B2 & B3). destruct HH as [->|[HH|HH]]; [discriminate|lia|].
    destruct (C61_percent total (q_self_time x) Ht (DQ _ Hx)) as (K & _). destruct (K B1) as (_ & K2 & _). lra.
  - rewrite <- E2. unfold f64_ne. destruct HP' as [->|FP]; [cbn; split; [discriminate|intros (K & _); discriminate]|]. rewrite Beqb_correct by (auto; apply zero_ok). match goal with |- context [Req_bool _ ?z] => change z with 0 end. destruct (Req_bool_spec (B2R p) 0) as [K|K]; cbn [negb]; split; auto; try discriminate. intros (_ & K'). contradiction.
  - intros x EX HT HZ. rewrite EX in E2. destruct (f64_ne p (of_int 0)); [|discriminate]. injection E2 as <-. fold q.
    rewrite (account_fold p total q) by (auto; intros x y Hx Hy; apply MB; auto).
    apply sum_ok; auto. clear -DQ. induction DQ; cbn [filter]; [constructor|]. destruct (negb _); auto.
Qed.
Print Assumptions C61_rows.
Example C61_example : let r := mkRes [mkQ [97%Z] 3 3 0 0 1 0 0 0; mkQ [98%Z] 7 7 0 0 1 0 0 0] [] 10 in
  is_duration (total_time r) /\ Forall (fun q => is_duration (q_self_time q)) (query_data r) /\
  option_map (fun x => (map (hd (Text [])) (rows (fst (fst x))), option_map B2SF (snd x))) (summarize_main (of_int 50) r) = Some ([Text [98%Z]], Some (B2SF (of_int 70))).
Proof.
  intros r. split; [unfold is_duration; cbn; lia|]. split; [repeat constructor; unfold is_duration; cbn; lia|]. vm_compute. reflexivity.
Qed.
