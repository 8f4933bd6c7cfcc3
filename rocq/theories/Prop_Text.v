(** C64: the text of durations.  Model M_Text.v, specification S_Text.v. *)
From Coq Require Import String ZArith List Lia Bool.
From Verif Require Import M_Base F_Base M_Map M_Diff M_Crox S_Crox Prop_Crox2 M_Tools S_Tools Prop_Tools M_Text S_Diff S_Text.
Import ListNotations.
Open Scope Z_scope.

(** ** Digits *)
Definition P (n : nat) : Z := 10 ^ Z.of_nat n.
Lemma P_0 : P 0 = 1. Proof. reflexivity. Qed.
Lemma P_S n : P (S n) = 10 * P n.
Proof. unfold P. rewrite Nat2Z.inj_succ, Z.pow_succ_r by lia. reflexivity. Qed.
Lemma P_pos n : 0 < P n.
Proof. unfold P. apply Z.pow_pos_nonneg; lia. Qed.
Lemma P_add a b : P (a + b) = P a * P b.
Proof. unfold P. rewrite Nat2Z.inj_add, Z.pow_add_r by lia. reflexivity. Qed.
Lemma denotes_from ds : forall n, fold_left (fun n d => 10 * n + (d - 48)) ds n = n * P (length ds) + denotes ds.
Proof.
  unfold denotes. induction ds as [|d ds IH]; intros n; cbn [fold_left length]; [rewrite P_0; lia|]. rewrite IH, (IH (10 * 0 + (d - 48))), P_S. ring.
Qed.
Lemma denotes_app a b : denotes (a ++ b) = denotes a * P (length b) + denotes b.
Proof. unfold denotes at 1. rewrite fold_left_app. fold (denotes a). apply denotes_from. Qed.
Lemma denotes_cons d ds : denotes (d :: ds) = (d - 48) * P (length ds) + denotes ds.
Proof. change (d :: ds) with ([d] ++ ds). rewrite denotes_app. replace (denotes [d]) with (d - 48) by (unfold denotes; cbn [fold_left]; lia). reflexivity. Qed.
Lemma denotes_zeros n : denotes (repeat 48 n) = 0.
Proof. induction n as [|n IH]; [reflexivity|]. cbn [repeat]. rewrite denotes_cons, IH. lia. Qed.
Definition digit_list (ds : bytes) : Prop := Forall (fun c => 48 <= c <= 57) ds.
Lemma denotes_range ds : digit_list ds -> 0 <= denotes ds < P (length ds).
Proof.
  induction 1 as [|d ds H F IH]; [cbv; intuition congruence|]. rewrite denotes_cons. cbn [length]. rewrite P_S. pose proof (P_pos (length ds)). nia.
Qed.

(** ** The loop of [fmt_decimal] *)
Lemma frac_digits_ok room : forall K frac ds r d, 0 <= frac < P K -> frac_digits room frac (P K / 10) = (ds, r, d) ->
  let j := length ds in
  digit_list ds /\ (j <= room)%nat /\ (j <= K)%nat /\ frac = denotes ds * P (K - j) + r /\ 0 <= r < P (K - j) /\
  ((j < room)%nat -> r = 0) /\ (0 < r -> P (K - j) = 10 * d) /\
  (r = 0 -> ds = [] \/ exists f' c, ds = f' ++ [c] /\ c <> 48).
Proof.
  induction room as [|room IH]; intros K frac ds r d HF E; cbn [frac_digits] in E.
  - injection E as <- <- <-. cbn [length]. rewrite Nat.sub_0_r. split; [constructor|]. split; [lia|]. split; [lia|]. split; [unfold denotes; cbn [fold_left]; lia|]. split; [lia|]. split; [lia|]. split; [|auto].
    intros HP. destruct K as [|K]; [rewrite P_0 in HF; lia|]. rewrite P_S. replace (10 * P K) with (P K * 10) by ring. rewrite Z.div_mul by lia. ring.
  - destruct (Z.ltb_spec 0 frac) as [HP|HP].
    + destruct K as [|K]; [rewrite P_0 in HF; lia|]. assert (HD : P (S K) / 10 = P K) by (rewrite P_S; replace (10 * P K) with (P K * 10) by ring; apply Z.div_mul; lia). rewrite HD in E.
      destruct (frac_digits room (frac mod P K) (P K / 10)) as ((ds', r'), d') eqn:E'. injection E as <- <- <-. pose proof (P_pos K) as PK.
      assert (HM : 0 <= frac mod P K < P K) by (apply Z.mod_pos_bound; lia). destruct (IH K _ _ _ _ HM E') as (H1 & H2 & H3 & H4 & H5 & H6 & H7 & H8). rewrite P_S in HF.
      assert (HQ : 0 <= frac / P K <= 9) by (split; [apply Z.div_pos; lia|]; apply Z.lt_succ_r; apply Z.div_lt_upper_bound; lia).
      cbn [length]. replace (S K - S (length ds'))%nat with (K - length ds')%nat by lia. split; [constructor; [lia|exact H1]|]. split; [lia|]. split; [lia|]. split.
      { rewrite denotes_cons. rewrite (Z.div_mod frac (P K)) at 1 by lia. rewrite H4 at 1. replace (P K) with (P (length ds') * P (K - length ds')) at 1 by (rewrite <- P_add; f_equal; lia). ring. }
      split; [exact H5|]. split; [intros HL; apply H6; lia|]. split; [exact H7|]. intros HR. right. destruct (H8 HR) as [->|(f' & c & -> & HC)].
      * exists [], (48 + frac / P K). split; [reflexivity|]. intros HC. assert (Q0 : frac / P K = 0) by lia. apply Z.div_small_iff in Q0; [|lia].
        rewrite HR in H4. cbn [length denotes fold_left] in H4. change (denotes []) with 0 in H4. rewrite Z.mod_small in H4 by lia. lia.
      * exists (48 + frac / P K :: f'), c. split; [reflexivity|exact HC].
    + injection E as <- <- <-. assert (frac = 0) as -> by lia. cbn [length]. rewrite Nat.sub_0_r. split; [constructor|]. split; [lia|]. split; [lia|]. split; [reflexivity|]. split; [lia|]. split; [auto|]. split; [lia|]. auto.
Qed.
Lemma round_up_ok ds : digit_list ds -> forall ds' c, round_up ds = (ds', c) -> digit_list ds' /\ length ds' = length ds /\ denotes ds' + (if c then P (length ds) else 0) = denotes ds + 1.
Proof.
  induction 1 as [|d ds H F IH]; intros ds' c E; cbn [round_up] in E.
  - injection E as <- <-. split; [constructor|]. split; [reflexivity|]. reflexivity.
  - destruct (round_up ds) as (t', carry). destruct (IH t' carry eq_refl) as (A & B & C). destruct carry; cbv iota in C.
    + destruct (Z.ltb_spec d 57) as [L|L]; [|assert (d = 57) as -> by lia]; injection E as <- <-; cbn [length]; (split; [constructor; [lia|exact A]|]; split; [congruence|]); rewrite !denotes_cons, B, ?P_S; lia.
    + injection E as <- <-. cbn [length]. split; [constructor; auto|]. split; [congruence|]. cbv iota. rewrite !denotes_cons, B. nia.
Qed.
Definition room_of (precision : option nat) : nat := match precision with Some p => Nat.min p 9 | None => 9%nat end.
(** The number printed, for a unit of [P K] and a value of [integer * P K + frac]. *)
Lemma fmt_decimal_ok ties precision K integer frac divisor postfix : (K <= 9)%nat -> 0 <= integer -> 0 <= frac < P K -> divisor = P K / 10 \/ frac = 0 ->
  exists i f, fmt_decimal ties precision integer frac divisor postfix = number_text i f ++ postfix /\ decimal_number i f /\
    2 * Z.abs (denotes (i ++ f) * P K - (integer * P K + frac) * P (length f)) <= P K /\
    match precision with
    | Some p => length f = p
    | None => denotes (i ++ f) * P K = (integer * P K + frac) * P (length f) /\ (f = [] \/ exists f' c, f = f' ++ [c] /\ c <> 48)
    end.
Proof.
  intros HK HI HF HD. unfold fmt_decimal. fold (room_of precision). set (room := room_of precision).
  assert (HR : (room <= 9)%nat) by (unfold room, room_of; destruct precision as [p|]; [pose proof (Nat.le_min_r p 9); lia|lia]).
  assert (E : frac_digits room frac divisor = frac_digits room frac (P K / 10) \/ frac = 0) by (destruct HD as [->|H0]; auto).
  assert (S : exists ds r d, frac_digits room frac divisor = (ds, r, d) /\ let j := length ds in
     digit_list ds /\ (j <= room)%nat /\ (j <= K)%nat /\ frac = denotes ds * P (K - j) + r /\ 0 <= r < P (K - j) /\
     ((j < room)%nat -> r = 0) /\ (0 < r -> P (K - j) = 10 * d) /\ (r = 0 -> ds = [] \/ exists f' c, ds = f' ++ [c] /\ c <> 48)).
  { destruct HD as [->|H0].
    - destruct (frac_digits room frac (P K / 10)) as ((ds, r), d) eqn:E0. exists ds, r, d. split; [reflexivity|]. exact (frac_digits_ok room K frac ds r d HF E0).
    - subst frac. exists [], 0, divisor. split; [destruct room; reflexivity|]. cbn [length]. rewrite Nat.sub_0_r. split; [constructor|]. split; [lia|]. split; [lia|]. split; [reflexivity|]. split; [lia|]. split; [auto|]. split; [lia|]. auto. }
  clear E HD. destruct S as (ds & r & d & -> & H1 & H2 & H3 & H4 & H5 & H6 & H7 & H8). set (j := length ds) in *.
  set (up := (0 <? r) && (d * 5 <=? r) && negb (ties && (r =? d * 5) && Z.even (last ds integer))).
  set (Q := if up then let '(ds', carry) := round_up ds in (ds', if carry then integer + 1 else integer) else (ds, integer)).
  (* the integer and the digits after rounding *)
  assert (S : exists ds' int', Q = (ds', int') /\ digit_list ds' /\ length ds' = j /\ 0 <= int' /\ int' * P j + denotes ds' = integer * P j + denotes ds + (if up then 1 else 0) /\ (up = false -> ds' = ds)).
  { unfold Q. destruct up.
    - destruct (round_up ds) as (ds', carry) eqn:ER. destruct (round_up_ok ds H1 ds' carry ER) as (A & B & C). eexists. eexists. split; [reflexivity|]. split; [exact A|]. split; [exact B|]. fold j in C. destruct carry; (split; [lia|]; split; [lia|discriminate]).
    - exists ds, integer. split; [reflexivity|]. split; [exact H1|]. split; [reflexivity|]. split; [exact HI|]. split; [lia|reflexivity]. }
  destruct S as (ds' & int' & -> & D1 & D2 & D3 & D4 & D5). rewrite D2. set (w := match precision with Some p => p | None => j end).
  assert (W : (j <= w)%nat) by (unfold w, room, room_of in *; destruct precision as [p|]; [pose proof (Nat.le_min_l p 9); lia|lia]).
  assert (RW : (room < w)%nat -> room = 9%nat) by (unfold w, room, room_of in *; destruct precision as [p|]; [destruct (Nat.min_spec p 9) as [(A & ->)|(A & ->)]; lia|lia]).
  set (f := ds' ++ repeat 48 (w - j)). assert (LF : length f = w) by (unfold f; rewrite app_length, repeat_length; lia).
  (* when digits are added, nothing was lost *)
  assert (R0 : (j < w)%nat -> r = 0).
  { intros HL. destruct (Nat.lt_ge_cases j room) as [L|L]; [auto|]. assert (j = K) as EJ by lia. rewrite EJ, Nat.sub_diag, P_0 in H5. lia. }
  assert (NUP : r = 0 -> up = false) by (unfold up; intros ->; reflexivity).
  assert (V : denotes (decimal int' ++ f) = (int' * P j + denotes ds') * P (w - j)).
  { rewrite denotes_app, decimal_denotes by auto. unfold f at 2. rewrite denotes_app, denotes_zeros, repeat_length, LF. replace (P w) with (P j * P (w - j)) by (rewrite <- P_add; f_equal; lia). ring. }
  assert (EX : (integer * P j + denotes ds) * P (K - j) + r = integer * P K + frac).
  { rewrite H4. replace (P K) with (P j * P (K - j)) by (rewrite <- P_add; f_equal; lia). ring. }
  pose proof (P_pos j) as PJ. pose proof (P_pos (w - j)) as PW. pose proof (P_pos (K - j)) as PKJ.
  assert (PKE : P K = P j * P (K - j)) by (rewrite <- P_add; f_equal; lia). assert (PWE : P w = P j * P (w - j)) by (rewrite <- P_add; f_equal; lia).
  exists (decimal int'), f. split.
  { rewrite app_assoc. f_equal. unfold number_text. f_equal. destruct w as [|w']; [|unfold f in *; destruct (ds' ++ repeat 48 (S w' - j)); [discriminate LF|reflexivity]]. destruct f; [reflexivity|discriminate LF]. }
  split. { split; [rewrite decimal_denotes by auto; apply decimal_numeral; auto|]. unfold f. apply Forall_app. split; [exact D1|]. apply Forall_forall. intros c Hc. apply repeat_spec in Hc. lia. }
  assert (ERR : (int' * P j + denotes ds') * P (K - j) - (integer * P K + frac) = (if up then P (K - j) else 0) - r) by (rewrite D4, <- EX; destruct up; ring).
  assert (TOT : denotes (decimal int' ++ f) * P K - (integer * P K + frac) * P (length f) = P j * P (w - j) * ((if up then P (K - j) else 0) - r)).
  { rewrite V, LF, <- ERR. rewrite PKE at 1. rewrite PWE. ring. }
  split.
  - rewrite TOT. destruct (Nat.lt_ge_cases j w) as [HL|HL].
    + rewrite (NUP (R0 HL)), (R0 HL). replace (P j * P (w - j) * (0 - 0)) with 0 by ring. cbn [Z.abs]. pose proof (P_pos K). lia.
    + replace (w - j)%nat with 0%nat by lia. rewrite P_0, Z.mul_1_r, Z.abs_mul, (Z.abs_eq (P j)), PKE by lia. assert (B : 2 * Z.abs ((if up then P (K - j) else 0) - r) <= P (K - j)); [|apply (Z.mul_le_mono_nonneg_l _ _ (P j)) in B; [|lia]; revert B; generalize (P j) (P (K - j)) (Z.abs ((if up then P (K - j) else 0) - r)); clear; intros; lia].
      destruct up eqn:EU.
      * unfold up in EU. apply andb_true_iff in EU. destruct EU as (EU & _). apply andb_true_iff in EU. destruct EU as (U1 & U2). apply Z.ltb_lt in U1. apply Z.leb_le in U2. specialize (H7 U1). lia.
      * destruct (Z.eq_dec r 0) as [->|NR]; [lia|]. assert (HP : 0 < r) by lia. specialize (H7 HP). unfold up in EU. rewrite (proj2 (Z.ltb_lt 0 r) HP), andb_true_l in EU.
        destruct (Z.leb_spec (d * 5) r); [|lia]. rewrite andb_true_l in EU. apply negb_false_iff, andb_true_iff in EU. destruct EU as (EU & _). apply andb_true_iff in EU. destruct EU as (_ & EU). apply Z.eqb_eq in EU. lia.
  - destruct precision as [p|]; [exact LF|]. assert (WJ : w = j) by reflexivity.
    assert (RZ : r = 0).
    { destruct (Nat.lt_ge_cases j 9); [apply H6; unfold room, room_of; lia|]. assert (j = K) by lia. rewrite H0, Nat.sub_diag, P_0 in H5. lia. }
    rewrite (NUP RZ), RZ in TOT. split; [lia|]. unfold f. rewrite WJ, Nat.sub_diag. cbn [repeat]. rewrite app_nil_r, (D5 (NUP RZ)). apply H8, RZ.
Qed.

(** ** Durations *)
Lemma duration_cases ns : 0 <= ns -> exists K integer frac divisor u, (K <= 9)%nat /\ 0 <= integer /\ 0 <= frac < P K /\ (divisor = P K / 10 \/ frac = 0) /\
  ns = integer * P K + frac /\ In (u, P K) duration_units /\ fitting_unit ns (P K) /\ forall ties prec, duration_text ties prec ns = fmt_decimal ties prec integer frac divisor u.
Proof.
  intros H. assert (P9 : P 9 = 1000000000) by reflexivity. assert (P6 : P 6 = 1000000) by reflexivity. assert (P3 : P 3 = 1000) by reflexivity.
  assert (FU : forall unit, (unit <= ns \/ unit = 1) -> (1000 <= ns -> 1000 <= unit) -> (1000000 <= ns -> 1000000 <= unit) -> (1000000000 <= ns -> 1000000000 <= unit) -> 1 <= unit -> fitting_unit ns unit).
  { intros unit A B C D E. split; [exact A|]. intros u v [K|[K|[K|[K|[]]]]]; injection K as <- <-; auto. }
  pose proof (Z.mod_pos_bound ns 1000000000 ltac:(lia)) as M9. pose proof (Z.div_mod ns 1000000000 ltac:(lia)) as D9.
  destruct (Z.lt_ge_cases 0 (ns / 1000000000)) as [L|L].
  - exists 9%nat, (ns / 1000000000), (ns mod 1000000000), 100000000, (str "s"). rewrite P9. split; [lia|]. split; [lia|]. split; [lia|]. split; [left; reflexivity|]. split; [lia|].
    split; [right; right; right; left; reflexivity|]. split; [apply FU; lia|]. intros ties prec. unfold duration_text. rewrite (proj2 (Z.ltb_lt 0 _) L). reflexivity.
  - assert (ns / 1000000000 = 0) by (pose proof (Z.div_pos ns 1000000000); lia). assert (E : ns mod 1000000000 = ns) by lia.
    assert (DT : forall ties prec, duration_text ties prec ns = if 1000000 <=? ns then fmt_decimal ties prec (ns / 1000000) (ns mod 1000000) 100000 (str "ms")
       else if 1000 <=? ns then fmt_decimal ties prec (ns / 1000) (ns mod 1000) 100 [194; 181; 115] else fmt_decimal ties prec ns 0 1 (str "ns")).
    { intros ties prec. unfold duration_text. rewrite E, (proj2 (Z.ltb_ge 0 _) L). reflexivity. }
    destruct (Z.leb_spec 1000000 ns) as [L6|L6].
    + pose proof (Z.mod_pos_bound ns 1000000 ltac:(lia)). pose proof (Z.div_mod ns 1000000 ltac:(lia)). pose proof (Z.div_pos ns 1000000 ltac:(lia) ltac:(lia)).
      exists 6%nat, (ns / 1000000), (ns mod 1000000), 100000, (str "ms"). rewrite P6. split; [lia|]. split; [lia|]. split; [lia|]. split; [left; reflexivity|]. split; [lia|].
      split; [right; right; left; reflexivity|]. split; [apply FU; lia|]. exact DT.
    + destruct (Z.leb_spec 1000 ns) as [L3|L3].
      * pose proof (Z.mod_pos_bound ns 1000 ltac:(lia)). pose proof (Z.div_mod ns 1000 ltac:(lia)). pose proof (Z.div_pos ns 1000 ltac:(lia) ltac:(lia)).
        exists 3%nat, (ns / 1000), (ns mod 1000), 100, [194; 181; 115]. rewrite P3. split; [lia|]. split; [lia|]. split; [lia|]. split; [left; reflexivity|]. split; [lia|].
        split; [right; left; reflexivity|]. split; [apply FU; lia|]. exact DT.
      * exists 0%nat, ns, 0, 1, (str "ns"). rewrite P_0. split; [lia|]. split; [lia|]. split; [lia|]. split; [right; reflexivity|]. split; [lia|].
        split; [left; reflexivity|]. split; [apply FU; lia|]. exact DT.
Qed.
Lemma zlen_P {A} (f : list A) : P (length f) = 10 ^ zlen f. Proof. reflexivity. Qed.

(** Printed without a precision, a duration is exact: a decimal number in the largest fitting unit, no digit lost and
    none superfluous. *)
Theorem C64_exact : forall ties ns, 0 <= ns -> says_exactly (duration_text ties None ns) ns.
Proof.
  intros ties ns H. destruct (duration_cases ns H) as (K & integer & frac & divisor & u & K1 & K2 & K3 & K4 & K5 & K6 & K7 & ->).
  destruct (fmt_decimal_ok ties None K integer frac divisor u K1 K2 K3 K4) as (i & f & E & D & _ & X & T). rewrite E. exists i, f, u, (P K). rewrite <- K5, zlen_P in X. auto 10.
Qed.
Print Assumptions C64_exact.
(** Printed with a precision, it is the nearest number with that many decimal places. *)
Theorem C64_rounded : forall ties p ns, 0 <= ns -> says_rounded (Z.of_nat p) (duration_text ties (Some p) ns) ns.
Proof.
  intros ties p ns H. destruct (duration_cases ns H) as (K & integer & frac & divisor & u & K1 & K2 & K3 & K4 & K5 & K6 & K7 & ->).
  destruct (fmt_decimal_ok ties (Some p) K integer frac divisor u K1 K2 K3 K4) as (i & f & E & D & X & L). rewrite E. exists i, f, u, (P K). rewrite <- K5, L in X. unfold zlen. rewrite L. auto 10.
Qed.
Print Assumptions C64_rounded.
(** A text says exactly only one duration: different durations have different texts. *)
Lemma digits_split (a b : bytes) x y : digit_list a -> digit_list b -> (forall c t, x = c :: t -> ~ 48 <= c <= 57) -> (forall c t, y = c :: t -> ~ 48 <= c <= 57) -> a ++ x = b ++ y -> a = b /\ x = y.
Proof.
  revert b. induction a as [|d a IH]; intros [|e b] A B X Y E; cbn [app] in E.
  - auto.
  - inversion B; subst. exfalso. eapply X; eauto.
  - inversion A; subst. exfalso. eapply Y; eauto.
  - injection E as <- E. inversion A; inversion B; subst. destruct (IH b) as (-> & ->); auto.
Qed.
Theorem C64_one_meaning : forall text a b, says_exactly text a -> says_exactly text b -> a = b.
Proof.
  intros text a b (i & f & u & unit & E & U & (D1 & D2) & _ & V & _) (i' & f' & u' & unit' & E' & U' & (D1' & D2') & _ & V' & _). rewrite E in E'. clear E.
  assert (HU : forall u unit, In (u, unit) duration_units -> exists c t, u = c :: t /\ ~ 48 <= c <= 57 /\ c <> 46) by (clear; intros u unit [K|[K|[K|[K|[]]]]]; injection K as <- <-; eexists; eexists; (split; [reflexivity|]); (split; [intros (_ & B); apply B; reflexivity|discriminate])).
  destruct (HU _ _ U) as (c & t & HC & HC1 & HC2). destruct (HU _ _ U') as (c' & t' & HC' & HC1' & HC2'). unfold number_text in E'. rewrite <- !app_assoc in E'.
  assert (X : forall (f u : bytes) c t, u = c :: t -> ~ 48 <= c <= 57 -> forall d s, match f with [] => [] | _ => 46 :: f end ++ u = d :: s -> ~ 48 <= d <= 57) by (clear; intros [|x f] u c t -> H d s E; cbn [app] in E; injection E as <- _; lia).
  apply digits_split in E'; [|apply D1|apply D1'|eapply X; eauto|eapply X; eauto]. destruct E' as (<- & E').
  assert (f = f' /\ u = u') as (<- & <-).
  { destruct f as [|x f], f' as [|y f']; cbn [app] in E'.
    - auto.
    - rewrite HC in E'. injection E' as E' _. congruence.
    - rewrite HC' in E'. injection E' as E' _. congruence.
    - injection E' as E1 E2.
      destruct (digits_split (x :: f) (y :: f') u u') as (A & B); auto; [intros d s HD; rewrite HC in HD; injection HD as <- _; auto|intros d s HD; rewrite HC' in HD; injection HD as <- _; auto|cbn [app]; congruence]. }
  assert (unit = unit') as <-.
  { clear - U U'. destruct U as [K|[K|[K|[K|[]]]]]; injection K as <- <-; destruct U' as [K|[K|[K|[K|[]]]]]; injection K; intros; subst; try reflexivity; discriminate. }
  rewrite V in V'. pose proof (P_pos (length f)) as PP. rewrite zlen_P in PP. nia.
Qed.
Print Assumptions C64_one_meaning.
(** The difference of two durations is printed with its sign and exactly, whatever the precision asked for. *)
Theorem C64_signed : forall ties precision d, 0 <= sd_duration d -> says_signed (signed_text ties precision d) (as_nanos d).
Proof.
  intros ties precision d H. unfold signed_text. pose proof (C64_exact ties (sd_duration d) H) as X. unfold as_nanos. destruct (sd_is_positive d); cbn [app]; eexists; eexists; (split; [reflexivity|]); (split; [|lia]).
  - replace (Z.abs (1 * sd_duration d)) with (sd_duration d) by lia. exact X.
  - replace (Z.abs (-1 * sd_duration d)) with (sd_duration d) by lia. exact X.
Qed.
Print Assumptions C64_signed.
Example C64_example :
  duration_text true None 1500 = number_text [49] [53] ++ [194; 181; 115] /\ duration_text true (Some 2%nat) 1005 = number_text [49] [48; 48] ++ [194; 181; 115] /\
  duration_text false (Some 2%nat) 1005 = number_text [49] [48; 49] ++ [194; 181; 115] /\ duration_text true (Some 2%nat) 999999 = str "1000.00" ++ [194; 181; 115] /\
  duration_text true (Some 2%nat) 7 = str "7.00ns" /\ duration_text true None 60000000000 = str "60s" /\ signed_text true (Some 2%nat) (mkSd 1234567 false) = str "-1.234567ms".
Proof. repeat split. Qed.
