(** C40 (hardware counters), C45 (CPU detection), C52 (counters by name), C53 (sequence lock).
    Model M_Counters.v, specification S_Counters.v. *)
From Coq Require Import String ZArith List Lia Bool.
From Verif Require Import M_Base F_Base M_Utf8 M_Map M_Raw M_Counters S_Counters.
Import ListNotations.
Open Scope Z_scope.

(** ** Reading *)
Theorem C40_rdpmc : forall r, 0 <= r < 2 ^ 64 -> rdpmc_value (r mod 2 ^ 32) (r / 2 ^ 32) = r.
Proof. intros r H. unfold rdpmc_value. pose proof (Z.div_mod r (2 ^ 32)). lia. Qed.
Lemma i64_wrap x : as_i64 (as_u64 x) = (x + 2 ^ 63) mod 2 ^ 64 - 2 ^ 63.
Proof. unfold as_i64, as_u64. destruct (Z.ltb_spec (x mod 2 ^ 64) (2 ^ 63)); Z.to_euclidean_division_equations; lia. Qed.
Lemma hw_read_signed r s : signed48 s -> r = s mod 2 ^ 48 -> hw_read r = s mod 2 ^ 64.
Proof.
  intros (L & H) ->. unfold hw_read, i64_shl, i64_shr. rewrite i64_wrap. change (64 - 48) with 16.
  assert (B : 0 <= s mod 2 ^ 48 < 2 ^ 48) by (apply Z.mod_pos_bound; lia).
  assert (E : as_i64 (s mod 2 ^ 48) = s mod 2 ^ 48) by (unfold as_i64; destruct (Z.ltb_spec (s mod 2 ^ 48) (2 ^ 63)); lia). rewrite E.
  assert (E2 : ((0 + s mod 2 ^ 48) * 2 ^ 16 + 2 ^ 63) mod 2 ^ 64 - 2 ^ 63 = s * 2 ^ 16) by (Z.to_euclidean_division_equations; lia).
  rewrite E2. rewrite Z.div_mul by lia. reflexivity.
Qed.
(** While the register has not crossed its sign boundary the value is the number of units counted. *)
Theorem C40_instructions : forall s n, signed48 s -> 0 <= n -> s + n < 2 ^ 47 ->
  instructions_since_start (instructions_start (register s 0)) (register s n) = n.
Proof.
  intros s n (L & H) HN HC. unfold instructions_since_start, instructions_start, wrapping_sub.
  rewrite (hw_read_signed (register s n) (s + n)); [|split; lia|reflexivity]. rewrite (hw_read_signed (register s 0) s); [|split; lia|unfold register; f_equal; lia].
  Z.to_euclidean_division_equations; lia.
Qed.
(** Once it has crossed it (by less than a whole turn) the value is wrong, and nothing can be recorded
    any more: every attempt panics. *)
Theorem C40_crossing_refuted : forall s n, signed48 s -> n < 2 ^ 48 -> 2 ^ 47 <= s + n ->
  instructions_since_start (instructions_start (register s 0)) (register s n) = 2 ^ 64 - 2 ^ 48 + n /\
  (forall kind id tid, new_instant kind id tid (2 ^ 64 - 2 ^ 48 + n) = Panic) /\
  (forall kind id tid start, new_interval kind id tid start (2 ^ 64 - 2 ^ 48 + n) = Panic).
Proof.
  intros s n (L & H) HN HC. split; [|split].
  - unfold instructions_since_start, instructions_start, wrapping_sub.
    rewrite (hw_read_signed (register s n) (s + n - 2 ^ 48)); [|split; lia|unfold register; Z.to_euclidean_division_equations; lia]. rewrite (hw_read_signed (register s 0) s); [|split; lia|unfold register; f_equal; lia].
    Z.to_euclidean_division_equations; lia.
  - intros. unfold new_instant, MAX_SINGLE_VALUE. destruct (Z.leb_spec (2 ^ 64 - 2 ^ 48 + n) 0xFFFFFFFFFFFF); [lia|reflexivity].
  - intros. unfold new_interval, MAX_INTERVAL_VALUE, INTEGER_MARKER, INSTANT_MARKER. destruct (Z.leb_spec start (2 ^ 64 - 2 ^ 48 + n)); [|reflexivity]. destruct (Z.leb_spec (2 ^ 64 - 2 ^ 48 + n) (0xFFFFFFFFFFFF - 1 - 1)); [lia|reflexivity].
Qed.
(** Without a crossing the value can always be recorded as an instant, and as the end of an interval
    except for the last two values. *)
Theorem C40_fits : forall s n kind id tid, signed48 s -> 0 <= n -> s + n < 2 ^ 47 ->
  (exists e, new_instant kind id tid n = Ok e) /\
  (forall start, start <= n -> n <= 2 ^ 48 - 3 -> exists e, new_interval kind id tid start n = Ok e).
Proof.
  intros s n kind id tid (L & H) HN HC. split.
  - unfold new_instant, MAX_SINGLE_VALUE. destruct (Z.leb_spec n 0xFFFFFFFFFFFF); [eauto|lia].
  - intros start HS HM. unfold new_interval, MAX_INTERVAL_VALUE, INTEGER_MARKER, INSTANT_MARKER. destruct (Z.leb_spec start n); [|lia]. destruct (Z.leb_spec n (0xFFFFFFFFFFFF - 1 - 1)); [eauto|lia].
Qed.
(** The difference of two registers: [a] instructions and [b] interrupts since the start. *)
Theorem C40_minus_irqs : forall s a s' b, signed48 s -> signed48 s' -> 0 <= a -> 0 <= b -> s + a < 2 ^ 47 -> s' + b < 2 ^ 47 ->
  irqs_since_start (irqs_start (register s 0) (register s' 0)) (register s a) (register s' b) = (a - b) mod 2 ^ 64.
Proof.
  intros s a s' b (L & H) (L' & H') HA HB CA CB. unfold irqs_since_start, irqs_start, wrapping_sub.
  rewrite (hw_read_signed (register s a) (s + a)); [|split; lia|reflexivity]. rewrite (hw_read_signed (register s' b) (s' + b)); [|split; lia|reflexivity].
  rewrite (hw_read_signed (register s 0) s); [|split; lia|unfold register; f_equal; lia]. rewrite (hw_read_signed (register s' 0) s'); [|split; lia|unfold register; f_equal; lia].
  rewrite <- (Zminus_mod (s + a) (s' + b)), <- (Zminus_mod s s'), <- Zminus_mod. f_equal. lia.
Qed.
(** So it is exact as long as no more interrupts than instructions are counted; otherwise it wraps
    around and cannot be recorded. *)
Theorem C40_more_irqs_refuted : forall s a s' b, signed48 s -> signed48 s' -> 0 <= a -> 0 <= b -> s + a < 2 ^ 47 -> s' + b < 2 ^ 47 ->
  (b <= a -> irqs_since_start (irqs_start (register s 0) (register s' 0)) (register s a) (register s' b) = a - b) /\
  (a < b -> forall kind id tid, new_instant kind id tid (irqs_since_start (irqs_start (register s 0) (register s' 0)) (register s a) (register s' b)) = Panic).
Proof.
  intros s a s' b HS HS' HA HB CA CB. rewrite C40_minus_irqs by auto. destruct HS as (L & H), HS' as (L' & H'). split.
  - intros LE. apply Z.mod_small. lia.
  - intros LT kind id tid. unfold new_instant, MAX_SINGLE_VALUE. destruct (Z.leb_spec ((a - b) mod 2 ^ 64) 0xFFFFFFFFFFFF) as [LL|]; [|reflexivity]. exfalso. revert LL. Z.to_euclidean_division_equations; lia.
Qed.
(** Nor is it monotone: more interrupts than instructions between two readings make it decrease. *)
Theorem C40_not_monotone_refuted : exists s s' a b a' b', signed48 s /\ signed48 s' /\ 0 <= a <= a' /\ 0 <= b <= b' /\ s + a' < 2 ^ 47 /\ s' + b' < 2 ^ 47 /\
  irqs_since_start (irqs_start (register s 0) (register s' 0)) (register s a') (register s' b') <
  irqs_since_start (irqs_start (register s 0) (register s' 0)) (register s a) (register s' b).
Proof. exists 0, 0, 10, 1, 11, 3. unfold signed48. split; [lia|]. split; [lia|]. split; [lia|]. split; [lia|]. split; [lia|]. split; [lia|]. vm_compute. reflexivity. Qed.
(** Wall time: exact; it can be recorded for 2^48 ns (78 hours). *)
Theorem C40_wall_time : forall e, 0 <= e < 2 ^ 64 -> wall_since_start e = e /\
  (forall kind id tid, (exists r, new_instant kind id tid (wall_since_start e) = Ok r) <-> e < 2 ^ 48).
Proof.
  intros e H. assert (E : wall_since_start e = e) by (unfold wall_since_start, as_u64; apply Z.mod_small; lia). split; auto. intros kind id tid. rewrite E. unfold new_instant, MAX_SINGLE_VALUE.
  destruct (Z.leb_spec e 0xFFFFFFFFFFFF); split; intros K; eauto; try lia. destruct K as (r & [=]).
Qed.
(** A counter is only opened on a 48-bit register that user space may read. *)
Theorem C40_open : forall cap index width r, open_counter cap index width = Ok r <-> cap <> 0 /\ index <> 0 /\ width = 48 /\ r = index - 1.
Proof.
  intros cap index width r. unfold open_counter. destruct (Z.eqb_spec cap 0); [split; [discriminate|intuition]|]. destruct (Z.eqb_spec index 0); [split; [discriminate|intuition]|].
  destruct (Z.eqb_spec width 48); cbn [negb]; [|split; [discriminate|intuition]]. split; [intros [= <-]; auto|intros (_ & _ & _ & ->); reflexivity].
Qed.
Example C40_example : instructions_since_start (instructions_start (register (-5) 0)) (register (-5) 12) = 12 /\
  instructions_since_start (instructions_start (register (2 ^ 47 - 5) 0)) (register (2 ^ 47 - 5) 12) = 2 ^ 64 - 2 ^ 48 + 12.
Proof. split; vm_compute; reflexivity. Qed.

(** ** CPU detection *)
Lemma bits_spec w sh k : 0 <= sh -> 0 <= k -> bits w sh (2 ^ k - 1) = w / 2 ^ sh mod 2 ^ k.
Proof. intros H K. unfold bits. rewrite Z.shiftr_div_pow2 by lia. replace (2 ^ k - 1) with (Z.ones k) by (rewrite Z.ones_equiv; lia). apply Z.land_ones; lia. Qed.
Lemma bits4 w sh : 0 <= sh -> bits w sh 15 = w / 2 ^ sh mod 16.
Proof. intros H. exact (bits_spec w sh 4 H ltac:(lia)). Qed.
Lemma bits8 w sh : 0 <= sh -> bits w sh 255 = w / 2 ^ sh mod 256.
Proof. intros H. exact (bits_spec w sh 8 H ltac:(lia)). Qed.
Lemma family_of_spec v : family_of v = family v.
Proof.
  unfold family_of, family, base_family, ext_family. rewrite bits4, bits8 by lia.
  destruct (Z.eqb_spec (v / 2 ^ 8 mod 16) 15) as [E|E]; [rewrite E|]; reflexivity.
Qed.
Lemma model_of_spec vendor v : model_of vendor v = if (15 <=? family v) || beq vendor (str "GenuineIntel") && (family v =? 6) then 16 * ext_model v + base_model v else base_model v.
Proof.
  unfold model_of. rewrite family_of_spec. rewrite !bits4 by lia. rewrite Z.shiftl_mul_pow2 by lia. unfold ext_model, base_model. change (2 ^ 4) with 16.
  destruct ((15 <=? family v) || _); [lia|reflexivity].
Qed.
(** All intermediate results fit [u32]: no addition overflows. *)
Theorem C45_fields : forall v vendor, 0 <= v < 2 ^ 32 -> family_of v = family v /\ 0 <= family v <= 270 /\ 0 <= model_of vendor v <= 255.
Proof.
  intros v vendor H. rewrite family_of_spec, model_of_spec. split; [reflexivity|]. unfold family, base_family, ext_family, base_model, ext_model. split.
  - destruct (v / 2 ^ 8 mod 16 =? 15); Z.to_euclidean_division_equations; lia.
  - match goal with |- context [if ?c then _ else _] => destruct c end; Z.to_euclidean_division_equations; lia.
Qed.
Lemma amd_match_table f m g : 0 <= f -> (amd_match f m = Ok g <-> amd_table f m g).
Proof.
  intros Hf. unfold amd_match, amd_table. cbn [In].
  repeat match goal with |- context [if ?c then _ else _] => destruct c eqn:? end; rewrite ?orb_true_iff, ?orb_false_iff, ?andb_true_iff, ?andb_false_iff in *; rewrite ?Z.leb_le, ?Z.leb_gt, ?Z.eqb_eq, ?Z.eqb_neq in *;
  (split; [intros [=]; subst; try lia|destruct g; intros; try reflexivity; exfalso; lia]).
Qed.
Lemma amd_match_err f m : 0 <= f -> (amd_match f m = Err <-> amd_impossible f) /\ amd_match f m <> Panic /\ amd_match f m <> Diverge.
Proof.
  intros Hf. unfold amd_match, amd_impossible. destruct (((0 <=? f) && (f <=? 14)) || (f =? 19)) eqn:E.
  - split; [|split; discriminate]. split; auto. intros _. rewrite orb_true_iff, andb_true_iff, !Z.leb_le, Z.eqb_eq in E. lia.
  - rewrite orb_false_iff, andb_false_iff, !Z.leb_gt, Z.eqb_neq in E. split; [split; [|lia]|split]; repeat match goal with |- context [if ?c then _ else _] => destruct c end; discriminate.
Qed.
Lemma among_spec x l : among x l = true <-> In x l.
Proof. unfold among. rewrite existsb_exists. split; [intros (y & Hy & E); apply Z.eqb_eq in E; subst; auto|intros H; exists x; split; auto; apply Z.eqb_refl]. Qed.
Lemma intel_match_table f m g : 0 <= f -> 0 <= m -> (intel_match f m = g <-> intel_table f m g).
Proof.
  intros Hf Hm. unfold intel_table.
  destruct (Z.eq_dec f 6) as [->|N6].
  - unfold intel_match. change ((0 <=? 6) && (6 <=? 5)) with false. change (6 =? 15) with false. change (6 =? 6) with true. cbv beta iota. rewrite !andb_true_l.
    unfold among, existsb, old_intel, bridges, wells, lakes. cbn [In app].
    repeat match goal with |- context [if ?c then _ else _] => destruct c eqn:? end; rewrite ?orb_true_iff, ?orb_false_iff, ?andb_true_iff, ?andb_false_iff in *; rewrite ?Z.leb_le, ?Z.leb_gt, ?Z.eqb_eq, ?Z.eqb_neq in *;
    (split; [intros <-; lia|destruct g; intros; try reflexivity; exfalso; lia]).
  - unfold intel_match. replace (f =? 6) with false by (symmetry; apply Z.eqb_neq; auto). cbn [andb].
    destruct (Z.leb_spec 0 f); [|lia]. cbn [andb]. destruct (Z.leb_spec f 5); [|destruct (Z.eqb_spec f 15)]; (split; [intros <-; lia|destruct g; intros; try reflexivity; exfalso; lia]).
Qed.
Lemma le4_inj a b : 0 <= a < 2 ^ 32 -> 0 <= b < 2 ^ 32 -> le_bytes 4 a = le_bytes 4 b -> a = b.
Proof. intros HA HB E. rewrite <- (le_val_bytes_small 4 a), <- (le_val_bytes_small 4 b), E; auto; change (256 ^ Z.of_nat 4) with (2 ^ 32); lia. Qed.
Lemma vendor_eq ebx edx ecx b d c : 0 <= ebx < 2 ^ 32 -> 0 <= edx < 2 ^ 32 -> 0 <= ecx < 2 ^ 32 -> 0 <= b < 2 ^ 32 -> 0 <= d < 2 ^ 32 -> 0 <= c < 2 ^ 32 ->
  (vendor_of ebx edx ecx = vendor_of b d c <-> ebx = b /\ edx = d /\ ecx = c).
Proof.
  intros. split; [|intros (-> & -> & ->); reflexivity]. unfold vendor_of. intros E.
  assert (K : forall x y r s, le_bytes 4 x ++ r = le_bytes 4 y ++ s -> le_bytes 4 x = le_bytes 4 y /\ r = s).
  { intros x y r s Q. pose proof (le_bytes_len 4 x) as Lx. pose proof (le_bytes_len 4 y) as Ly. revert Lx Ly Q. generalize (le_bytes 4 x) (le_bytes 4 y). intros l l' Lx Ly Q.
    destruct l as [|x1 [|x2 [|x3 [|x4 [|]]]]]; try discriminate Lx. destruct l' as [|y1 [|y2 [|y3 [|y4 [|]]]]]; try discriminate Ly. cbn in Q. injection Q as -> -> -> -> ->. auto. }
  apply K in E. destruct E as (E1 & E). apply K in E. destruct E as (E2 & E3). split; [|split]; apply le4_inj; auto.
Qed.
Lemma vendor_amd ebx edx ecx : 0 <= ebx < 2 ^ 32 -> 0 <= edx < 2 ^ 32 -> 0 <= ecx < 2 ^ 32 -> (beq (vendor_of ebx edx ecx) (str "AuthenticAMD") = true <-> is_amd ebx edx ecx).
Proof. intros. rewrite beq_true. change (str "AuthenticAMD") with (vendor_of 0x68747541 0x69746e65 0x444d4163). apply vendor_eq; auto; lia. Qed.
Lemma vendor_intel ebx edx ecx : 0 <= ebx < 2 ^ 32 -> 0 <= edx < 2 ^ 32 -> 0 <= ecx < 2 ^ 32 -> (beq (vendor_of ebx edx ecx) (str "GenuineIntel") = true <-> is_intel ebx edx ecx).
Proof. intros. rewrite beq_true. change (str "GenuineIntel") with (vendor_of 0x756e6547 0x49656e69 0x6c65746e). apply vendor_eq; auto; lia. Qed.
(** Detection classifies according to the tables, fails on every other vendor and on the AMD families
    that do not exist, and does nothing else. *)
Theorem C45_detect : forall ebx edx ecx v, 0 <= ebx < 2 ^ 32 -> 0 <= edx < 2 ^ 32 -> 0 <= ecx < 2 ^ 32 -> 0 <= v < 2 ^ 32 ->
  (forall g, detect ebx edx ecx v = Ok (Amd g) <-> is_amd ebx edx ecx /\ amd_table (family v) (amd_model v) g) /\
  (forall g, detect ebx edx ecx v = Ok (Intel g) <-> is_intel ebx edx ecx /\ intel_table (family v) (intel_model v) g) /\
  (detect ebx edx ecx v = Err <-> ~ is_amd ebx edx ecx /\ ~ is_intel ebx edx ecx \/ is_amd ebx edx ecx /\ amd_impossible (family v)) /\
  detect ebx edx ecx v <> Panic /\ detect ebx edx ecx v <> Diverge.
Proof.
  intros ebx edx ecx v HB HD HC HV. pose proof (vendor_amd _ _ _ HB HD HC) as VA. pose proof (vendor_intel _ _ _ HB HD HC) as VI.
  assert (X : is_amd ebx edx ecx -> is_intel ebx edx ecx -> False) by (unfold is_amd, is_intel; lia).
  destruct (C45_fields v [] HV) as (_ & (HF & _) & _).
  assert (UA : is_amd ebx edx ecx -> detect ebx edx ecx v = (do g <- amd_match (family v) (amd_model v); Ok (Amd g))).
  { intros A. pose proof A as (-> & -> & ->). unfold detect. rewrite family_of_spec, model_of_spec. change (vendor_of 0x68747541 0x69746e65 0x444d4163) with (str "AuthenticAMD"). change (utf8_valid (str "AuthenticAMD")) with true.
    change (beq (str "AuthenticAMD") (str "AuthenticAMD")) with true. change (beq (str "AuthenticAMD") (str "GenuineIntel")) with false. cbn [negb andb]. rewrite orb_false_r. reflexivity. }
  assert (UI : is_intel ebx edx ecx -> detect ebx edx ecx v = Ok (Intel (intel_match (family v) (intel_model v)))).
  { intros A. pose proof A as (-> & -> & ->). unfold detect. rewrite family_of_spec, model_of_spec. change (vendor_of 0x756e6547 0x49656e69 0x6c65746e) with (str "GenuineIntel"). change (utf8_valid (str "GenuineIntel")) with true.
    change (beq (str "GenuineIntel") (str "GenuineIntel")) with true. change (beq (str "GenuineIntel") (str "AuthenticAMD")) with false. cbn [negb]. rewrite andb_true_l. reflexivity. }
  assert (UN : ~ is_amd ebx edx ecx -> ~ is_intel ebx edx ecx -> detect ebx edx ecx v = Err).
  { intros NA NI. unfold detect. destruct (utf8_valid _); [|reflexivity]. cbn [negb]. destruct (beq _ (str "AuthenticAMD")) eqn:E1; [destruct NA; apply VA; reflexivity|]. destruct (beq _ (str "GenuineIntel")) eqn:E2; [destruct NI; apply VI; reflexivity|]. reflexivity. }
  assert (D : is_amd ebx edx ecx \/ is_intel ebx edx ecx \/ (~ is_amd ebx edx ecx /\ ~ is_intel ebx edx ecx)).
  { unfold is_amd, is_intel. lia. }
  destruct D as [A|[I|(NA & NI)]].
  - rewrite (UA A). destruct (amd_match_err (family v) (amd_model v) HF) as (ME & MP & MD). pose proof (fun g => amd_match_table (family v) (amd_model v) g HF) as MT.
    destruct (amd_match (family v) (amd_model v)) as [g0| | |] eqn:EM; try congruence; cbn [bind].
    + split; [|split; [|split; [|split]]]; try discriminate.
      * intros g. rewrite <- MT. split; [intros [= ->]; auto|intros (_ & [= ->]); reflexivity].
      * intros g. split; [discriminate|]. intros (I & _). destruct (X A I).
      * split; [discriminate|]. intros [(N & _)|(_ & K)]; [contradiction|]. apply ME in K. discriminate.
    + split; [|split; [|split; [|split]]]; try discriminate.
      * intros g. rewrite <- MT. split; [discriminate|intros (_ & [=])].
      * intros g. split; [discriminate|]. intros (I & _). destruct (X A I).
      * split; [|reflexivity]. intros _. right. split; auto. apply ME. reflexivity.
  - rewrite (UI I). assert (HM : 0 <= intel_model v). { unfold intel_model, ext_model, base_model. match goal with |- context [if ?c then _ else _] => destruct c end; Z.to_euclidean_division_equations; lia. }
    split; [|split; [|split; [|split]]]; try discriminate.
    + intros g. split; [discriminate|]. intros (A & _). destruct (X A I).
    + intros g. rewrite <- (intel_match_table _ _ _ HF HM). split; [intros [= ->]; auto|intros (_ & ->); reflexivity].
    + split; [discriminate|]. intros [(_ & N)|(A & _)]; [contradiction|destruct (X A I)].
  - rewrite (UN NA NI). split; [|split; [|split; [|split]]]; try discriminate.
    + intros g. split; [discriminate|tauto].
    + intros g. split; [discriminate|tauto].
    + split; auto.
Qed.
(** Exactly one class applies. *)
Theorem C45_unique : forall f m, 0 <= f -> 0 <= m -> (exists! g, intel_table f m g) /\ (amd_impossible f \/ exists! g, amd_table f m g).
Proof.
  intros f m Hf Hm. split.
  - exists (intel_match f m). split; [apply intel_match_table; auto|]. intros g Hg. apply intel_match_table; auto.
  - destruct (amd_match_err f m Hf) as (ME & MP & MD). destruct (amd_match f m) as [g| | |] eqn:E; try congruence; [|left; apply ME; reflexivity].
    right. exists g. split; [apply amd_match_table; auto|]. intros g' Hg. apply amd_match_table in Hg; auto. congruence.
Qed.
(** Counting interrupts is refused exactly for Intel processors before Sandy Bridge. *)
Theorem C45_irqs : forall m, (irqs_counter_config m = Err <-> m = Intel PreBridge) /\
  (forall c, irqs_counter_config m = Ok c <-> m = Amd PreZen /\ c = 0xcf \/ (m = Amd Zen \/ m = Amd UnknownMaybeZenLike) /\ c = 0x2c \/ (exists g, g <> PreBridge /\ m = Intel g) /\ c = 0x1cb).
Proof.
  intros m. split; [destruct m as [[]|[]]; split; intros E; solve [discriminate E|reflexivity]|]. intros c. split.
  - destruct m as [[]|[]]; cbn [irqs_counter_config]; intros E; try discriminate E; injection E as <-;
      first [left; split; reflexivity|right; left; split; [auto; fail|reflexivity]|right; right; split; [eexists; split; [|reflexivity]; discriminate|reflexivity]].
  - intros [(-> & ->)|[([->| ->] & ->)|((g & N & ->) & ->)]]; try reflexivity. destruct g; [contradiction| | | |]; reflexivity.
Qed.
Example C45_example : detect 0x756e6547 0x49656e69 0x6c65746e 0x000306c3 = Ok (Intel Well) /\ detect 0x68747541 0x69746e65 0x444d4163 0x00870f10 = Ok (Amd Zen) /\ detect 0 0 0 0 = Err.
Proof. split; [|split]; vm_compute; reflexivity. Qed.

(** ** Counters by name *)
(** The four names are recognised, all others are refused. *)
Theorem C52_by_name : forall A (make : counter_kind -> res A) name,
  (forall k, name = NAME k -> by_name make name = make k) /\ ((forall k, name <> NAME k) -> by_name make name = Err).
Proof.
  intros A make name. split.
  - intros k ->. destruct k; reflexivity.
  - intros N. unfold by_name. assert (K : forall k, beq name (NAME k) = false) by (intros k; destruct (beq name (NAME k)) eqn:E; [apply beq_true in E; destruct (N k E)|reflexivity]). rewrite !K. reflexivity.
Qed.
Theorem C52_names_differ : forall k k', NAME k = NAME k' -> k = k'.
Proof. intros [] []; intros E; try reflexivity; vm_compute in E; discriminate E. Qed.
(** What a counter measures: instructions, minus the interrupt event chosen for the processor. *)
Theorem C52_events : forall k m, match events_of k m with
  | Ok evs => (k = CWallTime /\ evs = []) \/ (k = CInstructions /\ evs = [(0, 1)]) \/
      (exists c, evs = [(0, 1); (4, c)] /\ (k = CInstructionsMinusIrqs /\ irqs_counter_config m = Ok c \/ k = CInstructionsMinusRaw0420 /\ c = 0x420))
  | Err => k = CInstructionsMinusIrqs /\ m = Intel PreBridge
  | _ => False
  end.
Proof. intros [] m; cbn [events_of]; auto; [destruct m as [[]|[]]; cbn; auto; right; right; eexists; split; eauto|]. right; right; eexists; split; eauto. Qed.

(** ** The sequence lock *)
Lemma lock_range steps page : kernel_history steps page -> forall t, 0 <= pg_lock (page t) < 2 ^ 32.
Proof.
  intros (H0 & HS) t. induction t as [|t IH]; auto. destruct (HS t) as (E & _). rewrite E. destruct (steps t); cbn [kernel_apply pg_lock]; auto; apply Z.mod_pos_bound; lia.
Qed.
Lemma lock_counts steps page : kernel_history steps page -> forall n t0, pg_lock (page (t0 + n)%nat) = (pg_lock (page t0) + increments steps t0 n) mod 2 ^ 32 /\ 0 <= increments steps t0 n.
Proof.
  intros H. pose proof (lock_range _ _ H) as R. induction n as [|n IH]; intros t0; cbn [increments].
  - rewrite Nat.add_0_r, Z.add_0_r. split; [symmetry; apply Z.mod_small, R|lia].
  - replace (t0 + S n)%nat with (S t0 + n)%nat by lia. destruct (IH (S t0)) as (E & P). rewrite E. destruct H as (_ & HS). destruct (HS t0) as (ES & _). rewrite ES.
    destruct (steps t0); cbn [kernel_apply pg_lock]; (split; [|lia]); rewrite ?Zplus_mod_idemp_l; f_equal; lia.
Qed.
Lemma increments_app steps a : forall b t0, increments steps t0 (a + b) = increments steps t0 a + increments steps (t0 + a) b.
Proof. induction a as [|a IH]; intros b t0; cbn [increments Nat.add]; [rewrite Nat.add_0_r; reflexivity|]. rewrite IH. replace (t0 + S a)%nat with (S t0 + a)%nat by lia. lia. Qed.
Lemma quiet steps page : kernel_history steps page -> forall n t0, increments steps t0 n = 0 -> Z.even (pg_lock (page t0)) = true -> page (t0 + n)%nat = page t0.
Proof.
  intros H. induction n as [|n IH]; intros t0 Z0 EV; [f_equal; lia|]. cbn [increments] in Z0. destruct (lock_counts _ _ H n (S t0)) as (_ & P). pose proof H as (_ & HS). destruct (HS t0) as (ES & W).
  destruct (steps t0) eqn:EST; cbn [kernel_apply] in ES; try lia.
  - replace (t0 + S n)%nat with (S t0 + n)%nat by lia. rewrite IH; [exact ES|lia|rewrite ES; exact EV].
  - rewrite <- Z.negb_even, EV in W. discriminate.
Qed.
(** An access that started outside an update returns fields of a single state of the page (unless
    the 32-bit sequence number comes around during the access). *)
Theorem C53_consistent : forall steps page t0 reads t1 result, kernel_history steps page ->
  (t0 <= t1)%nat -> Forall (fun r => (t0 <= fst r <= t1)%nat) reads -> increments steps t0 (t1 - t0) < 2 ^ 32 ->
  Z.even (pg_lock (page t0)) = true -> seqlock_attempt page t0 reads t1 = Some result ->
  result = map (fun r => nth_error (pg_fields (page t0)) (snd r)) reads /\ page t1 = page t0.
Proof.
  intros steps page t0 reads t1 result H LT F LI EV. unfold seqlock_attempt. destruct (Z.eqb_spec (pg_lock (page t1)) (pg_lock (page t0))) as [E|E]; [|discriminate]. intros [= <-].
  destruct (lock_counts _ _ H (t1 - t0) t0) as (EC & P). replace (t0 + (t1 - t0))%nat with t1 in EC by lia. pose proof (lock_range _ _ H t0) as R.
  assert (Z0 : increments steps t0 (t1 - t0) = 0). { rewrite E in EC. Z.to_euclidean_division_equations; lia. }
  assert (Q : forall t, (t0 <= t <= t1)%nat -> page t = page t0).
  { intros t Ht. replace t with (t0 + (t - t0))%nat at 1 by lia. apply (quiet _ _ H); auto. pose proof (increments_app steps (t - t0) (t1 - t) t0) as A. replace (t - t0 + (t1 - t))%nat with (t1 - t0)%nat in A by lia.
    destruct (lock_counts _ _ H (t - t0) t0) as (_ & P1). destruct (lock_counts _ _ H (t1 - t) (t0 + (t - t0))%nat) as (_ & P2). lia. }
  split; [|apply Q; lia]. apply map_ext_in. intros r Hr. rewrite Forall_forall in F. rewrite Q by (apply F, Hr). reflexivity.
Qed.
(** On the processor that runs the reader updates are interrupts, so every access is consistent. *)
Theorem C53_same_processor : forall steps page, kernel_history steps page -> Z.even (pg_lock (page O)) = true ->
  (forall t, match steps t with Idle | Interrupt _ => True | _ => False end) -> forall t, Z.even (pg_lock (page t)) = true.
Proof.
  intros steps page H E0 HI t. induction t as [|t IH]; auto. pose proof H as (_ & HS). destruct (HS t) as (ES & _). specialize (HI t). rewrite ES. destruct (steps t); try contradiction; cbn [kernel_apply pg_lock]; auto.
  rewrite Zeven_mod in *. apply Zeq_is_eq_bool in IH. apply Zeq_is_eq_bool. Z.to_euclidean_division_equations; lia.
Qed.
(** The code does not check that the sequence number is even: an access during an update made on
    another processor can return a mixture of the old and the new fields. *)
Theorem C53_torn_refuted : exists steps page t0 reads t1 result, kernel_history steps page /\ (t0 <= t1)%nat /\ Forall (fun r => (t0 <= fst r <= t1)%nat) reads /\
  seqlock_attempt page t0 reads t1 = Some result /\
  forall t, Z.even (pg_lock (page t)) = true -> result <> map (fun r => nth_error (pg_fields (page t)) (snd r)) reads.
Proof.
  set (steps := fun t : nat => match t with O => Bump | 1%nat => Write 0 5 | 2%nat => Write 1 6 | 3%nat => Bump | _ => Idle end).
  set (page := fun t : nat => match t with O => mkPg 0 [1; 2] | 1%nat => mkPg 1 [1; 2] | 2%nat => mkPg 1 [5; 2] | 3%nat => mkPg 1 [5; 6] | _ => mkPg 2 [5; 6] end).
  exists steps, page, 1%nat, [(2%nat, 0%nat); (2%nat, 1%nat)], 2%nat, [Some 5; Some 2]. split; [|split; [lia|split; [|split; [reflexivity|]]]].
  - split; [cbn; lia|]. intros [|[|[|[|t]]]]; cbn; split; auto.
  - repeat constructor; cbn; lia.
  - intros [|[|[|[|t]]]]; cbn; intros E; try discriminate E; intros K; discriminate K.
Qed.
Print Assumptions C40_instructions.
Print Assumptions C45_detect.
Print Assumptions C53_consistent.
