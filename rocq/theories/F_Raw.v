(** Proofs about raw events. *)
From Coq Require Import ZArith List Lia Bool.
From Verif Require Import M_Base F_Base M_Raw.
Import ListNotations.
Open Scope Z_scope.

Lemma land_hi x : 0 <= x < 2 ^ 32 -> Z.land x 0xFFFF0000 = x / 65536 * 65536.
Proof.
  intros H. change 0xFFFF0000 with (Z.shiftl (Z.ones 16) 16).
  change 65536 with (2 ^ 16).
  rewrite <- Z.shiftr_div_pow2, <- Z.shiftl_mul_pow2 by lia.
  apply Z.bits_inj'. intros n Hn. rewrite Z.land_spec.
  destruct (Z.ltb_spec n 16).
  - rewrite !Z.shiftl_spec_low by lia. apply andb_false_r.
  - rewrite !Z.shiftl_spec, Z.shiftr_spec by lia. replace (n - 16 + 16) with n by lia.
    destruct (Z.ltb_spec n 32).
    + rewrite Z.ones_spec_low by lia. apply andb_true_r.
    + rewrite Z.ones_spec_high by lia. rewrite andb_false_r.
      rewrite Z.bits_above_log2; try lia.
      destruct (Z.eq_dec x 0); [subst; simpl; lia|]. apply Z.log2_lt_pow2; try lia.
      apply Z.lt_le_trans with (2 ^ 32); try lia. apply Z.pow_le_mono_r; lia.
Qed.

Lemma land_lo x : Z.land x 0xFFFF = x mod 65536.
Proof. change 0xFFFF with (Z.ones 16). rewrite Z.land_ones by lia. reflexivity. Qed.

Lemma lor_disjoint a b n : 0 <= n -> 0 <= a < 2 ^ n -> Z.lor a (b * 2 ^ n) = a + b * 2 ^ n.
Proof.
  intros Hn Ha. rewrite Z.lor_comm, Z.add_comm, <- Z.shiftl_mul_pow2 by lia.
  assert (E : Z.land (Z.shiftl b n) a = 0).
  { apply Z.bits_inj'; intros k Hk. rewrite Z.land_spec, Z.bits_0. destruct (Z.ltb_spec k n).
    - rewrite Z.shiftl_spec_low by lia; reflexivity.
    - destruct (Z.eq_dec a 0); [subst; rewrite Z.bits_0; apply andb_false_r|].
      rewrite (Z.bits_above_log2 a); try apply andb_false_r; try lia. apply Z.log2_lt_pow2; try lia.
      apply Z.lt_le_trans with (2 ^ n); try lia; apply Z.pow_le_mono_r; lia. }
  rewrite <- Z.lxor_lor by exact E. symmetry. apply Z.add_nocarry_lxor. exact E.
Qed.

Definition is_u48 (v : Z) : Prop := 0 <= v < 281474976710656.

Lemma pack_eq k i t v1 v2 : is_u48 v1 -> is_u48 v2 ->
  pack_values k i t v1 v2 =
  mkRaw k i t (v1 mod 4294967296) (v2 mod 4294967296)
        (v1 / 4294967296 * 65536 + v2 / 4294967296).
Proof.
  unfold is_u48; intros H1 H2. unfold pack_values, u32. f_equal.
  rewrite !Z.shiftr_div_pow2 by lia. change (2 ^ 16) with 65536. change (2 ^ 32) with 4294967296.
  rewrite (Z.mod_small (v1 / 65536)) by (Z.to_euclidean_division_equations; lia).
  rewrite (Z.mod_small (v2 / 4294967296)) by (Z.to_euclidean_division_equations; lia).
  rewrite land_hi by (change (2 ^ 32) with 4294967296; Z.to_euclidean_division_equations; lia).
  replace (v1 / 65536 / 65536) with (v1 / 4294967296)
    by (rewrite Z.div_div by lia; reflexivity).
  rewrite Z.lor_comm. change 65536 with (2 ^ 16). rewrite lor_disjoint.
  - lia.
  - lia.
  - change (2 ^ 16) with 65536. Z.to_euclidean_division_equations; lia.
Qed.

Lemma start_value_eq e : raw_ok e ->
  start_value e = payload1_lower e + payloads_upper e / 65536 * 4294967296.
Proof.
  intros (_&_&_&H1&_&H3). unfold is_u32 in *. unfold start_value.
  rewrite land_hi by (change (2 ^ 32) with 4294967296; lia).
  rewrite Z.shiftl_mul_pow2 by lia.
  replace (payloads_upper e / 65536 * 65536 * 2 ^ 16) with (payloads_upper e / 65536 * 2 ^ 32)
    by (change (2 ^ 32) with 4294967296; change (2 ^ 16) with 65536; lia).
  rewrite lor_disjoint; auto; change (2 ^ 32) with 4294967296; lia.
Qed.

Lemma end_value_eq e : raw_ok e ->
  end_value e = payload2_lower e + payloads_upper e mod 65536 * 4294967296.
Proof.
  intros (_&_&_&H1&H2&H3). unfold is_u32 in *. unfold end_value.
  rewrite land_lo. rewrite Z.shiftl_mul_pow2 by lia. rewrite lor_disjoint; auto;
    change (2 ^ 32) with 4294967296; lia.
Qed.

Lemma pack_raw_ok k i t v1 v2 : is_u64 k -> is_u64 i -> is_u32 t -> is_u48 v1 -> is_u48 v2 ->
  raw_ok (pack_values k i t v1 v2).
Proof.
  intros Hk Hi Ht H1 H2. rewrite pack_eq by auto. unfold is_u48 in *.
  repeat split; simpl; try apply Hk; try apply Hi; try apply Ht;
    Z.to_euclidean_division_equations; lia.
Qed.

Lemma pack_start k i t v1 v2 : is_u48 v1 -> is_u48 v2 -> start_value (pack_values k i t v1 v2) = v1.
Proof.
  intros H1 H2.
  transitivity (start_value (pack_values 0 0 0 v1 v2)); [reflexivity|].
  rewrite start_value_eq by (apply pack_raw_ok; auto; red; lia).
  rewrite pack_eq by auto. cbn [payload1_lower payloads_upper]. unfold is_u48 in *.
  rewrite Z.add_comm, Z.div_add_l by lia.
  Z.to_euclidean_division_equations; lia.
Qed.

Lemma pack_end k i t v1 v2 : is_u48 v1 -> is_u48 v2 -> end_value (pack_values k i t v1 v2) = v2.
Proof.
  intros H1 H2.
  transitivity (end_value (pack_values 0 0 0 v1 v2)); [reflexivity|].
  rewrite end_value_eq by (apply pack_raw_ok; auto; red; lia).
  rewrite pack_eq by auto. cbn [payload2_lower payloads_upper]. unfold is_u48 in *.
  rewrite Z.add_comm, (Z.add_comm (_ * 65536)), Z.mod_add by lia.
  Z.to_euclidean_division_equations; lia.
Qed.

Lemma value_start e : value e = start_value e.
Proof. reflexivity. Qed.

(** *** constructors *)
Lemma new_interval_ok k i t s e r : is_u64 s -> is_u64 e -> new_interval k i t s e = Ok r ->
  r = pack_values k i t s e /\ is_u48 s /\ is_u48 e /\ s <= e /\ e <= MAX_INTERVAL_VALUE.
Proof.
  unfold new_interval, is_u64, is_u48, MAX_INTERVAL_VALUE, INTEGER_MARKER, INSTANT_MARKER.
  destruct (Z.leb_spec s e); [|discriminate].
  destruct (Z.leb_spec e (281474976710655 - 1 - 1)); [|discriminate].
  intros ? ? E; inversion E; subst. repeat split; auto; lia.
Qed.

Lemma new_instant_ok k i t s r : is_u64 s -> new_instant k i t s = Ok r ->
  r = pack_values k i t s INSTANT_MARKER /\ is_u48 s.
Proof.
  unfold new_instant, is_u64, is_u48, MAX_SINGLE_VALUE, INSTANT_MARKER.
  destruct (Z.leb_spec s 281474976710655); [|discriminate].
  intros ? E; inversion E; subst. split; auto; lia.
Qed.

Lemma new_integer_ok k i t s r : is_u64 s -> new_integer k i t s = Ok r ->
  r = pack_values k i t s INTEGER_MARKER /\ is_u48 s.
Proof.
  unfold new_integer, is_u64, is_u48, MAX_SINGLE_VALUE, INSTANT_MARKER.
  destruct (Z.leb_spec s 281474976710655); [|discriminate].
  intros ? E; inversion E; subst. split; auto; lia.
Qed.

Lemma marker_u48 : is_u48 INSTANT_MARKER /\ is_u48 INTEGER_MARKER.
Proof. unfold is_u48, INTEGER_MARKER, INSTANT_MARKER; lia. Qed.

(** *** layout *)
Definition raw_bytes (e : raw_event) : bytes :=
  le_bytes 8 (event_kind e) ++ le_bytes 8 (event_id e) ++ le_bytes 4 (thread_id e) ++
  le_bytes 4 (payload1_lower e) ++ le_bytes 4 (payload2_lower e) ++ le_bytes 4 (payloads_upper e).

Lemma zlen_raw_bytes e : zlen (raw_bytes e) = 32.
Proof. unfold raw_bytes. rewrite !zlen_app, !zlen_le_bytes. reflexivity. Qed.

Lemma raw_bytes_ok e : bytes_ok (raw_bytes e).
Proof. unfold raw_bytes. rewrite !bytes_ok_app. repeat split; apply le_bytes_ok. Qed.

Lemma blit_next (pre src rest : bytes) k :
  k = zlen pre -> zlen src <= zlen rest ->
  blit k src (pre ++ rest) = (pre ++ src) ++ zdrop (zlen src) rest.
Proof.
  intros -> H. unfold blit. rewrite ztake_app. rewrite zdrop_app_ge by (pose proof (zlen_nonneg src); lia).
  replace (zlen pre + zlen src - zlen pre) with (zlen src) by lia. rewrite app_assoc. reflexivity.
Qed.

Lemma blit6 a b c d e f dst : zlen a = 8 -> zlen b = 8 -> zlen c = 4 -> zlen d = 4 -> zlen e = 4 ->
  zlen f = 4 -> zlen dst = 32 ->
  blit 28 f (blit 24 e (blit 20 d (blit 16 c (blit 8 b (blit 0 a dst))))) =
  a ++ b ++ c ++ d ++ e ++ f.
Proof.
  intros Ha Hb Hc Hd He Hf Hdst.
  change dst with ([] ++ dst) at 1. rewrite (blit_next [] a dst 0); [|reflexivity|lia]. cbn [app].
  set (r1 := zdrop (zlen a) dst). assert (L1 : zlen r1 = 24) by (unfold r1; rewrite zlen_zdrop; lia).
  rewrite (blit_next a b r1 8) by lia.
  set (r2 := zdrop (zlen b) r1). assert (L2 : zlen r2 = 16) by (unfold r2; rewrite zlen_zdrop; lia).
  rewrite (blit_next (a ++ b) c r2 16) by (rewrite ?zlen_app; lia).
  set (r3 := zdrop (zlen c) r2). assert (L3 : zlen r3 = 12) by (unfold r3; rewrite zlen_zdrop; lia).
  rewrite (blit_next ((a ++ b) ++ c) d r3 20) by (rewrite ?zlen_app; lia).
  set (r4 := zdrop (zlen d) r3). assert (L4 : zlen r4 = 8) by (unfold r4; rewrite zlen_zdrop; lia).
  rewrite (blit_next (((a ++ b) ++ c) ++ d) e r4 24) by (rewrite ?zlen_app; lia).
  set (r5 := zdrop (zlen e) r4). assert (L5 : zlen r5 = 4) by (unfold r5; rewrite zlen_zdrop; lia).
  rewrite (blit_next ((((a ++ b) ++ c) ++ d) ++ e) f r5 28) by (rewrite ?zlen_app; lia).
  rewrite zdrop_all by lia. rewrite app_nil_r, <- !app_assoc. reflexivity.
Qed.

Lemma serialize_eq en e dst : serialize en e dst = if zlen dst =? 32 then Ok (raw_bytes e) else Panic.
Proof.
  unfold serialize. change RAW_EVENT_SIZE with 32. destruct (Z.eqb_spec (zlen dst) 32); auto.
  destruct en; f_equal.
  - unfold mem_image. change RAW_OFFSETS with [0; 8; 16; 20; 24; 28]. unfold RAW_FIELDS, raw_fields.
    cbn [combine blit_fields].
    change (Z.to_nat 8) with 8%nat. change (Z.to_nat 4) with 4%nat.
    unfold raw_bytes. apply blit6; rewrite ?zlen_le_bytes; auto.
  - unfold raw_bytes. apply blit6; rewrite ?zlen_le_bytes; auto.
Qed.

Definition raw_of (b : bytes) : raw_event :=
  mkRaw (le_val (zslice 0 8 b)) (le_val (zslice 8 16 b)) (le_val (zslice 16 20 b))
        (le_val (zslice 20 24 b)) (le_val (zslice 24 28 b)) (le_val (zslice 28 32 b)).

Lemma deserialize_eq en b : deserialize en b = if zlen b =? 32 then Ok (raw_of b) else Panic.
Proof. unfold deserialize. change RAW_EVENT_SIZE with 32. destruct (zlen b =? 32), en; reflexivity. Qed.

Lemma zslice_app_skip {A} n m (a b : list A) : zlen a <= n ->
  zslice n m (a ++ b) = zslice (n - zlen a) (m - zlen a) b.
Proof.
  intros. unfold zslice. rewrite zdrop_app_ge by auto. f_equal. lia.
Qed.

Lemma zslice_app_first {A} m (a b : list A) : m = zlen a -> zslice 0 m (a ++ b) = a.
Proof. intros ->. unfold zslice. rewrite zdrop_0, Z.sub_0_r. apply ztake_app. Qed.

Lemma zslice_split {A} n m (l : list A) : 0 <= n <= m -> m <= zlen l ->
  zdrop n l = zslice n m l ++ zdrop m l.
Proof.
  intros. unfold zslice. rewrite <- (ztake_zdrop (m - n) (zdrop n l)) at 1.
  f_equal. rewrite zdrop_zdrop by lia. f_equal. lia.
Qed.

Lemma zslice_len {A} n m (l : list A) : 0 <= n <= m -> m <= zlen l -> zlen (zslice n m l) = m - n.
Proof. intros. unfold zslice. rewrite zlen_ztake; auto. rewrite zlen_zdrop; lia. Qed.

Lemma zslice_bytes_ok n m b : bytes_ok b -> bytes_ok (zslice n m b).
Proof.
  unfold bytes_ok. intros H. apply Forall_forall. intros x Hx. unfold zslice, ztake, zdrop in Hx.
  rewrite Forall_forall in H. apply H. rewrite <- (firstn_skipn (Z.to_nat n) b). apply in_app_iff. right.
  rewrite <- (firstn_skipn (Z.to_nat (m - n)) (skipn (Z.to_nat n) b)). apply in_app_iff. auto.
Qed.

Lemma raw_of_bytes e : raw_ok e -> raw_of (raw_bytes e) = e.
Proof.
  intros (H1&H2&H3&H4&H5&H6). unfold is_u64, is_u32 in *. destruct e as [k i t a b c]; cbn in *.
  unfold raw_of, raw_bytes; cbn [event_kind event_id thread_id payload1_lower payload2_lower payloads_upper].
  repeat match goal with
  | |- context [le_bytes ?n ?v] =>
      pose proof (zlen_le_bytes n v); assert (le_val (le_bytes n v) = v)
        by (apply le_val_bytes_small; try (change (256 ^ Z.of_nat 8) with 18446744073709551616);
            try (change (256 ^ Z.of_nat 4) with 4294967296); assumption);
      generalize dependent (le_bytes n v); intros
  end.
  change (Z.of_nat 8) with 8 in *. change (Z.of_nat 4) with 4 in *.
  assert (Z0 : forall n (l : bytes), zlen l = n -> zslice 0 n l = l).
  { intros n l <-. unfold zslice. rewrite zdrop_0. apply ztake_all. lia. }
  f_equal; repeat (rewrite zslice_app_skip by lia);
    match goal with |- le_val (zslice ?n ?m _) = _ =>
      replace n with 0 by lia; first [replace m with 8 by lia | replace m with 4 by lia] end;
    first [rewrite zslice_app_first by lia | rewrite Z0 by lia]; auto.
Qed.

Lemma raw_of_ok b : bytes_ok b -> zlen b = 32 -> raw_ok (raw_of b).
Proof.
  intros Hb Hl. unfold raw_ok, raw_of, is_u64, is_u32.
  cbn [event_kind event_id thread_id payload1_lower payload2_lower payloads_upper].
  assert (forall n m, 0 <= n <= m -> m <= 32 -> 0 <= le_val (zslice n m b) < 256 ^ (m - n)) as R.
  { intros n m Hn Hm. pose proof (le_val_range (zslice n m b) (zslice_bytes_ok n m b Hb)) as R.
    rewrite zslice_len in R by lia. exact R. }
  repeat split; match goal with |- context [zslice ?n ?m b] =>
    destruct (R n m ltac:(lia) ltac:(lia)) as [R1 R2]; (exact R1 || exact R2) end.
Qed.

Lemma raw_bytes_of b : bytes_ok b -> zlen b = 32 -> raw_bytes (raw_of b) = b.
Proof.
  intros Hb Hl. unfold raw_bytes, raw_of.
  cbn [event_kind event_id thread_id payload1_lower payload2_lower payloads_upper].
  assert (forall n m k, 0 <= n <= m -> m <= 32 -> k = Z.to_nat (m - n) ->
     le_bytes k (le_val (zslice n m b)) = zslice n m b) as R.
  { intros n m k Hn Hm ->. rewrite <- (zslice_len n m b) by lia. unfold zlen at 1. rewrite Nat2Z.id.
    apply le_bytes_val. apply zslice_bytes_ok; auto. }
  rewrite !R by (lia || reflexivity).
  rewrite <- (zdrop_0 b) at 7.
  rewrite (zslice_split 0 8 b), (zslice_split 8 16 b), (zslice_split 16 20 b), (zslice_split 20 24 b),
    (zslice_split 24 28 b), (zslice_split 28 32 b) by lia.
  rewrite (zdrop_all 32 b) by lia. rewrite app_nil_r. reflexivity.
Qed.
