(** C70: reading the events of any file. *)
From Coq Require Import String ZArith List Lia Bool.
From Verif Require Import M_Base F_Base F_Raw M_Map S_Utf8 M_Utf8 F_Utf8 Prop_Utf8 S_Lossy Prop_Lossy M_Raw Prop_Raw M_Header M_V8 M_Strings M_StrTable F_Strings M_EventId S_EventId F_EventId Prop_EventId
  M_Iter Prop_Format M_Session M_Run S_Corrupt Prop_Corrupt S_Events.
Import ListNotations.
Open Scope Z_scope.

(** ** the 32 bytes *)
Lemma le4_halves u : 0 <= u < 2 ^ 32 -> le_bytes 4 u = le_bytes 2 (u mod 65536) ++ le_bytes 2 (u / 65536).
Proof.
  intros H. set (b := le_bytes 2 (u mod 65536) ++ le_bytes 2 (u / 65536)).
  assert (le_val b = u) as E.
  { unfold b. rewrite le_val_app, zlen_le_bytes, !le_val_bytes_small; [change (256 ^ Z.of_nat 2) with 65536; Z.to_euclidean_division_equations; lia| |];
    change (256 ^ Z.of_nat 2) with 65536; change (2 ^ 32) with 4294967296 in H; Z.to_euclidean_division_equations; lia. }
  rewrite <- E. change 4%nat with (length b). apply le_bytes_val. unfold b. apply bytes_ok_app. split; apply le_bytes_ok.
Qed.
Lemma event_bytes_raw b : bytes_ok b -> zlen b = 32 -> let r := raw_of b in
  event_bytes b (event_kind r) (event_id r) (thread_id r) (start_value r) (end_value r).
Proof.
  intros OK L r. pose proof (raw_of_ok b OK L) as RO. fold r in RO. unfold event_bytes. rewrite start_value_eq, end_value_eq by auto.
  destruct RO as (H1 & H2 & H3 & H4 & H5 & H6). unfold is_u64, is_u32 in *.
  change (2 ^ 64) with 18446744073709551616. change (2 ^ 32) with 4294967296. change (2 ^ 48) with 281474976710656.
  split; [lia|]. split; [lia|]. split; [lia|]. split; [Z.to_euclidean_division_equations; lia|]. split; [Z.to_euclidean_division_equations; lia|].
  rewrite <- (raw_bytes_of b OK L) at 1. fold r. unfold raw_bytes.
  rewrite (le4_halves (payloads_upper r)) by (change (2 ^ 32) with 4294967296; lia).
  rewrite !Z.mod_add, !Z.div_add, !(Z.mod_small (payload1_lower r)), !(Z.mod_small (payload2_lower r)), !(Z.div_small (payload1_lower r)), !(Z.div_small (payload2_lower r)) by lia.
  reflexivity.
Qed.
Lemma event_bytes_fields b k i t f s : event_bytes b k i t f s -> zlen b = 32 /\ let r := raw_of b in
  event_kind r = k /\ event_id r = i /\ thread_id r = t /\ start_value r = f /\ end_value r = s.
Proof.
  intros (Hk & Hi & Ht & Hf & Hs & ->). split; [rewrite !zlen_app, !zlen_le_bytes; reflexivity|].
  assert (is_u48 f) as F by exact Hf. assert (is_u48 s) as S by exact Hs.
  assert (raw_ok (pack_values k i t f s)) as RO by (apply pack_raw_ok; auto).
  set (b := _ ++ _). assert (b = raw_bytes (pack_values k i t f s)) as ->.
  { unfold b, raw_bytes. rewrite pack_eq by auto. cbn [event_kind event_id thread_id payload1_lower payload2_lower payloads_upper].
    rewrite (le4_halves (f / 4294967296 * 65536 + s / 4294967296)).
    - change (2 ^ 32) with 4294967296. unfold is_u48 in *. rewrite (Z.add_comm (f / 4294967296 * 65536)), Z.mod_add, Z.div_add by lia.
      rewrite (Z.mod_small (s / 4294967296)), (Z.div_small (s / 4294967296)) by (Z.to_euclidean_division_equations; lia). reflexivity.
    - unfold is_u48 in *. change (2 ^ 32) with 4294967296. Z.to_euclidean_division_equations; lia. }
  rewrite raw_of_bytes by auto. cbv zeta. rewrite pack_start, pack_end by auto. auto.
Qed.

Lemma payload_exact r start p : raw_ok r -> payload_from_raw_event r start = Ok p <-> event_payload start (start_value r) (end_value r) p.
Proof.
  intros RO. assert (0 <= end_value r < 2 ^ 48) as R.
  { rewrite end_value_eq by auto. destruct RO as (_ & _ & _ & _ & H5 & H6). unfold is_u32 in *. change (2 ^ 48) with 281474976710656. Z.to_euclidean_division_equations; lia. }
  unfold payload_from_raw_event, timestamp_from_raw_event, is_integer, is_instant, event_payload. rewrite value_start.
  change INTEGER_MARKER with (2 ^ 48 - 2). change INSTANT_MARKER with (2 ^ 48 - 1). destruct (Z.eqb_spec (end_value r) (2 ^ 48 - 2)) as [E|N].
  - split; [intros [= <-]|intros (_ & H & _); rewrite H by auto; reflexivity]. split; [lia|]. split; [auto|lia].
  - destruct (Z.eqb_spec (end_value r) (2 ^ 48 - 1)) as [E|N']; cbn [bind].
    + split; [intros [= <-]|intros (H & _ & _); rewrite H by auto; reflexivity]. split; [auto|]. split; lia.
    + split; [intros [= <-]|intros (_ & _ & H); rewrite H by lia; reflexivity]. split; [lia|]. split; [lia|auto].
Qed.

(** ** event ids *)
Lemma join_unique t0 ts : forall t0' ts', join t0 ts = join t0' ts' -> ~ In 30 t0 -> ~ In 30 t0' -> Forall (fun t => ~ In 30 t) ts -> Forall (fun t => ~ In 30 t) ts' -> t0 = t0' /\ ts = ts'.
Proof.
  assert (forall (a a' r r' : bytes), a ++ r = a' ++ r' -> ~ In 30 a -> ~ In 30 a' -> boundary r -> boundary r' -> a = a' /\ r = r') as K.
  { induction a as [|x a IH]; intros [|x' a'] r r' E N N' B B'; cbn in E.
    - auto.
    - exfalso. destruct B as [->|(w & ->)]; [discriminate|]. injection E as <- _. cbn in N'. tauto.
    - exfalso. destruct B' as [->|(w & ->)]; [discriminate|]. injection E as -> _. cbn in N. tauto.
    - injection E as -> E. cbn in N, N'. destruct (IH a' r r' E) as (-> & ->); auto. }
  assert (forall l : list bytes, boundary (flat_map (fun a => 30 :: a) l)) as Bd by (intros [|a l]; [left; reflexivity|right; cbn; eauto]).
  revert t0. induction ts as [|t ts IH]; intros t0 t0' ts' E N N' F F'; unfold join in E; apply K in E; auto; destruct E as (-> & E).
  - destruct ts'; [auto|discriminate].
  - destruct ts' as [|t' ts']; [discriminate|]. cbn in E. injection E as E. inversion F; inversion F'; subst. destruct (IH t t' ts' E) as (-> & ->); auto.
Qed.
Lemma means_unique text l a l' a' : means text l a -> means text l' a' -> l = l' /\ a = a'.
Proof.
  intros (t0 & ts & -> & N0 & Ns & C) (t0' & ts' & E & N0' & Ns' & C'). apply join_unique in E; auto. destruct E as (<- & <-).
  destruct C as [(B & -> & ->)|(G & -> & F & C)], C' as [(B' & -> & ->)|(G' & -> & F' & C')]; try tauto.
  split; [reflexivity|]. clear -F F' C C'.
  assert (forall r r', a ++ r = a' ++ r' -> (r = [] \/ exists b q, r = b :: q /\ ~ good_text b) -> (r' = [] \/ exists b q, r' = b :: q /\ ~ good_text b) -> a = a') as K.
  { clear ts C C'. revert a' F'. induction a as [|x a IH]; intros [|x' a'] F' r r' E R R'; cbn in E; auto.
    - exfalso. apply Forall_inv in F'. destruct R as [->|(b & q & -> & NB)]; [discriminate|]. injection E as -> _. auto.
    - exfalso. apply Forall_inv in F. destruct R' as [->|(b & q & -> & NB)]; [discriminate|]. injection E as <- _. auto.
    - injection E as -> E. f_equal. eapply IH; eauto; eapply Forall_inv_tail; eauto. }
  assert (forall c, ts = c \/ (exists bad rest, ts = c ++ bad :: rest /\ ~ good_text bad) -> exists r, ts = c ++ r /\ (r = [] \/ exists b q, r = b :: q /\ ~ good_text b)) as X.
  { intros c [->|(b & q & E & NB)]; [exists []; rewrite app_nil_r; auto|]. exists (b :: q). split; [auto|]. right. eauto. }
  apply X in C. apply X in C'. destruct C as (r & E & R), C' as (r' & E' & R'). apply (K r r'); auto. congruence.
Qed.
Lemma parse_means text : utf8 text -> exists l a, parse_event_id text = Ok (l, a) /\ means text l a.
Proof.
  intros U. destruct (C20_total text U) as (l & a & E & t0 & ts & Et & N0 & Ns & C). exists l, a. split; [exact E|]. exists t0, ts.
  split; [exact Et|]. split; [auto|]. split; [auto|]. destruct C as [(B & -> & ->)|(G & -> & F & rest & Er & _ & R)]; [left; auto|right].
  split; [auto|]. split; [auto|]. split; [auto|]. destruct R as [(-> & _)|(b & r & -> & NB)]; [left; rewrite app_nil_r in Er; auto|right; eauto].
Qed.

(** ** every text that is read is UTF-8 *)
Lemma texts_utf8 d ix : bytes_ok d ->
  (forall a o, string_at d ix a o -> forall t, o = Text t -> utf8 t) /\ (forall id o, string_of d ix id o -> forall t, o = Text t -> utf8 t).
Proof.
  intros OK. apply (strings_min d ix (fun a o => forall t, o = Text t -> utf8 t) (fun id o => forall t, o = Text t -> utf8 t)); try (intros; discriminate).
  - intros _ _ _ t [= <-]. apply utf8_nil.
  - intros pre v b post t o E _ _ _ _ D _ IH t' E'. destruct o as [u|]; [|discriminate]. injection E' as <-.
    assert (bytes_ok v) as Ov by (rewrite E in OK; apply bytes_ok_app in OK; destruct OK as (_ & OK); apply bytes_ok_app in OK; tauto).
    apply C50_lossy_exact in D; auto. subst t. apply utf8_app; [apply C50_lossy; auto|apply IH; reflexivity].
  - intros _ _ _ _ _ _ t [= <-]. apply utf8_ascii_list. repeat constructor; lia.
  - intros pre ref post t o _ _ _ IH _ IH' t' E'. destruct o as [u|]; [|discriminate]. injection E' as <-. apply utf8_app; auto.
  - intros _ _ _ t [= <-]. apply utf8_ascii_list. repeat constructor; lia.
  - intros t [= <-]. apply utf8_ascii_list. repeat constructor; lia.
  - auto.
  - auto.
Qed.
Lemma shown_utf8 d ix id o : bytes_ok d -> shown d ix id o -> forall t, o = Text t -> utf8 t.
Proof.
  intros OK H. induction H; intros t E; try discriminate; auto.
  - injection E as <-. apply utf8_ascii_list. repeat constructor; lia.
  - injection E as <-. apply utf8_ascii_list. repeat constructor; lia.
  - injection E as <-. auto.
  - eapply (proj2 (texts_utf8 d ix OK)); eauto.
Qed.

(** ** one event *)
Definition result_of_reading (o : reading) : res event := match o with Read e => Ok e | Panics => Panic end.
Section Decoder.
Variables (en : endian) (head e d : bytes) (ix : list (Z * Z)) (md : metadata).
Hypothesis Hhead : zlen head = 8.
Hypothesis He : bytes_ok e.
Hypothesis Ht : from_a_file (mkTable d ix).
Notation dec := (mkDecoder (head ++ e) (mkTable d ix) md).
Notation start := (md_start_time md).
Notation reads := (reads_event d ix start).

Lemma raw_at_block pre b post : e = pre ++ b ++ post -> zlen b = 32 -> zlen pre mod 32 = 0 ->
  raw_at en dec (zlen pre / 32) = Ok (raw_of b).
Proof.
  intros E Lb Lp. unfold raw_at. change RAW_EVENT_SIZE with 32. unfold event_index_to_addr. change FILE_HEADER_SIZE with 8. change RAW_EVENT_SIZE with 32. cbn [event_data].
  assert (zlen pre / 32 * 32 = zlen pre) as -> by (pose proof (Z.div_mod (zlen pre) 32 ltac:(lia)); lia).
  rewrite E, !zlen_app, Lb. pose proof (zlen_nonneg post). pose proof (zlen_nonneg pre). destruct (Z.leb_spec (8 + zlen pre + 32) (zlen head + (zlen pre + (32 + zlen post)))); [|lia].
  rewrite zslice_app_skip by lia. rewrite Hhead. rewrite zslice_app_skip by lia. replace (8 + zlen pre - 8 - zlen pre) with 0 by lia.
  replace (8 + zlen pre + 32 - 8 - zlen pre) with 32 by lia. rewrite zslice_app_first by lia. rewrite deserialize_eq, Lb. reflexivity.
Qed.
Lemma raw_payload b : bytes_ok b -> zlen b = 32 -> exists p, payload_from_raw_event (raw_of b) start = Ok p /\ event_payload start (start_value (raw_of b)) (end_value (raw_of b)) p.
Proof.
  intros OK L. destruct (C09_decoder (raw_of b) start) as (p & E & _). exists p. split; [auto|]. apply payload_exact; auto. apply raw_of_ok; auto.
Qed.
Lemma block_ok pre b post : e = pre ++ b ++ post -> bytes_ok b.
Proof. intros E. pose proof He as H. rewrite E in H. apply bytes_ok_app in H. destruct H as (_ & H). apply bytes_ok_app in H. tauto. Qed.

Definition e_ev (r : nat -> res event) (o : reading) : Prop := exists n, forall m, (n <= m)%nat -> r m = result_of_reading o.

Lemma full_of b i fuel : bytes_ok b -> zlen b = 32 -> raw_at en dec i = Ok (raw_of b) ->
  decode_full_event fuel en dec i =
  (do p <- payload_from_raw_event (raw_of b) start; do id <- to_string fuel (mkTable d ix) (event_id (raw_of b)); do parsed <- parse_event_id id;
   do kind <- to_string fuel (mkTable d ix) (event_kind (raw_of b)); Ok (mkEv kind (fst parsed) (snd parsed) p (thread_id (raw_of b)))).
Proof. intros OK L R. unfold decode_full_event. rewrite R. reflexivity. Qed.

Lemma event_sound b i o : bytes_ok b -> zlen b = 32 -> raw_at en dec i = Ok (raw_of b) -> reads b o -> e_ev (fun fuel => decode_full_event fuel en dec i) o.
Proof.
  intros OK L R H. destruct (raw_payload b OK L) as (p & Ep & Pp).
  assert (forall id, forall o, shown d ix id o -> exists n, forall m, (n <= m)%nat -> to_string m (mkTable d ix) id = result_of o) as C.
  { intros id o'. apply (proj1 (C68_to_string (mkTable d ix) id Ht)). }
  inversion H as [k0 i0 t0 f0 s0 B S1|k0 i0 t0 f0 s0 t B S1 S2|k0 i0 t0 f0 s0 t k l a p' B S1 S2 M PP]; subst o; apply event_bytes_fields in B; destruct B as (_ & <- & <- & <- & <- & <-).
  - destruct (C _ _ S1) as (n & Hn). exists n. intros m Hm. rewrite (full_of b i m OK L R), Ep, (Hn m Hm). reflexivity.
  - destruct (C _ _ S1) as (n & Hn). destruct (C _ _ S2) as (n' & Hn'). exists (Nat.max n n'). intros m Hm. rewrite (full_of b i m OK L R), Ep, (Hn m), (Hn' m) by lia.
    cbn [bind result_of]. destruct (parse_means t) as (l & a & -> & _); [eapply shown_utf8; [apply Ht|exact S1|reflexivity]|]. reflexivity.
  - destruct (C _ _ S1) as (n & Hn). destruct (C _ _ S2) as (n' & Hn'). exists (Nat.max n n'). intros m Hm. rewrite (full_of b i m OK L R), Ep, (Hn m), (Hn' m) by lia.
    cbn [bind result_of]. destruct (parse_means t) as (l' & a' & -> & M'); [eapply shown_utf8; [apply Ht|exact S1|reflexivity]|].
    destruct (means_unique _ _ _ _ _ M M') as (-> & ->). cbn [bind fst snd]. assert (Ok p = Ok p') as E.
    { rewrite <- Ep. apply payload_exact; [apply raw_of_ok; auto|exact PP]. }
    injection E as ->. reflexivity.
Qed.
Lemma event_complete b i fuel : bytes_ok b -> zlen b = 32 -> raw_at en dec i = Ok (raw_of b) ->
  decode_full_event fuel en dec i = Diverge \/ exists o, reads b o /\ decode_full_event fuel en dec i = result_of_reading o.
Proof.
  intros OK L R. destruct (raw_payload b OK L) as (p & Ep & Pp). pose proof (event_bytes_raw b OK L) as B. cbv zeta in B.
  rewrite (full_of b i fuel OK L R), Ep. cbn [bind]. destruct Ht as (Hd & Hi). cbn [string_data index] in *.
  destruct (complete_ts (mkTable d ix) Hd Hi fuel (event_id (raw_of b))) as [->|([t|] & S1 & ->)]; cbn [bind result_of]; [left; reflexivity| |].
  2:{ right. exists Panics. split; [|reflexivity]. eapply re_id; eauto. }
  destruct (parse_means t) as (l & a & -> & M); [eapply shown_utf8; [exact Hd|exact S1|reflexivity]|]. cbn [bind fst snd].
  destruct (complete_ts (mkTable d ix) Hd Hi fuel (event_kind (raw_of b))) as [->|([k|] & S2 & ->)]; cbn [bind result_of]; [left; reflexivity| |].
  - right. eexists (Read _). split; [|reflexivity]. eapply re_ok; eauto.
  - right. exists Panics. split; [|reflexivity]. eapply re_kind; eauto.
Qed.
End Decoder.

Lemma limit_spec {A O} (res_of : O -> res A) (r : nat -> res A) (S : O -> Prop) :
  (forall o o', res_of o = res_of o' -> o = o') -> (forall o, res_of o <> Diverge) ->
  (forall m, r m = Diverge \/ exists o, S o /\ r m = res_of o) -> (forall o, S o -> exists n, forall m, (n <= m)%nat -> r m = res_of o) ->
  (forall o, S o <-> exists n, forall m, (n <= m)%nat -> r m = res_of o) /\ (forall o o', S o -> S o' -> o = o') /\ ((forall o, ~ S o) <-> forall m, r m = Diverge).
Proof.
  intros J ND C So.
  assert (forall o o', (exists n, forall m, (n <= m)%nat -> r m = res_of o) -> (exists n, forall m, (n <= m)%nat -> r m = res_of o') -> o = o') as U.
  { intros o o' (n & Hn) (n' & Hn'). apply J. rewrite <- (Hn (Nat.max n n')), <- (Hn' (Nat.max n n')) by lia. reflexivity. }
  split; [|split].
  - intros o. split; [apply So|]. intros (n & Hn). destruct (C n) as [E|(o' & Ho & E)]; rewrite Hn in E by lia; [destruct (ND _ E)|]. apply J in E. subst. auto.
  - eauto.
  - split.
    + intros N m. destruct (C m) as [|(o & Ho & _)]; [auto|]. destruct (N _ Ho).
    + intros D o Ho. destruct (So _ Ho) as (n & Hn). specialize (Hn n ltac:(lia)). rewrite D in Hn. symmetry in Hn. destruct (ND _ Hn).
Qed.

(** The event with a given index, in full and without its texts; beyond the last one there is a panic. *)
Theorem C70_event : forall en head e d ix md i, zlen head = 8 -> bytes_ok e -> from_a_file (mkTable d ix) -> 0 <= i ->
  let decoder := mkDecoder (head ++ e) (mkTable d ix) md in
  (forall pre b post, e = pre ++ b ++ post -> zlen pre = 32 * i -> zlen b = 32 ->
    let spec := reads_event d ix (md_start_time md) b in
    let run fuel := decode_full_event fuel en decoder i in
    (forall o, spec o <-> exists n, forall fuel, (n <= fuel)%nat -> run fuel = result_of_reading o) /\
    (forall o o', spec o -> spec o' -> o = o') /\ ((forall o, ~ spec o) <-> forall fuel, run fuel = Diverge) /\
    exists kind id thread first second p, event_bytes b kind id thread first second /\ event_payload (md_start_time md) first second p /\
      decode_lightweight_event en decoder i = Ok (mkLw i thread p)) /\
  (zlen e < 32 * (i + 1) -> decode_lightweight_event en decoder i = Panic /\ forall fuel, decode_full_event fuel en decoder i = Panic).
Proof.
  intros en head e d ix md i Hh He Ht Hi decoder. split.
  - intros pre b post E Lp Lb. assert (raw_at en decoder i = Ok (raw_of b)) as R.
    { replace i with (zlen pre / 32) by (rewrite Lp, Z.mul_comm; apply Z.div_mul; lia). eapply raw_at_block; eauto. rewrite Lp, Z.mul_comm. apply Z.mod_mul; lia. }
    pose proof (block_ok e He pre b post E) as OK. cbv zeta.
    destruct (limit_spec result_of_reading (fun fuel => decode_full_event fuel en decoder i) (reads_event d ix (md_start_time md) b)) as (L1 & L2 & L3).
    { intros [] []; cbn; congruence. }
    { intros []; discriminate. }
    { intros m. apply event_complete; auto. }
    { intros o. apply event_sound; auto. }
    split; [exact L1|]. split; [exact L2|]. split; [exact L3|].
    destruct (raw_payload md b OK Lb) as (p & Ep & Pp). pose proof (event_bytes_raw b OK Lb) as B. cbv zeta in B.
    exists (event_kind (raw_of b)), (event_id (raw_of b)), (thread_id (raw_of b)), (start_value (raw_of b)), (end_value (raw_of b)), p.
    split; [exact B|]. split; [exact Pp|]. unfold decode_lightweight_event. rewrite R. cbn [bind d_metadata decoder]. rewrite Ep. reflexivity.
  - intros L. assert (raw_at en decoder i = Panic) as R.
    { unfold raw_at, event_index_to_addr. change RAW_EVENT_SIZE with 32. change FILE_HEADER_SIZE with 8. unfold decoder. cbn [event_data]. rewrite zlen_app.
      destruct (Z.leb_spec (8 + i * 32 + 32) (zlen head + zlen e)); [lia|]. reflexivity. }
    split; [unfold decode_lightweight_event|intros fuel; unfold decode_full_event]; rewrite R; reflexivity.
Qed.
Print Assumptions C70_event.

(** ** all events *)
Definition result_of_all (o : reading_all) : res (list event) := match o with ReadAll es => Ok es | PanicsAll => Panic end.

Section All.
Variables (en : endian) (head e d : bytes) (ix : list (Z * Z)) (md : metadata).
Hypothesis Hhead : zlen head = 8.
Hypothesis He : bytes_ok e.
Hypothesis Ht : from_a_file (mkTable d ix).
Notation dec := (mkDecoder (head ++ e) (mkTable d ix) md).
Notation reads := (reads_event d ix (md_start_time md)).
Notation all := (reads_all d ix (md_start_time md)).
Notation full fuel := (fun lw => decode_full_event fuel en dec (lw_index lw)).

Lemma light i : 0 <= i -> 32 * (i + 1) <= zlen e -> exists lw, decode_lightweight_event en dec i = Ok lw /\ lw_index lw = i.
Proof.
  intros Hi L. destruct (C70_event en head e d ix md i Hhead He Ht Hi) as (C & _).
  destruct (C (ztake (32 * i) e) (zslice (32 * i) (32 * i + 32) e) (zdrop (32 * i + 32) e)) as (_ & _ & _ & k & id & t & f & s & p & _ & _ & E).
  - rewrite <- zslice_split by lia. rewrite ztake_zdrop. reflexivity.
  - apply zlen_ztake. lia.
  - rewrite zslice_len; lia.
  - eauto.
Qed.
Lemma lights n : 32 * Z.of_nat n <= zlen e -> exists evs, length evs = n /\
  forall i lw, nth_error evs i = Some lw -> decode_lightweight_event en dec (Z.of_nat i) = Ok lw /\ lw_index lw = Z.of_nat i.
Proof.
  induction n as [|n IH]; intros L.
  - exists []. split; [reflexivity|]. intros [|i] lw; discriminate.
  - destruct IH as (evs & Ln & H); [lia|]. destruct (light (Z.of_nat n)) as (lw & E & Ei); [lia|lia|]. exists (evs ++ [lw]). split; [rewrite app_length; cbn; lia|].
    intros i lw' Hn. destruct (Nat.lt_ge_cases i n) as [Lt|Ge].
    + rewrite nth_error_app1 in Hn by lia. auto.
    + rewrite nth_error_app2 in Hn by lia. destruct (i - length evs)%nat as [|j] eqn:J; [|destruct j; discriminate]. injection Hn as <-.
      replace i with n by lia. auto.
Qed.

Lemma collect_more A (dc : Z -> res A) f : forall f' it, (f <= f')%nat -> iter_collect dc f it = Diverge \/ iter_collect dc f it = iter_collect dc f' it.
Proof.
  induction f as [|f IH]; intros f' it L; [left; reflexivity|]. destruct f' as [|f']; [lia|]. cbn [iter_collect].
  destruct (iter_next dc it) as [[[a|] it']| | |]; cbn [bind fst snd]; auto. destruct (IH f' it' ltac:(lia)) as [->| ->]; auto.
Qed.

(** the events from a position on *)
Lemma all_complete fuel evs : forall pre s, e = pre ++ s -> zlen pre mod 32 = 0 -> zlen s = 32 * zlen evs ->
  (forall i lw, nth_error evs i = Some lw -> lw_index lw = zlen pre / 32 + Z.of_nat i) ->
  mapM (full fuel) evs = Diverge \/ exists o, all s o /\ mapM (full fuel) evs = result_of_all o.
Proof.
  induction evs as [|lw evs IH]; intros pre s E Lp Ls Hi.
  - right. exists (ReadAll []). change (zlen (@nil lw_event)) with 0 in Ls. assert (s = []) as -> by (apply zlen_0; lia). split; [constructor|reflexivity].
  - rewrite zlen_cons in Ls. pose proof (zlen_nonneg evs). cbn [mapM].
    assert (s = ztake 32 s ++ zdrop 32 s) as Es by (symmetry; apply ztake_zdrop). set (b := ztake 32 s) in *. set (s' := zdrop 32 s) in *.
    assert (zlen b = 32) as Lb by (apply zlen_ztake; lia). assert (zlen s' = 32 * zlen evs) as Ls' by (unfold s'; rewrite zlen_zdrop by lia; lia).
    pose proof (Hi O lw eq_refl) as H0. rewrite Z.add_0_r in H0. rewrite Es in E.
    pose proof (raw_at_block en head e d ix md Hhead pre b s' E Lb Lp) as R. rewrite <- H0 in R.
    assert (zlen s' mod 32 = 0) as Ms by (rewrite Ls', Z.mul_comm; apply Z.mod_mul; lia).
    destruct (event_complete en head e d ix md Ht b (lw_index lw) fuel (block_ok e He pre b s' E) Lb R) as [->|([ev|] & Ho & ->)]; cbn [bind result_of_reading]; [left; reflexivity| |].
    + destruct (IH (pre ++ b) s') as [->|([es|] & Ha & ->)]; cbn [bind result_of_all].
      * rewrite E, app_assoc. reflexivity.
      * rewrite zlen_app, Lb. rewrite <- (Z.mul_1_l 32) at 1. rewrite Z.mod_add by lia. auto.
      * auto.
      * intros i lw' Hn. rewrite (Hi (S i) lw' Hn). rewrite zlen_app, Lb. rewrite <- (Z.mul_1_l 32) at 2. rewrite Z.div_add by lia. lia.
      * left. reflexivity.
      * right. exists (ReadAll (ev :: es)). split; [|reflexivity]. rewrite Es. apply ra_cons; auto.
      * right. exists PanicsAll. split; [|reflexivity]. rewrite Es. eapply ra_later; eauto.
    + right. exists PanicsAll. split; [|reflexivity]. rewrite Es. apply ra_panics; auto.
Qed.
Lemma all_sound s o : all s o -> zlen s mod 32 = 0 -> forall pre evs, e = pre ++ s -> zlen pre mod 32 = 0 -> zlen s = 32 * zlen evs ->
  (forall i lw, nth_error evs i = Some lw -> lw_index lw = zlen pre / 32 + Z.of_nat i) ->
  exists n, forall fuel, (n <= fuel)%nat -> mapM (full fuel) evs = result_of_all o.
Proof.
  assert (forall pre b s' lw evs, e = pre ++ b ++ s' -> zlen b = 32 -> zlen s' mod 32 = 0 -> zlen pre mod 32 = 0 -> zlen (b ++ s') = 32 * zlen (lw :: evs) ->
    (forall i l, nth_error (lw :: evs) i = Some l -> lw_index l = zlen pre / 32 + Z.of_nat i) ->
    (forall o, reads b o -> exists n, forall fuel, (n <= fuel)%nat -> full fuel lw = result_of_reading o) /\
    e = (pre ++ b) ++ s' /\ zlen (pre ++ b) mod 32 = 0 /\ zlen s' = 32 * zlen evs /\ (forall i l, nth_error evs i = Some l -> lw_index l = zlen (pre ++ b) / 32 + Z.of_nat i)) as K.
  { intros pre b s' lw evs E Lb Ms Lp Ls Hi. split; [|split; [|split; [|split]]].
    - intros o' Ho. pose proof (Hi O lw eq_refl) as H0. rewrite Z.add_0_r in H0.
      pose proof (raw_at_block en head e d ix md Hhead pre b s' E Lb Lp) as R. rewrite <- H0 in R.
      exact (event_sound en head e d ix md Ht b (lw_index lw) o' (block_ok e He pre b s' E) Lb R Ho).
    - rewrite E, app_assoc. reflexivity.
    - rewrite zlen_app, Lb. rewrite <- (Z.mul_1_l 32) at 1. rewrite Z.mod_add by lia. auto.
    - rewrite zlen_app, zlen_cons in Ls. lia.
    - intros i lw' Hn. rewrite (Hi (S i) lw' Hn). rewrite zlen_app, Lb. rewrite <- (Z.mul_1_l 32) at 2. rewrite Z.div_add by lia. lia. }
  induction 1 as [s N| |b s Lb Ms R|b s ev es Lb Ms R Ha IH|b s ev Lb Ms R Ha IH]; intros M pre evs E Lp Ls Hi; [lia| | | |].
  1:{ change (zlen (@nil Z)) with 0 in Ls. destruct evs; [|rewrite zlen_cons in Ls; pose proof (zlen_nonneg evs); lia]. exists O. reflexivity. }
  all: destruct evs as [|lw evs]; [rewrite zlen_app in Ls; change (zlen (@nil lw_event)) with 0 in Ls; pose proof (zlen_nonneg s); lia|].
  all: destruct (K pre b s lw evs E Lb Ms Lp Ls Hi) as (S & K1 & K2 & K3 & K4); destruct (S _ R) as (n & Hn).
  - exists n. intros fuel Hf. cbn [mapM]. rewrite (Hn fuel Hf). reflexivity.
  - destruct (IH Ms _ _ K1 K2 K3 K4) as (n' & Hn'). exists (Nat.max n n'). intros fuel Hf. cbn [mapM]. rewrite (Hn fuel ltac:(lia)). cbn [bind result_of_reading].
    rewrite (Hn' fuel ltac:(lia)). reflexivity.
  - destruct (IH Ms _ _ K1 K2 K3 K4) as (n' & Hn'). exists (Nat.max n n'). intros fuel Hf. cbn [mapM]. rewrite (Hn fuel ltac:(lia)). cbn [bind result_of_reading].
    rewrite (Hn' fuel ltac:(lia)). reflexivity.
Qed.
End All.

(** The number of events, and all of them. *)
Theorem C70_events : forall en head e d ix md, zlen head = 8 -> bytes_ok e -> zlen e < 2 ^ 64 -> from_a_file (mkTable d ix) ->
  let decoder := mkDecoder (head ++ e) (mkTable d ix) md in
  (num_events decoder = if zlen e mod 32 =? 0 then Ok (zlen e / 32) else Panic) /\
  let spec := reads_all d ix (md_start_time md) e in
  let run fuel := iter_full fuel en decoder in
  (forall o, spec o <-> exists n, forall fuel, (n <= fuel)%nat -> run fuel = result_of_all o) /\
  (forall o o', spec o -> spec o' -> o = o') /\ ((forall o, ~ spec o) <-> forall fuel, run fuel = Diverge).
Proof.
  intros en head e d ix md Hh He Hs Ht decoder.
  assert (num_events decoder = if zlen e mod 32 =? 0 then Ok (zlen e / 32) else Panic) as N.
  { unfold num_events, decoder. cbn [event_data]. rewrite zlen_app, Hh. change RAW_EVENT_SIZE with 32. change FILE_HEADER_SIZE with 8. replace (8 + zlen e - 8) with (zlen e) by lia. reflexivity. }
  split; [exact N|]. cbv zeta. pose proof (zlen_nonneg e) as Pe.
  apply (limit_spec result_of_all (fun fuel => iter_full fuel en decoder)).
  { intros [] []; cbn; congruence. }
  { intros []; discriminate. }
  - intros fuel. unfold iter_full. rewrite N. destruct (Z.eqb_spec (zlen e mod 32) 0) as [M|M]; cbn [bind].
    2:{ right. exists PanicsAll. split; [apply ra_size; auto|reflexivity]. }
    pose proof (Z.div_mod (zlen e) 32 ltac:(lia)) as DM. pose proof (Z.div_pos (zlen e) 32 ltac:(lia) ltac:(lia)) as DP.
    destruct (lights en head e d ix md Hh He Ht (Z.to_nat (zlen e / 32))) as (evs & Ln & Hl); [lia|].
    assert (zlen evs = zlen e / 32) as Le by (unfold zlen at 1; lia).
    destruct (C24_collect _ evs (decode_lightweight_event en decoder) (fun i a H => proj1 (Hl i a H)) ltac:(lia) (S (length evs + fuel)) ltac:(lia)) as (Ec & _).
    rewrite Le in Ec. destruct (collect_more _ (decode_lightweight_event en decoder) fuel (S (length evs + fuel)) (iter_new (zlen e / 32)) ltac:(lia)) as [->| ->]; [left; reflexivity|].
    rewrite Ec. cbn [bind]. apply (all_complete en head e d ix md Hh He Ht fuel evs [] e); auto; [lia|].
    intros i lw Hn. rewrite (proj2 (Hl i lw Hn)). reflexivity.
  - intros o Ho. destruct (Z.eq_dec (zlen e mod 32) 0) as [M|M].
    2:{ exists O. intros fuel _. unfold iter_full. rewrite N. destruct (Z.eqb_spec (zlen e mod 32) 0); [lia|]. cbn [bind].
        inversion Ho; subst; try reflexivity; exfalso; try (apply M; reflexivity); apply M; rewrite zlen_app;
          match goal with H1 : zlen ?b = 32, H2 : zlen ?s mod 32 = 0 |- (zlen ?b + zlen ?s) mod 32 = 0 => rewrite H1, Z.add_comm; rewrite <- (Z.mul_1_l 32) at 1; rewrite Z.mod_add by lia; exact H2 end. }
    pose proof (Z.div_mod (zlen e) 32 ltac:(lia)) as DM. pose proof (Z.div_pos (zlen e) 32 ltac:(lia) ltac:(lia)) as DP.
    destruct (lights en head e d ix md Hh He Ht (Z.to_nat (zlen e / 32))) as (evs & Ln & Hl); [lia|].
    assert (zlen evs = zlen e / 32) as Le by (unfold zlen at 1; lia).
    destruct (all_sound en head e d ix md Hh He Ht e o Ho M [] evs) as (n & Hn); auto; [lia| |].
    { intros i lw Hi. rewrite (proj2 (Hl i lw Hi)). reflexivity. }
    exists (Nat.max n (S (length evs))). intros fuel Hf. unfold iter_full. rewrite N. destruct (Z.eqb_spec (zlen e mod 32) 0); [|lia]. cbn [bind].
    destruct (C24_collect _ evs (decode_lightweight_event en decoder) (fun i a H => proj1 (Hl i a H)) ltac:(lia) fuel ltac:(lia)) as (Ec & _).
    rewrite Le in Ec. rewrite Ec. cbn [bind]. apply Hn. lia.
Qed.
Print Assumptions C70_events.

(** ** Examples *)
(** Two events of the table of Prop_Corrupt.v: an instant whose id has a value and a reference, and an interval
    whose id is unknown and whose kind points outside of the data. *)
Definition ex_ev1 : bytes := le_bytes 8 100000011 ++ le_bytes 8 100000014 ++ le_bytes 4 3 ++ le_bytes 4 5 ++ le_bytes 4 (2 ^ 32 - 1) ++ le_bytes 2 (2 ^ 16 - 1) ++ le_bytes 2 1.
Definition ex_ev2 : bytes := le_bytes 8 7 ++ le_bytes 8 9 ++ le_bytes 4 3 ++ le_bytes 4 5 ++ le_bytes 4 6 ++ le_bytes 2 0 ++ le_bytes 2 0.
Definition ex_start_md : metadata := mkMd 1000 7 [].
Example ex_C70_instant : reads_all ex_data [(5, 11); (5, 23); (6, 33); (7, 1000)] 1000 ex_ev1
  (ReadAll [mkEv (str "hi") (str "hi" ++ [239; 191; 189; 33]) [] (Timestamp (Instant (1000 + 5 + 2 ^ 32))) 3]).
Proof.
  destruct (C70_events LittleEndian (str "MMES" ++ le_bytes 4 9) ex_ev1 ex_data [(5, 11); (5, 23); (6, 33); (7, 1000)] ex_start_md eq_refl
    (bytes_check ex_ev1 ltac:(vm_compute; reflexivity)) ltac:(vm_compute; reflexivity) ex_table_file) as (_ & C & _).
  apply C. exists 20%nat. intros fuel Hf. do 20 (destruct fuel as [|fuel]; [lia|]). vm_compute. reflexivity.
Qed.
Example ex_C70_panics : reads_all ex_data [(5, 11); (5, 23); (6, 33); (7, 1000)] 1000 (ex_ev1 ++ ex_ev2) PanicsAll.
Proof.
  destruct (C70_events LittleEndian (str "MMES" ++ le_bytes 4 9) (ex_ev1 ++ ex_ev2) ex_data [(5, 11); (5, 23); (6, 33); (7, 1000)] ex_start_md eq_refl
    (bytes_check (ex_ev1 ++ ex_ev2) ltac:(vm_compute; reflexivity)) ltac:(vm_compute; reflexivity) ex_table_file) as (_ & C & _).
  apply C. exists 20%nat. intros fuel Hf. do 20 (destruct fuel as [|fuel]; [lia|]). vm_compute. reflexivity.
Qed.
