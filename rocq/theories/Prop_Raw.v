(** C07-C10 and the order part of C46: the 32-byte event record and its payload. *)
From Coq Require Import ZArith List Lia Bool.
From Verif Require Import M_Base F_Base M_Raw F_Raw.
Import ListNotations.
Open Scope Z_scope.

(** ** C07: what goes in comes out.  Values are arbitrary u64; when a constructor returns, the
    accessors, and the decoder for any session start time, give back what was passed. *)
Theorem C07_interval : forall kind id tid s e r st, is_u64 s -> is_u64 e ->
  new_interval kind id tid s e = Ok r ->
  start_value r = s /\ end_value r = e /\
  event_kind r = kind /\ event_id r = id /\ thread_id r = tid /\
  payload_from_raw_event r st = Ok (Timestamp (Interval (st + s) (st + e))).
Proof.
  intros kind id tid s e r st Hs He H. destruct (new_interval_ok _ _ _ _ _ _ Hs He H) as (->&A&B&C&D).
  rewrite ?pack_start, ?pack_end by auto. repeat split; auto.
  unfold payload_from_raw_event, timestamp_from_raw_event, is_integer, is_instant.
  rewrite ?pack_start, ?pack_end by auto. unfold MAX_INTERVAL_VALUE, INTEGER_MARKER, INSTANT_MARKER in *.
  destruct (Z.eqb_spec e (281474976710655 - 1)); [lia|].
  destruct (Z.eqb_spec e 281474976710655); [lia|]. cbn [bind]; rewrite ?pack_start by auto; reflexivity.
Qed.
Print Assumptions C07_interval.

Theorem C07_instant : forall kind id tid v r st, is_u64 v -> new_instant kind id tid v = Ok r ->
  start_value r = v /\ event_kind r = kind /\ event_id r = id /\ thread_id r = tid /\
  payload_from_raw_event r st = Ok (Timestamp (Instant (st + v))).
Proof.
  intros kind id tid v r st Hv H. destruct (new_instant_ok _ _ _ _ _ Hv H) as (->&A).
  pose proof (proj1 marker_u48). rewrite pack_start by auto. repeat split; auto.
  unfold payload_from_raw_event, timestamp_from_raw_event, is_integer, is_instant.
  rewrite ?pack_start, ?pack_end by auto. reflexivity.
Qed.
Print Assumptions C07_instant.

Theorem C07_integer : forall kind id tid v r st, is_u64 v -> new_integer kind id tid v = Ok r ->
  value r = v /\ event_kind r = kind /\ event_id r = id /\ thread_id r = tid /\
  payload_from_raw_event r st = Ok (Integer v).
Proof.
  intros kind id tid v r st Hv H. destruct (new_integer_ok _ _ _ _ _ Hv H) as (->&A).
  pose proof (proj2 marker_u48). rewrite value_start, pack_start by auto. repeat split; auto.
  unfold payload_from_raw_event, is_integer. rewrite value_start, pack_start, pack_end by auto. reflexivity.
Qed.
Print Assumptions C07_integer.

Example ex_C07 : exists r, new_interval 5 6 7 (2 ^ 32 - 1) (2 ^ 48 - 3) = Ok r
  /\ start_value r = 2 ^ 32 - 1 /\ end_value r = 2 ^ 48 - 3.
Proof. eexists; split; [reflexivity|]; vm_compute; auto. Qed.

(** ** C08: the constructors panic exactly on what the payload cannot represent; they never return
    an error and never diverge. *)
Theorem C08_interval : forall kind id tid s e,
  (s <= e /\ e <= 2 ^ 48 - 3 -> exists r, new_interval kind id tid s e = Ok r) /\
  (~ (s <= e /\ e <= 2 ^ 48 - 3) -> new_interval kind id tid s e = Panic).
Proof.
  intros. unfold new_interval. change MAX_INTERVAL_VALUE with (2 ^ 48 - 3).
  destruct (Z.leb_spec s e), (Z.leb_spec e (2 ^ 48 - 3)); split; intros; eauto; try lia; reflexivity.
Qed.
Print Assumptions C08_interval.

Theorem C08_single : forall kind id tid v,
  (v <= 2 ^ 48 - 1 -> (exists r, new_instant kind id tid v = Ok r) /\
                      (exists r, new_integer kind id tid v = Ok r)) /\
  (2 ^ 48 - 1 < v -> new_instant kind id tid v = Panic /\ new_integer kind id tid v = Panic).
Proof.
  intros. unfold new_instant, new_integer. change MAX_SINGLE_VALUE with (2 ^ 48 - 1).
  destruct (Z.leb_spec v (2 ^ 48 - 1)); split; intros; eauto; lia.
Qed.
Print Assumptions C08_single.

Example ex_C08 : new_interval 1 1 1 0 (2 ^ 48 - 2) = Panic /\ new_interval 1 1 1 1 0 = Panic
  /\ new_instant 1 1 1 (2 ^ 48) = Panic.
Proof. vm_compute; auto. Qed.

(** ** C09: kinds are never confused, neither by the event's own predicates nor by the decoder. *)
Theorem C09_kinds : forall kind id tid s e r, is_u64 s -> is_u64 e ->
  (new_interval kind id tid s e = Ok r -> is_instant r = false /\ is_integer r = false) /\
  (new_instant kind id tid s = Ok r -> is_instant r = true /\ is_integer r = false) /\
  (new_integer kind id tid s = Ok r -> is_instant r = false /\ is_integer r = true).
Proof.
  intros kind id tid s e r Hs He. pose proof marker_u48 as [M1 M2].
  unfold is_instant, is_integer. split; [|split]; intros H.
  - destruct (new_interval_ok _ _ _ _ _ _ Hs He H) as (->&A&B&C&D). rewrite pack_end by auto.
    unfold MAX_INTERVAL_VALUE, INTEGER_MARKER, INSTANT_MARKER in *. split; apply Z.eqb_neq; lia.
  - destruct (new_instant_ok _ _ _ _ _ Hs H) as (->&A). rewrite pack_end by auto. split; reflexivity.
  - destruct (new_integer_ok _ _ _ _ _ Hs H) as (->&A). rewrite pack_end by auto. split; reflexivity.
Qed.
Print Assumptions C09_kinds.

(** For every 32-byte record whatsoever the decoder produces exactly one kind of payload, without
    panic, and it is the kind the record's own predicates say. *)
Theorem C09_decoder : forall r st,
  exists p, payload_from_raw_event r st = Ok p /\
    p_is_integer p = is_integer r /\
    p_is_instant p = is_instant r /\
    p_is_interval p = negb (is_integer r || is_instant r).
Proof.
  intros r st. unfold payload_from_raw_event, timestamp_from_raw_event.
  destruct (is_integer r) eqn:E.
  - eexists; split; [reflexivity|]. cbn. repeat split.
    unfold is_integer, is_instant in *. apply Z.eqb_eq in E. rewrite E. reflexivity.
  - destruct (is_instant r) eqn:E2; eexists; split; try reflexivity; cbn; auto.
Qed.
Print Assumptions C09_decoder.

(** ** C10: the byte encoding.  [en], [en'] are the byte orders of the writing and of the reading
    machine; [dst] is the previous content of the destination slice. *)
Theorem C10_roundtrip : forall en en' e dst, raw_ok e -> zlen dst = 32 ->
  exists b, serialize en e dst = Ok b /\ zlen b = 32 /\ bytes_ok b /\ deserialize en' b = Ok e.
Proof.
  intros en en' e dst He Hd. rewrite serialize_eq, Hd. exists (raw_bytes e).
  rewrite deserialize_eq, zlen_raw_bytes. rewrite raw_of_bytes by auto.
  split; [reflexivity|]. split; [reflexivity|]. split; [apply raw_bytes_ok|reflexivity].
Qed.
Print Assumptions C10_roundtrip.

Theorem C10_onto : forall en en' b dst, bytes_ok b -> zlen b = 32 -> zlen dst = 32 ->
  exists e, deserialize en b = Ok e /\ raw_ok e /\ serialize en' e dst = Ok b.
Proof.
  intros en en' b dst Hb Hl Hd. exists (raw_of b). rewrite deserialize_eq, serialize_eq, Hl, Hd.
  rewrite raw_bytes_of by auto. split; [reflexivity|]. split; [apply raw_of_ok; auto|reflexivity].
Qed.
Print Assumptions C10_onto.

Theorem C10_layout : forall en e dst, zlen dst = 32 ->
  serialize en e dst =
    Ok (le_bytes 8 (event_kind e) ++ le_bytes 8 (event_id e) ++ le_bytes 4 (thread_id e) ++
        le_bytes 4 (payload1_lower e) ++ le_bytes 4 (payload2_lower e) ++
        le_bytes 4 (payloads_upper e)).
Proof. intros en e dst Hd. rewrite serialize_eq, Hd. reflexivity. Qed.
Print Assumptions C10_layout.

Theorem C10_wrong_size_panics : forall en e b, zlen b <> 32 ->
  serialize en e b = Panic /\ deserialize en b = Panic.
Proof.
  intros en e b H. rewrite serialize_eq, deserialize_eq. apply Z.eqb_neq in H. rewrite H. auto.
Qed.
Print Assumptions C10_wrong_size_panics.

Example ex_C10 : exists b, serialize BigEndian (mkRaw 1 2 3 4 5 (2 ^ 32 - 1)) (zeros 32) = Ok b
  /\ deserialize LittleEndian b = Ok (mkRaw 1 2 3 4 5 (2 ^ 32 - 1)).
Proof. eexists; split; [reflexivity|]; vm_compute; auto. Qed.

(** Same bytes after a whole trip: constructor, serializer, deserializer, decoder. *)
Theorem C07_through_file : forall en en' kind id tid s e r dst st,
  is_u64 kind -> is_u64 id -> is_u32 tid -> is_u64 s -> is_u64 e -> zlen dst = 32 ->
  new_interval kind id tid s e = Ok r ->
  exists b r', serialize en r dst = Ok b /\ deserialize en' b = Ok r' /\
    event_kind r' = kind /\ event_id r' = id /\ thread_id r' = tid /\
    payload_from_raw_event r' st = Ok (Timestamp (Interval (st + s) (st + e))).
Proof.
  intros en en' kind id tid s e r dst st Hk Hi Ht Hs He Hd H.
  pose proof (C07_interval _ _ _ _ _ _ st Hs He H) as (_&_&A&B&C&D).
  destruct (new_interval_ok _ _ _ _ _ _ Hs He H) as (E&X&Y&_).
  destruct (C10_roundtrip en en' r dst) as (b&E1&_&_&E2); auto.
  { subst r. apply pack_raw_ok; auto. }
  exists b, r. auto 10.
Qed.
Print Assumptions C07_through_file.

Theorem C07_single_through_file : forall en en' kind id tid v r dst st,
  is_u64 kind -> is_u64 id -> is_u32 tid -> is_u64 v -> zlen dst = 32 ->
  (new_instant kind id tid v = Ok r -> exists b r', serialize en r dst = Ok b /\ deserialize en' b = Ok r' /\
     event_kind r' = kind /\ event_id r' = id /\ thread_id r' = tid /\
     payload_from_raw_event r' st = Ok (Timestamp (Instant (st + v)))) /\
  (new_integer kind id tid v = Ok r -> exists b r', serialize en r dst = Ok b /\ deserialize en' b = Ok r' /\
     event_kind r' = kind /\ event_id r' = id /\ thread_id r' = tid /\
     payload_from_raw_event r' st = Ok (Integer v)).
Proof.
  intros en en' kind id tid v r dst st Hk Hi Ht Hv Hd. pose proof marker_u48 as [M1 M2]. split; intros H.
  - pose proof (C07_instant _ _ _ _ _ st Hv H) as (_&A&B&C&D).
    destruct (new_instant_ok _ _ _ _ _ Hv H) as (E&X).
    destruct (C10_roundtrip en en' r dst) as (b&E1&_&_&E2); auto.
    { subst r. apply pack_raw_ok; auto. }
    exists b, r. auto 10.
  - pose proof (C07_integer _ _ _ _ _ st Hv H) as (_&A&B&C&D).
    destruct (new_integer_ok _ _ _ _ _ Hv H) as (E&X).
    destruct (C10_roundtrip en en' r dst) as (b&E1&_&_&E2); auto.
    { subst r. apply pack_raw_ok; auto. }
    exists b, r. auto 10.
Qed.
Print Assumptions C07_single_through_file.

(** ** C46 (order part) *)
Theorem C46_reflexive : forall p, contains p p = true <-> exists s e, p = Timestamp (Interval s e).
Proof.
  intros [[s e|t]|v]; cbn; split; try congruence; try (intros (?&?&?); congruence); eauto.
  intros _. apply andb_true_iff. split; apply Z.leb_le; lia.
Qed.
Print Assumptions C46_reflexive.

(** Only intervals contain anything; integers are contained in nothing. *)
Theorem C46_only_intervals : forall p q, contains p q = true ->
  p_is_interval p = true /\ p_is_integer q = false.
Proof. intros [[s e|t]|v] [[s' e'|t']|v']; cbn; intros; split; congruence. Qed.
Print Assumptions C46_only_intervals.

Theorem C46_transitive : forall p q r,
  contains p q = true -> contains q r = true -> contains p r = true.
Proof.
  intros [[s e|t]|v] [[s' e'|t']|v'] [[s'' e''|t'']|v'']; cbn; try congruence;
  rewrite !andb_true_iff, !Z.leb_le; lia.
Qed.
Print Assumptions C46_transitive.

Theorem C46_antisymmetric : forall p q,
  contains p q = true -> contains q p = true -> p = q.
Proof.
  intros [[s e|t]|v] [[s' e'|t']|v']; cbn; try congruence;
  rewrite !andb_true_iff, !Z.leb_le; intros; do 2 f_equal; lia.
Qed.
Print Assumptions C46_antisymmetric.

(** What containment means, in times. *)
Theorem C46_meaning : forall s e q, contains (Timestamp (Interval s e)) q = true <->
  match q with
  | Timestamp (Interval s' e') => s <= s' /\ e' <= e
  | Timestamp (Instant t) => s <= t /\ t <= e
  | Integer _ => False
  end.
Proof. intros s e [[s' e'|t']|v']; cbn; rewrite ?andb_true_iff, ?Z.leb_le; try tauto. split; [congruence|tauto]. Qed.
Print Assumptions C46_meaning.

(** Duration is monotone along containment and never fails on recorded intervals. *)
Theorem C46_duration : forall p q d d', contains p q = true ->
  duration p = Some d -> duration q = Some d' -> 0 <= d' <= d.
Proof.
  intros [[s e|t]|v] [[s' e'|t']|v'] d d'; cbn; try congruence.
  rewrite andb_true_iff, !Z.leb_le. destruct (Z.leb_spec s e), (Z.leb_spec s' e'); try congruence.
  intros ? A B; inversion A; inversion B; lia.
Qed.
Print Assumptions C46_duration.

(** [Timestamp::contains] is the half-open interval; [EventPayload::contains] also includes the end.  Start
    and end of a timestamp bound everything it contains, and their difference is the duration of an interval. *)
Theorem C46_timestamps : forall ts t,
  (timestamp_contains ts t = true <-> exists s e, ts = Interval s e /\ s <= t < e) /\
  (contains (Timestamp ts) (Timestamp (Instant t)) = true <-> exists s e, ts = Interval s e /\ (timestamp_contains ts t = true \/ s <= t /\ t = e)) /\
  (forall q, contains (Timestamp ts) (Timestamp q) = true -> ts_start ts <= ts_start q /\ ts_end q <= ts_end ts) /\
  (forall d, ts_duration ts = Some d -> d = ts_end ts - ts_start ts) /\
  (forall p, p_integer p = None <-> exists ts, p_timestamp p = Some ts) /\ (forall p v, p_integer p = Some v <-> p = Integer v).
Proof.
  intros ts t. split; [|split; [|split; [|split; [|split]]]].
  - destruct ts as [s e|t']; cbn; [rewrite andb_true_iff, Z.leb_le, Z.ltb_lt|]; split.
    + intros H. exists s, e. split; auto.
    + intros (s' & e' & E & H). injection E as <- <-. lia.
    + discriminate.
    + intros (s' & e' & E & _). discriminate.
  - destruct ts as [s e|t']; cbn; [rewrite andb_true_iff, !Z.leb_le|]; split.
    + intros H. exists s, e. split; auto. rewrite andb_true_iff, Z.leb_le, Z.ltb_lt. lia.
    + intros (s' & e' & E & H). injection E as <- <-. rewrite andb_true_iff, Z.leb_le, Z.ltb_lt in H. lia.
    + discriminate.
    + intros (s' & e' & E & _). discriminate.
  - intros q. destruct ts as [s e|t'], q as [s' e'|t2]; cbn; rewrite ?andb_true_iff, ?Z.leb_le; try discriminate; tauto.
  - intros d. destruct ts as [s e|t']; cbn; [|discriminate]. destruct (s <=? e); [|discriminate]. intros E. injection E as <-. reflexivity.
  - intros [ts'|v]; cbn; split; try discriminate; eauto. intros (x & E). discriminate.
  - intros [ts'|v'] v; cbn; split; congruence.
Qed.
Print Assumptions C46_timestamps.

Example ex_C46 : contains (Timestamp (Interval 2 9)) (Timestamp (Interval 2 5)) = true
  /\ contains (Timestamp (Interval 2 9)) (Timestamp (Interval 1 5)) = false.
Proof. auto. Qed.
