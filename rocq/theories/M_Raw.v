(** Model of measureme/src/raw_event.rs (the on-disk event), decodeme/src/event_payload.rs (its
    decoded payload) and decodeme/src/lightweight_event.rs. *)
From Coq Require Import ZArith List Lia Bool.
From Verif Require Import M_Base.
Import ListNotations.
Open Scope Z_scope.

(** raw_event.rs:10-31 [struct RawEvent].  [StringId] and [EventId] are transparent wrappers of u64
    (measureme/src/stringtable.rs:75-77, measureme/src/event_id.rs:23-25). *)
Record raw_event := mkRaw {
  event_kind : Z; event_id : Z; thread_id : Z;
  payload1_lower : Z; payload2_lower : Z; payloads_upper : Z
}.

(** The field types: two u64 and four u32. *)
Definition raw_ok (e : raw_event) : Prop :=
  is_u64 (event_kind e) /\ is_u64 (event_id e) /\ is_u32 (thread_id e) /\
  is_u32 (payload1_lower e) /\ is_u32 (payload2_lower e) /\ is_u32 (payloads_upper e).

(** raw_event.rs:35 *)
Definition INSTANT_MARKER : Z := 0xFFFFFFFFFFFF.
(** raw_event.rs:37 *)
Definition INTEGER_MARKER : Z := INSTANT_MARKER - 1.
(** raw_event.rs:40 *)
Definition MAX_SINGLE_VALUE : Z := 0xFFFFFFFFFFFF.
(** raw_event.rs:44 *)
Definition MAX_INTERVAL_VALUE : Z := INTEGER_MARKER - 1.

(** raw_event.rs:83-108 [pack_values] *)
Definition pack_values (kind id tid value1 value2 : Z) : raw_event :=
  let p1 := u32 value1 in
  let p2 := u32 value2 in
  let value1_upper := Z.land (u32 (Z.shiftr value1 16)) 0xFFFF0000 in
  let value2_upper := u32 (Z.shiftr value2 32) in
  mkRaw kind id tid p1 p2 (Z.lor value1_upper value2_upper).

(** raw_event.rs:47-59 *)
Definition new_interval (kind id tid start end_ : Z) : res raw_event :=
  if start <=? end_ then
    if end_ <=? MAX_INTERVAL_VALUE then Ok (pack_values kind id tid start end_) else Panic
  else Panic.

(** raw_event.rs:61-70 *)
Definition new_instant (kind id tid instant : Z) : res raw_event :=
  if instant <=? MAX_SINGLE_VALUE then Ok (pack_values kind id tid instant INSTANT_MARKER) else Panic.

(** raw_event.rs:72-81 *)
Definition new_integer (kind id tid value : Z) : res raw_event :=
  if value <=? MAX_SINGLE_VALUE then Ok (pack_values kind id tid value INTEGER_MARKER) else Panic.

(** raw_event.rs:110-113 *)
Definition start_value (e : raw_event) : Z :=
  Z.lor (payload1_lower e) (Z.shiftl (Z.land (payloads_upper e) 0xFFFF0000) 16).
(** raw_event.rs:116-119 *)
Definition end_value (e : raw_event) : Z :=
  Z.lor (payload2_lower e) (Z.shiftl (Z.land (payloads_upper e) 0x0000FFFF) 32).
(** raw_event.rs:122-125 *)
Definition value (e : raw_event) : Z :=
  Z.lor (payload1_lower e) (Z.shiftl (Z.land (payloads_upper e) 0xFFFF0000) 16).
(** raw_event.rs:128-130 *)
Definition is_instant (e : raw_event) : bool := end_value e =? INSTANT_MARKER.
(** raw_event.rs:133-135 *)
Definition is_integer (e : raw_event) : bool := end_value e =? INTEGER_MARKER.

(** ** Memory layout

    On little endian targets raw_event.rs:141-151 and :170-180 copy the memory of the struct.  The
    layout is computed here by the rule the Rust reference gives for [repr(C)]: fields in
    declaration order, each at the next multiple of its alignment. *)
Definition align_up (n a : Z) : Z := (n + a - 1) / a * a.
Fixpoint repr_c (off : Z) (fields : list Z) : list Z * Z :=   (* size = alignment of a field *)
  match fields with
  | [] => ([], off)
  | sz :: rest =>
      let o := align_up off sz in
      let '(os, e) := repr_c (o + sz) rest in (o :: os, e)
  end.
(** raw_event.rs:10-31: sizes of the six fields *)
Definition RAW_FIELDS : list Z := [8; 8; 4; 4; 4; 4].
Definition RAW_OFFSETS : list Z := fst (repr_c 0 RAW_FIELDS).
(** [std::mem::size_of::<RawEvent>()]: rounded up to the largest alignment, 8 *)
Definition RAW_EVENT_SIZE : Z := align_up (snd (repr_c 0 RAW_FIELDS)) 8.

(** [dst[off..off+src.len()].copy_from_slice(src)], in bounds *)
Definition blit (off : Z) (src dst : bytes) : bytes :=
  ztake off dst ++ src ++ zdrop (off + zlen src) dst.

Definition raw_fields (e : raw_event) : list Z :=
  [event_kind e; event_id e; thread_id e; payload1_lower e; payload2_lower e; payloads_upper e].

(** The memory of [e] on a little endian machine; [pad] is whatever the padding bytes contain. *)
Fixpoint blit_fields (fs : list (Z * Z * Z)) (mem : bytes) : bytes :=
  match fs with
  | [] => mem
  | (off, sz, v) :: rest => blit_fields rest (blit off (le_bytes (Z.to_nat sz) v) mem)
  end.
Definition mem_image (e : raw_event) (pad : bytes) : bytes :=
  blit_fields (combine (combine RAW_OFFSETS RAW_FIELDS) (raw_fields e)) pad.

Inductive endian := LittleEndian | BigEndian.

(** raw_event.rs:137-164 [serialize] into a slice [dst].  [dst] also serves as the arbitrary content
    of padding bytes. *)
Definition serialize (en : endian) (e : raw_event) (dst : bytes) : res bytes :=
  if zlen dst =? RAW_EVENT_SIZE then
    match en with
    | LittleEndian => Ok (mem_image e dst)
    | BigEndian =>
        let d := blit 0 (le_bytes 8 (event_kind e)) dst in
        let d := blit 8 (le_bytes 8 (event_id e)) d in
        let d := blit 16 (le_bytes 4 (thread_id e)) d in
        let d := blit 20 (le_bytes 4 (payload1_lower e)) d in
        let d := blit 24 (le_bytes 4 (payload2_lower e)) d in
        Ok (blit 28 (le_bytes 4 (payloads_upper e)) d)
    end
  else Panic.

(** Reading the fields back from memory, little endian machine. *)
Definition field_at (i : nat) (mem : bytes) : Z :=
  let off := nth i RAW_OFFSETS 0 in
  le_val (zslice off (off + nth i RAW_FIELDS 0) mem).

(** raw_event.rs:166-194 [deserialize] *)
Definition deserialize (en : endian) (bs : bytes) : res raw_event :=
  if zlen bs =? RAW_EVENT_SIZE then
    match en with
    | LittleEndian =>
        Ok (mkRaw (field_at 0 bs) (field_at 1 bs) (field_at 2 bs)
                  (field_at 3 bs) (field_at 4 bs) (field_at 5 bs))
    | BigEndian =>
        Ok (mkRaw (le_val (zslice 0 8 bs)) (le_val (zslice 8 16 bs)) (le_val (zslice 16 20 bs))
                  (le_val (zslice 20 24 bs)) (le_val (zslice 24 28 bs)) (le_val (zslice 28 32 bs)))
    end
  else Panic.

(** ** Payloads *)

(** event_payload.rs:75-79 [enum Timestamp].  [SystemTime] is modelled as nanoseconds relative to the
    Unix epoch, unbounded (start times are at most 2^64 ns and offsets below 2^48 ns, which
    [SystemTime] represents exactly on the supported targets). *)
Inductive timestamp := Interval (start end_ : Z) | Instant (t : Z).

(** event_payload.rs:5-8 [enum EventPayload] *)
Inductive payload := Timestamp (t : timestamp) | Integer (v : Z).

(** event_payload.rs:82-92 [Timestamp::from_raw_event]; the [debug_assert] is modelled as an assert *)
Definition timestamp_from_raw_event (e : raw_event) (start_time : Z) : res timestamp :=
  if is_integer e then Panic
  else if is_instant e then Ok (Instant (start_time + start_value e))
  else Ok (Interval (start_time + start_value e) (start_time + end_value e)).

(** event_payload.rs:11-17 [EventPayload::from_raw_event] *)
Definition payload_from_raw_event (e : raw_event) (start_time : Z) : res payload :=
  if is_integer e then Ok (Integer (value e))
  else do t <- timestamp_from_raw_event e start_time; Ok (Timestamp t).

(** event_payload.rs:21-38 [EventPayload::contains] *)
Definition contains (self other : payload) : bool :=
  match self with
  | Timestamp (Interval self_start self_end) =>
      match other with
      | Timestamp (Interval other_start other_end) =>
          (self_start <=? other_start) && (other_end <=? self_end)
      | Timestamp (Instant t) => (self_start <=? t) && (t <=? self_end)
      | Integer _ => false
      end
  | Timestamp (Instant _) => false
  | Integer _ => false
  end.

(** event_payload.rs:94-99 [Timestamp::contains] *)
Definition timestamp_contains (self : timestamp) (t : Z) : bool :=
  match self with
  | Interval s e => (s <=? t) && (t <? e)
  | Instant _ => false
  end.

(** event_payload.rs:105-117 [Timestamp::start], [Timestamp::end] *)
Definition ts_start (t : timestamp) : Z := match t with Interval s _ => s | Instant t => t end.
Definition ts_end (t : timestamp) : Z := match t with Interval _ e => e | Instant t => t end.

(** event_payload.rs:119-125 [Timestamp::duration]: [duration_since] fails if the end is earlier *)
Definition ts_duration (t : timestamp) : option Z :=
  match t with
  | Interval s e => if s <=? e then Some (e - s) else None
  | Instant _ => None
  end.
(** event_payload.rs:40-46 [EventPayload::duration] *)
Definition duration (p : payload) : option Z :=
  match p with Timestamp t => ts_duration t | Integer _ => None end.
(** event_payload.rs:48-58 *)
Definition p_is_interval (p : payload) : bool :=
  match p with Timestamp (Interval _ _) => true | _ => false end.
Definition p_is_instant (p : payload) : bool :=
  match p with Timestamp (Instant _) => true | _ => false end.
Definition p_is_integer (p : payload) : bool := match p with Integer _ => true | _ => false end.
(** event_payload.rs:60-72 *)
Definition p_timestamp (p : payload) : option timestamp :=
  match p with Timestamp t => Some t | Integer _ => None end.
Definition p_integer (p : payload) : option Z :=
  match p with Timestamp _ => None | Integer v => Some v end.

(** lightweight_event.rs:4-9 *)
Record lw_event := mkLw { lw_index : Z; lw_thread : Z; lw_payload : payload }.
