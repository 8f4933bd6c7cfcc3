(** Model of [EventDecoder::decode_full_event] and [decode_lightweight_event] (decodeme/src/lib.rs:164-210) with the arithmetic of
    [usize] (64 bits): the caller of [ProfilingData::to_full_event] (analyzeme/src/profiling_data.rs:113-115) chooses the index, since the fields of
    [LightweightEvent] are public.  M_Session.v computes with unbounded integers; [oc]: compiled with overflow checks. *)
From Coq Require Import ZArith List Lia Bool.
From Verif Require Import M_Base M_Map M_Raw M_Header M_V8 M_StrTable M_EventId M_Session M_Iter M_Run.
Import ListNotations.
Open Scope Z_scope.

Definition usize_mul (oc : bool) (a b : Z) : res Z :=
  if a * b <? U64 then Ok (a * b) else if oc then Panic else Ok ((a * b) mod U64).
(** decodeme/lib.rs:208-210 [event_index_to_addr] *)
Definition index_to_addr (oc : bool) (i : Z) : res Z :=
  do m <- usize_mul oc i RAW_EVENT_SIZE; u64_add oc FILE_HEADER_SIZE m.
(** decodeme/lib.rs:165-168, 192-195; [checked_add] and the slice *)
Definition raw_event_at (oc : bool) (en : endian) (d : decoder) (i : Z) : res raw_event :=
  do start <- index_to_addr oc i;
  do end_ <- (if start + RAW_EVENT_SIZE <? U64 then Ok (start + RAW_EVENT_SIZE) else Panic);
  if end_ <=? zlen (event_data d) then deserialize en (zslice start end_ (event_data d)) else Panic.
(** decodeme/lib.rs:164-189 *)
Definition full_event_at (oc : bool) (fuel : nat) (en : endian) (d : decoder) (i : Z) : res event :=
  do e <- raw_event_at oc en d i;
  do p <- payload_from_raw_event e (md_start_time (d_metadata d));
  do id <- to_string fuel (stringtable d) (event_id e);
  do parsed <- parse_event_id id;
  do kind <- to_string fuel (stringtable d) (event_kind e);
  Ok (mkEv kind (fst parsed) (snd parsed) p (thread_id e)).
(** decodeme/lib.rs:191-205 *)
Definition lightweight_event_at (oc : bool) (en : endian) (d : decoder) (i : Z) : res lw_event :=
  do e <- raw_event_at oc en d i;
  do p <- payload_from_raw_event e (md_start_time (d_metadata d));
  Ok (mkLw i (thread_id e) p).
(** profiling_data.rs:113-115 [to_full_event] *)
Definition to_full_event (oc : bool) (fuel : nat) (en : endian) (d : decoder) (l : lw_event) : res event :=
  full_event_at oc fuel en d (lw_index l).
(** profiling_data.rs:99-107 [iter] and [iter_full], to the end *)
Definition iter_all (oc : bool) (fuel : nat) (en : endian) (d : decoder) : res (list lw_event) :=
  do n <- num_events d; iter_collect (lightweight_event_at oc en d) fuel (iter_new n).
Definition iter_full_all (oc : bool) (fuel : nat) (en : endian) (d : decoder) : res (list event) :=
  do lws <- iter_all oc fuel en d; mapM (to_full_event oc fuel en d) lws.
