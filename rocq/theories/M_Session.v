(** Model of measureme/src/profiler.rs (what the public calls write) and of [EventDecoder] in
    decodeme/src/lib.rs (what is read back). *)
From Coq Require Import ZArith List Lia Bool.
From Verif Require Import M_Base M_Sink M_Conc M_Raw M_Header M_V8 M_Strings M_StrTable M_EventId.
Import ListNotations.
Open Scope Z_scope.

(** profiler.rs:174-179 [record_raw_event]; [en] is the endianness of the machine *)
Definition record_raw_event (en : endian) (e : raw_event) : op :=
  OWriteAtomic TEvents RAW_EVENT_SIZE
    (fun mem => match serialize en e mem with Ok b => (b, false) | _ => (mem, true) end).

(** The public recording calls, with the value the counter returned where it is read:
    [KAlloc] profiler.rs:92-95, [KMap] :74-78, [KBulk] :80-90, [KInstant] :99-104,
    [KInteger] :108-117, [KInterval] the end of a timing (:203-217). *)
Inductive call :=
| KAlloc (s : sstring)
| KMap (virtual_id concrete_id : Z)
| KBulk (virtual_ids : list Z) (concrete_id : Z)
| KInstant (kind id tid now : Z)
| KInteger (kind id tid v : Z)
| KInterval (kind id tid start now : Z).

(** The sink operation a call performs; assertions fail before any sink is touched. *)
Definition call_op (en : endian) (k : call) : res op :=
  match k with
  | KAlloc s => Ok (alloc_op s)
  | KMap v c => map_virtual_op v c
  | KBulk vs c => bulk_map_op vs c
  | KInstant kind id tid now => do e <- new_instant kind id tid now; Ok (record_raw_event en e)
  | KInteger kind id tid v => do e <- new_integer kind id tid v; Ok (record_raw_event en e)
  | KInterval kind id tid start now =>
      do e <- new_interval kind id tid start now; Ok (record_raw_event en e)
  end.

(** file_header.rs:21-34 through [as_std_write] (serialization.rs:146-150, 402-404): [write_all] of a short
    non-empty slice is one [write]. *)
Definition header_ops (t : tag) (magic : bytes) : list op := map (OStdWrite t) (header_writes magic).

(** profiler.rs:26-72 [with_counter] after the top-level header (:36): first the stream headers
    (profiler.rs:42 and stringtable.rs:264-265), then [alloc_op] of the metadata string ... *)
Definition init_headers : list op :=
  header_ops TEvents FILE_MAGIC_EVENT_STREAM ++
  header_ops TStrData FILE_MAGIC_STRINGTABLE_DATA ++
  header_ops TStrIndex FILE_MAGIC_STRINGTABLE_INDEX.
Definition init_alloc (md : bytes) : op := alloc_op (SStr md).
(** ... and, after that allocation returned address [addr], the index entry
    (stringtable.rs:314-319 [alloc_metadata]). *)
Definition init_op2 (addr : Z) : res op :=
  do id <- alloc_result addr;
  do a <- to_addr id;
  Ok (index_op METADATA_STRING_ID a).

(** The file: the top-level header goes directly to the file (profiler.rs:36), the pages follow. *)
Definition file_of (pages : bytes) : bytes := concat (header_writes FILE_MAGIC_TOP_LEVEL) ++ pages.

(** ** Timing guards *)
(** profiler.rs:196-202 [TimingGuard] (minus the reference to the profiler) and :186-191
    [DetachedTiming] *)
Record guard := mkGuard { g_kind : Z; g_id : Z; g_tid : Z; g_start : Z }.
(** profiler.rs:121-135 and :146-158: no sink operation is performed *)
Definition start_recording (kind id tid now : Z) : guard := mkGuard kind id tid now.
Definition start_recording_detached (kind id tid now : Z) : guard := mkGuard kind id tid now.
(** profiler.rs:203-217 [Drop for TimingGuard] *)
Definition guard_drop (g : guard) (now : Z) : call := KInterval (g_kind g) (g_id g) (g_tid g) (g_start g) now.
(** profiler.rs:223-227 [finish_with_override_event_id] *)
Definition finish_with_override (g : guard) (id now : Z) : call :=
  guard_drop (mkGuard (g_kind g) id (g_tid g) (g_start g)) now.
(** profiler.rs:164-172 [finish_recording_interval_event] *)
Definition finish_detached (g : guard) (now : Z) : call :=
  guard_drop (mkGuard (g_kind g) (g_id g) (g_tid g) (g_start g)) now.

(** ** Decoder *)
(** decodeme/lib.rs:95-100 *)
Record decoder := mkDecoder { event_data : bytes; stringtable : string_table; d_metadata : metadata }.

Section Decoder.
(** [serde_json::from_str::<Metadata>] (an external crate), applied to the metadata text *)
Variable parse_metadata : bytes -> res metadata.
(** Fuel for string expansion *)
Variable fuel : nat.
Variable en : endian.

(** decodeme/lib.rs:129-152 [from_separate_buffers] *)
Definition from_separate_buffers (string_data index_data event_data : bytes) : res decoder :=
  do _ <- verify_file_header event_data FILE_MAGIC_EVENT_STREAM;
  do tbl <- string_table_new string_data index_data;
  do text <- metadata_string fuel tbl;
  do md <- parse_metadata text;
  Ok (mkDecoder event_data tbl md).

Definition ok_or_err {A} (o : option A) : res A := match o with Some a => Ok a | None => Err end.

(** decodeme/lib.rs:103-127 [EventDecoder::new] *)
Definition decoder_new (file : bytes) : res decoder :=
  do _ <- verify_file_header file FILE_MAGIC_TOP_LEVEL;
  do split <- split_streams (zdrop FILE_HEADER_SIZE file);
  do sd <- ok_or_err (tget TStrData split);
  do ix <- ok_or_err (tget TStrIndex split);
  do ev <- ok_or_err (tget TEvents split);
  from_separate_buffers sd ix ev.

(** decodeme/lib.rs:154-158 [num_events] *)
Definition num_events (d : decoder) : res Z :=
  let event_byte_count := zlen (event_data d) - FILE_HEADER_SIZE in
  if event_byte_count mod RAW_EVENT_SIZE =? 0 then Ok (event_byte_count / RAW_EVENT_SIZE) else Panic.

(** decodeme/lib.rs:208-210 [event_index_to_addr] *)
Definition event_index_to_addr (i : Z) : Z := FILE_HEADER_SIZE + i * RAW_EVENT_SIZE.

(** decodeme/lib.rs:165-168 and 192-195: the raw event at an index *)
Definition raw_at (d : decoder) (i : Z) : res raw_event :=
  let a := event_index_to_addr i in
  if a + RAW_EVENT_SIZE <=? zlen (event_data d)
  then deserialize en (zslice a (a + RAW_EVENT_SIZE) (event_data d)) else Panic.

(** decodeme/lib.rs:164-189 [decode_full_event] *)
Definition decode_full_event (d : decoder) (i : Z) : res event :=
  do e <- raw_at d i;
  do p <- payload_from_raw_event e (md_start_time (d_metadata d));
  do id <- to_string fuel (stringtable d) (event_id e);
  do parsed <- parse_event_id id;
  do kind <- to_string fuel (stringtable d) (event_kind e);
  Ok (mkEv kind (fst parsed) (snd parsed) p (thread_id e)).

(** decodeme/lib.rs:191-205 [decode_lightweight_event] *)
Definition decode_lightweight_event (d : decoder) (i : Z) : res lw_event :=
  do e <- raw_at d i;
  do p <- payload_from_raw_event e (md_start_time (d_metadata d));
  Ok (mkLw i (thread_id e) p).
End Decoder.
