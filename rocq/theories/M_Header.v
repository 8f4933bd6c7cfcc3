(** Model of measureme/src/file_header.rs, [read_file_header] of decodeme/src/lib.rs and the version
    dispatch of analyzeme/src/profiling_data.rs. *)
From Coq Require Import ZArith List Lia Bool.
From Verif Require Import M_Base.
Import ListNotations.
Open Scope Z_scope.

(** file_header.rs:8 *)
Definition CURRENT_FILE_FORMAT_VERSION : Z := 9.
(** file_header.rs:10-13: b"MMPD", b"MMES", b"MMSD", b"MMSI" *)
Definition FILE_MAGIC_TOP_LEVEL : bytes := [77; 77; 80; 68].
Definition FILE_MAGIC_EVENT_STREAM : bytes := [77; 77; 69; 83].
Definition FILE_MAGIC_STRINGTABLE_DATA : bytes := [77; 77; 83; 68].
Definition FILE_MAGIC_STRINGTABLE_INDEX : bytes := [77; 77; 83; 73].
(** file_header.rs:19 *)
Definition FILE_HEADER_SIZE : Z := 8.

(** file_header.rs:21-34 [write_file_header]: the two [write_all] calls it makes, in order. *)
Definition header_writes (magic : bytes) : list bytes :=
  [magic; le_bytes 4 CURRENT_FILE_FORMAT_VERSION].

(** file_header.rs:36-90 [verify_file_header] *)
Definition verify_file_header (bs magic : bytes) : res unit :=
  if zlen bs <? FILE_HEADER_SIZE then Err
  else
    let actual_magic := zslice 0 4 bs in
    if beq actual_magic magic then
      let version := le_val (zslice 4 8 bs) in
      if version =? CURRENT_FILE_FORMAT_VERSION then Ok tt else Err
    else Err.

(** file_header.rs:92-94 [strip_file_header] *)
Definition strip_file_header (data : bytes) : res bytes :=
  if FILE_HEADER_SIZE <=? zlen data then Ok (zdrop FILE_HEADER_SIZE data) else Panic.

(** decodeme/src/lib.rs:49-91 [read_file_header] *)
Definition read_file_header (bs magic : bytes) : res Z :=
  if zlen bs <? FILE_HEADER_SIZE then Err
  else
    let actual_magic := zslice 0 4 bs in
    if beq actual_magic magic then Ok (le_val (zslice 4 8 bs)) else Err.

(** analyzeme/src/file_formats/v8.rs:20 ([measureme_10]'s version number, an external crate whose
    documentation says 8) and v9.rs:7 *)
Definition V8_FILE_FORMAT : Z := 8.
Definition V9_FILE_FORMAT : Z := CURRENT_FILE_FORMAT_VERSION.

(** analyzeme/src/profiling_data.rs:51-92 [from_paged_buffer]; [v8] and [v9] stand for the
    constructors of the two decoders (what each of them does is modelled elsewhere). *)
Definition from_paged_buffer {A} (v8 v9 : bytes -> res A) (data : bytes) : res A :=
  do version <- read_file_header data FILE_MAGIC_TOP_LEVEL;
  if version =? V8_FILE_FORMAT then v8 data
  else if version =? V9_FILE_FORMAT then v9 data
  else Err.
