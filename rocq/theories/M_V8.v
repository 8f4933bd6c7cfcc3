(** Model of analyzeme/src/file_formats/v8.rs: conversion of what the old decoder (external crate
    [decodeme_10], not in /repo) returns.  The old types are the ones the conversion code matches on. *)
From Coq Require Import ZArith List Lia Bool.
From Verif Require Import M_Base M_Raw.
Import ListNotations.
Open Scope Z_scope.

(** The old crate's types, as far as v8.rs:14-18 uses them. *)
Inductive old_timestamp := OldInterval (start end_ : Z) | OldInstant (t : Z).
Inductive old_payload := OldTimestamp (t : old_timestamp) | OldInteger (v : Z).
Record old_metadata := mkOldMd { old_start_time : Z; old_process_id : Z; old_cmd : bytes }.
Record old_lw := mkOldLw { old_index : Z; old_lw_thread : Z; old_lw_payload : old_payload }.
Record old_event := mkOldEv {
  old_kind : bytes; old_label : bytes; old_args : list bytes; old_payload_ : old_payload;
  old_thread : Z }.

(** decodeme/src/lib.rs:41-47 [struct Metadata] *)
Record metadata := mkMd { md_start_time : Z; md_process_id : Z; md_cmd : bytes }.
(** decodeme/src/event.rs:6-13 [struct Event]; strings are their UTF-8 bytes *)
Record event := mkEv {
  ev_kind : bytes; ev_label : bytes; ev_args : list bytes; ev_payload : payload; ev_thread : Z }.

(** v8.rs:29-35 *)
Definition v8_metadata_as_current (old : old_metadata) : metadata :=
  mkMd (old_start_time old) (old_process_id old) (old_cmd old).
(** v8.rs:37-42 *)
Definition v8_timestamp_as_current (old : old_timestamp) : timestamp :=
  match old with OldInterval s e => Interval s e | OldInstant t => Instant t end.
(** v8.rs:44-49 *)
Definition v8_event_payload_as_current (old : old_payload) : payload :=
  match old with
  | OldTimestamp t => Timestamp (v8_timestamp_as_current t)
  | OldInteger t => Integer t
  end.
(** v8.rs:51-57 *)
Definition v8_lightweightevent_as_current (old : old_lw) : lw_event :=
  mkLw (old_index old) (old_lw_thread old) (v8_event_payload_as_current (old_lw_payload old)).
(** v8.rs:69-79 [decode_full_event], the conversion *)
Definition v8_event_as_current (old : old_event) : event :=
  mkEv (old_kind old) (old_label old) (old_args old)
       (v8_event_payload_as_current (old_payload_ old)) (old_thread old).
