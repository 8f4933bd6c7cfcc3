(** Model of measureme/src/stringtable.rs: string ids and the write-only string table. *)
From Coq Require Import ZArith List Lia Bool.
From Verif Require Import M_Base M_Sink.
Import ListNotations.
Open Scope Z_scope.

(** stringtable.rs:122-130 *)
Definition MAX_USER_VIRTUAL_STRING_ID : Z := 100000000.
Definition METADATA_STRING_ID : Z := MAX_USER_VIRTUAL_STRING_ID + 1.
Definition INVALID_STRING_ID : Z := METADATA_STRING_ID + 1.
Definition FIRST_REGULAR_STRING_ID : Z := INVALID_STRING_ID + 1.

(** stringtable.rs:117-119 *)
Definition TERMINATOR : Z := 255.
Definition STRING_REF_TAG : Z := 254.
Definition STRING_REF_ENCODED_SIZE : Z := 9.

(** stringtable.rs:88-92 [StringId::new_virtual] *)
Definition new_virtual (id : Z) : res Z :=
  if id <=? MAX_USER_VIRTUAL_STRING_ID then Ok id else Panic.
(** stringtable.rs:95-97 *)
Definition is_virtual (id : Z) : bool := id <=? METADATA_STRING_ID.
(** stringtable.rs:105-108 [from_addr]: [checked_add] on u64 *)
Definition from_addr (addr : Z) : res Z :=
  let id := addr + FIRST_REGULAR_STRING_ID in
  if id <? 18446744073709551616 then Ok id else Panic.
(** stringtable.rs:111-113 [to_addr]: [checked_sub] *)
Definition to_addr (id : Z) : res Z :=
  if FIRST_REGULAR_STRING_ID <=? id then Ok (id - FIRST_REGULAR_STRING_ID) else Panic.

(** stringtable.rs:161-164 [StringComponent]; a [str] is its UTF-8 bytes *)
Inductive component := CValue (s : bytes) | CRef (id : Z).
(** What can be allocated: the implementations of [SerializableString] for [str]
    (stringtable.rs:146-158) and for slices and arrays of components (stringtable.rs:197-249). *)
Inductive sstring := SStr (s : bytes) | SComps (cs : list component).

(** stringtable.rs:168-173 *)
Definition comp_size (c : component) : Z :=
  match c with CValue s => zlen s | CRef _ => STRING_REF_ENCODED_SIZE end.
(** stringtable.rs:148-151, 199-202 *)
Definition serialized_size (s : sstring) : Z :=
  match s with
  | SStr s => zlen s + 1
  | SComps cs => zsum (map comp_size cs) + 1
  end.

(** stringtable.rs:176-194: writes to the front of [buf]; returns what was written and the rest of
    the buffer.  Slicing out of bounds panics. *)
Definition comp_serialize (c : component) (buf : bytes) : res (bytes * bytes) :=
  match c with
  | CValue s =>
      if zlen s <=? zlen buf then Ok (s, zdrop (zlen s) buf) else Panic
  | CRef id =>
      if STRING_REF_ENCODED_SIZE <=? zlen buf
      then Ok (STRING_REF_TAG :: le_bytes 8 id, zdrop STRING_REF_ENCODED_SIZE buf)
      else Panic
  end.

(** stringtable.rs:207-209 the loop over the components *)
Fixpoint comps_serialize (cs : list component) (buf : bytes) : res (bytes * bytes) :=
  match cs with
  | [] => Ok ([], buf)
  | c :: cs' =>
      do r <- comp_serialize c buf;
      do r' <- comps_serialize cs' (snd r);
      Ok (fst r ++ fst r', snd r')
  end.

(** stringtable.rs:153-158 and 205-214 [serialize]: the contents of the buffer afterwards *)
Definition serialize_string (s : sstring) (buf : bytes) : res bytes :=
  match s with
  | SStr s =>
      if zlen buf <=? 0 then Panic
      else if zlen buf - 1 =? zlen s then Ok (s ++ [TERMINATOR]) else Panic
  | SComps cs =>
      if zlen buf =? serialized_size (SComps cs) then
        do r <- comps_serialize cs buf;
        if zlen (snd r) =? 1 then Ok (fst r ++ [TERMINATOR]) else Panic
      else Panic
  end.

(** The closure passed to [write_atomic], stringtable.rs:323-325 *)
Definition serialize_callback (s : sstring) : callback :=
  fun mem => match serialize_string s mem with Ok b => (b, false) | _ => (mem, true) end.

(** stringtable.rs:321-328 [alloc]: the sink operation ... *)
Definition alloc_op (s : sstring) : op :=
  OWriteAtomic TStrData (serialized_size s) (serialize_callback s).
(** ... and what is returned to the caller, given the address returned by the sink *)
Definition alloc_result (addr : Z) : res Z := from_addr addr.

(** stringtable.rs:251-256 [serialize_index_entry] *)
Definition index_op (id addr : Z) : op :=
  OWriteAtomic TStrIndex 16 (fun mem =>
    if 16 <=? zlen mem then (le_bytes 8 id ++ le_bytes 8 addr ++ zdrop 16 mem, false) else (mem, true)).

(** stringtable.rs:275-280 [map_virtual_to_concrete_string] *)
Definition map_virtual_op (virtual_id concrete_id : Z) : res op :=
  if virtual_id <=? MAX_USER_VIRTUAL_STRING_ID then
    do addr <- to_addr concrete_id; Ok (index_op virtual_id addr)
  else Panic.

(** stringtable.rs:297-304: the vector of entries, as bytes ([to_le] and the byte view of a [u64]
    give little endian bytes on either endianness) *)
Fixpoint bulk_bytes (virtual_ids : list Z) (addr : Z) : res bytes :=
  match virtual_ids with
  | [] => Ok []
  | id :: rest =>
      if id <=? MAX_USER_VIRTUAL_STRING_ID then
        do b <- bulk_bytes rest addr; Ok (le_bytes 8 id ++ le_bytes 8 addr ++ b)
      else Panic
  end.
(** stringtable.rs:282-312 [bulk_map_virtual_to_single_concrete_string] *)
Definition bulk_map_op (virtual_ids : list Z) (concrete_id : Z) : res op :=
  do addr <- to_addr concrete_id;
  do b <- bulk_bytes virtual_ids addr;
  Ok (OWriteBytes TStrIndex b).
