(** Model of decodeme/src/stringtable.rs: the read-only string table. *)
From Coq Require Import ZArith List Lia Bool.
From Verif Require Import M_Base M_Sink M_Utf8 M_Header M_Strings.
Import ListNotations.
Open Scope Z_scope.

(** decodeme/stringtable.rs:20 *)
Definition INDEX_ENTRY_SIZE : Z := 16.

(** decodeme/stringtable.rs:22-27 *)
Definition deserialize_index_entry (bs : bytes) : res (Z * Z) :=
  if 16 <=? zlen bs then Ok (le_val (zslice 0 8 bs), le_val (zslice 8 16 bs)) else Panic.

(** decodeme/stringtable.rs:163-168.  The hash map is the list of insertions in order; [lookup] finds
    the last one. *)
Record string_table := mkTable { string_data : bytes; index : list (Z * Z) }.

Definition lookup (id : Z) (ix : list (Z * Z)) : option Z :=
  option_map snd (find (fun e => fst e =? id) (rev ix)).

Fixpoint collect_index (chs : list bytes) : res (list (Z * Z)) :=
  match chs with
  | [] => Ok []
  | c :: rest => do e <- deserialize_index_entry c; do es <- collect_index rest; Ok (e :: es)
  end.

(** decodeme/stringtable.rs:172-203 [StringTable::new] *)
Definition string_table_new (sdata idata : bytes) : res string_table :=
  do _ <- verify_file_header sdata FILE_MAGIC_STRINGTABLE_DATA;
  do _ <- verify_file_header idata FILE_MAGIC_STRINGTABLE_INDEX;
  if (zlen idata - FILE_HEADER_SIZE) mod INDEX_ENTRY_SIZE =? 0 then
    do stripped <- strip_file_header idata;
    do ix <- collect_index (chunks INDEX_ENTRY_SIZE stripped);
    Ok (mkTable sdata ix)
  else Panic.

(** decodeme/stringtable.rs:37, 41: "<unknown>" and "<invalid>" *)
Definition UNKNOWN_STRING : bytes := [60; 117; 110; 107; 110; 111; 119; 110; 62].
Definition INVALID_STRING : bytes := [60; 105; 110; 118; 97; 108; 105; 100; 62].

(** [memchr] / [memchr2]: position of the first byte equal to [a] (or [b]) *)
Fixpoint memchr2 (a b : Z) (l : bytes) : option Z :=
  match l with
  | [] => None
  | x :: l' =>
      if (x =? a) || (x =? b) then Some 0
      else match memchr2 a b l' with Some n => Some (1 + n) | None => None end
  end.
Definition memchr (a : Z) (l : bytes) : option Z := memchr2 a a l.

(** decodeme/stringtable.rs:136-147 [get_addr] *)
Definition get_addr (tbl : string_table) (id : Z) : res Z :=
  if is_virtual id then
    match lookup id (index tbl) with Some addr => Ok addr | None => Err end
  else if id =? INVALID_STRING_ID then Err
  else to_addr id.

(** decodeme/stringtable.rs:152-161 *)
Definition decode_string_ref_from_data (bs : bytes) : res Z :=
  match bs with
  | [] => Panic
  | b :: _ =>
      if b =? STRING_REF_TAG then
        if 9 <=? zlen bs then Ok (le_val (zslice 1 9 bs)) else Panic
      else Panic
  end.

(** decodeme/stringtable.rs:93-134 [write_to_string] and its [loop] at position [pos]; the result is
    the text appended to the output.  Recursion is bounded by fuel ([Diverge] when it runs out). *)
Fixpoint write_to_string (fuel : nat) (tbl : string_table) (id : Z) : res bytes :=
  match fuel with
  | O => Diverge
  | S f =>
      match get_addr tbl id with
      | Ok addr => write_loop f tbl addr
      | Err => Ok UNKNOWN_STRING
      | Panic => Panic
      | Diverge => Diverge
      end
  end
with write_loop (fuel : nat) (tbl : string_table) (pos : Z) : res bytes :=
  match fuel with
  | O => Diverge
  | S f =>
      match znth pos (string_data tbl) with
      | None => Panic
      | Some byte =>
          if byte =? TERMINATOR then Ok []
          else if byte =? STRING_REF_TAG then
            do id <- decode_string_ref_from_data (zdrop pos (string_data tbl));
            do s1 <- write_to_string f tbl id;
            do s2 <- write_loop f tbl (pos + STRING_REF_ENCODED_SIZE);
            Ok (s1 ++ s2)
          else
            let remaining_data := zdrop pos (string_data tbl) in
            match memchr2 255 254 remaining_data with
            | Some len =>
                do rest <- write_loop f tbl (pos + len);
                Ok (lossy (ztake len remaining_data) ++ rest)
            | None => Ok INVALID_STRING
            end
      end
  end.

(** decodeme/stringtable.rs:47-91 [to_string].  Line 68 compares [terminator_pos], which is relative
    to [pos], with [pos + STRING_REF_ENCODED_SIZE]; modelled as written. *)
Fixpoint to_string (fuel : nat) (tbl : string_table) (id : Z) : res bytes :=
  match fuel with
  | O => Diverge
  | S f =>
      match get_addr tbl id with
      | Err => Ok UNKNOWN_STRING
      | Panic => Panic
      | Diverge => Diverge
      | Ok pos =>
          if zlen (string_data tbl) <? pos then Panic
          else
            let slice_to_search := zdrop pos (string_data tbl) in
            match memchr TERMINATOR slice_to_search with
            | None => Panic
            | Some terminator_pos =>
                match znth pos (string_data tbl) with
                | None => Panic
                | Some first_byte =>
                    if (first_byte =? STRING_REF_TAG)
                       && (terminator_pos =? pos + STRING_REF_ENCODED_SIZE) then
                      do id' <- decode_string_ref_from_data slice_to_search;
                      to_string f tbl id'
                    else if utf8_valid (ztake terminator_pos slice_to_search) then
                      Ok (ztake terminator_pos slice_to_search)
                    else write_to_string f tbl id
                end
            end
      end
  end.

(** decodeme/stringtable.rs:210-213 [get_metadata().to_string()] *)
Definition metadata_string (fuel : nat) (tbl : string_table) : res bytes :=
  to_string fuel tbl METADATA_STRING_ID.
