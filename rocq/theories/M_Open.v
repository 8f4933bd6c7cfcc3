(** Model of [ProfilingData::new] and of the error texts on the way from a path to a decoder.

    The functions are those of M_Header.v, M_StrTable.v and M_Session.v, with the text of the error. *)
From Coq Require Import String ZArith List Lia Bool.
From Verif Require Import M_Base M_Map M_Sink M_Header M_Strings M_StrTable M_V8 M_Session M_Path M_Crox.
Import ListNotations.
Open Scope Z_scope.

(** [Result<A, Box<dyn Error>>] of a computation that may also panic or recurse without end; an error is
    its text ([Display]). *)
Inductive eres (A : Type) : Type :=
| EOk (a : A)
| EErr (text : bytes)
| EPanic
| EDiverge.
Arguments EOk {A} a.
Arguments EErr {A} text.
Arguments EPanic {A}.
Arguments EDiverge {A}.
Definition ebind {A B} (r : eres A) (f : A -> eres B) : eres B :=
  match r with EOk a => f a | EErr t => EErr t | EPanic => EPanic | EDiverge => EDiverge end.
Notation "'edo' x <- r ; f" := (ebind r (fun x => f)) (at level 200, x pattern, r at level 100, f at level 200, right associativity).
(** A computation whose only error has the text [t]. *)
Definition with_text {A} (t : bytes) (r : res A) : eres A :=
  match r with Ok a => EOk a | Err => EErr t | Panic => EPanic | Diverge => EDiverge end.

(** [{:?}] of a byte slice *)
Fixpoint debug_items (bs : bytes) : bytes :=
  match bs with [] => [] | [b] => decimal b | b :: bs' => decimal b ++ str ", " ++ debug_items bs' end.
Definition debug_bytes (bs : bytes) : bytes := str "[" ++ debug_items bs ++ str "]".

(** file_header.rs:50-56, decodeme/lib.rs:62-68 *)
Definition short_text (file tag : bytes) (len : Z) : bytes :=
  str "Error reading " ++ tag ++ str " stream in file `" ++ file ++ str "`: Expected file to contain at least `" ++
  decimal FILE_HEADER_SIZE ++ str "` bytes but found `" ++ decimal len ++ str "` bytes".
(** file_header.rs:64-70, decodeme/lib.rs:76-82 *)
Definition magic_text (file tag expected actual : bytes) : bytes :=
  str "Error reading " ++ tag ++ str " stream in file `" ++ file ++ str "`: Expected file magic `" ++
  debug_bytes expected ++ str "` but found `" ++ debug_bytes actual ++ str "`".
(** file_header.rs:78-84 *)
Definition version_text (file tag : bytes) (version : Z) : bytes :=
  str "Error reading " ++ tag ++ str " stream in file `" ++ file ++ str "`: Expected file format version " ++
  decimal CURRENT_FILE_FORMAT_VERSION ++ str " but found `" ++ decimal version ++ str "`".

(** decodeme/src/lib.rs:49-91 [read_file_header]; [file]: the path as displayed *)
Definition e_read_file_header (bs magic file tag : bytes) : eres Z :=
  if zlen bs <? FILE_HEADER_SIZE then EErr (short_text file tag (zlen bs))
  else
    let actual_magic := zslice 0 4 bs in
    if beq actual_magic magic then EOk (le_val (zslice 4 8 bs))
    else EErr (magic_text file tag magic actual_magic).

(** file_header.rs:36-90 [verify_file_header] *)
Definition e_verify_file_header (bs magic file tag : bytes) : eres unit :=
  if zlen bs <? FILE_HEADER_SIZE then EErr (short_text file tag (zlen bs))
  else
    let actual_magic := zslice 0 4 bs in
    if beq actual_magic magic then
      let version := le_val (zslice 4 8 bs) in
      if version =? CURRENT_FILE_FORMAT_VERSION then EOk tt else EErr (version_text file tag version)
    else EErr (magic_text file tag magic actual_magic).

(** decodeme/stringtable.rs:172-203 [StringTable::new] *)
Definition e_string_table_new (sdata idata file : bytes) : eres string_table :=
  edo _ <- e_verify_file_header sdata FILE_MAGIC_STRINGTABLE_DATA file (str "StringTable Data");
  edo _ <- e_verify_file_header idata FILE_MAGIC_STRINGTABLE_INDEX file (str "StringTable Index");
  if (zlen idata - FILE_HEADER_SIZE) mod INDEX_ENTRY_SIZE =? 0 then
    edo stripped <- with_text [] (strip_file_header idata);
    edo ix <- with_text [] (collect_index (chunks INDEX_ENTRY_SIZE stripped));
    EOk (mkTable sdata ix)
  else EPanic.

Section Open.
(** [serde_json::from_str::<Metadata>] and the text of its error *)
Variable parse_metadata : bytes -> res metadata.
Variable json_error : bytes -> bytes.
Variable fuel : nat.
(** The decoder of the previous format, an external crate (decodeme_10) *)
Variable A8 : Type.
Variable v8 : bytes -> bytes -> eres A8.
(** [Path::display] *)
Variable display : path -> bytes.

(** decodeme/lib.rs:129-152 [from_separate_buffers] *)
Definition e_from_separate_buffers (string_data index_data event_data file : bytes) : eres decoder :=
  edo _ <- e_verify_file_header event_data FILE_MAGIC_EVENT_STREAM file (str "event");
  edo tbl <- e_string_table_new string_data index_data file;
  edo text <- with_text [] (metadata_string fuel tbl);
  edo md <- with_text (json_error text) (parse_metadata text);
  EOk (mkDecoder event_data tbl md).

Definition ok_or {A} (o : option A) (t : bytes) : eres A := match o with Some a => EOk a | None => EErr t end.

(** decodeme/lib.rs:103-127 [EventDecoder::new] *)
Definition e_decoder_new (data file : bytes) : eres decoder :=
  edo _ <- e_verify_file_header data FILE_MAGIC_TOP_LEVEL file (str "top-level");
  edo split <- with_text [] (split_streams (zdrop FILE_HEADER_SIZE data));
  edo sd <- ok_or (tget TStrData split) (str "Invalid file: No string data found");
  edo ix <- ok_or (tget TStrIndex split) (str "Invalid file: No string index data found");
  edo ev <- ok_or (tget TEvents split) (str "Invalid file: No event data found");
  e_from_separate_buffers sd ix ev file.

(** analyzeme/src/profiling_data.rs:51-92 [from_paged_buffer] *)
Definition e_from_paged_buffer (data file : bytes) : eres (A8 + decoder) :=
  edo version <- e_read_file_header data FILE_MAGIC_TOP_LEVEL file (str "top-level");
  if version =? V8_FILE_FORMAT then edo d <- v8 data file; EOk (inl d)
  else if version =? V9_FILE_FORMAT then edo d <- e_decoder_new data file; EOk (inr d)
  else if V9_FILE_FORMAT <? version then
    EErr (str "File version " ++ decimal version ++ str " is too new for this version of measureme. Try upgrading your tools to the latest version.")
  else
    EErr (str "File version " ++ decimal version ++ str " is too new for this version of the measureme tool suite. Try upgrading the tool suite to the latest version.").

(** analyzeme/src/profiling_data.rs:22-49 [ProfilingData::new] and 325-341 [ProfilerFiles::new]; [fs p]: the
    contents of the file [p], if it exists (a file that exists is assumed to be readable) *)
Definition profiling_data_new (fs : path -> option bytes) (path_stem : path) : eres (A8 + decoder) :=
  let paged_path := with_extension path_stem FILE_EXTENSION in
  match fs paged_path with
  | Some data => e_from_paged_buffer data (display paged_path)
  | None =>
      let msg := str "Could not find profiling data file `" ++ display paged_path ++ str "`." in
      let exists_ ext := match fs (with_extension path_stem (str ext)) with Some _ => true | None => false end in
      if exists_ "events"%string || exists_ "string_data"%string || exists_ "string_index"%string
      then EErr (msg ++ str "It looks like your profiling data has been generated by an out-dated version of measureme (0.7 or older).")
      else EErr msg
  end.
End Open.
