(** What opening a profile does, and says, for every contents of the file. *)
From Coq Require Import String ZArith List Lia Bool.
From Verif Require Import M_Base M_Map M_Crox M_Sink S_Sink S_Corrupt.
Import ListNotations.
Open Scope Z_scope.

(** The texts of the errors about a stream [tag] of the file shown as [file]. *)
Definition about (tag file problem : bytes) : bytes :=
  str "Error reading " ++ tag ++ str " stream in file `" ++ file ++ str "`: " ++ problem.
(** Four bytes as a Rust array literal. *)
Definition four (m : bytes) : bytes :=
  match m with
  | [a; b; c; d] => str "[" ++ decimal a ++ str ", " ++ decimal b ++ str ", " ++ decimal c ++ str ", " ++ decimal d ++ str "]"
  | _ => []
  end.

(** What is wrong with the beginning of a stream that should begin with [magic]. *)
Inductive bad_magic (magic : bytes) : bytes -> bytes -> Prop :=
| bad_short s : zlen s < 8 -> bad_magic magic s (str "Expected file to contain at least `8` bytes but found `" ++ decimal (zlen s) ++ str "` bytes")
| bad_four m s : zlen m = 4 -> m <> magic -> 4 <= zlen s -> bad_magic magic (m ++ s) (str "Expected file magic `" ++ four magic ++ str "` but found `" ++ four m ++ str "`").
(** ... and with version 9. *)
Inductive bad_start (magic : bytes) : bytes -> bytes -> Prop :=
| bad_start_magic s problem : bad_magic magic s problem -> bad_start magic s problem
| bad_start_version v s : 0 <= v < 2 ^ 32 -> v <> 9 -> bad_start magic (magic ++ le_bytes 4 v ++ s) (str "Expected file format version 9 but found `" ++ decimal v ++ str "`").
(** The stream begins correctly. *)
Definition good_start (magic s : bytes) : Prop := exists rest, s = magic ++ le_bytes 4 9 ++ rest.

(** The entries of an index stream. *)
Inductive entries : bytes -> list (Z * Z) -> Prop :=
| en_nil : entries [] []
| en_cons id a rest ix : 0 <= id < 2 ^ 64 -> 0 <= a < 2 ^ 64 -> entries rest ix -> entries (le_bytes 8 id ++ le_bytes 8 a ++ rest) ((id, a) :: ix).

(** What a caller gets: a profile of the previous format, a profile of the current format (its event
    stream, its string data, its index and its metadata), an error, or a panic. *)
Inductive answer (A8 M : Type) :=
| OpenedOld (a : A8)
| Opened (events strings : bytes) (ix : list (Z * Z)) (metadata : M)
| Error (text : bytes)
| Crashed.
Arguments OpenedOld {A8 M} a.
Arguments Opened {A8 M} events strings ix metadata.
Arguments Error {A8 M} text.
Arguments Crashed {A8 M}.

Section Opening.
Variables A8 M : Type.
(** The metadata a text stands for, if any, and what the JSON reader says otherwise. *)
Variable metadata_of : bytes -> option M.
Variable json_error : bytes -> bytes.
(** The reader for the previous format. *)
Variable old : bytes -> answer A8 M -> Prop.
(** The path of the file as it is displayed. *)
Variable file : bytes.
Notation answer := (answer A8 M).

Definition paged (body : bytes) (ps : list page) : Prop := Forall page_wf ps /\ body = enc_pages ps.

(** What follows the header of a file of version 9. *)
Inductive opens_current : bytes -> answer -> Prop :=
| oc_torn body : (forall ps, ~ paged body ps) -> opens_current body Crashed
| oc_no_strings body ps : paged body ps -> stream TStrData ps = [] ->
    opens_current body (Error (str "Invalid file: No string data found"))
| oc_no_index body ps : paged body ps -> stream TStrData ps <> [] -> stream TStrIndex ps = [] ->
    opens_current body (Error (str "Invalid file: No string index data found"))
| oc_no_events body ps : paged body ps -> stream TStrData ps <> [] -> stream TStrIndex ps <> [] -> stream TEvents ps = [] ->
    opens_current body (Error (str "Invalid file: No event data found"))
| oc_streams body ps a : paged body ps -> stream TStrData ps <> [] -> stream TStrIndex ps <> [] -> stream TEvents ps <> [] ->
    opens_streams (stream TEvents ps) (stream TStrData ps) (stream TStrIndex ps) a -> opens_current body a
with opens_streams : bytes -> bytes -> bytes -> answer -> Prop :=
| os_events e s i problem : bad_start (str "MMES") e problem -> opens_streams e s i (Error (about (str "event") file problem))
| os_strings e s i problem : good_start (str "MMES") e -> bad_start (str "MMSD") s problem ->
    opens_streams e s i (Error (about (str "StringTable Data") file problem))
| os_index e s i problem : good_start (str "MMES") e -> good_start (str "MMSD") s -> bad_start (str "MMSI") i problem ->
    opens_streams e s i (Error (about (str "StringTable Index") file problem))
| os_index_size e s rest : good_start (str "MMES") e -> good_start (str "MMSD") s -> zlen rest mod 16 <> 0 ->
    opens_streams e s (str "MMSI" ++ le_bytes 4 9 ++ rest) Crashed
| os_table e s rest ix a : good_start (str "MMES") e -> good_start (str "MMSD") s -> entries rest ix -> opens_table e s ix a ->
    opens_streams e s (str "MMSI" ++ le_bytes 4 9 ++ rest) a
(** The string with the reserved id 100000001 is the metadata. *)
with opens_table : bytes -> bytes -> list (Z * Z) -> answer -> Prop :=
| ot_crash e s ix : shown s ix 100000001 Crash -> opens_table e s ix Crashed
| ot_json e s ix t : shown s ix 100000001 (Text t) -> metadata_of t = None -> opens_table e s ix (Error (json_error t))
| ot_ok e s ix t md : shown s ix 100000001 (Text t) -> metadata_of t = Some md -> opens_table e s ix (Opened e s ix md).

(** The whole file. *)
Inductive opens : bytes -> answer -> Prop :=
| op_bad data problem : bad_magic (str "MMPD") data problem -> opens data (Error (about (str "top-level") file problem))
| op_version v rest suite : 0 <= v < 2 ^ 32 -> v <> 8 -> v <> 9 ->
    suite = (if 9 <? v then str "this version of measureme. Try upgrading your tools" else str "this version of the measureme tool suite. Try upgrading the tool suite") ->
    opens (str "MMPD" ++ le_bytes 4 v ++ rest) (Error (str "File version " ++ decimal v ++ str " is too new for " ++ suite ++ str " to the latest version."))
| op_old rest a : old (str "MMPD" ++ le_bytes 4 8 ++ rest) a -> opens (str "MMPD" ++ le_bytes 4 8 ++ rest) a
| op_current rest a : opens_current rest a -> opens (str "MMPD" ++ le_bytes 4 9 ++ rest) a.
End Opening.
