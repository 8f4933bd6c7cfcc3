(** What the strings of a profile are, byte by byte, whatever the file contains.

    [d] are the contents of the string data stream, [ix] the pairs (id, address) of the index stream in
    the order in which they stand there. *)
From Coq Require Import String ZArith List Lia Bool.
From Verif Require Import M_Base M_Map S_Utf8 S_Lossy.
Import ListNotations.
Open Scope Z_scope.

(** Reading a string gives a text or crashes. *)
Inductive outcome := Text (t : bytes) | Crash.
Definition after (v : bytes) (o : outcome) : outcome :=
  match o with Text t => Text (v ++ t) | Crash => Crash end.

(** The last entry of the index for an id counts. *)
Definition mapped (ix : list (Z * Z)) (id addr : Z) : Prop :=
  exists l1 l2, ix = l1 ++ (id, addr) :: l2 /\ forall a, ~ In (id, a) l2.
Definition unmapped (ix : list (Z * Z)) (id : Z) : Prop := forall a, ~ In (id, a) ix.

Section Strings.
Variable d : bytes.
Variable ix : list (Z * Z).

(** The documented grammar (measureme/src/stringtable.rs:1-34): a string is a sequence of values
    (without the bytes FE and FF) and references (FE and a little endian id of 8 bytes), ended by FF. *)
Inductive string_at : Z -> outcome -> Prop :=
| at_outside a : zlen d <= a -> string_at a Crash
| at_end pre post : d = pre ++ 255 :: post -> string_at (zlen pre) (Text [])
| at_value pre v b post t o : d = pre ++ v ++ b :: post -> v <> [] -> ~ In 254 v -> ~ In 255 v -> b = 254 \/ b = 255 ->
    decoded v t -> string_at (zlen pre + zlen v) o -> string_at (zlen pre) (after t o)
| at_unfinished pre v : d = pre ++ v -> v <> [] -> ~ In 254 v -> ~ In 255 v -> string_at (zlen pre) (Text (str "<invalid>"))
| at_short pre post : d = pre ++ 254 :: post -> zlen post < 8 -> string_at (zlen pre) Crash
| at_ref_crash pre ref post : d = pre ++ 254 :: ref ++ post -> zlen ref = 8 -> string_of (le_val ref) Crash -> string_at (zlen pre) Crash
| at_ref pre ref post t o : d = pre ++ 254 :: ref ++ post -> zlen ref = 8 -> string_of (le_val ref) (Text t) ->
    string_at (zlen pre + 9) o -> string_at (zlen pre) (after t o)
with string_of : Z -> outcome -> Prop :=
| of_unmapped id : id <= 100000001 -> unmapped ix id -> string_of id (Text (str "<unknown>"))
| of_invalid : string_of 100000002 (Text (str "<unknown>"))
| of_mapped id a o : id <= 100000001 -> mapped ix id a -> string_at a o -> string_of id o
| of_regular id o : 100000003 <= id -> string_at (id - 100000003) o -> string_of id o.

(** Where the string of an id begins. *)
Inductive address : Z -> Z -> Prop :=
| ad_mapped id a : id <= 100000001 -> mapped ix id a -> address id a
| ad_regular id : 100000003 <= id -> address id (id - 100000003).

(** What [to_string], with its short cuts, gives instead. *)
Inductive shown : Z -> outcome -> Prop :=
| sh_unmapped id : id <= 100000001 -> unmapped ix id -> shown id (Text (str "<unknown>"))
| sh_invalid : shown 100000002 (Text (str "<unknown>"))
(** no FF at or behind the address *)
| sh_unfinished id a : address id a -> (forall pre post, d = pre ++ 255 :: post -> zlen pre < a) -> shown id Crash
(** everything up to the first FF is text *)
| sh_text id pre v post : address id (zlen pre) -> d = pre ++ v ++ 255 :: post -> ~ In 255 v -> utf8 v -> shown id (Text v)
(** a reference whose address is, by accident, the distance to the first FF less nine: only the
    reference is looked at *)
| sh_jump id pre ref v post o : address id (zlen pre) -> d = pre ++ (254 :: ref ++ v) ++ 255 :: post -> ~ In 255 (ref ++ v) ->
    zlen ref = 8 -> 9 + zlen v = zlen pre + 9 -> shown (le_val ref) o -> shown id o
(** everything else *)
| sh_other id pre v post o : address id (zlen pre) -> d = pre ++ v ++ 255 :: post -> ~ In 255 v -> ~ utf8 v ->
    (forall w, v = 254 :: w -> zlen v <> zlen pre + 9) -> string_of id o -> shown id o.
End Strings.

Scheme string_at_min := Minimality for string_at Sort Prop
  with string_of_min := Minimality for string_of Sort Prop.
Combined Scheme strings_min from string_at_min, string_of_min.
