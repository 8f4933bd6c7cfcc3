(** What the events of a profile are, byte by byte, whatever the file contains. *)
From Coq Require Import String ZArith List Lia Bool.
From Verif Require Import M_Base M_Map M_Raw M_V8 S_EventId S_Corrupt.
Import ListNotations.
Open Scope Z_scope.

(** The 32 bytes of an event: kind, id, thread and two 48 bit numbers [first] and [second], whose upper 16 bits
    share the last four bytes. *)
Definition event_bytes (b : bytes) (kind id thread first second : Z) : Prop :=
  0 <= kind < 2 ^ 64 /\ 0 <= id < 2 ^ 64 /\ 0 <= thread < 2 ^ 32 /\ 0 <= first < 2 ^ 48 /\ 0 <= second < 2 ^ 48 /\
  b = le_bytes 8 kind ++ le_bytes 8 id ++ le_bytes 4 thread ++ le_bytes 4 (first mod 2 ^ 32) ++ le_bytes 4 (second mod 2 ^ 32) ++
      le_bytes 2 (second / 2 ^ 32) ++ le_bytes 2 (first / 2 ^ 32).

(** The largest second number marks an instant, the one before it a number that is not a time. *)
Definition event_payload (start first second : Z) (p : payload) : Prop :=
  (second = 2 ^ 48 - 1 -> p = Timestamp (Instant (start + first))) /\
  (second = 2 ^ 48 - 2 -> p = Integer first) /\
  (second < 2 ^ 48 - 2 -> p = Timestamp (Interval (start + first) (start + second))).

(** The text of an event id: label and arguments, separated by 1E; after an argument that is empty or has a
    control character the rest is ignored. *)
Definition means (text label : bytes) (args : list bytes) : Prop :=
  exists t0 ts, text = join t0 ts /\ ~ In 30 t0 /\ Forall (fun t => ~ In 30 t) ts /\
    ((~ good_text t0 /\ label = str "<parse error>" /\ args = []) \/
     (good_text t0 /\ label = t0 /\ Forall good_text args /\
      (ts = args \/ exists bad rest, ts = args ++ bad :: rest /\ ~ good_text bad))).

Section Events.
Variables (d : bytes) (ix : list (Z * Z)) (start : Z).

Inductive reading := Read (e : event) | Panics.
(** The event with the bytes [b]. *)
Inductive reads_event (b : bytes) : reading -> Prop :=
| re_id kind id thread first second : event_bytes b kind id thread first second ->
    shown d ix id Crash -> reads_event b Panics
| re_kind kind id thread first second t : event_bytes b kind id thread first second ->
    shown d ix id (Text t) -> shown d ix kind Crash -> reads_event b Panics
| re_ok kind id thread first second t k label args p : event_bytes b kind id thread first second ->
    shown d ix id (Text t) -> shown d ix kind (Text k) -> means t label args -> event_payload start first second p ->
    reads_event b (Read (mkEv k label args p thread)).

Inductive reading_all := ReadAll (es : list event) | PanicsAll.
(** All events of a stream (what follows its header). *)
Inductive reads_all : bytes -> reading_all -> Prop :=
| ra_size s : zlen s mod 32 <> 0 -> reads_all s PanicsAll
| ra_nil : reads_all [] (ReadAll [])
| ra_panics b s : zlen b = 32 -> zlen s mod 32 = 0 -> reads_event b Panics -> reads_all (b ++ s) PanicsAll
| ra_cons b s e es : zlen b = 32 -> zlen s mod 32 = 0 -> reads_event b (Read e) -> reads_all s (ReadAll es) -> reads_all (b ++ s) (ReadAll (e :: es))
| ra_later b s e : zlen b = 32 -> zlen s mod 32 = 0 -> reads_event b (Read e) -> reads_all s PanicsAll -> reads_all (b ++ s) PanicsAll.
End Events.
