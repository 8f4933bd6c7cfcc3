(** The same recording, started at another time. *)
From Coq Require Import ZArith List.
From Verif Require Import M_Base M_Raw M_V8 M_Crox.
Import ListNotations.
Open Scope Z_scope.

(** An event [k] ns later (earlier, for negative [k]). *)
Definition later (k : Z) (e : event) : event :=
  mkEv (ev_kind e) (ev_label e) (ev_args e)
    match ev_payload e with
    | Timestamp (Interval a b) => Timestamp (Interval (a + k) (b + k))
    | Timestamp (Instant t) => Timestamp (Instant (t + k))
    | Integer v => Integer v
    end (ev_thread e).
(** A result with its value changed. *)
Definition rmap {A B} (f : A -> B) (r : res A) : res B := match r with Ok a => Ok (f a) | Err => Err | Panic => Panic | Diverge => Diverge end.
(** A Chrome record [j] microseconds later. *)
Definition record_later (j : Z) (r : record) : record :=
  match r with
  | Complete name cat ts dur pid tid args => Complete name cat (ts + j) dur pid tid args
  | r => r
  end.

(** Two lists of profiles: each profile of the one is the one of the other, started at some other time. *)
Definition other_starts (ps' ps : list (list event)) : Prop := Forall2 (fun evs' evs => exists k, evs' = map (later k) evs) ps' ps.
