(** The same recording, with other thread ids. *)
From Coq Require Import ZArith List.
From Verif Require Import M_Base M_Raw M_V8.
Import ListNotations.
Open Scope Z_scope.

(** The event with its thread called [f] of its id. *)
Definition rethread (f : Z -> Z) (e : event) : event := mkEv (ev_kind e) (ev_label e) (ev_args e) (ev_payload e) (f (ev_thread e)).
(** Different threads keep different ids. *)
Definition distinct (f : Z -> Z) : Prop := forall a b, f a = f b -> a = b.
(** Two lists of profiles: each profile of the one is the one of the other with other thread ids. *)
Definition other_threads (ps' ps : list (list event)) : Prop := Forall2 (fun evs' evs => exists f, distinct f /\ evs' = map (rethread f) evs) ps' ps.
