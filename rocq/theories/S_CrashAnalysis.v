(** Vocabulary for the statement about analysing the file that a crash left behind. *)
From Coq Require Import ZArith List Lia Bool.
From Verif Require Import M_Base M_Sink S_Sink M_Conc M_Raw M_V8 M_Session S_Session M_Run M_Guard S_Guard S_Whole.
Import ListNotations.
Open Scope Z_scope.

(** Thread [tid] is somewhere in the middle of a program of nested scopes, run on a clock that never
    goes backwards: the calls it has made are the first ones of such a program. *)
Definition in_scopes (h : list uev) (tid : Z) : Prop :=
  exists p rest, nested p /\ monotone p /\ calls_by tid h ++ rest = grun (fun _ => None) p.

(** The event shows the payload and the thread that were recorded (the profile began at [st]). *)
Definition shows_payload (st : Z) (w : Z * Z * Z * want) (e : event) : Prop :=
  ev_payload e = shown st (snd w) /\ ev_thread e = snd (fst w).
