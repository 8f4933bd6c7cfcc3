(** When two event lists differ only in how the threads were interleaved. *)
From Coq Require Import ZArith List Bool.
From Verif Require Import M_Base M_V8.
Import ListNotations.
Open Scope Z_scope.

(** The events of thread [t], in the order of the file. *)
Definition by_thread (t : Z) (evs : list event) : list event := filter (fun e => ev_thread e =? t) evs.
(** Every thread recorded the same events in the same order. *)
Definition same_threads (evs evs' : list event) : Prop := forall t, by_thread t evs = by_thread t evs'.
