(** Specification for C75: when a write to the output can fail. *)
From Coq Require Import String ZArith List Lia Bool.
From Verif Require Import M_Base M_Map M_Path Prop_Path M_Programs M_Output.
Import ListNotations.
Open Scope Z_scope.

(** Some call of [write] to this device may fail. *)
Definition may_fail (d : device) : Prop := broken d = true \/ In Failed (script d).
(** A disk without room: every call fails. *)
Definition full_disk : device := mkDev [] true.
(** The commands that write a file, except flamegraph and mmedit. *)
Definition buffers_output (c : command) : Prop :=
  match c with
  | Summarize _ true _ | Diff _ _ _ true | StackCollapse _ | Crox _ _ _ _ => True
  | _ => False
  end.
