(** What a Chrome trace says about a label. *)
From Coq Require Import ZArith List Bool.
From Verif Require Import M_Base M_Crox.
Import ListNotations.
Open Scope Z_scope.

(** The duration events of the trace with the name [l] and a category that [cats] accepts. *)
Definition about (cats : bytes -> bool) (l : bytes) (r : record) : bool :=
  match r with Complete name cat _ _ _ _ _ => beq name l && cats cat | _ => false end.
(** How many there are. *)
Definition trace_count (cats : bytes -> bool) (l : bytes) (rs : list record) : Z := zlen (filter (about cats l) rs).
(** The sum of their durations, in the unit of the trace: microseconds. *)
Definition trace_micros (cats : bytes -> bool) (l : bytes) (rs : list record) : Z :=
  fold_right (fun r n => (if about cats l r then match r with Complete _ _ _ dur _ _ _ => dur | _ => 0 end else 0) + n) 0 rs.

(** What is left of a trace when only durations of at least [m] microseconds are wanted. *)
Definition long_enough (m : Z) (r : record) : bool := match r with Complete _ _ _ dur _ _ _ => m <=? dur | _ => true end.
