(** What the tools have to agree on. *)
From Coq Require Import ZArith List Bool.
From Verif Require Import M_Base.
Import ListNotations.
Open Scope Z_scope.

(** The semicolon that separates the frames of a stack line. *)
Definition no_semicolon (l : bytes) : Prop := ~ In 59 l.
(** The innermost frame of a stack line: what follows the last semicolon. *)
Fixpoint innermost (k : bytes) : bytes :=
  match k with
  | [] => []
  | c :: r => if existsb (Z.eqb 59) r then innermost r else if c =? 59 then r else k
  end.
