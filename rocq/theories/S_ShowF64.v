(** Specification for C84: the decimal number a machine number is written as.  [dec], [reads_as]: S_AggText.v. *)
From Coq Require Import ZArith Reals List Lia Bool.
From Flocq Require Import Core BinarySingleNaN.
From Verif Require Import M_Base S_AggText.
Open Scope Z_scope.

(** [d * 10 ^ e] is read as [x], no decimal number with fewer digits is, and none with as many digits is nearer to [x]. *)
Definition shortest_decimal (x : binary_float 53 1024) (d e : Z) : Prop :=
  0 <= d /\ reads_as (dec d e) x /\
  forall d' e', 0 <= d' -> reads_as (dec d' e') x ->
    (forall n, 0 <= n -> d' < 10 ^ n -> d < 10 ^ n) /\
    ((forall n, 0 <= n -> d < 10 ^ n -> d' < 10 ^ n) -> (Rabs (dec d e - B2R x) <= Rabs (dec d' e' - B2R x))%R).
