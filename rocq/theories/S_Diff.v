(** Specification for C31: what a diff of two profiles is. *)
From Coq Require Import ZArith List Lia Bool Permutation Sorted.
From Verif Require Import M_Base M_Map M_Analysis.
Import ListNotations.
Open Scope Z_scope.

(** The entry of label [l] (results written by the analysis have at most one; of several, e.g. in a
    hand-made file, the last counts) and the value of one of its fields, 0 if there is no entry. *)
Definition entry {A} (label : A -> bytes) (data : list A) (l : bytes) : option A :=
  find (fun x => beq (label x) l) (rev data).
Definition value {A} (label : A -> bytes) (field : A -> Z) (data : list A) (l : bytes) : Z :=
  match entry label data l with Some x => field x | None => 0 end.
(** change minus base *)
Definition delta {A} (label : A -> bytes) (field : A -> Z) (base change : list A) (l : bytes) : Z :=
  value label field change l - value label field base l.
Definition descending {A} (key : A -> Z) : list A -> Prop := StronglySorted (fun x y => key y <= key x).

(** Quantities a profile can hold: durations below 2^64 ns (584 years), counts and sizes below 2^63. *)
Definition dur_fits (d : Z) : Prop := 0 <= d < 2 ^ 64.
Definition num_fits (n : Z) : Prop := 0 <= n < 2 ^ 63.
Definition row_fits (q : qdata) : Prop :=
  dur_fits (q_time q) /\ dur_fits (q_self_time q) /\ dur_fits (q_blocked q) /\ dur_fits (q_load q) /\ dur_fits (q_hashing q) /\
  num_fits (q_misses q) /\ num_fits (q_hits q) /\ num_fits (q_count q).
Definition results_fit (r : results) : Prop :=
  Forall row_fits (query_data r) /\ Forall (fun a => num_fits (art_value a)) (artifact_sizes r) /\ dur_fits (total_time r).
