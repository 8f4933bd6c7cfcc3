(** What a diff says about a label, and the diffs along a sequence of profiles. *)
From Coq Require Import ZArith List Bool Permutation.
From Verif Require Import M_Base M_Map M_Analysis M_Diff.
Import ListNotations.
Open Scope Z_scope.

(** The numbers of a row. *)
Definition fields : list (qdiff -> Z) :=
  [fun r => as_nanos (d_time r); fun r => as_nanos (d_self_time r); fun r => as_nanos (d_blocked r); fun r => as_nanos (d_load r);
   fun r => as_nanos (d_hashing r); d_misses; d_hits; d_count].
(** What the diff says about the label [l]; 0 if it has no row for it. *)
Definition says (field : qdiff -> Z) (l : bytes) (d : diff_results) : Z :=
  match find (fun r => beq (d_label r) l) (dr_query d) with Some r => field r | None => 0 end.
Definition says_size (l : bytes) (d : diff_results) : Z :=
  match find (fun a => beq (ad_label a) l) (dr_artifacts d) with Some a => ad_change a | None => 0 end.
(** Each profile of the list compared with the one before. *)
Inductive steps (oc : bool) : results -> list results -> list diff_results -> Prop :=
| st_nil r : steps oc r [] []
| st_cons order r r' rs d ds : (forall k (l : list bytes), Permutation (order k l) l) -> calculate_diff oc order r r' = Ok d ->
    steps oc r' rs ds -> steps oc r (r' :: rs) (d :: ds).
