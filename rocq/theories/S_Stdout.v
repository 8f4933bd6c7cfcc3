(** Specification for C85: programs that print, on a standard output that can fail. *)
From Coq Require Import String ZArith List Lia Bool.
From Verif Require Import M_Base M_Map M_Path M_Programs M_Output.
Import ListNotations.
Open Scope Z_scope.

(** What mmview and [summarize aggregate] print, and how they end, when every write succeeds. *)
Inductive prints (s : setup) (w : world) : command -> bytes -> ending -> Prop :=
| pr_view f t text : shown (mmview_cmd s w f t) = Some (M_Tools.Printed text) -> prints s w (View f t) text (ends (mmview_cmd s w f t))
| pr_aggregate files r text : aggregate_cmd s w files r -> shown r = Some text -> prints s w (Aggregate files) text (ends r).
(** How many bytes the calls of [write] that succeed can take at most. *)
Fixpoint room (calls : list outcome) : Z :=
  match calls with
  | [] => 0
  | Took n :: calls' => Z.max 1 n + room calls'
  | _ :: calls' => room calls'
  end.
