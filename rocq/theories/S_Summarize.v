(** Specification for C43 and C51: what the printed tables show. *)
From Coq Require Import ZArith List Lia Bool String.
From Verif Require Import M_Base M_Map M_Analysis M_Diff M_Summarize.
Import ListNotations.
Open Scope Z_scope.

(** The value a row shows in the column of the given name. *)
Definition column_value (q : qdata) (column : bytes) : cell :=
  if beq column (str "Item") then Text (q_label q)
  else if beq column (str "Self time") then Dur (q_self_time q)
  else if beq column (str "% of total time") then Percent (q_self_time q)
  else if beq column (str "Time") then Dur (q_time q)
  else if beq column (str "Item count") then Num (q_count q)
  else if beq column (str "Cache hits") then Num (q_hits q)
  else if beq column (str "Blocked time") then Dur (q_blocked q)
  else if beq column (str "Incremental load time") then Dur (q_load q)
  else Dur (q_hashing q).
(** [b] has [p] as a contiguous substring. *)
Definition substring (p b : bytes) : Prop := exists u v, b = u ++ p ++ v.
