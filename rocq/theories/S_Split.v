(** The threads of a recording split in two groups. *)
From Coq Require Import ZArith List Bool.
From Verif Require Import M_Base M_V8 M_Map M_Analysis.
Import ListNotations.
Open Scope Z_scope.

(** The events of the threads that satisfy [p], in the order of the file. *)
Definition group (p : Z -> bool) (evs : list event) : list event := filter (fun e => p (ev_thread e)) evs.
(** The numbers of a row of the summary. *)
Definition numbers : list (qdata -> Z) := [q_time; q_self_time; q_misses; q_hits; q_count; q_blocked; q_load; q_hashing].
(** What the summary says about the label [l]; 0 if it has no row for it. *)
Definition number (field : qdata -> Z) (l : bytes) (r : results) : Z :=
  match find (fun q => beq (q_label q) l) (query_data r) with Some q => field q | None => 0 end.
Definition size (l : bytes) (r : results) : Z :=
  match find (fun a => beq (art_label a) l) (artifact_sizes r) with Some a => art_value a | None => 0 end.
