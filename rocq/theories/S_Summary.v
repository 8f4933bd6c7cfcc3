(** What the summary says about an event list: the documented meaning of each column. *)
From Coq Require Import ZArith List Lia Bool Permutation String Sorted.
From Verif Require Import M_Base M_Raw M_V8 M_Map M_Analysis S_Analysis.
Import ListNotations.
Open Scope Z_scope.

Definition is_cache_hit (e : event) : bool := p_is_instant (ev_payload e) && of_kind (str "QueryCacheHit") e.
Definition is_hashing (e : event) : bool := of_kind (str "IncrementalResultHashing") e.
Definition is_load (e : event) : bool := of_kind (str "IncrementalLoadResult") e.
Definition is_blocked (e : event) : bool := of_kind (str "QueryBlocked") e.
Definition is_computed (e : event) : bool := of_kind (str "Query") e || of_kind (str "GenericActivity") e.

(** The row of label [l]. *)
Definition expected_row (evs : list event) (l : bytes) : qdata :=
  mkQ l
    (* time *)            (time_sum (fun e => labelled l e && negb (is_hashing e)) evs)
    (* self time *)       (self_time_sum (labelled l) evs)
    (* cache misses *)    (count (fun e => is_interval e && labelled l e && is_computed e) evs)
    (* cache hits *)      (count (fun e => is_cache_hit e && labelled l e) evs)
    (* invocations *)     (count (fun e => labelled l e && (is_cache_hit e || is_interval e && negb (is_load e) && negb (is_hashing e))) evs)
    (* blocked time *)    (time_sum (fun e => labelled l e && is_blocked e) evs)
    (* load time *)       (self_time_sum (fun e => labelled l e && is_load e) evs)
    (* hashing time *)    (self_time_sum (fun e => labelled l e && is_hashing e) evs).
(** The labels that get a row. *)
Definition has_row (evs : list event) (l : bytes) : Prop :=
  exists e, In e evs /\ ev_label e = l /\ (is_interval e = true \/ is_cache_hit e = true).

(** Artifact sizes. *)
Definition is_artifact (e : event) : bool := p_is_integer (ev_payload e) && of_kind (str "ArtifactSize") e.
Definition int_value (e : event) : Z := match ev_payload e with Integer v => v | _ => 0 end.
Definition artifact_total (evs : list event) (l : bytes) : Z :=
  zsum (map int_value (filter (fun e => is_artifact e && labelled l e) evs)).
(** Byte-wise lexicographic order on strings. *)
Inductive lex_lt : bytes -> bytes -> Prop :=
| lex_nil x b : lex_lt [] (x :: b)
| lex_lt_cons x y a b : x < y -> lex_lt (x :: a) (y :: b)
| lex_eq_cons x a b : lex_lt a b -> lex_lt (x :: a) (x :: b).
