(** What the analyses look at in the events. *)
From Coq Require Import ZArith List Bool.
From Verif Require Import M_Base M_Raw M_V8 M_Map M_Analysis.
Import ListNotations.
Open Scope Z_scope.

(** The events summarize looks at: intervals, cache hits, artifact sizes. *)
Definition summarized (e : event) : bool :=
  match ev_payload e with
  | Timestamp (Interval _ _) => true
  | Timestamp (Instant _) => beq (ev_kind e) QUERY_CACHE_HIT_EVENT_KIND
  | Integer _ => beq (ev_kind e) ARTIFACT_SIZE_EVENT_KIND
  end.
(** An event without its arguments; and without its kind too. *)
Definition no_args (e : event) : event := mkEv (ev_kind e) (ev_label e) [] (ev_payload e) (ev_thread e).
Definition no_kind (e : event) : event := mkEv [] (ev_label e) [] (ev_payload e) (ev_thread e).
(** Only when and in which thread. *)
Definition only_times (e : event) : event := mkEv [] [] [] (ev_payload e) (ev_thread e).
Definition is_interval_event (e : event) : bool := match ev_payload e with Timestamp (Interval _ _) => true | _ => false end.
Definition has_time (e : event) : bool := match ev_payload e with Timestamp _ => true | Integer _ => false end.
