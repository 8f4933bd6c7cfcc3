(** Specification of the analyses, independent of how they walk the events.
    An event list is in recording order (the order of the file). *)
From Coq Require Import ZArith List Lia Bool Permutation.
From Verif Require Import M_Base M_Raw M_V8 M_Session S_Guard.
Import ListNotations.
Open Scope Z_scope.

Definition is_interval (e : event) : bool := p_is_interval (ev_payload e).
(** Length of an interval event; other events take no time. *)
Definition ev_len (e : event) : Z :=
  match ev_payload e with Timestamp (Interval s t) => t - s | _ => 0 end.
(** The intervals of thread [t]. *)
Fixpoint thread_spans (t : Z) (evs : list event) : list (Z * Z) :=
  match evs with
  | [] => []
  | e :: r => match ev_payload e with
              | Timestamp (Interval a b) => if ev_thread e =? t then (a, b) :: thread_spans t r else thread_spans t r
              | _ => thread_spans t r
              end
  end.
(** Properly nested recording: on each thread the intervals are nested or disjoint, an inner one
    being recorded before the outer one ([laminar] is the condition guards guarantee, C46). *)
Definition nested_recording (evs : list event) : Prop := forall t, laminar (thread_spans t evs).

(** [outer] is an interval of the same thread around the interval [inner]. *)
Definition encloses (outer inner : event) : bool :=
  match ev_payload outer, ev_payload inner with
  | Timestamp (Interval a b), Timestamp (Interval c d) =>
      (ev_thread outer =? ev_thread inner) && (a <=? c) && (d <=? b)
  | _, _ => false
  end.
(** Durations of the direct children of [p], where [before] was recorded before [p]: the events that
    [p] encloses and that no event recorded between them and [p] encloses already. *)
Fixpoint children_time (before : list event) (p : event) : Z :=
  match before with
  | [] => 0
  | e :: later => (if encloses p e && negb (existsb (fun x => encloses x e) later) then ev_len e else 0)
                  + children_time later p
  end.
(** Total self time of the events satisfying [P]. *)
Fixpoint self_from (P : event -> bool) (before evs : list event) : Z :=
  match evs with
  | [] => 0
  | p :: r => (if P p then ev_len p - children_time before p else 0) + self_from P (before ++ [p]) r
  end.
Definition self_time_sum (P : event -> bool) (evs : list event) : Z := self_from P [] evs.
(** Total duration of the events satisfying [P]. *)
Fixpoint time_sum (P : event -> bool) (evs : list event) : Z :=
  match evs with
  | [] => 0
  | e :: r => (if P e then ev_len e else 0) + time_sum P r
  end.
Definition count (P : event -> bool) (evs : list event) : Z := zlen (filter P evs).

Definition labelled (l : bytes) (e : event) : bool := beq (ev_label e) l.
Definition of_kind (k : bytes) (e : event) : bool := beq (ev_kind e) k.

(** [a] is the earliest start, [b] the latest end of thread [t]'s intervals. *)
Definition spans_thread (evs : list event) (t a b : Z) : Prop :=
  (exists y, In (a, y) (thread_spans t evs)) /\ (exists x, In (x, b) (thread_spans t evs)) /\
  (forall x y, In (x, y) (thread_spans t evs) -> a <= x /\ y <= b).
(** The threads with an interval, each once, with their spans. *)
Definition all_thread_spans (evs : list event) (l : list (Z * (Z * Z))) : Prop :=
  NoDup (map fst l) /\
  (forall t, In t (map fst l) <-> thread_spans t evs <> []) /\
  (forall t a b, In (t, (a, b)) l -> spans_thread evs t a b).
