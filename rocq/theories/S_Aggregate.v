(** Specification for C34 and C35: sample points, intervals between them, aggregation. *)
From Coq Require Import ZArith List Lia Bool Sorted.
From Verif Require Import M_Base M_Raw M_V8 M_Map S_Guard M_Analysis S_Analysis M_Aggregate.
Import ListNotations.
Open Scope Z_scope.

Notation point := (spoint (with_parent event)).
(** The events that take part: integer events are ignored. *)
Definition timed (evs : list event) : list event := filter (fun e => negb (p_is_integer (ev_payload e))) evs.
Definition single_thread (evs : list event) : Prop := forall e e', In e (timed evs) -> In e' (timed evs) -> ev_thread e = ev_thread e'.

(** A walk through properly parenthesised intervals, latest point first, below the parent [par]:
    every interval is left once (its end comes first) and entered once, with exactly a walk below
    itself in between, and every point names its parent. *)
Inductive walk (par : option event) : list point -> Prop :=
| wk_nil : walk par []
| wk_instant e l : p_is_instant (ev_payload e) = true -> walk par l -> walk par (SInstant (mkW e par) :: l)
| wk_interval e inner l : p_is_interval (ev_payload e) = true -> walk (Some e) inner -> walk par l ->
    walk par (SEnd (mkW e par) :: inner ++ SStart (mkW e par) :: l).
(** The events met on the way, latest first: instants, and intervals at their end. *)
Fixpoint met (l : list point) : list event :=
  match l with
  | [] => []
  | SInstant w :: l' => w_this w :: met l'
  | SEnd w :: l' => w_this w :: met l'
  | SStart _ :: l' => met l'
  end.
(** The intervals between neighbouring points. *)
Fixpoint between (l : list point) : list (sinterval (with_parent event)) :=
  match l with
  | p :: (q :: _) as l' => mkSI q p :: between l'
  | _ => []
  end.

(** A recording in time order: each event ends (or happens) before a later one starts, or inside it. *)
Definition span (e : event) : Z * Z :=
  match ev_payload e with Timestamp (Interval a b) => (a, b) | Timestamp (Instant t) => (t, t) | Integer _ => (0, 0) end.
Definition chronological (evs : list event) : Prop := laminar (map span (timed evs)).

(** [a] is what aggregating the given intervals, one per profile, has to report. *)
Definition combines (is : list (sinterval (with_parent event))) (a : agg) : Prop :=
  (forall i, In i is -> describe_interval i = ag_desc a) /\
  (exists ds, Forall2 (fun i d => si_duration i = Ok d) is ds /\
     In (ag_min a) ds /\ In (ag_min a + ag_range a) ds /\ forall d, In d ds -> ag_min a <= d <= ag_min a + ag_range a).
(** [IS] has one list of intervals per profile; they are consumed in step. *)
Inductive aggregated : list (list (sinterval (with_parent event))) -> list agg -> Prop :=
| ag_end IS : Forall (fun l => l = []) IS -> aggregated IS []
| ag_more (columns : list (sinterval (with_parent event) * list (sinterval (with_parent event)))) a aggs :
    combines (map fst columns) a -> aggregated (map snd columns) aggs ->
    aggregated (map (fun c => fst c :: snd c) columns) (a :: aggs).

(** What the tool sees of one profile: the sample points, with the events replaced by their
    descriptions, and the intervals between them. *)
Definition points_of (evs : list event) (pts : list point) : Prop := drains sp_next (sp_new evs) (Ok pts).
Definition outline (pts : list point) : list (spoint (with_parent desc)) := map (sp_map (w_map desc_of)) pts.
(** The four tables printed: ten smallest and largest durations, ten smallest and largest spreads. *)
From Verif Require Import S_Extrema.
Definition described_table (n : Z) (t : list (Z * sources descriptions)) (printed : list (Z * described)) : Prop :=
  Forall2 (fun x y => fst y = fst x /\ describe n (snd x) = Ok (snd y)) t printed.
Definition reports_count (n : Z) (aggs : list agg) (r : report) : Prop :=
  (exists t, smallest_table 10 (map (fun a => (ag_min a, ag_desc a)) aggs) t /\ described_table n t (r_small_dur r)) /\
  (exists t, largest_table 10 (map (fun a => (ag_min a + ag_range a, ag_desc a)) aggs) t /\ described_table n t (r_large_dur r)) /\
  (exists t, smallest_table 10 (map (fun a => (ag_range a, ag_desc a)) aggs) t /\ described_table n t (r_small_var r)) /\
  (exists t, largest_table 10 (map (fun a => (ag_range a, ag_desc a)) aggs) t /\ described_table n t (r_large_var r)).
Definition reports (aggs : list agg) (r : report) : Prop := reports_count (zlen aggs) aggs r.
(** A number as a 32-bit two's complement integer. *)
Definition as_i32 (n : Z) : Z := (n + 2 ^ 31) mod 2 ^ 32 - 2 ^ 31.
