(** Model of summarize/src/aggregate.rs (cited as aggregate.rs).

    Iterators are their [next_back] functions on explicit states; [drains] says which list of items
    (or panic) repeated calls produce.  Durations are nanosecond counts.  The [f64] percentages and
    halves in the printed text are in M_AggText.v; here are the numbers they are computed from. *)
From Coq Require Import ZArith List Lia Bool String.
From Verif Require Import M_Base M_Raw M_V8 M_Map M_Analysis M_Diff.
Import ListNotations.
Open Scope Z_scope.

(** aggregate.rs:11-29 [Rev]: calling [next_back] until it returns [None] *)
Inductive drains {S A} (next : S -> res (option (A * S))) : S -> res (list A) -> Prop :=
| dr_done s : next s = Ok None -> drains next s (Ok [])
| dr_step s a s' l : next s = Ok (Some (a, s')) -> drains next s' (Ok l) -> drains next s (Ok (a :: l))
| dr_step_panic s a s' : next s = Ok (Some (a, s')) -> drains next s' Panic -> drains next s Panic
| dr_panic s : next s = Panic -> drains next s Panic.

(** aggregate.rs:40-55 [EventDescription] *)
Record desc := mkDesc { de_kind : bytes; de_label : bytes; de_args : list bytes }.
Definition desc_of (e : event) : desc := mkDesc (ev_kind e) (ev_label e) (ev_args e).
Definition desc_eq_dec (a b : desc) : {a = b} + {a <> b}.
Proof. repeat decide equality. Defined.
(** aggregate.rs:57-73 [Display for EventDescription] *)
Fixpoint join_args (args : list bytes) : bytes :=
  match args with
  | [] => []
  | [a] => a
  | a :: args' => a ++ str ", " ++ join_args args'
  end.
Definition show_desc (d : desc) : bytes :=
  (if beq (de_kind d) QUERY_EVENT_KIND || beq (de_kind d) GENERIC_ACTIVITY_EVENT_KIND then [] else de_kind d ++ str " ")
  ++ str "`" ++ de_label d ++ str "(" ++ join_args (de_args d) ++ str ")`".

(** aggregate.rs:75-79 [WithParent], 91-114 [SamplePoint] *)
Record with_parent (E : Type) := mkW { w_this : E; w_parent : option E }.
Arguments mkW {E}. Arguments w_this {E}. Arguments w_parent {E}.
Inductive spoint (E : Type) := SStart (e : E) | SEnd (e : E) | SInstant (e : E).
Arguments SStart {E}. Arguments SEnd {E}. Arguments SInstant {E}.
Definition sp_event {E} (p : spoint E) : E := match p with SStart e | SEnd e | SInstant e => e end.
Definition sp_map {E E2} (f : E -> E2) (p : spoint E) : spoint E2 :=
  match p with SStart e => SStart (f e) | SEnd e => SEnd (f e) | SInstant e => SInstant (f e) end.
(** aggregate.rs:81-88 *)
Definition w_map {E E2} (f : E -> E2) (w : with_parent E) : with_parent E2 := mkW (f (w_this w)) (option_map f (w_parent w)).
(** aggregate.rs:116-134 [timestamp] *)
Definition sp_timestamp (p : spoint (with_parent event)) : res Z :=
  match ev_payload (w_this (sp_event p)) with
  | Timestamp t =>
      match p, t with
      | SStart _, Interval start _ => Ok start
      | SEnd _, Interval _ end_ => Ok end_
      | SInstant _, Instant time => Ok time
      | _, _ => Panic
      end
  | Integer _ => Panic
  end.

(** aggregate.rs:136-144 [SamplePoints]; the stack with its top first *)
Record spoints := mkSP { expected_thread : Z; rev_events : list event; sp_stack : list event }.
(** aggregate.rs:147-158 [new] *)
Definition sp_new (evs : list event) : spoints :=
  let r := filter (fun e => negb (p_is_integer (ev_payload e))) (rev evs) in
  mkSP (match r with e :: _ => ev_thread e | [] => 0 end) r [].
(** aggregate.rs:165-227 [next_back] *)
Definition sp_next (s : spoints) : res (option (spoint (with_parent event) * spoints)) :=
  match rev_events s with
  | e :: r =>
      if p_is_integer (ev_payload e) then Panic
      else if negb (ev_thread e =? expected_thread s) then Panic
      else
        let enter :=
          match ev_payload e with
          | Timestamp (Interval _ _) =>
              let stack := e :: sp_stack s in
              Ok (Some (SEnd (mkW e (nth_error stack 1)), mkSP (expected_thread s) r stack))
          | Timestamp (Instant _) => Ok (Some (SInstant (mkW e (hd_error (sp_stack s))), mkSP (expected_thread s) r (sp_stack s)))
          | Integer _ => Panic
          end in
        match sp_stack s with
        | top :: stack =>
            if negb (contains (ev_payload top) (ev_payload e))
            then Ok (Some (SStart (mkW top (hd_error stack)), mkSP (expected_thread s) (e :: r) stack))
            else enter
        | [] => enter
        end
  | [] =>
      match sp_stack s with
      | [] => Ok None
      | top :: stack => Ok (Some (SStart (mkW top (hd_error stack)), mkSP (expected_thread s) [] stack))
      end
  end.

(** aggregate.rs:229-242 [SampleInterval] *)
Record sinterval (E : Type) := mkSI { si_start : spoint E; si_end : spoint E }.
Arguments mkSI {E}. Arguments si_start {E}. Arguments si_end {E}.
Definition si_map {E E2} (f : E -> E2) (i : sinterval E) : sinterval E2 := mkSI (sp_map f (si_start i)) (sp_map f (si_end i)).
(** aggregate.rs:244-251 [duration] *)
Definition si_duration (i : sinterval (with_parent event)) : res Z :=
  do e <- sp_timestamp (si_end i); do s <- sp_timestamp (si_start i); if s <=? e then Ok (e - s) else Panic.
(** aggregate.rs:253-267 [SampleIntervals::new] *)
Definition sintervals := (option (spoint (with_parent event)) * spoints)%type.
Definition si_new (s : spoints) : res sintervals :=
  do n <- sp_next s;
  match n with None => Ok (None, s) | Some (p, s') => Ok (Some p, s') end.
(** aggregate.rs:269-281 [next_back].  (With no last sample point the real code also stores the new
    one; that happens only after the underlying iterator has already ended.) *)
Definition si_next (it : sintervals) : res (option (sinterval (with_parent event) * sintervals)) :=
  do n <- sp_next (snd it);
  match n with
  | None => Ok None
  | Some (start, s') =>
      match fst it with
      | None => Ok None
      | Some end_ => Ok (Some (mkSI start end_, (Some start, s')))
      end
  end.

Definition descriptions := sinterval (with_parent desc).
Definition describe_interval (i : sinterval (with_parent event)) : descriptions := si_map (w_map desc_of) i.
Definition descriptions_eq_dec (a b : descriptions) : {a = b} + {a <> b}.
Proof. repeat decide equality. Defined.
(** aggregate.rs:283-301 [Variance], [AggregatedSampleInterval], [max_duration] *)
Record agg := mkAgg { ag_desc : descriptions; ag_min : Z; ag_range : Z }.
Definition ag_max (a : agg) : res Z := dadd (ag_min a) (ag_range a).

(** aggregate.rs:332-354: the closure of the chained iterator, for one further profile *)
Definition agg_other (d : descriptions) (it : sintervals) : res (Z * sintervals) :=
  do n <- si_next it;
  match n with
  | None => Panic
  | Some (i, it') =>
      do duration <- si_duration i;
      if descriptions_eq_dec d (describe_interval i) then Ok (duration, it') else Panic
  end.
(** aggregate.rs:317-385 [AggregatedSampleIntervals::next_back] *)
Definition agg_next (its : list sintervals) : res (option (agg * list sintervals)) :=
  match its with
  | [] => Ok None
  | it0 :: others =>
      do n <- si_next it0;
      match n with
      | Some (interval, it0') =>
          do first <- si_duration interval;
          let d := describe_interval interval in
          do os <- collectM (agg_other d) others;
          let lo := fold_left Z.min (map fst os) first in
          let hi := fold_left Z.max (map fst os) first in
          do range <- dsub hi lo;
          Ok (Some (mkAgg d lo range, it0' :: map snd os))
      | None =>
          do _ <- collectM (fun it => do n <- si_next it; match n with None => Ok tt | Some _ => Panic end) its;
          Ok None
      end
  end.

(** aggregate.rs:397-424 [ExtremaSources] *)
Inductive sources (S : Type) := SEmpty | SOne (s : S) | SCount (n : Z).
Arguments SEmpty {S}. Arguments SOne {S}. Arguments SCount {S}.
Definition src_count {S} (x : sources S) : Z := match x with SEmpty => 0 | SOne _ => 1 | SCount n => n end.
Definition src_add {S} (x : sources S) (s : S) : sources S :=
  match x with SEmpty => SOne s | _ => SCount (src_count x + 1) end.

(** [BTreeMap] operations: entries in increasing key order.  [entry(k).or_default().add(s)]: *)
Fixpoint bt_add {S} (k : Z) (s : S) (m : list (Z * sources S)) : list (Z * sources S) :=
  match m with
  | [] => [(k, src_add SEmpty s)]
  | (k', x) :: m' =>
      if k <? k' then (k, src_add SEmpty s) :: m
      else if k =? k' then (k', src_add x s) :: m'
      else (k', x) :: bt_add k s m'
  end.
Definition bt_remove {S} (k : Z) (m : list (Z * sources S)) : list (Z * sources S) :=
  filter (fun x => negb (fst x =? k)) m.
(** aggregate.rs:389-395, 427-434 [Extrema] *)
Record extrema (S : Type) := mkEx { ex_limit : Z; ex_smallest : list (Z * sources S); ex_largest : list (Z * sources S) }.
Arguments mkEx {S}. Arguments ex_limit {S}. Arguments ex_smallest {S}. Arguments ex_largest {S}.
Definition ex_new {S} (limit : Z) : extrema S := mkEx limit [] [].
(** aggregate.rs:440-473 [add_range]: the body of the loop for one of the two maps *)
Definition ex_add_smallest {S} (limit value : Z) (source : S) (m : list (Z * sources S)) : res (list (Z * sources S)) :=
  if zlen m <? limit then Ok (bt_add value source m)
  else
    do least <- unwrap (hd_error (rev (map fst m)));
    if negb (least <? value) then
      let m := bt_add value source m in
      let m := if limit <? zlen m then bt_remove least m else m in
      if zlen m =? limit then Ok m else Panic
    else Ok m.
Definition ex_add_largest {S} (limit value : Z) (source : S) (m : list (Z * sources S)) : res (list (Z * sources S)) :=
  if zlen m <? limit then Ok (bt_add value source m)
  else
    do least <- unwrap (hd_error (map fst m));
    if negb (value <? least) then
      let m := bt_add value source m in
      let m := if limit <? zlen m then bt_remove least m else m in
      if zlen m =? limit then Ok m else Panic
    else Ok m.
Definition ex_add_range {S} (x : extrema S) (lo hi : Z) (source : S) : res (extrema S) :=
  do s <- ex_add_smallest (ex_limit x) lo source (ex_smallest x);
  do l <- ex_add_largest (ex_limit x) hi source (ex_largest x);
  Ok (mkEx (ex_limit x) s l).
(** aggregate.rs:436-438 [add] *)
Definition ex_add {S} (x : extrema S) (value : Z) (source : S) : res (extrema S) := ex_add_range x value value source.

(** [i32] addition: the counter of aggregate.rs:483 has the default integer type *)
Definition i32_add (oc : bool) (a b : Z) : res Z :=
  if a + b <? 2 ^ 31 then Ok (a + b) else if oc then Panic else Ok ((a + b + 2 ^ 31) mod 2 ^ 32 - 2 ^ 31).

(** aggregate.rs:499-543 [describe]; the text of a count is left symbolic *)
Inductive described := Text (b : bytes) | Occurrences (count intervals : Z).
Definition opt_desc_eqb (a b : option desc) : bool :=
  match a, b with
  | Some x, Some y => if desc_eq_dec x y then true else false
  | None, None => true
  | _, _ => false
  end.
Definition w_eqb (a b : with_parent desc) : bool :=
  (if desc_eq_dec (w_this a) (w_this b) then true else false) && opt_desc_eqb (w_parent a) (w_parent b).
Definition describe (intervals_count : Z) (d : sources descriptions) : res described :=
  match d with
  | SOne i =>
      match si_start i, si_end i with
      | SStart start, SEnd end_ =>
          if w_eqb start end_ then Ok (Text (show_desc (w_this start))) else Panic
      | SStart outer, SStart inner | SStart outer, SInstant inner =>
          if opt_desc_eqb (w_parent inner) (Some (w_this outer))
          then Ok (Text (str "in " ++ show_desc (w_this outer) ++ str ", before " ++ show_desc (w_this inner))) else Panic
      | SEnd inner, SEnd outer | SInstant inner, SEnd outer =>
          if opt_desc_eqb (w_parent inner) (Some (w_this outer))
          then Ok (Text (str "in " ++ show_desc (w_this outer) ++ str ", after " ++ show_desc (w_this inner))) else Panic
      | SEnd first, SStart second | SInstant first, SStart second | SEnd first, SInstant second | SInstant first, SInstant second =>
          if opt_desc_eqb (w_parent first) (w_parent second)
          then match w_parent first with
               | Some parent =>
                   Ok (Text (str "in " ++ show_desc parent ++ str "," ++ [10] ++ str "    between " ++ show_desc (w_this first)
                             ++ [10] ++ str "        and " ++ show_desc (w_this second) ++ [10]))
               | None => Ok (Text (str "between " ++ show_desc (w_this first) ++ str " and " ++ show_desc (w_this second)))
               end
          else Panic
      end
  | _ => Ok (Occurrences (src_count d) intervals_count)
  end.

(** aggregate.rs:489-497: the loop over the aggregated intervals *)
Definition totals := (Z * extrema descriptions * extrema descriptions)%type.
Definition agg_step (oc : bool) (t : totals) (i : agg) : res totals :=
  let '(n, durations, variances) := t in
  do n <- i32_add oc n 1;
  do hi <- ag_max i;
  do durations <- ex_add_range durations (ag_min i) hi (ag_desc i);
  do variances <- ex_add variances (ag_range i) (ag_desc i);
  Ok (n, durations, variances).
(** aggregate.rs:545-572: the four printed tables *)
Record report := mkReport { r_small_dur : list (Z * described); r_large_dur : list (Z * described); r_small_var : list (Z * described); r_large_var : list (Z * described) }.
Definition describe_all (n : Z) (m : list (Z * sources descriptions)) : res (list (Z * described)) :=
  collectM (fun x => do d <- describe n (snd x); Ok (fst x, d)) m.
Definition print_report (t : totals) : res report :=
  let '(n, durations, variances) := t in
  do a <- describe_all n (ex_smallest durations);
  do b <- describe_all n (ex_largest durations);
  do c <- describe_all n (ex_smallest variances);
  do d <- describe_all n (ex_largest variances);
  Ok (mkReport a b c d).
(** aggregate.rs:476-573 [aggregate_profiles] *)
Inductive aggregate_profiles (oc : bool) (profiles : list (list event)) : res report -> Prop :=
| ap_new_panic : collectM (fun evs => si_new (sp_new evs)) profiles = Panic -> aggregate_profiles oc profiles Panic
| ap_loop_panic its : collectM (fun evs => si_new (sp_new evs)) profiles = Ok its ->
    drains agg_next its Panic -> aggregate_profiles oc profiles Panic
| ap_ok its intervals : collectM (fun evs => si_new (sp_new evs)) profiles = Ok its ->
    drains agg_next its (Ok intervals) ->
    aggregate_profiles oc profiles (do t <- foldM (agg_step oc) (0, ex_new 10, ex_new 10) intervals; print_report t).
