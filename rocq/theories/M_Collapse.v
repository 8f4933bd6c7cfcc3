(** Model of analyzeme/src/stack_collapse.rs: [collapse_stacks].

    A lightweight event is represented by the full event it decodes to ([to_full_event] of the i-th
    lightweight event is the i-th full event, C22).  Strings are byte lists.  The hash map is its
    list of entries.  [oc]: compiled with overflow checks. *)
From Coq Require Import ZArith List Lia Bool String.
From Verif Require Import M_Base M_Raw M_V8 M_Map.
Import ListNotations.
Open Scope Z_scope.

(** stack_collapse.rs:8-14; the top of the stack comes first *)
Record cthread := mkCt { ct_stack : list event; ct_id : bytes; ct_start : Z; ct_end : Z; ct_total : Z }.
Record cstate := mkC { c_counters : list (bytes * Z); c_threads : list (Z * cthread) }.

(** stack_collapse.rs:45-54: pop non-parents, shortening the id string.  With overflow checks off an
    underflow of the length would not panic; C30 shows that it cannot happen at all. *)
Fixpoint c_pop (stack : list event) (id : bytes) (current : event) : res (list event * bytes) :=
  match stack with
  | [] => Ok (stack, id)
  | top :: rest =>
      if contains (ev_payload top) (ev_payload current) then Ok (stack, id)
      else if zlen (ev_label top) + 1 <=? zlen id
           then c_pop rest (ztake (zlen id - (zlen (ev_label top) + 1)) id) current
           else Panic
  end.

(** [current_event.duration().unwrap().as_nanos() as u64] *)
Definition nanos_u64 (e : event) : res Z := do d <- unwrap (duration (ev_payload e)); Ok (d mod U64).

(** stack_collapse.rs:29-79: the loop body, for an interval event *)
Definition collapse_step (oc : bool) (s : cstate) (e : event) : res cstate :=
  match ev_payload e with
  | Timestamp (Interval start end_) =>
      let th := match map_get Z.eqb (ev_thread e) (c_threads s) with
                | Some t => t
                | None => mkCt [] (str "rustc") start end_ 0
                end in
      let t_start := Z.min (ct_start th) start in
      do p <- c_pop (ct_stack th) (ct_id th) e;
      let (stack, id) := p in
      do cu <- match stack with
               | _ :: _ =>
                   match map_get beq id (c_counters s) with
                   | Some self_time =>
                       do d <- nanos_u64 e; do v <- u64_sub oc self_time d;
                       Ok (map_put beq id v (c_counters s), ct_total th)
                   | None => Ok (c_counters s, ct_total th)
                   end
               | [] => do d <- nanos_u64 e; do v <- u64_add oc (ct_total th) d; Ok (c_counters s, v)
               end;
      let (counters, total) := cu in
      let id' := id ++ str ";" ++ ev_label e in
      let old := match map_get beq id' counters with Some v => v | None => 0 end in
      do d <- nanos_u64 e; do v <- u64_add oc old d;
      Ok (mkC (map_put beq id' v counters)
              (map_put Z.eqb (ev_thread e) (mkCt (e :: stack) id' t_start (ct_end th) total) (c_threads s)))
  | _ => Ok s (* filtered out, stack_collapse.rs:27 *)
  end.

(** stack_collapse.rs:81-93 *)
Definition gap_step (oc : bool) (acc : Z) (t : Z * cthread) : res Z :=
  do span <- (if ct_start (snd t) <=? ct_end (snd t) then Ok (ct_end (snd t) - ct_start (snd t)) else Panic);
  do g <- u64_sub oc (span mod U64) (ct_total (snd t));
  u64_add oc acc g.

(** stack_collapse.rs:20-96 *)
Definition collapse_stacks (oc : bool) (evs : list event) : res (list (bytes * Z)) :=
  do s <- foldM (collapse_step oc) (mkC [] []) (rev evs);
  do rustc_time <- foldM (gap_step oc) 0 (c_threads s);
  Ok (map_put beq (str "rustc") rustc_time (c_counters s)).
