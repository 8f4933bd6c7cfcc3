(** Model of analyzeme/src/analysis.rs: [perform_analysis].

    Simplifications: [usize] counters are unbounded (they count events of the file); [SystemTime]
    and [Duration] are nanosecond counts, [Duration] with its overflow and underflow panics; a hash
    map is its list of entries, and the order in which [query_data.drain()] yields them is the
    parameter [order]; [threads.values()] is only summed, so its order is not observable. *)
From Coq Require Import ZArith List Lia Bool String.
From Verif Require Import M_Base M_Raw M_V8 M_Map.
Import ListNotations.
Open Scope Z_scope.

(** measureme/src/rustc.rs:3-15 *)
Definition QUERY_EVENT_KIND : bytes := str "Query".
Definition GENERIC_ACTIVITY_EVENT_KIND : bytes := str "GenericActivity".
Definition INCREMENTAL_LOAD_RESULT_EVENT_KIND : bytes := str "IncrementalLoadResult".
Definition INCREMENTAL_RESULT_HASHING_EVENT_KIND : bytes := str "IncrementalResultHashing".
Definition QUERY_BLOCKED_EVENT_KIND : bytes := str "QueryBlocked".
Definition QUERY_CACHE_HIT_EVENT_KIND : bytes := str "QueryCacheHit".
Definition ARTIFACT_SIZE_EVENT_KIND : bytes := str "ArtifactSize".

(** analysis.rs:305-316 [struct QueryData] *)
Record qdata := mkQ {
  q_label : bytes; q_time : Z; q_self_time : Z; q_misses : Z; q_hits : Z; q_count : Z;
  q_blocked : Z; q_load : Z; q_hashing : Z }.
(** analysis.rs:318-325 *)
Definition qdata_new (label : bytes) : qdata := mkQ label 0 0 0 0 0 0 0 0.
(** analysis.rs:327-342 *)
Record artifact := mkArt { art_label : bytes; art_value : Z }.
(** analysis.rs:282-287 *)
Record results := mkRes { query_data : list qdata; artifact_sizes : list artifact; total_time : Z }.

(** the closures' statements *)
Definition add_self (d : Z) (q : qdata) : res qdata := do v <- dadd (q_self_time q) d;
  Ok (mkQ (q_label q) (q_time q) v (q_misses q) (q_hits q) (q_count q) (q_blocked q) (q_load q) (q_hashing q)).
Definition sub_self (d : Z) (q : qdata) : res qdata := do v <- dsub (q_self_time q) d;
  Ok (mkQ (q_label q) (q_time q) v (q_misses q) (q_hits q) (q_count q) (q_blocked q) (q_load q) (q_hashing q)).
Definition add_time (d : Z) (q : qdata) : res qdata := do v <- dadd (q_time q) d;
  Ok (mkQ (q_label q) v (q_self_time q) (q_misses q) (q_hits q) (q_count q) (q_blocked q) (q_load q) (q_hashing q)).
Definition inc_misses (q : qdata) : res qdata :=
  Ok (mkQ (q_label q) (q_time q) (q_self_time q) (q_misses q + 1) (q_hits q) (q_count q) (q_blocked q) (q_load q) (q_hashing q)).
Definition inc_hits (q : qdata) : res qdata :=
  Ok (mkQ (q_label q) (q_time q) (q_self_time q) (q_misses q) (q_hits q + 1) (q_count q) (q_blocked q) (q_load q) (q_hashing q)).
Definition inc_count (q : qdata) : res qdata :=
  Ok (mkQ (q_label q) (q_time q) (q_self_time q) (q_misses q) (q_hits q) (q_count q + 1) (q_blocked q) (q_load q) (q_hashing q)).
Definition add_blocked (d : Z) (q : qdata) : res qdata := do v <- dadd (q_blocked q) d;
  Ok (mkQ (q_label q) (q_time q) (q_self_time q) (q_misses q) (q_hits q) (q_count q) v (q_load q) (q_hashing q)).
Definition add_load (d : Z) (q : qdata) : res qdata := do v <- dadd (q_load q) d;
  Ok (mkQ (q_label q) (q_time q) (q_self_time q) (q_misses q) (q_hits q) (q_count q) (q_blocked q) v (q_hashing q)).
Definition sub_load (d : Z) (q : qdata) : res qdata := do v <- dsub (q_load q) d;
  Ok (mkQ (q_label q) (q_time q) (q_self_time q) (q_misses q) (q_hits q) (q_count q) (q_blocked q) v (q_hashing q)).
Definition add_hashing (d : Z) (q : qdata) : res qdata := do v <- dadd (q_hashing q) d;
  Ok (mkQ (q_label q) (q_time q) (q_self_time q) (q_misses q) (q_hits q) (q_count q) (q_blocked q) (q_load q) v).
Definition sub_hashing (d : Z) (q : qdata) : res qdata := do v <- dsub (q_hashing q) d;
  Ok (mkQ (q_label q) (q_time q) (q_self_time q) (q_misses q) (q_hits q) (q_count q) (q_blocked q) (q_load q) v).

(** analysis.rs:126-134 [record_event_data] *)
Definition record_event_data (m : list (bytes * qdata)) (label : bytes) (f : qdata -> res qdata)
  : res (list (bytes * qdata)) :=
  match map_get beq label m with
  | Some data => do d <- f data; Ok (map_put beq label d m)
  | None => do d <- f (qdata_new label); Ok (map_put beq label d m)
  end.

(** analysis.rs:116-120 [PerThreadState]; the top of the stack comes first *)
Record thread_state := mkTh { th_stack : list event; th_start : Z; th_end : Z }.
Record astate := mkA {
  a_query : list (bytes * qdata); a_artifacts : list (bytes * artifact); a_threads : list (Z * thread_state) }.
Definition astate_init : astate := mkA [] [] [].

(** analysis.rs:157-165 *)
Fixpoint pop_non_parents (stack : list event) (current : event) : list event :=
  match stack with
  | [] => []
  | top :: rest => if contains (ev_payload top) (ev_payload current) then stack else pop_non_parents rest current
  end.

(** analysis.rs:169-197: what is subtracted from the parent *)
Definition parent_update (kind : bytes) (d : Z) (q : qdata) : res qdata :=
  if beq kind QUERY_EVENT_KIND || beq kind GENERIC_ACTIVITY_EVENT_KIND then sub_self d q
  else if beq kind INCREMENTAL_RESULT_HASHING_EVENT_KIND then do q1 <- sub_self d q; sub_hashing d q1
  else if beq kind INCREMENTAL_LOAD_RESULT_EVENT_KIND then do q1 <- sub_self d q; sub_load d q1
  else sub_self d q.

(** analysis.rs:199-247: counters of the event itself *)
Definition own_update (kind : bytes) (d : Z) (q : qdata) : res qdata :=
  if beq kind QUERY_EVENT_KIND || beq kind GENERIC_ACTIVITY_EVENT_KIND then
    do q1 <- add_self d q; do q2 <- add_time d q1; do q3 <- inc_misses q2; inc_count q3
  else if beq kind QUERY_BLOCKED_EVENT_KIND then
    do q1 <- add_self d q; do q2 <- add_time d q1; do q3 <- add_blocked d q2; inc_count q3
  else if beq kind INCREMENTAL_LOAD_RESULT_EVENT_KIND then
    do q1 <- add_self d q; do q2 <- add_time d q1; add_load d q2
  else if beq kind INCREMENTAL_RESULT_HASHING_EVENT_KIND then
    do q1 <- add_self d q; add_hashing d q1
  else
    do q1 <- add_self d q; do q2 <- add_time d q1; inc_count q2.

(** analysis.rs:136-266: the body of the loop *)
Definition analysis_step (oc : bool) (s : astate) (ev : event) : res astate :=
  match ev_payload ev with
  | Timestamp (Instant _) =>
      if beq (ev_kind ev) QUERY_CACHE_HIT_EVENT_KIND then
        do q <- record_event_data (a_query s) (ev_label ev) (fun d => do d1 <- inc_hits d; inc_count d1);
        Ok (mkA q (a_artifacts s) (a_threads s))
      else Ok s
  | Timestamp (Interval start end_) =>
      let thread := match map_get Z.eqb (ev_thread ev) (a_threads s) with
                    | Some t => t
                    | None => mkTh [] start end_
                    end in
      let stack := pop_non_parents (th_stack thread) ev in
      do dur <- unwrap (duration (ev_payload ev));
      do q1 <- match stack with
               | top :: _ => record_event_data (a_query s) (ev_label top) (parent_update (ev_kind top) dur)
               | [] => Ok (a_query s)
               end;
      do q2 <- record_event_data q1 (ev_label ev) (own_update (ev_kind ev) dur);
      Ok (mkA q2 (a_artifacts s)
            (map_put Z.eqb (ev_thread ev)
               (mkTh (ev :: stack) (Z.min (th_start thread) start) (Z.max (th_end thread) end_)) (a_threads s)))
  | Integer value =>
      if beq (ev_kind ev) ARTIFACT_SIZE_EVENT_KIND then
        let old := match map_get beq (ev_label ev) (a_artifacts s) with
                   | Some a => a
                   | None => mkArt (ev_label ev) 0
                   end in
        do v <- u64_add oc (art_value old) value;
        Ok (mkA (a_query s) (btree_put (ev_label ev) (mkArt (art_label old) v) (a_artifacts s)) (a_threads s))
      else Ok s
  end.

(** analysis.rs:268-271 *)
Definition thread_span (t : thread_state) : res Z :=
  if th_start t <=? th_end t then Ok (th_end t - th_start t) else Panic.
Definition sum_spans (ts : list (Z * thread_state)) : res Z :=
  foldM (fun acc t => do d <- thread_span (snd t); dadd acc d) 0 ts.

(** analysis.rs:115-278 [perform_analysis], on the events of the file in recording order *)
Definition perform_analysis (oc : bool) (order : list qdata -> list qdata) (evs : list event) : res results :=
  do s <- foldM (analysis_step oc) astate_init (rev evs);
  do total <- sum_spans (a_threads s);
  Ok (mkRes (order (map snd (a_query s))) (map snd (a_artifacts s)) total).
