(** Specification for C74: a finished recording session, and the results of a list of events. *)
From Coq Require Import ZArith List Lia Bool Permutation Sorted.
From Verif Require Import M_Base M_Map M_Sink S_Sink M_Conc S_Conc M_Raw M_V8 M_Session S_Session M_Run S_Run S_Utf8 M_Guard S_Guard S_Whole M_Analysis S_Analysis S_Summary M_Programs.
Import ListNotations.
Open Scope Z_scope.

(** A run of a program that uses the profiler: the metadata text [md], the configuration in which the profiler has been started, what the threads do,
    in which order the sinks are dropped at the end. *)
Record recording := mkRecording { md_text : bytes; md_value : metadata; first_ref : Z; initial : conf; acts : list uact; drops : list op; numbers : Z -> Z }.
Definition final (en : endian) (x : recording) : uconf := urun en (acts x) (mkU (initial x) []).
(** All calls have returned, all sinks are dropped, every thread used timing guards in nested scopes under a thread id of its own. *)
Definition proper (en : endian) (parse : bytes -> res metadata) (x : recording) : Prop :=
  utf8 (md_text x) /\ started (md_text x) (first_ref x) (initial x) /\ ucalls_ok (acts x) /\ all_idle (uc (final en x)) /\
  Forall is_drop (drops x) /\ (forall t, In (ODrop t) (drops x)) /\ parse (md_text x) = Ok (md_value x) /\
  (forall t, uses_scopes (uhist (final en x)) t) /\ own_numbers (uhist (final en x)) (numbers x).
(** The file on disk at the end. *)
Definition written_file (en : endian) (x : recording) : bytes := file_of (disk (snd (run_ops (drops x) (cmem (uc (final en x)))))).
(** [es]: the recorded events, as the documentation says they are to be read. *)
Definition records (x : recording) (K : list (call * Z)) (es : list event) : Prop :=
  Forall2 (should_read (md_text x) (first_ref x) K (md_start_time (md_value x))) (recorded K) es.

(** Fewer than 2^40 events; all durations together, and the life times of the threads, below 2^64 ns (584 years); artifact sizes below 2^63. *)
Definition life_times (spans : list (Z * (Z * Z))) : Z := zsum (map (fun x => snd (snd x) - fst (snd x)) spans).
Definition in_range (es : list event) : Prop :=
  zlen es < 2 ^ 40 /\ time_sum (fun _ => true) es < 2 ^ 64 /\ (forall spans, all_thread_spans es spans -> life_times spans < 2 ^ 64) /\
  forall l, artifact_total es l < 2 ^ 63.
(** The results of an analysis of [es], up to the order of the rows. *)
Definition results_of (es : list event) (r : results) : Prop :=
  NoDup (map q_label (query_data r)) /\
  (forall q, In q (query_data r) <-> has_row es (q_label q) /\ q = expected_row es (q_label q)) /\
  StronglySorted lex_lt (map art_label (artifact_sizes r)) /\
  (forall l v, In (mkArt l v) (artifact_sizes r) <-> (exists e, In e es /\ is_artifact e = true /\ ev_label e = l) /\ v = artifact_total es l) /\
  exists spans, all_thread_spans es spans /\ total_time r = life_times spans.

(** The same setup with another recursion depth. *)
Definition with_fuel (s : setup) (n : nat) : setup :=
  mkSetup (parse_metadata s) (json_error s) (io_error s) n (en s) (A8 s) (v8 s) (old_profile s) (display s) (oc s) (row_order s) (order s) (shuffle s) (ties s) (show_f64 s) (fmt s).

(** ** For aggregate: recordings by one thread *)
(** The intervals and instants recorded, in order; an instant is a point in time. *)
Fixpoint times (ks : list call) : list (Z * Z) :=
  match ks with
  | [] => []
  | KInterval _ _ _ s e :: r => (s, e) :: times r
  | KInstant _ _ _ t :: r => (t, t) :: times r
  | _ :: r => times r
  end.
(** The thread number of a call that records an interval or an instant. *)
Definition timed_number (k : call) : option Z :=
  match k with KInterval _ _ n _ _ | KInstant _ _ n _ => Some n | _ => None end.
(** An instant is recorded at the time at which it is recorded. *)
Definition timely (p : list (gop * Z)) : Prop :=
  Forall (fun x => match fst x with GCall (KInstant _ _ _ t) => t = snd x | _ => True end) p.
(** Only one thread records intervals and instants, under one number; it uses timing guards in nested scopes. *)
Definition single_run (h : list uev) : Prop :=
  exists t n, (forall t' k m, In k (calls_by t' h) -> timed_number k = Some m -> t' = t /\ m = n) /\
  exists p, nested p /\ monotone p /\ timely p /\ calls_by t h = grun (fun _ => None) p.
