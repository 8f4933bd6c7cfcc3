(** Specification for C82: a process that profiles itself, and what it leaves behind for the tools. *)
From Coq Require Import String ZArith List Lia Bool Permutation Reals.
From Flocq Require Import BinarySingleNaN.
From Verif Require Import M_Float M_Analysis S_Analysis S_Summary S_Diff M_Text M_Tools S_Folded S_Collapse M_Json S_Json M_Crox S_EndToEnd.
From Verif Require M_Cli S_Tools S_Text S_Summarize.
From Verif Require Import M_Base M_Map M_Path M_Raw M_V8 M_Programs M_Sink S_Sink M_Conc S_Conc M_Session S_Session M_Run S_Run M_Guard S_Guard S_Whole S_Utf8 M_Counters M_Metadata M_Start S_Start.
Import ListNotations.
Open Scope Z_scope.

(** The machine it runs on, the path given to the profiler, the counter, the arguments; what its threads do, the order in which the sinks
    are dropped at the end, the id each thread uses for itself. *)
Record process := mkProcess {
  machine : host; place : path; counter : counter_kind; arguments : list (list Z);
  byte_order : endian; actions : list uact; at_end : list op; ids : Z -> Z }.
(** The file of the profile. *)
Definition profile_path (p : path) : path := with_extension p (str "mm_profdata").
Definition about (p : process) : bytes := metadata_text (h_clock (machine p)) (h_pid (machine p)) (arguments p) (counter p).
(** Started on the file system [w], the process makes calls with the history [h] and leaves the file system [w']: the profiler is
    started, every call has returned, all sinks have been dropped, and what they handed over is in the file. *)
Definition leaves (p : process) (w : fsys) (h : list uev) (w' : fsys) : Prop :=
  exists w1 c0, with_counter (machine p) w (place p) (counter p) = (w1, Started (cmem c0)) /\ started (about p) 8 c0 /\
    let c := urun (byte_order p) (actions p) (mkU c0 []) in
    ucalls_ok (actions p) /\ all_idle (uc c) /\ Forall is_drop (at_end p) /\ (forall t, In (ODrop t) (at_end p)) /\ h = uhist c /\
    w' = put w1 (profile_path (place p)) (IsFile (file_of (disk (snd (run_ops (at_end p) (cmem (uc c))))))).
(** The arguments are Unicode, the clock shows a time between 1970 and 2554, the process id has 32 bits; the path is one of a file. *)
Definition ordinary_process (p : process) (w : fsys) : Prop :=
  all_unicode (machine p) (arguments p) /\ 0 <= h_clock (machine p) < 2 ^ 64 /\ 0 <= h_pid (machine p) < 2 ^ 32 /\
  fs_ok w /\ tidy w (place p) /\ has_place (place p).
(** Timing guards in nested scopes, and an id of its own for every thread. *)
Definition guarded (p : process) (h : list uev) : Prop := (forall t, uses_scopes h t) /\ own_numbers h (ids p).
(** The events that have been recorded, with times counted from 1970. *)
Definition events_of (p : process) (K : list (call * Z)) (es : list event) : Prop :=
  Forall2 (should_read (about p) 8 K (h_clock (machine p))) (recorded K) es.
(** A tool given [file] on the file system [w2] finds the profile [p] left in [w']. *)
Definition finds (w2 : fsys) (file : path) (p : process) (w' : fsys) : Prop :=
  profile_path file = profile_path (place p) /\ w2 (profile_path file) = w' (profile_path (place p)).

(** ** What the tools do with a profile whose events are [es] *)
Section Tools.
Variables (s : setup) (inferno : list bytes -> bytes * bool) (w : world) (file : path) (md : metadata) (es : list event).
Variables (read_f64 : bytes -> option f64) (entries : path -> list path).
(** The command line [args] of [tool] means [c]. *)
Definition means (tool : M_Cli.program) (args : list bytes) (c : command) : Prop := M_Cli.command_line read_f64 entries tool args = M_Cli.Start c.
(** [mmview [-t id] file] prints one entry for every event of the wanted thread, in order, with times since the earliest start. *)
Definition view_prints : Prop := forall args thread_id, means M_Cli.MmviewTool args (View file thread_id) ->
  (forall t0, S_Tools.earliest_start es t0 -> exists texts,
     mmview_cmd s w file thread_id = mkRun (Some (Printed (concat texts))) w Success /\
     Forall2 (S_Tools.shown t0) (filter (S_Tools.wanted thread_id) es) texts) /\
  ((forall e, In e es -> exists i, ev_payload e = Integer i) -> mmview_cmd s w file thread_id = mkRun (Some NoEvents) w Success).
(** [summarize summarize [-p percent] file] prints the table of what the events add up to, [--json] writes it to a file next to the
    profile; a threshold that is no percentage is refused. *)
Definition percentage (p : f64) : Prop := p = B754_nan \/ is_finite p = true /\ (0 <= B2R p <= 100)%R.
Definition summary_prints : Prop := exists r, results_of es r /\
  forall args json p, means M_Cli.SummarizeTool args (Summarize file json p) ->
    (json = false -> percentage p ->
      exists out, summarize_cmd s w file false p = mkRun (Some out) w Success /\
        (exists text, out_total out = str "Total cpu time: " ++ text /\ S_Text.says_exactly text (total_time r)) /\
        exists q shown columns texts, Permutation q (query_data r) /\ descending q_self_time q /\ out_activities out = columns :: texts /\
          (forall q, In q (query_data r) -> shown q = false <->
             0 < total_time r /\ is_finite p = true /\ (B2R (percent_of (total_time r) (q_self_time q)) < B2R p)%R) /\
          Forall2 (fun q row => Forall2 (fun column text => S_Text.cell_says (total_time r) (S_Summarize.column_value q column) text) columns row) (filter shown q) texts) /\
    (json = false -> ~ percentage p -> summarize_cmd s w file false p = mkRun None w ExitOne) /\
    (json = true -> summarize_cmd s w file true p = mkRun None (create w (with_extension file (str "json")) (results_text r)) Success).
(** The stacks of the events with their self times; they add up to the life times of the threads. *)
Definition stacks_of (stacks : list (bytes * Z)) : Prop := NoDup (map fst stacks) /\
  exists spans, all_thread_spans es spans /\
    (forall k v, In (k, v) stacks <->
      (k = str "rustc" /\ v = zsum (map (fun x => snd (snd x) - fst (snd x) - top_level_time (fst x) es) spans)) \/
      ((exists before e after, es = before ++ e :: after /\ is_interval e = true /\ k = stack_line e after) /\
       v = self_time_sum (labelled k) (with_lines es))) /\
    zsum (map snd stacks) = life_times spans.
(** Fewer than 2^16 threads have intervals. *)
Definition few_timed_threads : Prop := exists T, NoDup T /\ zlen T < 2 ^ 16 /\ forall t, thread_spans t es <> [] -> In t T.
(** [stack_collapse file] writes them to a file (unless a label has a line feed), [flamegraph file] hands them to inferno. *)
Definition stacks_written : Prop := exists stacks, stacks_of stacks /\
  (forall args, means M_Cli.StackCollapseTool args (StackCollapse file) -> Forall (fun e => ~ In 10 (ev_label e)) es ->
     exists text, stack_collapse_cmd s w file = mkRun None (create w [Normal (str "out.stacks_folded")] text) Success /\ forall l, text_says text l <-> l = stacks) /\
  (forall args, means M_Cli.FlamegraphTool args (Flamegraph file) ->
     exists lines, flamegraph_cmd s inferno w file =
        mkRun None (create w [Normal (str "rustc.svg")] (fst (inferno lines))) (if snd (inferno lines) then Success else Crash) /\
       forall l, Forall2 line_says lines l <-> l = stacks).
(** [crox file] ends well and writes one JSON document. *)
Definition crox_writes : Prop := forall args collapse minimum, means M_Cli.CroxTool args (Crox [file] [] collapse minimum) ->
  (exists w', ran s inferno w (Crox [file] [] collapse minimum) w' Success) /\
  forall w' e, ran s inferno w (Crox [file] [] collapse minimum) w' e -> e = Success /\
    exists text objects tids, w' [Normal (str "chrome_profiler.json")] = Some text /\ utf8 text /\
      (forall v, document text v <-> v = JArr objects) /\ thread_mapping (oc s) collapse es (Ok tids) /\
      file_objects minimum (fun t => match map_get Z.eqb t tids with Some t' => t' | None => t end) md es objects.
(** [summarize diff [-e text]... file change] prints the exact changes from the events [es] of [file] to the events [es'] of [change]. *)
Definition diff_prints (change : path) (es' : list event) : Prop := exists r r', results_of es r /\ results_of es' r' /\
  forall args exclude, means M_Cli.SummarizeTool args (Diff file change exclude false) ->
  exists labels activities total artifacts sizes,
    diff_cmd s w file change exclude false = mkRun (Some
      (map str ["Item"; "Self Time"; "Self Time Change"; "Time"; "Time Change"; "Item count"; "Cache hits"; "Blocked time"; "Incremental load time"; "Incremental hashing time"]%string :: activities,
       str "Total cpu time: " ++ total, map str ["Item"; "Artifact Size Change"]%string :: sizes)) w Success /\
    let kept l := ~ exists e, In e exclude /\ S_Summarize.substring e l in
    NoDup labels /\ (forall l, In l labels <-> (has_row es l \/ has_row es' l) /\ kept l) /\
    descending (fun l => Z.abs (self_time_sum (labelled l) es' - self_time_sum (labelled l) es)) labels /\
    Forall2 (S_Text.diff_row_says (query_data r) (query_data r')) labels activities /\
    S_Text.says_signed total (total_time r' - total_time r) /\
    Forall2 (S_Text.diff_artifact_says (artifact_sizes r) (artifact_sizes r')) artifacts sizes.
(** The tools end with an error, the same for all, and change no file. *)
Definition all_refuse : Prop := exists text,
  (forall t, mmview_cmd s w file t = mkRun None w (Failure text)) /\ (forall j p, summarize_cmd s w file j p = mkRun None w (Failure text)) /\
  stack_collapse_cmd s w file = mkRun None w (Failure text) /\ flamegraph_cmd s inferno w file = mkRun None w (Failure text).
End Tools.
