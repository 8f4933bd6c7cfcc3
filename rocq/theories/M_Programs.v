(** Model of the tools as programs that read and write files: summarize/src/main.rs (cited as main.rs), crox/src/main.rs
    (crox), mmview/src/main.rs (mmview), mmedit/src/main.rs (mmedit), flamegraph/src/main.rs, stack_collapse/src/main.rs,
    over the functions of the other models.

    Simplifications: the arguments are already parsed (clap); creating and writing a file always succeeds and a file
    that exists can be read; paths are compared by their components (no links); a relative output name is the path of that one name;
    crox and mmview decode the lightweight events before they look at the first full one (decoding them panics only for a damaged stream). *)
From Coq Require Import String ZArith List Lia Bool.
From Flocq Require Import BinarySingleNaN.
From Verif Require Import M_Base M_Map M_Raw M_V8 M_Header M_Session M_Run M_Iter M_Path M_Crox M_Open M_Analysis M_Folded M_Json M_Diff M_DiffJson M_Float
  M_Text M_Aggregate M_AggText M_Tools M_Collapse.
Import ListNotations.
Open Scope Z_scope.

(** The contents of every file, [None] if it does not exist. *)
Definition world := path -> option bytes.
Definition comp_eq_dec (a b : comp) : {a = b} + {a <> b}.
Proof. decide equality. apply list_eq_dec, Z.eq_dec. Defined.
Definition path_eq_dec : forall p q : path, {p = q} + {p <> q} := list_eq_dec comp_eq_dec.
(** [File::create] followed by writing [contents] *)
Definition create (w : world) (p : path) (contents : bytes) : world := fun q => if path_eq_dec q p then Some contents else w q.

(** How a program ends: exit status 0; [main] returned an error with that text; [process::exit(1)]; a panic; no end (a stack overflow). *)
Inductive ending := Success | Failure (text : bytes) | ExitOne | Crash | Hang.
Record run (A : Type) := mkRun { shown : option A; after : world; ends : ending }.
Arguments mkRun {A} _ _ _.
Arguments shown {A} _.
Arguments after {A} _.
Arguments ends {A} _.
(** The operator [?] (and a panic) in [main], before any file was created. *)
Definition try {A B} (w : world) (r : eres A) (k : A -> run B) : run B :=
  match r with
  | EOk a => k a
  | EErr t => mkRun None w (Failure t)
  | EPanic => mkRun None w Crash
  | EDiverge => mkRun None w Hang
  end.
(** A computation that returns no error. *)
Definition sure {A} (r : res A) : eres A := with_text [] r.

(** profiling_data.rs:15-20, 94-114 [ProfilingData]: the metadata, the lightweight events of [iter], and [to_full_event] by index *)
Record profile := mkPf { pf_metadata : metadata; pf_iter : res (list lw_event); pf_full : Z -> res event }.

(** Everything outside the model: [serde_json] on the metadata, the texts of its errors and of the errors of [File::open] or
    [std::fs::read]; the recursion depth; the byte order of the machine; the decoder of the previous format (decodeme_10); [Path::display];
    overflow checks; the order of the hash maps of activities, labels and stacks; the rounding of ties and the texts of an [f64] with
    [{}] and in JSON. *)
Record setup := mkSetup {
  parse_metadata : bytes -> res metadata;
  json_error : bytes -> bytes;
  io_error : path -> bytes;
  fuel : nat;
  en : endian;
  A8 : Type;
  v8 : bytes -> bytes -> eres A8;
  old_profile : A8 -> profile;
  display : path -> bytes;
  oc : bool;
  row_order : list qdata -> list qdata;
  order : bool -> list bytes -> list bytes;
  shuffle : list (bytes * Z) -> list (bytes * Z);
  ties : bool;
  show_f64 : f64 -> bytes;
  fmt : f64 -> bytes }.

Section Programs.
Variable s : setup.

(** file_formats/v9.rs:9-25, profiling_data.rs:94-114 *)
Definition profile_of (d : decoder) : profile :=
  mkPf (d_metadata d) (do n <- num_events d; iter_collect (decode_lightweight_event (en s) d) (fuel s) (iter_new n)) (decode_full_event (fuel s) (en s) d).
(** profiling_data.rs:22-49 *)
Definition open_profile (w : world) (stem : path) : eres profile :=
  edo x <- profiling_data_new (parse_metadata s) (json_error s) (fuel s) (A8 s) (v8 s) (display s) w stem;
  EOk (match x with inl a => (old_profile s) a | inr d => profile_of d end).
(** profiling_data.rs:103-107 [iter_full] *)
Definition pf_iter_full (p : profile) : res (list event) :=
  do lws <- pf_iter p; mapM (fun l => pf_full p (lw_index l)) lws.

(** ** summarize *)
(** main.rs:62-73 [process_results] *)
Definition load_results (w : world) (file : path) : eres results :=
  match process_results file with
  | JsonResults p =>
      match w p with
      | None => EErr ((io_error s) p)
      | Some text => with_text ((json_error s) text) (read_results text)
      end
  | Profile _ =>
      edo p <- open_profile w file;
      edo es <- sure (pf_iter_full p);
      sure (perform_analysis (oc s) (row_order s) es)
  end.
(** main.rs:167-312 [summarize] *)
Definition summarize_cmd (w : world) (file_prefix : path) (json : bool) (percent_above : f64) : run summary_out :=
  try w (open_profile w file_prefix) (fun p =>
  try w (edo es <- sure (pf_iter_full p); sure (perform_analysis (oc s) (row_order s) es)) (fun r =>
  if json then mkRun None (create w (json_path file_prefix) (results_text r)) Success
  else match summarize_text (ties s) percent_above r with
       | None => mkRun None w ExitOne
       | Some out => mkRun (Some out) w Success
       end)).
(** main.rs:99-165 [diff] *)
Definition diff_cmd (w : world) (base change : path) (exclude : list bytes) (json : bool) : run (list (list bytes) * bytes * list (list bytes)) :=
  try w (load_results w base) (fun b =>
  try w (load_results w change) (fun c =>
  try w (sure (full_calculate_diff (oc s) (order s) b c)) (fun d =>
  if json then mkRun None (create w (json_path change) (print (diff_json (fmt s) d))) Success
  else mkRun (Some (diff_text (ties s) exclude d)) w Success))).
(** [collect::<Result<Vec<_>, _>>] *)
Fixpoint open_all (w : world) (files : list path) : eres (list profile) :=
  match files with
  | [] => EOk []
  | f :: files' => edo p <- open_profile w f; edo ps <- open_all w files'; EOk (p :: ps)
  end.
(** How a program ends that needs the result of a computation *)
Definition ends_of {A} (r : res A) : ending := match r with Ok _ => Success | Err | Panic => Crash | Diverge => Hang end.
(** main.rs:84-97 [aggregate]; all events are decoded first, while the code decodes them on the way *)
Inductive aggregate_cmd (w : world) (files : list path) : run bytes -> Prop :=
| ac_fails t : open_all w files = EErr t -> aggregate_cmd w files (mkRun None w (Failure t))
| ac_crash : open_all w files = EPanic -> aggregate_cmd w files (mkRun None w Crash)
| ac_hang : open_all w files = EDiverge -> aggregate_cmd w files (mkRun None w Hang)
| ac_run ps es out : open_all w files = EOk ps -> mapM pf_iter_full ps = Ok es -> aggregate_prints (ties s) (show_f64 s) (oc s) es out ->
    aggregate_cmd w files (try w (sure out) (fun text => mkRun (Some text) w Success))
| ac_events ps : open_all w files = EOk ps -> (forall es, mapM pf_iter_full ps <> Ok es) -> aggregate_cmd w files (mkRun None w (ends_of (mapM pf_iter_full ps))).

(** ** stack_collapse and flamegraph *)
(** stack_collapse.rs:24-28, 67-72: only the intervals are turned into full events *)
Definition pf_intervals (p : profile) : res (list event) :=
  do lws <- pf_iter p; mapM (fun l => pf_full p (lw_index l)) (filter (fun l => p_is_interval (lw_payload l)) lws).
(** stack_collapse/src/main.rs:14-30 [main] *)
Definition stack_collapse_cmd (w : world) (file_prefix : path) : run unit :=
  try w (open_profile w file_prefix) (fun p =>
  try w (sure (do es <- pf_intervals p; collapse_stacks (oc s) es)) (fun m =>
  mkRun None (create w [Normal (str "out.stacks_folded")] (folded_text ((shuffle s) m))) Success)).
(** flamegraph/src/main.rs:15-40 [main]; [inferno]: what [from_lines] writes, and whether it succeeds *)
Definition flamegraph_cmd (inferno : list bytes -> bytes * bool) (w : world) (file_prefix : path) : run unit :=
  try w (open_profile w file_prefix) (fun p =>
  try w (sure (do es <- pf_intervals p; collapse_stacks (oc s) es)) (fun m =>
  let '(svg, fine) := inferno (flamegraph_lines ((shuffle s) m)) in
  mkRun None (create w [Normal (str "rustc.svg")] svg) (if fine then Success else Crash))).

(** ** mmview *)
(** mmview:22 [LightweightEvent::start] of the events that have one *)
Definition lw_starts (lws : list lw_event) : list Z :=
  concat (map (fun l => match p_timestamp (lw_payload l) with Some t => [ts_start t] | None => [] end) lws).
(** mmview:23-30: the text printed and how it ends *)
Fixpoint view_events (full : Z -> res event) (thread_id : option Z) (g : Z) (lws : list lw_event) : bytes * ending :=
  match lws with
  | [] => ([], Success)
  | l :: lws' =>
      if match thread_id with Some t => negb (lw_thread l =? t) | None => false end then view_events full thread_id g lws'
      else match full (lw_index l) with
           | Ok e => let '(text, x) := view_events full thread_id g lws' in (print_event e g ++ text, x)
           | r => ([], ends_of r)
           end
  end.
(** mmview:16-36 [main]; shown: the standard output, or the message on the error output *)
Definition mmview_cmd (w : world) (file_prefix : path) (thread_id : option Z) : run view_out :=
  try w (open_profile w file_prefix) (fun p =>
  try w (sure (pf_iter p)) (fun lws =>
  match iter_min (lw_starts lws) with
  | Some g => let '(text, x) := view_events (pf_full p) thread_id g lws in mkRun (Some (M_Tools.Printed text)) w x
  | None => mkRun (Some NoEvents) w Success
  end)).

(** ** mmedit *)
(** mmedit:19-61 [truncate] with the texts of its errors *)
Definition e_truncate (contents : bytes) : eres bytes :=
  edo version <- e_read_file_header contents FILE_MAGIC_TOP_LEVEL (str "<in-memory>") (str "top-level");
  if (version <? 7) || (8 <? version) then EErr (str "File version " ++ decimal version ++ str " is not support")
  else
    let paged_data := zdrop FILE_HEADER_SIZE contents in
    sure (truncate_loop (List.length paged_data) paged_data (ztake FILE_HEADER_SIZE contents) false).
(** mmedit:63-76 [main] *)
Definition mmedit_cmd (w : world) (file : path) : run unit :=
  match w file with
  | None => mkRun None w (Failure ((io_error s) file))
  | Some contents => try w (e_truncate contents) (fun out => mkRun None (create w (truncated_path file) out) Success)
  end.

(** ** crox *)
(** What a tool knows of an event before asking for the full one. *)
Definition lw_as_event (l : lw_event) : event := mkEv [] [] [] (lw_payload l) (lw_thread l).
(** crox:159-185: the records of one event; the strings are only looked up for an event that is exported *)
Definition crox_event (minimum : option Z) (mapping : list (Z * Z)) (p : profile) (l : lw_event) : res (list record) :=
  if negb (p_is_interval (lw_payload l)) then Ok []
  else
    do d <- unwrap (duration (lw_payload l));
    if match minimum with Some m => d / 1000 <? m | None => false end then Ok []
    else
      do e <- pf_full p (lw_index l);
      export_event (oc s) minimum mapping (md_process_id (pf_metadata p)) (mkEv (ev_kind e) (ev_label e) (ev_args e) (lw_payload l) (lw_thread l)).
(** crox:157-185: the records written for the events of a profile, and how it ends *)
Fixpoint crox_events (minimum : option Z) (mapping : list (Z * Z)) (p : profile) (lws : list lw_event) : list record * ending :=
  match lws with
  | [] => ([], Success)
  | l :: lws' =>
      match crox_event minimum mapping p l with
      | Ok rs => let '(rs', x) := crox_events minimum mapping p lws' in (rs ++ rs', x)
      | r => ([], ends_of r)
      end
  end.
(** crox:186-212: the records of the process *)
Definition crox_process (md : metadata) : list record * ending :=
  match sort_index_record md with
  | Ok r => (crate_name_record md ++ [r], Success)
  | r => (crate_name_record md, ends_of r)
  end.
(** crox:148-214: the records written for one input after the other, and how it ends *)
Inductive crox_inputs_run (collapse : bool) (minimum : option Z) (w : world) : list path -> list record * ending -> Prop :=
| cr_done : crox_inputs_run collapse minimum w [] ([], Success)
| cr_fails f files t : open_profile w f = EErr t -> crox_inputs_run collapse minimum w (f :: files) ([], Failure t)
| cr_crash f files : open_profile w f = EPanic -> crox_inputs_run collapse minimum w (f :: files) ([], Crash)
| cr_hang f files : open_profile w f = EDiverge -> crox_inputs_run collapse minimum w (f :: files) ([], Hang)
| cr_iter f files p : open_profile w f = EOk p -> (forall lws, pf_iter p <> Ok lws) ->
    crox_inputs_run collapse minimum w (f :: files) ([], ends_of (pf_iter p))
| cr_mapping f files p lws : open_profile w f = EOk p -> pf_iter p = Ok lws ->
    thread_mapping (oc s) collapse (map lw_as_event lws) Panic -> crox_inputs_run collapse minimum w (f :: files) ([], Crash)
| cr_stops f files p lws m rs x : open_profile w f = EOk p -> pf_iter p = Ok lws -> thread_mapping (oc s) collapse (map lw_as_event lws) (Ok m) ->
    crox_events minimum m p lws = (rs, x) -> x <> Success -> crox_inputs_run collapse minimum w (f :: files) (rs, x)
| cr_process f files p lws m rs qs x : open_profile w f = EOk p -> pf_iter p = Ok lws -> thread_mapping (oc s) collapse (map lw_as_event lws) (Ok m) ->
    crox_events minimum m p lws = (rs, Success) -> crox_process (pf_metadata p) = (qs, x) -> x <> Success ->
    crox_inputs_run collapse minimum w (f :: files) (rs ++ qs, x)
| cr_next f files p lws m rs qs out : open_profile w f = EOk p -> pf_iter p = Ok lws -> thread_mapping (oc s) collapse (map lw_as_event lws) (Ok m) ->
    crox_events minimum m p lws = (rs, Success) -> crox_process (pf_metadata p) = (qs, Success) ->
    crox_inputs_run collapse minimum w files out ->
    crox_inputs_run collapse minimum w (f :: files) (rs ++ qs ++ fst out, snd out).
(** crox:137-217 [main]: the output file is created before the inputs are opened; what was written so far is in the file when an
    error or a panic ends the program (the [BufWriter] is dropped), and a prefix of it when the process is killed by a stack overflow.
    [entries]: the entries of the directory, if one is given. *)
Inductive crox_cmd (w : world) (prefixes : list path) (entries : list path) (collapse : bool) (minimum : option Z) : run unit -> Prop :=
| crox_ran rs x text : let out := [Normal (str "chrome_profiler.json")] in
    crox_inputs_run collapse minimum (create w out []) (prefixes ++ filter crox_picks entries) (rs, x) ->
    match x with Success => text = crox_text rs | Hang => exists rest, crox_written rs = text ++ rest | _ => text = crox_written rs end ->
    crox_cmd w prefixes entries collapse minimum (mkRun None (create w out text) x).
End Programs.

(** ** All programs *)
Inductive command :=
| Summarize (file_prefix : path) (json : bool) (percent_above : f64)
| Diff (base change : path) (exclude : list bytes) (json : bool)
| Aggregate (files : list path)
| StackCollapse (file_prefix : path)
| Flamegraph (file_prefix : path)
| View (file_prefix : path) (thread_id : option Z)
| Truncate (file : path)
| Crox (file_prefixes : list path) (entries : list path) (collapse_threads : bool) (minimum_duration : option Z).
(** main.rs:314-322 [main] and the [main]s of the other programs; [inferno] as in [flamegraph_cmd] *)
Inductive ran (s : setup) (inferno : list bytes -> bytes * bool) (w : world) : command -> world -> ending -> Prop :=
| ran_summarize f j p : let r := summarize_cmd s w f j p in ran s inferno w (Summarize f j p) (after r) (ends r)
| ran_diff b c x j : let r := diff_cmd s w b c x j in ran s inferno w (Diff b c x j) (after r) (ends r)
| ran_aggregate fs r : aggregate_cmd s w fs r -> ran s inferno w (Aggregate fs) (after r) (ends r)
| ran_stacks f : let r := stack_collapse_cmd s w f in ran s inferno w (StackCollapse f) (after r) (ends r)
| ran_flamegraph f : let r := flamegraph_cmd s inferno w f in ran s inferno w (Flamegraph f) (after r) (ends r)
| ran_view f t : let r := mmview_cmd s w f t in ran s inferno w (View f t) (after r) (ends r)
| ran_truncate f : let r := mmedit_cmd s w f in ran s inferno w (Truncate f) (after r) (ends r)
| ran_crox ps es c m r : crox_cmd s w ps es c m r -> ran s inferno w (Crox ps es c m) (after r) (ends r).
