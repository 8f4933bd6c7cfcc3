{
 "claims": [
  {
   "property": "C01",
   "status": "proved",
   "theorems": [
    "C01_roundtrip",
    "C01_into_bytes"
   ],
   "note": "sequential use, any mix of calls, any drop order"
  },
  {
   "property": "C02",
   "status": "proved",
   "theorems": [
    "C02_address",
    "C02_data_at_address"
   ],
   "note": ""
  },
  {
   "property": "C03",
   "status": "proved",
   "theorems": [
    "C03_pages",
    "C03_no_panic",
    "C03_append_only"
   ],
   "note": ""
  },
  {
   "property": "C04",
   "status": "proved",
   "theorems": [
    "C04_linearizable",
    "C04_contiguous",
    "C04_no_deadlock",
    "C04_progress"
   ],
   "note": "one sink per tag; callbacks return normally"
  },
  {
   "property": "C05",
   "status": "proved",
   "theorems": [
    "C05_crash_prefix"
   ],
   "note": ""
  },
  {
   "property": "C06",
   "status": "proved",
   "theorems": [
    "C06_event_pages",
    "C06_left_behind",
    "C06_index_refuted"
   ],
   "note": "both halves of the statement: positions of event records, and the reported index"
  },
  {
   "property": "C07",
   "status": "proved",
   "theorems": [
    "C07_interval",
    "C07_instant",
    "C07_integer",
    "C07_through_file",
    "C07_single_through_file"
   ],
   "note": ""
  },
  {
   "property": "C08",
   "status": "proved",
   "theorems": [
    "C08_interval",
    "C08_single"
   ],
   "note": ""
  },
  {
   "property": "C09",
   "status": "proved",
   "theorems": [
    "C09_kinds",
    "C09_decoder"
   ],
   "note": ""
  },
  {
   "property": "C10",
   "status": "proved",
   "theorems": [
    "C10_roundtrip",
    "C10_onto",
    "C10_layout",
    "C10_wrong_size_panics"
   ],
   "note": ""
  },
  {
   "property": "C11",
   "status": "proved",
   "theorems": [
    "C11_verify_exact",
    "C11_write_verify",
    "C11_magics_distinct",
    "C11_strip",
    "C11_read_exact"
   ],
   "note": ""
  },
  {
   "property": "C12",
   "status": "proved",
   "theorems": [
    "C12_dispatch",
    "C12_not_a_profile"
   ],
   "note": "the decoders behind the dispatch are parameters here; the v9 one is modelled in M_Session.v, the v8 one is an external crate"
  },
  {
   "property": "C13",
   "status": "proved",
   "theorems": [
    "C13_new_virtual",
    "C13_addr_id_bijection",
    "C13_alloc_ids"
   ],
   "note": ""
  },
  {
   "property": "C14",
   "status": "proved",
   "theorems": [
    "C14_roundtrip",
    "C14_plain"
   ],
   "note": ""
  },
  {
   "property": "C15",
   "status": "proved",
   "theorems": [
    "C15_to_string_refuted",
    "C15_agree",
    "C15_fast_path_drops_rest",
    "C15_session",
    "C15_short_entries_safe"
   ],
   "note": "the unqualified claim is false (to_string compares a relative with an absolute position); the refutation is a session using only the public API, and agreement is proved for exactly the complement of the faulty case"
  },
  {
   "property": "C16",
   "status": "proved",
   "theorems": [
    "C16_last_mapping",
    "C16_other_ids_unaffected"
   ],
   "note": ""
  },
  {
   "property": "C17",
   "status": "proved",
   "theorems": [
    "C17_bulk",
    "C17_same_table"
   ],
   "note": ""
  },
  {
   "property": "C18",
   "status": "proved",
   "theorems": [
    "C18_metadata",
    "C18_rejected"
   ],
   "note": ""
  },
  {
   "property": "C19",
   "status": "proved",
   "theorems": [
    "C19_builder",
    "C19_parse",
    "C19_roundtrip"
   ],
   "note": ""
  },
  {
   "property": "C20",
   "status": "proved",
   "theorems": [
    "C20_total"
   ],
   "note": ""
  },
  {
   "property": "C21",
   "status": "proved",
   "theorems": [
    "C21_grammar_refuted",
    "C21_accepts",
    "C21_only_vertical_tab"
   ],
   "note": "the unqualified claim is false: the documented grammar allows [[:space:]], which contains vertical tab, but is_ascii_whitespace does not; the parser is proved to accept exactly the grammar texts without 0x0B"
  },
  {
   "property": "C22",
   "status": "proved",
   "theorems": [
    "C22_payloads",
    "C22_events"
   ],
   "note": ""
  },
  {
   "property": "C23",
   "status": "proved",
   "theorems": [
    "C23_one_interval",
    "C23_nothing_else",
    "C23_detached_same"
   ],
   "note": ""
  },
  {
   "property": "C24",
   "status": "proved",
   "theorems": [
    "C24_deque",
    "C24_collect"
   ],
   "note": ""
  },
  {
   "property": "C25",
   "status": "proved",
   "theorems": [
    "C25_rows",
    "C25_self_time_bounds",
    "C25_parent_is_innermost"
   ],
   "note": ""
  },
  {
   "property": "C26",
   "status": "proved",
   "theorems": [
    "C26_no_panic",
    "C26_overlap_refuted"
   ],
   "note": "both halves of the statement"
  },
  {
   "property": "C27",
   "status": "proved",
   "theorems": [
    "C27_total_time",
    "C27_unique"
   ],
   "note": ""
  },
  {
   "property": "C28",
   "status": "proved",
   "theorems": [
    "C28_counts"
   ],
   "note": ""
  },
  {
   "property": "C29",
   "status": "proved",
   "theorems": [
    "C29_artifacts"
   ],
   "note": ""
  },
  {
   "property": "C30",
   "status": "proved",
   "theorems": [
    "C30_lines",
    "C30_total",
    "C30_overlap_refuted"
   ],
   "note": "C30_overlap_refuted shows that the restriction to nested recordings is needed"
  },
  {
   "property": "C31",
   "status": "proved",
   "theorems": [
    "C31_diff",
    "C31_antisymmetric"
   ],
   "note": "hash iteration order is a parameter; the f64 percentage columns: C60"
  },
  {
   "property": "C32",
   "status": "proved",
   "theorems": [
    "C32_sub_exact",
    "C32_same_sign_exact",
    "C32_halves_exact",
    "C32_order",
    "C32_results_canonical",
    "C32_eq",
    "C32_eq_refuted",
    "C32_eq_reachable",
    "C32_overflow_refuted"
   ],
   "note": "the unrestricted claims are refuted; the restricted ones and the exceptions are all proved"
  },
  {
   "property": "C33",
   "status": "proved",
   "theorems": [
    "C33_exact",
    "C33_unique",
    "C33_count",
    "C33_size",
    "C33_limit_zero"
   ],
   "note": "Every insertion history: tables exact, sizes, counts. A limit of zero panics (no caller passes it)."
  },
  {
   "property": "C34",
   "status": "proved",
   "theorems": [
    "C34_walk",
    "C34_balanced",
    "C34_threads",
    "C34_describe",
    "C34_times",
    "C34_overlap_refuted"
   ],
   "note": "The exceptions in the statement (two threads, overlap) are proved as panics."
  },
  {
   "property": "C35",
   "status": "proved",
   "theorems": [
    "C35_aggregation",
    "C35_events",
    "C35_alike",
    "C35_refuses",
    "C35_refuses_threads",
    "C35_single_refuted",
    "C35_total",
    "C35_report",
    "C35_count_overflow",
    "C35_count_wraps",
    "C35_count_example"
   ],
   "note": "The printed text is C67. C35_single_refuted: profiles with at most one instant are not compared."
  },
  {
   "property": "C36",
   "status": "proved",
   "theorems": [
    "C36_total",
    "C36_every_thread",
    "C36_no_overlap",
    "C36_minimal",
    "C36_exists"
   ],
   "note": "For every hash order and every outcome of the two unstable sorts."
  },
  {
   "property": "C37",
   "status": "proved",
   "theorems": [
    "C37_args",
    "C37_micros",
    "C37_export",
    "C37_reversed",
    "C37_before_epoch",
    "C37_crate_name",
    "C37_crate_name_unique",
    "C37_decimal",
    "C37_main",
    "C37_main_exists"
   ],
   "note": "The records handed to serde; the JSON text: C58."
  },
  {
   "property": "C38",
   "status": "proved",
   "theorems": [
    "C38_prints",
    "C38_no_events",
    "C38_integer_events_refuted"
   ],
   "note": "defect: a profile with only integer events is reported as empty"
  },
  {
   "property": "C39",
   "status": "proved",
   "theorems": [
    "C39_truncate",
    "C39_rejects",
    "C39_streams",
    "C39_idempotent",
    "C39_current_version_refuted"
   ],
   "note": "defect: files of the current version are refused"
  },
  {
   "property": "C40",
   "status": "proved",
   "theorems": [
    "C40_rdpmc",
    "C40_instructions",
    "C40_crossing_refuted",
    "C40_fits",
    "C40_minus_irqs",
    "C40_more_irqs_refuted",
    "C40_not_monotone_refuted",
    "C40_wall_time",
    "C40_open"
   ],
   "note": "both the positive statements and the exceptions"
  },
  {
   "property": "C41",
   "status": "proved",
   "theorems": [
    "C41_reads_back",
    "C41_unreadable_refuted",
    "C41_far_future",
    "C41_profile_opens",
    "C41_profile_lost_refuted",
    "C41_accepts"
   ],
   "note": "serde_json is modelled by an RFC 8259 parser"
  },
  {
   "property": "C42",
   "status": "proved",
   "theorems": [
    "C42_results",
    "C42_streams",
    "C42_displaced",
    "C42_pages",
    "C42_panicking_callback_refuted"
   ],
   "note": "the unqualified claim is false (C42_panicking_callback_refuted); the exact behaviour is proved for all histories"
  },
  {
   "property": "C43",
   "status": "proved",
   "theorems": [
    "C43_rows",
    "C43_columns",
    "C43_hashing_refuted",
    "C43_artifacts"
   ],
   "note": "defect: the hashing column can be missing (C43_hashing_refuted)"
  },
  {
   "property": "C44",
   "status": "proved",
   "theorems": [
    "C44_reader_finds_file",
    "C44_plain_names",
    "C44_distinct_files",
    "C44_collision_refuted",
    "C44_no_file_name",
    "C44_json_input",
    "C44_json_refuted",
    "C44_json_overwrite_refuted",
    "C44_truncated",
    "C44_crox_directory"
   ],
   "note": "paths as component lists; defect: diff never reads .json results"
  },
  {
   "property": "C45",
   "status": "proved",
   "theorems": [
    "C45_fields",
    "C45_detect",
    "C45_unique",
    "C45_irqs"
   ],
   "note": ""
  },
  {
   "property": "C46",
   "status": "proved",
   "theorems": [
    "C46_reflexive",
    "C46_only_intervals",
    "C46_transitive",
    "C46_antisymmetric",
    "C46_meaning",
    "C46_duration",
    "C46_timestamps",
    "C46_recordings_nest"
   ],
   "note": ""
  },
  {
   "property": "C47",
   "status": "proved",
   "theorems": [
    "C47_terminates",
    "C47_cycle_refuted"
   ],
   "note": "both halves of the statement"
  },
  {
   "property": "C48",
   "status": "proved",
   "theorems": [
    "C48_split_accepts",
    "C48_split_append",
    "C48_partial_page_panics"
   ],
   "note": ""
  },
  {
   "property": "C49",
   "status": "proved",
   "theorems": [
    "C49_events",
    "C49_lightweight",
    "C49_metadata",
    "C49_injective"
   ],
   "note": "the old decoder itself is an external crate"
  },
  {
   "property": "C50",
   "status": "proved",
   "theorems": [
    "C50_validation_exact",
    "C50_no_marker_bytes",
    "C50_concat",
    "C50_split_ascii",
    "C50_lossy",
    "C50_lossy_exact"
   ],
   "note": ""
  },
  {
   "property": "C51",
   "status": "proved",
   "theorems": [
    "C51_exclude"
   ],
   "note": ""
  },
  {
   "property": "C52",
   "status": "proved",
   "theorems": [
    "C52_by_name",
    "C52_names_differ",
    "C52_events",
    "C52_description"
   ],
   "note": ""
  },
  {
   "property": "C53",
   "status": "proved",
   "theorems": [
    "C53_consistent",
    "C53_same_processor",
    "C53_torn_refuted"
   ],
   "note": "the read is consistent unless 2^32 lock increments happen during it"
  },
  {
   "property": "C54",
   "status": "proved",
   "theorems": [
    "C54_file_readable",
    "C54_never_silent",
    "C54_enough_space",
    "C54_no_deadlock",
    "C54_exclusive",
    "C54_freed_space_refuted"
   ],
   "note": "write failures leave a prefix of the page on the device; C54_no_deadlock and C54_exclusive: every unwinding that leaves no buffer larger than a page, capacities that change at will, callbacks that panic."
  },
  {
   "property": "C55",
   "status": "proved",
   "theorems": [
    "C55_reads_back",
    "C55_rejects",
    "C55_plain_labels"
   ],
   "note": ""
  },
  {
   "property": "C56",
   "status": "proved",
   "theorems": [
    "C56_profile"
   ],
   "note": ""
  },
  {
   "property": "C57",
   "status": "proved",
   "theorems": [
    "C57_reader",
    "C57_reads_back",
    "C57_analysis",
    "C57_total",
    "C57_accepts"
   ],
   "note": "floating-point literals are not part of these files; the reader model keeps them uninterpreted"
  },
  {
   "property": "C58",
   "status": "proved",
   "theorems": [
    "C58_document",
    "C58_unfinished"
   ],
   "note": ""
  },
  {
   "property": "C59",
   "status": "proved",
   "theorems": [
    "C59_text",
    "C59_flamegraph",
    "C59_frames",
    "C59_ambiguous_refuted"
   ],
   "note": ""
  },
  {
   "property": "C60",
   "status": "proved",
   "theorems": [
    "C60_diff_percent"
   ],
   "note": "binary64 arithmetic from Flocq: uses the axioms of the standard library of real numbers"
  },
  {
   "property": "C61",
   "status": "proved",
   "theorems": [
    "C61_threshold",
    "C61_percent",
    "C61_rows"
   ],
   "note": "binary64 arithmetic from Flocq: uses the axioms of the standard library of real numbers"
  },
  {
   "property": "C62",
   "status": "proved",
   "theorems": [
    "C62_bounded_loss",
    "C62_flush_is_durable"
   ],
   "note": ""
  },
  {
   "property": "C63",
   "status": "proved",
   "theorems": [
    "C63_document",
    "C63_reads_back",
    "C63_unreadable_refuted"
   ],
   "note": "the printer and the parser of finite f64 numbers (ryu, serde_json) are parameters of the theorems"
  },
  {
   "property": "C64",
   "status": "proved",
   "theorems": [
    "C64_exact",
    "C64_rounded",
    "C64_one_meaning",
    "C64_signed"
   ],
   "note": ""
  },
  {
   "property": "C65",
   "status": "proved",
   "theorems": [
    "C65_summary"
   ],
   "note": "table layout (prettytable) is not modelled"
  },
  {
   "property": "C66",
   "status": "proved",
   "theorems": [
    "C66_diff"
   ],
   "note": "table layout (prettytable) is not modelled"
  },
  {
   "property": "C67",
   "status": "proved",
   "theorems": [
    "C67_text",
    "C67_half"
   ],
   "note": "the shortest-text printer of f64 (Rust standard library) is a parameter that has to satisfy its documented contract; C67_half shows that the contract can be met and fixes the text; C84 models the printer and proves the contract"
  },
  {
   "property": "C68",
   "status": "proved",
   "theorems": [
    "C68_write_to_string",
    "C68_to_string",
    "C68_difference"
   ],
   "note": ""
  },
  {
   "property": "C69",
   "status": "proved",
   "theorems": [
    "C69_contents",
    "C69_missing",
    "C69_old_version_refuted",
    "C69_same"
   ],
   "note": "the reader of the previous format and the text of a JSON error come from external crates and are parameters; a file that exists is assumed to be readable"
  },
  {
   "property": "C70",
   "status": "proved",
   "theorems": [
    "C70_event",
    "C70_events"
   ],
   "note": ""
  },
  {
   "property": "C71",
   "status": "proved",
   "theorems": [
    "C71_stacks",
    "C71_chrome",
    "C71_view"
   ],
   "note": ""
  },
  {
   "property": "C72",
   "status": "proved",
   "theorems": [
    "C72_output_only",
    "C72_ends",
    "C72_failure",
    "C72_inputs_kept",
    "C72_crox_output_lost_refuted",
    "C72_json_results",
    "C72_reports",
    "C72_reports_files",
    "C72_mmedit"
   ],
   "note": "parsed arguments; creating and writing a file never fails; paths are compared by components"
  },
  {
   "property": "C73",
   "status": "proved",
   "theorems": [
    "C73_full",
    "C73_view",
    "C73_view_needs",
    "C73_stacks",
    "C73_flamegraph",
    "C73_crox",
    "C73_texts"
   ],
   "note": ""
  },
  {
   "property": "C74",
   "status": "proved",
   "theorems": [
    "C74_diff",
    "C74_summarize",
    "C74_view",
    "C74_stacks",
    "C74_flamegraph",
    "C74_crox",
    "C74_aggregate"
   ],
   "note": "the recursion depth (stack size) is assumed to be sufficient"
  },
  {
   "property": "C75",
   "status": "proved",
   "theorems": [
    "C75_output",
    "C75_working",
    "C75_runs",
    "C75_success_refuted"
   ],
   "note": "runs that succeed when every write does; flamegraph and the standard output are not covered; File::create succeeds"
  },
  {
   "property": "C76",
   "status": "proved",
   "theorems": [
    "C76_by_index",
    "C76_wraps_refuted"
   ],
   "note": "event data shorter than 2^63 bytes (isize::MAX, the largest allocation)"
  },
  {
   "property": "C77",
   "status": "proved",
   "theorems": [
    "C77_event_id",
    "C77_quiet",
    "C77_reading"
   ],
   "note": "writing to stderr never fails; the bound on the number of calls (the fuel) is larger than the number of events"
  },
  {
   "property": "C78",
   "status": "proved",
   "theorems": [
    "C78_sinks",
    "C78_crash",
    "C78_alone",
    "C78_records",
    "C78_same_tag_refuted"
   ],
   "note": "callbacks return normally"
  },
  {
   "property": "C79",
   "status": "proved",
   "theorems": [
    "C79_outcome",
    "C79_value",
    "C79_warnings",
    "C79_platforms",
    "C79_errno_refuted",
    "C79_moved_refuted"
   ],
   "note": "the machine (cpuid, kernel, registers, clock) is an input; texts made by the standard library are parameters; messages below the default log level are not modelled"
  },
  {
   "property": "C80",
   "status": "proved",
   "theorems": [
    "C80_outcome",
    "C80_starts",
    "C80_opens",
    "C80_no_name_refuted",
    "C80_lost_refuted",
    "C80_orphan_refuted"
   ],
   "note": "paths are compared by components (no links); what the system refuses, the device, the arguments and the clock are inputs; [started] (S_Run.v) is the starting point of C22 and of the end-to-end theorems"
  },
  {
   "property": "C81",
   "status": "proved",
   "theorems": [
    "C81_accepts",
    "C81_order",
    "C81_help",
    "C81_help_subcommands",
    "C81_mmview",
    "C81_crox",
    "C81_summarize",
    "C81_one_file",
    "C81_paths"
   ],
   "note": "clap is an external crate: its loop over the arguments is modelled from its documented behaviour, for the features the tools use; reading an f64 and listing a directory are parameters"
  },
  {
   "property": "C82",
   "status": "proved",
   "theorems": [
    "C82_leaves",
    "C82_tools",
    "C82_compared",
    "C82_lost_refuted",
    "C82_possible",
    "C82_typed"
   ],
   "note": "C82_tools: one linearization for all tools, whatever file system the tool later sees as long as the profile is there; C82_possible: such runs exist whenever the file can be created; C82_typed: the plain command lines. ex_C82 runs rustc -v at /tmp/out/prof through all of it."
  },
  {
   "property": "C83",
   "status": "proved",
   "theorems": [
    "C83_reads",
    "C83_accepted",
    "C83_command",
    "C83_exact",
    "C83_every",
    "C83_roundtrip"
   ],
   "note": "C83_reads characterises the accepted texts and their value; C83_command instantiates the parameter read_f64 of C81; C83_roundtrip uses the contract displays of C67. Not modelled: that the standard library stops accumulating an exponent at 65536."
  },
  {
   "property": "C84",
   "status": "proved",
   "theorems": [
    "C84_displays",
    "C84_negative",
    "C84_reads_back",
    "C84_json",
    "C84_seventeen",
    "C84_report",
    "C84_diff_file",
    "C84_recorded"
   ],
   "note": "digits are generated as the Dragon fallback of the standard library does, with integers; that Grisu and Ryu compute the same digits is not modelled. C84_report, C84_diff_file and C84_recorded are C67_text, C63_reads_back and C74_aggregate without their assumptions about the texts of numbers."
  },
  {
   "property": "C85",
   "status": "proved",
   "theorems": [
    "C85_output",
    "C85_success",
    "C85_working",
    "C85_runs",
    "C85_reader_gone"
   ],
   "note": "Stdout of the standard library (a LineWriter) is modelled from its source, it is not part of /repo. The tables of summarize summarize and diff, which the crate prettytable prints, are not covered."
  },
  {
   "property": "C86",
   "status": "proved",
   "theorems": [
    "C86_check",
    "C86_passes",
    "C86_possible"
   ],
   "note": "The order in which FxHashMap yields its keys is a parameter; C86_passes assumes that for the thread numbers 0..n-1 it does not depend on the order of insertion (true of rustc-hash and hashbrown: an odd multiplier puts n consecutive numbers into different buckets, not proved)."
  },
  {
   "property": "C87",
   "status": "proved",
   "theorems": [
    "C87_crash",
    "C87_parser",
    "C87_lost_strings",
    "C87_invalid_refuted"
   ],
   "note": "The bytes on disk are taken to be a first part of those written (no reordering of writes by the file system). The defect is C87_invalid_refuted, whose run also meets the hypotheses of the other two."
  },
  {
   "property": "C88",
   "status": "proved",
   "theorems": [
    "C88_read_back",
    "C88_recorded_args",
    "C88_comma_refuted",
    "C88_lines_refuted"
   ],
   "note": "S_View looks_alike is what two events that print alike have in common. The line of the arguments is given by the relation comma_separated of C38. The defects are the two _refuted theorems."
  },
  {
   "property": "C89",
   "status": "proved",
   "theorems": [
    "C89_sequence",
    "C89_address",
    "C89_no_deadlock",
    "C89_all_return",
    "C89_concurrent",
    "C89_reentered_refuted",
    "C89_deadlock_refuted"
   ],
   "note": "Callbacks are lists of calls followed by filling the buffer; what the calls return does not influence them. Unwinding releases the mutexes; the contents it leaves are those of C42. The defects are the two _refuted theorems."
  },
  {
   "property": "C90",
   "status": "proved",
   "theorems": [
    "C90_analysis",
    "C90_stacks",
    "C90_mmview"
   ],
   "note": "All events must be readable: events whose strings were lost make the reader panic or show \"<invalid>\" (C87). 2^40 events keep the sums of durations below 2^96 ns."
  },
  {
   "property": "C91",
   "status": "proved",
   "theorems": [
    "C91_summary",
    "C91_both",
    "C91_stacks",
    "C91_order_matters",
    "C91_chrome"
   ],
   "note": "mmview and mmedit work in the order of the file and are not concerned; aggregation needs single-threaded profiles (C35)."
  },
  {
   "property": "C92",
   "status": "proved",
   "theorems": [
    "C92_open",
    "C92_commands",
    "C92_session",
    "C92_printed",
    "C92_mmedit_refuted"
   ],
   "note": "Over the model of the programs (C72). Version 8 files are read by an external decoder, so for them the contents must be the same. The defect is C92_mmedit_refuted."
  },
  {
   "property": "C93",
   "status": "proved",
   "theorems": [
    "C93_adds_up",
    "C93_exists",
    "C93_no_change",
    "C93_order",
    "C93_interleaving"
   ],
   "note": "The numbers must fit as in C31 (durations below 2^64 ns, counts below 2^63). Percentages do not add up and are not part of it. ex_C93: a label that vanishes and comes back."
  },
  {
   "property": "C94",
   "status": "proved",
   "theorems": [
    "C94_result",
    "C94_printed",
    "C94_program",
    "C94_opens"
   ],
   "note": "In the model of C72 all events are decoded before the profiles are compared. ex_C94: two profiles swapped and one of them given twice."
  },
  {
   "property": "C95",
   "status": "proved",
   "theorems": [
    "C95_events",
    "C95_summary",
    "C95_stacks",
    "C95_mmview",
    "C95_aggregate",
    "C95_threads",
    "C95_chrome"
   ],
   "note": "Times are unbounded integers in the model: a start time beyond what SystemTime can represent (C78) is not covered. C95_chrome is about one event; by a whole number of microseconds only, as crox rounds down. ex_C95: nested and instant events of two threads; ex_C95_aggregate: two runs a minute apart."
  },
  {
   "property": "C96",
   "status": "proved",
   "theorems": [
    "C96_summary",
    "C96_stacks",
    "C96_aggregate",
    "C96_crox"
   ],
   "note": "Hash maps are association lists in the model and the results do not depend on their order (C91), so neither on how ids hash. ex_C96: two threads renamed, and merged into one; ex_C96_aggregate; ex_C96_crox. C96_crox compares the sets of possible outputs (the sort is unstable)."
  },
  {
   "property": "C97",
   "status": "proved",
   "theorems": [
    "C97_summary",
    "C97_stacks",
    "C97_aggregate",
    "C97_threads",
    "C97_records"
   ],
   "note": "Results include panics. ex_C97: a recording before and after events of new kinds and arguments are added."
  },
  {
   "property": "C98",
   "status": "proved",
   "theorems": [
    "C98_numbers",
    "C98_total",
    "C98_sizes",
    "C98_groups",
    "C98_stacks"
   ],
   "note": "By iteration, for any partition of the threads. ex_C98, ex_C98_stacks: two interleaved threads that run the same query and write the same artifact."
  },
  {
   "property": "C99",
   "status": "proved",
   "theorems": [
    "C99_total",
    "C99_self",
    "C99_labels"
   ],
   "note": "With semicolons in labels a line no longer determines its frames (C59). ex_C99: a query on its own and nested in another one, two threads, a gap."
  },
  {
   "property": "C100",
   "status": "proved",
   "theorems": [
    "C100_invocations",
    "C100_misses",
    "C100_time",
    "C100_blocked",
    "C100_rows",
    "C100_minimum"
   ],
   "note": "The rounding down to whole microseconds makes the trace shorter: below 1 us per event. ex_C100: a query computed twice, hashed and hit."
  }
 ]
}