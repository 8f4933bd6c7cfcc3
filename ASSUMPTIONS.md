# Print Assumptions, theorem by theorem

Generated from the compiled development: what `Print Assumptions` lists for every theorem in MANIFEST.json.

## Closed under the global context (no axioms)

* C01: `Prop_Sink.C01_roundtrip`, `Prop_Sink.C01_into_bytes`
* C02: `Prop_Sink.C02_address`, `Prop_Sink.C02_data_at_address`
* C03: `Prop_Sink.C03_pages`, `Prop_Sink.C03_no_panic`, `Prop_Sink.C03_append_only`
* C04: `Prop_Sink.C04_linearizable`, `Prop_Sink.C04_contiguous`, `Prop_Sink.C04_no_deadlock`, `Prop_Progress.C04_progress`
* C05: `Prop_Sink.C05_crash_prefix`
* C06: `Prop_Run.C06_event_pages`, `Prop_Crash.C06_left_behind`, `Prop_Run.C06_index_refuted`
* C07: `Prop_Raw.C07_interval`, `Prop_Raw.C07_instant`, `Prop_Raw.C07_integer`, `Prop_Raw.C07_through_file`, `Prop_Raw.C07_single_through_file`
* C08: `Prop_Raw.C08_interval`, `Prop_Raw.C08_single`
* C09: `Prop_Raw.C09_kinds`, `Prop_Raw.C09_decoder`
* C10: `Prop_Raw.C10_roundtrip`, `Prop_Raw.C10_onto`, `Prop_Raw.C10_layout`, `Prop_Raw.C10_wrong_size_panics`
* C100: `Prop_AgreeChrome.C100_invocations`, `Prop_AgreeChrome.C100_misses`, `Prop_AgreeChrome.C100_time`, `Prop_AgreeChrome.C100_blocked`, `Prop_AgreeChrome.C100_rows`, `Prop_AgreeChrome.C100_minimum`
* C11: `Prop_Format.C11_verify_exact`, `Prop_Format.C11_write_verify`, `Prop_Format.C11_magics_distinct`, `Prop_Format.C11_strip`, `Prop_Format.C11_read_exact`
* C12: `Prop_Format.C12_dispatch`, `Prop_Format.C12_not_a_profile`
* C13: `Prop_Strings.C13_new_virtual`, `Prop_Strings.C13_addr_id_bijection`, `Prop_Strings.C13_alloc_ids`
* C14: `Prop_Strings.C14_roundtrip`, `Prop_Strings.C14_plain`
* C15: `Prop_Strings.C15_to_string_refuted`, `Prop_Strings.C15_agree`, `Prop_Strings.C15_fast_path_drops_rest`, `Prop_Strings.C15_session`, `Prop_Strings.C15_short_entries_safe`
* C16: `Prop_Strings.C16_last_mapping`, `Prop_Strings.C16_other_ids_unaffected`
* C17: `Prop_Strings.C17_bulk`, `Prop_Strings.C17_same_table`
* C18: `Prop_Strings.C18_metadata`, `Prop_Strings.C18_rejected`
* C19: `Prop_EventId.C19_builder`, `Prop_EventId.C19_parse`, `Prop_EventId.C19_roundtrip`
* C20: `Prop_EventId.C20_total`
* C21: `Prop_EventId.C21_grammar_refuted`, `Prop_EventId.C21_accepts`, `Prop_EventId.C21_only_vertical_tab`
* C22: `Prop_Run.C22_payloads`, `Prop_Run.C22_events`
* C23: `Prop_Guard.C23_one_interval`, `Prop_Guard.C23_nothing_else`, `Prop_Guard.C23_detached_same`
* C24: `Prop_Format.C24_deque`, `Prop_Format.C24_collect`
* C25: `Prop_Analysis.C25_rows`, `Prop_Analysis.C25_self_time_bounds`, `Prop_Analysis.C25_parent_is_innermost`
* C26: `Prop_Analysis.C26_no_panic`, `Prop_Analysis.C26_overlap_refuted`
* C27: `Prop_Analysis.C27_total_time`, `Prop_Analysis.C27_unique`
* C28: `Prop_Analysis.C28_counts`
* C29: `Prop_Analysis.C29_artifacts`
* C30: `Prop_Collapse.C30_lines`, `Prop_Collapse.C30_total`, `Prop_Collapse.C30_overlap_refuted`
* C31: `Prop_Diff.C31_diff`, `Prop_Diff.C31_antisymmetric`
* C32: `Prop_Diff.C32_sub_exact`, `Prop_Diff.C32_same_sign_exact`, `Prop_Diff.C32_halves_exact`, `Prop_Diff.C32_order`, `Prop_Diff.C32_results_canonical`, `Prop_Diff.C32_eq`, `Prop_Diff.C32_eq_refuted`, `Prop_Diff.C32_eq_reachable`, `Prop_Diff.C32_overflow_refuted`
* C33: `Prop_Extrema.C33_exact`, `Prop_Extrema.C33_unique`, `Prop_Extrema.C33_count`, `Prop_Extrema.C33_size`, `Prop_Extrema.C33_limit_zero`
* C34: `Prop_Aggregate.C34_walk`, `Prop_Aggregate.C34_balanced`, `Prop_Aggregate.C34_threads`, `Prop_Aggregate.C34_describe`, `Prop_Aggregate.C34_times`, `Prop_Aggregate.C34_overlap_refuted`
* C35: `Prop_Aggregate2.C35_aggregation`, `Prop_Aggregate2.C35_events`, `Prop_Aggregate2.C35_alike`, `Prop_Aggregate2.C35_refuses`, `Prop_Aggregate2.C35_refuses_threads`, `Prop_Aggregate2.C35_single_refuted`, `Prop_Aggregate2.C35_total`, `Prop_Aggregate2.C35_report`, `Prop_Aggregate2.C35_count_overflow`, `Prop_Aggregate2.C35_count_wraps`, `Prop_Aggregate2.C35_count_example`
* C36: `Prop_Crox.C36_total`, `Prop_Crox.C36_every_thread`, `Prop_Crox.C36_no_overlap`, `Prop_Crox.C36_minimal`, `Prop_Crox.C36_exists`
* C37: `Prop_Crox2.C37_args`, `Prop_Crox2.C37_micros`, `Prop_Crox2.C37_export`, `Prop_Crox2.C37_reversed`, `Prop_Crox2.C37_before_epoch`, `Prop_Crox2.C37_crate_name`, `Prop_Crox2.C37_crate_name_unique`, `Prop_Crox2.C37_decimal`, `Prop_Crox2.C37_main`, `Prop_Crox2.C37_main_exists`
* C38: `Prop_Tools.C38_prints`, `Prop_Tools.C38_no_events`, `Prop_Tools.C38_integer_events_refuted`
* C39: `Prop_Tools.C39_truncate`, `Prop_Tools.C39_rejects`, `Prop_Tools.C39_streams`, `Prop_Tools.C39_idempotent`, `Prop_Tools.C39_current_version_refuted`
* C40: `Prop_Counters.C40_rdpmc`, `Prop_Counters.C40_instructions`, `Prop_Counters.C40_crossing_refuted`, `Prop_Counters.C40_fits`, `Prop_Counters.C40_minus_irqs`, `Prop_Counters.C40_more_irqs_refuted`, `Prop_Counters.C40_not_monotone_refuted`, `Prop_Counters.C40_wall_time`, `Prop_Counters.C40_open`
* C41: `Prop_Metadata.C41_reads_back`, `Prop_Metadata.C41_unreadable_refuted`, `Prop_Metadata.C41_far_future`, `Prop_Metadata.C41_profile_opens`, `Prop_Metadata.C41_profile_lost_refuted`, `Prop_Accept.C41_accepts`
* C42: `Prop_SinkPanic.C42_results`, `Prop_SinkPanic.C42_streams`, `Prop_SinkPanic.C42_displaced`, `Prop_SinkPanic.C42_pages`, `Prop_Sink.C42_panicking_callback_refuted`
* C43: `Prop_Summarize.C43_rows`, `Prop_Summarize.C43_columns`, `Prop_Summarize.C43_hashing_refuted`, `Prop_Summarize.C43_artifacts`
* C44: `Prop_Path.C44_reader_finds_file`, `Prop_Path.C44_plain_names`, `Prop_Path.C44_distinct_files`, `Prop_Path.C44_collision_refuted`, `Prop_Path.C44_no_file_name`, `Prop_Path.C44_json_input`, `Prop_Path.C44_json_refuted`, `Prop_Path.C44_json_overwrite_refuted`, `Prop_Path.C44_truncated`, `Prop_Path.C44_crox_directory`
* C45: `Prop_Counters.C45_fields`, `Prop_Counters.C45_detect`, `Prop_Counters.C45_unique`, `Prop_Counters.C45_irqs`
* C46: `Prop_Raw.C46_reflexive`, `Prop_Raw.C46_only_intervals`, `Prop_Raw.C46_transitive`, `Prop_Raw.C46_antisymmetric`, `Prop_Raw.C46_meaning`, `Prop_Raw.C46_duration`, `Prop_Raw.C46_timestamps`, `Prop_Guard.C46_recordings_nest`
* C47: `Prop_Strings.C47_terminates`, `Prop_Strings.C47_cycle_refuted`
* C48: `Prop_Sink.C48_split_accepts`, `Prop_Sink.C48_split_append`, `Prop_Sink.C48_partial_page_panics`
* C49: `Prop_Format.C49_events`, `Prop_Format.C49_lightweight`, `Prop_Format.C49_metadata`, `Prop_Format.C49_injective`
* C50: `Prop_Utf8.C50_validation_exact`, `Prop_Utf8.C50_no_marker_bytes`, `Prop_Utf8.C50_concat`, `Prop_Utf8.C50_split_ascii`, `Prop_Utf8.C50_lossy`, `Prop_Lossy.C50_lossy_exact`
* C51: `Prop_Summarize.C51_exclude`
* C52: `Prop_Counters.C52_by_name`, `Prop_Counters.C52_names_differ`, `Prop_Counters.C52_events`, `Prop_Metadata.C52_description`
* C53: `Prop_Counters.C53_consistent`, `Prop_Counters.C53_same_processor`, `Prop_Counters.C53_torn_refuted`
* C54: `Prop_Fault.C54_file_readable`, `Prop_Fault.C54_never_silent`, `Prop_Fault.C54_enough_space`, `Prop_Fault2.C54_no_deadlock`, `Prop_Fault2.C54_exclusive`, `Prop_Fault.C54_freed_space_refuted`
* C55: `Prop_Builder.C55_reads_back`, `Prop_Builder.C55_rejects`, `Prop_Builder.C55_plain_labels`
* C56: `Prop_Whole.C56_profile`
* C57: `Prop_Json.C57_reader`, `Prop_Json.C57_reads_back`, `Prop_Json.C57_analysis`, `Prop_Json.C57_total`, `Prop_Accept.C57_accepts`
* C58: `Prop_Json.C58_document`, `Prop_Json.C58_unfinished`
* C59: `Prop_Folded.C59_text`, `Prop_Folded.C59_flamegraph`, `Prop_Folded.C59_frames`, `Prop_Folded.C59_ambiguous_refuted`
* C62: `Prop_Durable.C62_bounded_loss`, `Prop_Durable.C62_flush_is_durable`
* C64: `Prop_Text.C64_exact`, `Prop_Text.C64_rounded`, `Prop_Text.C64_one_meaning`, `Prop_Text.C64_signed`
* C68: `Prop_Corrupt.C68_write_to_string`, `Prop_Corrupt.C68_to_string`, `Prop_Corrupt.C68_difference`
* C69: `Prop_Open.C69_contents`, `Prop_Open.C69_missing`, `Prop_Open.C69_old_version_refuted`, `Prop_Open.C69_same`
* C70: `Prop_Events.C70_event`, `Prop_Events.C70_events`
* C71: `Prop_Whole2.C71_stacks`, `Prop_Whole2.C71_chrome`, `Prop_Whole2.C71_view`
* C72: `Prop_Edit.C72_mmedit`
* C73: `Prop_Needed.C73_full`, `Prop_Needed.C73_view`, `Prop_Needed.C73_view_needs`, `Prop_Needed.C73_stacks`, `Prop_Needed.C73_flamegraph`, `Prop_Needed.C73_texts`
* C74: `Prop_EndToEnd.C74_view`, `Prop_EndToEnd.C74_stacks`, `Prop_EndToEnd.C74_flamegraph`
* C76: `Prop_Index.C76_by_index`, `Prop_Index.C76_wraps_refuted`
* C77: `Prop_Diag.C77_event_id`, `Prop_Diag.C77_quiet`, `Prop_Diag.C77_reading`
* C78: `Prop_Multi.C78_sinks`, `Prop_Multi.C78_crash`, `Prop_Multi.C78_alone`, `Prop_Multi.C78_records`, `Prop_Multi.C78_same_tag_refuted`
* C79: `Prop_HwCounter.C79_outcome`, `Prop_HwCounter.C79_value`, `Prop_HwCounter.C79_warnings`, `Prop_HwCounter.C79_platforms`, `Prop_HwCounter.C79_errno_refuted`, `Prop_HwCounter.C79_moved_refuted`
* C80: `Prop_Start.C80_outcome`, `Prop_Start.C80_starts`, `Prop_Start.C80_opens`, `Prop_Start.C80_no_name_refuted`, `Prop_Start.C80_lost_refuted`, `Prop_Start.C80_orphan_refuted`
* C81: `Prop_Cli.C81_accepts`, `Prop_Cli.C81_order`, `Prop_Cli.C81_help`, `Prop_Cli.C81_help_subcommands`, `Prop_Cli.C81_mmview`, `Prop_Cli.C81_crox`, `Prop_Cli.C81_summarize`, `Prop_Cli.C81_one_file`, `Prop_Cli.C81_paths`
* C82: `Prop_System.C82_leaves`, `Prop_System.C82_possible`, `Prop_System.C82_typed`
* C86: `Prop_Harness.C86_check`, `Prop_Harness.C86_passes`, `Prop_Harness.C86_possible`
* C87: `Prop_Crash.C87_crash`, `Prop_Crash.C87_parser`, `Prop_Crash.C87_lost_strings`, `Prop_Crash.C87_invalid_refuted`
* C88: `Prop_View.C88_read_back`, `Prop_View.C88_recorded_args`, `Prop_View.C88_comma_refuted`, `Prop_View.C88_lines_refuted`
* C89: `Prop_Nested.C89_sequence`, `Prop_Nested.C89_address`, `Prop_Nested2.C89_no_deadlock`, `Prop_Nested2.C89_all_return`, `Prop_Nested3.C89_concurrent`, `Prop_Nested.C89_reentered_refuted`, `Prop_Nested2.C89_deadlock_refuted`
* C90: `Prop_CrashAnalysis.C90_analysis`, `Prop_CrashAnalysis.C90_stacks`, `Prop_CrashAnalysis.C90_mmview`
* C91: `Prop_Schedule.C91_summary`, `Prop_Schedule.C91_both`, `Prop_Schedule.C91_stacks`, `Prop_Schedule.C91_order_matters`, `Prop_Schedule.C91_chrome`
* C92: `Prop_Paging.C92_open`, `Prop_Paging.C92_mmedit_refuted`
* C93: `Prop_Chain.C93_adds_up`, `Prop_Chain.C93_exists`, `Prop_Chain.C93_no_change`, `Prop_Chain.C93_order`, `Prop_Chain.C93_interleaving`
* C94: `Prop_AggOrder.C94_result`, `Prop_AggOrder.C94_opens`
* C95: `Prop_Shift.C95_events`, `Prop_Shift.C95_summary`, `Prop_Shift.C95_stacks`, `Prop_Shift.C95_mmview`, `Prop_Shift2.C95_aggregate`, `Prop_Shift.C95_threads`, `Prop_Shift.C95_chrome`
* C96: `Prop_Rename.C96_summary`, `Prop_Rename.C96_stacks`, `Prop_Rename.C96_aggregate`, `Prop_Rename2.C96_crox`
* C97: `Prop_Looks.C97_summary`, `Prop_Looks.C97_stacks`, `Prop_Looks.C97_aggregate`, `Prop_Looks.C97_threads`, `Prop_Looks.C97_records`
* C98: `Prop_Split.C98_numbers`, `Prop_Split.C98_total`, `Prop_Split.C98_sizes`, `Prop_Split.C98_groups`, `Prop_Split2.C98_stacks`
* C99: `Prop_Agree.C99_total`, `Prop_Agree.C99_self`, `Prop_Agree.C99_labels`

## Standard library axioms: `ClassicalDedekindReals.sig_not_dec`, `ClassicalDedekindReals.sig_forall_dec`, `FunctionalExtensionality.functional_extensionality_dep`, `Classical_Prop.classic`

* C60: `Prop_Float.C60_diff_percent`
* C61: `Prop_Float.C61_threshold`, `Prop_Float.C61_percent`, `Prop_Float.C61_rows`
* C63: `Prop_DiffJson.C63_document`, `Prop_DiffJson.C63_reads_back`, `Prop_DiffJson.C63_unreadable_refuted`
* C65: `Prop_Text2.C65_summary`
* C66: `Prop_Text2.C66_diff`
* C67: `Prop_AggText.C67_text`, `Prop_AggText.C67_half`
* C72: `Prop_Programs.C72_output_only`, `Prop_Programs.C72_ends`, `Prop_Programs.C72_failure`, `Prop_Programs.C72_inputs_kept`, `Prop_Programs.C72_crox_output_lost_refuted`, `Prop_Programs.C72_json_results`, `Prop_Programs.C72_reports`, `Prop_Programs.C72_reports_files`
* C73: `Prop_Needed.C73_crox`
* C74: `Prop_EndToEnd.C74_diff`, `Prop_EndToEnd.C74_summarize`, `Prop_EndToEnd.C74_crox`, `Prop_EndToEnd2.C74_aggregate`
* C75: `Prop_Output.C75_output`, `Prop_Output.C75_working`, `Prop_Output.C75_runs`, `Prop_Output.C75_success_refuted`
* C82: `Prop_System.C82_tools`, `Prop_System.C82_compared`, `Prop_System.C82_lost_refuted`
* C83: `Prop_ReadF64.C83_reads`, `Prop_ReadF64.C83_accepted`, `Prop_ReadF64.C83_command`, `Prop_ReadF64.C83_exact`, `Prop_ReadF64.C83_every`, `Prop_ReadF64.C83_roundtrip`
* C84: `Prop_ShowF64.C84_displays`, `Prop_ShowF64.C84_negative`, `Prop_ShowF64.C84_reads_back`, `Prop_ShowF64.C84_json`, `Prop_ShowF64.C84_seventeen`, `Prop_ShowText.C84_report`, `Prop_ShowText.C84_diff_file`, `Prop_ShowRec.C84_recorded`
* C85: `Prop_Stdout.C85_output`, `Prop_Stdout.C85_success`, `Prop_Stdout.C85_working`, `Prop_Stdout.C85_runs`, `Prop_Stdout.C85_reader_gone`
* C92: `Prop_Paging.C92_commands`, `Prop_Paging.C92_session`, `Prop_Paging.C92_printed`
* C94: `Prop_AggOrder.C94_printed`, `Prop_AggOrder.C94_program`
