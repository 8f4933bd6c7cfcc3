# Formal model of rust-lang/measureme in Coq 8.16 — design

The first version of this file (style and plan) was committed before the proofs; the later sections
are kept current as the model grows.

## Style

* Stdlib (`List`, `ZArith`, `Lia`, `Bool`, `Permutation`, `Sorting`), and Flocq for the binary64
  percentages and their text (`*_Float.v`, `*_DiffJson.v`, `*_Text*.v`, `*_AggText.v` only). No axioms, no functors, no module types.
  Bytes, sizes, ids and times are `Z`; where the Rust code relies on a machine
  width (u32/u64 truncation, wrap-around, checked_add, 48 bit packing) the width is written into
  the model explicitly. Sizes that the code never bounds are unbounded.
* `res A := Ok a | Err | Panic | Diverge`: Rust `Result::Err` is `Err`, every `panic!`,
  `unwrap`, failed `assert!`, out-of-bounds slice and arithmetic underflow is `Panic`; recursion
  that need not terminate takes fuel and returns `Diverge` when it runs out.
* Arithmetic that behaves differently with and without overflow checks takes a flag `oc`, and the
  theorems quantify over it.
* Hash maps are lists of entries; wherever their iteration order (or an unstable sort) is observable
  the theorems quantify over every order.
* Files: `M_*.v` executable model (each definition cites file and lines), `S_*.v` independent
  specifications, `F_*.v` supporting proofs, `Prop_*.v` the property theorems (names `Cnn_…`, each with
  `Print Assumptions`), plus `Example`s showing that hypotheses are met by concrete, non-trivial cases.
* A claim that is false of the code is stated, in `properties.jsonl`, with its exception, and there is a
  theorem `…_refuted` that proves the exception: a concrete run through the public API. The positive part
  is proved for everything else.

## Plan per property

| id | modelled | files | proof |
|---|---|---|---|
| C01-C03, C48 | sinks, pages, `split_streams` function by function | M_Sink, S_Sink, F_Sink, F_SinkSeq, Prop_Sink | invariant over op list: pages so far ++ buffer = bytes written |
| C04, C05 | small-step semantics: one step per lock acquisition / `write_all` / release, environment invokes arbitrary ops on arbitrary threads | M_Conc, S_Conc, F_Conc, F_Conc2, Prop_Sink, Prop_Progress | invariant over schedules; deadlock freedom; a termination measure (remaining steps of the calls in progress) for fair schedules; every prefix of the disk splits into pages + partial page |
| C06 | same model, record size 32 | Prop_Run, Prop_Crash | invariant: each page of the events sink is a whole number of records; refutation for bulk index entries |
| C07-C10 | `RawEvent` with explicit u32/u64 arithmetic | M_Raw, Prop_Raw | bit lemmas via div/mod |
| C11, C12 | header writer/checkers, version dispatch | M_Header, Prop_Format | case analysis |
| C13 | id arithmetic, `alloc` histories | M_Strings, Prop_Strings | invariant over histories |
| C14-C18, C47 | builder encoders, index, `write_to_string`, `to_string` on bytes | M_Strings, M_StrTable, S_Strings, F_Strings, Prop_Strings | inductive denotation of ids as spec; decoding lemma; refutations with witnesses built by API calls |
| C19-C21 | event-id builder, byte-level parser | M_EventId, S_EventId, F_EventId, Prop_EventId | induction on arguments; refutation (0x0B) |
| C22 | profiler as state machine over the sinks with counter readings as inputs; several threads | M_Session, M_Run, S_Session, S_Run, F_Session(2), F_Run, Prop_Run | composition of the above over arbitrary interleavings |
| C23, C46 | programs with timing guards | M_Guard, S_Guard, Prop_Guard, Prop_Raw | induction on programs |
| C24 | iterator state machine | M_Iter, Prop_Format | induction over call sequence |
| C25-C29 | `perform_analysis` as a fold with underflow = `Panic` | M_Analysis, S_Analysis, S_Summary, F_Analysis*, Prop_Analysis | laminar family invariant, ledger lemma |
| C30 | `collapse_stacks` | M_Collapse, S_Collapse, F_Collapse, Prop_Collapse | the same family invariant |
| C31, C32 | `calculate_diff`, `SignedDuration`, hash order as an arbitrary permutation | M_Diff, S_Diff, F_Diff, Prop_Diff | direct |
| C33 | `Extrema` | M_Aggregate, S_Extrema, Prop_Extrema | invariant: table = first `limit` of the sorted distinct values with counts |
| C34, C35 | `SamplePoints`, `SampleIntervals`, `aggregate_profiles` | M_Aggregate, S_Aggregate, F_Aggregate, Prop_Aggregate(2) | induction over the walk |
| C36, C37 | crox mapping with arbitrary sort outcome, export loop | M_Crox, S_Crox, Prop_Crox(2) | invariant over threads sorted by start |
| C38, C39 | mmview, mmedit | M_Tools, S_Tools, Prop_Tools | direct; refutations |
| C40, C45, C52, C53 | counter arithmetic, cpuid classification, names, seqlock | M_Counters, S_Counters, Prop_Counters | modular arithmetic; case analysis; every schedule of kernel updates between the reads |
| C41 | metadata writer, JSON reader | M_Metadata, S_Metadata, Prop_Metadata | character-wise round-trip; refutation (apostrophe, …) |
| C42 | `write_atomic` with a panicking callback | M_Sink, S_SinkPanic, Prop_SinkPanic | exact effect of every history with panics; refutation |
| C43, C51 | summary and diff tables | M_Summarize, S_Summarize, Prop_Summarize | direct; refutation |
| C44 | path handling | M_Path, Prop_Path | direct; refutations |
| C49 | v8 conversion | M_V8, Prop_Format | case analysis |
| C50 | UTF-8 automaton; lossy decoding against the maximal-subpart relation | M_Utf8, S_Utf8, F_Utf8, Prop_Utf8, S_Lossy, Prop_Lossy | induction on the input |
| C54 | device that fills up | M_Fault, Prop_Fault, Prop_Fault2 | simulation by the unlimited storage up to the first failing write; who holds which lock as an invariant, by a typing of the programs |
| C55 | `ProfilingDataBuilder` | M_Builder, S_Builder, Prop_Builder | induction on programs |
| C56 | composition recording → file → analysis | S_Whole, Prop_Whole | C23 + C22 + C25-C29 |
| C57, C58 | JSON printer and reader, crox output, `--json` | M_Json, S_Json, F_Json, Prop_Json, Prop_Accept (also C41_accepts) | grammar of RFC 8259 as inductive relation; reader sound and complete; printer in the grammar |
| C59 | text of stack_collapse, lines of flamegraph | M_Folded, S_Folded, Prop_Folded | uniqueness of the decomposition |
| C60, C61 | f64 percentages | M_Float, S_Float, Prop_Float | Flocq: error analysis of the four roundings, induction for the sum |
| C62 | concurrent sinks, crash at any point | M_Conc, S_Conc, S_Durable, Prop_Durable | the concurrency invariant of F_Conc extended by a clause about flushing calls |
| C63 | `summarize diff --json` | M_DiffJson, S_DiffJson, Prop_DiffJson | printed values in the grammar (C57), exact rows (C31), percentages (C60); reader inverts the printer field by field |
| C64 | text of durations (std's `Debug for Duration`) | M_Text, S_Text, Prop_Text | invariant of the digit loop; carry of the rounding loop |
| C65, C66 | text of `summarize summarize` and `summarize diff`, cell by cell | M_Text, S_Text, Prop_Text2 | C61/C43, C31/C60 for the values; exact decimal rounding of binary64 (Flocq) |
| C67 | text of `summarize aggregate` | M_AggText, S_AggText, Prop_AggText | C35 for the tables; case analysis of neighbouring points; the shortest decimal text of a half is the exact one |
| C68 | strings of an arbitrary table: an inductive reading relation against the two reading functions | M_StrTable, S_Corrupt, Prop_Corrupt | soundness by mutual induction on the relation, completeness by induction on the fuel |
| C69 | `ProfilingData::new` on an arbitrary file, with the texts of the errors | M_Open, S_Open, Prop_Open | case analysis along the stages; C48 for the pages, C68 for the metadata string; `C69_same` ties it to the model without texts |
| C70 | the events of an arbitrary file: an inductive reading of each 32 bytes, using the reading relation of C68 for the strings | M_V8, M_Raw, M_EventId, S_Events, Prop_Events | case analysis per event, induction on the number of events |
| C71 | the composition of C22, C46 and C30/C37/C38/C59 | Prop_Whole2 (vocabulary S_Whole) | composition: the recorded events are nested and bounded, whatever the schedule |
| C72 | every tool as a program on a file system (a function from paths to contents) that ends in success, an error, exit 1, a panic or not at all | M_Programs, S_Programs, Prop_Programs, Prop_Edit | case analysis over the stages of each program; path lemmas of C44, documents of C57/C58 |
| C73 | the same programs on a profile of which only some events can be decoded | M_Programs, S_Programs (`readable`), Prop_Needed | induction over the lightweight events; UTF-8 by induction over the string readers (C50) |
| C74 | recording (C22, C46, C71) composed with opening (C69), the programs (C72, C73) and their output (C25-C30, C34, C35, C37, C38, C58, C59, C65-C67) | S_EndToEnd, Prop_EndToEnd, Prop_EndToEnd2 | composition |
| C75 | `write_all`, `BufWriter` (capacity 8192, errors on drop ignored) and `fs::write` over a device whose calls take some bytes, are interrupted or fail | M_Output, S_Output, Prop_Output | induction over the calls and over the pieces |
| C76 | `event_index_to_addr` with 64-bit `usize`, with and without overflow checks | M_Index, Prop_Index | modular arithmetic; induction over the iteration |
| C77 | the event id parser and the iteration over full events with what they have printed when they return or fail | M_Diag, S_Diag, Prop_Diag | induction over the pieces and over the events |
| C78 | any number of numbered sinks on one storage, each with its own mutex and any tag; the same methods as M_Sink | M_Multi, S_Multi, F_Multi, Prop_Multi | page structure by an invariant over the shape of the methods; each sink by a simulation that removes the actions of all others, so that the invariant of C04/C05 applies |
| C79 | counters on a machine: cpuid, answers of the kernel, registers and clock are inputs; error texts and warnings; other platforms | M_HwCounter, S_HwCounter, F_HwCounter, Prop_HwCounter | case analysis on the course of by_name; numerals are unique; modular arithmetic (C40) |
| C80 | starting a profiler: file system as a map from paths, device of M_Output, process as an input; then the sinks run alone | M_Start, S_Start, Prop_Start | induction along the path; a sequential run is a schedule of one thread; composition with `started` |
| C81 | command lines: the declared options as grammars, clap's loop over the arguments, `Path::components` of a text, the integer readers; the readers of `f64` (see C83) and of directories are parameters | M_Cli, S_Cli, Prop_Cli | induction on the arguments: each step of the loop is one spelling of the specification and back; the checks by induction from the right |
| C82 | the composition of C80 (starting on a file system), C74 (concurrent recording, decoding, tools) and C81 (command lines); no new model | S_System, Prop_System | the process is a recording of C74 whose metadata text is that of C41; paths with the same profile file differ only in the extension; the linearization is chosen before the tool |
| C83 | `f64::from_str` as clap uses it for `--percent-above`: sign, digits, point, exponent, the words; exact arithmetic instead of the library's approximations | M_ReadF64, S_ReadF64, Prop_ReadF64 | parser against a grammar in both directions; Flocq's correctly rounded division for the value; monotonicity of rounding and two evaluated ties for the range; instantiates the parameter of C81 |
| C84 | `{}` of an `f64` and the number texts of serde_json (ryu): shortest digits by exact integer arithmetic (Dragon), positional and exponent layout | M_ShowF64, S_ShowF64, Prop_ShowF64, Prop_ShowText, Prop_ShowRec | the search goes down the decimal scales: at the first scale with a reading every competitor has no higher scale, and a competitor with fewer digits, or nearer with as many, would make a power of ten a reading at a higher scale; Flocq for monotonicity of rounding and for seventeen digits; texts by cases on the layout |
| C85 | `println!` through the line-buffered standard output, whose calls of `write` take a part, are interrupted or fail (script as in C75), and the flush at exit | M_Stdout, S_Stdout, Prop_Stdout (with M_Output, M_Programs) | each writer step preserves: arrived ++ buffered is what has been passed on so far, and a failed step is only reached when a call failed; a line feed at the end of each `println!` leaves an empty buffer; a measure (bytes the script can still take) for the reader that goes away |
| C86 | the threads of `generate_profiling_data` as programs of timing guards, `process_profiling_data` on the resulting file | M_Harness, S_Harness, Prop_Harness (with M_Run, M_Guard, M_Session) | the check by induction over the threads; the file by the session results of C22/C56: every event of a thread is the one asked for (induction over the recursion, C23), the strings are those of the main thread's allocations, the order within a thread is the order of its calls; overflow by a bound 17^n * 231 * stacks |
| C87 | the file of M_Run cut at any byte during recording or while sinks are dropped, then `EventDecoder::new` | S_Crash, F_Crash, Prop_Crash (with M_Run, M_Session, M_StrTable) | the pages on disk by the invariant of the concurrent sinks (C06), one page per dropped sink; a partial page panics (C48); the three streams are cut to whole entries, which are the streams of a session of a part of the calls (C22's lemmas apply); reading from a longer string table by induction on the fuel |
| C88 | mmview's `print_event` and `main`, two runs | S_View, Prop_View (with M_Tools, S_Tools, Prop_Tools) | the text is a sequence of lines (C38), 7 per event; lines are unique when no text contains a line feed; numerals, payloads and comma-separated lists are read back by unique splitting; labels and arguments of decoded events by C20 |
| C89 | `write_atomic` with callbacks that make calls, alone and with several threads | M_Nested, S_Nested, Prop_Nested, Prop_Nested2, Prop_Nested3 (with M_Sink, F_SinkSeq, C04) | induction on the nesting; programs that do not touch the locked sinks run the same whatever these contain (frame); deadlock freedom: every thread holds exactly the mutexes its program expects, taken in the order of ranks, so following who waits for whom the rank grows; bounded programs give termination; order of all calls: simulation by ordinary calls of additional threads, to which C04 applies |
| C90 | the whole program of C56, killed at any point, its file cut at any byte, then read and analysed | S_CrashAnalysis, Prop_CrashAnalysis (with Prop_Crash, Prop_Whole, Prop_Analysis, Prop_Collapse, Prop_Tools) | the effects of a thread are the first of the calls it made, also with a call in progress, so its intervals are a prefix of a laminar list (C46); the events read are a prefix of the recorded ones (C87); C26, C25, C30, C38 apply |
| C91 | `perform_analysis`, `collapse_stacks` and crox's `main` on two orders of the same events | S_Schedule, Prop_Schedule (with Prop_Analysis, Prop_Collapse, Prop_Crox) | lists with equal threads are connected by swaps of neighbours of different threads; every quantity of the documented tables (C25-C30) is the same after a swap; for crox the export of single events and the life spans of threads (C36) only depend on which events there are |
| C92 | all programs on two directories whose version 9 profiles hold the same streams in different pages | S_Paging, Prop_Paging (model M_Programs) | `split_streams` of well-formed pages is the three streams (C05), so opening gives the same decoder; every program reaches the files only through opening (mmedit rejects version 9 first); induction over the sequence of commands; for versions 7 and 8 the loop of mmedit on one and on two pages |
| C93 | `calculate_diff` along a sequence of results, and on reordered results | S_Chain, Prop_Chain (with Prop_Diff, Prop_Schedule) | what a diff says about a label is `delta` (C31), 0 if there is no row; induction over the sequence; rows only depend on the entries of a label, `collect` over permuted label sets gives permuted rows |
| C94 | `aggregate_profiles` and the program `summarize aggregate` on lists with the same elements | Prop_AggOrder (with S_Aggregate, Prop_Aggregate2, M_Programs) | the relation `aggregated` (C35) only depends on the set of interval lists: the first column is, and by induction the rest; every step from files to intervals is a function, so it carries equal sets to equal sets |
| C95 | reading, `perform_analysis`, `collapse_stacks`, `mmview_main`, `thread_mapping` and `export_event` on events moved in time | S_Shift (`later`, `other_starts`), Prop_Shift, Prop_Shift2 | each fold commutes with moving the times in its state (per-thread starts, ends and stacks); comparisons and differences of times are unchanged; for aggregate, a simulation of the iterators that tells apart neither descriptions nor durations; for crox, floor division commutes with adding whole microseconds |
| C96 | `perform_analysis`, `collapse_stacks`, `aggregate_profiles`, `crox_main` on events with renamed threads | S_Rename (`rethread`, `distinct`), Prop_Rename, Prop_Rename2 (with Prop_Shift, Prop_Shift2, Prop_Crox) | each fold commutes with renaming the keys of its map of threads; for aggregate a simulation of the sample points (the expected thread is irrelevant once no event is left); for crox, a thread that has ended before another starts has been given an id, so no raw id leaks into the mapping |
| C97 | `perform_analysis`, `collapse_stacks`, `aggregate_profiles`, `thread_mapping`, `export_file` on recordings that agree on what is looked at | S_Looks (`summarized`, `no_args`, `no_kind`, `only_times`), Prop_Looks | the steps leave the state alone on other events and commute with erasing the fields not looked at (also from the stacks in the state) |
| C98 | `perform_analysis`, `collapse_stacks` on a recording and on two groups of its threads | S_Split (`group`, `number`, `size`), Prop_Split, Prop_Split2 (with Prop_Analysis, Prop_Collapse) | the numbers are those of the specification (C25, C27-C30), which only relates events of the same thread: direct children, ancestors and top-level times are the same within the group; a label without a row has only zeros |
| C99 | `perform_analysis` and `collapse_stacks` on the same recording | S_Agree (`innermost`, `no_semicolon`), Prop_Agree (with Prop_Analysis, Prop_Collapse, Prop_Split) | both compute the self times of the specification (C25, C30); self times do not depend on labels, so replacing labels by stack lines and summing over lines, or over rows, gives the same |
| C100 | `perform_analysis` and `export_file` on the same events | S_AgreeChrome (`trace_count`, `trace_micros`), Prop_AgreeChrome (with C28, C37) | the export is one record per interval (C37); induction over the events compares counts and rounded durations with the specification of the rows (C28); a minimum duration filters the records one by one |

## Trusted base

* Coq 8.16.1's kernel (and `vm_compute`, used for closed examples and refutation witnesses).
* ASSUMPTIONS.md lists what `Print Assumptions` prints, theorem by theorem (generated).
* `Print Assumptions` says "Closed under the global context" for every theorem except those of
  `Prop_Float.v` (C60, C61) and `Prop_DiffJson.v`, `Prop_Text2.v`, `Prop_AggText.v`, `Prop_Programs.v`, `Prop_Needed.v`, `Prop_EndToEnd.v`, `Prop_EndToEnd2.v`, `Prop_Output.v`, `Prop_ShowF64.v`, `Prop_ShowText.v`, `Prop_ShowRec.v`, `Prop_ReadF64.v`, `Prop_Stdout.v`, `Prop_Paging.v`, `Prop_AggOrder.v` (C63, C65, C66, C67, parts of C72-C75, C84, C85, parts of C92, C94), which rest on the standard library's axioms for the real numbers as used by
  Flocq: `ClassicalDedekindReals.sig_not_dec`, `ClassicalDedekindReals.sig_forall_dec`,
  `FunctionalExtensionality.functional_extensionality_dep`, `Classical_Prop.classic`. There are no axioms
  of our own.
* The reading of the Rust code as the `M_*.v` definitions, including the semantics of the pieces of the
  Rust standard library that they use (integer conversions, `Duration`/`SystemTime` arithmetic and
  panics, stable and unstable sorts, UTF-8 validation, `Path` components, hash maps with arbitrary
  order), of the Unix file abstraction (`write_all` appends its bytes or a prefix of them) and of mutexes.
* External crates as modelled: serde_json's compact printer and parser (`M_Json.v`, `M_Metadata.v`),
  the standard library's formatting of `Duration` and `f64` (`M_Text.v`), `decodeme_10` (only the conversion of what it returns), inferno and prettytable (not modelled; what they
  are given is).

## Coverage

Modelled, function by function: measureme (`serialization.rs`, `stringtable.rs`, `raw_event.rs`,
`event_id.rs`, `file_header.rs`, `profiler.rs`, `counters.rs` except the system calls and instructions
themselves), decodeme (all), analyzeme (`analysis.rs`, `stack_collapse.rs`, `profiling_data.rs`,
`file_formats`), crox, flamegraph, mmview, mmedit, stack_collapse, summarize (`main.rs`, `diff.rs`,
`aggregate.rs`).

Not modelled:

* the texts clap prints, and `clap` itself beyond the loop in `M_Cli.v` (the programs of `M_Programs.v` start from parsed arguments, which C81 relates to the command line); creating and writing a file there never
  fails, a file that exists can be read, paths are compared by their components), log messages, error texts except where a property names them (C69);
* the layout of tables (their cells are);
* `perf_event_open`, `mmap`, `cpuid`, `rdpmc`, `Instant::now`: what they return is an input;
* the benches and tests, and of `testing_common.rs` the creation of the temporary directory;
* memory safety of the `unsafe` blocks (the byte view of `RawEvent` is modelled by its documented layout),
  the memory model below mutexes, running out of memory, performance.

## Findings

Defects of the code at the pinned commit, each proved by a `…_refuted` theorem:

| theorem | defect |
|---|---|
| C15_to_string_refuted | `StringRef::to_string`'s fast path compares a relative with an absolute position and drops everything after the first component |
| C21_grammar_refuted | the documented `[[:space:]]` contains vertical tab, which `is_ascii_whitespace` rejects |
| C47_cycle_refuted | a cyclic virtual string recurses without end |
| C06_index_refuted | a 16-byte string index entry of a bulk mapping can be split across two pages |
| C42_panicking_callback_refuted | a panicking serializer leaves its reserved bytes in the stream and displaces later addresses |
| C26, C30, C34 `_overlap_refuted` | overlapping, not nested, intervals on one thread make analysis, collapsing or aggregation panic |
| C32_eq_refuted, C32_overflow_refuted | `SignedDuration`: two zeros that compare equal but are not `==`; subtraction wraps |
| C35_single_refuted, C35_count_overflow | profiles with at most one sample point are never compared; the count is an `i32` (C35_count_wraps: the printed count wraps in release builds) |
| C38_integer_events_refuted | mmview reports a profile with only integer events as empty |
| C39_current_version_refuted | mmedit truncate refuses files of the current version |
| C40_crossing/more_irqs/not_monotone `_refuted` | counter differences across a counter wrap; `instructions-minus-irqs` can decrease |
| C41_unreadable_refuted, C41_profile_lost_refuted | command line arguments can make the metadata JSON invalid, and then the whole profile cannot be opened |
| C63_unreadable_refuted | `summarize diff --json` writes `null` for the percentage of a new activity (or one that took no time before), which its own `Deserialize` refuses |
| C63_document | `--exclude` is ignored with `--json` |
| C64_signed | `{:.2?}` has no effect on the cells of the diff table: `Debug for SignedDuration` does not pass the precision on |
| C43_hashing_refuted | the early exit of the flag loop can hide the hashing column |
| C44_collision_refuted, C44_json_refuted, C44_json_overwrite_refuted | `with_extension` makes different prefixes collide; `diff` never recognises `.json` files; `diff --json` overwrites the `summarize --json` results of the second profile |
| C53_torn_refuted | the parity of the seqlock is not checked |
| C54_freed_space_refuted | after a failed write and freed space, the torn page makes the whole file unreadable |
| C72_crox_output_lost_refuted | crox truncates its previous output before it looks at its inputs; when one cannot be opened, an incomplete JSON document is left |
| C75_success_refuted | crox, stack_collapse and summarize --json report success on a full disk when their output is shorter than 8192 bytes: the `BufWriter` is never flushed explicitly |
| C76_wraps_refuted | `event_index_to_addr` wraps in release builds: a lightweight event with the index i + k * 2^59 gives event i instead of a panic |
| C69_old_version_refuted | files of versions 0 to 7, which are too old, are reported as "too new"; the hint about out-dated files (C69_missing) follows the full stop without a space |
| C78_same_tag_refuted | two sinks made with the same tag both count addresses from 0, but readers merge their pages |
| C79_errno_refuted | `perf_event_open` returns -1 and sets errno; `from_raw_os_error(-fd)` therefore always reports error 1 (EPERM) |
| C79_moved_refuted | the register index is read once; if the kernel moves the event, the old register is still read |
| C80_no_name_refuted | `Profiler::new("")` and `Profiler::new("/")` panic (`parent().unwrap()`) |
| C80_lost_refuted | the file is truncated before anything is written: a profiler that cannot be started destroys the profile of that name |
| C80_orphan_refuted | arguments that are not Unicode (`std::env::args`) or a clock before 1970 panic after the file was created; the file left cannot be opened |
| C89_reentered_refuted, C89_deadlock_refuted | `write_atomic` runs user code (`SerializableString::serialize`) while it holds the sink's mutex: a serializer that allocates a string deadlocks |
| C88_comma_refuted, C88_lines_refuted | mmview separates arguments by commas and events by lines without escaping either |
| C59_ambiguous_refuted | labels are not escaped in folded stacks |
| C92_mmedit_refuted | `mmedit truncate` keeps the first page of events, so its result depends on where the writer happened to cut the stream |

(C60: a query whose time is zero in both profiles shows `NaN%`.)

## Wrong programs

`seeded/LOG.jsonl` records the edits tried on copies of the model, the claim each breaks, and the theorems
that no longer prove.
