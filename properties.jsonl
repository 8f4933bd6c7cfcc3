{"id": "C01", "title": "Paged container round-trip", "statement": "Whatever is written to the sinks of one backing store, through any mix of write_atomic, write_bytes_atomic, the std::io::Write adapter and its flush, once the sinks are dropped split_streams of the stored bytes does not panic and returns, for each page tag, exactly the concatenation in call order of the byte strings written to that tag's sink (the tag is absent iff nothing was written to it).", "quantifier": "every finite sequence of write calls with arbitrary byte contents and lengths over the three sinks, and every order of dropping them", "why_tests_cant": "page splitting depends on the buffer fill level, which is a function of the whole history; tests try eight sizes", "anchors": ["measureme/src/serialization.rs: SerializationSink::write_atomic, write_bytes_atomic, flush, write_page, Drop, split_streams"]}
{"id": "C02", "title": "Returned addresses locate the data", "statement": "Every write returns the number of bytes previously written to the same sink, and in the finally reconstructed stream the bytes at that address are exactly the bytes of that write, contiguous.", "quantifier": "every history of writes and every write in it", "why_tests_cant": "an address is correct only relative to all earlier and later writes of the session", "anchors": ["measureme/src/serialization.rs: write_atomic, write_bytes_atomic, Addr"]}
{"id": "C03", "title": "Page discipline", "statement": "Every page ever emitted is non-empty and at most 256 KiB, the internal page-size assertion never fires, and pages written before the sinks are closed are never reordered within a stream.", "quantifier": "every history of writes", "why_tests_cant": "boundary sizes interact with the current fill level of the buffer", "anchors": ["measureme/src/serialization.rs: write_page, MAX_PAGE_SIZE, MIN_PAGE_SIZE"]}
{"id": "C04", "title": "Linearizable concurrent writing", "statement": "With any number of threads using the sinks concurrently under any interleaving of their lock acquisitions and individual write_all calls, the reconstructed stream of each tag is the concatenation of all completed writes in a single order that respects each thread's program order, every write is contiguous at the address it returned, no reachable state is deadlocked, and under every fair schedule all calls in progress return after a bounded number of rounds.", "quantifier": "every schedule, every number of threads, every program of each thread", "why_tests_cant": "a test samples a handful of schedules", "anchors": ["measureme/src/serialization.rs: SerializationSink (data: Mutex), SharedState (Arc<Mutex<BackingStorage>>)"]}
{"id": "C05", "title": "Crash prefix", "statement": "If the process dies at any moment, the bytes in the file are a sequence of complete pages followed by a proper prefix of one page, and every stream reconstructed from the complete pages is a prefix of the concatenation of the writes made to that stream.", "quantifier": "every crash point of every schedule, including in the middle of a write_all", "why_tests_cant": "crash points are not enumerable by tests", "anchors": ["measureme/src/serialization.rs: write_page"]}
{"id": "C06", "title": "Page boundaries are record boundaries in the event stream", "statement": "Events recorded by a Profiler are never split across pages: the events stream reconstructed from any number of complete pages, whether the process died while recording or while its sinks were being dropped, is its 8-byte header followed by a whole number of 32-byte events. (The same claim for 16-byte index entries is false when bulk mappings are used.)", "quantifier": "every history of recorded events and every number of complete pages", "why_tests_cant": "depends on fill level at every flush; bug would need a 256 KiB boundary at the right place", "anchors": ["measureme/src/profiler.rs: record_raw_event", "measureme/src/stringtable.rs: bulk_map_virtual_to_single_concrete_string", "measureme/src/serialization.rs: write_atomic"]}
{"id": "C07", "title": "48-bit payload packing is lossless", "statement": "An interval event gives back exactly the start and end value it was created with, an instant event its timestamp and an integer event its value.", "quantifier": "all 2^48-ish values of each payload and both payloads jointly", "why_tests_cant": "2^96 combinations", "anchors": ["measureme/src/raw_event.rs: pack_values, start_value, end_value, value"]}
{"id": "C08", "title": "Event constructors reject exactly the unrepresentable values", "statement": "new_interval panics iff start > end or end > MAX_INTERVAL_VALUE; new_instant / new_integer panic iff the value exceeds MAX_SINGLE_VALUE.", "quantifier": "all u64 arguments", "why_tests_cant": "64-bit domain", "anchors": ["measureme/src/raw_event.rs: new_interval, new_instant, new_integer"]}
{"id": "C09", "title": "Event kinds never get confused", "statement": "An event made by new_interval is neither instant nor integer, by new_instant is instant and not integer, by new_integer integer and not instant; the decoder's payload classification agrees.", "quantifier": "all accepted arguments, including values that equal the markers", "why_tests_cant": "the marker values sit at the end of a 48-bit range", "anchors": ["measureme/src/raw_event.rs: is_instant, is_integer", "decodeme/src/event_payload.rs: EventPayload::from_raw_event"]}
{"id": "C10", "title": "Event byte encoding is a bijection", "statement": "deserialize(serialize(e)) = e for every event, serialize(deserialize(b)) = b for every 32-byte string, and the layout is the documented little-endian one on both endiannesses.", "quantifier": "all events, all 32-byte strings", "why_tests_cant": "2^256 inputs", "anchors": ["measureme/src/raw_event.rs: serialize, deserialize"]}
{"id": "C11", "title": "File header check", "statement": "verify_file_header accepts exactly the byte strings that start with the expected magic followed by the current version in little endian; what write_file_header writes is accepted for the same magic and rejected for the three other magics; read_file_header returns the version.", "quantifier": "all byte strings and the four magics", "why_tests_cant": "arbitrary inputs", "anchors": ["measureme/src/file_header.rs: write_file_header, verify_file_header", "decodeme/src/lib.rs: read_file_header"]}
{"id": "C12", "title": "Format version dispatch", "statement": "Loading a paged buffer selects the v8 decoder exactly for version 8, the v9 decoder exactly for version 9, and returns an error (never a panic) for every other version and for buffers shorter than a header or with the wrong magic.", "quantifier": "all byte strings", "why_tests_cant": "2^32 versions", "anchors": ["analyzeme/src/profiling_data.rs: ProfilingData::from_paged_buffer", "analyzeme/src/file_formats"]}
{"id": "C13", "title": "String id space partition", "statement": "Ids of user virtual strings, the metadata id, the invalid id and ids of allocated strings are pairwise disjoint; address/id conversion is a bijection on allocated ids; alloc never returns a virtual or invalid id and never the same id twice; new_virtual panics exactly above 100000000.", "quantifier": "all ids, all allocation histories", "why_tests_cant": "64-bit ids, histories", "anchors": ["measureme/src/stringtable.rs: StringId, from_addr, to_addr, new_virtual, is_virtual, alloc"]}
{"id": "C14", "title": "String table round-trip", "statement": "Every string allocated, plain or composed of values and references, expands after decoding to the concatenation of its components with references replaced by the expansion of the string they denote.", "quantifier": "every allocation history, every nesting of references, arbitrary UTF-8 contents", "why_tests_cant": "component encodings are concatenated without lengths and rely on FE/FF never occurring in UTF-8", "anchors": ["measureme/src/stringtable.rs: SerializableString, StringTableBuilder::alloc", "decodeme/src/stringtable.rs: StringRef::write_to_string"]}
{"id": "C15", "title": "Fast and slow string expansion agree", "statement": "StringRef::to_string returns the same text as StringRef::write_to_string, except exactly when the entry at address p begins with a reference and its first terminator byte lies p + 9 bytes behind p; then it returns the text of that reference only, and a session using nothing but the public API reaches this case (a defect: a relative position is compared with an absolute one).", "quantifier": "every string table and id", "why_tests_cant": "matters only at coincidental addresses", "anchors": ["decodeme/src/stringtable.rs: StringRef::to_string, write_to_string"]}
{"id": "C16", "title": "Virtual strings resolve to the last mapping", "statement": "A virtual id decodes to the string it was last mapped to, no matter whether the mapping or the events using it came first; an unmapped virtual id and the invalid id decode to <unknown>; other ids are unaffected by a mapping.", "quantifier": "every history of mappings", "why_tests_cant": "histories", "anchors": ["measureme/src/stringtable.rs: map_virtual_to_concrete_string", "decodeme/src/stringtable.rs: StringTable::new, get_addr"]}
{"id": "C17", "title": "Bulk mapping equals individual mappings", "statement": "bulk_map_virtual_to_single_concrete_string leaves the same index contents as mapping every id one by one, for any number of ids.", "quantifier": "every list of ids, every concrete id, every prior state", "why_tests_cant": "large bulk writes bypass the buffer", "anchors": ["measureme/src/stringtable.rs: bulk_map_virtual_to_single_concrete_string"]}
{"id": "C18", "title": "Metadata cannot be overwritten by users", "statement": "No sequence of string allocations and accepted virtual mappings changes what the metadata id resolves to; attempts to map an id above the user range panic.", "quantifier": "every history", "why_tests_cant": "histories", "anchors": ["measureme/src/stringtable.rs: map_virtual_to_concrete_string, alloc_metadata"]}
{"id": "C19", "title": "Event ids: builder and parser are inverse", "statement": "An event id built from a label and any number of argument strings, whose texts are non-empty and contain no control character other than ASCII white space, is decoded to exactly that label and those arguments.", "quantifier": "every label and argument list", "why_tests_cant": "strings of any length and number", "anchors": ["measureme/src/event_id.rs: EventIdBuilder", "decodeme/src/event.rs: parse_event_id"]}
{"id": "C20", "title": "Event id parsing is total", "statement": "For every valid UTF-8 string parsing terminates without panic; the label is either '<parse error>' or a non-empty prefix of the text up to the first separator; joining label and arguments with the separator gives a prefix of the text, and the whole text when there was no error.", "quantifier": "every UTF-8 string", "why_tests_cant": "arbitrary strings", "anchors": ["decodeme/src/event.rs: Parser"]}
{"id": "C21", "title": "Parser accepts the documented grammar", "statement": "The parser accepts exactly the texts conforming to the grammar documented for EventId (anything but control characters, except white space) that do not contain a vertical tab 0x0B in a label or argument; texts with one conform but are rejected (a defect: is_ascii_whitespace is narrower than [[:space:]]).", "quantifier": "every text", "why_tests_cant": "single byte 0x0B differs between the two definitions of white space", "anchors": ["measureme/src/event_id.rs: grammar comment", "decodeme/src/event.rs: parse_separator_terminated_text"]}
{"id": "C22", "title": "End-to-end event fidelity", "statement": "A file produced by a profiling session, once closed, decodes to exactly the recorded events in the order they were written: same thread, payload and number unconditionally, and same kind, label and arguments whenever their ids are not hit by the to_string defect of C15; nothing lost, duplicated or invented.", "quantifier": "every session history and every concurrent schedule", "why_tests_cant": "the product of all of the above", "anchors": ["measureme/src/profiler.rs: Profiler", "decodeme/src/lib.rs: EventDecoder", "analyzeme/src/profiling_data.rs: ProfilingData"]}
{"id": "C23", "title": "Timing guards record exactly one interval", "statement": "Starting records nothing; dropping a guard, finishing a detached timing or finishing with an override records exactly one interval whose start is the counter at the start call and whose end is the counter at the finish call, with the overridden id if given; a detached timing gives the same event as a guard.", "quantifier": "every interleaving of starts and finishes of any number of guards", "why_tests_cant": "histories", "anchors": ["measureme/src/profiler.rs: TimingGuard, DetachedTiming, start_recording_interval_event*, finish_*"]}
{"id": "C24", "title": "Double-ended event iteration", "statement": "For any interleaving of next and next_back calls the iterator yields every event index exactly once, front calls ascending and back calls descending, its size hint is always the exact number of remaining events, and it stays exhausted afterwards.", "quantifier": "every sequence of next/next_back calls and every number of events", "why_tests_cant": "call sequences", "anchors": ["analyzeme/src/profiling_data.rs: ProfilerEventIterator"]}
{"id": "C25", "title": "Self time is duration minus direct children", "statement": "For properly nested recordings the analysis reports for each label the sum over its interval events of their duration minus the durations of the events whose innermost enclosing event they are; time, blocked, load and hashing times follow the documented per-kind rules.", "quantifier": "every event list whose per-thread intervals are nested or disjoint in recording order, any number of threads interleaved, any kinds and labels", "why_tests_cant": "arbitrary traces", "anchors": ["analyzeme/src/analysis.rs: perform_analysis"]}
{"id": "C26", "title": "Analysis does not panic on nested recordings", "statement": "perform_analysis never underflows a duration on properly nested recordings; it can panic on recordings in which intervals of one thread partially overlap, which the public recording API permits.", "quantifier": "every event list", "why_tests_cant": "depends on the order of updates over the whole trace", "anchors": ["analyzeme/src/analysis.rs: perform_analysis"]}
{"id": "C27", "title": "Total time", "statement": "The total time is the sum over threads that have an interval event of latest end minus earliest start of its interval events.", "quantifier": "every event list", "why_tests_cant": "arbitrary traces", "anchors": ["analyzeme/src/analysis.rs: perform_analysis total_time"]}
{"id": "C28", "title": "Invocation, cache hit and miss counts", "statement": "Per label: invocation_count, number_of_cache_hits and number_of_cache_misses are exactly the number of events of the kinds documented to contribute; every label that contributes appears exactly once.", "quantifier": "every event list", "why_tests_cant": "arbitrary traces", "anchors": ["analyzeme/src/analysis.rs: record_event_data"]}
{"id": "C29", "title": "Artifact sizes", "statement": "Each artifact label appears exactly once, in increasing label order, with the sum of the values of its ArtifactSize integer events; other integer events are ignored. (A sum that does not fit in 64 bits is reported modulo 2^64 by a build without overflow checks; with them the analysis panics instead of returning a wrong sum.)", "quantifier": "every event list", "why_tests_cant": "arbitrary traces", "anchors": ["analyzeme/src/analysis.rs: artifact_sizes"]}
{"id": "C30", "title": "Collapsed stacks account for all time", "statement": "For properly nested recordings, each stack line carries the total self time of the events with that ancestor chain, 'rustc' carries the gaps, and all lines together add up to the sum of the threads' spans.", "quantifier": "every properly nested event list", "why_tests_cant": "arbitrary traces", "anchors": ["analyzeme/src/stack_collapse.rs: collapse_stacks"]}
{"id": "C31", "title": "Profile diff", "statement": "The diff has exactly one row per label of either profile, each field is change minus base (missing side counts as zero), rows are ordered by decreasing magnitude of self time change, and swapping the profiles negates every field.", "quantifier": "every pair of analysis results, every hash iteration order", "why_tests_cant": "pairs of arbitrary results, hash order", "anchors": ["summarize/src/diff.rs: calculate_diff"]}
{"id": "C32", "title": "Signed durations form an ordered group", "statement": "Subtraction of signed durations is exact whenever the result is below 2^64 ns in magnitude (and wraps silently otherwise), ordering is the ordering of signed nanoseconds, and equality agrees with the ordering except that the two representations of zero compare as equal without being equal (a diff produces both).", "quantifier": "all durations up to 2^64 ns of either sign", "why_tests_cant": "64-bit domain", "anchors": ["summarize/src/diff.rs: SignedDuration"]}
{"id": "C33", "title": "Extrema keeps exactly the most extreme values", "statement": "After any sequence of insertions the smallest (largest) table holds exactly the limit smallest (largest) distinct values seen, each with the exact number of occurrences, whatever the order.", "quantifier": "every sequence of values, every positive limit", "why_tests_cant": "eviction order depends on history", "anchors": ["summarize/src/aggregate.rs: Extrema, ExtremaSources"]}
{"id": "C34", "title": "Sample points are a balanced walk", "statement": "The sample point sequence of any event list is balanced (each interval entered once and left once, properly parenthesised), every instant appears once, and the parent relations asserted when describing neighbouring points always hold; for recordings in time order (properly nested, one thread) timestamps never go backwards so no duration computation fails; events of two threads, or overlapping intervals, make the tool panic.", "quantifier": "every event list", "why_tests_cant": "arbitrary traces", "anchors": ["summarize/src/aggregate.rs: SamplePoints, SampleIntervals, describe"]}
{"id": "C35", "title": "Aggregation compares profiles", "statement": "Aggregating reports for each sample interval the minimum over profiles and the spread; it always finishes, with the four exact tables of ten or with a panic; it refuses (panics on) profiles whose event sequences differ, except that profiles without any sample interval (at most one instant) are not compared at all; with overflow checks more than 2^31 sample points panic the interval counter, and without them only the printed number of intervals wraps around.", "quantifier": "every list of profiles", "why_tests_cant": "arbitrary tuples of traces", "anchors": ["summarize/src/aggregate.rs: AggregatedSampleIntervals"]}
{"id": "C36", "title": "Thread collapsing never merges overlapping threads", "statement": "With --collapse-threads two threads get the same displayed id only if their time spans do not overlap; every thread with a timestamped event gets an id and no other thread does; displayed ids are consecutive from zero and as few as the maximal number of simultaneously alive threads; with fewer than 2^32 threads it never panics. A thread that starts exactly when another ends counts as overlapping it.", "quantifier": "every event list, every hash iteration order and unstable sort outcome", "why_tests_cant": "scheduling order and ties", "anchors": ["crox/src/main.rs: generate_thread_to_collapsed_thread_mapping"]}
{"id": "C37", "title": "Chrome export faithful", "statement": "For intervals that are not reversed and start after 1970, exactly the interval events whose duration is at least the minimum are exported, in order, with name, category, process, displayed thread, arguments (arg0, arg1, ... in decimal) and times truncated to microseconds, followed by the crate name (the word after the first ' --crate-name ' of the command line, if any) and the start time as sort index. A reversed interval, or an exported interval that starts before 1970, aborts the export instead.", "quantifier": "every list of files, event list, minimum, thread mapping and command line", "why_tests_cant": "arbitrary traces", "anchors": ["crox/src/main.rs: main, as_micros, get_args"]}
{"id": "C38", "title": "mmview prints every event", "statement": "mmview prints every event of the selected thread (or of all threads) in order, with times relative to the earliest start over all threads (an end before that shows as 0); it reports 'No events.' iff no event has a timestamp, hence also for profiles that contain only integer events (a defect).", "quantifier": "every event list and thread selection", "why_tests_cant": "arbitrary traces", "anchors": ["mmview/src/main.rs"]}
{"id": "C39", "title": "mmedit truncate", "statement": "Truncating a file of format version 7 or 8 keeps the header, both string streams and exactly the first events page, in order; the result is accepted by the same splitter and truncating again changes nothing; anything else is an error or a panic. Files of the current version 9 are rejected (a defect).", "quantifier": "every file", "why_tests_cant": "arbitrary files", "anchors": ["mmedit/src/main.rs: truncate"]}
{"id": "C40", "title": "Hardware counter differences", "statement": "The value since start equals the number of counted units, and fits an event payload, as long as the 48-bit register has not crossed its sign boundary since the start; a crossing makes the value wrong by 2^64 - 2^48 (recording it panics). Instructions minus interrupts is exact iff the interrupts counted do not exceed the instructions, and it need not be monotone. Wall time is exact and recordable for 2^48 ns.", "quantifier": "all register values, all readings of the two registers, all clock values", "why_tests_cant": "2^96 combinations", "anchors": ["measureme/src/counters.rs: hw::Counter::read, since_start, WallTime, Instructions, InstructionsMinusIrqs"]}
{"id": "C41", "title": "Profiles of processes with plain arguments can be opened again", "statement": "If every command line argument consists of printable ASCII other than the apostrophe, tab, line feed and carriage return, and the clock shows a date before 2554, then the metadata record decodes to start time, process id and command line, and every profile of such a session opens. One apostrophe, control or non-ASCII character in any argument makes the whole profile unreadable (a defect: Rust escapes are written as JSON). In general a metadata text is read exactly when it is a JSON document that is an object with each of the fields start_time (64 bits), process_id (32 bits) and cmd exactly once, or an array of the three.", "quantifier": "every command line, time, process id, counter; every session and schedule", "why_tests_cant": "arbitrary strings", "anchors": ["measureme/src/profiler.rs: with_counter", "decodeme/src/lib.rs: Metadata, EventDecoder::from_separate_buffers"]}
{"id": "C42", "title": "Panicking serializers", "statement": "If the callback given to write_atomic panics and the panic is caught, the sink stays usable: no other call panics, no data is lost or reordered and the pages stay well formed. A failed write of at most 256 KiB leaves its partial contents in the stream, and every later address to the same sink is too small by exactly the number of bytes so left (a defect); larger failed writes leave nothing.", "quantifier": "every history in which any callbacks panic, having written anything", "why_tests_cant": "needs panics at arbitrary points", "anchors": ["measureme/src/serialization.rs: write_atomic"]}
{"id": "C43", "title": "Summary table columns", "statement": "The cache hit, blocked time and load time columns of the summary table are shown iff some row has a non-zero value in them; the hashing column only if some row has one, and it can be missing although a row has one only when the three others are shown (which happens: a defect); rows are sorted by decreasing self time, and every row shows the value of every shown column (the percentage filter: C61).", "quantifier": "every analysis result", "why_tests_cant": "row order matters because of an early exit", "anchors": ["summarize/src/main.rs: summarize"]}
{"id": "C44", "title": "Reader finds what the writer wrote", "statement": "For every path stem the reader opens the path the writer created; opening by full file name works as well; stems without an inner dot give distinct files (dotted ones can collide); a path without a file name is rejected; diff reads JSON results only from a file named exactly json and hence never the results that summarize --json wrote (a defect: it silently analyses the profile of the same stem), and diff --json overwrites them; crox reads the profile of every given prefix and exactly the entries of the directory that are named with a non-empty stem and the extension mm_profdata.", "quantifier": "every path", "why_tests_cant": "path syntax corner cases", "anchors": ["measureme/src/profiler.rs: with_counter", "analyzeme/src/profiling_data.rs: ProfilingData::new", "summarize/src/main.rs: process_results"]}
{"id": "C45", "title": "CPU model detection", "statement": "Detection is a total function of the cpuid words; the fields are extracted as the vendors document, every Intel/AMD family and model is classified as documented (no model twice), and interrupt counting is refused exactly for CPUs without the documented event.", "quantifier": "all cpuid register values", "why_tests_cant": "2^64 register combinations", "anchors": ["measureme/src/counters.rs: CpuModel::detect, irqs_counter_config"]}
{"id": "C46", "title": "Interval containment is a partial order consistent with recording", "statement": "contains is reflexive on intervals, transitive, antisymmetric on time spans; instants and integers contain nothing; a payload contains another iff its start is not later and its end not earlier (an instant at the end included, where Timestamp::contains is half-open); recordings made with properly nested guards and a monotone counter satisfy the nesting condition needed by the analyses.", "quantifier": "all payloads; all guard programs", "why_tests_cant": "arbitrary programs", "anchors": ["decodeme/src/event_payload.rs: EventPayload::contains", "measureme/src/profiler.rs: TimingGuard"]}
{"id": "C47", "title": "String expansion terminates", "statement": "Expansion terminates for every table in which references go to strings allocated earlier or virtual ids mapped to such strings; it does not terminate for cyclic virtual mappings, which the API permits.", "quantifier": "every table", "why_tests_cant": "non-termination cannot be tested", "anchors": ["decodeme/src/stringtable.rs: to_string, write_to_string"]}
{"id": "C48", "title": "Splitter acceptance", "statement": "split_streams succeeds exactly on concatenations of well-formed pages and panics on everything else, and then splits and concatenates: split(a ++ b) is the tag-wise append of split a and split b.", "quantifier": "all byte strings", "why_tests_cant": "arbitrary inputs", "anchors": ["measureme/src/serialization.rs: split_streams"]}
{"id": "C49", "title": "Old-format events are converted faithfully", "statement": "Converting a v8 event, lightweight event or metadata to the current types preserves every field.", "quantifier": "all values", "why_tests_cant": "arbitrary inputs", "anchors": ["analyzeme/src/file_formats/v8.rs"]}
{"id": "C50", "title": "UTF-8 discipline", "statement": "The byte-level validity check used by the decoders accepts exactly the encodings of sequences of Unicode scalar values; valid strings never contain the bytes FE and FF, are closed under concatenation, and lossy decoding is the identity on them and on every other byte string replaces each maximal ill-formed subpart by U+FFFD.", "quantifier": "all byte strings", "why_tests_cant": "arbitrary inputs", "anchors": ["decodeme/src/stringtable.rs: from_utf8, from_utf8_lossy", "measureme/src/stringtable.rs: module documentation"]}
{"id": "C51", "title": "Diff table exclusion", "statement": "The diff tables show exactly the rows whose label contains none of the --exclude strings, in the order of the diff.", "quantifier": "every diff result and exclusion list", "why_tests_cant": "arbitrary labels and patterns", "anchors": ["summarize/src/main.rs: diff"]}
{"id": "C52", "title": "Counters are selected by name", "statement": "Counter::by_name gives exactly the counter whose documented name is given and rejects every other string, the names are distinct, each counter opens the documented hardware events, and its description is JSON that names it.", "quantifier": "all strings, all counters, every CPU", "why_tests_cant": "arbitrary names", "anchors": ["measureme/src/counters.rs: Counter::by_name, describe_as_json"]}
{"id": "C53", "title": "Consistent reads of the shared counter page", "statement": "If the kernel updates the page only between an odd and the next even lock value, a read that starts outside an update returns fields of one consistent state, as does any read when updates run only on the same processor; a read that starts inside an update on another processor can return torn fields, since the parity of the lock is not checked (a defect).", "quantifier": "every schedule of page updates between the individual reads", "why_tests_cant": "needs interleavings with the kernel", "anchors": ["measureme/src/counters.rs: access_mmap_page_with_seqlock"]}
{"id": "C54", "title": "Storage that runs full", "statement": "Whatever the capacity of the storage and the interleaving, the file is always a sequence of complete pages followed by at most a proper prefix of one page, and the streams in those pages are prefixes of what the calls wrote; no data is lost silently: if no call panics then everything is as on unlimited storage; and no call fails while everything fits. A call that panics (for lack of space, or in its callback) blocks nobody: the calls in progress can always be completed, and at no moment are two threads inside the same sink or writing to the storage. But if a panic for lack of space is caught, space becomes available and recording goes on, the torn page stays inside the file and the whole file becomes unreadable (a defect).", "quantifier": "every capacity, every interleaving of calls, every residue of the interrupted call", "why_tests_cant": "needs the device to fill up at every possible point", "anchors": ["measureme/src/serialization.rs: SharedState::write_page, StdWriteAdapter, SerializationSink::flush"]}
{"id": "C55", "title": "Building profiles in memory", "statement": "A program of nested interval, instant and integer calls on a ProfilingDataBuilder gives a profile with exactly the events of the program in order of recording (what an interval's closure records before the interval), with the given kinds, labels, arguments, thread ids and times, starting at the Unix epoch with command \"test cmd\"; it panics if and only if some interval ends before it starts or some value does not fit into 48 bits (intervals: at most 0xFFFFFFFFFFFD).", "quantifier": "every program of nested calls", "why_tests_cant": "arbitrary nesting and texts", "anchors": ["analyzeme/src/profiling_data.rs: ProfilingDataBuilder"]}
{"id": "C56", "title": "From timing guards to the summary", "statement": "If every thread uses timing guards in nested scopes under a thread id of its own, then whatever the interleaving the finished profile opens, shows the recorded events, and the analysis does not panic and gives one row per label with every column as documented.", "quantifier": "every number of threads, programs, interleavings", "why_tests_cant": "composition of recording, storing, decoding and analysing", "anchors": ["measureme/src/profiler.rs", "analyzeme/src/analysis.rs: perform_analysis", "analyzeme/src/profiling_data.rs"]}
{"id": "C57", "title": "Analysis results survive the JSON file", "statement": "The results of every successful analysis, written by summarize summarize --json, are a UTF-8 RFC 8259 document which the program's own reader (used by summarize diff on .json files and for metadata) reads back to exactly the same results; and that reader accepts exactly the RFC 8259 documents (of the supported number range), assigning each its unique value, and never panics whatever the file contains. A file is accepted as results exactly when it is such a document with every field exactly once and of its type and range (unknown fields ignored, arrays of the fields in order accepted as well), and then its contents are those fields.", "quantifier": "all event lists and results, all byte strings", "why_tests_cant": "arbitrary labels, sizes and byte strings", "anchors": ["summarize/src/main.rs: write_results_json, process_results", "analyzeme/src/analysis.rs: Results", "analyzeme/src/profiling_data.rs: Metadata"]}
{"id": "C58", "title": "The crox output is one JSON array", "statement": "The file crox writes for any set of profiles is UTF-8 and one JSON array whose elements are exactly the objects of the selected events and of the process metadata with the documented keys, whatever the texts contain; and no proper prefix of the file (crox interrupted while writing) is a JSON document.", "quantifier": "all profiles, all interruption points", "why_tests_cant": "arbitrary texts; every crash point", "anchors": ["crox/src/main.rs: main, Event, generate_thread_to_collapsed_thread_mapping"]}
{"id": "C59", "title": "The folded stacks can be read back", "statement": "If no label contains a line feed, the text written by stack_collapse, read as lines 'stack count', says exactly the collapsed stacks, in whatever order they are written; if moreover no label contains a semicolon, the frames of each line are rustc and the labels of the enclosing events from the outermost to the event. The lines flamegraph hands to inferno say exactly the collapsed stacks whatever the labels. With such characters in labels the text of stack_collapse is ambiguous, as labels are not escaped: a line feed adds stacks that were never recorded and a semicolon looks like nesting (a defect).", "quantifier": "all event lists and orders of the hash map", "why_tests_cant": "arbitrary labels and iteration orders", "anchors": ["stack_collapse/src/main.rs: main", "flamegraph/src/main.rs: main", "analyzeme/src/stack_collapse.rs: collapse_stacks"]}
{"id": "C60", "title": "Percentages of a diff", "statement": "The change percentages of a diff row are, for a query in both profiles with a non-zero base time, the exact relative change up to a relative error of 2^-50, with the exact sign, never below -100 and exactly -100 if the new time is zero; -100 for a query that vanished; +inf for a new query or a zero base time; and NaN (not 0) for a query whose time is zero in both profiles.", "quantifier": "all pairs of results, all durations", "why_tests_cant": "floating-point rounding on arbitrary values", "anchors": ["summarize/src/diff.rs: percentage_change, invert_query_data, query_data_as_diff"]}
{"id": "C61", "title": "Percentages and threshold of a summary", "statement": "The summary is refused unless the threshold is between 0 and 100 or NaN; the percentage of a row is its exact share up to a relative error of 2^-50, between 0 and 100 if the self time is at most the total, exactly 100 for the whole, and monotone; the early exit of the printing loop drops exactly the rows whose percentage is below the threshold (none for NaN, 0 or a total of zero); and the printed sum is the sum of the shares of the shown rows up to a relative error of (n+8)*2^-52.", "quantifier": "all results, all binary64 thresholds", "why_tests_cant": "floating-point rounding and an early exit", "anchors": ["summarize/src/main.rs: summarize"]}
{"id": "C62", "title": "Bounded loss and durable flushes", "statement": "Whenever the process dies, the complete pages in the file contain, of every stream on which no call is in progress, everything but at most the last 256 KiB of what was written to it; and once a flush or a drop of a sink has returned, everything that had taken effect on its stream before that call was made is in the complete pages of the file, whatever other threads do.", "quantifier": "all schedules of any number of threads, all crash points", "why_tests_cant": "crash points times interleavings cannot be enumerated, and losing data after a flush shows only when the process really dies", "anchors": ["measureme/src/serialization.rs: SerializationSink::write_atomic, write_bytes_atomic, StdWriteAdapter::flush, Drop"]}
{"id": "C63", "title": "The file of summarize diff --json", "statement": "summarize diff --json writes one JSON document in UTF-8: one object for every activity label of either profile, in order of decreasing magnitude of the self time change, with exactly the differences of its times and counts and its two percentages (null when a percentage is not finite), one object for every artifact, in order of decreasing size change, and the exact difference of the total times; --exclude has no effect on it. The file can be read back as diff results, with the same contents, when every activity of the second profile is also in the first one with non-zero times; otherwise (an activity is new, or took no time before) it can never be read back, because null is not a number.", "quantifier": "all pairs of results that fit in 64 bits, all iteration orders of the hash sets, all excludes, every printer and parser of f64 that agree on the values printed", "why_tests_cant": "labels, values and hash set orders are unbounded; the unreadable files only appear with activities new in the second profile", "anchors": ["summarize/src/main.rs: diff, write_results_json, process_results", "summarize/src/diff.rs: DiffResults, QueryDataDiff, SignedDuration"]}
{"id": "C64", "title": "Printed durations", "statement": "A duration printed without a precision (the total cpu time, every cell of the diff table) is exact: a decimal number in the largest of ns, us, ms, s that fits, no digit lost and none superfluous, so that different durations have different texts; printed with a precision (the cells of the summary) it is the nearest number with that many decimal places. A signed duration shows its sign and its exact magnitude whatever precision is asked for.", "quantifier": "all durations of any number of nanoseconds, all precisions, both ways in which versions of the standard library round ties", "why_tests_cant": "all durations: carries from rounding and unit boundaries occur at few of 2^64 values", "anchors": ["summarize/src/main.rs: summarize, diff", "summarize/src/diff.rs: Debug for SignedDuration"]}
{"id": "C65", "title": "What summarize prints", "statement": "The activity table that summarize prints has, below the header, one row for each activity that is not below the percentage, in order of decreasing self time, and every cell of it is right: times to two decimal places, counts exactly, the percentage of the total time within 0.0005 plus a relative 2^-50 (NaN or inf when the total time is zero); the total cpu time is exact; the line about the filtered results appears exactly when the percentage given is not zero and is within 0.0005 plus (n+8)/2^52 (relative) of the exact sum over the n rows shown; the artifact table shows every artifact size exactly.", "quantifier": "all results an analysis can yield, all percentages given", "why_tests_cant": "unbounded numbers of rows with all values and roundings", "anchors": ["summarize/src/main.rs: summarize"]}
{"id": "C66", "title": "What summarize diff prints", "statement": "summarize diff prints one row for every activity of either profile whose label contains none of the excluded strings, in order of decreasing magnitude of the self time change: exact signed differences of the times and counts and percentages within 0.005 plus a relative 2^-50, whose sign is that of the change (-100.00% for an activity that is gone, +inf% for one that is new or took no time before, NaN% if it took no time in either); then the exact signed difference of the totals; then one row with the exact size change for every artifact not excluded, in order of decreasing change.", "quantifier": "all pairs of results that fit in 64 bits, all excludes, all iteration orders of the hash sets", "why_tests_cant": "unbounded numbers of rows with all values, orders and roundings", "anchors": ["summarize/src/main.rs: diff", "summarize/src/diff.rs: calculate_diff"]}
{"id": "C67", "title": "What summarize aggregate prints", "statement": "For single-threaded profiles in time order that show the same events, summarize aggregate prints four tables (smallest and largest durations, smallest and largest variances), each with its number of rows in the heading. Each row shows its duration exactly in nanoseconds, or half its variance: exactly, down to the half nanosecond, for a spread below 2^53 ns, and with a relative error below 2^-50 otherwise. If only one interval has that value the row names it: the event itself, or the event it is in and the neighbouring event it is before or after, or the two events it is between, every event with its kind (unless it is a query or a generic activity), label and arguments; otherwise it says how many intervals have that value and which percentage of all intervals that is, within 0.005 plus a relative 2^-50.", "quantifier": "all lists of profiles with the same event sequence, all timings, both ways of rounding ties, every f64 printer that yields a shortest text that reads back", "why_tests_cant": "unbounded event sequences and nestings, all timings and roundings", "anchors": ["summarize/src/aggregate.rs: aggregate_profiles, EventDescription"]}
{"id": "C68", "title": "Reading strings from any table", "statement": "Whatever bytes the string data and the string index of a file contain, reading a string by its id gives exactly what the documented encoding says: values and references up to the terminator, invalid UTF-8 replaced by U+FFFD, '<unknown>' for an id without an entry, '<invalid>' for a value that does not end, a panic when it runs over the end of the data; the last index entry for an id counts; it recurses without end exactly when the encoding gives no finite text. to_string gives the same as write_to_string, except that it panics when no terminator byte follows and that it returns only the referenced string in the short-cut case of C15.", "quantifier": "all string data, all indices, all ids", "why_tests_cant": "The table is arbitrary data read from disk; only a proof over all byte strings covers truncated, overlapping, cyclic and ill-encoded strings.", "anchors": ["decodeme/src/stringtable.rs: StringRef::to_string, StringRef::write_to_string, StringRef::get_addr, decode_string_ref_from_data", "measureme/src/stringtable.rs: module documentation"]}
{"id": "C69", "title": "Opening any file", "statement": "For every contents of the file, opening a profile gives exactly one of: a decoder holding the file's event, string and index streams and the metadata; the decoder of the previous format for version 8; or an error with a precise text (file too short, wrong magic bytes, wrong version, missing stream, bad header of a stream, unreadable metadata JSON), checked in that order; it panics exactly when the pages are torn, the index is not a multiple of 16 bytes or reading the metadata string panics. When the file does not exist the error names it, and says that the data is out-dated exactly when one of the three files of the old format exists. Defect: files of the versions 0 to 7 are also reported as too new.", "quantifier": "all file contents, all paths, all file systems", "why_tests_cant": "Damaged and foreign files are arbitrary data; tests try a few.", "anchors": ["analyzeme/src/profiling_data.rs: ProfilingData::new, ProfilingData::from_paged_buffer, ProfilerFiles::new", "decodeme/src/lib.rs: read_file_header, EventDecoder::new, EventDecoder::from_separate_buffers", "measureme/src/file_header.rs: verify_file_header", "decodeme/src/stringtable.rs: StringTable::new"]}
{"id": "C70", "title": "Reading the events of any file", "statement": "Whatever bytes the event stream and the string table of a file contain, the number of events is the length of the stream divided by 32 (a panic if it is no multiple), and the i-th event is what its 32 bytes say: the thread, the payload (an instant when the second number is the largest 48 bit number, an integer for the one before it, else an interval, relative to the start of the session), the kind, and the label and arguments read from the text of its id up to the first malformed argument ('<parse error>' when the label is malformed). Decoding panics exactly when the index is beyond the end or reading the id or the kind string panics; the iteration gives these events in order.", "quantifier": "all event streams, string tables, metadata and indices", "why_tests_cant": "Event streams are arbitrary data read from disk; a proof over all bytes covers truncated and ill-formed events.", "anchors": ["decodeme/src/lib.rs: EventDecoder::num_events, EventDecoder::decode_full_event, EventDecoder::decode_lightweight_event", "decodeme/src/event.rs: parse_event_id", "measureme/src/raw_event.rs: RawEvent::deserialize", "analyzeme/src/profiling_data.rs: ProfilingData::iter_full"]}
{"id": "C71", "title": "From timing guards to the other tools", "statement": "If every thread uses timing guards in nested scopes under a thread id of its own, then whatever the interleaving the finished profile opens and shows the recorded events, and for them stack_collapse does not panic (fewer than 2^16 threads) and prints for each stack the self time of the events with that stack, the totals adding up to the life times of the threads; crox does not panic and writes one record for every interval that is long enough; mmview prints every event of the wanted thread in order.", "quantifier": "all programs of guards and recording calls, all numbers of threads, all interleavings, all tool options", "why_tests_cant": "Concurrency between recording threads and composition of all stages; tests exercise single runs.", "anchors": ["measureme/src/profiler.rs: TimingGuard", "analyzeme/src/stack_collapse.rs: collapse_stacks", "crox/src/main.rs: main", "mmview/src/main.rs: main"]}
{"id": "C72", "title": "The tools and the file system", "statement": "Run on any file system, whatever the files contain, each tool comes to an end (success, an error, a panic or an overflow of the stack), always the same except for crox; it changes no file except its one documented output (summarize --json and diff --json: the prefix with .json; stack_collapse: out.stacks_folded; flamegraph: rustc.svg; mmedit: the file with .truncated.mm_profdata; crox: chrome_profiler.json; the others none), so no tool but mmedit ever changes a profile and mmedit not the one it reads; a tool that does not succeed changes nothing, except flamegraph when inferno fails, and crox. An input that cannot be opened (or, for diff, a file of results that cannot be read) makes the tool end with the reason as its error, printing nothing. The file written by summarize --json, copied to a file called json, can stand for the profile on either side of a diff with the same result. Defect: crox creates its output before it opens its inputs, so when an input is missing or unreadable the previous chrome_profiler.json is gone and what is left is no JSON document.", "quantifier": "all tools, all arguments, all file systems and file contents, all endings of the run (success, error, panic)", "why_tests_cant": "Tests run a tool on a few files; that nothing else is touched, in particular on failure, is about every input.", "anchors": ["summarize/src/main.rs: summarize, diff, aggregate, process_results, write_results_json", "crox/src/main.rs: main", "mmview/src/main.rs: main", "mmedit/src/main.rs: main, truncate", "stack_collapse/src/main.rs: main", "flamegraph/src/main.rs: main"]}
{"id": "C73", "title": "Only what is shown has to be readable", "statement": "Of a profile in which some events have damaged strings, mmview with a thread id shows the events of that thread exactly if the strings of that thread's events can be read; stack_collapse and flamegraph need the strings of intervals only; crox needs only those of the intervals that are long enough to be exported, and the documents it can write are those of the events; if one of the needed events cannot be read, mmview crashes (or overflows the stack). Whatever a file contains, all texts of events that can be read are valid UTF-8.", "quantifier": "all file contents, all thread ids, all minimum durations, all sets of damaged events", "why_tests_cant": "Damage can be anywhere in a file; the claim is about each combination of damage and option.", "anchors": ["analyzeme/src/profiling_data.rs: ProfilingData::iter, ProfilingData::to_full_event", "mmview/src/main.rs: main", "analyzeme/src/stack_collapse.rs: collapse_stacks", "crox/src/main.rs: main", "decodeme/src/stringtable.rs: StringRef::to_string", "decodeme/src/event.rs: parse_event_id"]}
{"id": "C74", "title": "From timing guards to what the programs print", "statement": "If every thread of a program uses timing guards in nested scopes under a thread id of its own, then whatever the interleaving, the tools run on the finished file succeed, and print what the recorded events add up to: summarize the table of times and counts (or an error for a threshold that is no percentage), diff of two such recordings the exact differences of each label's numbers, mmview the events of the wanted thread in order, stack_collapse one line per stack with its self time adding up to the life times of the threads, flamegraph the image inferno makes of exactly these lines, aggregate (of several recordings with one recording thread each and the same sequence of points) the four tables over the exact minima and spreads, crox one JSON document with an object for each interval that is long enough.", "quantifier": "all programs of guards and recording calls, all numbers of threads, all interleavings, all tool options, all file systems that contain the finished file", "why_tests_cant": "Concurrency between recording threads, and the composition of recording, file format, reading, analysis and printing; tests exercise single runs.", "anchors": ["measureme/src/profiler.rs: TimingGuard", "measureme/src/serialization.rs: SerializationSink", "analyzeme/src/profiling_data.rs: ProfilingData::new", "analyzeme/src/analysis.rs: perform_analysis", "summarize/src/main.rs: summarize, diff, aggregate", "mmview/src/main.rs: main", "stack_collapse/src/main.rs: main", "flamegraph/src/main.rs: main", "crox/src/main.rs: main"]}
{"id": "C75", "title": "What is left when writing an output file fails", "statement": "When writing to the output fails at some point (full disk, i/o error), the output file of crox, stack_collapse, summarize --json and mmedit holds a first part of what should have been written and no other file changes; no error is reported unless a write failed; every run has its counterpart on every device; with a device that works the run is complete and successful. mmedit reports every failure. The other tools do not: they report success although up to the last 8192 bytes are missing (the buffered writer is flushed only when it is dropped, and errors are then ignored); on a full disk they report success and leave an empty file whenever the whole output is shorter than 8192 bytes.", "quantifier": "all outputs, all ways they are cut into pieces, all sequences of complete, partial, interrupted and failing writes", "why_tests_cant": "Needs a device that fails at a chosen byte; the claim is about every point of failure.", "anchors": ["crox/src/main.rs: main", "stack_collapse/src/main.rs: main", "summarize/src/main.rs: write_results_json", "mmedit/src/main.rs: main"]}
{"id": "C76", "title": "The full event for an index", "statement": "For every profile that can be opened, asking for the full event of a lightweight event returns the event at its index of the iteration over full events, whatever its other fields are; for an index at or beyond the number of events the program panics if it was compiled with overflow checks. Without them (a defect) an index i + k * 2^59 wraps around and silently returns event i; all other indices that are too large panic.", "quantifier": "all files, all indices of 64 bits, all byte orders, both overflow settings", "why_tests_cant": "Indices near 2^59 are not reachable with files in a test, and the claim is about every index.", "anchors": ["analyzeme/src/profiling_data.rs: ProfilingData::to_full_event, ProfilingData::iter, ProfilingData::iter_full", "decodeme/src/lib.rs: EventDecoder::decode_full_event, EventDecoder::decode_lightweight_event, event_index_to_addr, EventDecoder::num_events", "decodeme/src/lightweight_event.rs: LightweightEvent"]}
{"id": "C77", "title": "Messages about malformed event ids", "statement": "When an event id is not in the grammar, reading the event prints exactly one message to stderr, about the first piece between separators that is not well-formed: that it is empty (with the byte position where it should be), or that it contains a control character (with the position of the piece's end), and the whole text; nothing is printed for event ids in the grammar. Reading all events of a file prints these messages in the order of the events, each once; if an event cannot be read, those of the events before it and at most the one about its own event id.", "quantifier": "all event id texts, all files, all positions of malformed ids and of damaged strings", "why_tests_cant": "Positions and texts for every input, and the order of output and failure.", "anchors": ["decodeme/src/event.rs: parse_event_id, Parser::err, Parser::parse_separator_terminated_text, Parser::parse_arg", "decodeme/src/lib.rs: EventDecoder::decode_full_event", "analyzeme/src/profiling_data.rs: ProfilingData::iter_full"]}
{"id": "C78", "title": "Several sinks on one storage", "statement": "A builder can be asked for any number of sinks, also for several with the same tag. Whatever their number and tags, every sink behaves as if it were alone: its calls take effect one after the other, none panics, and an address returned is the number of bytes written to this sink before. Once sinks are dropped the file consists of whole pages, each with the tag of the sink that wrote it, and the pages of a dropped sink hold exactly what was written to it, in order; a reader gets for each tag the pages with that tag one after the other. Whenever the process dies, the file holds whole pages and at most one incomplete one, those of each sink a prefix of what was written to it. If no other sink with the same tag is used, addresses locate the data in the reader's stream. If all writes to sinks with a tag fit into a page, as events do, the reader's stream for the tag is made of whole writes, all of them, those of each sink in order. But (a trap) with two sinks of the same tag the addresses do not locate the data: both count from 0, so the strings of two string sinks would be confused.", "quantifier": "all numbers of sinks and assignments of tags, all calls, all interleavings of threads, all crash points", "why_tests_cant": "The merge order of the pages depends on the schedule, and the number of sinks and writes is unbounded.", "anchors": ["measureme/src/serialization.rs: SerializationSinkBuilder::new_sink, SerializationSink, SharedState, write_page, split_streams"]}
{"id": "C79", "title": "Creating and using a counter on a machine", "statement": "Asking for a counter by name either gives a counter or an error with a text. A name that is no counter's is refused with a text naming it. The wall clock always works. A hardware counter is refused, with a text that says why, on a processor whose vendor is not UTF-8 or unknown or whose family does not exist; otherwise it works exactly if every event it needs (instructions; interrupts, which depends on the processor and does not exist on Intel before Sandy Bridge; r0420) is granted by the kernel with a page that allows rdpmc, names a register and a width of 48 bits, and else the text describes the first event that is not. Once created, as long as the kernel keeps the events in the registers and the registers stay in range, the counter shows the instructions since it was created (minus the interrupts or r0420 events), modulo 2^64, and the wall clock the nanoseconds elapsed. Warnings appear, once each, exactly if the processor is unknown (with its family and model), if on a Zen or unknown AMD processor the SpecLockMap event can be opened and changes, and if r0420 is asked for on anything but a known Zen. On other platforms the wall clock works and hardware counters are refused with a text listing what is not supported. Exceptions: the error number in the text for a refused event is the negated return value of perf_event_open, so with the usual system call wrapper it is always 1 (not permitted), whatever the reason; and if the kernel moves the event to another register the counter goes on reading the old one.", "quantifier": "all counter names, processors, answers of the kernel, register and clock histories, platforms", "why_tests_cant": "needs particular processors, kernels and permissions; the values depend on what the hardware does at every moment", "anchors": ["measureme/src/counters.rs: Counter::by_name, since_start", "measureme/src/counters.rs: hw::Counter::new, with_type_and_hw_id, read", "measureme/src/counters.rs: hw::CpuModel::detect, irqs_counter_config", "measureme/src/counters.rs: hw (other platforms)"]}
{"id": "C80", "title": "Starting a profiler on a file system", "statement": "Starting a profiler at a path makes the missing directories of that path and creates one file, the path with the extension mm_profdata; whatever the outcome, nothing else on the file system changes, and directories are only added. If every directory of the path exists or can be made, the path is not a directory and the system lets the file be created, the arguments of the process are Unicode and the clock is not before 1970, and no write fails, a profiler is returned, and only then; its file then contains exactly the top-level header and the pages its sinks have handed over, with a metadata record of this process as the first string. If the file cannot be created, an error is returned and a file of that name is untouched. If a write of the header fails, an error is returned and the file contains a proper prefix of the header: an existing profile of that name is already destroyed. It panics instead of returning an error: for the empty path and for the root, for arguments that are not Unicode and for a clock before 1970 (leaving a file that no reader can open), and when writing a metadata record larger than a page fails.", "quantifier": "every file system, path, device, process, counter", "why_tests_cant": "the outcomes depend on the whole file system and on each write", "anchors": ["measureme/src/profiler.rs: Profiler::new, with_counter", "measureme/src/serialization.rs: SerializationSinkBuilder::new_from_file"]}
{"id": "C81", "title": "Command lines of the tools", "statement": "A command line is accepted exactly when it is a sequence of words, flags (--flag) and options with a value (--opt=v, --opt v, -cv, -c=v, -c v, where a value in its own argument does not look like an option), possibly followed by -- after which everything is a word, and no word is empty, there are not too many words, every value can be read and no flag or option other than --exclude is given twice; it then has one meaning. mmview takes one file and -t/--thread-id, a decimal number below 2^32 (a leading + is allowed, and -0 means 0); crox takes files, --dir, --collapse-threads and --minimum-duration (a decimal number below 2^128) and is refused without a file and without --dir; summarize aggregate takes any number of files, even none; summarize diff exactly two, --json and any number of -e/--exclude in order; summarize summarize exactly one, --json and -p/--percent-above, which is 0.0 when missing; mmedit truncate, flamegraph and stack_collapse exactly one file. The order of options and files does not matter as long as the order of the files, and of the values of one option, is kept. --help or -h before -- and before anything refused shows the help and starts nothing, and so do help and help NAME in place of a subcommand. A file name is split at slashes; repeated and trailing slashes and . components (other than a first one) do not matter.", "quantifier": "every tool, every list of arguments", "why_tests_cant": "unboundedly many command lines, and the spellings can be mixed in any order", "anchors": ["summarize/src/main.rs: AggregateOpt, DiffOpt, SummarizeOpt, Opt", "crox/src/main.rs: Opt", "mmview/src/main.rs: Opt", "mmedit/src/main.rs: Opt", "flamegraph/src/main.rs: Opt", "stack_collapse/src/main.rs: Opt"]}
{"id": "C82", "title": "A process that profiles itself, and the tools run on what it left", "statement": "A process starts a profiler at a path of a file system; its threads use timing guards in nested scopes, each under its own id; it ends. If no write fails and the file can be created this leaves exactly one profile there, keeps every other file, and whatever happens to other files afterwards, the tools started with a command line naming that path (with or without an extension) all agree on one order of the calls and do what they promise with exactly the events recorded: mmview prints them, summarize tabulates them, stack_collapse and flamegraph get one line per stack, crox exports them. Two such processes at different places, one after the other, can be compared with summarize diff in both directions. If one argument of the process has an apostrophe, a control or a non-ASCII character, every tool refuses the profile with an error instead (a defect, see C41).", "quantifier": "Every file system, path, process, interleaving of its threads, later state of the file system and command line", "why_tests_cant": "Composes starting on a file system, concurrent recording, decoding and the tools: no test covers all paths, schedules and invocations together", "anchors": ["measureme/src/profiler.rs: Profiler::with_counter", "analyzeme/src/profiling_data.rs: ProfilingData::new", "mmview/src/main.rs: main", "summarize/src/main.rs: main", "crox/src/main.rs: main", "stack_collapse/src/main.rs: main", "flamegraph/src/main.rs: main"]}
{"id": "C83", "title": "Thresholds written on the command line", "statement": "summarize summarize --percent-above T accepts T exactly if T is a decimal number (optional sign, digits with an optional decimal point, optional exponent) or one of the words inf, infinity, nan in either case with an optional sign, and uses the machine number nearest to it (ties to even, infinity beyond the range); without the option the threshold is 0. The program then runs exactly if that number lies between 0 and 100: the written value may be below 0 by at most 2^-1075 and above 100 by at most 2^-47; nan passes too, and the infinities do not. A number that is a machine number is read exactly, every machine number can be written, and what the tools display for a machine number is read back as the same number.", "quantifier": "every argument text, every machine number", "why_tests_cant": "There are infinitely many texts, and the rounding at the two ends depends on ties between neighbouring machine numbers.", "anchors": ["summarize/src/main.rs:38-47", "summarize/src/summarize.rs:12-17"]}
{"id": "C84", "title": "Machine numbers in the printed texts", "statement": "Every machine number that a program prints with {} is written as a decimal number without exponent that is read back (by f64::from_str) as exactly that number, infinities and nan included; for a finite one no decimal number with fewer digits is read back as it, none with as many digits is nearer to it, and seventeen digits always suffice; a negative number is a minus sign and the text of its absolute value. In the file of summarize diff --json a finite percentage is a JSON number with a fraction or an exponent that stands for the same decimal number and is read back exactly, so the file can be read back as the diff it was written from whenever its percentages are finite. The report of summarize aggregate says half of each spread as C67 states, with no assumption about how numbers are written, for profiles and for recorded runs.", "quantifier": "every machine number (zeros, subnormals, the largest, infinities, nan), every pair of summaries, every list of profiles", "why_tests_cant": "2^64 machine numbers, and shortest output is a statement about all other decimal numbers; the corner cases (ties, neighbours of powers of two and ten) are not met by samples", "anchors": ["summarize/src/aggregate.rs: aggregate_profiles (variances)", "summarize/src/diff.rs: percentage_change, QueryDataDiff, DiffResults", "summarize/src/main.rs: diff"]}
{"id": "C85", "title": "Printing to a standard output that fails", "statement": "On a standard output whose writes may take only part of the bytes, be interrupted or fail, what arrives from mmview or summarize aggregate is a first part of the text that the program prints when nothing fails, and no file changes; unless all of the text arrives the program panics, so that (other than for files, C75) success means that everything has arrived. If no write fails, everything arrives and the program ends as it does otherwise. If the reader goes away before the text is complete (mmview ... | head), at most what it took has arrived and the program panics. Every run on every standard output has such an outcome.", "quantifier": "all worlds, files, threads and number of profiles, all outcomes of all calls of write", "why_tests_cant": "the outcomes of the writes come from the operating system; tests write to a pipe that is read", "anchors": ["mmview/src/main.rs: main, print_event", "summarize/src/aggregate.rs: aggregate_profiles", "summarize/src/main.rs: main"]}
{"id": "C86", "title": "The crate's own end-to-end check", "statement": "testing_common: whatever number of threads (up to 2^32) and of stacks (as long as the numbers fit into 48 bits: up to 248 million; the tests use 10000), and however the threads are scheduled and the clock advances, nothing that the threads of generate_profiling_data do panics (no multiplication overflows, each stack yields twelve events, every recording call is accepted as long as the counter does not go backwards and stays below 2^48-2), and process_profiling_data then opens the file and passes, forwards and backwards. check_profiling_data accepts exactly a size hint equal to the expected number on both sides and, for each thread, the expected events in order, with the same kind, label and arguments, the same number for integer events, and only the same sort of time for the others. Both rest on the hash map yielding the same thread numbers in the same order whatever the order of insertion, which the check itself relies on.", "quantifier": "numbers of threads and stacks, schedules, counter values, lists of events, orders of the hash map", "why_tests_cant": "The tests run it with one and with eight threads, on the schedules that happen.", "anchors": ["analyzeme/src/testing_common.rs: generate_profiling_data, process_profiling_data, check_profiling_data, collect_events_per_thread, pseudo_invocation, pseudo_integer_event, pseudo_instant_event"]}
{"id": "C87", "title": "Opening the file a crash left", "statement": "A process dies while threads are recording, or after some of the sinks have been dropped, and leaves the first part of the bytes it had written. If the reader opens that file at all, then what it shows is a first part of the recording: the metadata is the profiler's, the events are the first ones in an order of the calls that respects real time (exact number, threads and payloads), the ids have the first mappings, the strings are those that are in the file to their last byte, and every event whose ids denote a text by these is shown with that text. A plain string that is not wholly in the file makes the reader panic, it is never shown cut. Exception (a defect): a composite string that is wholly in the file but refers through a mapping to one that is not is shown with the text \"<invalid>\" in its place, which nobody recorded.", "quantifier": "all metadata texts, schedules of any number of threads, calls, crash points, cuts of the file at any byte, sets and orders of dropped sinks", "why_tests_cant": "depends on the interleaving, on which pages were full when the process died and on the byte at which the file ends", "anchors": ["measureme/src/serialization.rs: write_page, Drop, split_streams", "measureme/src/profiler.rs: Profiler", "decodeme/src/lib.rs: EventDecoder::new, decode_full_event, decode_lightweight_event", "decodeme/src/stringtable.rs: StringTable::new, StringRef::to_string, write_to_string"]}
{"id": "C88", "title": "What mmview prints can be read back", "statement": "From the text that mmview prints for a profile in which no kind, label or argument contains a line feed, one can read off, event by event in the order of the file, the kind, the label, the thread, whether the event is an interval, an instant or an integer, its number or its times in whole microseconds since the earliest start, and the line of its arguments; two such profiles for which it prints the same text agree in all these. If no argument contains a comma the arguments themselves can be read off too; every event read from a file has a nonempty label and nonempty arguments whose only control characters are white space. Exceptions (defects): the arguments \"a,b\" and \"a\", \"b\" are printed alike, and a label with line feeds, which the grammar of event ids allows, can make one event print exactly as two.", "quantifier": "all lists of events, thread selections and printed texts", "why_tests_cant": "ambiguity of a text format concerns pairs of inputs that nobody thought of", "anchors": ["mmview/src/main.rs: main, print_event, system_time_to_micros_since", "decodeme/src/event.rs: parse_event_id"]}
{"id": "C89", "title": "Serializers that use the profiler", "statement": "The callback given to write_atomic (for StringTableBuilder::alloc the caller's SerializableString::serialize) may itself write to the sinks of the same file. If no callback for at most 256 KiB uses, however deeply, the sink it is called for, then such a call does exactly what a sequence of ordinary calls does, and the address it returns is that of its own bytes, which stay contiguous: those of a small write precede, those of a large write follow what its callback writes. With several threads, if the sinks can be ranked so that callbacks only use sinks of higher rank than those they are called for, no reachable state is deadlocked and in every fair schedule all calls return, even if some of them panic. Whenever all calls have returned, there is an order of all the calls made, with those made by callbacks, that respects the order of calls that do not overlap and in which, executed one after the other, the calls of the threads return what they did return, and the streams read from the file are what the calls write in this order. Exceptions (defects): a callback for at most 256 KiB that uses its own sink (a string whose serialization allocates another string) waits for ever for a mutex its own thread holds; and without a ranking two threads can wait for each other for ever.", "quantifier": "all callbacks making any calls, nested to any depth, all previous calls, any number of threads and schedules", "why_tests_cant": "depends on which mutexes are held when user code runs and on the interleaving", "anchors": ["measureme/src/serialization.rs: write_atomic, write_bytes_atomic, flush", "measureme/src/stringtable.rs: SerializableString, StringTableBuilder::alloc"]}
{"id": "C90", "title": "Analysing the file a crash left", "statement": "Any number of threads time with guards in nested scopes, each under its own thread number, and the process dies at any point (perhaps inside scopes, perhaps while the sinks are being dropped), leaving its file cut at any byte. If the file opens and all its events can be read, then the analysis does not panic and its table is the documented one (C25) of the events that reached the file: these are the first recorded ones in an order of the calls that respects real time, with their payloads and threads, and with their texts wherever the strings reached the file; an interval whose enclosing interval was lost counts as outermost. stack_collapse then gives the documented lines (C30), without overflow or underflow for fewer than 65536 threads, and mmview prints every wanted event (C38).", "quantifier": "all metadata texts, programs of nested scopes, schedules, crash points, cuts of the file, fewer than 2^40 events with artifact sizes that add up to less than 2^64", "why_tests_cant": "composes the concurrent recording, the crash, the reader and the analysis: the recording is nested only if no schedule, crash point or cut can separate an event from one that must precede it", "anchors": ["measureme/src/profiler.rs: TimingGuard", "measureme/src/serialization.rs: write_page, Drop, split_streams", "decodeme/src/lib.rs: EventDecoder", "analyzeme/src/analysis.rs: perform_analysis", "analyzeme/src/stack_collapse.rs: collapse_stacks", "mmview/src/main.rs: main"]}
{"id": "C91", "title": "The interleaving of the threads", "statement": "The summary and the collapsed stacks depend only on what each thread recorded and in which order, not on how the recordings of different threads were interleaved in the file: for two event lists in which every thread has the same events in the same order, of a nested recording, the analysis of both succeeds under the bounds of C26, the tables have the same rows (up to their order), the artifact sizes and the total time are equal, and stack_collapse gives the same lines with the same times. The order within a thread does matter. crox exports the same records for any order of the events of its files, whether or not threads are collapsed, and fails for one order only if it fails for all.", "quantifier": "all pairs of event lists that differ in the interleaving, any number of threads, iteration orders of hash maps", "why_tests_cant": "a test sees one interleaving; the analyses are loops over the whole file with a stack per thread", "anchors": ["analyzeme/src/analysis.rs: perform_analysis", "analyzeme/src/stack_collapse.rs: collapse_stacks", "crox/src/main.rs: main, generate_thread_to_collapsed_thread_mapping"]}
{"id": "C92", "title": "How a file is cut into pages does not matter", "statement": "A profile of the current version means its three streams, not the pages they are cut into: if two directories contain the same files, except that profiles of version 9 may hold the same streams in different pages (any sizes, any order between the streams), then opening any path gives the same profile or the same error text or a panic in both, every command of summarize, crox, flamegraph, mmview, stack_collapse and mmedit that can end in some way on the one can end in the same way on the other, having printed the same and written the same file with the same contents, and the same holds for every sequence of commands. The exceptions are a profile named json, which summarize diff would read as results, and (a defect) mmedit truncate: for the versions it accepts (7 and 8) it keeps the first page of events, so what it writes depends on where the writer happened to cut.", "quantifier": "all pairs of directories with profiles re-cut into pages, all paths, all commands and all sequences of commands; all two-page event streams of versions 7 and 8", "why_tests_cant": "Where pages end depends on how events, strings and threads interleave with the flushing of 256 KB buffers; tests see a single cut of the same streams.", "anchors": ["decodeme/src/lib.rs EventDecoder::new", "measureme/src/serialization.rs split_streams", "analyzeme/src/profiling_data.rs ProfilingData::new", "mmedit/src/main.rs truncate", "summarize/src/main.rs main", "crox/src/main.rs main"]}
{"id": "C93", "title": "Changes add up", "statement": "For any sequence of profiles whose numbers fit, every number that summarize diff reports for a label (times, self, blocked, load and hashing time, cache misses and hits, counts, artifact sizes, total time; 0 where it has no row) adds up: the changes from each profile to the next sum to the change from the first to the last, whatever labels appear or vanish in between. A diff reports zero everywhere exactly if the two profiles have the same numbers for every label. The rows do not depend on the order of the rows in the two profiles, nor, for nested recordings, on how the threads were interleaved in the two recordings.", "quantifier": "all sequences of profiles, labels, columns, hash map orders and interleavings", "why_tests_cant": "tests compare two fixed profiles; the reported change goes through unsigned and sign-and-magnitude types, missing rows and two hash maps", "anchors": ["summarize/src/diff.rs calculate_diff, SignedDuration, QueryDataDiff", "analyzeme/src/analysis.rs perform_analysis"]}
{"id": "C94", "title": "The order of the profiles given to summarize aggregate does not matter", "statement": "What summarize aggregate computes and prints, and whether it panics, depends only on which profiles are given: profiles in another order, or some of them given several times, have the same result, the same text and the same ending, provided all can be opened and read; whether all can be opened does not depend on the order either (which error is reported does: that of the first that cannot, C72).", "quantifier": "all lists of profiles, whether or not they are comparable, all orders and repetitions", "why_tests_cant": "the first profile plays a special role in the code (the others are compared with it) and tests give the profiles in one order", "anchors": ["summarize/src/aggregate.rs aggregate_profiles, AggregatedSampleIntervals", "summarize/src/main.rs aggregate"]}
{"id": "C95", "title": "When a recording started does not matter", "statement": "Everything the tools compute from a profile is relative: for two profiles that differ only in the start time in their metadata, reading fails equally or yields the same events with every time moved by the difference; summarize computes the same analysis and stack_collapse (and so flamegraph) the same stacks and counts, or panics equally; mmview prints the same text; summarize aggregate reports the same for profiles that each started at some other time; crox collapses the same threads onto each other. Only crox's records show absolute times: moved by a whole number of microseconds, every Complete record has its ts moved by exactly that and is otherwise the same, as long as both times are after the Unix epoch and fit.", "quantifier": "all profiles, event lists, time differences of any size and sign, overflow modes, hash map orders and crox options", "why_tests_cant": "a test's start time is whatever the clock said, and one fixed profile has one start time", "anchors": ["analyzeme/src/event_payload.rs Timestamp::from_raw_event", "analyzeme/src/analysis.rs perform_analysis", "analyzeme/src/stack_collapse.rs collapse_stacks", "mmview/src/main.rs main, system_time_to_micros_since", "summarize/src/aggregate.rs aggregate_profiles", "crox/src/main.rs generate_thread_to_collapsed_thread_mapping, Event"]}
{"id": "C96", "title": "Thread ids are only names", "statement": "Which ids the threads of a recording have does not matter to the analyses: if every thread id is replaced, different threads keeping different ids, summarize computes the same analysis and stack_collapse (and so flamegraph) the same stacks and counts, or panics equally, summarize aggregate reports the same for profiles whose threads were each renamed in their own way, and so does crox with --collapse-threads write the same records, whatever order its sorts and hash maps produce. Ids that are not kept apart do change the result.", "quantifier": "all event lists, all renamings of threads that keep different threads apart, overflow modes, lists of profiles", "why_tests_cant": "the ids are what the operating system hands out: a fixed profile has one choice of them", "anchors": ["analyzeme/src/analysis.rs perform_analysis", "analyzeme/src/stack_collapse.rs collapse_stacks", "summarize/src/aggregate.rs aggregate_profiles, SamplePoints", "crox/src/main.rs main, generate_thread_to_collapsed_thread_mapping"]}
{"id": "C97", "title": "Each tool only looks at its own events", "statement": "What an analysis does not look at cannot disturb it: summarize computes the same analysis for two recordings with the same intervals, cache hits and artifact sizes, whatever other instants and integer events they contain and whatever arguments their events have; stack_collapse and flamegraph look at nothing but the labels, times and threads of the intervals (not at their kinds); summarize aggregate ignores integer events; crox writes records for intervals only, and which threads it collapses depends only on the times and threads of intervals and instants. So profiles with events of kinds added later can still be analysed.", "quantifier": "all pairs of recordings that agree on what is looked at, overflow modes, hash map orders, options", "why_tests_cant": "unknown kinds are an open set: tests contain the kinds that exist", "anchors": ["analyzeme/src/analysis.rs perform_analysis", "analyzeme/src/stack_collapse.rs collapse_stacks", "summarize/src/aggregate.rs SamplePoints::new", "crox/src/main.rs main, generate_thread_to_collapsed_thread_mapping"]}
{"id": "C98", "title": "The threads add up", "statement": "Splitting a nested recording into any two groups of threads splits the analysis: every number that summarize reports for a label (times, self, blocked, load and hashing time, cache misses and hits, counts; 0 where it has no row) and the total time are the sums of what the two groups alone give, however their events were interleaved; so are the artifact sizes (modulo 2^64 where a build without overflow checks wraps), and the counts of stack_collapse line by line, including the gaps counted as rustc. If the whole is within the bounds of C26 and C30, so are the groups. So what a tool says about a thread never depends on the other threads.", "quantifier": "all nested recordings, all splits of their threads, labels, columns, stack lines, overflow modes and hash map orders", "why_tests_cant": "a test recording has a fixed set of threads; one map for all threads and one for all labels are updated in turn", "anchors": ["analyzeme/src/analysis.rs perform_analysis, PerThreadState", "analyzeme/src/stack_collapse.rs collapse_stacks, PerThreadState"]}
{"id": "C99", "title": "summarize and stack_collapse agree", "statement": "For every nested recording within the bounds of C30 that both tools analyse: the counts of all lines of stack_collapse add up to the total time of summarize; the self times of all rows of summarize and the count of the line rustc add up to it as well; and if no label contains a semicolon, the self time that summarize reports for a label is exactly what the lines with this label as their innermost frame count together (0 if there is no row, or no such line). So a flame graph and a summary of the same profile never contradict each other.", "quantifier": "all nested recordings, any number of threads, labels, overflow modes and hash map orders", "why_tests_cant": "two different programs compute self times in two different ways, each tested on its own", "anchors": ["analyzeme/src/analysis.rs perform_analysis", "analyzeme/src/stack_collapse.rs collapse_stacks"]}
{"id": "C100", "title": "summarize and crox agree", "statement": "For every list of events that crox can export (no reversed intervals, times a u64 of microseconds can express) and summarize can analyse, and the trace that crox writes without a minimum duration, under any thread mapping: for every label, summarize counts as many invocations, cache hits not included, as the trace has duration events with this name in categories other than IncrementalLoadResult and IncrementalResultHashing; as many misses as the trace has in Query and GenericActivity; the time it reports exceeds the durations of the trace's events outside IncrementalResultHashing, taken together, by less than one microsecond per event, and the blocked time likewise for QueryBlocked; and a label has a row exactly if it names an event of the trace or has cache hits (which are instants and not in the trace). With a minimum duration crox writes the same trace without the duration events that are shorter, and nothing else changes.", "quantifier": "all event lists (nested or not), labels, thread mappings, start times, overflow modes and hash map orders", "why_tests_cant": "all event lists; two programs that walk the events in opposite directions with different units", "anchors": ["analyzeme/src/analysis.rs: perform_analysis", "crox/src/main.rs: main, as_micros"]}
