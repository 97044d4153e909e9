{
 "claims": [
  {
   "property": "C01",
   "status": "proved",
   "theorems": [
    "c01_duration_roundtrip",
    "c01_duration_exact"
   ],
   "note": "all int64 nanosecond counts"
  },
  {
   "property": "C02",
   "status": "proved",
   "theorems": [
    "c02_time_roundtrip",
    "c02_time_exact"
   ],
   "note": "all times whose Unix second fits int64"
  },
  {
   "property": "C03",
   "status": "proved",
   "theorems": [
    "c03_text_exact",
    "c03_text_unique",
    "c03_time_text_exact"
   ],
   "note": "all durations; times whose scaled seconds fit int64"
  },
  {
   "property": "C04",
   "status": "proved",
   "theorems": [
    "c04_print_parse_duration",
    "c04_print_parse_time"
   ],
   "note": "all durations; times whose scaled seconds fit int64"
  },
  {
   "property": "C05",
   "status": "proved",
   "theorems": [
    "c05_parse_exactly",
    "c05_parse_with_unit",
    "c05_parse_with_unit_value"
   ],
   "note": "grammar in DurationSpec.parses"
  },
  {
   "property": "C06",
   "status": "proved",
   "theorems": [
    "c06_pretty_format"
   ],
   "note": "all normalised durations"
  },
  {
   "property": "C07",
   "status": "partial",
   "theorems": [
    "c07_in_range_exact_partial",
    "c07_refuted"
   ],
   "note": "the code violates this: every valid string denoting a value outside int64 nanoseconds is silently accepted as a different duration (c07_refuted); in range the value is exact"
  },
  {
   "property": "C08",
   "status": "proved",
   "theorems": [
    "c08_json_roundtrip"
   ],
   "note": "all well formed Go RPC metrics with printable, non zero times"
  },
  {
   "property": "C09",
   "status": "partial",
   "theorems": [
    "c09_nonzero_partial",
    "c09_refuted"
   ],
   "note": "the code violates this: the zero time always comes back as the Unix epoch (c09_refuted); every other printable time round trips"
  },
  {
   "property": "C10",
   "status": "proved",
   "theorems": [
    "c10_failed_conversion_changes_nothing",
    "c10_success"
   ],
   "note": "all metrics, well formed or not"
  },
  {
   "property": "C11",
   "status": "proved",
   "theorems": [
    "c11_convert_to_json"
   ],
   "note": "all metrics whose kind describes the value"
  },
  {
   "property": "C12",
   "status": "proved",
   "theorems": [
    "c12_tags_of_values",
    "c12_zero_value",
    "c12_nil_slice",
    "c12_domain",
    "c12_bits",
    "c12_classes"
   ],
   "note": "all type strings"
  },
  {
   "property": "C13",
   "status": "partial",
   "theorems": [
    "c13_exact_partial",
    "c13_floats_partial",
    "c13_supported_partial",
    "c13_refuted"
   ],
   "note": "the code violates this: every odd int64 between 2^52 and 2^53 comes back as its neighbour (c13_refuted), and so do negative durations; proved for all other exactly representable values of every type, times included, with and without fused multiply-add"
  },
  {
   "property": "C14",
   "status": "partial",
   "theorems": [
    "c14_positive_partial",
    "c14_refuted",
    "c14_bound_refuted"
   ],
   "note": "the code violates this for every negative duration, which comes back 1 ns larger (c14_refuted); proved for all durations from 0 to 2^51 ns"
  },
  {
   "property": "C15",
   "status": "proved",
   "theorems": [
    "c15_components",
    "c15_same_place",
    "c15_valid",
    "c15_print_read",
    "c15_concat"
   ],
   "note": "all byte strings"
  },
  {
   "property": "C16",
   "status": "proved",
   "theorems": [
    "c16_register_visible"
   ],
   "note": "every reachable registry state, including in the middle of other calls"
  },
  {
   "property": "C17",
   "status": "proved",
   "theorems": [
    "c17_path_in_use"
   ],
   "note": "every reachable state and every acceptable metric"
  },
  {
   "property": "C18",
   "status": "partial",
   "theorems": [
    "c18_failed_registration_partial",
    "c18_refuted"
   ],
   "note": "the code violates this: ErrWrongType/ErrWrongUnit/panics leave newly created directories, ErrPathInUse can assign the unit of a distribution (c18_refuted); no existing path changes and no metric appears"
  },
  {
   "property": "C19",
   "status": "proved",
   "theorems": [
    "c19_register_directory"
   ],
   "note": "every reachable state"
  },
  {
   "property": "C20",
   "status": "proved",
   "theorems": [
    "c20_get_directory"
   ],
   "note": "every reachable state"
  },
  {
   "property": "C21",
   "status": "proved",
   "theorems": [
    "c21_unregister_path"
   ],
   "note": "every reachable state"
  },
  {
   "property": "C22",
   "status": "proved",
   "theorems": [
    "c22_handle_is_path",
    "c22_empty_relative_path"
   ],
   "note": "every reachable state and live handle"
  },
  {
   "property": "C23",
   "status": "proved",
   "theorems": [
    "c23_removal",
    "c23_stays_unregistered",
    "c23_contents_invisible",
    "c23_stale_handle_silent"
   ],
   "note": "every interleaving; lookups from the root. Listings already in progress: see C57"
  },
  {
   "property": "C24",
   "status": "proved",
   "theorems": [
    "c24_abs_path",
    "c24_unique",
    "c24_directories"
   ],
   "note": "every reachable state"
  },
  {
   "property": "C25",
   "status": "proved",
   "theorems": [
    "c25_well_formed",
    "c25_one_path"
   ],
   "note": "any number of concurrent calls, every interleaving"
  },
  {
   "property": "C26",
   "status": "proved",
   "theorems": [
    "c26_one_winner",
    "c26_winner_visible",
    "c26_no_unregister"
   ],
   "note": "any number of concurrent calls, every interleaving"
  },
  {
   "property": "C27",
   "status": "proved",
   "theorems": [
    "c27_exact",
    "c27_deterministic",
    "c27_missing_path"
   ],
   "note": "quiescent: the heap does not change during the listing; other calls may be in progress"
  },
  {
   "property": "C28",
   "status": "partial",
   "theorems": [
    "c28_complete",
    "c28_no_path_twice",
    "c28_sound_partial",
    "c28_refuted"
   ],
   "note": "completeness and no duplicates proved for every interleaving; soundness only if the metric's directory is still registered at the end, otherwise the code violates it (c28_refuted)"
  },
  {
   "property": "C29",
   "status": "partial",
   "theorems": [
    "c29_between_partial",
    "c29_refuted"
   ],
   "note": "the code violates this: c29_refuted is a concrete execution whose listing matches no instant; while nobody unregisters the listing lies between the states at its beginning and end"
  },
  {
   "property": "C30",
   "status": "proved",
   "theorems": [
    "c30_no_update_while_held",
    "c30_update_before_visit",
    "c30_fresh",
    "c30_since_idle",
    "c30_exactly_once",
    "c30_only_for_visits"
   ],
   "note": "any number of requests and groups, every interleaving"
  },
  {
   "property": "C31",
   "status": "proved",
   "theorems": [
    "c31_read",
    "c31_stable",
    "c31_overlap"
   ],
   "note": "reads while the request holds the group; see C34 for text requests for one metric"
  },
  {
   "property": "C32",
   "status": "proved",
   "theorems": [
    "c32_own_reply",
    "c32_never_dies",
    "c32_lock_count",
    "c32_no_deadlock",
    "c32_all_finish"
   ],
   "note": "update functions terminate and do not use their own group"
  },
  {
   "property": "C33",
   "status": "proved",
   "theorems": [
    "c33_used",
    "c33_initial",
    "c33_quiet"
   ],
   "note": "every interleaving, including concurrent registrations"
  },
  {
   "property": "C34",
   "status": "partial",
   "theorems": [
    "c34_guarded_partial",
    "c34_json_rpc_listings_partial",
    "c34_refuted"
   ],
   "note": "the code violates this: text requests for one metric read the variable after closing their session (c34_refuted); proved for JSON and RPC singletons and all listings"
  },
  {
   "property": "C35",
   "status": "proved",
   "theorems": [
    "c35_unique",
    "c35_no_gaps"
   ],
   "note": "up to 2^64 groups (64 bit int)"
  },
  {
   "property": "C36",
   "status": "partial",
   "theorems": [
    "c36_regions_partial",
    "c36_refuted"
   ],
   "note": "the code violates this for distributions and lists registered under two paths (c36_refuted); proved for variables and callbacks"
  },
  {
   "property": "C37",
   "status": "proved",
   "theorems": [
    "c37_bucket",
    "c37_ranges"
   ],
   "note": "float64; histories shorter than 2^64"
  },
  {
   "property": "C38",
   "status": "proved",
   "theorems": [
    "c38_sum",
    "c38_live"
   ],
   "note": "float64; histories shorter than 2^64"
  },
  {
   "property": "C39",
   "status": "proved",
   "theorems": [
    "c39_exact",
    "c39_float"
   ],
   "note": "exact rational arithmetic and float64; an empty distribution reports 0 and keeps the rounding residue in Sum()"
  },
  {
   "property": "C40",
   "status": "proved",
   "theorems": [
    "c40_extremes",
    "c40_cumulative"
   ],
   "note": "float64, non-NaN values"
  },
  {
   "property": "C41",
   "status": "partial",
   "theorems": [
    "c41_exact_partial",
    "c41_never_past_partial",
    "c41_close_partial",
    "c41_few_partial",
    "c41_refuted"
   ],
   "note": "in float64 the code violates this: 0.9 added four times to a cumulative distribution has a median above the maximum (c41_refuted); proved in exact rational arithmetic, and for float64 that the computation never runs past the buckets, that for values of size up to 2^1020 and Count > 2 the median is off by no more than a 2^-50th of the greater of |Min| and |Max| (and 2^-1072), and that it is between Min and Max for one or two values of a cumulative distribution"
  },
  {
   "property": "C42",
   "status": "partial",
   "theorems": [
    "c42_generation_partial",
    "c42_refuted"
   ],
   "note": "the code violates this: an empty distribution reports generation 0 (c42_refuted); proved for every snapshot with Count > 0"
  },
  {
   "property": "C43",
   "status": "proved",
   "theorems": [
    "c43_registration",
    "c43_add",
    "c43_update_remove",
    "c43_api"
   ],
   "note": "every history of registrations and calls"
  },
  {
   "property": "C44",
   "status": "partial",
   "theorems": [
    "c44_unchanged_partial",
    "c44_api_partial",
    "c44_remove_partial",
    "c44_update_partial",
    "c44_refuted"
   ],
   "note": "the code violates this for values that are not present: Update leaves a bucket count and the time stamp changed (c44_refuted), Remove the time stamp; proved for every other panic, and exactly what changes otherwise"
  },
  {
   "property": "C45",
   "status": "proved",
   "theorems": [
    "c45_linearizable",
    "c45_snapshot",
    "c45_progress"
   ],
   "note": "every interleaving of the field accesses of any number of SetUnit, Add, Update, Remove, Snapshot, Sum and Count calls"
  },
  {
   "property": "C46",
   "status": "partial",
   "theorems": [
    "c46_exponential",
    "c46_linear",
    "c46_arbitrary",
    "c46_linear_refuted"
   ],
   "note": "every count and every non-NaN float64, overflow included; the code violates it in one corner: NewLinearBucketer(n, -Inf, +Inf) has NaN end points (c46_linear_refuted)"
  },
  {
   "property": "C47",
   "status": "partial",
   "theorems": [
    "c47_exact_partial",
    "c47_float_partial",
    "c47_close_partial",
    "c47_buckets",
    "c47_refuted",
    "c47_hangs_refuted"
   ],
   "note": "proved in exact rational arithmetic; in float64 proved to terminate with ascending end points for every lower except +Inf and the two smallest positive numbers (where it never returns, c47_hangs_refuted), and within relative error 2^-41 of the series between 2^-960 and 2^960; violated exactly: NewGeometricBucketer(1e-6, 1) starts above lower (c47_refuted)"
  },
  {
   "property": "C48",
   "status": "proved",
   "theorems": [
    "c48_new",
    "c48_change",
    "c48_new_immutable",
    "c48_change_immutable"
   ],
   "note": "every program of allocations, writes, NewList and Change calls by any goroutines; also for slices passed as immutable when the program does not write them"
  },
  {
   "property": "C49",
   "status": "proved",
   "theorems": [
    "c49_subType",
    "c49_elements",
    "c49_panics",
    "c49_new_panics",
    "c49_panic_changes_nothing"
   ],
   "note": "element types are compared as reported kinds, so []int64, []int and declared types with underlying type int64 are the same on 64 bit machines"
  },
  {
   "property": "C50",
   "status": "partial",
   "theorems": [
    "c50_documented_partial",
    "c50_exactly_partial",
    "c50_refuted",
    "c50_list_refuted"
   ],
   "note": "the code violates this for declared types (type Level string) other than integers of at least 32 bits, and for lists of them; proved for everything else, exactly characterised for variables and callbacks"
  },
  {
   "property": "C51",
   "status": "partial",
   "theorems": [
    "c51_left_out_partial",
    "c51_listing_partial",
    "c51_groups_partial",
    "c51_refuted",
    "c51_list_refuted"
   ],
   "note": "the code violates this for callbacks whose value changes between the check and the report (c51_refuted) and for lists (c51_list_refuted); proved for metrics that give the same value twice, which is the case for variables of groups (c51_groups_partial)"
  },
  {
   "property": "C52",
   "status": "proved",
   "theorems": [
    "c52_grouped",
    "c52_total",
    "c52_delete",
    "c52_no_digit"
   ],
   "note": "every string and every positive group size; a string without a digit makes it panic (never passed by the callers)"
  },
  {
   "property": "C53",
   "status": "proved",
   "theorems": [
    "c53_signed",
    "c53_unsigned"
   ],
   "note": "every int64 and uint64; also that the shown number is within 0.501 per cent, so 999999 may be shown as 1000 thousand"
  },
  {
   "property": "C54",
   "status": "proved",
   "theorems": [
    "c54_healthz",
    "c54_readiness",
    "c54_panics",
    "c54_progress"
   ],
   "note": "net/http routing is not modelled; the response is computed from the status read under the lock"
  },
  {
   "property": "C55",
   "status": "proved",
   "theorems": [
    "c55_agree"
   ],
   "note": "one state of registry and variables during a request; also for the HTML endpoint and for listings of a missing path"
  },
  {
   "property": "C56",
   "status": "partial",
   "theorems": [
    "c56_figures_partial",
    "c56_cpu_partial",
    "c56_refuted",
    "c56_stack_refuted"
   ],
   "note": "the code violates this: microseconds are counted as nanoseconds (c56_refuted) and the stack size is never copied, so that it stays 0 (c56_stack_refuted); proved: all other figures, from the last getrusage that succeeded, on Linux and Darwin, and the exact CPU times reported"
  },
  {
   "property": "C57",
   "status": "partial",
   "theorems": [
    "c57_not_reported_partial",
    "c57_refuted"
   ],
   "note": "the code violates the documentation for a listing already in progress when the directory is unregistered (c57_refuted); proved for listings that begin afterwards and for all lookups (C23)"
  },
  {
   "property": "C58",
   "status": "proved",
   "theorems": [
    "c58_calls_finish",
    "c58_no_infinite_call"
   ],
   "note": "every reachable state"
  },
  {
   "property": "C59",
   "status": "proved",
   "theorems": [
    "c59_together",
    "c59_linearizable"
   ],
   "note": "every interleaving of field accesses"
  },
  {
   "property": "C60",
   "status": "partial",
   "theorems": [
    "c60_readable_partial",
    "c60_refuted"
   ],
   "note": "the code violates this: functions with parameters and nil functions are accepted and panic whenever they are read; proved for all others"
  },
  {
   "property": "C61",
   "status": "proved",
   "theorems": [
    "c61_current"
   ],
   "note": "all values that can be read (C60)"
  },
  {
   "property": "C62",
   "status": "proved",
   "theorems": [
    "c62_html"
   ],
   "note": "floats and times are left to strconv and the time package"
  },
  {
   "property": "C63",
   "status": "proved",
   "theorems": [
    "c63_text"
   ],
   "note": "floats are left to strconv"
  },
  {
   "property": "C64",
   "status": "proved",
   "theorems": [
    "c64_time",
    "c64_seconds",
    "c64_from"
   ],
   "note": "with and without fused multiply-add"
  },
  {
   "property": "C65",
   "status": "proved",
   "theorems": [
    "c65_json",
    "c65_rpc",
    "c65_left_out"
   ],
   "note": "registry and variables do not change during a request"
  },
  {
   "property": "C66",
   "status": "partial",
   "theorems": [
    "c66_answers_partial",
    "c66_refuted"
   ],
   "note": "the code violates this: NaN in a distribution or a list turns the whole listing into an error page with status 200, and a list whose type is a declared slice of times or durations makes the handler panic; proved: a listing succeeds exactly when no metric below the path is of this kind"
  },
  {
   "property": "C67",
   "status": "partial",
   "theorems": [
    "c67_listing",
    "c67_lines_partial",
    "c67_refuted"
   ],
   "note": "the code violates this: strings and names are not escaped (c67_refuted: a line break in a string makes up a metric); proved: the body is the concatenation of the lines (c67_listing), and it can be read back when names have no space or line break, strings no line break, and strconv.FormatFloat emits none"
  },
  {
   "property": "C68",
   "status": "proved",
   "theorems": [
    "c68_total_memory"
   ],
   "note": ""
  },
  {
   "property": "C69",
   "status": "proved",
   "theorems": [
    "c69_defaults"
   ],
   "note": "initDefaultMetrics runs in init, without concurrent calls"
  },
  {
   "property": "C70",
   "status": "partial",
   "theorems": [
    "c70_flags_partial",
    "c70_refuted"
   ],
   "note": "the code violates this: of the flags cache and cache/size only the first is registered and the error is ignored (c70_refuted); proved when no flag's path is a prefix of another one's and nothing is in the way; without concurrent calls into the registry"
  },
  {
   "property": "C71",
   "status": "partial",
   "theorems": [
    "c71_links_partial",
    "c71_refuted"
   ],
   "note": "the code violates this: names are put into the link without encoding, so the link to a?b leads nowhere (c71_refuted) and the one to 100%25 to 100%; proved: the link works exactly when no name on the path contains ? or # or a percent sign followed by two hexadecimal digits, or is . or .."
  },
  {
   "property": "C72",
   "status": "proved",
   "theorems": [
    "c72_page",
    "c72_metric"
   ],
   "note": "what is shown, not the markup; floats and times as strconv and time print them"
  },
  {
   "property": "C73",
   "status": "proved",
   "theorems": [
    "c73_agree"
   ],
   "note": "for values of types that the program declares only path, description, unit and type"
  },
  {
   "property": "C74",
   "status": "partial",
   "theorems": [
    "c74_list_partial",
    "c74_get_partial",
    "c74_plain_partial",
    "c74_refuted"
   ],
   "note": "the code violates this: messages registers only the documented types with gob, so one metric of a declared type, like type Level string, closes the connection of everyone who lists it (c74_refuted); proved: the requests are answered exactly when the values have documented types, and always for programs that declare no types for metrics except integers of 32 bits and more"
  },
  {
   "property": "C75",
   "status": "partial",
   "theorems": [
    "c75_asked",
    "c75_accepted_partial",
    "c75_refuted"
   ],
   "note": "the code violates this: it only looks for the text gzip, so gzip;q=0 gets gzip (c75_refuted); proved: clients that ask for it get it, clients that do not mention it in the first header do not, and others only if they mention it to refuse it or as a part of another name"
  },
  {
   "property": "C76",
   "status": "partial",
   "theorems": [
    "c76_values_partial",
    "c76_integers_partial",
    "c76_lists_partial",
    "c76_refuted"
   ],
   "note": "the code violates this: ConvertToGoRPC does not undo what encoding/json does to numbers and lists (c76_refuted); proved: exact for bool, string, float64, time and duration; integers arrive as float64, lists of times and durations give an error, lists of bytes are base64 text"
  },
  {
   "property": "C77",
   "status": "partial",
   "theorems": [
    "c77_programs_partial",
    "c77_not_busy_partial",
    "c77_fresh_partial",
    "c77_refuted"
   ],
   "note": "the code violates this: text listings and HTML pages are written while the session is open, so as long as one such client does not read, everybody gets the old data of the groups it visited (c77_refuted); proved for JSON, RPC and text requests for one metric"
  },
  {
   "property": "C78",
   "status": "proved",
   "theorems": [
    "c78_cut",
    "c78_released",
    "c78_all_released"
   ],
   "note": "an update function that panics ends the process and is not considered"
  },
  {
   "property": "C79",
   "status": "partial",
   "theorems": [
    "c79_projection",
    "c79_stable",
    "c79_finishes_partial",
    "c79_own_group",
    "c79_refuted"
   ],
   "note": "the code violates this: an update function that registers an update function with its own group, e.g. to replace itself, or reads its own group, waits for the event loop that it runs in, and no request for the group is ever answered again (c79_own_group, c79_refuted); proved: when calls go downwards in some order of the groups everything finishes, and the other theorems about groups hold for all executions"
  },
  {
   "property": "C80",
   "status": "partial",
   "theorems": [
    "c80_groups",
    "c80_dist_partial",
    "c80_list_partial",
    "c80_dist_refuted",
    "c80_list_refuted"
   ],
   "note": "proved for groups; for distributions and lists the code violates this: the time is read before the lock is taken, so the later of two overlapping calls may be applied first (c80_dist_refuted, c80_list_refuted); proved: that is the only way in which a time stamp goes back"
  },
  {
   "property": "C81",
   "status": "partial",
   "theorems": [
    "c81_bucket_partial",
    "c81_refuted",
    "c81_value"
   ],
   "note": "proved for durations and end points below 2^52 ns (52 days); the code violates it for long ones, because float64 has 53 bits: with an end point at 2^62 ns, 2^62-1 ns is counted above it (c81_refuted); for all durations the float64 that is used is within a relative error of 2^-51 (c81_value)"
  },
  {
   "property": "C82",
   "status": "partial",
   "theorems": [
    "c82_shows_partial",
    "c82_refuted"
   ],
   "note": "proved, except that the statistics and end points are printed with the precision of float32, so that the text for 16777217 is that for 16777216 (c82_refuted)"
  },
  {
   "property": "C83",
   "status": "partial",
   "theorems": [
    "c83_kind_partial",
    "c83_refuted"
   ],
   "note": "the code violates this: Snapshot leaves IsNotCumulative false for an empty distribution (c83_refuted); proved for all others"
  },
  {
   "property": "C84",
   "status": "partial",
   "theorems": [
    "c84_linear_exact_partial",
    "c84_exponential_exact_partial",
    "c84_powers",
    "c84_linear_close_partial",
    "c84_exponential_close_partial",
    "c84_linear_refuted",
    "c84_exponential_refuted"
   ],
   "note": "the code violates this: rounding errors add up over the loop, so that NewLinearBucketer(12, 0, 0.1) ends a bucket at 0.9999999999999999 instead of 1 (c84_linear_refuted), and the documented NewExponentialBucketer(25, 3.0, 1.7) is off in the sixth end point (c84_exponential_refuted); proved: exact while the points are float64 numbers, in particular the predefined bucketers, and otherwise a relative error of at most i * 2^-52"
  },
  {
   "property": "C85",
   "status": "partial",
   "theorems": [
    "c85_rpc_partial",
    "c85_json_partial",
    "c85_encodable",
    "c85_refuted",
    "c85_json_refuted"
   ],
   "note": "the code violates this: RegisterMetric accepts names that cannot be asked for over HTTP: with . or .. in its path another metric or none is found (c85_refuted), and names that are no UTF-8 are altered in JSON (c85_json_refuted); proved that these are exactly the exceptions"
  },
  {
   "property": "C86",
   "status": "partial",
   "theorems": [
    "c86_whole_partial",
    "c86_close_partial",
    "c86_refuted",
    "c86_removed_refuted"
   ],
   "note": "the code violates this: the average of 0.1, 0.1 and 0.1 is above the maximum (c86_refuted), and when 10^20 has come and gone the average of the remaining value 1 is 0 (c86_removed_refuted); proved for whole numbers whose sizes add up to at most 2^53 in every history, and for cumulative distributions of up to 2^52 finite values with an error of at most count * 2^-52 times the sum of the sizes"
  },
  {
   "property": "C87",
   "status": "proved",
   "theorems": [
    "c87_same_text",
    "c87_readable",
    "c87_error",
    "c87_order"
   ],
   "note": "all durations of at least 0"
  },
  {
   "property": "C88",
   "status": "proved",
   "theorems": [
    "c88_alike"
   ],
   "note": "all supported types except floats and times, whose text is made by strconv and time"
  },
  {
   "property": "C89",
   "status": "partial",
   "theorems": [
    "c89_text_partial",
    "c89_refuted"
   ],
   "note": "the code violates this: a time that is not set and the first instant of 1970 have the same text (c89_refuted); proved for all other values, except floats, whose text is made by strconv, and times whose seconds in the unit do not fit int64"
  }
 ]
}