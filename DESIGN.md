# Formal model of Symantec/tricorder in Rocq (Coq 8.16.1)

## Approach

The Go code is modelled by total, computable Gallina functions (`theories/*Model.v`), one per Go
function, each with a comment citing the file and lines it models.  Properties are stated in
`theories/Prop*.v` files that contain only theorem statements closed by `exact`, examples that the
hypotheses are satisfiable, and `Print Assumptions`.  Small stand-alone specifications (what "decimal
text of a number", "ascending", "registered path" ... mean) live in `theories/*Spec.v` and do not
mention the model.

Conventions
* Go `string` = Coq `string` (a byte sequence).  Go fixed width integers = `Z`/`N` with the wrap written out.
* Go `float64`/`float32` = Flocq `binary_float 53 1024` / `binary_float 24 128` (IEEE-754 with one NaN).
  The distribution code is written once over a record of number operations and instantiated with
  binary64 (what runs) and with exact rationals (for the arithmetic claims).
* `panic` and error returns are explicit result values.  A call that panics after mutating returns the mutated state.
* Locks: the code protected by one mutex acquisition is one atomic step.  Concurrent calls are programs (trees of
  atomic steps) and theorems quantify over every interleaving of every set of such programs.
* Unbuffered channels are modelled as rendezvous steps between explicit client and event loop states.

## Plan per property

| id | modelled | how proved |
|----|----------|-----------|
| C01-C02 | `duration` package integer code, `time.Unix`, with int64/int32 wrap | arithmetic, `lia` over quot/rem |
| C03-C05 | `toString`, `convert`, `mult`, `div`, `parse`, `strconv.ParseInt/ParseUint`, `fmt %d %09d` over byte strings | digit-string lemmas, round trip; parse characterised against a separate grammar |
| C06 | `prettyFormat` | each form's denoted interval contains the duration |
| C07 | same | refuted by witness; exact condition proved |
| C08-C11 | `messages` conversion over a universe of Go values | case analysis + C04 |
| C12 | `types` package | finite case analysis over all strings |
| C13-C14 | `ToFloat`/`FromFloat` over Flocq binary64 | Flocq rounding lemmas; refuted parts by computation |
| C15 | `newPathSpec`, `strings.Split`, `strings.TrimSpace` on UTF-8 bytes | induction on strings |
| C16-C24 | heap of directories, all API functions as programs over per-lock atomic steps | invariant + refinement to a map from paths to nodes |
| C25-C29 | interleaving semantics over the same programs | invariant by induction over schedules; refuted ones by an explicit schedule |
| C30-C36 | region event loop, channels, sessions, id generator | invariants by induction over schedules |
| C37-C44 | distribution over number-operations record | invariants by induction over histories; exact rationals for sums/median; binary64 for counterexamples |
| C45 | lock-granularity interleaving with per-field writes | invariant: unlocked state is consistent |
| C46-C47 | bucketer constructors | Flocq monotonicity of rounding; rationals for the geometric series |
| C48-C49 | heap of arrays with client writes | invariant: list arrays are private |
| C50-C51 | reflect types/values universe, `newValue`, `valueToInterface`, `collect` | case analysis; refuted by named types / impure callbacks |
| C52-C53 | `addSeparators`; compact forms over binary64 | list induction; Flocq bounds |
| C54 | healthserver state machine | induction over call sequences |
| C55 | handlers on top of the registry model | corollaries |
| C56 | `timeValToDuration`, `Getrusage` | refuted by witness |
| C57-C58 | as C25 | invariants by induction over schedules |
| C59 | as C45, for lists | linearizability of monitors |
| C60-C61, C63 | as C50 | case analysis |
| C62, C64 | as C52, C13 | Flocq bounds |
| C65-C67 | handlers on top of registry and values | corollaries, list induction |
| C68-C70 | `setup.go`, flags | map reasoning over the registry's refinement |
| C71-C73 | HTML pages as data; URL processing | induction on strings; case analysis |
| C74-C76 | which types gob knows, header search, JSON as clients read it | case analysis; refuted by witness |
| C77-C79 | requests with blocking writes; update functions with calls | invariants, a measure on group levels; refuted by an explicit schedule |
| C80 | as C30, C45, C59 | linearization order against call order; refuted by an explicit schedule |
| C81 | DistModel (valueToFloat, findDistributionIndex), DurationModel | error bounds of the two conversions; below 2^52 ns they keep the order with the rounded end points; refuted at 2^62 ns |
| C82 | HttpModel (textEmitDistribution), DistModel | a reader for the text, independent of the printer; reading what is printed gives the end points and counts; refuted because strconv is asked for 32 bits |
| C83 | DistModel (Snapshot), DistMsgModel | the flag does not change; refuted by an empty distribution |
| C84 | BucketerModel | error of a chain of float64 additions or multiplications (Flocq relative errors); exact for representable points; refuted by computing |
| C85 | ApiUrlModel (routing of requests), UrlModel, WireModel | decoding undoes encoding; number of path segments after cleaning; JSON text is changed exactly where it is no UTF-8 |
| C86 | DistModel in float64 | error of a float64 sum by induction on the values; whole numbers add exactly; rounding is monotonic |
| C87 | DurationModel | the text is read back by splitting runs of digits; the ranges of the forms do not overlap |
| C88 | FormatModel | sign, digits, decimals and suffix of a text are unique, so both values are close to the same number |
| C89 | FormatModel | the text is exact (C63) and a decimal text denotes one number |

No property is considered inexpressible.  Not modelled: `net/http`, `html/template`, `encoding/json`, `encoding/gob`,
`compress/gzip`, `reflect` internals, the Go memory model (data races on unsynchronised client variables), the
operating system, `time.Now`, the demo and client programs.

## Trusted base

1. The Coq 8.16.1 kernel and its virtual machine (`vm_compute` is used in examples, refutations and a few finite
   computations).  No axiom, parameter, functor, module type or switched-off check of our own.
2. What `Print Assumptions` lists.  Every `Prop*.v` file prints it after its theorems.
   * The theorems below use exactly the four axioms of the standard library's real numbers, through Flocq:
     `ClassicalDedekindReals.sig_forall_dec`, `ClassicalDedekindReals.sig_not_dec`, `Classical_Prop.classic` and
     `FunctionalExtensionality.functional_extensionality_dep`.
     `c13_exact_partial`, `c13_floats_partial`, `c13_refuted`, `c13_supported_partial`, `c14_bound_refuted`,
     `c14_positive_partial`, `c14_refuted`, `c37_bucket`, `c37_ranges`, `c38_live`, `c38_sum`, `c39_float`,
     `c40_cumulative`, `c40_extremes`, `c41_never_past_partial`, `c41_close_partial`, `c41_few_partial`, `c41_refuted`, `c42_generation_partial`,
     `c42_refuted`, `c43_add`, `c43_api`, `c43_registration`, `c43_update_remove`, `c44_api_partial`, `c44_refuted`,
     `c44_remove_partial`, `c44_unchanged_partial`, `c44_update_partial`, `c45_linearizable`, `c45_progress`,
     `c45_snapshot`, `c46_arbitrary`, `c46_exponential`, `c46_linear`, `c46_linear_refuted`, `c47_buckets`,
     `c47_close_partial`, `c47_float_partial`, `c47_hangs_refuted`, `c47_refuted`, `c53_signed`, `c53_unsigned`,
     `c62_html`, `c64_from`, `c64_seconds`, `c64_time`, `c66_refuted`, `c72_metric`, `c72_page`, `c73_agree`,
     `c76_integers_partial`, `c76_lists_partial`, `c76_values_partial`, `c76_refuted`, `c80_dist_partial`,
     `c80_dist_refuted`, `c81_bucket_partial`, `c81_refuted`, `c81_value`,
     `c82_shows_partial`, `c82_refuted`, `c83_kind_partial`, `c83_refuted`,
     `c84_linear_exact_partial`, `c84_exponential_exact_partial`, `c84_powers`, `c84_linear_close_partial`, `c84_exponential_close_partial`,
     `c84_linear_refuted`, `c84_exponential_refuted`, `c86_whole_partial`, `c86_close_partial`, `c86_refuted`, `c86_removed_refuted`,
     `c88_alike`.
   * All other theorems are closed under the global context.
3. That the model files describe the Go code: next two sections.

### Modelled code

| Go | model | remarks |
|----|-------|---------|
| `units/api.go` | `UnitsModel.v` | |
| `duration/*.go` | `DurationModel.v`, `FloatConvModel.v` | int64/int32 wrap-around written out; float part in Flocq |
| `types/*.go` | `TypesModel.v`, `FloatConvModel.v` | |
| `messages/metric.go` | `MessagesModel.v` | `fmt` of values of unknown types is a parameter |
| `metric.go` 38-48 (ids) | `IdModel.v` | |
| 58-64, 1180-1354 (text and HTML forms) | `FormatModel.v` | `strconv.FormatFloat` and `time.Format` are parameters; loops have fuel, shown to suffice |
| 70-202 (regions, sessions) | `RegionModel.v`, `RegionNestModel.v` | event loop, channels as rendezvous; update functions that call the library |
| 204-593 (distributions, bucketers) | `DistModel.v`, `BucketerModel.v`, `DistConc.v` | `DistConc.v` has single field accesses under the lock |
| 595-733 (lists) | `ListModel.v`, `ListConc.v` | slices are windows into arrays that the program can write |
| 735-1178 (values, reflection) | `ReflectModel.v`, `ValueModel.v`, `DistMsgModel.v` | |
| 1373-1748, 1800-1845 (registry, paths) | `PathModel.v`, `RegistryModel.v`, `RegistryConc.v` | one atomic step per lock-protected access |
| 1750-1799, `setup.go`, `wrapper/` | `SetupModel.v` | results of runtime, syscall, os and flag are inputs |
| `api.go` | with the functions above that it wraps | |
| `html.go` 168-271, `json.go`, `rpc.go`, `http.go` 20-33, metric.go 1867-1874 | `HttpModel.v` | requests after routing; see below |
| `html.go` 15-166 (pages) | `HtmlModel.v`, `UrlModel.v` | what pages show, as data; where links lead |
| `html.go` 306-316, `json.go` 59-61 (routes) | `ApiUrlModel.v` | |
| `http.go` 61-75, `messages/api.go` 166-177, replies and JSON as clients read them | `WireModel.v` | of gob, net/rpc and encoding/json only what is written there |
| `healthserver/*.go` | `HealthModel.v` | |
| `sync.Mutex`, `sync.RWMutex` | `MonitorModel.v` | |

Used library functions are modelled from their documentation and source: `strings.Split/TrimSpace`,
`strconv.ParseInt/ParseUint`, `fmt %d %09d %s`, `time.Unix` and `time.Duration` arithmetic, `sort.Search`, IEEE-754 conversions.

### Simplifications

* Memory model: steps interleave sequentially consistently; data races on unsynchronised variables of the program are
  not modelled.  A list that is traversed is copied in one step.
* Locks: fairness and Go's writer preference are not modelled; progress theorems say that some step is possible.
* Writing a response blocks until the client takes it; buffers between are not modelled (they delay the effect in C77).
* Regions: `lockCount` is unbounded (the code has an `int`); all regions exist from the start; only update functions
  write group variables; update functions terminate, and call the library only in RegionNestModel.v (C79); the values of a group are abstracted
  to the time stamp of the update that wrote them, where only that matters.
* Distributions: the theorems about counts assume fewer than 2^64 additions; group ids are in `IdModel.v` only.  Fused
  multiply-add is considered in `FloatConvModel.v` (both results are covered).
* Bucketers: a count of buckets that does not fit into memory is not treated; possibly unbounded loops have fuel and the
  theorems state when the loop ends or that it never does.
* Lists: programs never write through slices that they were handed by the library; nil and empty slices are identified
  where the code does.
* Values: callbacks return a value; callbacks that panic or block are not modelled, except for what becomes of the groups (C78).  Out-of-range float to int
  conversions, unspecified in Go, are a separate result.
* Times: a `time.Time` is the instant it denotes; location and monotonic clock reading are not modelled.  In C80 the clock
  is read at the instant of the call; it is an input that must not decrease.
* HTTP: one state of the registry and of the variables during a request (concurrency is treated in C25-C36, C51).
  Routing is in `UrlModel.v` and `ApiUrlModel.v` only; write errors, JSON indentation and the character-level JSON syntax are not modelled; whether
  `json.Marshal` accepts a value is.  Types declared by the program with their own `MarshalJSON` are not modelled.
* HTML: the markup and the escaping of strings are not modelled.  `UrlModel.v` models what happens to a link: URL
  normalisation of `html/template`, the browser (WHATWG URL standard), `ServeMux` and `StripPrefix`.
* Clients: `WireModel.v` says which types gob can encode, when a response is compressed and what `json.Unmarshal` makes of
  each kind of value; the formats themselves, the text of floats and base64 are not modelled (a finite float64 is assumed
  to survive).  Time zones that gob cannot encode are not modelled.
* Health server: the handlers' answer is computed in the step that reads the status.
* Setup: `initDefaultMetrics` and `RegisterFlags` run without concurrent registry calls; `os.Args` is not empty; the
  order of `flag.VisitAll` is an input.

### Not modelled

`net/http` and `html/template` except for links, `net/rpc`, `encoding/json`, `encoding/gob` except as above, `compress/gzip`, the internals of
`reflect`, the operating system; static files and security headers (`html.go` 273-277, 300-315, `http.go` 35-59); `tricorderclient` and
`tricorderdemo`.

## Where the code violates a property

Each is a theorem `..._refuted` with a concrete execution; the notes in `MANIFEST.json` say what holds instead.
* C07: every valid string denoting a value outside int64 nanoseconds is silently accepted as a different duration (c07_refuted); in range the value is exact
* C09: the zero time always comes back as the Unix epoch (c09_refuted); every other printable time round trips
* C13: every odd int64 between 2^52 and 2^53 comes back as its neighbour (c13_refuted), and so do negative durations; proved for all other exactly representable values of every type, times included, with and without fused multiply-add
* C14: for every negative duration, which comes back 1 ns larger (c14_refuted); proved for all durations from 0 to 2^51 ns
* C18: ErrWrongType/ErrWrongUnit/panics leave newly created directories, ErrPathInUse can assign the unit of a distribution (c18_refuted); no existing path changes and no metric appears
* C28: completeness and no duplicates proved for every interleaving; soundness only if the metric's directory is still registered at the end, otherwise the code violates it (c28_refuted)
* C29: c29_refuted is a concrete execution whose listing matches no instant; while nobody unregisters the listing lies between the states at its beginning and end
* C34: text requests for one metric read the variable after closing their session (c34_refuted); proved for JSON and RPC singletons and all listings
* C36: for distributions and lists registered under two paths (c36_refuted); proved for variables and callbacks
* C41: in float64 0.9 added four times to a cumulative distribution has a median above the maximum (c41_refuted); proved in exact rational arithmetic, and for float64 that the computation never runs past the buckets, that rounding is the only error (at most a 2^-50th of the greater of |Min| and |Max|, and 2^-1072, for Count > 2 and values of size up to 2^1020; c41_close_partial), and that one or two values of a cumulative distribution have a median between them (c41_few_partial)
* C42: an empty distribution reports generation 0 (c42_refuted); proved for every snapshot with Count > 0
* C44: for values that are not present: Update leaves a bucket count and the time stamp changed (c44_refuted), Remove the time stamp; proved for every other panic, and exactly what changes otherwise
* C46: every count and every non-NaN float64, overflow included; the code violates it in one corner: NewLinearBucketer(n, -Inf, +Inf) has NaN end points (c46_linear_refuted)
* C47: proved in exact rational arithmetic; in float64 proved to terminate with ascending end points for every lower except +Inf and the two smallest positive numbers (where it never returns, c47_hangs_refuted), and within relative error 2^-41 of the series between 2^-960 and 2^960; violated exactly: NewGeometricBucketer(1e-6, 1) starts above lower (c47_refuted)
* C50: for declared types (type Level string) other than integers of at least 32 bits, and for lists of them; proved for everything else, exactly characterised for variables and callbacks
* C51: for callbacks whose value changes between the check and the report (c51_refuted) and for lists (c51_list_refuted); proved for metrics that give the same value twice, which is the case for variables of groups (c51_groups_partial)
* C56: microseconds are counted as nanoseconds (c56_refuted) and the stack size is never copied, so that it stays 0 (c56_stack_refuted); proved: all other figures, from the last getrusage that succeeded, on Linux and Darwin, and the exact CPU times reported
* C57: the code violates the documentation for a listing already in progress when the directory is unregistered (c57_refuted); proved for listings that begin afterwards and for all lookups (C23)
* C60: functions with parameters and nil functions are accepted and panic whenever they are read; proved for all others
* C66: NaN in a distribution or a list turns the whole listing into an error page with status 200, and a list whose type is a declared slice of times or durations makes the handler panic; proved: a listing succeeds exactly when no metric below the path is of this kind
* C67: strings and names are not escaped (c67_refuted: a line break in a string makes up a metric); proved: the body is the concatenation of the lines (c67_listing), and it can be read back when names have no space or line break, strings no line break, and strconv.FormatFloat emits none
* C70: of the flags cache and cache/size only the first is registered and the error is ignored (c70_refuted); proved when no flag's path is a prefix of another one's and nothing is in the way; without concurrent calls into the registry
* C71: names are put into links without encoding, so the link to a?b leads nowhere (c71_refuted) and the one to 100%25 to 100%; proved: the link works exactly when no name on the path contains ? or # or a percent sign followed by two hexadecimal digits, or is . or ..
* C74: messages registers only the documented types with gob, so one metric of a declared type, like type Level string, closes the connection of everyone who lists it (c74_refuted); proved: the requests are answered exactly when the values have documented types, and always for programs that declare no types for metrics except integers of 32 bits and more
* C75: the handler only looks for the text gzip, so gzip;q=0 gets gzip (c75_refuted); proved: clients that ask for it get it, and others only if they mention it to refuse it or as a part of another name
* C76: ConvertToGoRPC does not undo what encoding/json does to numbers and lists (c76_refuted); proved: exact for bool, string, float64, time and duration; integers arrive as float64, lists of times and durations give an error, lists of bytes are base64 text
* C77: text listings and HTML pages are written while the session is open, so as long as one such client does not read, everybody gets the old data of the groups it visited (c77_refuted); proved for JSON, RPC and text requests for one metric
* C79: an update function that calls `RegisterUpdateFunc` on its own group, or reads its own group, waits for the event loop it runs in; the group never answers again (c79_own_group, c79_refuted); proved: no deadlock when calls only go to groups of a lower level
* C80: Add, Update, Remove and Change read the clock before they take the lock, so of two overlapping calls the one with the earlier time may be applied last (c80_dist_refuted, c80_list_refuted); proved for groups, and that overlapping calls are the only cause
* C81: durations are converted to float64, so above 2^53 ns a duration next to an end point may be counted in the neighbouring bucket (c81_refuted); proved below 2^52 ns
* C82: html.go prints the statistics of a distribution with FormatFloat(x, 'f', -1, 32), so numbers above 2^24 are not told apart (c82_refuted)
* C83: an empty distribution that is not cumulative is reported as cumulative (c83_refuted)
* C84: rounding errors add up: NewLinearBucketer(12, 0, 0.1) has an end point 0.9999999999999999 instead of 1 (c84_linear_refuted), and the sixth end point of NewExponentialBucketer(25, 3.0, 1.7) is not the nearest (c84_exponential_refuted)
* C85: metrics with . or .. in their path cannot be requested over HTTP, another metric is answered (c85_refuted); names that are no UTF-8 are altered in JSON (c85_json_refuted)
* C86: the average of 0.1, 0.1 and 0.1 is above the maximum (c86_refuted); in a distribution that is not cumulative, values that were removed can have destroyed the sum: after 10^20 came and went, sum and average of the remaining 1 are 0 (c86_removed_refuted)
* C89: a time that is not set and the first instant of 1970 have the same text (c89_refuted)
