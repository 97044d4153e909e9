{"id": "C01", "title": "Go durations survive conversion to and from duration.Duration", "statement": "For every time.Duration d, duration.New(d).AsGoDuration() == d; New(d) has Seconds and Nanoseconds of the same sign as d (or zero), |Nanoseconds| < 1e9 and Seconds*1e9+Nanoseconds equals d exactly.", "quantifier": "every int64 value of time.Duration", "why_tests_cant": "2^64 inputs, the sign conventions at the boundaries decide", "anchors": ["go/tricorder/duration/duration.go:newDuration", "go/tricorder/duration/duration.go:asGoDuration"]}
{"id": "C02", "title": "Times survive conversion to and from seconds since the epoch", "statement": "For every time.Time t (before or after 1970), duration.SinceEpoch(t).AsGoTime() is the same instant as t; SinceEpoch(t) has both fields non-negative or both non-positive and equals t minus the epoch exactly.", "quantifier": "every instant representable by time.Time with its Unix second in int64", "why_tests_cant": "unbounded number of instants, negative instants with a fraction take a different branch", "anchors": ["go/tricorder/duration/duration.go:sinceEpoch", "go/tricorder/duration/duration.go:asGoTime"]}
{"id": "C03", "title": "Printed durations are the exact decimal value in the requested unit", "statement": "For every time.Duration d and unit u, duration.New(d).StringUsingUnits(u) is an optional minus sign, the shortest decimal integer part, a dot and exactly nine digits, and the number it denotes is exactly d in u (milliseconds for Millisecond, seconds for every other unit).", "quantifier": "every int64 duration and every unit", "why_tests_cant": "carry, sign and zero padding must be right for every value", "anchors": ["go/tricorder/duration/duration.go:toString", "go/tricorder/duration/duration.go:convert", "go/tricorder/duration/duration.go:mult", "go/tricorder/duration/duration.go:div", "go/tricorder/duration/api.go:StringUsingUnits"]}
{"id": "C04", "title": "Parsing what was printed gives the duration back", "statement": "For every time.Duration d and unit u, ParseWithUnit(New(d).StringUsingUnits(u), u) succeeds and equals New(d); the same holds for SinceEpoch(t) for every time t whose millisecond value fits in an int64.", "quantifier": "every duration, every time in the stated range, every unit", "why_tests_cant": "round trip over 2^64 values", "anchors": ["go/tricorder/duration/duration.go:parse", "go/tricorder/duration/api.go:ParseWithUnit", "go/tricorder/duration/api.go:StringUsingUnits"]}
{"id": "C05", "title": "ParseWithUnit accepts exactly the documented syntax and computes the right value", "statement": "ParseWithUnit(s, Second) succeeds exactly when s is an optional '-', a signed base ten integer that fits in int64 and is not negative, and optionally a '.' followed by text whose first nine characters are digits; the result is the denoted number truncated to nine fractional digits, with both fields carrying the sign. Every other string is an error.", "quantifier": "every byte string", "why_tests_cant": "infinitely many strings, including malformed ones", "anchors": ["go/tricorder/duration/duration.go:parse"]}
{"id": "C06", "title": "PrettyFormat shows the duration to within one unit of its last digit", "statement": "For every non-negative Duration PrettyFormat returns one of the forms Nns, Nus, Nms, S.mmms, Mm S.mmms, Hh Mm Ss, Dd Hh Mm Ss with hours < 24, minutes < 60, seconds < 60, and the quantity shown is at most the duration and less than one displayed unit below it; it panics exactly on negative durations.", "quantifier": "every normalised Duration", "why_tests_cant": "case boundaries at 10us, 10ms, 1s, 1m, 1h, 1d", "anchors": ["go/tricorder/duration/duration.go:prettyFormat"]}
{"id": "C07", "title": "Out-of-range quantities are not silently changed by parsing", "statement": "When a JSON duration string denotes a value that does not fit a time.Duration, conversion to Go RPC reports an error rather than a different duration.", "quantifier": "every syntactically valid duration string", "why_tests_cant": "the failing inputs are those far beyond normal test values", "anchors": ["go/tricorder/messages/metric.go:stringAsDuration", "go/tricorder/duration/duration.go:asGoDuration"]}
{"id": "C08", "title": "JSON and Go RPC representations of a metric convert into each other without loss", "statement": "For every well formed Go RPC metric m (any kind, any unit, any timestamp) whose time values are not the zero time, ConvertToJson followed by ConvertToGoRPC succeeds and yields m again: same value, kind, sub-type and timestamp, except that a nil slice becomes an empty slice.", "quantifier": "every metric value, kind, sub-type, unit and timestamp", "why_tests_cant": "product of all types with all values", "anchors": ["go/tricorder/messages/metric.go:asJson", "go/tricorder/messages/metric.go:asGoRPC", "go/tricorder/messages/metric.go:convertToJson", "go/tricorder/messages/metric.go:convertToGoRPC"]}
{"id": "C09", "title": "The zero time.Time round trips through JSON", "statement": "A GoTime metric whose value is the zero time.Time is the zero time.Time again after ConvertToJson and ConvertToGoRPC.", "quantifier": "every time value including the zero time", "why_tests_cant": "requires comparing representations, not only strings", "anchors": ["go/tricorder/messages/metric.go:timeAsString", "go/tricorder/messages/metric.go:stringAsTime"]}
{"id": "C10", "title": "A failed ConvertToGoRPC changes nothing; a successful one leaves only Go RPC kinds", "statement": "If ConvertToGoRPC returns an error the metric is unchanged. If it succeeds then neither the kind nor the sub-type is a JSON-only kind (time, duration) and the timestamp is nil or a time.Time. Calling it again succeeds and changes nothing.", "quantifier": "every metric, well formed or not", "why_tests_cant": "arbitrary incoming JSON", "anchors": ["go/tricorder/messages/metric.go:convertToGoRPC", "go/tricorder/messages/metric.go:asGoRPC"]}
{"id": "C11", "title": "ConvertToJson leaves only JSON kinds and is idempotent", "statement": "After ConvertToJson of a well formed metric the kind and sub-type are not goTime or goDuration, the timestamp is a string, a list value is never nil, and a second ConvertToJson changes nothing.", "quantifier": "every well formed metric", "why_tests_cant": "product of all types with all values", "anchors": ["go/tricorder/messages/metric.go:convertToJson", "go/tricorder/messages/metric.go:asJson"]}
{"id": "C12", "title": "Type tags and Go values agree", "statement": "FromGoValue(t.ZeroValue()) is t for every type that has a zero value except that the JSON-only time and duration give String; FromGoValueWithSubType of t.NilSlice() is (List, t) with the same exception; ZeroValue and NilSlice fail exactly for Dist, List and unknown types; Bits is the width of the sized numeric types and 0 for all others; the Int, Uint and Float classes are disjoint.", "quantifier": "every type string, known or not", "why_tests_cant": "every string is a Type", "anchors": ["go/tricorder/types/api.go:FromGoValueWithSubType", "go/tricorder/types/api.go:SafeZeroValue", "go/tricorder/types/api.go:SafeNilSlice", "go/tricorder/types/api.go:Bits"]}
{"id": "C13", "title": "Converting a numeric value to float64 and back gives it back", "statement": "For every type t that supports it and value x of t, t.FromFloat(t.ToFloat(x)) == x whenever x is exactly representable as a float64.", "quantifier": "every value of every numeric type", "why_tests_cant": "2^64 values, IEEE rounding of the +-0.5 adjustment", "anchors": ["go/tricorder/types/api.go:ToFloat", "go/tricorder/types/api.go:FromFloat", "go/tricorder/types/types.go:round"]}
{"id": "C14", "title": "Durations survive conversion to seconds as float64 and back", "statement": "For every time.Duration d of magnitude below 2^51 ns, duration.FromFloat(duration.ToFloat(d)) == d.", "quantifier": "every such duration, positive and negative", "why_tests_cant": "IEEE rounding; sign dependent truncation", "anchors": ["go/tricorder/duration/api.go:FromFloat", "go/tricorder/duration/api.go:ToFloat"]}
{"id": "C15", "title": "Paths are compared by their non-blank components", "statement": "Two path strings denote the same place exactly when they have the same sequence of non-blank slash separated components: leading, trailing and repeated slashes and white space only components (Unicode white space) never matter, everything else does.", "quantifier": "every pair of byte strings", "why_tests_cant": "infinitely many strings", "anchors": ["go/tricorder/metric.go:newPathSpec", "go/tricorder/metric.go:pathSpec.String"]}
{"id": "C16", "title": "RegisterMetric is visible exactly where it was asked for", "statement": "If RegisterMetric(p) returns nil then p was unused and afterwards p is that metric with that description and unit, every proper prefix of p is a directory, and every other path answers as before.", "quantifier": "every reachable registry, every path, every metric", "why_tests_cant": "all histories of registrations and removals", "anchors": ["go/tricorder/metric.go:registerMetric", "go/tricorder/metric.go:storeMetric", "go/tricorder/metric.go:createDirIfNeeded"]}
{"id": "C17", "title": "RegisterMetric reports ErrPathInUse exactly for used paths and then changes no path", "statement": "With a valid metric, RegisterMetric(p) returns ErrPathInUse exactly when p is empty, p already is a metric or directory, or a proper prefix of p is a metric; in that case every path answers as before.", "quantifier": "every reachable registry and path", "why_tests_cant": "all histories", "anchors": ["go/tricorder/metric.go:registerMetric", "go/tricorder/metric.go:registerDirectory"]}
{"id": "C18", "title": "A RegisterMetric call that fails has no effect", "statement": "If RegisterMetric returns any error the set of registered paths and the state of the passed distribution are as before the call.", "quantifier": "every registry, path and metric argument", "why_tests_cant": "needs the failing branch after directories were created", "anchors": ["go/tricorder/metric.go:registerMetric", "go/tricorder/metric.go:newValue"]}
{"id": "C19", "title": "RegisterDirectory is get-or-create", "statement": "RegisterDirectory(p) returns the directory at p, creating it and its missing ancestors and nothing else; calling it again returns the same directory and changes nothing; it returns ErrPathInUse exactly when a non-empty prefix of p is a metric, changing nothing.", "quantifier": "every reachable registry and path", "why_tests_cant": "all histories", "anchors": ["go/tricorder/metric.go:registerDirectory", "go/tricorder/metric.go:createDirIfNeeded"]}
{"id": "C20", "title": "GetDirectory distinguishes missing, metric and directory", "statement": "GetDirectory(p) returns the directory at p if there is one; otherwise ErrNotFound if walking p meets a missing name before meeting a metric and ErrPathInUse if it meets a metric first.", "quantifier": "every reachable registry and path", "why_tests_cant": "all histories", "anchors": ["go/tricorder/metric.go:getDirectoryAndError"]}
{"id": "C21", "title": "UnregisterPath removes exactly one subtree", "statement": "After UnregisterPath(p) with p not empty, no path at or below p exists and all other paths answer as before; with p empty nothing changes.", "quantifier": "every reachable registry and path", "why_tests_cant": "all histories", "anchors": ["go/tricorder/metric.go:unregisterPath", "go/tricorder/metric.go:removeListEntry"]}
{"id": "C22", "title": "A directory handle is equivalent to its absolute path while registered", "statement": "For a handle to a directory that is still registered at absolute path a, every operation with relative path r behaves exactly like the package level operation with path a/r (for RegisterMetric and UnregisterPath when r has at least one component; with none they do nothing and RegisterMetric reports ErrPathInUse).", "quantifier": "every reachable registry, handle and relative path", "why_tests_cant": "all histories", "anchors": ["go/tricorder/api.go:DirectorySpec", "go/tricorder/metric.go:registerMetric", "go/tricorder/metric.go:unregisterPath"]}
{"id": "C23", "title": "An unregistered directory stays unregistered and invisible", "statement": "Once a directory handle is unregistered (directly or through an ancestor) no later operation, by any goroutine, through any handle, makes it or anything below it reachable from the root again; operations through the stale handle change no answer of the package level functions; UnregisterDirectory on a stale handle does not remove a newer directory of the same name.", "quantifier": "every history and interleaving after the removal", "why_tests_cant": "unbounded futures and all schedules", "anchors": ["go/tricorder/metric.go:unregisterDirectory", "go/tricorder/metric.go:removeChildDirectory"]}
{"id": "C24", "title": "AbsPath identifies the metric", "statement": "For every metric reachable from the root, looking up its AbsPath from the root returns that very metric, and two different reachable metrics have different AbsPaths; AbsPath starts with a slash; the AbsPath of the root is \"/\".", "quantifier": "every reachable registry", "why_tests_cant": "all histories and interleavings", "anchors": ["go/tricorder/metric.go:absPath", "go/tricorder/metric.go:pathFrom", "go/tricorder/metric.go:GetMetric"]}
{"id": "C25", "title": "The registry stays well formed under every interleaving of concurrent callers", "statement": "For any number of goroutines calling any registration, removal and lookup functions, at every point between atomic steps each registered name is a valid component, the entry under a name carries that name, parent links agree with containment, and each path has at most one entry.", "quantifier": "every set of concurrent calls and every interleaving", "why_tests_cant": "schedules cannot be enumerated", "anchors": ["go/tricorder/metric.go:directory", "go/tricorder/metric.go:createDirIfNeeded", "go/tricorder/metric.go:storeMetric", "go/tricorder/metric.go:removeListEntry"]}
{"id": "C26", "title": "Of competing registrations of one path at most one wins", "statement": "If several goroutines concurrently call RegisterMetric for the same name in the same directory and nobody unregisters it, at most one returns nil and the metric then visible is the winner's.", "quantifier": "every interleaving of any number of registrations", "why_tests_cant": "schedules cannot be enumerated", "anchors": ["go/tricorder/metric.go:storeMetric"]}
{"id": "C27", "title": "ListMetrics reports every metric that stays registered, once, in name order", "statement": "In a quiescent registry ListMetrics(p) reports exactly the metrics at or below p, each once, depth first with the entries of each directory in byte order of their names, independently of map iteration order. A missing path gives an empty list.", "quantifier": "every reachable registry and path", "why_tests_cant": "map iteration order is random; all trees", "anchors": ["go/tricorder/metric.go:GetAllMetrics", "go/tricorder/metric.go:GetAllMetricsByPath", "go/tricorder/metric.go:sortListEntries"]}
{"id": "C28", "title": "A listing that races with registrations is still sound", "statement": "With concurrent registrations and removals, a listing reports each metric that is registered throughout the call, reports no metric that was never registered at the reported path during the call, and reports no path twice.", "quantifier": "every interleaving", "why_tests_cant": "schedules cannot be enumerated", "anchors": ["go/tricorder/metric.go:GetAllMetrics", "go/tricorder/metric.go:listUnsorted"]}
{"id": "C29", "title": "A listing is a snapshot of one instant", "statement": "The set of metrics reported by one listing is the set registered at some single instant during the call.", "quantifier": "every interleaving", "why_tests_cant": "schedules cannot be enumerated", "anchors": ["go/tricorder/metric.go:GetAllMetrics"]}
{"id": "C30", "title": "The update function runs exactly once before a request reads a group, and never while a request is reading it", "statement": "For every interleaving of requests, at the moment the first of a set of overlapping requests visits a group the update function runs exactly once, and it never runs again until all requests that visited the group have finished.", "quantifier": "every interleaving of any number of requests over any number of groups", "why_tests_cant": "schedules cannot be enumerated", "anchors": ["go/tricorder/metric.go:handleLockUnlock", "go/tricorder/metric.go:session.Visit", "go/tricorder/metric.go:session.Close"]}
{"id": "C31", "title": "Overlapping requests see the same data and timestamp for a group", "statement": "All values of a group that a request reads come from one run of the update function, the timestamp reported is that run's, and overlapping requests agree on it.", "quantifier": "every interleaving", "why_tests_cant": "schedules cannot be enumerated", "anchors": ["go/tricorder/metric.go:session.Visit", "go/tricorder/metric.go:value.TimeStamp"]}
{"id": "C32", "title": "Every request gets its own reply from the group's event loop and the loop never dies or deadlocks", "statement": "Replies on the shared channels always go to the goroutine whose request is being handled, the lock count equals the number of requests currently holding the group and never becomes negative, and while any call is in progress some step is possible.", "quantifier": "every interleaving of lock, unlock and RegisterUpdateFunc calls", "why_tests_cant": "schedules cannot be enumerated", "anchors": ["go/tricorder/metric.go:handleRequests", "go/tricorder/metric.go:RLock", "go/tricorder/metric.go:RUnlock", "go/tricorder/metric.go:registerUpdateFunc"]}
{"id": "C33", "title": "RegisterUpdateFunc replaces the update function for all later updates", "statement": "After RegisterUpdateFunc(f) returns, every later update of the group runs f (until replaced again), and the replacement itself runs nothing and does not affect requests in progress.", "quantifier": "every interleaving", "why_tests_cant": "schedules cannot be enumerated", "anchors": ["go/tricorder/metric.go:handleUpdateFunc", "go/tricorder/metric.go:registerUpdateFunc"]}
{"id": "C34", "title": "Single-metric text requests read inside the group's protection", "statement": "Fetching one metric in text form reads the variable while the group is held, so the update function cannot run between visiting the group and reading the variable.", "quantifier": "every interleaving", "why_tests_cant": "needs a schedule with an update in a window of a few instructions", "anchors": ["go/tricorder/metric.go:evaluate", "go/tricorder/metric.go:AsTextString", "go/tricorder/html.go:textEmitDirectoryOrMetric"]}
{"id": "C35", "title": "Group ids are unique", "statement": "No two groups, distributions or lists ever get the same group id, whatever the interleaving of their creation; ids are handed out without gaps from 0.", "quantifier": "every interleaving of creations", "why_tests_cant": "schedules", "anchors": ["go/tricorder/metric.go:newIdSequence"]}
{"id": "C36", "title": "Metrics with the same group id in one response have the same timestamp", "statement": "Within one response any two metrics with equal GroupId carry equal TimeStamp.", "quantifier": "every interleaving and registry", "why_tests_cant": "schedules; aliasing of distributions under two paths", "anchors": ["go/tricorder/metric.go:updateJsonOrRpcMetric", "go/tricorder/messages/api.go:Metric"]}
{"id": "C37", "title": "Every value is counted in exactly the bucket whose range contains it", "statement": "For a bucketer with ascending endpoints, Add(v) increments the one bucket with Start <= v < End (first bucket unbounded below, last unbounded above) and no other; the buckets partition the number line.", "quantifier": "every non-NaN float64 and every ascending endpoint list", "why_tests_cant": "binary search boundaries", "anchors": ["go/tricorder/metric.go:findDistributionIndex", "go/tricorder/metric.go:newBucketerFromEndpoints"]}
{"id": "C38", "title": "Bucket counts, Count and number of live values agree after every history", "statement": "After any sequence of Add, Update and Remove calls (panicking Update calls aside) the bucket counts sum to Count, and if Update/Remove were only given values present, each bucket count is the number of present values in its range.", "quantifier": "every finite history", "why_tests_cant": "unbounded histories", "anchors": ["go/tricorder/metric.go:add", "go/tricorder/metric.go:update", "go/tricorder/metric.go:remove", "go/tricorder/metric.go:Snapshot"]}
{"id": "C39", "title": "Sum and Average are those of the values present", "statement": "In exact arithmetic Sum is the sum of the values present and Average is Sum/Count; in float64 arithmetic Sum is the left fold of the corresponding IEEE additions in call order.", "quantifier": "every finite history", "why_tests_cant": "unbounded histories", "anchors": ["go/tricorder/metric.go:add", "go/tricorder/metric.go:update", "go/tricorder/metric.go:remove", "go/tricorder/metric.go:Snapshot"]}
{"id": "C40", "title": "Min and Max are the extremes since the distribution was last empty", "statement": "After any history Min and Max are the least and greatest of all values added or updated to since the last time the distribution was empty; for a cumulative distribution they are the least and greatest of all values added.", "quantifier": "every finite history of non-NaN values", "why_tests_cant": "unbounded histories", "anchors": ["go/tricorder/metric.go:add", "go/tricorder/metric.go:update", "go/tricorder/metric.go:remove"]}
{"id": "C41", "title": "The median is between Min and Max", "statement": "Whenever Count > 0, Min <= Median <= Max and, when Count > 2, the median lies in the range of the bucket holding the middle value; computing it never runs past the buckets.", "quantifier": "every finite history", "why_tests_cant": "unbounded histories; interpolation arithmetic", "anchors": ["go/tricorder/metric.go:calculateMedian", "go/tricorder/metric.go:indexToValue", "go/tricorder/metric.go:interpolate"]}
{"id": "C42", "title": "Generation increases by one with every change", "statement": "Each successful Add, Update or Remove increases the reported Generation by exactly one; nothing else changes it.", "quantifier": "every finite history", "why_tests_cant": "unbounded histories, including becoming empty", "anchors": ["go/tricorder/metric.go:Snapshot", "go/tricorder/messages/api.go:Distribution"]}
{"id": "C43", "title": "A distribution's unit is assigned once", "statement": "The first registration of a distribution assigns its unit; afterwards registration succeeds exactly with that unit and fails with ErrWrongUnit otherwise, and the unit never changes; Add, Update and Remove panic exactly while no unit is assigned or the value has an unsupported type (or is a Duration and the unit is no time unit).", "quantifier": "every history of registrations and additions", "why_tests_cant": "unbounded histories", "anchors": ["go/tricorder/metric.go:SetUnit", "go/tricorder/metric.go:newValueForDist", "go/tricorder/metric.go:valueToFloat", "go/tricorder/metric.go:goDurationToFloat"]}
{"id": "C44", "title": "A panicking call leaves the distribution unchanged", "statement": "If Add, Update or Remove panics (wrong type, cumulative distribution, empty distribution, value not present), the distribution's reported statistics are as before the call.", "quantifier": "every history and argument", "why_tests_cant": "panic after partial mutation", "anchors": ["go/tricorder/metric.go:update", "go/tricorder/metric.go:remove", "go/tricorder/metric.go:decrementCount"]}
{"id": "C45", "title": "Snapshots are atomic", "statement": "Under any interleaving of concurrent Add, Update, Remove and Snapshot calls every snapshot is the state after some sequential order of the completed updates consistent with real time.", "quantifier": "every interleaving", "why_tests_cant": "schedules", "anchors": ["go/tricorder/metric.go:Snapshot", "go/tricorder/metric.go:AddWithTs", "go/tricorder/metric.go:UpdateWithTs", "go/tricorder/metric.go:RemoveWithTs"]}
{"id": "C46", "title": "Bucketer constructors build ascending buckets or panic", "statement": "NewExponentialBucketer and NewLinearBucketer panic exactly on the documented arguments, otherwise return exactly count buckets with non-decreasing float64 endpoints starting at start, first bucket unbounded below, last unbounded above, consecutive buckets sharing endpoints.", "quantifier": "every count and every non-NaN float64 start, scale, increment", "why_tests_cant": "IEEE rounding and overflow", "anchors": ["go/tricorder/metric.go:newExponentialBucketerStream", "go/tricorder/metric.go:newLinearBucketerStream", "go/tricorder/metric.go:newBucketerFromEndpoints"]}
{"id": "C47", "title": "NewGeometricBucketer covers the requested range", "statement": "For 0 < lower <= upper the endpoints are consecutive members of the 1-2-5 decade series, the first is the largest member <= lower and the last is the smallest member >= upper.", "quantifier": "every lower and upper", "why_tests_cant": "loops over decades", "anchors": ["go/tricorder/metric.go:newGeometricBucketerStream", "go/tricorder/metric.go:findGeometricBaseAndOffset"]}
{"id": "C48", "title": "Lists are isolated from later changes of mutable slices", "statement": "After NewList(s, MutableSlice) or Change(s, MutableSlice), or with an []int or []uint in either mode, the list keeps reporting the values s had at the call whatever the caller later writes into s; slices already handed out by the list never change.", "quantifier": "every sequence of writes by the caller", "why_tests_cant": "unbounded aliasing histories", "anchors": ["go/tricorder/metric.go:asSliceValue", "go/tricorder/metric.go:copySlice", "go/tricorder/metric.go:ChangeWithTimeStamp"]}
{"id": "C49", "title": "A list's element type never changes", "statement": "The SubType of a list is fixed at creation; Change panics exactly when the new slice has a different element type or is not a supported slice, and then the list reports the same values and timestamp as before.", "quantifier": "every history of Change calls", "why_tests_cant": "unbounded histories", "anchors": ["go/tricorder/metric.go:ChangeWithTimeStamp", "go/tricorder/metric.go:newListWithTimeStamp"]}
{"id": "C50", "title": "The reported kind matches the Go type of the reported value", "statement": "For every metric accepted by RegisterMetric the Go RPC Value has the Go type that the Metric documentation gives for its Kind and SubType.", "quantifier": "every registrable variable, callback, flag, list and distribution type, including named types", "why_tests_cant": "open set of Go types", "anchors": ["go/tricorder/metric.go:newValue", "go/tricorder/metric.go:getPrimitiveType", "go/tricorder/metric.go:valueToInterface"]}
{"id": "C51", "title": "Listings never contain NaN or infinite float metrics", "statement": "A float metric whose value is NaN or infinite is left out of listings (JSON, RPC, text) so that JSON encoding never fails.", "quantifier": "every metric, including callbacks", "why_tests_cant": "two evaluations per metric", "anchors": ["go/tricorder/metric.go:collect", "go/tricorder/metric.go:IsInfNaN"]}
{"id": "C52", "title": "Thousands separators only add separators", "statement": "addSeparators inserts separators only between digits of the first digit run, such that counted from the right every group but the first has exactly the given size and the first has between 1 and that many digits; deleting the separators gives back the original.", "quantifier": "every string with a digit and every group size", "why_tests_cant": "all lengths", "anchors": ["go/tricorder/metric.go:addSeparators"]}
{"id": "C53", "title": "Compact numbers never run out of suffixes", "statement": "iCompactForm and uCompactForm terminate and never index past their suffix tables for any 64 bit integer with radix 1000 or 1024, and small values are printed exactly.", "quantifier": "every int64 and uint64", "why_tests_cant": "2^64 inputs, IEEE division", "anchors": ["go/tricorder/metric.go:iCompactForm", "go/tricorder/metric.go:uCompactForm"]}
{"id": "C54", "title": "Health and readiness report the last status set", "statement": "After any interleaving of SetHealthy, SetNotHealthy, SetReady, SetNotReady the /healthz (/readiness) response is 200 OK when the last health (readiness) call was SetHealthy (SetReady) and 503 with exactly the status text otherwise; initially healthy and not ready; the two are independent; SetNotHealthy and SetNotReady panic exactly on \"\" and \"OK\" and then change nothing.", "quantifier": "every interleaving of calls", "why_tests_cant": "unbounded histories", "anchors": ["go/healthserver/impl.go", "go/healthserver/api.go"]}
{"id": "C55", "title": "JSON, RPC and text endpoints agree on what exists", "statement": "For every path, the singleton JSON request gives 404 exactly when RPC GetMetric gives ErrMetricNotFound, which is exactly when no metric is registered at that path; the text endpoint says the path does not exist exactly when neither metric nor directory exists there.", "quantifier": "every reachable registry and path", "why_tests_cant": "all histories", "anchors": ["go/tricorder/json.go:jsonHandlerFunc", "go/tricorder/rpc.go:GetMetric", "go/tricorder/html.go:textEmitDirectoryOrMetric"]}
{"id": "C56", "title": "CPU time metrics equal the operating system's figures", "statement": "/proc/cpu/user and /proc/cpu/sys equal Sec seconds plus Usec microseconds of getrusage, and each resource usage field is reported from the field of the same name.", "quantifier": "every rusage value", "why_tests_cant": "all values", "anchors": ["go/tricorder/setup.go:timeValToDuration", "go/tricorder/wrapper/syscall_linux.go:Getrusage"]}
{"id": "C57", "title": "Metrics registered through an unregistered directory are never reported", "statement": "As documented for DirectorySpec: a metric registered through a handle whose directory is already unregistered is not reported by any lookup or listing.", "quantifier": "every interleaving", "why_tests_cant": "needs a listing that read the parent before the removal", "anchors": ["go/tricorder/api.go:UnregisterDirectory", "go/tricorder/metric.go:GetAllMetrics", "go/tricorder/metric.go:unregisterDirectory"]}
{"id": "C58", "title": "Registry calls never block or loop", "statement": "In every reachable state, whatever other calls are doing, each registration, removal, lookup and listing call that is scheduled often enough without interference returns after finitely many steps.", "quantifier": "every reachable state of any number of concurrent calls", "why_tests_cant": "all states; all trees", "anchors": ["go/tricorder/metric.go:getDirectory", "go/tricorder/metric.go:GetAllMetrics", "go/tricorder/metric.go:registerDirectory"]}
{"id": "C59", "title": "A list's values and time stamp belong together", "statement": "Whatever Change calls run concurrently, the slice and the time stamp that a reader of a list gets come from one and the same NewList or Change call, the last one in an order of the calls that respects real time.", "quantifier": "every interleaving of any number of Change and read calls", "why_tests_cant": "interleavings of two field writes and two field reads", "anchors": ["go/tricorder/metric.go:ChangeWithTimeStamp", "go/tricorder/metric.go:listType.get"]}
{"id": "C60", "title": "A metric accepted by RegisterMetric can always be read", "statement": "Reading a metric for which RegisterMetric returned nil (in JSON, RPC or text) never panics.", "quantifier": "every registrable variable, callback, flag, list and distribution in every program state", "why_tests_cant": "open set of Go types; reflect panics only when the metric is read", "anchors": ["go/tricorder/metric.go:newValue", "go/tricorder/metric.go:evaluate", "go/tricorder/metric.go:valueToInterface", "go/tricorder/metric.go:IsInfNaN"]}
{"id": "C61", "title": "Metrics report the current value", "statement": "The value that a metric reports is the value of the variable, the result of the callback or the value of the flag at the time it is evaluated: no truncation or reinterpretation, for int and uint on 32 and 64 bit machines, nil time pointers reported as the zero time, flags of unsupported types as their text.", "quantifier": "every registrable type, every value, both word sizes", "why_tests_cant": "all values; both word sizes", "anchors": ["go/tricorder/metric.go:newValue", "go/tricorder/metric.go:AsInterface", "go/tricorder/metric.go:valueToInterface", "go/tricorder/metric.go:valueToTime", "go/tricorder/metric.go:toFlagGetter"]}
{"id": "C62", "title": "Numbers and durations shown in the browser are right", "statement": "The HTML form of every value of a supported type exists; an integer is shown exactly (with thousands separators where there is no unit) or, in compact form, within 0.501 per cent of its value; a duration is shown cut off to the shown granularity, or exactly when negative.", "quantifier": "every value of every supported type and every unit, both word sizes", "why_tests_cant": "all values; float64 division", "anchors": ["go/tricorder/metric.go:valueToHtmlString", "go/tricorder/metric.go:iCompactForm", "go/tricorder/metric.go:uCompactForm", "go/tricorder/metric.go:addSeparators"]}
{"id": "C63", "title": "The text form of a value is exact", "statement": "The text form of an integer, bool, string, duration or time denotes exactly that value: no rounding, also for negative and extreme values (times as long as their number of units fits 64 bits; an unset time is shown as 0).", "quantifier": "every value of every supported type except floats, every unit", "why_tests_cant": "all values", "anchors": ["go/tricorder/metric.go:valueToTextString", "go/tricorder/metric.go:timeToDuration", "go/tricorder/duration/api.go:StringUsingUnits"]}
{"id": "C64", "title": "Times survive conversion to seconds as float64 within a microsecond", "statement": "For every time between 1697 and 2242, duration.TimeToFloat(t) is within a microsecond of t and duration.FloatToTime(duration.TimeToFloat(t)) differs from t by less than a microsecond.", "quantifier": "every time with nanosecond resolution in that range, with or without fused multiply-add", "why_tests_cant": "IEEE rounding; 10^19 inputs", "anchors": ["go/tricorder/duration/api.go:FloatToTime", "go/tricorder/duration/api.go:TimeToFloat", "go/tricorder/duration/duration.go:sinceEpochFloat", "go/tricorder/duration/duration.go:asFloat"]}
{"id": "C65", "title": "JSON, RPC and per-metric requests report the same metrics", "statement": "A JSON listing of a path contains, in path order, exactly the metrics at or below the path, except single values that are NaN or infinite; each entry equals the answer to the singleton request for its path and is the JSON form of the entry of the Go RPC listing, whose entries equal the answers of GetMetric. A metric left out of listings is answered with an error page when asked for alone.", "quantifier": "every reachable registry, path and program state", "why_tests_cant": "all histories and values", "anchors": ["go/tricorder/json.go:jsonHandlerFunc", "go/tricorder/rpc.go:ListMetrics", "go/tricorder/rpc.go:GetMetric", "go/tricorder/metric.go:collect", "go/tricorder/metric.go:GetAllMetricsByPath", "go/tricorder/metric.go:InitJsonMetric"]}
{"id": "C66", "title": "One bad value does not take down the JSON listing", "statement": "Whatever the values of the metrics are, the JSON listing of every path is answered with a list of metrics.", "quantifier": "every reachable registry, path and program state", "why_tests_cant": "all values, lists and distributions", "anchors": ["go/tricorder/json.go:jsonHandlerFunc", "go/tricorder/http.go:handleError", "go/tricorder/messages/metric.go:asJson"]}
{"id": "C67", "title": "The text listing has one line per metric", "statement": "The text listing of a directory consists of one line per metric at or below it (except single values that are NaN or infinite) in path order; each line is the path, a space, and the value as the text request for that path gives it, so that reading lines up to the first space recovers paths and values.", "quantifier": "every reachable registry, directory and program state", "why_tests_cant": "all values and names", "anchors": ["go/tricorder/html.go:textEmitDirectoryOrMetric", "go/tricorder/html.go:textEmitMetric", "go/tricorder/html.go:textEmitDistribution"]}
{"id": "C68", "title": "Total memory never wraps around", "statement": "/proc/memory/total is Sys minus HeapReleased of the last reading of the memory statistics in which HeapReleased does not exceed Sys, and 0 before the first such reading; it is never the wrapped difference.", "quantifier": "every sequence of readings", "why_tests_cant": "readings with HeapReleased > Sys cannot be provoked", "anchors": ["go/tricorder/setup.go:initDefaultMetrics"]}
{"id": "C69", "title": "All default metrics are registered, and nothing else", "statement": "When main starts, every RegisterMetric call of initDefaultMetrics has succeeded although its result is ignored: each metric is found at its path with its own unit, description and group, and no other metric exists.", "quantifier": "both outcomes of counting open files", "why_tests_cant": "results are ignored, so a conflict between two paths would be silent", "anchors": ["go/tricorder/setup.go:initDefaultMetrics", "go/tricorder/metric.go:registerMetric"]}
{"id": "C70", "title": "RegisterFlags reports every flag", "statement": "After RegisterFlags every flag of the application is a metric under /proc/flags, at its name, with the usage text as description and with the unit set by SetFlagUnit or else seconds for durations and none for other types; nothing that was registered before changes.", "quantifier": "every registry, every set of flags and units", "why_tests_cant": "all flag names; errors are ignored", "anchors": ["go/tricorder/metric.go:registerFlags", "go/tricorder/metric.go:flagUnit", "go/tricorder/metric.go:defaultUnit", "go/tricorder/api.go:RegisterFlags"]}
{"id": "C71", "title": "The link to a directory leads to the directory", "statement": "Whoever follows the link that an HTML page shows for a directory gets the page of this directory, whatever characters its name contains.", "quantifier": "every reachable registry and registered directory", "why_tests_cant": "all names; the browser and the router take part", "anchors": ["go/tricorder/html.go:Link", "go/tricorder/html.go:htmlEmitDirectoryOrMetric"]}
{"id": "C72", "title": "The HTML page of a directory shows everything in it once", "statement": "The HTML page of a directory shows, in the order of their names, each directory and each metric in it exactly once: directories with path and link, metrics with path, description, unit (if there is one) and value; a distribution as one row for each range that is not empty, open at the ends, and a summary unless it is empty. The page of a metric shows the same for it.", "quantifier": "every reachable registry, directory, program state and order of map iteration", "why_tests_cant": "all values and registries", "anchors": ["go/tricorder/html.go:htmlEmitDirectory", "go/tricorder/html.go:htmlEmitMetric", "go/tricorder/html.go:HasUnit", "go/tricorder/html.go:ToFloat32", "go/tricorder/metric.go:List"]}
{"id": "C73", "title": "HTML and JSON agree about a metric", "statement": "Whenever the JSON request for a metric succeeds, the HTML page for the same path shows a section with the same path, description, unit, type (element type for lists) and value.", "quantifier": "every reachable registry, path, kind of metric and program state", "why_tests_cant": "all kinds, types and units", "anchors": ["go/tricorder/html.go:htmlEmitMetric", "go/tricorder/html.go:HtmlType", "go/tricorder/html.go:HtmlStrings", "go/tricorder/html.go:AsHtmlString", "go/tricorder/json.go:jsonHandlerFunc", "go/tricorder/messages/metric.go:asJson"]}
{"id": "C74", "title": "Go RPC requests for metrics are answered", "statement": "Whatever metrics a program has registered, ListMetrics for every path and GetMetric for every metric's path get their reply: the reply can be encoded, so the connection is not closed.", "quantifier": "every reachable registry, path, type of metric and program state", "why_tests_cant": "all types a program may declare; the encoder runs outside the library", "anchors": ["go/tricorder/rpc.go:ListMetrics", "go/tricorder/rpc.go:GetMetric", "go/tricorder/messages/api.go:init"]}
{"id": "C75", "title": "Compressed responses go to clients that accept them", "statement": "A JSON response is compressed when the client asks for gzip, and only if the Accept-Encoding headers of the request accept gzip.", "quantifier": "every list of header values", "why_tests_cant": "all header texts", "anchors": ["go/tricorder/http.go:ServeHTTP", "go/tricorder/json.go:initJsonHandlers"]}
{"id": "C76", "title": "A metric read from JSON converts to the Go RPC metric", "statement": "A client that reads the JSON text of a metric into messages.Metric and calls ConvertToGoRPC gets the metric that Go RPC would have sent, with a value of the documented type.", "quantifier": "every kind of metric, value, unit and timestamp", "why_tests_cant": "all values of all types", "anchors": ["go/tricorder/messages/api.go:ConvertToGoRPC", "go/tricorder/messages/metric.go:convertToGoRPC", "go/tricorder/messages/metric.go:asGoRPC", "go/tricorder/messages/metric.go:convertToJson"]}
{"id": "C77", "title": "A client that does not read its response does not hold back the data others get", "statement": "A request that waits for its client to take the response keeps no group from being updated: whoever asks for the group's metrics while nobody else is being served gets data of a new update, not data from before the waiting client's request.", "quantifier": "every set of requests and groups, every interleaving, clients that stop reading at any point", "why_tests_cant": "depends on the timing of other clients and on full network buffers", "anchors": ["go/tricorder/html.go:htmlEmitDirectoryOrMetric", "go/tricorder/html.go:textEmitDirectoryOrMetric", "go/tricorder/json.go:jsonHandlerFunc", "go/tricorder/metric.go:GetAllMetrics", "go/tricorder/metric.go:Visit"]}
{"id": "C78", "title": "Requests that end early release their groups", "statement": "A request of any kind that stops in the middle, because the client is gone or a callback panics, still closes its session: it releases every group it visited, so that later requests are updated as usual.", "quantifier": "every request, every point at which it stops, every interleaving", "why_tests_cant": "every point of failure under concurrency", "anchors": ["go/tricorder/metric.go:GetAllMetrics", "go/tricorder/metric.go:Close", "go/tricorder/html.go:htmlEmitDirectoryOrMetric", "go/tricorder/metric.go:evaluate"]}
{"id": "C79", "title": "Update functions may use the library", "statement": "An update function may itself call the library, for instance read metrics of groups or register update functions: every request still finishes, and every such call returns.", "quantifier": "every set of groups, update functions, calls and requests, every interleaving", "why_tests_cant": "a deadlock depends on which groups call which and on timing", "anchors": ["go/tricorder/metric.go:handleRequests", "go/tricorder/metric.go:handleLockUnlock", "go/tricorder/metric.go:registerUpdateFunc", "go/tricorder/api.go:RegisterUpdateFunc"]}
{"id": "C80", "title": "Time stamps do not go backwards", "statement": "As long as the clock does not go back, the time stamps that readers are shown for a distribution, a list or the metrics of a group do not go back either: a reader that starts after another has returned is not shown an earlier time stamp.", "quantifier": "every execution with any number of goroutines that change and read", "why_tests_cant": "depends on how goroutines interleave", "anchors": ["go/tricorder/metric.go:AddWithTs", "go/tricorder/metric.go:UpdateWithTs", "go/tricorder/metric.go:RemoveWithTs", "go/tricorder/metric.go:ChangeWithTimeStamp", "go/tricorder/metric.go:handleLockUnlock"]}
{"id": "C81", "title": "Durations are counted in the right bucket", "statement": "When the unit of a distribution is seconds or milliseconds, a duration passed to Add, Update or Remove is counted in the bucket whose end points enclose it: the first bucket whose upper end point is above the duration.", "quantifier": "every list of end points, unit, duration and earlier calls", "why_tests_cant": "durations are converted to floating point; the error matters next to end points only", "anchors": ["go/tricorder/metric.go:goDurationToFloat", "go/tricorder/metric.go:valueToFloat", "go/tricorder/metric.go:findDistributionIndex"]}
{"id": "C82", "title": "The text form of a distribution can be read", "statement": "The text that a text request for a distribution gets can be read without ambiguity: it gives minimum, maximum, average, median, sum and count as the other forms do, then for every bucket that contains values, in order, its end points and the number of values in it, and no others.", "quantifier": "every registry, path, list of end points and history of the distribution", "why_tests_cant": "all distributions; empty, first and last buckets are special cases", "anchors": ["go/tricorder/html.go:textEmitDistribution", "go/tricorder/html.go:textEmitMetric", "go/tricorder/metric.go:newBucketerFromEndpoints", "go/tricorder/metric.go:Snapshot"]}
{"id": "C83", "title": "Readers are told whether a distribution is cumulative", "statement": "IsNotCumulative in the messages made of a distribution says how it was created, at any time.", "quantifier": "every distribution and history", "why_tests_cant": "every state, in particular empty ones", "anchors": ["go/tricorder/metric.go:Snapshot", "go/tricorder/metric.go:newDistributionWithTimeStamp", "go/tricorder/metric.go:updateJsonOrRpcMetric"]}
{"id": "C84", "title": "End points of linear and exponential bucketers are where the documentation says", "statement": "End point number i of NewLinearBucketer(count, start, increment) is the float64 number nearest to start + i * increment, and of NewExponentialBucketer(count, start, scale) the one nearest to start * scale^i; the predefined bucketers end at the powers of 2, 4 and 10.", "quantifier": "every count, start, increment and scale", "why_tests_cant": "rounding errors add up over the loop; all floating point numbers", "anchors": ["go/tricorder/metric.go:newLinearBucketerStream", "go/tricorder/metric.go:newExponentialBucketerStream", "go/tricorder/api.go:NewLinearBucketer", "go/tricorder/api.go:NewExponentialBucketer", "go/tricorder/api.go:PowersOfTwo"]}
{"id": "C85", "title": "Whoever asks for a metric by its reported path gets the metric", "statement": "A client that takes the path of a metric from a Go RPC or JSON listing, percent-encodes it and requests it below /metricsapi or /metrics is answered about this metric, whatever characters the path contains.", "quantifier": "every reachable registry, metric and percent-encoding", "why_tests_cant": "all names; the URL passes through decoding, cleaning and routing by net/http", "anchors": ["go/tricorder/json.go:initJsonHandlers", "go/tricorder/html.go:initHtmlHandlers", "go/tricorder/json.go:jsonHandlerFunc", "go/tricorder/html.go:htmlAndTextHandlerFunc", "go/tricorder/metric.go:AbsPath"]}
{"id": "C86", "title": "The average is the mean of the values present, between Min and Max", "statement": "Whenever Count > 0, the reported Average is the mean of the values present up to the rounding of a division, and Min <= Average <= Max.", "quantifier": "every finite history of numbers whose sum does not overflow", "why_tests_cant": "rounding errors add up over unbounded histories; values that left may have destroyed the sum", "anchors": ["go/tricorder/metric.go:add", "go/tricorder/metric.go:update", "go/tricorder/metric.go:remove", "go/tricorder/metric.go:Snapshot", "go/tricorder/metric.go:Sum"]}
{"id": "C87", "title": "Durations shown to people say the duration up to their last digit", "statement": "The text PrettyFormat makes of a duration can be read in one way only; two durations have the same text exactly if they agree up to the last digit shown (1 ns below 10 us, 1 us below 10 ms, 1 ms below one hour, 1 s above); the reader is off by less than that digit and by less than a tenth of the duration; of two durations the longer is never shown as the shorter.", "quantifier": "all pairs of non-negative durations", "why_tests_cant": "relates every two durations, across all changes of format", "anchors": ["go/tricorder/duration/duration.go:prettyFormat", "go/tricorder/duration/api.go:PrettyFormat", "go/tricorder/duration/duration.go:isNegative"]}
{"id": "C88", "title": "Values that look alike in a browser are alike", "statement": "Two values with the same unit that are shown by the same text in a browser are alike: integers without unit are equal and others differ by at most about one per cent, durations agree up to the last digit shown, bools and strings are equal.", "quantifier": "all pairs of values of supported types, and units", "why_tests_cant": "relates every two values, across all formats and suffixes", "anchors": ["go/tricorder/metric.go:valueToHtmlString", "go/tricorder/metric.go:iCompactForm", "go/tricorder/metric.go:uCompactForm", "go/tricorder/metric.go:addSeparators", "go/tricorder/duration/duration.go:prettyFormat"]}
{"id": "C89", "title": "The text form of a value determines it", "statement": "Two integers, durations, times, bools or strings with the same unit that have the same text form are equal, so that a change of the value is always a change of the text.", "quantifier": "all pairs of values of supported types, and units", "why_tests_cant": "relates every two values", "anchors": ["go/tricorder/metric.go:valueToTextString", "go/tricorder/metric.go:timeToDuration", "go/tricorder/duration/duration.go:toString"]}
