{"id": "C01", "title": "Ring buffer behaves like a bounded newest-first list", "statement": "A ring buffer created with any capacity >= 0 and used by any sequence of Add, Resize, Walk and Stats calls gives exactly the answers of a bounded newest-first list: Add puts the value at the front and hands back the oldest value exactly when the buffer was full, Resize(c>0) keeps the c newest values and hands back the rest (newest dropped first), Resize(c<=0) does nothing, Walk visits newest to oldest, Stats returns newest, oldest and count. No call ever panics (no index leaves the buffer).", "quantifier": "every capacity, element type and finite sequence of operations (all sizes, all wrap-around positions)", "why_tests_cant": "the cursor arithmetic depends on the whole history of adds and resizes; tests visit a handful of cursor positions (Resize even wraps by the wrong length, which is only harmless because of an invariant)", "anchors": ["internal/trcringbuf/ringbuffer.go: RingBuffer, NewRingBuffer, Resize, Add, Walk, Stats"]}
{"id": "C02", "title": "Walk calls the callback newest to oldest and stops at the first error", "statement": "For every reachable ring buffer and every (stateful) callback, Walk calls the callback on the values newest first, each exactly once, stops right after the first call that returns an error and returns that error, and otherwise returns nil after visiting every value; the buffer is unchanged.", "quantifier": "every reachable buffer and every stateful callback", "why_tests_cant": "callbacks are arbitrary functions", "anchors": ["internal/trcringbuf/ringbuffer.go: Walk"]}
{"id": "C03", "title": "Every added value is either still held or was handed back exactly once", "statement": "For every history of Add and Resize on a ring buffer of positive capacity, the multiset of values added equals the multiset of values currently held plus the multiset of values returned as dropped: nothing is lost silently, nothing is dropped twice. (With capacity 0, Add discards the value and reports no drop.)", "quantifier": "every history of Adds and Resizes", "why_tests_cant": "conservation is a statement about whole histories; a leak or double return only shows at a particular wrap/resize combination", "anchors": ["internal/trcringbuf/ringbuffer.go: Add, Resize", "collector.go: NewTrace, SetCategorySize, maybeFree"]}
{"id": "C04", "title": "Each category holds exactly its most recent traces", "statement": "After any history of collector operations (new traces in any categories, SetCategorySize with any argument), each category holds, newest first, exactly the traces a bounded list of the current category size would hold: categories do not affect one another, a category once created never disappears, all categories have the same capacity (1000 until the first SetCategorySize with a positive argument), and a SetCategorySize(n<=0) changes nothing.", "quantifier": "every history over every set of category names", "why_tests_cant": "unbounded histories and category sets", "anchors": ["internal/trcringbuf/ringbuffer.go: RingBuffers, GetOrCreate, GetAll, Resize", "collector.go: NewCollector, NewTrace, SetCategorySize"]}
{"id": "C05", "title": "Evicted traces are released once, and only they are", "statement": "For every history of collector operations, the traces on which the collector calls Free are exactly the traces that left a category (by a newer trace pushing them out or by SetCategorySize), each once; a trace still held by the collector has never been freed.", "quantifier": "every history of collector operations", "why_tests_cant": "needs all histories", "anchors": ["collector.go: NewTrace, SetCategorySize, maybeFree"]}
{"id": "C06", "title": "Finish freezes a trace", "statement": "After Finish, no sequence of Tracef, LazyTracef, Errorf, LazyErrorf and Finish calls changes what Finished, Errored, Duration, ID, Source, Category, Started and the event list report (as long as the trace has not been recycled, see the stale-handle property). Finding: of a truncated trace, the time shown for the truncation marker is that of the read, so it differs between reads.", "quantifier": "every trace state, every later call sequence, every clock", "why_tests_cant": "all later call sequences", "anchors": ["trace_core.go: Finish, Tracef, LazyTracef, Errorf, LazyErrorf, Duration, Errored, Finished"]}
{"id": "C07", "title": "Errored means an error event was logged before Finish", "statement": "For every sequence of calls on a fresh trace, Errored() is true exactly when some Errorf or LazyErrorf call precedes the first Finish call - including error calls whose event was not stored because the trace was full.", "quantifier": "every call sequence", "why_tests_cant": "must hold for every order of calls and every truncation point", "anchors": ["trace_core.go: Errorf, LazyErrorf, Errored"]}
{"id": "C08", "title": "Stored events are exactly the first eventsmax events, in order", "statement": "For a fresh trace with event limit M whose limit is not changed, after any sequence of event calls before Finish the trace stores exactly the first M of them, in call order, and counts the rest as truncated; stored plus truncated equals the number of event calls. With SetMaxEvents calls interleaved, the stored events are still an in-order subsequence of the calls and stored plus truncated is still the number of calls; a call is truncated exactly when the number stored so far has reached the limit in force.", "quantifier": "every call sequence, every limit, every interleaving of SetMaxEvents", "why_tests_cant": "all lengths and all limit changes", "anchors": ["trace_core.go: Tracef, LazyTracef, Errorf, LazyErrorf, SetMaxEvents, EventsDetail"]}
{"id": "C09", "title": "What Events() shows of a truncated trace", "statement": "Events() of a trace with nothing truncated returns exactly the stored events; with T>0 truncated it returns the stored events without the oldest one, followed by one non-error marker '(truncated event count T)'. So the list never grows beyond the number stored, and (finding) the marker under-counts: the event removed to make room is not counted, so visible real events + T = calls - 1; and after raising the limit of an already truncated trace the marker sits after events that were logged later than the truncated ones.", "quantifier": "every reachable trace state", "why_tests_cant": "every truncation point; tests accept two different answers", "anchors": ["trace_core.go: EventsDetail, Events"]}
{"id": "C10", "title": "Duration is frozen at Finish and otherwise follows the clock", "statement": "After the first Finish at time t, Duration() is t minus the start for ever; before that it is now minus start. With a non-decreasing clock, durations read are non-negative and non-decreasing over time.", "quantifier": "every call sequence and clock", "why_tests_cant": "all schedules of reads", "anchors": ["trace_core.go: Duration, Finish, newCoreTrace"]}
{"id": "C11", "title": "Eager events are formatted when logged, lazy events once when first read", "statement": "For an event logged with Tracef/Errorf the text returned by every later read is the formatting of the arguments as they were at the time of the call, whatever happens to the arguments later. For LazyTracef/LazyErrorf it is the formatting as of the first read that includes the event, and every later read returns that same text.", "quantifier": "every history of argument mutations and reads", "why_tests_cant": "mutation of arguments between log and read can happen in any order", "anchors": ["trace_core.go: newNormalStringer, newLazyStringer, stringer.String, snapshotEvents"]}
{"id": "C12", "title": "Concurrent readers of a lazy event agree", "statement": "For any number of goroutines concurrently calling String on the same event text, under every interleaving of their atomic loads and compare-and-swaps and even if each formatting produced a different string, all calls that return do so with the same value, no call panics, and that value is one produced by one of the formattings.", "quantifier": "every number of goroutines and every interleaving", "why_tests_cant": "schedules", "anchors": ["trace_core.go: stringer.String"]}
{"id": "C13", "title": "Event limits are clamped and only affect the right traces", "statement": "SetTraceMaxEvents(n) makes traces created afterwards have limit clamp(n,10,10000) and leaves existing traces alone; SetMaxEvents on one trace sets its limit to clamp(n,10,10000) and touches no other trace. A trace has the limit in force when it was made, 1000 if none was set.", "quantifier": "every n and every set of traces", "why_tests_cant": "all integers and histories", "anchors": ["trace_core.go: SetTraceMaxEvents, SetMaxEvents, newCoreTrace"]}
{"id": "C14", "title": "Event stacks: which frames are reported", "statement": "The stack of an event is the captured frames without the last captured one (finding: the loop over the frames never keeps the final frame, so with the 8-slot limit at most 7 frames, and a one-frame capture gives none), minus trc's own Tracef/Errorf/Region/eztrc frames, in order; repeated reads give the same stack; with stacks disabled it is empty. Stacks are enabled by default, and what counts is the last SetTraceStacks before the trace was made, not the settings when the event is logged or read.", "quantifier": "every captured frame list", "why_tests_cant": "all stack shapes", "anchors": ["trace_core.go: getStack, newCoreEvent, ignoreStackFrameFunction, SetTraceStacks"]}
{"id": "C15", "title": "A recycled trace carries nothing over", "statement": "A trace handed out by New is observably pristine - no events, not errored, not finished, nothing truncated, the current limit, stack setting, source, category and start time - whatever state the pooled object it was built from was in.", "quantifier": "every pooled object state", "why_tests_cant": "every prior life of the pooled object", "anchors": ["trace_core.go: newCoreTrace, newCoreEvent, newNormalStringer, newLazyStringer, Free"]}
{"id": "C16", "title": "No trace is both in use by the collector and available for reuse", "statement": "Under every interleaving of concurrent NewTrace, SetCategorySize and Finish calls on collectors, a trace object is never in the reuse pool while it is in a category, being constructed, or waiting to be freed, and is never in the pool twice; an object evicted while unfinished is never recycled.", "quantifier": "every interleaving of any number of goroutines", "why_tests_cant": "schedules", "anchors": ["trace_core.go: coreTracePool, Free, newCoreTrace", "collector.go: NewTrace, SetCategorySize"]}
{"id": "C17", "title": "Stale handles: the 'frozen after Finish' promise ends at eviction", "statement": "Finding: once a finished trace has been evicted and its object recycled, a caller that still holds the old trace writes into a different, live trace: there is a legal history in which Tracef on a finished trace adds an event to another trace. It cannot happen before the trace is evicted: up to then a finished trace stays unchanged.", "quantifier": "every history of collector operations with retained handles", "why_tests_cant": "depends on pool behaviour and eviction timing", "anchors": ["trace_core.go: Free, coreTracePool, Finish", "collector.go: maybeFree"]}
{"id": "C18", "title": "Search results are snapshots, except their stacks", "statement": "The texts, flags and times in a search response never change after the response is returned. Finding: the stack frames do - they share memory with pooled events, and there is a history in which evicting and recycling the trace rewrites the stack inside an already returned response.", "quantifier": "every history after the response", "why_tests_cant": "memory aliasing plus pool reuse order", "anchors": ["trace_core.go: getStack, free, snapshotEvents", "trace_static.go: NewSearchTrace"]}
{"id": "C19", "title": "Filter.Allow is the conjunction of its conditions", "statement": "Allow accepts a trace exactly when each condition that is set holds: source listed, ID listed, category equal, active, finished, finished with at least the minimum duration, not errored, errored, and - when the query is a valid regular expression - some event text, or some frame's function or compact file:line matches. Unset conditions accept everything; adding a condition never admits more; active+finished, success+errored and active+minimum-duration admit nothing.", "quantifier": "every filter, every trace, every regular expression engine", "why_tests_cant": "product of all conditions", "anchors": ["filter.go: Filter, Allow"]}
{"id": "C20", "title": "Query lifecycle of a filter", "statement": "An invalid query is reported once by Normalize, cleared, and from then on the filter behaves as if it had no query; a valid query is compiled once; Allow's verdict on a filter that was normalized or never used depends only on its public fields. Finding: changing Query after the first use has no effect, the old expression keeps being used.", "quantifier": "every filter and query, every sequence of Normalize/Allow calls", "why_tests_cant": "history-dependent hidden state", "anchors": ["filter.go: Normalize, initializeQueryRegexp, Allow"]}
{"id": "C21", "title": "Search request normalization", "statement": "Normalize gives a limit in 1..250 (10 when <=0), a bucketing that contains the requested buckets, starts with 0 and - if no bucket is negative - is ascending; normalizing again changes nothing when no bucket is negative. Finding: with a negative bucket each of any number of Normalize calls adds another bucket 0 and the result is never sorted.", "quantifier": "every request", "why_tests_cant": "all integers and lists; repeated application", "anchors": ["search_types.go: SearchRequest.Normalize"]}
{"id": "C22", "title": "Search returns only matching traces, newest first, within the limit", "statement": "For every collector content, request and map iteration order, every returned trace is a snapshot of a trace in the collector accepted by the filter, exactly as many are returned as the limit allows (all matching ones if they are no more than the limit), no stored trace is returned twice, and they are sorted by start time then ID, newest first.", "quantifier": "every collector state, request, iteration order and sort implementation", "why_tests_cant": "all contents and orders", "anchors": ["collector.go: Search", "trace_static.go: staticTracesNewestFirst, NewSearchTrace"]}
{"id": "C23", "title": "Search returns the newest matches", "statement": "If within each category traces were added in start order, Search returns exactly the `limit` newest matching traces of the whole collector, independent of map iteration order. Finding: when concurrent creators add to a category out of start order, a newer matching trace can be left out in favour of an older one.", "quantifier": "every collector state, request and iteration order", "why_tests_cant": "needs all contents; the failure needs a schedule", "anchors": ["collector.go: Search, NewTrace"]}
{"id": "C24", "title": "Search counts", "statement": "TotalCount is the number of traces held by the collector. MatchCount is the sum over categories of min(limit, matching traces in the category) - so it is the number of matching traces exactly when no category has more than `limit` matches (finding: otherwise it under-reports).", "quantifier": "every collector state and request", "why_tests_cant": "all sizes", "anchors": ["collector.go: Search"]}
{"id": "C25", "title": "The result order is a strict total order on distinct traces", "statement": "The 'newest first' comparison is irreflexive, transitive and its incomparability is an equivalence; two traces are incomparable only if start time and ID are both equal, so for distinct (start, ID) pairs any correct sort yields the same list.", "quantifier": "every pair/triple of traces, every sorting algorithm", "why_tests_cant": "all triples", "anchors": ["trace_static.go: staticTracesNewestFirst.Less"]}
{"id": "C26", "title": "Search statistics count every trace once", "statement": "After observing any list of traces, each category's stats count exactly its traces: active, errored (finished), and per bucket the finished successful traces with at least that duration; bucket counts are non-increasing; event count is the sum of event counts; oldest/newest are the earliest/latest start; with a first bucket of 0 and non-negative durations the total equals the number of traces observed.", "quantifier": "every list of traces and bucketing", "why_tests_cant": "all lists", "anchors": ["search_stats.go: Observe, TotalCount, NewSearchStats, olderOf, newerOf"]}
{"id": "C27", "title": "Merging statistics equals observing everything", "statement": "For equal bucketings, merging the stats of two trace sets gives the same per-category active, errored and bucket counts, oldest and newest, as observing both sets together; merging is commutative and associative on them; nil/uninitialised stats are neutral. Finding: event counts of a category present on both sides are not added - merging any number of stats leaves a named category with the events of the first stats it occurs in -, and the Overall event count is always 0.", "quantifier": "every pair of trace lists, every merge order", "why_tests_cant": "all histories", "anchors": ["search_stats.go: SearchStats.Merge, CategoryStats.Merge, Overall"]}
{"id": "C28", "title": "Merging writes into its sources", "statement": "Finding: a merged category copied from one response shares its bucket array with it, so a later merge changes the first response's statistics, and merging one response repeatedly counts too much: after k+1 merges into fresh statistics the active and errored counts are k+1 times the response's, but every bucket count is 2^k times it, in the response as well. No other field of a source is changed, and merges whose responses have disjoint categories change no source.", "quantifier": "every heap of statistics objects", "why_tests_cant": "aliasing", "anchors": ["search_stats.go: Merge"]}
{"id": "C29", "title": "Multi-search merges all responses, whatever order they arrive in", "statement": "For any searchers (each answering, failing, answering with an error, or answering nothing) and every arrival order, the merged response has the summed total and match counts of the answers, the sorted duplicate-free union of sources, the newest `limit` of all returned traces in order, one problem per failure plus the reported ones; a failing searcher never removes another's results; distinct keys make traces, counts, sources and stats independent of arrival order and problems up to reordering.", "quantifier": "every list of searcher outcomes, every arrival permutation", "why_tests_cant": "schedules", "anchors": ["search_types.go: MultiSearcher.Search"]}
{"id": "C30", "title": "Searching many collectors equals searching one", "statement": "A multi-search over collectors returns the same traces, total count and statistics as one collector holding all their traces (given in-order categories and distinct trace keys). Finding: the match count is the sum of the collectors' capped counts, so it differs.", "quantifier": "every partition of traces over collectors", "why_tests_cant": "all partitions", "anchors": ["search_types.go: MultiSearcher.Search", "collector.go: Search"]}
{"id": "C31", "title": "Multi-search never panics on well-formed requests", "statement": "If no requested bucket is negative, a multi-search over collectors never hits the 'inconsistent buckets' panic. Finding: with one negative bucket it does, and so does any searcher that answers with a different number of buckets.", "quantifier": "every request, every set of collectors", "why_tests_cant": "panics hide in particular inputs", "anchors": ["search_types.go: Normalize, MultiSearcher.Search", "search_stats.go: Merge"]}
{"id": "C32", "title": "TrimStacks keeps exactly the requested frames", "statement": "TrimStacks(0) changes nothing; TrimStacks(d>0) keeps the first d frames of every event's stack; TrimStacks(d<0) removes all stacks; nothing else about the trace changes.", "quantifier": "every trace and depth", "why_tests_cant": "all shapes", "anchors": ["trace_static.go: TrimStacks"]}
{"id": "C33", "title": "Search snapshots of running traces are torn but not wrong about finished ones", "statement": "Under every interleaving of a snapshot with writers: a snapshot that says finished contains the complete final event list and final error flag, and one that says errored is of a trace that has logged an error. Finding: a snapshot can say finished with a duration that is not the final one, and can say not errored while containing an error event.", "quantifier": "every interleaving of the snapshot's reads with writers", "why_tests_cant": "schedules", "anchors": ["trace_static.go: NewSearchTrace"]}
{"id": "C34", "title": "Subscription statistics account for every publish", "statement": "For every history of subscribe, publish, receive and unsubscribe events, a subscription's skips + sends + drops equals the number of traces published while it was active; skips are exactly those its filter rejects; sends are exactly the traces put on the channel.", "quantifier": "every history and every channel capacity", "why_tests_cant": "all interleavings of publishers, consumers and subscribers", "anchors": ["broker.go: Publish, Stream, StreamStats"]}
{"id": "C35", "title": "Subscribers get matching traces in publish order, at most once each", "statement": "What a subscriber has received plus what waits in its channel is exactly the sequence of sent traces in publish order: no duplicates, no reordering, nothing that the filter rejects; if the channel never fills, it is exactly the matching traces published.", "quantifier": "every history", "why_tests_cant": "schedules", "anchors": ["broker.go: Publish"]}
{"id": "C36", "title": "Publish never blocks and subscribers do not affect each other", "statement": "Publish always completes in one step whatever the state of the subscribers' channels, and each subscriber's stats and received traces depend only on the publishes and its own filter, channel capacity and receives.", "quantifier": "every history with any other subscribers", "why_tests_cant": "schedules", "anchors": ["broker.go: Publish"]}
{"id": "C37", "title": "Subscription life cycle", "statement": "A channel has at most one subscription; a second Stream on it fails and leaves the first intact; after Stream returns no further trace is sent to the channel and the returned stats are final; StreamStats works exactly while subscribed.", "quantifier": "every history", "why_tests_cant": "histories", "anchors": ["broker.go: Stream, StreamStats"]}
{"id": "C38", "title": "A single-threaded trace streams each event once and the whole trace at the end", "statement": "If a trace is used by one goroutine, an always-on subscriber with enough room and an accept-all filter receives exactly: one empty trace at creation, one single-event trace per event call (the event just logged, or the truncation marker), and one complete trace at Finish; an IsFinished subscriber receives exactly the complete trace.", "quantifier": "every sequence of event calls followed by Finish", "why_tests_cant": "all sequences", "anchors": ["decorators.go: publishTrace", "broker.go: Publish", "trace_static.go: NewStreamTrace"]}
{"id": "C39", "title": "Streaming a trace used by several goroutines", "statement": "With any number of goroutines logging to one published trace, under every interleaving: every event in a streamed snapshot is an event of the trace (or its truncation marker), without stack; every event call and Finish is followed by a snapshot read after it; so once all calls have returned, the latest event of an active trace (within its limit) has been streamed, and of a finished trace a snapshot with all its events, final duration and final error flag has been streamed. Findings: an event may be streamed twice and another never, and a streamed trace can claim to be finished while holding only one of its events.", "quantifier": "every interleaving", "why_tests_cant": "schedules", "anchors": ["decorators.go: publishTrace", "trace_static.go: NewStreamTrace"]}
{"id": "C40", "title": "Finished traces can be streamed more than once", "statement": "Finding: every call on a collector trace after Finish publishes the complete trace again, so a subscriber for finished traces receives one copy per later call. Exactly once holds iff Finish is called once and nothing is called after it.", "quantifier": "every call sequence", "why_tests_cant": "sequences", "anchors": ["decorators.go: publishTrace"]}
{"id": "C41", "title": "IsActive streams never deliver the finished trace", "statement": "Finding (contradicts the documentation of Stream): a subscriber whose filter has IsActive set never receives a finished trace.", "quantifier": "every history", "why_tests_cant": "all histories", "anchors": ["broker.go: Stream (doc)", "filter.go: Allow"]}
{"id": "C42", "title": "NewStreamTrace on foreign trace implementations", "statement": "NewStreamTrace of a trace that cannot return event details returns the last event (active) or all events (finished) without stacks; finding: on an active trace without events it panics, so a collector whose NewTrace wraps the core trace panics on creating a trace while a subscriber exists; and it erases the stacks inside the original when that returns its own slice (StaticTrace). A streamed trace that is published again at another broker, as a relay does, is delivered there unchanged - except, finding, that the message announcing a new trace (active, without events) makes the relay panic.", "quantifier": "every trace implementation", "why_tests_cant": "all implementations", "anchors": ["trace_static.go: NewStreamTrace", "decorators.go: publishDecorator"]}
{"id": "C43", "title": "Context: the innermost trace wins", "statement": "Get/MaybeGet return the trace most recently Put into the context chain; contexts derived earlier are unaffected by later Puts; with no trace MaybeGet reports false and Get returns a fresh orphan trace that is not injected.", "quantifier": "every tree of derived contexts", "why_tests_cant": "all nestings", "anchors": ["helpers.go: Put, Get, MaybeGet"]}
{"id": "C44", "title": "NewTrace in a context that has a trace adds an event instead", "statement": "Collector.NewTrace with a trace already in the context creates nothing, returns the same context and trace, and adds exactly one '(+ category)' event to it; otherwise the returned trace is fresh, is the newest of its category and is the one in the returned context.", "quantifier": "every collector state and context", "why_tests_cant": "all states", "anchors": ["collector.go: NewTrace"]}
{"id": "C45", "title": "Prefix composes formats and arguments", "statement": "Events logged through nested Prefix traces reach the underlying trace with all prefixes outermost first, separated by one space, followed by the event's own format, and with the prefixes' arguments followed by the event's; a prefix that is blank after trimming changes nothing; the trace's other observers are unchanged. The rendered text is the rendered prefixes followed by the rendered event if each prefix uses exactly its own arguments, that is, if it is text and directives (flags, width, precision, verb) of which just as many have a verb other than a percent sign. Findings: otherwise a prefix steals or leaves arguments, and a prefix ending in a percent sign swallows event text.", "quantifier": "every nesting of prefixes, every format and argument list", "why_tests_cant": "all nestings and formats", "anchors": ["helpers.go: Prefix, prefixTrace"]}
{"id": "C46", "title": "Prefix arguments can be overwritten", "statement": "If Prefix was given an argument slice without spare capacity, the arguments of each event are what the caller passed, for ever. Finding: with spare capacity, lazily formatted events logged through the prefix share one array and a later event overwrites an earlier one's arguments. So do the arguments of two prefixes made from slices of one array.", "quantifier": "every argument slice and event sequence", "why_tests_cant": "aliasing through append", "anchors": ["helpers.go: prefixTrace.LazyTracef"]}
{"id": "C47", "title": "Regions produce properly nested, indented event lists", "statement": "For every tree of regions (with names that are literal text) and events in a context with a trace, the trace gets for each region an opening line, its content indented one level deeper, and a closing line with the duration, in execution order; indentation equals nesting depth. Findings: a percent sign in a name is interpreted as a format; without a trace in the context the region's own lines and its content end up in two separate traces.", "quantifier": "every region tree", "why_tests_cant": "all trees", "anchors": ["helpers.go: Region, Prefix"]}
{"id": "C48", "title": "Decorators preserve the trace", "statement": "Any stack of built-in decorators (publish, log, prefix) leaves ID, source, category, started, finished, errored, duration and the number of events unchanged relative to the bare trace; decorators are applied in the given order (the last one outermost); Free reaches the core trace through log and publish decorators but (finding) not through a prefix; and (finding) SetMaxEvents does not reach it through any decorator, so it has no effect on traces made by a collector.", "quantifier": "every decorator stack and call sequence", "why_tests_cant": "all stacks", "anchors": ["decorators.go", "helpers.go: SetMaxEvents, prefixTrace", "collector.go: NewTrace"]}
{"id": "C49", "title": "Log decorator writes one line per call", "statement": "LogDecorator writes one line at creation, one per event call in call order, and one per Finish, each starting with the trace ID and ending in a newline, error events marked ERROR: (for calls whose format takes exactly their arguments). Findings: calls after Finish still write lines although the trace ignores them; with surplus arguments the text goes on after the newline.", "quantifier": "every call sequence", "why_tests_cant": "all sequences", "anchors": ["decorators.go: logTrace, LogDecorator"]}
{"id": "C50", "title": "Mutex-protected operations are atomic", "statement": "If every operation runs its steps between Lock and Unlock of one mutex, then every interleaved execution ends in the state, and gives every operation the result, of running the operations one after the other in the order in which they took the lock.", "quantifier": "every number of goroutines, every interleaving", "why_tests_cant": "schedules", "anchors": ["internal/trcringbuf/ringbuffer.go", "broker.go", "trace_core.go (all methods Lock/defer Unlock)"]}
{"id": "C51", "title": "The package's own locks cannot deadlock", "statement": "In every reachable state of any number of goroutines that use any number of collectors, brokers and traces, either all calls have returned or some goroutine can proceed, and everything can complete. This assumes that formatting an argument does not call back into the package; finding: formatting runs while the trace lock is held, so a String method that logs to the same trace blocks for ever, one that logs to another trace of the same collector can deadlock with the broker, and one of a lazy argument that creates a trace deadlocks with a search.", "quantifier": "every number of goroutines, every interleaving", "why_tests_cant": "schedules", "anchors": ["internal/trcringbuf/ringbuffer.go", "broker.go: Publish", "trace_core.go: Tracef, EventsDetail", "collector.go: Search"]}
{"id": "C52", "title": "Middleware always records and finishes", "statement": "For every handler behaviour, including panicking, the request's trace gets the request line first, the present headers, exactly one final HTTP event after everything the handler logged and before it is finished, and is finished when the middleware returns; the byte count is the sum of bytes the underlying writer accepted.", "quantifier": "every handler behaviour", "why_tests_cant": "arbitrary handlers", "anchors": ["trcweb/middleware.go: Middleware, interceptor"]}
{"id": "C53", "title": "Recorded status code", "statement": "The recorded code equals the status the client received when the handler sends its (final) header at most once and before the body. Findings: a WriteHeader after the body has started is recorded although the client received 200, a WriteHeader after a Flush likewise, and an informational (1xx) header is recorded as the final code.", "quantifier": "every sequence of WriteHeader and Write calls", "why_tests_cant": "all sequences", "anchors": ["trcweb/middleware.go: interceptor"]}
{"id": "C54", "title": "Filters survive the trip through the URL", "statement": "Encoding a filter into a request URL and parsing it on the server gives back the same filter (an empty list for none), for every filter whose numbers are in range and every string content, provided the URL did not already carry filter parameters. Finding: flags are recognised by presence, so active=false means active.", "quantifier": "every filter and every byte string", "why_tests_cant": "all strings", "anchors": ["trcweb/util.go: encodeFilter, parseFilter", "trcweb/trace_server.go: StreamClient.Stream, handleStream"]}
{"id": "C55", "title": "Query parameters are clamped into range", "statement": "For every parameter string, limit, send buffer and bucketing parsed by the server are in range: n in 1..250 (10 if unparsable), sendbuf in 0..100000 (100 if unparsable), bucketing ascending from 0 when non-negative. Finding: a client send buffer of 0 is not sent, so the server uses 100; and a non-positive stats interval is passed to the ticker, which panics.", "quantifier": "every string", "why_tests_cant": "all strings", "anchors": ["trcweb/util.go: parseRange, parseDefault, parseBucketing", "trcweb/trace_server.go: handleSearch, handleStream, StreamClient.initialize"]}
{"id": "C56", "title": "Remote search equals local search", "statement": "Decoding the JSON of any search request gives back the request, and decoding the JSON of any trace or search response gives back that value, up to nil-versus-empty lists, provided its strings are valid UTF-8, its times can be written and (for a request) its filter has not been used. So a search of a collector through the HTTP client with non-negative buckets returns exactly what searching the collector directly returns, except for Problems. Finding: problems with the request (an invalid query) that a direct search reports are lost through the client. Finding: bytes that are not valid UTF-8 are replaced, which can merge two categories. Finding: a negative bucket adds a bucket through the client. Finding: a filter used before its query was changed searches for the old query directly and for the new one through the client.", "quantifier": "every request and response", "why_tests_cant": "all values", "anchors": ["trcweb/trace_server.go: handleSearch, SearchClient.Search", "search_types.go", "trace_static.go", "filter.go (json tags)"]}
{"id": "C57", "title": "The search handler reports failures", "statement": "For a searcher that answers, the handler renders the answer and its problems. Finding: for a searcher that returns an error the handler does not report it but dereferences a nil pointer.", "quantifier": "every searcher outcome", "why_tests_cant": "error paths", "anchors": ["trcweb/trace_server.go: handleSearch"]}
{"id": "C58", "title": "Event deltas add up", "statement": "The rendered event list starts with one start event and ends with one end event, contains each event in order, and the deltas up to and including any row sum to that row's offset from the start - over the whole list, to the trace duration.", "quantifier": "every trace", "why_tests_cant": "all lists", "anchors": ["trcweb/render.go: renderEvents"]}
{"id": "C59", "title": "Content negotiation", "statement": "A request is streamed iff its Accept header lists text/event-stream; otherwise HTML is rendered iff text/html is listed and no json parameter is present; JSON in all other cases.", "quantifier": "every header", "why_tests_cant": "all headers", "anchors": ["trcweb/render.go: renderResponse, requestExplicitlyAccepts", "trcweb/trace_server.go: Categorize, ServeHTTP"]}
{"id": "C60", "title": "Stream client configuration", "statement": "After initialization the send buffer is in 0..100000, the retry and stats intervals in 1s..60s (3s and 10s when unset), the URI non-empty starts with http; initializing again changes nothing.", "quantifier": "every configuration", "why_tests_cant": "all values", "anchors": ["trcweb/trace_server.go: StreamClient.initialize"]}
{"id": "C61", "title": "Truncated durations", "statement": "TruncateDuration(d) is at most d and within the precision of its range, is monotone in d, and truncating twice changes nothing; negative durations are unchanged.", "quantifier": "every duration", "why_tests_cant": "all 2^64 values", "anchors": ["internal/trcutil/humanize.go: TruncateDuration"]}
{"id": "C62", "title": "Compact file:line", "statement": "For every frame, CompactFileLine does not panic; for a file path without a colon it is the package prefix (if any), a slash, the last two path elements of the file, a colon and the line. Finding: a path that contains a colon (C:/...) is not compacted.", "quantifier": "every function name and file:line string", "why_tests_cant": "all strings", "anchors": ["trace.go: CompactFileLine, pkgPrefix, pathSuffix"]}
{"id": "C63", "title": "Trace IDs increase with creation", "statement": "While the clock does not go back and lies between 1970 and the year 10889, the IDs of successively created traces are strictly increasing as strings, hence unique, and newest-first order agrees with creation order, for every entropy except 80 zero bits. Outside that range of times, and when the entropy counter of a millisecond overflows, creating a trace panics. Finding: 80 zero bits drawn twice in one millisecond, or a clock that goes back and forward, can give the same ID twice; after a recovered overflow the next ID is smaller.", "quantifier": "every clock history and entropy", "why_tests_cant": "all entropy values", "anchors": ["trace_core.go: newCoreTrace, traceIDEntropy", "trace_static.go: Less"]}
{"id": "C64", "title": "CLI stream filter", "statement": "trc stream without --events only forwards finished traces; with --events it forwards both; the other filter flags are passed on unchanged. Finding: with --events, a --duration filter still only passes finished traces.", "quantifier": "every flag combination", "why_tests_cant": "all combinations", "anchors": ["cmd/trc/stream.go: Exec", "cmd/trc/main.go"]}
{"id": "C65", "title": "Rates: right for one source, too high after merging", "statement": "The trace rate of a category whose statistics were only observed is its number of traces per second since its oldest trace started, and likewise for events; a rate that was read once is reported unchanged from then on, whatever is observed later. After merging the statistics of several sources the reported trace rate is the rate of the first two together plus the own rate of every source but the first, and the reported event rate is the events of the first since the oldest start of the first two plus the own rate of every source but the first. Merging empty statistics changes nothing, and merging into empty statistics takes the rates over. The overall rates of traces and of events are the sums of the rates of the categories. Finding: so merging two sources always reports more traces per second than there were.", "quantifier": "all statistics of any non-empty sets of started traces, all clock readings after the oldest start, any number of merged sources or categories", "why_tests_cant": "the value depends on clock readings, on which rates were read before and on every earlier merge; tests compare rates for one arrangement", "anchors": ["search_stats.go: CategoryStats.TraceRate, CategoryStats.EventRate, CategoryStats.Merge, SearchStats.Overall"]}
{"id": "C66", "title": "Human-readable durations", "statement": "The human-readable text of a duration, read back as a duration, is exactly the truncated duration; from one hour up it is written as hours and minutes only.", "quantifier": "every 64-bit duration, negative ones included", "why_tests_cant": "the text is cut by matching its last characters, so whether a digit of the value is ever cut off depends on every value", "anchors": ["internal/trcutil/humanize.go: HumanizeDuration, TruncateDuration"]}
{"id": "C67", "title": "Streaming over HTTP", "statement": "The traces a StreamClient puts on its user's channel are, in publish order, traces published while the server's handler was subscribed that match the filter, except those of the stream request's own trace, and as JSON leaves them. Nothing the server's broker accepted for the connection is lost unless a trace cannot be encoded or written or the client's context is cancelled: if the stream statistics show no drops and nothing is on its way, the client got all of them, and as long as handler and client run everything accepted can still arrive. Every event sent can be decoded by the client, statistics events carry statistics that the subscription had, and there is at most one init event. Once the handler has returned its subscription is gone for good; when its context is done it can always return. Finding: with a stats parameter that is not positive the handler panics but does not return, and its subscription stays, until the request itself is cancelled, because it waits for the subscription to end before it cancels it.", "quantifier": "every interleaving of the handler, its goroutine, the client, cancellations and all other operations on the broker; every filter, send buffer, stats interval and failure of a write", "why_tests_cant": "the handler's select loop, the subscription goroutine, publishers and the client run concurrently, and what is lost or duplicated depends on when each of them moves", "anchors": ["trcweb/trace_server.go: TraceServer.handleStream, StreamClient.Stream", "broker.go: Broker.Stream, Broker.Publish, Broker.StreamStats"]}
{"id": "C68", "title": "Event text on the search page is text", "statement": "Whatever bytes an event's text consists of, the HTML the search page writes for it reads back as exactly that text (a NUL byte as U+FFFD) and contains no element other than line break opportunities; two different texts never give the same HTML. Highlighting the matches of the page's query keeps text that contains neither < nor &. Finding: highlighting puts the text of a matching event back into the page as HTML, so that elements written in an event's text become elements of the page; where the text itself has the tags of a mark, a blank is shown instead of each.", "quantifier": "every event text, every query (as a function that finds its first match)", "why_tests_cant": "whether some combination of escaping followed by inserting breaks lets markup through, or spoils a character reference, depends on every byte string", "anchors": ["trcweb/assets/traces.html: highlightQuery, the searchable span", "trcweb/render.go: templateFuncs HTMLEscape and InsertBreaks, breaksReplacer"]}
{"id": "C69", "title": "Following a link of the search page", "statement": "If the query, the sources and the category contain none of & + # ; and no percent sign before two hexadecimal digits, then following a link in the table of categories makes the search of the page (limit, query, sources, bucketing) with exactly the category, active, errored or minimum duration selection the link stands for. The links beside a trace select exactly its source, its category, byte for byte, and its id. Findings: a plus sign in the query arrives as a space, an ampersand ends the query, a hash sign also loses the sources and the selection, and the row of a category that is called overall selects all categories.", "quantifier": "every normalised search request, category, duration, source and id", "why_tests_cant": "links are glued from text without escaping it, so whether they mean what they say depends on every byte of every query, source and category", "anchors": ["trcweb/assets/traces.html: $query_params, $category_query_params, href attributes", "trcweb/render.go: templateFuncs SafeURL", "trcweb/util.go: parseFilter", "trcweb/trace_server.go: handleSearch"]}
{"id": "C70", "title": "Submitting the search form of the search page", "statement": "Submitting the search form unchanged makes a search with the limit, query, flags, minimum duration and category of the page, whatever bytes they contain, and with the first source if it is one of several that answered; it repeats the search exactly if there are no ids, no stack depth, the default bucketing, a category other than overall and at most one source, one of several that answered. Findings: the form forgets ids, bucketing and stack depth, all sources but the first, and the source if at most one source answered.", "quantifier": "every normalised search request and every list of sources in the response", "why_tests_cant": "the form is assembled field by field from the request, and whether a field survives depends on every combination of fields and every byte of the text", "anchors": ["trcweb/assets/traces.html: search-form, onsubmit", "trcweb/util.go: parseFilter", "trcweb/trace_server.go: handleSearch"]}
{"id": "C71", "title": "The debug counters account for every trace, event and text", "statement": "At any moment, under any interleaving of goroutines that create traces, log, finish, change category sizes and free what is pushed out, and whatever the pools and the garbage collector do: the counter of new traces equals the number of traces ever created; it equals FREE + LOST + the traces stored in categories + the traces on their way in or out; ALLOC equals the number of distinct objects; for each kind ALLOC <= NEW, NEW - ALLOC <= FREE and FREE + LOST <= NEW, and counters never decrease. Every event asked for was freed, or belongs to a trace that is stored, on its way, or was given up; texts go with their events. With goroutines at rest and nothing given up, NEW - FREE is exactly what the categories hold. Finding: the LOST counters of events and texts are never incremented, although the events of a given-up trace are never freed. Finding: the debug page loads the counters one by one, so it can show FREE > NEW and a reuse above 100%. Of counters loaded at one moment the page shows as REUSE the percentage of FREE in NEW up to the rounding of float64, from 0 to 100 (NaN before the first object); really reused was at most that part. Finding: it is what was given back, not what was reused: it can be large although every object was allocated.", "quantifier": "all programs of any number of goroutines, all schedules, all choices of the pools and of the garbage collector", "why_tests_cant": "The counters are updated at different places by concurrent goroutines; a balance that holds in a sequential test says nothing about all interleavings and pool behaviours.", "anchors": ["internal/trcdebug/counters.go", "trace_core.go:coreTracePool, newCoreTrace, Free", "trace_core.go:coreEventPool, newCoreEvent, free", "trace_core.go:stringerPool, newNormalStringer, newLazyStringer", "trcweb/render.go:debugInfo"]}
{"id": "C72", "title": "trc search prints the newest matching traces of all servers that answer", "statement": "A trc command asks exactly the addresses it was given, in that order (without the white space of Unicode around it, with a scheme, and with the path replaced if --uri-path is set), or it fails before asking any because there is none or one cannot be parsed. Finding: a blank address is not dropped: it is asked as it is, with http:// before it. For any servers, each with a collector of any history whose strings are valid UTF-8, whichever of them answer over HTTP and in whatever order, trc search never panics and prints: the newest traces (at most the limit) among all traces held by the servers that answered that meet the conditions the flags state, with at most the requested number of stack frames per event (none for 0); the number of traces those servers hold; their sources, alphabetically and once each; one problem for each server that failed besides the problem of an invalid query; the request and the statistics exactly if asked for, the statistics describing all the traces held. If all servers answer, traces, total and problems are those of one collector holding all their traces. A server always answers if the times it holds can be written.", "quantifier": "all flags, limits and depths, all numbers of servers with all collector histories, all subsets that answer, all arrival orders, map orders and sorting algorithms, all JSON encodings of the exchanges, all address lists", "why_tests_cant": "It composes flags, normalization, two JSON round trips, the server's search and the merge for all histories and all arrival orders; a test fixes a few traces and one order.", "anchors": ["cmd/trc/main.go:exec", "cmd/trc/search.go:searchConfig.Exec", "trcweb/trace_server.go:SearchClient.Search", "search_types.go:MultiSearcher.Search", "collector.go:Collector.Search"]}
{"id": "C73", "title": "trc stream prints what it receives, goes on until cancelled, and then ends", "statement": "For any number of addresses and any buffer size: until it is cancelled, trc stream prints for each address exactly the traces its client receives, each once and in order; those not printed yet are in the local buffer (at most its size) or are one trace per address waiting for room, and all of them can be printed without anything further happening. At all times what is printed for an address was received in that order, and what was printed stays printed. However often streams fail, no stream and not the writer stop before cancellation, and a stream that waits to retry can always retry. Once cancelled, the command can end from every state without printing, receiving or needing room in the buffer, and after the end nothing is printed. Findings: traces in the buffer at cancellation may be lost although nothing keeps the writer from printing them; after cancellation a trace may be left out although a later one is printed; a stats interval that is not positive, or a negative receive buffer, ends the program with a panic.", "quantifier": "all numbers of addresses, buffer sizes, sequences of received traces, failures and retries, and all interleavings of the streams, the writer and the cancellation", "why_tests_cant": "Loss and order depend on the interleaving of all streams with the writer and the cancellation; a test sees a few schedules.", "anchors": ["cmd/trc/stream.go:streamConfig.Exec", "cmd/trc/stream.go:runStreams", "cmd/trc/stream.go:runStream", "cmd/trc/stream.go:writeTraces", "trcweb/trace_server.go:StreamClient.Stream"]}
{"id": "C74", "title": "The summary table counts the traces it says it counts", "statement": "The table at the top of the search page has one row for every category that holds a trace, in alphabetical order, and then one row called overall for all traces. In each row the numbers of active, errored, total and at-least-this-long traces are the numbers of such traces of the row, under as many columns as the header has; percentages are between 0 and 100 and rounded down; oldest and newest are those of the row's traces, n/a if there are none. On a page without query and sources, the link of a row finds exactly the traces the row counts and the link of the active number as many as the number says. Finding: the link under an errored number also finds active traces that have an error, and the link under a duration also finds failed traces that took that long, so both may find more than the number says. Finding: the links of a category called overall (and of the empty category) find the traces of all categories. Finding: before anything is collected the percentages come from the conversion of a NaN to int, which Go leaves to the implementation.", "quantifier": "every normalized request, every set of traces with non-negative durations, every order of map iteration and every correct sort", "why_tests_cant": "Map iteration order and trace sets are unbounded; a test renders a few fixed pages and does not compare every number with the search behind it.", "anchors": ["search_stats.go:AllCategories", "search_stats.go:Overall", "trcweb/render.go:PercentInt", "trcweb/assets/traces.html:summary"]}
{"id": "C75", "title": "What a search shows is what the program logged", "statement": "However goroutines that create traces in collectors, log through them, finish them, read them and change category sizes are interleaved, and whatever objects the pools hand out: if every trace is used only until it is finished, or while a collector still holds it, then every category holds the traces last put into it, newest first, and each is exactly what the calls made through it say, starting from how it was created; the same is true of every trace that is not finished, held or not, and of every result of Events. If nobody changes the category size, a search at any moment finds, newest first and as many as its limit allows, matching traces among the 1000 last put into their category, and shows for each the source, ID, category and start it was created with, finished iff Finish was called, errored iff an error was logged before that, the time up to the first Finish or now, and the events of its calls. Finding: without the condition it is false, because a call through a trace that was finished, dropped and recycled shows up in another trace.", "quantifier": "all programs of any number of goroutines, all schedules, all choices of the pools and the garbage collector, all requests, all moments", "why_tests_cant": "It is about every interleaving of every program, and the effects of recycled memory only show in rare schedules.", "anchors": ["collector.go:NewTrace", "collector.go:Search", "collector.go:SetCategorySize", "trace_core.go:newCoreTrace", "trace_core.go:Finish", "trace_core.go:Events", "trace_core.go:Free", "internal/trcringbuf/ringbuffer.go:Add", "internal/trcringbuf/ringbuffer.go:Resize"]}
{"id": "C76", "title": "What is published about a trace is about that trace", "statement": "After every call on a trace of a collector, and after Finish, the collector publishes the trace to its subscribers, and the log decorator writes the outcome after Finish. Whatever other goroutines do: as long as nobody finished the trace, what is published about it is what was done through it; after Finish, as long as the trace has not been dropped from its category and freed, in which case it still has its own object. Finding: Finish reads the trace again after it is marked finished. If in between another goroutine creates a trace that pushes it out of its category and one that reuses its object, the message about the finished trace shows the other trace (ID, category, not finished, not errored, other events), though nobody used a trace after finishing it.", "quantifier": "all programs of any number of goroutines, all schedules and moments, all choices of the pools", "why_tests_cant": "The wrong message needs a particular interleaving between Finish and Publish.", "anchors": ["decorators.go:publishTrace.Finish", "decorators.go:logTrace.Finish", "trace_core.go:Finish", "trace_core.go:Free", "collector.go:NewTrace"]}
{"id": "C77", "title": "No data races in properly used traces", "statement": "If every goroutine learns of a trace after its creation, calls ID, Source, Category and Started only before Finish may be called, and does not use a trace after its memory was recycled, then no two accesses to memory that goroutines make through NewTrace, the trace methods, SetCategorySize and Search conflict without being ordered by happens-before, whatever the interleaving. Findings: (1) ID, Source, Category and Started take no lock although the object is recycled and rewritten, so calling one of them concurrently with Finish is a data race once the trace is pushed out, even if the call returned before the memory was recycled; (2) using a trace after it was finished and pushed out is a data race with the creation of the next trace; (3) the stack frames that Events returns alias memory of the trace, so reading a result is a data race, and its content changes, after the trace is recycled.", "quantifier": "every set of goroutine programs of NewTrace, trace methods, SetCategorySize and Search calls and of their own sends and receives, every interleaving, every choice of pooled objects, order of categories and order of getters in a search", "why_tests_cant": "The race detector reports only races of the executions it sees; absence of races is about the happens-before order of all executions, and the races found need an eviction and a reuse of pooled memory at the right moment.", "anchors": ["trace_core.go:coreTrace", "trace_core.go:newCoreTrace", "trace_core.go:Free", "trace_core.go:newCoreEvent", "trace_core.go:getStack", "internal/trcringbuf/ringbuffer.go:RingBuffer", "internal/trcringbuf/ringbuffer.go:RingBuffers", "collector.go:NewTrace", "collector.go:Search", "collector.go:SetCategorySize"]}
{"id": "C78", "title": "Searchers share a request without writing it", "statement": "A MultiSearcher normalizes the search request once and then hands the same pointer to all its searchers, which run concurrently and each normalize it again. If no bucket is negative, no goroutine then writes to the request, its filter or its buckets, whatever the interleaving, and every searcher uses exactly the buckets, limit, filter and stack depth of the normalized request. Searches that have requests of their own without buckets all sort the package variable DefaultBucketing in place at the same time: it is never written, they do not interfere, and each behaves as it does alone. Findings: with a negative bucket the normalized request is not in order, so every searcher sorts and extends the shared request again, a data race after which searchers use different numbers of buckets; and a request that was not normalized before it is given to two concurrent searches can lose a bucket.", "quantifier": "every request, every regexp compiler, every sorting algorithm that sorts and swaps nothing in a sorted slice, every number of searchers and of traces they visit, every interleaving of single loads and stores", "why_tests_cant": "Whether a write happens depends on the request and the sorting algorithm, and whether it disturbs another searcher on the interleaving; the harmful ones are a few among very many.", "anchors": ["search_types.go:MultiSearcher.Search", "search_types.go:SearchRequest.Normalize", "search_types.go:DefaultBucketing", "filter.go:Filter.Normalize", "filter.go:initializeQueryRegexp", "collector.go:Search", "trcweb/trace_server.go:SearchClient.Search"]}
{"id": "C79", "title": "Sizes and rates shown to people are close to the truth", "statement": "The text HumanizeBytes makes of a number of bytes can be read back, says the number exactly below 1 KB and is off by at most five percent (half a percent from 100 KB to 1 MB and from 100 MB on) above, never shows more bytes as fewer, and takes at most seven characters below 9999 MB. The text HumanizeFloat makes of a rate from 0 to 1 million is off by at most half of its last digit, never shows a higher rate as lower, is 0 exactly for rates up to 1/20, and takes at most five characters. Findings: the promised three to four characters are exceeded (9990 is 10.0K, 999600 is 1000K); 32756 is 33K, not 32K as the comment says; 1048575 bytes are 1024KB although 1048576 are 1.0MB, and 102399 bytes are 100.0KB although 102400 are 100KB.", "quantifier": "every number of bytes that is a float (up to 2^53), every finite nonnegative rate, every way of rounding quotients to floats that is monotone, keeps integers and is accurate to one part in 2^52", "why_tests_cant": "The claims are about all numbers and pairs of numbers; the errors sit at the boundaries of units after rounding.", "anchors": ["internal/trcutil/humanize.go:HumanizeBytes", "internal/trcutil/humanize.go:HumanizeFloat"]}
{"id": "C80", "title": "The text of a filter or a search request tells what it asks for", "statement": "The text form of a filter is \"(allow all)\" exactly when the filter states no condition, and such a filter accepts every trace. Two filters, or two search requests, with the same text state the same conditions (and ask for the same buckets, limit and stack depth), and those that ask for the same have the same text, as long as no category or query contains a quote and no source contains a space or a closing bracket. Finding: the trace IDs of a filter are not in its text (its sources are printed in their place), so filters for different traces look the same; texts with quotes are ambiguous; a filter whose query is emptied after being normalized says \"(allow all)\" but still applies the old expression.", "quantifier": "all filters and search requests, all traces", "why_tests_cant": "A test compares a few texts; that no two different requests share one is a statement about all pairs of requests.", "anchors": ["filter.go:Filter.String", "filter.go:Filter.Allow", "search_types.go:SearchRequest.String"]}
{"id": "C81", "title": "Programs that use the easy interface: every event reaches the trace of its context", "statement": "Whatever a program does through package eztrc and the settings of its collector (with log decorators): nothing panics; every context stands for the trace made by the nearest New above it, with the prefixes added since; every trace has the source name that was set when it was made (\"default\" to begin with) and the category asked for, was made with the event limit and stack setting in force then, and has received exactly the calls made through its contexts, in order, as long as the collector holds it; the collector holds the most recent traces of each category, and a new trace is the newest of its category. Events in a context without a trace are lost: no trace, stream, log or collector sees them. Finding: Prefix or Region in a context without a trace puts an orphan trace into the context, and a New after that makes no trace in the collector. Finding: SetSourceName and SetNewTrace do not apply the defaults that NewCollector applies (an empty source, a nil function that panics at the next New).", "quantifier": "all programs (sequences of calls over any number of contexts derived from each other), all categories, formats and arguments, all clocks and map orders", "why_tests_cant": "The claim is about every sequence of calls on every tree of contexts; a test runs a few.", "anchors": ["eztrc/easy.go:New", "eztrc/easy.go:Tracef", "eztrc/easy.go:Prefix", "eztrc/easy.go:Region", "collector.go:NewCollector", "collector.go:Collector.SetSourceName", "collector.go:Collector.SetNewTrace", "collector.go:Collector.SetDecorators", "collector.go:Collector.SetCategorySize"]}
{"id": "C82", "title": "Closing the channel of a subscription", "statement": "A program that closes a channel after the last Stream on it has returned (the idiom of the repository's tests) is safe: every call to the broker returns exactly what it returns if nobody closes anything, no publish panics because of it, and every channel gets the same traces. In general a publish panics exactly if somebody has closed a channel whose subscription is still active, or has subscribed to a closed channel, and the filter of that subscription accepts the trace. Closing itself panics exactly if the channel was closed before. Finding: the panic happens in the goroutine that logs, and a subscriber that comes later in the iteration order gets nothing although it has room, and its statistics count nothing.", "quantifier": "every history of Stream, cancellations, publishes, statistics, receives and closings; every map order", "why_tests_cant": "histories and map orders", "anchors": ["broker.go:Publish", "broker.go:Stream"]}
{"id": "C83", "title": "What is selected is highlighted in the summary table", "statement": "On a search page whose search selects a category, active or errored traces, or a minimum duration, the cells of the summary table that are highlighted are exactly those in the row of that category and in the column of that flag or duration: a whole row, a whole column with its header, or one cell. If none of these is selected the last row is highlighted, and on a page for given ids nothing is. Following a link of the table leads to a page that highlights the row, the column or the cell of the link. Conditions: no other category of the table has the same SHA-256, the minimum duration is not negative and a whole number of the unit it is written in. Finding: a minimum duration such as 1.5s gives a style sheet that browsers cannot read, because the dot begins another class, so nothing is highlighted, not even the selected category; nor is anything if the duration is negative.", "quantifier": "all searches, all bucketings, all sets of categories of a response, all cells of the table, all hash functions that write hexadecimal digits", "why_tests_cant": "The selectors are put together from text of any duration and category, and a single character decides whether the browser reads the rule; tests compare the HTML of a few pages.", "anchors": ["trcweb/render.go:highlightClasses", "trcweb/render.go:categoryClass", "trcweb/assets/traces.html:HighlightClasses"]}
{"id": "C84", "title": "What collectors hold is bounded by their settings", "statement": "If no category size above S (at least the default of 1000) and no event limit above E (at least 10) is ever set, then at every moment, whatever goroutines do, a category holds at most S traces, no trace holds more than E events, and all categories together hold at most S traces and S*E events for each category name that was used; each name has one category. Because limits are cut, no trace ever holds more than 10000 events, whatever is asked for. Finding: the number of categories is not bounded by anything and no category is ever removed: for every n there is a program that makes n categories, each with room for 1000 traces, so a program that makes categories from its input (paths, user names) keeps memory for all of them.", "quantifier": "all programs of any number of goroutines and collectors, all schedules, all sizes and limits", "why_tests_cant": "The bound is about every schedule and every sequence of settings; tests observe a few moments.", "anchors": ["collector.go:Collector.NewTrace", "collector.go:Collector.SetCategorySize", "internal/trcringbuf/ringbuffer.go:RingBuffers.GetOrCreate", "trace_core.go:SetTraceMaxEvents", "trace_core.go:coreTrace.SetMaxEvents"]}
{"id": "C85", "title": "The searcher and the streamer that a server uses", "statement": "A server made by NewTraceServer, or whose Searcher and Streamer are both provided, is never written while it serves: in every interleaving of requests each one uses the configured value and there is no data race. Calls panic exactly if the collector given to NewTraceServer is nil. If a field is not provided, requests set it to the collector: in every interleaving a method is called on what should be used, or on a nil collector; never on anything else; and once one request has set the fields and nobody is in the middle of an access, every later call is right. If interface values were accessed as a whole every call would be right. Finding: with a field that is not provided (documented as allowed, and done in the repository's example) any two requests race on it, and one of the first requests can be served by a nil collector, which panics, although there is a collector. Finding: a Collector that is set after the first request, or after NewTraceServer(nil), is ignored.", "quantifier": "all servers, any number of requests of both kinds with any number of method calls, all schedules, all orders of the word accesses", "why_tests_cant": "The failure needs a particular interleaving of two first requests inside one assignment.", "anchors": ["trcweb/trace_server.go:TraceServer.initialize", "trcweb/trace_server.go:NewTraceServer", "trcweb/trace_server.go:TraceServer.ServeHTTP"]}
{"id": "C86", "title": "A stream that reconnects repeats and reorders nothing", "statement": "When the connection of a StreamClient breaks, the event source connects again while Stream is running. Over all the connections of one call of Stream together, the traces put on the caller's channel are matching traces that were published on the server, in publish order and each publication at most once, even while the handler of the broken connection still runs beside the new one. If each connection was idle when it broke, without drops and failed writes, the caller gets everything that was published while one of the connections was subscribed. Finding: the events carry no ID, so what is published between two subscriptions is lost without a trace: no statistics show it, and Stream does not return.", "quantifier": "all numbers of connections, all schedules of each handler, publishers, other subscribers and the client, all points where a connection breaks, all channel capacities, filters and stats intervals", "why_tests_cant": "a connection can break at any point of the handler's and the client's execution, any number of times, and the old handler overlaps with the new one for any time; a test sees a few of these", "anchors": ["trcweb/trace_server.go:StreamClient.Stream", "trcweb/trace_server.go:TraceServer.handleStream", "broker.go:Broker.Stream"]}
{"id": "C87", "title": "Watching a program from elsewhere, event by event", "statement": "While a StreamClient is connected to a collector's server without a filter, a trace that the program makes and uses from one goroutine reaches the client's channel as: an empty trace when it is made, one trace for every event call, holding just that event (or the truncation marker, once the event limit is reached), and the whole trace for Finish, with the right source, ID, category, start time, error flag, duration and texts, as JSON leaves them. At any moment the client has got a subsequence of this, in order; when nothing is on its way, and nothing was dropped or failed, it has got exactly this. With a filter it is the matching ones.", "quantifier": "all collectors and their contents, all categories, event kinds, formats, arguments, times, event limits and sequences of calls of one goroutine; all interleavings with other operations on the broker and all schedules of handler and client", "why_tests_cant": "a composition of logging, snapshots, the broker, the HTTP handler, JSON and the client, for arbitrary programs, texts and schedules", "anchors": ["collector.go:Collector.NewTrace", "decorators.go:PublishDecorator", "broker.go:Broker.Publish", "trcweb/trace_server.go:TraceServer.handleStream", "trcweb/trace_server.go:StreamClient.Stream"]}
{"id": "C88", "title": "A stream client can cope with any server", "statement": "Whatever a server sends, StreamClient.Stream calls OnRead once for each event it reads, in order, also for the one it fails on; puts the traces of the trace events on the user's channel in that order, each right after its OnRead; ignores events of types it does not know, apart from a line in its own trace; returns an error exactly where reading failed or a trace or stats event could not be decoded, naming which, after an error line at the end of its own trace; and returns nil only where its event source was closed, so only after its context was cancelled. Before that no trace is left out; after that it can always end. Every event of a trc server can be decoded, so such a server never makes it fail. Finding: when Stream returns an error it has not closed its connection, which stays open until the context is cancelled, if ever.", "quantifier": "all sequences of results of reading from the connection, all decoders, all moments of cancellation", "why_tests_cant": "tests talk to well-behaved trc servers; the claim is about every sequence of events, errors and cancellations", "anchors": ["trcweb/trace_server.go:StreamClient.Stream", "broker.go:StreamStats.String"]}
{"id": "C89", "title": "A search beside other goroutines", "statement": "Collector.Search may run while other goroutines create traces, log to them and change the category size. Whatever they do and however their steps fall between its Walks, the search never panics and visits each trace at most once. Every trace it counts was held by the collector at some moment of the search, and every trace held at all moments of the search is counted. Its statistics are those of one look at each visited trace. It returns at most the limit, newest first, and no trace twice; each returned trace was accepted by the filter at one look and is shown as it was at the next. If fewer than the limit are returned, every visited trace that was accepted is among them. With nobody else around, it is exactly the search of C22 to C24. Finding: the result need not be what the collector held at any one moment. A trace put later can be found without one put earlier, when the earlier one goes into a category that has been walked.", "quantifier": "all collectors reachable from an empty one, all steps of other goroutines between the Walks, all states of the traces at each look, all filters, limits and map orders", "why_tests_cant": "The interleavings of a search with other goroutines are unbounded and cannot be forced from a test.", "anchors": ["collector.go:Collector.Search", "collector.go:Collector.NewTrace", "collector.go:Collector.SetCategorySize", "internal/trcringbuf/ringbuffer.go:RingBuffers.GetAll", "internal/trcringbuf/ringbuffer.go:RingBuffer.Walk"]}
{"id": "C90", "title": "JSON text: what is written is read back, one value per line, and cut-off text is an error", "statement": "What search, the stream and the command write as JSON text, indented or not, is the RFC 8259 text of the value and is read back as exactly that value, whatever bytes its strings contain and whatever follows it in the body or output. Reading is exactly the grammar: a text is read as a value if and only if it starts with a text of that value. A request, response or trace of which only a part arrives (a broken connection, the 1 MB limit on request bodies) is an error, never a smaller value. Without indentation (ndjson, stream events) every trace is on exactly one line and has no control characters; several values written one after another are read back one after another in either format. So a search through the client with the text of request and response is the exchange of C56. Finding: what follows the request in a body is ignored, so a body that is not JSON is accepted.", "quantifier": "every JSON value with valid UTF-8 strings, hence every request, response and trace that can be encoded; every byte string for reading; every proper prefix; every list of values; both formats, and the escapes of every Go version", "why_tests_cant": "strings contain arbitrary bytes, quotes, escapes, separators and surrogates, numbers and nesting are unbounded, and a connection may break after any byte", "anchors": ["trcweb/render.go:renderJSON", "trcweb/trace_server.go:handleSearch", "trcweb/trace_server.go:SearchClient.Search", "trcweb/trace_server.go:handleStream", "trcweb/trace_server.go:StreamClient.Stream", "cmd/trc/stream.go:writeTraces", "cmd/trc/search.go:writeResult"]}
{"id": "C91", "title": "The text of a stream: messages cannot be broken, forged or torn", "statement": "The text that the stream handler writes is read by the client as exactly the messages that were written, in order, whatever bytes the traces contain: a category, name or event text with line breaks, 'data:' or 'event:' in it cannot end a message early, add one or change the type of one, and no message fails to be written. If the connection ends after any number of bytes, the client has read exactly the messages that had been written completely by then, never a part of one. So in every state of a stream connection, the events that the client has read are a prefix of those that were written. Whatever text a server sends, every message the client reads has data, and its type and data are valid UTF-8.", "quantifier": "every list of messages with a type on one line and valid text without carriage returns, hence every trace that can be encoded; every point where the text is cut; every reachable state of a stream connection", "why_tests_cant": "traces contain arbitrary text, and a connection may break after any byte", "anchors": ["trcweb/trace_server.go:handleStream", "trcweb/trace_server.go:StreamClient.Stream", "go.mod:github.com/bernerdschaefer/eventsource"]}
{"id": "C92", "title": "Times in JSON are the instants they stand for", "statement": "Every time in the JSON of a trace, an event or the statistics of a category is the RFC 3339 text of that instant in the Gregorian calendar, to the nanosecond, and is read back as the same instant; a text is read as a time exactly if it is the RFC 3339 text of that time, with any offset and any number of digits after the point. A time can be written exactly if its year is between 0 and 9999. So a trace whose times are in these years always has a JSON text and comes back from it unchanged (apart from bytes that are not valid UTF-8), and searching a collector through the client gives what searching it directly gives, with no assumption about times left. Finding: the texts do not sort in the order of the times, since trailing zeros of the fraction are left out.", "quantifier": "every instant, every text, every day before or after year 1, every trace, every history of a collector and every request", "why_tests_cant": "leap years, months, fractions and offsets combine to more cases than tests can visit; traces are compared and merged across processes by the times read from JSON", "anchors": ["trace_static.go:StaticTrace", "trace.go:Event", "search_stats.go:CategoryStats", "trace_core.go:newCoreTrace"]}
{"id": "C93", "title": "The log of a trace used by several goroutines", "statement": "Take a trace made with LogDecorator or LoggerDecorator, used by any number of goroutines at once, with other writers on the same destination. Under every interleaving: the line about the creation comes before all lines of calls; each event call and each Finish writes exactly one line (in one Write), each goroutine's lines are in the order of its calls, and when a goroutine has returned from its calls all of them have their lines; the line of an event call is the ID, a space, \"ERROR: \" for the error methods, the formatted text and a newline. Every event call the trace receives has its line already, and if it came before the first Finish its line is before every line \"done\". A line \"done\" is written only when the trace is finished, and its outcome and duration are the ones the trace has from then on for ever. As text: if the ID and the texts have no newline and each format takes its arguments, the lines of the log are exactly these, in order; with LoggerDecorator each entry begins on a line of its own whatever the formats and arguments. Findings: the order of the lines can differ from the order of the trace's events; an event can have its line before \"done\" and yet not be in the trace (so a line ERROR can be followed by \"done, success\"); a newline in an event's text can forge lines of the log.", "quantifier": "all traces not yet finished, all lists of goroutine programs (event calls, Finish, SetMaxEvents, reads), all schedules including Writes by others, all clocks, formats and arguments; all sequences of log entries", "why_tests_cant": "The decorator's Write and the trace's method are separate steps, Finish even has four: which lines can come between which depends on the schedule, and tests see only a few.", "anchors": ["decorators.go: LogDecorator, LoggerDecorator, loggerWriter.Write, logTrace.Tracef, logTrace.LazyTracef, logTrace.Errorf, logTrace.LazyErrorf, logTrace.Finish, logTrace.logEvent", "trace_core.go: coreTrace"]}
{"id": "C94", "title": "Percentages and timelines on the search page", "statement": "On the search page each percentage of the table is the exact percentage rounded down, between 0 and 100, although it is computed in float64 (counts up to 2^46). For a trace whose events lie between its start and its end and that lasted up to 2^46 ns (19 hours), the share of every row of its timeline is between 0 and 100 percent and exact up to 2^-50 of itself; its element of the timeline grows with the share rounded down, but at least with 1. All rows together make up 100 percent, up to 2^-50 of that, for durations up to 2^63 ns. Unless a share is not a number, its element grows with 1 to 100, and a longer row never with less than a shorter one. A trace whose events all fitted, under a clock that does not go back, has its events between start and end, active or finished. Finding: the marker of a truncated trace has the time of the reading, so for a trace read after its end the last row shows a negative time, and shares are outside 0 to 100. Finding: when the clock did not move between start and finish, the share of every row but the first is 0/0, and the growth is int(NaN), which Go leaves to the implementation.", "quantifier": "all counts and durations in the stated ranges, all traces and rows, all histories of a trace with a monotone clock, all results of out-of-range float to int conversions", "why_tests_cant": "The float64 result must be right for each of about 2^92 pairs of numbers; rounding errors show only for some of them", "anchors": ["trcweb/render.go:206", "trcweb/render.go:307 flexGrowPercent", "trcweb/render.go:318 renderEvents", "trcweb/assets/traces.html:179", "trcweb/assets/traces.html:424", "trace_static.go:24 NewSearchTrace"]}
{"id": "C95", "title": "Searches over arbitrary servers", "statement": "A search client returns either a response or an error, never both and never neither: a response exactly if the server answers with status 200 and a body that starts with JSON text that decodes; otherwise the error says whether the request failed, which status came back, or that the body could not be decoded. What a trc server writes comes back as it was. A search over several servers panics exactly if their answers cannot be put together: statistics with another number of buckets, a category whose first entry to arrive is null, entries of a category with different numbers of counts, or null among two or more traces. In all other cases it returns the sums of the counts, also for every category and bucket, the newest of all traces, all sources and all problems. Finding: an unrelated JSON object or null with status 200 (such as the error message of another service) counts as the answer of a server without traces, and no problem is reported. Finding: whether null for a category makes a search panic depends on which server answers first.", "quantifier": "every list of servers and order of arrival, every status and body, every decoded response with or without null traces and categories, every map iteration order and sorting algorithm", "why_tests_cant": "Tests use trc servers as peers; what other programs send, and in which order answers arrive, is unbounded.", "anchors": ["search_types.go: MultiSearcher.Search", "search_stats.go: SearchStats.Merge, CategoryStats.Merge, CategoryStats.IsZero", "trace_static.go: staticTracesNewestFirst", "trcweb/trace_server.go: SearchClient.Search"]}
{"id": "C96", "title": "Rates in float64 follow the exact rates", "statement": "The trace and event rates of a category are what exact arithmetic gives (see C65) up to a relative error of 9/2^53, although seconds, counts and quotients are float64. After merging N statistics the error is at most (9+2N)/2^53, and so it is for the overall rates of N categories; merging in float64 panics exactly if exact merging does and gives the same counts. A rate is 0 only if the exact one is, so a rate is never taken for one that has not been computed because of rounding. More traces in the same time never show a lower rate, and the same number over a longer time never a higher one.", "quantifier": "all statistics and counts, all clock readings up to 2^100 ns after the year 1, any number of merges or categories up to 2^37; for the comparison of times, durations up to 2^63 ns", "why_tests_cant": "rounding errors add up over any number of merges and depend on every count, start and clock reading; tests see a few", "anchors": ["search_stats.go:194 CategoryStats.TraceRate", "search_stats.go:220 CategoryStats.EventRate", "search_stats.go:246 CategoryStats.Merge", "search_stats.go:105 SearchStats.Overall"]}
{"id": "C97", "title": "Pages are sent whole or not at all", "statement": "A page is either the whole output of its template, executed to the end, with status 200, or an error page with status 500; nothing that a failing template wrote is sent. The trace of the request shows an error exactly in the second case, and the handler does not panic, whatever the templates do. The trace also shows a region of the rendering with the steps that were done, in order, and all of them exactly if there is a page; if every file defines just the template it is called after, one line tells the paths of all files used of the assets directory. JSON is the whole text with status 200 or a fixed error text with status 500. If every file defines just the template it is called after, a template comes from the file of its name in the assets directory, if there is one, and else from the embedded one, in whatever order a map gives the names. Finding: when TRC_ASSETS_DIR is not set, files of these names in the working directory of the process replace the embedded ones. Finding: whatever is called root in that directory is parsed too, so where it is a directory, as in a process that runs in /, no page can be shown.", "quantifier": "all templates, files, data and ways in which parsing, executing and encoding can end, all orders of a map, all requests", "why_tests_cant": "a template may fail or panic at any point of its output, for any data; and the result depends on the files around the process", "anchors": ["trcweb/render.go:45 renderHTML", "trcweb/render.go:61 renderJSON", "trcweb/render.go:110 renderTemplate"]}
{"id": "C98", "title": "The trc command as a process: streams and exit status", "statement": "If the arguments of the trc command are in order (they can be parsed, the log level exists, there is at least one address and each can be parsed), the chosen command is run. Then standard output has exactly what the command prints; stderr has exactly the log lines that the level lets through, in order, then the help if the error of the command is about that, and then the error, if it is one. If the arguments are not in order, no command is run, nothing is on standard output, and stderr ends with the help and the error. The exit status is 0 without an error and for requests for help, cancellation and signals, and else 1. A chattier log level only adds lines to stderr. trc search prints its encoded result and nothing else, or nothing and an error if it cannot be encoded. Finding: trc search ends with status 0 although every server failed.", "quantifier": "all arguments, all results of parsing them, all addresses and levels, all behaviours of a command, any number of servers", "why_tests_cant": "what a caller in a script relies on depends on every way in which parsing and the command can end", "anchors": ["cmd/trc/main.go:21 main", "cmd/trc/main.go:39 exec", "cmd/trc/util.go:22 logWriter", "cmd/trc/search.go:46 searchConfig.Exec"]}
{"id": "C99", "title": "Streams do not feed on each other", "statement": "A handler that serves a stream logs to the trace of its own request, and that log is published to all streams. A stream skips its own trace, so each handler says something because of what it was told at most once per publish about another trace; while the writes of at most one connection fail, all such answers together are at most as many as what the program and the handlers publish of their own accord; and if all streams ask for finished traces only, each connection answers at most once per finished trace, however many connections are broken. Finding: two broken connections that stream events answer each other without bound, from one event of the program.", "quantifier": "every number of connections, every filter, schedule, and pattern of failing writes", "why_tests_cant": "feedback between goroutines depends on the schedule and on which writes fail; the bounds are over all histories", "anchors": ["trcweb/trace_server.go: handleStream", "trcweb/middleware.go: Middleware", "decorators.go: publishDecorator", "broker.go: Publish"]}
{"id": "C100", "title": "Nothing is left running", "statement": "When a search over several searchers returns, each goroutine it started has ended and each result was taken exactly once; a result never waits for room, and the search waits for its searchers and nothing else. When the streams of trc stream have returned, so have the reporter and every call of the stream client for every address; of those calls only goroutines whose context was cancelled may remain, about to end. However often streams fail, an address has at most one call that has not returned and at most one whose context was not cancelled. Nothing of it ends before cancellation, and after it, from every state, everything can end. Calls of StreamClient.Stream and their goroutines can all end once their context is done. Findings: a search over several searchers waits for all of them even after its context was cancelled, so one searcher that ignores its context holds up the search for good; and each call of StreamClient.Stream that returns an error leaves a goroutine and an open connection behind that cannot end before the context is cancelled, so a program that retries with one context collects them without bound.", "quantifier": "all numbers of searchers, calls and addresses, all interleavings of their goroutines, failures, retries and cancellations", "why_tests_cant": "goroutines that outlive a call are not visible in its result, and which of them are left depends on the interleaving", "anchors": ["search_types.go:MultiSearcher.Search", "trcweb/trace_server.go:StreamClient.Stream", "cmd/trc/stream.go:runStreams", "cmd/trc/stream.go:runStream"]}
{"id": "C101", "title": "A response names the sources of its traces", "statement": "If a program sets the source name of its collector only before it makes traces, then at any moment of any use of the easy interface a search of the collector lists the source of every trace that it returns. A search over several searchers does so whenever all searchers that answer do, whatever else they answer and in whatever order. Finding: a collector that is renamed after it has made traces lists only its new name, although the traces it returns have the old one.", "quantifier": "all programs that use the easy interface, all requests, map orders and sorting algorithms, all answers and failures of searchers and their orders of arrival", "why_tests_cant": "tests use one name per collector and look at a few responses; the claim is about every history and every merge", "anchors": ["collector.go:Collector.SetSourceName", "collector.go:Collector.NewTrace", "collector.go:Collector.Search", "search_types.go:MultiSearcher.Search"]}
{"id": "C102", "title": "Stacks on the search page", "statement": "For every stack, whatever the names of functions and files in it are (they may come from other servers), the search page shows it frame by frame and in order: the name of the function without its path, the whole name beside it, and the place as CompactFileLine gives it, all as text. No frame can add elements or attributes to the page. The place is a link if and only if the source link function gives an address for it, and then the link is that address. A program that sets no source link function has no links in its stacks. With SourceLinkVSCode every link is one of the editor, and it opens the file and line of its frame just if their text has no question mark, no number sign and no percent sign before two hexadecimal digits. Finding: for any other path the link opens another file.", "quantifier": "all stacks, function names and file names (any bytes), and all source link functions", "why_tests_cant": "there are infinitely many names, and injection is about the ones nobody thought of", "anchors": ["trcweb/assets/traces.html", "trcweb/render.go:humanizeFunction", "trcweb/render.go:SetSourceLinkFunc", "trcweb/render.go:SourceLinkVSCode", "trace.go:Frame.CompactFileLine"]}
{"id": "C103", "title": "trc stream tells which servers are silent", "statement": "While trc stream runs with a positive statistics interval, each look at a server reports 'no data' if nothing was ever read from it, nothing if the last message is at most two intervals old, and otherwise the age of the last message rounded down to a tenth of a second; a message is reported just if it begins a connection. With an interval of at least one second a server that sends its statistics as often as the client asked it to, late by at most one more interval, is never reported. Finding: the client asks for at most one message a second whatever the interval, so with an interval below half a second a healthy server is reported as silent. Finding: an interval of zero or below crashes the program.", "quantifier": "every interval, server, history of messages and looks, client configuration, filter and query string", "why_tests_cant": "the order and times of messages and looks are unbounded, and the two intervals meet only through the client's clamping, the URL and the server's parsing", "anchors": ["cmd/trc/stream.go: streamConfig.runStream", "trcweb/trace_server.go: StreamClient.initialize, StreamClient.Stream, TraceServer.handleStream"]}
{"id": "C104", "title": "trc stream does not hammer a server", "statement": "However often and however quickly streaming from a server fails, trc stream begins the next attempt no earlier than the retry interval after the failure, so that at most 1 + (b - a) / interval attempts begin between the times a and b; it never gives up unless its context is cancelled, and after that at most one attempt begins, one that was already decided on. Finding: the stream client raises its retry interval to at least a second but trc stream uses the interval as given, so with an interval of zero or below any number of attempts can begin at once.", "quantifier": "every positive retry interval, every history of failures, cancellations and times", "why_tests_cant": "failures, times and the moment of cancellation are unbounded; a test sees a few attempts of a few servers", "anchors": ["cmd/trc/stream.go: streamConfig.runStream", "cmd/trc/util.go: contextSleep", "trcweb/trace_server.go: StreamClient.initialize"]}
{"id": "C105", "title": "The flags of the command line mean what they say", "statement": "For every sequence of flags, in their long or short form, with their values: trc refuses it exactly if one of them is not a flag of the command or its value is not of the right kind; otherwise trc search asks for exactly the traces that meet the conditions of the flags (one of the sources, one of the IDs, the last category, query and duration given, active, finished, success and errored if switched on last), with the last limit (else 10) and stack depth, and shows request and statistics exactly if told to; trc stream streams those that meet the conditions besides active and finished, finished ones only unless told to stream events, with the last buffer sizes (else 100) and intervals (else 10s and 1s); each address is asked once, in the order of first mention. Finding: no value of --stack-depth asks for complete stacks, which a request can ask for.", "quantifier": "every sequence of flags and values, every trace, every way of reading booleans, numbers and durations, every regular expression package", "why_tests_cant": "flags can be combined, repeated and ordered in unboundedly many ways, and the effect is on all traces", "anchors": ["cmd/trc/trc.go: rootConfig.registerBaseFlags, rootConfig.registerFilterFlags", "cmd/trc/search.go: searchConfig.register, searchConfig.Exec", "cmd/trc/stream.go: streamConfig.register, streamConfig.Exec", "cmd/trc/main.go: exec"]}
{"id": "C106", "title": "No data races in brokers", "statement": "However many goroutines call Publish, Stream and StreamStats on a broker and receive from the channels, in whatever schedule, no two accesses to its memory race: not to the set of subscriptions, nor to a subscription's filter and statistics (including the final statistics that Stream reads without the lock), nor to the published traces, which receivers read after the broker sent them. This needs programs that write neither to traces they received nor to the slices of a filter they passed to Stream. Finding: every subscriber receives the same trace object, so one that changes a received trace races with the others. Finding: Stream keeps the caller's filter slices, so reusing them races with Publish. Finding: so does a relay that publishes received traces at another broker and changes nothing itself, since that Publish writes to them.", "quantifier": "every number of goroutines, every program of calls, every schedule, every order in which subscriptions are visited, every outcome of filters and of sends", "why_tests_cant": "The race detector only sees the schedules that happen to run; a race is a statement about all schedules.", "anchors": ["broker.go: Broker.Publish, Broker.Stream, Broker.StreamStats, subscriber", "filter.go: Filter.Allow, Filter.initializeQueryRegexp"]}
{"id": "C107", "title": "Setting up a collector", "statement": "If a collector is set up (SetSourceName, SetNewTrace, SetDecorators) before it is shared, then, however goroutines use it afterwards, nothing races, every new trace has the source, the constructor and the decorators that were set last (or those of the configuration, with \"default\" and New for what it lacks), every search names that source, and NewTrace does not panic unless nil was set. Finding: a setter called while the collector is in use races with NewTrace and Search, and a trace may get a mix of settings that the collector never had; the basic example does this when it sets decorators after it has started its load. Finding: unlike in the configuration, an empty source name and a nil constructor given to a setter are kept: traces have no source, and NewTrace panics.", "quantifier": "every configuration, every sequence of setters, every number of goroutines with every sequence of NewTrace and Search calls, every schedule", "why_tests_cant": "A test runs some schedules of some programs; which settings a trace gets and whether accesses race depends on all of them.", "anchors": ["collector.go: NewCollector, Collector.SetSourceName, Collector.SetNewTrace, Collector.SetDecorators, Collector.NewTrace, Collector.Search"]}
{"id": "C108", "title": "The key-value service of the examples", "statement": "The service that the examples trace behaves like a map: after any requests, a read of a key gives the value that was stored last under it and not deleted since, and otherwise says there is none; a delete says whether there was a value, and then there is none; a write is answered with 200 exactly if it stores its trimmed, non-empty body under a non-empty key, and otherwise with 400 and changes nothing. Requests for other keys do not matter. The trace of a request has the category of its operation, and, for all but writes, an error exactly if the answer is not 200. Finding: a write that is refused leaves no error in its trace. Finding: over the server of the basic example the service cannot be used, since only the path without a key reaches it.", "quantifier": "every history of requests with any methods, paths and bodies, in the order in which they reach the store", "why_tests_cant": "A map is a statement about all histories of requests and all keys.", "anchors": ["_examples/trc-complex/kv.go: KV.ServeHTTP, KV.handleSet, KV.handleGet, KV.handleDel, getKey, apiCategory, Store", "_examples/trc-basic/kv.go", "_examples/trc-basic/main.go: main"]}
{"id": "C109", "title": "Timelines and rates with 64-bit time differences", "statement": "Differences of times are computed in 64 bits and answer the largest or smallest duration where the exact one does not fit. If no two times of a trace (start, events, end) are 292 years apart then its rendered timeline is the one of exact subtraction (the one of C58 and C94); this includes every trace whose events are in order and between its start and its end, and its deltas add up to its duration. Whatever the times, the timeline has the same rows, and each delta and offset is the representable duration nearest to the exact one, with the same sign. The rates of a category whose oldest trace is less than 292 years old are those of exact subtraction. Finding: a trace of another server whose only event carries no time is shown with an event 292 years before its start, and its deltas add up to minus one nanosecond instead of the duration; and the rate of a category whose oldest trace is older is too high.", "quantifier": "all traces with any times, all clock readings and counts", "why_tests_cant": "the range of times is unbounded and the boundary is at a difference no clock in a test produces", "anchors": ["trcweb/render.go:renderEvents", "search_stats.go:TraceRate", "search_stats.go:EventRate"]}
{"id": "C110", "title": "A panic leaves no lock held", "statement": "A call that panics while code of the program runs inside it (a trace implementation of its own, a send on a closed channel, formatting) gives back every lock of the package it holds. So goroutines whose calls panic at any points, and who recover and go on, never block each other for ever: some goroutine can go on unless all is done, everything can complete, and who has returned from all calls holds no lock. A Tracef whose formatting panics leaves the trace unchanged. Finding: an Errorf whose formatting panics leaves the trace marked as errored, without an error event.", "quantifier": "every number of goroutines, collectors and traces, every sequence of calls, every point at which each call panics, every interleaving", "why_tests_cant": "the panic can happen at any point of any call in any interleaving; a test exercises a few", "anchors": ["broker.go:Publish", "internal/trcringbuf/ringbuffer.go:Walk", "trace_core.go:Errorf", "collector.go:Search"]}
{"id": "C111", "title": "Sizes that cannot be had", "statement": "With 64-bit integers that wrap around, no arithmetic of the ring buffers overflows: as long as the sizes asked for can be allocated, Add, Resize, Walk and Stats behave as the bounded list of C01, and a collector stores and frees as C04 and C05 say. If sizes are asked for that cannot be allocated, then the calls that panic are exactly: SetCategorySize with such a size, when the collector has a category, and the first NewTrace of a category while the size asked for last is such a size. A call that panics stores nothing and frees nothing; the traces held stay as they are, and existing categories keep the last size that could be had. Finding: a SetCategorySize that panics is remembered nevertheless, so from then on every first NewTrace of a category panics, until another size is asked for.", "quantifier": "every capacity, every largest allocatable length below 2^62, every history of NewTrace and SetCategorySize calls with any sizes and any map iteration order", "why_tests_cant": "overflow shows only near the limits of the integers, and what a recovered panic leaves behind depends on the whole history before and after it", "anchors": ["internal/trcringbuf/ringbuffer.go: RingBuffer.Add, Resize, Walk, Stats, RingBuffers.GetOrCreate, Resize", "collector.go: NewTrace, SetCategorySize"]}
{"id": "C112", "title": "What a search tells its own trace", "statement": "A search through any nesting of multi-searchers, collectors and search clients writes to the trace in its context exactly: for every collector and every client that answers, one line with its name and its counts; for every client that fails, one error line; for every multi-searcher, one line with the number of its searchers, one line for each of its searchers that fails (or returns neither or both of a result and an error), one line when all have been heard and, last, one with the sums of the counts, at most the limit returned. Every line carries the path of positions that leads to the searcher it is about, such as <2> <1>. In every schedule the lines of one searcher stay in order, what is said about its outcome comes after all of them, and the last two lines of a multi-search are its own. The trace is marked as errored exactly if a client somewhere in it failed (or a foreign searcher said so), even though the multi-search returns no error. Every search can come to its end if its searchers do.", "quantifier": "every tree of searchers, every outcome of each, every limit, every schedule of the goroutines", "why_tests_cant": "the lines of concurrent searchers interleave in as many ways as there are schedules, and the paths depend on the nesting", "anchors": ["search_types.go: MultiSearcher.Search", "collector.go: Collector.Search", "trcweb/trace_server.go: SearchClient.Search", "helpers.go: Prefix, prefixTrace"]}
{"id": "C113", "title": "What the trace of a request shows in the end", "statement": "Around a handler that only logs, the trace of a request shows in the end, if the limit has room for it: what was requested, the headers, everything the handler logged, in order, and how the request ended. Finding: if it has not (the handler logs one line too many is enough), then the trace shows neither what was requested nor how it ended: the first line is removed to make room for the truncation marker, and the last one comes after the trace is full. What remains are the headers, the first lines of the handler and the marker.", "quantifier": "every request, every handler that makes any number of event calls and ends by returning or panicking, every limit, clock and reader", "why_tests_cant": "it depends on the number of lines relative to the limit, for every handler", "anchors": ["trcweb/middleware.go: Middleware", "trace_core.go: coreTrace.Events, Finish"]}
{"id": "C114", "title": "The filter of a stream request", "statement": "A stream request with a JSON body that starts with an object is filtered by the members of that object, each taken on its own: a member that does not fit its field counts as absent, and the others still count; an error is logged exactly if some member does not fit. If all fit, the filter is the one that a search request with the same object would have. A body that is not JSON, or another value than an object, is no reason to refuse: the stream is of every trace, and an error is logged unless the value is null. Only a query that does not compile is refused, with a text that says so, and otherwise the subscription keeps every field that was asked for. Finding: the logged error says that the default filter is used, but what fits is used; and a minimum duration that does not fit, such as a text like 10ms, does not count as absent but as zero, so that only finished traces are streamed. The first event of the stream tells the filter that is subscribed with and the size of the buffer: the filter read from it accepts the same traces as the subscription, for every body, also one of which only a part or nothing was understood, and for every URL whose strings are valid UTF-8. Finding: for other bytes in the URL the filter told is another one, with the bytes replaced.", "quantifier": "every body: any white space, any JSON text with members of distinct names, anything after it, or no JSON at all; every URL query, regular expression compiler and trace", "why_tests_cant": "bodies and members that do not fit are unbounded in shape; the claim is about each field of each body", "anchors": ["trcweb/trace_server.go: TraceServer.handleStream", "filter.go: Filter, Filter.Normalize, Filter.Allow", "trcweb/util.go: parseFilter"]}
{"id": "C115", "title": "What the trace of a stream request says", "statement": "While a stream is served, the trace of its request gets: that the handler started, first of what the handler says; then one line for every statistics event that was sent, with the same numbers and in the same order, and one error line for whatever could not be sent (so that the error lines about traces tell exactly whether one was lost that way, and the init event was sent or its failure reported); then, last, why it stopped. Beside that the goroutine says one line, before the handler returns: the final statistics, which account for every trace published while the stream was subscribed. Statistics are reported as missing only before the subscription and after the end of the request. Findings: a client that goes away while the ticker fires leaves an error in the trace although everything could be sent; and since every interval adds a line, the log of a stream that lasts outgrows every limit on events, so that (C113) the trace shows neither what was requested nor how it ended.", "quantifier": "every schedule of the handler, its goroutine, the client and everything else on the broker; every filter, buffer size, positive interval and number of ticks; every failure to encode or write", "why_tests_cant": "the order of lines depends on the schedule, and the length on time", "anchors": ["trcweb/trace_server.go: TraceServer.handleStream", "broker.go: Broker.Stream, StreamStats.String"]}
{"id": "C116", "title": "Times and ages on the search page", "statement": "On the search page the time next to each event is the UTC time of day of that event, hh:mm:ss.ffffff, rounded down to the microsecond; on one day these texts are ordered as the times are. The age in the first line of a trace is computed in the browser from a title that is the start of the trace in RFC 3339, rounded down to the second. The text names the largest unit of the age and the next one (1d2h, 1h0m, 59m59s, 7s, 12ms, or fresh), rounded down; it says exactly one duration; it is the exact result although the browser computes in float64; it is at most one second more than the age of the trace, less than one unit below it, and never gets smaller while time goes on. If the clock of the browser is before the start of the trace, the age is fresh. Finding: the date is not shown, so times whole days apart have the same text and in a trace that goes past midnight the later events have the smaller texts. Finding: as the title has no fraction of a second, a trace that did not start exactly with a second is shown as 1s old as soon as the next second begins, even if it is a few nanoseconds old.", "quantifier": "every instant (ages: every start in a year of four digits, every clock value a browser can represent), every browser that reads RFC 3339 texts in UTC", "why_tests_cant": "The claims are about all instants and all pairs of instants, and about rounding of floating point quotients near every multiple of a unit; a test samples a few.", "anchors": ["trcweb/render.go: timeFormat, TimeTrunc, TimeRFC3339", "trcweb/assets/traces.html: timeSince, calcDates"]}
{"id": "C117", "title": "The limit on the size of request bodies", "statement": "Of the JSON body of a search or stream request the server reads at most 1,048,576 bytes. The value it gets is exactly the one that these bytes show to be complete: an object or array whose last byte is within the limit, or another value that is followed by a byte within the limit or by the end of the body; what comes after the value does not matter, however long it is, and a text that is too long is never taken for a smaller value. A search whose request does not arrive is refused with 400 and nothing is searched; every request that the client sends and that is not longer than the limit arrives as it was sent. Finding: a longer request is refused although a local collector would answer it, and there are such requests. Finding: a stream request whose filter is longer is not refused: the filter is dropped and every trace is streamed.", "quantifier": "every limit, every body (any bytes, any length), every request and filter, every searcher behind the server", "why_tests_cant": "The boundary depends on where the value ends relative to the limit, for arbitrary bodies; tests do not send bodies of every length cut at every byte.", "anchors": ["trcweb/util.go: maxRequestBodySizeBytes", "trcweb/trace_server.go: handleSearch, handleStream"]}
{"id": "C118", "title": "The middleware does not change what a handler does", "statement": "For every response writer and every handler that looks for no optional interface of the writer other than http.Flusher, which the writer has, serving a request behind the middleware does to the writer exactly what the handler does without it (the same headers, status, bytes and flushes, in the same order, with the same results given back), logs the same events between the middleware's own, and returns or panics with the same value. Behind the middleware a writer is an http.Flusher and offers nothing else, so a second middleware inside the first changes nothing more, for any handler at all. Findings: whatever else the writer offers (hijacking the connection, close notification, push, reading from a file, deadlines) is hidden, so that a handler that needs it, such as one that upgrades to a websocket, fails behind the middleware; and a writer that cannot flush looks as if it could, and flushing does nothing.", "quantifier": "every response writer with any set of optional interfaces and any behaviour, every handler that goes on as the writer's answers tell it, every request and state of the writer", "why_tests_cant": "handlers and writers are programs that react to each other; a test runs a few of them", "anchors": ["trcweb/middleware.go: Middleware, interceptor, newInterceptor", "eztrc/easy.go: Middleware"]}
{"id": "C119", "title": "Operations inside operations share one trace, and the first one to end finishes it", "statement": "Let an operation be what a user of the easy interface writes: ctx, tr := eztrc.New(ctx, category); defer tr.Finish(); then lines, regions, parts in a context with a prefix, and further operations of the same form, to any depth, each in the context around it. After an operation begun in a context without a trace the newest trace of its category in the collector is that operation's. It is finished, and its lines are exactly the lines said up to the end of the first operation that ended, in order, with their prefixes, with a line \"(+ category)\" for each operation entered and the two lines of each region; it is errored exactly if one of these lines is an error; of these lines it stores the first ones up to the limit in force when it began and counts the others. All the lines of the operation are there if and only if nothing is said after the end of an operation inside (the end of a region is something said). Finding: New is documented to make a new trace, but in a context with a trace it returns that trace, so the Finish of the operation inside finishes the operation around it: that one is finished before it goes on, its later lines are lost and a failure after that counts as a success (also for one Middleware inside another).", "quantifier": "every program before the operation, every context without a trace, every nesting of operations and every list of lines in them, every decorator but publish ones set by the user, every clock and every argument", "why_tests_cant": "the nestings, the lines and the histories before them are unbounded", "anchors": ["collector.go: Collector.NewTrace", "eztrc/easy.go: New, Middleware", "trace_core.go: coreTrace.Finish", "trcweb/middleware.go: Middleware"]}
{"id": "C120", "title": "Keys, clicks and the pointer on the search page", "statement": "Whatever a user did on the search pages of a tab: the sign in the top line of a trace closes the stacks of that trace if one of them is open and else opens them all, and leaves the stacks of traces with other IDs alone; the key s does so for all traces; a click on a row turns its own stack and no other; nothing else opens or closes a stack. What is highlighted is always just what belongs to the row the pointer is on: the timeline of its trace, the row, its bar and its part of the timeline. The key d shows and hides the debug information, a click hides it, and other pages in the same tab keep it as it was. A page that is loaded has the focus in the search box; what is typed there does nothing else, Escape leaves it, and a slash enters it without being typed. Finding: traces are told apart by ID, so a trace that is shown twice, because two searchers have it, is operated twice. Finding: the keys work with modifiers, so that Control and s, which saves a page, also opens or closes its stacks.", "quantifier": "all sequences of key presses, clicks, pointer moves and page loads in a tab, all traces shown (with IDs of letters and digits)", "why_tests_cant": "what is open or highlighted depends on the whole history of actions: the scripts toggle classes and attributes instead of setting them", "anchors": ["trcweb/assets/traces.html:39 toggleStacksFor", "trcweb/assets/traces.html:362 hoverEvent", "trcweb/assets/traces.html:485 event-clickable", "trcweb/assets/traces.html:521 toggleDebug", "trcweb/assets/traces.html:530 toggleStacks", "trcweb/assets/traces.html:540 keydown"]}
{"id": "C121", "title": "The trace log of the command", "statement": "The search and stream commands of trc make a trace of themselves. Whatever context the command starts with and whatever it then does with its trace, the trace is the one that every function called with the context, or with a context derived from it without another trace, gets from the context; the trace log gets one line when the trace begins, naming source trc and the command as its category, one line for each event in order, marked ERROR for errors, and one at each Finish with the outcome and the duration; every line begins with the ID of the trace; the trace records the same as it would without the log; and nothing of it is published to any subscriber.", "quantifier": "every context, category, ID without percent signs, clock and pool content, and every sequence of event calls whose formats take their arguments, Finish calls, reads and other broker operations", "why_tests_cant": "A test runs one command once; the claim is for every history of calls and every context the trace is taken from.", "anchors": ["cmd/trc/trc.go: rootConfig.newTrace", "cmd/trc/util.go: logWriter", "decorators.go: LogDecorator", "helpers.go: Put, Get"]}
