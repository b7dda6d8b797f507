# Formal model of peterbourgon/trc in Rocq (Coq 8.16.1)

## How the development is organised

`rocq/theories/` (logical name `Verif`):

| file pattern | content |
|---|---|
| `Go.v` | Go run-time conventions: `res` (`Ok`/`Panic`), slice indexing, string helpers |
| `M_*.v` | the model: executable Gallina, one definition per Go function, each with a comment citing file and lines |
| `S_*.v` | specifications: what the English property says, written without using the model's helpers |
| `L_*.v` | lemmas and proofs |
| `P_*.v` | the property theorems `Cnn_...`, each followed by `Print Assumptions`, with an `Example Cnn_instance` showing a concrete case that meets the hypotheses; larger ones also hold the lemmas that only they use |
| `D_Demo.v` | concrete values (a small `Sprintf`, clocks, frames) for the examples and witnesses |

`properties.jsonl` lists the properties, `MANIFEST.json` maps them to theorem names (generated by
`tools/mkmanifest.py` from the theorem names in the files), `seeded/LOG.jsonl` records the wrong programs the
theorems were tested against.

Modelling conventions

* A Go panic (index out of range, negative `make`, nil dereference, explicit `panic`) is the value
  `Panic` of type `res A`; "never panics" is a theorem about the result being `Ok`.
* `int`, `time.Duration` and `time.Time` are unbounded `Z` (nanoseconds; `0` is the zero time).
  Overflow of `int` counters is not modelled.
* Strings are Coq `string` (byte strings, like Go).
* A method that mutates through its receiver returns the new receiver.
* A method body between `mtx.Lock()` and `mtx.Unlock()` is one atomic step; this is justified by the
  generic theorem C50. Code that takes several locks one after another is modelled as several steps,
  and the theorem quantifies over every interleaving of them.
* Go map iteration order, goroutine arrival order, `sync.Pool` choices, clock readings, entropy, and the
  results of external code (regexp, fmt, JSON, HTTP) are explicit inputs of the model, universally
  quantified in the theorems.

## Plan per property

| id | modelled | proof |
|---|---|---|
| C01-C03 | `ringbuffer.go` RingBuffer with the real cursor arithmetic over `Z`, every index checked | refinement to a bounded list by induction over operations |
| C04, C05 | RingBuffers, Collector storage; freed traces as output | refinement to a map of bounded lists, multiset conservation |
| C06-C10, C13 | coreTrace methods with clock inputs | induction over call sequences; a history-based specification |
| C11 | stringer with a mutable argument store | invariant over histories |
| C12 | stringer.String as atomic load / format / CAS / load steps, any number of threads | invariant over interleavings |
| C14 | getStack / ignoreStackFrameFunction; the settings of the package in a process | equation with list functions; induction over the process |
| C15 | newCoreTrace on an arbitrary pooled object | equation |
| C16, C17 | heap of trace objects, pool, collector steps, stale handles | invariant over interleavings; witness |
| C18 | heap of frame arrays shared between events and responses | invariant for texts; witness for stacks |
| C19, C20 | Filter; regexp compiler as a parameter | equivalence with a declarative spec; the finding in general (P_Findings) |
| C21 | Normalize | equations; the finding for any number of calls by induction (P_Findings) |
| C22-C25 | Collector.Search over an arbitrary iteration order, sort as any sorted permutation | induction, permutation arguments; witness |
| C26, C27 | SearchStats, CategoryStats | induction over observed traces and merge trees; findings in general (P_Findings) |
| C28 | the same over a heap of bucket arrays | invariant (also for one source merged any number of times); witness |
| C29-C31 | MultiSearcher gather loop over an arbitrary arrival order | permutation invariance; witness |
| C32 | TrimStacks | equation |
| C33 | NewSearchTrace as a sequence of locked reads interleaved with writers | invariant over interleavings; witness |
| C34-C37 | Broker with bounded channels as a labelled transition system | history invariants |
| C38-C42 | publishTrace + NewStreamTrace + broker | induction; interleaving witness |
| C43-C49 | contexts, prefix, region, decorators, a subset of Sprintf | structural induction; heap witness |
| C50, C51 | generic mutex machine; lock-order machine | simulation; progress by maximal lock |
| C52, C53 | Middleware as a program with deferred calls; interceptor against a model of ResponseWriter | induction over handler behaviour; witness |
| C54 | url.Values, QueryEscape/Unescape, Duration.String/ParseDuration | round trip |
| C55, C60 | parse helpers, StreamClient.initialize | case analysis |
| C56 | JSON value trees produced by the struct tags | round trip |
| C57-C59 | handleSearch, renderEvents, content negotiation | case analysis, telescoping induction |
| C61, C62 | TruncateDuration, CompactFileLine | arithmetic, string induction |
| C63 | ULID with monotonic entropy, Crockford base32 | order preservation |
| C64 | stream Exec filter | case analysis |
| C65 | rates of category statistics over rationals | arithmetic; witness for merged statistics |
| C66 | HumanizeDuration on the model of Duration.String | round trip within truncation |
| C67 | stream handler, broker channel and client as a transition system with reconnects | invariants over all reachable states |
| C68 | html/template text escaping and the browser's reading of text | round trip; the tags of marks that an event has are taken out (P_Marks.v) |
| C69, C70 | links and form of the search page, URL parsing by browser and server | round trip through C54's parser |
| C71 | debug counters in the steps of the heap machine | invariant over interleavings |
| C72 | trc search: addresses, one exchange per server, MultiSearch, printed result | composition of C29, C30, C56; trimming against the white space of Unicode; witness |
| C73 | trc stream: streams, retries, printer, cancellation as a transition system | invariants; an ending run from every reachable state |
| C74 | summary table of the search page | counting arguments; witnesses |
| C75 | heap machine of C16-C18 with a log of what was done through which trace | invariant over all schedules of properly used traces, combined with C22; witness |
| C76 | reads that decorators make after the call | the same invariant; witness |
| C77 | log of memory accesses and synchronisation of the heap machine, with locks held across steps and searches | invariant over logs: every access is ordered before the holder of what protects it; boolean checker for concrete logs; witnesses of the races |
| C78 | `M_Shared`: the request, its filter and the arrays of its buckets in memory, `Normalize` and what searches read as single loads and stores of goroutines | settled requests are only read: predicate on code, invariant over schedules; separation of requests; Normalize alone agrees with `M_Search`; witnesses of the races |
| C79 | `M_HumanNum`: `HumanizeFloat`, `HumanizeBytes` with `%.0f`/`%.1f` as round-half-even of exact rationals | a reader of the text (`S_HumanNum`); rounding is near and monotone; case analysis over the ranges; witnesses at the boundaries |
| C80 | `M_ReqString`: `Filter.String`, `SearchRequest.String` over the models of filters, requests and durations | texts as tagged optional parts with self-delimiting contents; injectivity by induction over the parts; witnesses for what is not told |
| C81 | `M_Easy`: `eztrc` and the settings of a collector as steps of one program over numbered contexts, on the models of decorated traces and ring buffers | refinement: the books of `S_Easy` (accounts and views) are kept right by every step; invariant by induction over the program; witnesses for orphans and missing defaults |
| C82 | `M_Close`: the broker of `M_Broker` with channels that can be closed; a send on a closed channel panics and leaves what was done before it | exact characterisation of the panicking publishes (invariant over every history); simulation with the broker without closing for histories that close after Stream has returned; witness for the lost trace |
| C83 | `M_Highlight`: the highlight classes, the CSS filter of html/template, the rule of the style sheet and the classes of every cell of the summary table; `S_Highlight`: what a browser reads as a class selector | texts of durations are names exactly if they have no dot; the highlighted cells are exactly those of the selection; composed with C69 for the links |
| C84 | the machine of C16 (`M_Heap`): goroutines that create, use and read traces of any number of collectors and change category sizes | invariant over every schedule (sizes, lengths, event limits, names); arithmetic for the sums; induction for the witness with n categories |
| C85 | `M_Server`: `TraceServer.initialize` run by every request on the shared server, word by word (an interface value has a type word and a data word), and the loads of the fields when methods are called | invariants over every schedule (a field that has its value; a field that is set by the requests); witnesses for the race and the nil collector |
| C86 | `M_Reconnect`: a session of `StreamClient.Stream` is a list of connections of `M_StreamHttp`, each with its own handler, whose past extends the history at which the last one was left | induction over the connections, each by C67 and the window of its subscription; a witness for what is lost between two of them |
| C87 | no new model: programs of `M_Decor` on the broker whose history is the history of a connection of `M_StreamHttp` | composition of C38 and C67 |
| C88 | `M_StreamClient`: the loop of `StreamClient.Stream` as a function of the results of `es.Read`, with the effects it has; a small transition system adds its context and the goroutine that closes the event source | induction over the results; an invariant for cancellation; a witness for the open connection |
| C89 | `M_SearchConc`: `Collector.Search` with the steps of other goroutines (create, add, resize) between its Walks and a fresh result for each of its looks at a trace | invariant over the history for what is held; induction over the categories and over each Walk; a simulation with `M_Search` when nobody else is there; a witness for the finding |
| C90 | `M_JsonText`: the writer and the reader of encoding/json on byte strings; `S_JsonText`: the grammar of RFC 8259 with meanings | the reader is sound and complete for the grammar (induction over the text and over derivations); the writer's text is in it (induction over values); a cut-off text by uniqueness of reading; a witness for the finding |
| C91 | `M_EventSource`: the encoder and the decoder of the event source package on byte strings | a message is a list of lines, the decoder a fold over lines; induction over messages with the point of the cut; JSON text (C90) has no control characters and is valid UTF-8, the states of a connection are those of C67 |
| C92 | `M_Time`: the text of times and its reader, with the calendar, from the time package; `S_Time`: the calendar by counting days, RFC 3339 as a relation | division into cycles of years by linear arithmetic, months by checking all 366 days of a year; the reader is sound and complete for the relation, the writer's text is in it; C56 and C90 then hold without a hypothesis about times |
| C93 | `M_LogConc`: goroutines on one trace with a log decorator, each Write and each method of the core trace one step; `S_LogConc`: lines by goroutine, lines of a text | an invariant of all schedules: the position of each goroutine between its Write and its call; the outcome and the duration do not change after Finish; witnesses for the findings; text by induction on the entries |
| C94 | `M_Float`: float64 as rationals rounded to nearest even (53 bits), infinities and NaN; the percentages, DeltaPercent and flexGrowPercent; `S_Timeline`: exact shares, closeness, events in order between start and end | rounding is monotone and has relative error 2^-53; an exact quotient below an integer stays below it after rounding since it is at least 1/d away; sums by induction on the rows; well-timed from C09, C10 and sortedness of the clock; general theorems and witnesses for the findings |
| C95 | `M_Foreign`: responses with nil pointers, as encoding/json decodes them, the merging code over them, and the client over the JSON text of C90; `S_Foreign`: which answers are bad, what the others add up to | per category the merges are a fold over its entries in order of arrival, which panics iff the first is null or two have different lengths; equality with the search of C29 when nothing is null; witnesses for the findings |
| C96 | `M_RatesFloat`: `M_Rates` with every conversion, quotient and sum rounded to float64, Duration.Seconds as in package time; `S_RatesFloat`: near, up to a relative error of k/2^53 and zero together | the float64 program simulates the exact one: the relation bounds both cached rates, keeps them zero together so that both take the same branches, and loses 2/2^53 per merge; induction over the merges and the categories; rounding is monotone |
| C97 | `M_Render`: renderTemplate with its region and deferred recover, renderHTML, renderJSON, as handlers of `M_Web`; `S_Render`: the answer a client gets through the middleware, the file a template comes from, the lines of a trace with a format | parsing, executing and encoding are arbitrary functions that succeed, fail or panic; cases on them; non-interference with what a failing template wrote; induction over the files for the templates in use |
| C98 | `M_Main`: main, exec with its deferred function, the loggers, the loop over the addresses (agreeing with that of C72), trc search after the servers were asked; `S_Main`: text on a stream, lines of a level, how a process ends | the process is computed by cases on what parsing and running return; induction over actions and addresses; subsequences for the levels; failed arrivals only add problems |
| C99 | any number of stream handlers on one broker, each publish with its cause | invariant per connection (answers against traces handled), counting over C35; an unbounded run for two broken connections by induction |
| C100 | `M_Goroutines`: the goroutines of `MultiSearcher.Search`, of calls of `StreamClient.Stream` and of `trc stream`, each with its program points, contexts and channels | invariants over all reachable states; runs to the end from every cancelled state; general witnesses for what is left running and for what waits |
| C101 | no new model: programs of `M_Easy`, `Search` and `MultiSearch` of `M_Search` | the books of C81 give every stored trace the name that was set, by induction over the program; C22 and C29 for the responses; a general witness for renaming |
| C102 | `M_Stacks`: the stack of an event on the page, with html/template's escaping and the source link functions | a reader of HTML with attributes (`S_Stacks`) reads back exactly the names and addresses; percent-decoding for what a link opens, with an equivalence |
| C103 | `M_Reporter`: the callback and the reporter of `runStream`; the intervals through `M_Url` | the state after any history is the time of the last message (induction); with C55 the interval the server uses is the clamped one, so two intervals are never exceeded; findings by computation for all such intervals |
| C104 | `M_Retry`: the loop of `runStream` and `contextSleep`, with times | induction over the history with the earliest time of a next attempt as potential; progress by cases; finding by construction of a history for every number of attempts |
| C105 | `M_Flags`: the registered flags with the fields they point to, the defaults, setting them in order | per flag and field one step lemma (cases over the names), then induction over the flags; with C64 the filter accepts what `S_Flags.wanted` says |
| C106 | `M_BrokerRace`: the reads, writes, lock operations and messages of each broker call, by goroutines in any schedule; happens-before in `S_HappensBefore` | invariant over every schedule: what the mutex has passed on, what a leaving subscriber and a receiver know; witnesses for the shared trace and filter |
| C107 | `M_Setup`: the settings of a collector, read and written by goroutines without a lock; NewTrace in two steps | invariant over every schedule with two stages (being set up, in use); what was set last is specified without the setters' code in `S_Setup`; witnesses for late setters, empty name and nil |
| C108 | `M_Example`: the handlers and the store of the examples, with the events they trace; the pattern of the mux | induction over histories of requests against `S_Example.holds` (last write not deleted since); cases for errors in traces; the findings for all requests |
| C109 | `M_Saturate.v`: renderEvents and the rates with `time.Sub` saturating at 64 bits | equality with the exact models under a window condition; nearest representable value in general; general counterexamples |
| C110 | `M_Panic.v`: the lock machine of C51 with calls that panic at any action; logging with a Sprintf that may panic | the lock order survives unwinding, so the invariant of C51 does; case analysis for logging |
| C111 | `M_Sizes.v`: the ring buffers and the storage of a collector with wrapping 64-bit ints and a make that panics above any largest length; calls that panic leave a state | equality with the unbounded model under its representation invariant; simulation of a history by its granted calls |
| C112 | `M_SearchLog.v`: the calls on the trace made by collectors, clients and multi-searchers; the goroutines of a multi-search as a scheduled program | invariant over all schedules; the lines of a tree as a specification, equal up to order by induction over the tree; a measure for the end |
| C113 | the middleware of `M_Web.v` around any handler, on a trace of `M_Trace.v`, read at the end | composition of C52 and C09; no new model |
| C114 | `M_StreamFilter.v`: decoding into the fields of a struct, going on after a value that does not fit; on the parser of C90 and the normalisation of C19 | induction over the members; the spec says per field what its member means, and per member whether it fits; `P_Told.v`: the first event is read back (C90), strings from JSON are valid UTF-8 by induction over the grammar |
| C115 | `M_StreamLog.v`: the connection of `M_StreamHttp.v` with what is said at each step | the log is a log: the same states are reachable; invariant over all schedules; C34 for the final statistics |
| C116 | `M_Ages.v`: `TimeTrunc`, `TimeRFC3339`, and `timeSince` of the page with rounded quotients | fixed-width digits compare as numbers; floor of a rounded quotient is the exact quotient below 2^53; texts of ages can be read in one way |
| C117 | `M_Body.v`: `http.MaxBytesReader` and the end of a value in `json.Decoder`, for search requests and stream filters | exactness from the grammar of C90: a complete value is unique, a prefix of a container is not a value |
| C118 | `M_Wrap.v`: writers with optional interfaces, handlers that look for them, the interceptor as a writer | induction over the handler; the refutations are for every writer of the kind |
| C119 | M_Easy (programs of the easy interface), S_Nested (bodies with operations inside, what is said, what is kept) | the books of C81 give the calls the one trace receives (induction on the body), C07 and C08 what it shows; `_refuted`: finished early, later lines lost |
| C120 | `M_Controls`: the scripts of the page that toggle stacks, highlights and debug information, on a document of traces, rows and timelines built from renderEvents; `S_Controls`: what a user sees, where the pointer is | invariant over histories: what is highlighted is a function of where the pointer is; per action for stacks, keys and the debug information |
| C121 | `M_CliTrace`: rootConfig.newTrace on the decorators and contexts of `M_Decor` | composition of C48 and C49 with the creation of the trace; induction over the calls for the broker |

"Finding" in a property statement marks a place where the code does not do what its documentation or a
reasonable user expects; the theorem is then an existential witness named `..._refuted`, next to the strongest
positive statement that does hold.

## Trusted base

1. Coq 8.16.1's kernel. No kernel check is switched off, there are no axioms, no `Admitted`, no functors or
   module types in the development. Only the standard library is imported (`Lia`, `ZArith`, `QArith`/`Lqa`,
   `Permutation`, `Sorting`, strings and decimal conversion).
2. `Print Assumptions` says "Closed under the global context" for every theorem of `MANIFEST.json`: no theorem
   uses an axiom, not even one of the standard library. (The standard library's own `Coq.ssr.ssrunder` declares
   a module type whose parameters `coqchk -o` lists as axioms of the context; no theorem here depends on them.)
3. The reading of the Go code into the `M_*` files, as described below, and the specifications in the `S_*`
   files.

### What is modelled

| Go file | in | remarks |
|---|---|---|
| `internal/trcringbuf/ringbuffer.go` | `M_RingBuf`, `M_RingBufs` | cursor arithmetic with every index checked; `M_Heap` uses the bounded lists that C01 proves equivalent |
| `trace_core.go` | `M_Trace`, `M_Stringer`, `M_Heap`, `M_Ulid`, `M_Counters` | as values, and as objects in a heap with pools and goroutines; atomics of the stringer step by step |
| `trace.go`, `helpers.go`, `decorators.go` | `M_Decor`, `M_Slice`, `M_Fmt` | contexts as trees; argument slices with capacity; `Sprintf` a parameter, except where C45, C47 and C49 need its verbs |
| `trace_static.go` | `M_Types`, `M_Search`, `M_Broker`, `M_Snapshot` | |
| `filter.go` | `M_Filter` | regexp a parameter |
| `search_stats.go` | `M_Stats`, `M_StatsHeap`, `M_Rates`, `M_Summary` | values; bucket slices as arrays for aliasing; rates as rationals |
| `search_types.go`, `collector.go` | `M_Search`, `M_Decor`, `M_Heap`, `M_Race`, `M_Shared`, `M_Setup`, `M_SearchLog` | |
| `broker.go` | `M_Broker`, `M_Steps`, `M_BrokerRace` | channels as bounded queues |
| `internal/trcutil` | `M_Humanize`, `M_HumanNum`, `M_Frame`, `M_Decor` | |
| `internal/trcdebug` | `M_Counters` | |
| `trcweb/middleware.go` | `M_Web`, `M_Wrap` | handlers as programs; panics and deferred calls |
| `trcweb/trace_server.go`, `util.go` | `M_Url`, `M_Web`, `M_Json`, `M_JsonText`, `M_StreamHttp`, `M_EventSource`, `M_Feedback`, `M_Goroutines`, `M_StreamFilter`, `M_StreamLog`, `M_Body` | |
| `trcweb/render.go`, `assets/traces.html` | `M_Web`, `M_Text`, `M_Page`, `M_Stacks`, `M_Summary`, `M_Render`, `M_Ages`, `M_Controls` | content negotiation, templates, events, text, links, form, summary table |
| `cmd/trc` | `M_Cli`, `M_CliStream`, `M_Main`, `M_Goroutines`, `M_Reporter`, `M_Retry`, `M_Flags` | |
| `_examples` | `M_Example`; one interleaving of `main` in `P_Setup` | the service; not the load generator |
| sync, strings and strconv, as far as used | `M_Mutex`, `M_Locks`, `M_Strings` | critical sections (C50), lock order (C51), string functions |

### What is simplified or left out

* Sizes: `int`, times and durations are unbounded integers, counters do not wrap. Memory does not run out.
* Locks: a body between `Lock` and `Unlock` is one step (C50 shows why that is enough). The unlocked writes of
  `newCoreTrace` are one step: the object is private then (C16). The lock of the set of categories is left out
  of the heap machine, which allows more interleavings, not fewer. The Go memory model is taken to be
  sequentially consistent; C77 shows that orderly programs have no data races, for which Go guarantees that.
* Outside code is a parameter, quantified over in the theorems: regexp, most of fmt, the clock, entropy, pools,
  map order, goroutine order, `sort.Sort` (any sorted permutation), `url.ParseRequestURI`. Modelled from
  documentation: ULID, url query escaping, `Duration.String`/`ParseDuration`, JSON value trees and JSON text,
  media types, html/template escaping and URL processing and what a browser makes of it, the event source
  protocol (as text in C91, elsewhere as a sequence of messages).
* Floats: rates and percentages are exact rationals (C65, C74); C94 shows that the percentages are the same in float64. Rates agree up to rounding.
  Division by 0 in a percentage is an unspecified value.
* C67: one connection; reconnecting is a new connection. Failed writes are not read, `OnRead` and a 406 refusal
  are left out. C71: counters change in the step of the operation they count; the decimal text of the REUSE column is left out.
  C72: flag parsing is left out; any failed exchange is a client error. C73: the reporter goroutine is left out
  except for the ticker that can panic; retry timing is left out; that the program ends after cancellation is
  shown as "can always end" and needs a fair scheduler. C74: ages and rates of the rows are left out.
* C77: the lock of the set of categories is held across `Resize`, that of a ring buffer across `Walk`; `GetOrCreate`
  and `Add` are one step, as is `newCoreTrace`. Atomics are neither accesses nor edges. A read by the program of
  the fields of a trace is one access to a group of fields. The collector's settings (which `SetSourceName`,
  `SetNewTrace` and `SetDecorators` write without a lock) and the broker are left out. The program's own
  synchronisation is a release or an acquire of a named object.
* C78: sort.Slice is an algorithm of comparisons and swaps, assumed to sort and to swap nothing in a sorted slice
  (insertion sort up to 12 elements is shown to do so; longer slices go through pdqsort, whose check for increasing
  input is not modelled). Capacity of slices is left out: `append` to a fresh literal always allocates.
* C83: escapes in CSS names and other kinds of selectors are left out; every byte above ASCII may stand in a name.
* C84 bounds what is in the categories, counted in traces and events; it does not count bytes (the text of one event may be of any size), nor what the pools and the callers hold.
* C85: the memory is sequentially consistent word by word (weaker memories allow more); the words of an interface value may be stored and loaded in either order, as Go's memory model allows.
* C86: the event source package is outside: it is taken to send the request again when a connection breaks, inside of `Read`, and to deliver what it reads from a connection in order; its retry delay is arbitrary time. One server process is assumed for the whole session.
* C88: the event source package is outside: `Read` is taken to fail with `ErrClosed` only after `Close`. The data of an event is abstract, its decoders are arbitrary functions; `%q` is an arbitrary function.
* C89: each locked body is one step (C50). A new trace is a new value: that the pool may give out the memory of a freed trace again while a search reads it is C16. A look is arbitrary, so what one look can see is not bounded here (C33 does that).
* C90: written from the documentation and source of encoding/json. The limit of 10000 nested values is left out. A number
  with a fraction or exponent is kept as its text, so that `duration_sec` is any number. Indented text is written directly,
  not by indenting the compact text. `Unmarshal` is `Decode` here; it also rejects what follows the value.
* C91: the event source package is modelled from its documentation and source, which are not in the repository; lines end in a newline, with or without a carriage return before it; the fields id and retry have no effect. HTTP's own framing (chunks) is left out.
* C92: the time package is modelled from its source, which is not in the repository. A time is an instant, nanoseconds from Go's zero time, without a location; the range of time.Time is left out. C56, C67, C87, C90 and C91 keep the text of times as a parameter with the hypothesis that it is read back, which C92 proves of the modelled text.
* C93: one Write to the destination is one step (os.Stderr and log.Logger lock); errors of Write are ignored by the code and not modelled. The header and the final newline of log.Logger are modelled from its documentation.
* C94: float64 without overflow and subnormals (arguments are ints below 2^63 and their quotients, far from both limits). The decimal text of a float in HTML is not modelled. NewSearchTrace is modelled with nothing between reading the duration and reading the events (see C33).
* C95: category statistics are assumed to be blank or to carry a name (unnamed statistics whose sums cancel out are left out). Decoding ignores keys that differ from the field names only in case, and that a repeated key is decoded into what the earlier one left. Rates and the Request field of responses are left out. sort.Sort over two or more traces is taken to compare every element at least once, which any sorting algorithm must.
* C96: time.Since saturates after 292 years, which the model leaves out, as C65 does. The theorems start from statistics whose rates were not read before. RateCalc (trcweb/render.go:226) is offered to templates but none uses it.
* C97: html/template, encoding/json and the file system are arbitrary functions; taken from their documentation are that the template made by New is among those of Templates, that ParseFiles names templates after the last part of the path, and that a later definition replaces an earlier one. Template names with slashes, and user functions, are left out. The files do not change while a page is made.
* C98: package ff (flags, environment variables, choice of the command) and the help text are arbitrary functions. Writes to the streams succeed. An error is its text and the known errors it wraps. What the commands do to servers is in C72 and C73.
* C99: the log lines a handler writes of its own accord may happen at any time; a failed write is a free choice at every trace, so that noticing the broken connection (which ends the handler, but competes with the other cases of select) is left to the schedule.
* C100: what the goroutines compute is left out (C29, C67, C73, C88 have it); the stream handler's goroutine is in
  C67. `http.Client` and the event source are assumed to end when they are closed.
* C102: white space between elements is left out; html/template's escapers are modelled by their tables (text and
  attributes alike); what the editor makes of an address is its path, percent-decoded.
* C103: the times of messages and of looks are any integers (time.Sub does not saturate); that the ticker ticks is not
  modelled; a message's age is counted from when the client read it.
* C104: counts calls of the client's Stream; within a call the event source connects again by itself, after the client's
  own interval. What Stream does is in C73, C86 and C88.
* C105: starts from the flags as a list of names and values: how package ff cuts the arguments into these, and the
  environment variables, are left out; how values are read is a parameter; usage texts and placeholders are left out.
* C106: a critical section is one step, as nothing in it waits; what NewStreamTrace reads of the trace it is given is
  left out (C77 has traces); a receive only gets the order of the send it takes, which is less than Go promises.
* C107: only the three fields that setters change; contexts without a trace; functions and decorators are numbers; reads
  and writes take effect in the order of the schedule, also where they race (Go promises less).
* C108: requests in the order in which they lock the store; TrimSpace and %q are parameters; that net/http drops the text
  of an answer with status 204, the middleware (C52) and the load generator are left out.
* C109: only differences of times saturate. `Time.Add` is exact (seconds are an int64 of their own), and
  monotonic clock readings, which a decoded trace does not have, are not modelled.
* C110: a panic that nobody recovers ends the process, and nothing is said about that. fmt recovers panics of
  String methods itself; only a panic value that panics when printed gets through.
* C111: the largest length is any number from 1000 (the size a collector starts with) to 2^62. A process that runs out
  of memory below that length is killed, which is not modelled.
* C112: a search is represented by its counts (those of its response: `C112_counts_are_those_of_the_responses`), an
  error by its text. The trace in the
  context makes one line of every call (C15, C36), and arguments do not change after the call. A panic while the
  statistics are merged is C95.
* C113: the handler makes event calls only (no Finish, SetMaxEvents or reads), and nobody reads the trace before the end;
  a read in between changes nothing but when lazy lines are formatted (C11).
* C114: the names of the members are distinct, and each is a field name in the same case or matches none (encoding/json
  also takes other cases, and of equal names the last); the body is not longer than the limit.
* C115: the texts of errors are arbitrary; the four lines before the goroutine starts are left out. That the log is
  published to other streams is the subject of C99.
* C116: times are in UTC; a time that was read from JSON with another zone is written in that zone by the code.
  `Date.parse` is an input that has to read RFC 3339; `setInterval` and the element lookup are left out.
* C117: the sizes of the decoder's reads are left out; the connection is not closed or kept by the model.
* C118: the argument and the result of an optional method are texts; reading response headers back is left out.
* C81: one goroutine; the NewTrace function of a collector is `New` or nil; `eztrc.Middleware` and `Handler` are
  those of C52 and C22 on the global collector.
* Not modelled: template files other
  than the parts named above, the style sheet except for highlighting, the log package's logger, the tabwriter layout and HTTP wire formats.
* C119: one goroutine, operations and regions end in the order in which defer ends them.
* C120: the browser is modelled as far as these scripts see it: events are given with their targets, mouseout comes before the next mouseover, a hidden element gets no clicks. IDs of letters and digits mean themselves in a selector (other IDs, which trc does not make, may select anything). The reset button and the scroll position are left out.
* C121: the trace log is a destination of texts; what log.Logger puts before each entry is in C93. Which level the log has (cmd/trc/main.go) is in the model of the command line.
