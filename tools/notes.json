{
 "C03": {
  "note": "Capacity 0 is excluded by hypothesis and covered by C03_capacity_zero_discards."
 },
 "C06": {
  "note": "Frozen for all observers and for texts, stacks and flags; finding: the time of the truncation marker is the time of the read (C06_marker_time_refuted)."
 },
 "C09": {
  "note": "Positive characterisation plus two findings: the marker under-counts by one, and it can follow later events."
 },
 "C11": {
  "note": "Sequential reads; concurrent reads are C12."
 },
 "C14": {
  "note": "Finding: the last captured frame is never reported."
 },
 "C50": {
  "note": "Generic theorem for bodies made of statements under one mutex, applied to every statement of the ring buffer's and core trace's methods. The order of Unlocks is the order of Locks. An example shows the same schedule losing a value without the mutex."
 },
 "C51": {
  "note": "Lock acquisition sequences of every operation, with all data-dependent repetition counts as parameters. User callbacks (String methods) are excluded from the positive theorem; three findings about them."
 },
 "C16": {
  "note": "Machine of goroutines that create traces, call methods on any trace ever created, change category sizes and free what was pushed out, one mutex-held body per step, with sync.Pool choices and garbage collection of pools as inputs. newCoreTrace's unlocked writes to the fresh object are one step. Also proved: recycling is invisible (every trace equals the value it would have with memory of its own), no reuse before Free, nothing panics."
 },
 "C17": {
  "note": "Until evicted (and until freed) a trace is exactly what the calls on it make of it, in every interleaving; the refuted theorem is the legal history in which Tracef on a finished, evicted trace adds an event to another live trace."
 },
 "C18": {
  "note": "Events as returned by Events/EventsDetail, which searches copy from. Texts, times and flags never change; stacks not before the trace is freed; the refuted theorem rewrites the stack of an already returned event after eviction and reuse."
 },
 "C56": {
  "note": "JSON values, not JSON text; the time package's text format is a parameter assumed to read back what it wrote; HTTP transport, the 1 MB body limit and duration_sec (a float nothing reads back) are not modelled. A response's Request and Duration fields are covered by the round trip."
 },
 "C63": {
  "note": "The oklog/ulid package is not in /repo; its Timestamp, New, monotonic entropy and String are modelled from their documented behaviour. Traces created concurrently are ordered by their reading of the entropy source, which is under a lock; the clock is read before that."
 },
 "C67": {
  "note": "Transition system for one connection: handler, goroutine, wire, client and an arbitrary environment on the broker; invariant proofs over all reachable states, plus two theorems that a good end can always be reached. Reconnects of the event source client are separate connections. Includes a finding (_refuted)."
 },
 "C65": {
  "note": "Rates as exact rationals, so rounding of float64 is not covered."
 },
 "C66": {
  "note": "For the text HumanizeDuration returns, over all of int64."
 },
 "C68": {
  "note": "The browser's side is a small reader of HTML text in S_Page.v. Includes a finding (_refuted) about highlightQuery: event text is assigned to innerHTML."
 },
 "C69": {
  "note": "html/template's URL normalisation and escaping are modelled from the library's documentation. Includes findings (_refuted)."
 },
 "C70": {
  "note": "The form as loaded, submitted without changes; the browser's form encoding is url.QueryEscape up to bytes that decode alike. Includes findings (_refuted)."
 },
 "C71": {
  "note": "Counters run beside the memory machine of C16-C18. Two findings: event/text LOST counters never move (proved for all runs, with a witness); a debug row is not a snapshot (witness)."
 },
 "C72": {
  "note": "Composes C21, C23, C29, C31, C56 and C64: cli_search over servers reached through the JSON exchange of M_Json. url.ParseRequestURI, URL.String and replacing the path are parameters; HTTP and flag parsing are not modelled (an exchange that fails in any way is an error of the client)."
 },
 "C73": {
  "note": "Transition system with one step per goroutine action. The reporter goroutine only writes debug output and is left out except for its NewTicker; retry timing and the connection (C67) are left out; ending is shown to be possible from every state (that it happens needs a fair scheduler)."
 },
 "C74": {
  "note": "Floats exact (true below 2^46); ages and rates of the row not modelled here (C65 has the rates)."
 },
 "C75": {
  "note": "All in P_System.v over the heap machine of C16-C18 (pools, recycled objects, goroutines in any order) combined with the search theorems C22. C75_late_call_refuted shows the condition is needed (see C17)."
 },
 "C76": {
  "note": "A message is the trace as read at one moment; the real reads are several (see C33, C39), each at a moment the theorem covers."
 },
 "C77": {
  "note": "Happens-before as in the Go memory model (program order, mutexes, pool put/get, the program's own channels). C77_no_race: any orderly program, any schedule. Excluded from the theorem by hypothesis: reading the stack frames of a result after the fact, which C77_frames_refuted shows to race. The two other refutations show that the hypotheses looked_first and used_first are needed."
 },
 "C78": {
  "note": "Every load and store of the request is a step. sort.Slice is any algorithm of comparisons and swaps that sorts and swaps nothing in a sorted slice; Go's insertion sort (used up to 12 elements) is shown to be one. The write of FRest fields does not occur in the code. A slice covers its array from the beginning. The findings are the _refuted theorems."
 },
 "C79": {
  "note": "Floats are the rationals they are; rounding of the division by 1000 is a universally quantified function; NaN, infinities and negative zero are left out. Division by 1024 and 1048576 is exact. The findings are the _refuted theorems."
 },
 "C80": {
  "note": "Closed under the global context. Findings: C80_ids_refuted, C80_quotes_refuted, C80_leftover_expression_refuted."
 },
 "C81": {
  "note": "Closed under the global context. A refinement of S_Easy's books (traces, calls received, views of contexts). One goroutine; the NewTrace function is trc.New or nil; decorators are log decorators. Findings: C81_prefix_before_new_refuted, C81_region_before_new_refuted, C81_setters_have_no_defaults_refuted."
 },
 "C82": {
  "note": "exact condition for panicking publishes; simulation for polite closers; finding: others lose traces"
 },
 "C84": {
  "note": "Invariant over every schedule of the heap machine; the bounds count traces and events, not bytes. _refuted: the number of categories grows without bound."
 },
 "C83": {
  "note": "Exact set of highlighted cells for every search and table; composed with C69 for the links. _refuted: durations with a fraction break the rule."
 },
 "C85": {
  "note": "Invariants over every word-level schedule; _refuted: the race and the nil collector for servers with a field that is not provided."
 },
 "C86": {
  "note": "Built on the connection of C67. A session is a list of connections of one Stream; each has its own channel and handler, its broker past extends the history at which the previous one was left. C86_old_handler shows that the abandoned handler's operations are operations elsewhere for the new connection. C86_gap_refuted is a finding: what is published between two subscriptions is lost silently."
 },
 "C87": {
  "note": "Composition of C38 (what a trace used by one goroutine publishes) and C67 (what a remote client gets of what is published)."
 },
 "C88": {
  "note": "The event source library is outside the model; of it is assumed that Read reports ErrClosed only after Close. C88_trc_server composes with the JSON round trip of C56. C88_connection_refuted is the finding."
 },
 "C89": {
  "note": "Search with arbitrary steps of other goroutines between its Walks and an arbitrary look at each trace; equals M_Search when undisturbed; the finding is C89_no_single_moment_refuted."
 },
 "C90": {
  "note": "Reading is sound and complete for the grammar; writing is in the grammar; cut-off text is an error; lines; the texts of requests, traces and searches. Finding: garbage after a request."
 },
 "C91": {
  "note": "The event source package is a dependency and is modelled from its documentation and source; the client's automatic reconnection is C86."
 },
 "C92": {
  "note": "The functions of the time package are modelled from its source, which is not in the repository. Times are instants: trc's are all in UTC, a location that is read is not kept. What the fast reader does not accept goes to the time package's general parser, an arbitrary function."
 },
 "C93": {
  "note": "One trace with a log decorator under every interleaving of goroutines; see DESIGN.md for what a step is."
 },
 "C94": {
  "note": "float64 arithmetic modelled as rounding of rationals; two findings stated as general theorems"
 },
 "C95": {
  "note": "Findings: C95_unrelated_answer_refuted, C95_arrival_decides_refuted."
 },
 "C96": {
  "note": "Closed under the global context. Simulation between the float64 program and the exact model of C65; monotone in the count and in the time."
 },
 "C97": {
  "note": "Closed under the global context. Findings: C97_unset_directory_refuted, C97_root_breaks_every_page_refuted."
 },
 "C98": {
  "note": "Closed under the global context. Finding: C98_no_server_answers_refuted."
 },
 "C100": {
  "note": "Transition systems for the scatter and gather of a multi-search, for any number of calls of the stream client in one context, and for trc stream with its reporters; invariants over all reachable states, and constructed runs to the end."
 },
 "C101": {
  "note": "On the easy-interface model of C81, the search model of C22 and the merging of C29; the books give every stored trace the source name, by induction over the program."
 },
 "C102": {
  "note": "Model of the page's stacks with html/template's escaping; the reader of HTML in S_Stacks is the specification."
 },
 "C103": {
  "note": "Includes two findings, proved for all intervals concerned."
 },
 "C104": {
  "note": "Includes a finding, proved for every number of attempts."
 },
 "C105": {
  "note": "Includes a finding."
 },
 "C106": {
  "note": "Careful programs only; the two ways to be careless are refuted by witnesses."
 },
 "C107": {
  "note": "Includes findings."
 },
 "C108": {
  "note": "Includes findings."
 },
 "C109": {
  "note": "M_Saturate.v has renderEvents and the rates with the saturating subtraction of package time; C109_same_era and C109_rates reduce them to the exact models of M_Web.v and M_Rates.v; the refuted theorems are general (every trace whose only event has the zero time, every category older than 2^63 ns)."
 },
 "C110": {
  "note": "M_Panic.v adds panics at any action to the lock machine of C51: a panicking call runs its deferred Unlocks. C110_Errorf_refuted is general: every panicking Errorf marks the trace."
 },
 "C111": {
  "note": "Refinement of the unbounded model by the 64-bit one, for every history; the finding holds for every history."
 },
 "C112": {
  "note": "For every tree of searchers and every schedule; C112_searches_end shows that the hypotheses are met for every tree."
 },
 "C113": {
  "note": "C113_long_request_refuted is the finding, for every handler that logs too much."
 },
 "C114": {
  "note": "Model of decoding into struct fields on top of the JSON grammar of C90; the first event of the stream is M_EventSource.init_data, read back as text (P_Told.v). Findings in C114_default_is_used_refuted, C114_members and C114_told_bytes_refuted."
 },
 "C115": {
  "note": "The log runs beside the connection of C67; C115_log_is_a_log shows that it restricts nothing. Findings: C115_clean_end_refuted, C115_long_stream_refuted."
 },
 "C42": {
  "note": "Relay theorems: P_Relay.v, for every decorated or plain core trace"
 },
 "C116": {
  "note": "Times are in UTC; Date.parse of the browser is an input that reads RFC 3339; subtraction and multiplication of integers below 2^53 are exact, the quotients are rounded as in IEEE 754."
 },
 "C117": {
  "note": "The text of the error is an input. How the decoder fills its buffer does not matter and is left out."
 },
 "C118": {
  "note": "General writers and handlers (M_Wrap.v); C118_same_as_C52 links the model to that of C52. Findings in C118_hidden_refuted and C118_flush_refuted, both for every such writer. Arguments and results of optional methods are texts."
 },
 "C119": {
  "note": "C119_finished_early_refuted and C119_lost_refuted are the finding; C119_kept is the exact behaviour, C119_kept_of_said compares it with what was said."
 }
}