# Formal model of vparla/mcp-cpp in Rocq (Coq 8.16.1)

This document says what is modelled, how each property in `properties.jsonl` is stated and proved, and what is trusted.

## 1. Layout

`rocq/theories/`, logical name `Verif`. For every area `X` there are up to four files:

* `XModel.v` - the code, function by function; every definition cites the file and lines it models and every simplification. No proofs.
* `XSpec.v` - a small independent specification: plain definitions a reader can compare with the English property. It does not use the model's helpers other than the data types.
* `XProofs.v` - lemmas and proofs.
* `XProps.v` - the property theorems (`Cnn_...`), each `exact`-ing a lemma, each followed by `Print Assumptions`, with an `Example` showing a concrete non-trivial case that meets the hypotheses.

A theorem named `..._refuted` states the negation of the property for the model of the code as it is (the code violates the property) and exhibits the witness. A theorem named `..._partial` proves part of a property; what is missing is said in MANIFEST.json and in section 4.

## 2. Modelling decisions

* `std::string` is `list ascii` (`bstr`), arbitrary bytes, no length limit (`size_t` wrap is modelled explicitly only where the code depends on it).
* `std::unordered_map` is an association list with distinct keys. Its order stands for the unspecified iteration order, and theorems quantify over all lists, hence all iteration orders.
* `int64_t` is `Z` with explicit range checks where the code converts; `unsigned` counters carry their wrap (`mod 2^32`, `mod 2^64`).
* `double` is modelled exactly, as a sign, a 53-bit integer and a power of two, with the printing (`%g`-style, six digits) and parsing the code uses.
* C++ exceptions are an explicit error outcome (`option`/`result`).
* Recursion in the parser uses explicit fuel equal to the number of remaining bytes plus one; fuel exhaustion is a separate outcome and a theorem excludes it.
* Concurrency: the code holds a mutex around each access to shared state. A model step is one mutex-protected region; threads are interleavings of steps. Properties are invariants over every list of steps, or relations over every reachable state.
* Handlers, verifiers, clocks, sockets and random draws are universally quantified parameters (function arguments or oracle values inside steps), never axioms.
* Undefined behaviour is a distinct outcome where the code can reach it.

Not modelled: memory allocation failure, stack exhaustion, the C++ memory model below mutex granularity, the insides of operating-system calls, of boost (asio, beast, interprocess) and of OpenSSL (their results are quantified over), the sinks log lines are written to, the compiler's coroutine frames below the promise types of Task.h and FutureAwaitable.h, Windows code paths, the programs under examples/. Of the logger the levels, the filter and the order of lines are modelled (Say*), of the environment GetEnvOrDefault (Say*).

## 3. Trusted base

* Coq 8.16.1's kernel (including `vm_compute`).
* The hand translation from C++ to Gallina, made reviewable by the line citations.
* What `Print Assumptions` prints for each theorem, printed during the build and listed in section 5.
* No axioms are added; no kernel check is switched off; no functors, module types, plugins.

## 4. Plan per property

| id | model | proof |
|----|-------|-------|
| C01 | framer encode/decode on byte lists | direct, via decimal print/parse inverse |
| C02 | framer + `drainFrames` loop with connected flag | decode is stable under appending bytes; induction over chunks |
| C03 | framer | case analysis on decode |
| C04 | `drainFrames` with fuel = buffer length + 1 | fuel never runs out |
| C05 | string escape + `parseString` | induction over bytes, 256-way case split |
| C06 | serializer + recursive-descent parser | structural induction with fuel bound |
| C07 | same | refuted by a key containing a quote; positive version under the escape-free hypothesis in C06 |
| C08 | parser with fuel | strong induction: fuel `length+1` always suffices |
| C09-C11 | textual field extraction (`find`) + parser | first-occurrence lemmas on the serialized text |
| C12 | same | refuted by member order / nested id |
| C13 | `hasTopLevelKey` scanner | scanner invariant over serialized values by induction |
| C14 | `route` with handler as parameter | case analysis, reuses C09-C13 |
| C15, C16 | pending-table state machines (in-memory, stdio, shared memory, HTTP client, HTTP server) | invariant over step lists |
| C17, C18 | two endpoints with queues and handler threads | invariant relating log of sends, queue and log of deliveries |
| C19, C20 | write queue machine with partial writes | invariant |
| C21 | deadline table | direct + invariant |
| C22-C25 | `TaskStore` step machine | invariant over op lists, induction on pages |
| C26, C27 | task (de)serializers over JSON objects | direct |
| C28, C30, C36 | list handlers, paging arithmetic, client loop | induction on remaining entries |
| C29 | registry operations | refinement to finite maps |
| C31, C32 | template tokenizer and backtracking matcher | induction over tokens |
| C33 | resolution | case analysis against spec |
| C34, C35 | read windows and client loop | slice algebra, induction |
| C37-C39 | subscription, level, rate-limit machines | invariants over op lists; C37 refuted after the last unsubscribe and for overlapping requests, C38 refuted for levels above error |
| C40, C41 | cancel-token tables over histories of begin, end, cancel and watch | invariants; C40 refuted for the ids 1 and "1", which share an entry; C41 refuted (a late cancel waits for the next use of the id) |
| C42 | `dispatchRequest` with all its handlers; user code, clock and transport are parameters | case analysis |
| C74 | both capability serializers and parsers | round-trip; refuted for listChanged/subscribe flags and for extensions and experimental capabilities of clients |
| C75 | `dispatchRequest` | frame theorem; refuted for a task call cancelled before its reply |
| C76, C77, C78 | call handlers composed with registration histories (C29) and client calls | case analysis, round-trip |
| C79 | client calls on error replies | refuted for Complete and Initialize |
| C80 | `handleToolsCall`, its worker and tasks/result over task-store histories | composition with C22-C24 |
| C43, C44 | `CheckBearerAuth` with verifier/clock parameters | iff against a spec |
| C45 | HTTP front-end routing | POST/DELETE proved, GET stream refuted |
| C46, C47 | `parseWwwAuthenticate`, server challenge builder | round-trip by induction over parameters |
| C48, C53 | header validators | iff against spec |
| C49, C50 | SSE writer and client parser (`SseModel`), down to the client's router | round-trip by invariant over reads; C49 refuted for line breaks in keys, C50 refuted for reads that end inside a data line |
| C51, C52 | HTTP session machine | invariants; uniqueness refuted |
| C81-C83 | HTTP session machine, send functions, response bodies | completions from the ticket invariant; races, recipients and unescaped texts refuted |
| C54, C55 | listing-cache machine with in-flight calls | TTL part proved, race and error caching refuted |
| C56, C57 | `urlEncodeForm`, token cache | decode inverse; invariant over histories |
| C58, C59 | error values, list items | round-trip |
| C60 | validators and builders | induction over builder calls |
| C61 | id generators | injectivity of decimal printing |
| C62 | shared-memory classifier | refuted |
| C63, C73 | keepalive settings, loop and error flag | invariant over rounds; late errors refuted; C73 refuted after a stop or a close |
| C64 | composition of C02, C09-C13, C20 | composition; refuted for the responses of C10 |
| C84 | two stdio transports, two pipes, all interleavings (`DuoModel`) | invariant over histories of the pair, composition with C02, C09-C16 |
| C85 | reader limit and queue cap | refuted for the defaults; proved for caps within the reader's limit |
| C65, C66 | stdio transport machine | refuted by concrete runs |
| C68 | template matcher | refuted by a match with an empty value |
| C69, C70 | `Validators.h`, function by function; strict list handlers | iff against schema shapes written as predicates |
| C71, C72 | resource read handler and typed client | case analysis; C72 refuted for content items |
| C67 | `TaskStore` callback queue | permutation invariant; the order is refuted |
| C86 | token cache, `headers` | refuted by a history; proved for the two cases that hold |
| C87 | `parseJsonStringField` on every layout of a JSON document (`LayoutSpec`) | refuted by three documents; proved by induction over the document for the rest |
| C88 | `ShmModel`: the two queues and both endpoints' steps | induction over the schedule |
| C89 | same, with ghost records of what was sent, got and served | invariant over the schedule; refuted in general by a payload naming a pending id |
| C90 | `dispatch` and `handle_sampling` | case analysis, against the schema of C69 |
| C91 | `dispatch` over histories of requests (`DispSpec`) | induction over the history |
| C92 | `parse_resource_meta`, `parse_server_meta` over documents in any layout (`LayoutSpec`) | induction over the layout; counterexamples for escapes and mentions |
| C93, C94 | `parse_url`, `resource_urls`, `server_urls`, `fetch_of` over structured addresses | computation on symbolic addresses; counterexamples |
| C95, C96 | `discover_resource`, `discover_server` against any network | induction over the addresses; counterexample for C96 |
| C97 | The HTTP client transport (HTTPTransport.cpp) as a machine over the parts of SendRequest, SendNotification, POST starts and ends, events, and the parts of Close and Start; the pending table is that of C15 | Invariants over all step lists; three counterexamples |
| C98 | The network log of that machine: POSTs with headers, reply headers, stream headers, Close | in_force is an inductive relation on logs, proved functional and equal to what is sent; counterexample for letter case |
| C99 | The same machine: spawned, queued and started POSTs | Permutation invariant |
| C100 | The same log | Invariant; counterexample |
| C101 | The reply to a POST being an event | Proved for every state: an error |
| C102 | std::terminate as a flag of the machine, set where an exception leaves the i/o thread or a running std::thread is assigned | Invariant; two counterexamples |
| C103 | Peer*: onRequest as peer_dispatch over any application, capabilities and state | case analysis on the method; C103_* |
| C104 | Peer*: request_roots on the server's side composed with peer_dispatch through JSON | round trip lemma per field; partial: empty uris dropped, errors read as no roots |
| C105 | Peer*: request_elicit composed with peer_dispatch | as C104; partial: errors read as an empty action |
| C106 | Peer*: request_message composed with peer_dispatch | as C104; partial: four parameters never reach the handler |
| C107 | Peer*: histories of requests, workers and store steps (peer_run) | invariant over histories on top of the task store's (TaskProofs.sinv) |
| C108 | Peer*: progress_note and peer_notice, doubles compared with 1.0 | arithmetic on canonical doubles; partial: integers are not read |
| C109 | Peer*: status_note and peer_notice | round trip of Task |
| C110 | Peer*: peer_notice over any set of handlers | case analysis; partial: shadowed handlers, requestId ignored |
| C111 | Conf*: http_config, the parser and the assignments, over all texts; ConfSpec says which texts write which settings | the pieces of a text are its settings; a fold over settings keeps the last one given; refuted parts for semicolons, large numbers, switches |
| C112 | Conf*: stdio_config; the timeout composed with Stdio*'s deadline computation | as C111; refuted: timeout 0 overflows the deadline |
| C113 | Conf*: shm_config | as C111 over queries |
| C114 | Conf*: listen_config; the address composed with Guard*'s Host check | as C111, and the cuts at ?, /, ], : one by one; refuted: missing bracket, bare IPv6, capitals |
| C115 | calls on tasks kept by the peer (TrackModel), both directions, over the dispatch of ServModel and PeerModel | round trip lemmas; paging by reduction to C25's walk; cancellation from the store's invariant |
| C116 | CallToolTask, GetTaskResult and the remembered kinds | shapes are stable under reordering of members (TrackProofs); composition with C80 and C107 |
| C117 | Server::CallToolTask against any modelled client | refuted: always throws |
| C118 | Server::CallTool, GetPrompt, ReadResource | from the registry's history; refuted for structuredContent and _meta |
| C119 | a server over its life: transports, Stop, notifications, HandleInitialize (SessModel) | invariants over histories by induction from the right |
| C120 | the notification calls and the transport pointer, null dereference as an outcome | invariant: a transport once given stays; refuted without one |
| C121 | two histories of one server side by side | noninterference by a simulation relation on the state the replies read; refuted for tasks, subscriptions, level, capabilities |
| C122 | what a client keeps between connections, over CacheModel | projection of the history to its list calls; refuted for the cache and the capabilities |
| C123 | thread-local request contexts | induction over balanced histories of one thread |
| C124 | announcements of registrations over the dispatch of list requests | the reply to a list reads only its own part of the registry |
| C125 | notifications arriving at a server | round trip of the status notification (PeerProofs) |
| C126 | every connection of the transport with its TLS checks as data, and what OpenSSL does with them (DialModel) | case analysis over the options; refuted for the default server name and for capitals |
| C127 | the token fetch and the discovery GET in the same terms | parse_web (DiscoProofs) and the same; refuted for the authorities |
| C128 | the Host field and target of every connection | case analysis; refuted for ports |
| C129 | the thread of the event stream: phases, sleeps, flags, Close, time (LoopModel) | one invariant over all histories; received events by simulation of SseModel |
| C130 | Close waiting for that thread | the steps that remain from every phase; refuted by two servers |
| C131 | the reading of the reply's head | induction over the fields; substring lemmas |
| C132 | `PipeModel.v`: the reader thread on Linux as a function of one turn (how the wait and the read end, what errno the handlers leave), with the kernel's input as a byte queue | `PipeProofs.v`: invariant that messages received, buffer, unread bytes and bytes to come make up the frames sent; induction on the history |
| C133 | the same, with the three kinds of standard input and their ends | induction on the turns after the end |
| C134 | the same, with the two clock readings of a turn | `last_heard` recomputed from the history equals lastReadTs; case analysis of a turn |
| C135 | `LifeModel.v`: the calls Start, Close and the destructor as steps, interleaved with the ends of reader and writer and the steps of the timeout thread | `LifeProofs.v`: invariant on the exit flags in the first life, then a schedule of at most nine steps; the refutations are invariants of every continuation |
| C136 | the same, with the fate of the process and of the object | invariants of orderly and of unclosed histories; concrete histories for the rest |
| C137 | `TalkModel.v`: programs that return, tell or ask, two sides with threads, queues and readers; which thread runs a handler differs by transport | `TalkProofs.v`: invariants tie waiting threads to messages in flight; request numbers grow along chains of waits; a cost measure bounds every history; refutations by invariants of every continuation |
| C138 | the same | a schedule of the reader alone; over stdio an invariant on what was taken |
| C139 | the same, with notifications marked by the request they were sent for | invariant: the messages sent for a request are a path of its handler's program |
| C140 | `HupModel.v`: the server with its io thread, listener, streams, handlers, and the calls Start, Stop and destruction step by step | `HupProofs.v`: invariant of every history; the work left in a Stop falls with every step of the server's own; refutation by an invariant of every continuation |
| C141 | the same | a stopped io_context stays stopped: invariant of every continuation |
| C142 | the same, with the order in which members are destroyed | the same measure; refutations by invariant and by one history |
| C143 | the same | invariants of every continuation |
| C144 | the same | induction on the number of streams; monotonicity |
| C145 | `LockModel.v`: for each request, notification, method and own thread of a server on stdio, the paths it takes through locks, shared members and callbacks; threads interleave freely | `LockProofs.v`: what a thread holds is what its path has taken (invariant of every schedule); locks are taken in one order, so chains of waiting are finite; the table of paths is checked by computation |
| C146 | the same, callbacks expand to whatever methods they call | the same order with a level for each callback; refutations: a thread that waits for its own lock never moves |
| C147 | the same | whoever holds a lock is not in a callback the library runs without one |
| C148 | the same, with every use of a shared member that is not atomic | a member used only with its lock held has one user at a time; a member nobody writes has no race; refutations by schedules |
| C149 | CoroModel: a table of what each of the 52 coroutines touches before and after its co_await; calls, answers, threads, lifetimes as events | partial: invariant on all accesses; refuted for GetTaskResult |
| C150 | CoroModel: promise, waiting thread, resumption | invariant over histories |
| C151 | CoroModel: destruction of the object as an event | partial: by cases on the table and on when the object goes; refuted in general |
| C152 | SayModel: the text of log entries, where they go, std::cout held back, the writer of frames | partial: invariant; refuted for every entry that gets between frames, by induction over the messages after it, with the framer of C01 to C04 |
| C153 | SayModel: the log file | partial: by induction over the history; refuted with a line break |
| C154 | WebModel: HcliModel and HttpModel joined; POSTs under way, served, lost and ended by steps of their own | invariant over both programs: where the answer of each POST under way comes from, and counts of ids in the queue, under way, served and ended |
| C155 | as C154 | the POST's place among those under way is stable; the future still waits because the POST has not ended (counts) |
| C156 | as C154 | invariant: the client's session, and those of POSTs and answers under way, are known to the server; the server's sessions persist under every step allowed |
| C157 | PushModel: WebModel with the server's requests, its event streams and the events the client reads | invariant: where every entry of the pending tables, every text queued, held, written and every answer under way comes from; counts of ids along the way of a message |
| C158 | as C157 | the pending entry is still there because the request has not completed; the POST's body routes to a response with that id |
| C159 | as C157, no restriction on others | refuted by a run; the part that holds by the shape of the handlers and an invariant that pending entries were sent on that session |
| C160 | TypedModel: the typed calls of the client as functions of the response received; ServModel for the server | the server's reply is computed, its members read back after any reordering; validity is stable under reordering by cases on the shapes |
| C161 | as C160 | as C160 |
| C162 | TypedModel: the loop with an oracle for the stop token | induction on the text left, as C35; refuted by two runs |
| C163 | PairModel: owner and worker of each end of an in-memory pair as interleaved steps, with the condition variable | invariant of a closed end, a rank that every turn lowers; the lost notification is an invariant that blocks for ever |
| C164 | as C163; the move assignment of std::jthread in its steps | direct run; rank of the worker; invariant of the sleeping thread |
| C165 | as C163; use of a freed end is a fate of the run | invariant: when an end is being destroyed nothing of either end runs |
| C166 | as C163; messages carry the number of the Start before them | messages handed over plus the one in hand stay constant while closed |
| C167 | SegModel: all transports on one channel, the owner and the processing thread of each as interleaved steps, the queues and their names | invariant of one transport, a rank that every turn lowers |
| C168 | as C167 | the place of the goodbye in the queue as a rank; invariant that queues read by creators never hold one |
| C169 | as C167 | invariant: a connected sole creator has the queues the names stand for |
| C170 | as C167 | rank of Start; the invariants of C168 |
| C171 | ProfModel: the registrations and handlers of the conformance profile in a world with any other handlers | the registrations in force by computation under any earlier history; resolution lemmas of C31 to C33; parser roundtrip for the document |
| C172 | as C171, the handlers as functions of the stop token, the rate limit and the transport | one lemma per handler, the dispatch of a tool call |
| C173 | as C172 | cases over the looks at the stop token; the client's reading of progress (C109) |
| C174 | as C172, joined with PeerModel | the rounds of C105 and C106; values up to member order |
| C175 | as C171 | the dispatch of a prompt, substitution |
| C176 | HlifeModel: the i/o thread with its queue, the event-stream thread, the callers of Close and of the destructor, the network as steps of an adversary | 15 invariants of all reachable states; inevitability by a lexicographic measure per stage of the call; invariants of the stuck states |
| C177 | as C176 | as C176; no event-stream thread can be started any more |
| C178 | as C176 | the place of the response in the queue as measure; an invariant of the state with the i/o thread in the TLS shutdown |
| C179 | TextSpec: the grammar of RFC 8259 with the value of each text, nothing shared with the parser; JsonModel | mutual induction over the grammar |
| C180 | TextSpec: nearest double in integers (units of 2^-1074); DoubleModel | bounds of the chosen exponent, the rounded quotient is the nearest integer, doubles as a grid |
| C181 | TextSpec as C179; the serializer of JsonModel | induction over values |
| C182 | TextSpec: a second, wider grammar | induction over the recursion depth of the parser |
| C183 | MemModel; NoteSpec: what was sent while the other end was open, told from the history | invariant: heard ++ on the way = sent; the queue drains by turns |
| C184 | OauthModel; OfailSpec: the reports due for each reply | induction over the history; layouts of JSON from C87 |
| C185 | HttpModel; RefuseSpec: a relation listing the refusals | case analysis of the server's decision, both directions for the effects |
| C186 | the members of Server::Impl and Client::Impl in the order declared, every thread inside them, the destructor as one step per member (DownModel) | invariant on what each thread may still touch; a second one for the destructor; wrong schedules exhibited |
| C187 | the same; Stop and Disconnect step by step (DownModel) | invariant: a running task is in the group, waited for, or held by a handler; progress by running each thread to its end |
| C188 | UtcNowIso8601, with gmtime_r as the calendar counted year by year (TimeModel); TimeSpec counts months by a relation | loop invariants; numerals of one width compare as their values |
| C189 | TaskModel with the texts of TimeModel as its clock | invariant over timed histories, with C188 |
| C190 | HttpModel; OpenSpec says what version a request asks for and what fits | evaluation of the path of a request, with C14 for the router |
| C191 | HttpModel | as C190 |
| C192 | HttpModel; RefuseSpec says which paths these are without the code's search for the last slash | a path splits at its last slash in one way |
| C193 | SetErrorHandler, SetAuth (GearModel) | invariant over histories |
| C194 | the heads of the three kinds of request (GearModel); GearSpec has a table of own fields | the value of a field after set; case analysis over names |
| C195 | recordResponse, QueryLastHttpResponse (GearModel) | induction over histories |
| C196 | the locks, shared members and callbacks of every method of the client (LatchModel) | an order of the locks; invariant over all schedules |
| C197 | the same; callbacks call methods, nested to any depth | the same; a schedule that refutes it for the error handler |
| C198 | the same; threads that stop in a callback | the same; schedules that refute it for callbacks under a lock |
| C199 | the same | the lock that guards each member; schedules that refute it for the setters |
| C200 | the same; a callback runs from the member that holds it, until it returns | invariant: nobody writes the member; schedules that refute it |
| C201 | LockModel with the return of callbacks | invariant: until a prompt handler returns, the registry stays locked and is changed only after locking it again; schedules that refute the rest |
| C202 | FreshModel: registry, queue of messages to the client, list calls, cache | invariants over all histories: what a call carries is at least as new as the registry when it began; each open call has one message; changes = heard + under way + owed |
| C203 | TuneModel: requests that choose, calls that notify, the queue to the client; with SubModel and LogModel | invariants: answers = requests carried out; what is chosen stays while none is left; numbers of notifications are unique; schedules that refute the rest |
| C204 | FetchModel: the operations of a token fetch and the calls of the error handler, either of which may throw | induction over the list of operations; counterexamples |
| C205 | the list handlers of RegModel, each page answered from the registry of its moment | the place of an entry in the sorted list is the number of smaller names: it never falls when no smaller name is lost and never rises when none is new; induction over the pages |
| C206 | FallModel: connections as coroutines on one i/o thread and stream threads, each operation ending in any way | induction over the history of one connection; two runs in step for independence; the i/o thread is held up exactly by the connection in its shutdown |
| C207 | ArgsModel: the calls on the builders | fold over the calls: the last one that gives a name decides; composed with C77 for the way to the handler and back |
| C208 | WalkModel: the paged calls and the loops of the listAll helpers, against a server that is any function of the requests so far | induction over the pages asked for; counterexamples for errors, first pages and endless cursors |
| C209 | TearModel: the loop of the chunked read against a server that differs at every request | induction over the requests with the pieces so far; counterexample with a text replaced after the first piece |
| C210 | ScribeModel: setLogLevel, setLogFile, logf and log as steps on the level, the open stream with its error state, the files and the console | invariants over the steps since the last change of level and file; counterexample with one failed write |
| C211 | GaugeModel: the ends of ShmModel joined by queues with the creator's message size; a send the queue has no room for and a receive into a smaller buffer throw, which is assumed of boost::interprocess::message_queue and was not checked against its source; not tested against wrong programs | refinement to the pair of C88 and C89; invariants over runs; counterexamples for a smaller opener and for a large answer |

## 5. Print Assumptions

Every `XProps.v` file prints the assumptions of its theorems during the build. No theorem listed in MANIFEST.json rests on any axiom, of the standard library or of any other: for each of the names below the output is

    Closed under the global context

* C01: C01_frame_roundtrip, C01_try_decode_roundtrip
* C02: C02_chunking_independent, C02_frames_delivered
* C03: C03_decode_sound, C03_consumes_within_buffer, C03_decode_complete, C03_oversize_disconnects
* C04: C04_reader_terminates, C04_progress
* C05: C05_string_roundtrip, C05_string_wellformed
* C06: C06_value_roundtrip, C06_doubles_refuted
* C07: C07_keys_refuted, C07_backslash_refuted
* C08: C08_parse_total, C08_depth_bounded
* C09: C09_request_roundtrip, C09_request_text
* C10: C10_response_roundtrip_partial, C10_response_text, C10_nested_error_refuted
* C11: C11_notification_roundtrip, C11_notification_text
* C12: C12_nested_id_refuted, C12_request_any_order_partial, C12_response_any_order_partial
* C13: C13_request, C13_notification, C13_response, C13_top_level_members, C13_surroundings
* C14: C14_request, C14_response, C14_notification, C14_any_text_one_call, C14_any_text_answer
* C15: C15_memory_at_most_once, C15_memory_for_cause, C15_memory_reused_id_refuted, C15_stdio_at_most_once, C15_stdio_for_cause, C15_shm_at_most_once, C15_shm_for_cause, C15_http_client_at_most_once, C15_http_client_for_cause
* C16: C16_memory_close_completes, C16_stdio_close_completes, C16_shm_close_completes, C16_http_client_close_completes
* C17: C17_fifo, C17_delivered
* C18: C18_answer_matches, C18_all_answered
* C19: C19_queue_bounded, C19_queue_balance, C19_accept_or_refuse
* C20: C20_written_prefix, C20_writer_drains
* C21: C21_sweep_exact, C21_deadline, C21_outcome_final, C21_timely, C21_timely_refuted
* C65: C65_lost_connection_refuted
* C66: C66_close_race_refuted, C66_shm_race_refuted, C66_http_client_race_refuted
* C22: C22_terminal_frozen, C22_outcome_frozen, C22_states
* C23: C23_one_winner, C23_first_wins, C23_losers_told, C23_unknown_told, C23_waiters, C23_waiters_wake
* C24: C24_unique, C24_retrievable, C24_only_created
* C25: C25_pages_cover, C25_pages_end, C25_one_page
* C26: C26_task, C26_task_wire, C26_created, C26_created_wire, C26_list, C26_list_wire, C26_metadata, C26_task_id
* C27: C27_result, C27_error, C27_other, C27_data_lost_refuted, C27_meta_lost_refuted
* C67: C67_status_reports, C67_order_refuted
* C59: C59_tool_partial, C59_resource_partial, C59_template_partial, C59_prompt_partial, C59_tool_wire_partial, C59_resource_wire_partial, C59_template_wire_partial, C59_prompt_wire_partial, C59_roundtrip_refuted
* C28: C28_tools, C28_resources, C28_templates, C28_prompts, C28_tools_served, C28_resources_served, C28_templates_served, C28_prompts_served, C28_by_name
* C29: C29_tool_lookup, C29_tool_listing, C29_resource_lookup, C29_resource_listing, C29_template_lookup, C29_template_listing, C29_prompt_lookup, C29_prompt_listing
* C30: C30_tools_partial, C30_resources_partial, C30_templates_partial, C30_prompts_partial, C30_beyond_refuted
* C36: C36_tools, C36_resources, C36_templates, C36_prompts, C36_tools_whole, C36_resources_whole, C36_templates_whole, C36_prompts_whole, C36_malformed
* C31: C31_sound, C31_repeated_refuted
* C32: C32_complete, C32_exact
* C33: C33_direct, C33_one_template, C33_ambiguous, C33_none, C33_answer_ambiguous, C33_answer_none
* C34: C34_window, C34_bounds, C34_end, C34_full, C34_tiles, C34_tiles_exist
* C35: C35_whole_text_partial, C35_with_hint_partial, C35_huge_chunk_refuted
* C60: C60_content, C60_tool_result, C60_prompt, C60_sampling, C60_text_sampling, C60_tasks
* C68: C68_nonempty_refuted
* C69: C69_content, C69_call_tool, C69_read_resource, C69_get_prompt, C69_completion, C69_elicitation, C69_task, C69_lists, C69_sampling
* C70: C70_tools, C70_resources, C70_templates, C70_prompts
* C71: C71_server, C71_client_range, C71_client_whole
* C72: C72_hidden_partial, C72_rest, C72_item_refuted
* C37: C37_sent_partial, C37_only_updates, C37_never_subscribed, C37_after_unsubscribe_refuted, C37_overlap_refuted, C37_requests_partial
* C38: C38_below_never_sent_partial, C38_above_sent_partial, C38_above_sent_now_partial, C38_critical_dropped_refuted, C38_error_at_emergency_refuted, C38_requests, C38_fatal, C38_set_level_answer, C38_level_sent
* C39: C39_windows, C39_any_second, C39_held_back, C39_unlimited, C39_sliding_refuted
* C63: C63_closes, C63_no_more_pings, C63_late_errors_refuted
* C73: C73_advertised, C73_interval, C73_enabled_pings_partial, C73_dead_but_advertised_refuted
* C40: C40_cancelled, C40_others, C40_exactly, C40_no_id, C40_same_text_refuted
* C41: C41_forgotten_partial, C41_late_refuted, C41_table_grows_refuted
* C42: C42_reply, C42_waits, C42_after_wait, C42_unknown
* C58: C58_value, C58_response, C58_category, C58_exactly, C58_category_refuted, C58_code_cut_refuted
* C74: C74_server_partial, C74_client_partial, C74_flags_refuted, C74_extensions_refuted
* C75: C75_no_effect_partial, C75_cancelled_call_refuted
* C76: C76_call, C76_unknown, C76_required, C76_forbidden, C76_client
* C77: C77_get, C77_unknown
* C78: C78_complete
* C79: C79_call, C79_tasks, C79_complete_refuted, C79_initialize_refuted
* C80: C80_created, C80_result, C80_threw
* C43: C43_admitted, C43_verifier_asked, C43_one_token, C43_exposed
* C44: C44_forbidden, C44_unauthorized, C44_rest, C44_expired_and_unscoped, C44_challenge, C44_challenge_refuted
* C46: C46_roundtrip, C46_not_bearer, C46_unclosed, C46_terminates, C46_malformed_refuted
* C47: C47_understood, C47_comma_cut
* C45: C45_partial, C45_status_partial, C45_calls, C45_stream_refuted
* C48: C48_host_refused, C48_origin_refused, C48_local_accepted, C48_any_host, C48_userinfo_refuted
* C51: C51_one_session, C51_named, C51_completions, C51_once, C51_create_partial, C51_collision_refuted, C51_names_run_out
* C52: C52_fifo, C52_stream, C52_once, C52_running, C52_lost_refuted
* C53: C53_accepted, C53_refused, C53_older_refuted, C53_rpc_refuted
* C81: C81_deleted, C81_stopped, C81_delete_request, C81_race_refuted, C51_once
* C82: C82_last_created, C82_request_answered, C82_none, C82_other_client_refuted
* C83: C83_refusal_json, C83_metadata_json, C83_escapes_refuted
* C49: C49_payloads, C49_end_to_end, C49_crlf, C49_lost_refuted, C49_injection_refuted
* C50: C50_partial, C50_contained_partial, C50_reads, C50_any_reads, C50_refuted, C50_altered_refuted
* C64: C64_wire_partial, C64_stdio_partial, C64_refuted
* C84: C84_own_answer_partial, C84_calls_partial, C84_same_id_refuted
* C85: C85_refuted, C85_smaller_cap_partial
* C56: C56_roundtrip, C56_alphabet, C56_body, C56_injective
* C57: C57_cached, C57_otherwise_posts, C57_header, C57_lifetime
* C86: C86_refuted, C86_partial, C86_replaced_partial
* C87: C87_escape_refuted, C87_null_refuted, C87_mention_refuted, C87_token_partial, C87_raw_partial
* C61: C61_equal_exactly, C61_distinct, C61_memory_ids, C61_memory, C61_stdio, C61_shm, C61_shm_counter, C61_http_server, C61_http_client, C61_chosen_id_refuted
* C62: C62_exact, C62_request_partial, C62_notification_partial, C62_response, C62_lost_refuted
* C88: C88_shm_fifo
* C89: C89_own_answer_partial, C89_runs_once_partial, C89_wrong_answer_refuted
* C90: C90_sampling, C90_none
* C91: C91_announced
* C54: C54_ttl, C54_fresh_partial, C54_kept, C54_off, C54_stale_refuted
* C55: C55_thrown_partial, C55_failed_refuted
* C92: C92_resource_partial, C92_server_partial, C92_escape_refuted, C92_mention_refuted, C92_bearer_refuted, C92_cut_lists, C92_cut_refuted
* C93: C93_server, C93_server_root, C93_resource_partial, C93_resource_root, C93_resource_refuted
* C94: C94_fetch_partial, C94_scheme_refuted, C94_ipv6_refuted, C94_query_refuted, C94_header_refuted
* C95: C95_server, C95_resource
* C96: C96_origin_partial, C96_issuer_refuted, C96_resource_refuted
* C97: C97_answered_partial, C97_own_answer, C97_other_refuted, C97_request_refuted, C97_restart_refuted
* C98: C98_session, C98_session_unique, C98_case_refuted
* C99: C99_posts
* C100: C100_version_fixed, C100_negotiated_refuted
* C101: C101_named, C101_event_reply_refuted, C97_own_answer
* C102: C102_partial, C102_throw_refuted, C102_start_refuted, C102_stream_partial, C102_stream_refuted
* C103: C103_reply, C103_waits, C103_after_wait, C103_unknown, C103_refused, C103_ping, C103_ping_checked
* C104: C104_roundtrip_partial, C104_error_refuted, C104_unasked
* C105: C105_roundtrip_partial, C105_error_refuted, C105_improper_refuted
* C106: C106_roundtrip_partial, C106_cancelled, C106_dropped_refuted
* C107: C107_elicit, C107_sample, C107_outcome, C107_store, C107_elicit_result, C107_sample_result, C107_threw, C107_status, C107_cancelled, C107_not_cancellable
* C108: C108_progress_partial, C108_integer_refuted, C108_token, C108_no_token, C108_token_refuted
* C109: C109_status
* C110: C110_routed_partial, C110_cancelled, C110_refuted
* C111: C111_strings_partial, C111_numbers_partial, C111_switches_partial, C111_unknown, C111_not_a_number, C111_semicolon_refuted, C111_large_refuted, C111_no_refuted, C111_lax_refuted
* C112: C112_options_partial, C112_defaults, C112_ignored, C112_zero_refuted, C112_blanks_refuted
* C113: C113_options_partial, C113_same_channel, C113_large_refuted
* C114: C114_listen_partial, C114_default, C114_ipv6_refuted, C114_bracket_refuted, C114_letters_refuted
* C115: C115_get, C115_list, C115_pages, C115_pages_end, C115_cancel, C115_cancel_late, C115_unsupported, C115_strict
* C116: C116_result, C116_failure, C116_unknown, C116_waits, C116_tool, C116_tool_result, C116_tool_threw, C116_elicit_result, C116_sample_result, C116_peer_threw, C116_strict
* C117: C117_refuted
* C118: C118_tool_partial, C118_tool_none, C118_tool_refuted, C118_prompt, C118_empty, C118_read
* C119: C119_running, C119_stop_partial, C119_stop_refuted, C119_restart_refuted, C119_own_client_refuted
* C120: C120_safe, C120_refuted
* C121: C121_session_partial, C121_tasks_refuted, C121_told_refuted, C121_caps_refuted
* C122: C122_asks, C122_stale_refuted, C122_announced, C122_caps_partial, C122_caps_refuted
* C123: C123_current, C123_none, C123_elsewhere_refuted, C123_same_text_refuted
* C124: C124_announced, C124_init, C124_no_transport_refuted
* C125: C125_status, C125_ignored
* C126: C126_https_partial, C126_issuer, C126_served, C126_closed, C126_where, C126_name_refuted, C126_scheme_refuted
* C127: C127_token_partial, C127_discovery, C127_discovery_asks, C127_authorities_refuted, C127_scheme_refuted
* C128: C128_host_partial, C128_port_refuted, C128_target
* C129: C129_kept, C129_again, C129_wakes, C129_gets, C129_session_unique, C129_off, C129_received, C129_throw_refuted
* C130: C130_close_partial, C130_after, C130_delay_refuted, C130_silent_refuted
* C131: C131_opens, C131_refuses_partial, C131_reason_refuted
* C132: C132_in_order, C132_received_partial, C132_errno_refuted, C132_fallback_refuted, C132_file_refuted
* C133: C133_end_partial, C133_pipe_refuted
* C134: C134_only_idle, C134_fires, C134_off
* C135: C135_close_partial, C135_no_crash, C135_lost_refuted, C135_again_refuted
* C136: C136_orderly_partial, C136_closed_destroyed, C136_close_stops, C136_twice_refuted, C136_destroy_refuted, C136_destroy_hangs_refuted, C136_two_readers_refuted, C136_freed_refuted
* C137: C137_answers, C137_once, C137_no_deadlock_partial, C137_ends, C137_completes_partial, C137_reader_waits, C137_stdio_refuted, C137_note_refuted
* C138: C138_threaded_partial, C138_stdio_order, C138_stdio_refuted
* C139: C139_order_partial, C139_one_at_a_time, C139_http_refuted
* C140: C140_returns_partial, C140_never_stuck, C140_hang_refuted, C140_quiet, C140_handlers_refuted
* C141: C141_first_partial, C141_restart_refuted, C141_twice_refuted, C141_failed_refuted
* C142: C142_destroy_partial, C142_open_stream_refuted, C142_handler_refuted
* C143: C143_listens_partial, C143_error_refuted
* C144: C144_pile_refuted, C144_stop_partial
* C145: C145_progress_partial, C145_finish_partial, C145_ends
* C146: C146_handlers_partial, C146_prompt_refuted, C146_stop_refuted, C146_error_refuted
* C147: C147_others_finish_partial, C147_prompt_refuted
* C148: C148_guarded_partial, C148_serving_partial, C148_race_refuted
* C149: C149_arguments_partial, C149_kept_partial, C149_arguments_refuted
* C150: C150_once, C150_settles, C150_quiet, C150_waits, C150_at_once, C150_stays, C150_threads, C150_threads_grow
* C151: C151_outlives_partial, C151_kinds_partial, C151_closing_refuted, C151_answered_refuted
* C152: C152_only_frames_partial, C152_read_partial, C152_quiet_partial, C152_deaf_refuted
* C153: C153_lines_partial, C153_same, C153_names, C153_forged_refuted
* C154: C154_own_answer, C154_once
* C155: C155_answered
* C156: C156_known, C156_accepted, C156_initialized, C156_names
* C157: C157_own_answer, C157_once, C157_tickets
* C158: C158_heard, C158_completed
* C159: C159_completer_partial, C159_forged_refuted
* C160: C160_returns_partial, C160_throws, C160_strict, C160_lost_refuted, C160_no_message_refuted, C160_named_refuted
* C161: C161_prompt_partial, C161_read_partial, C161_throws, C161_strict, C161_lost_refuted
* C162: C162_prefix_partial, C162_never, C162_ends, C162_capped, C162_endless_refuted, C162_silent_refuted
* C163: C163_destroy_partial, C163_lost_refuted, C163_closed_refuted
* C164: C164_start_partial, C164_close_ends_partial, C164_awake_partial, C164_one_thread, C164_twice_refuted, C164_restart_refuted, C164_two_refuted
* C165: C165_careful_partial, C165_peer_refuted, C165_job_refuted, C165_within_refuted
* C166: C166_partial, C166_late_refuted, C166_stale_refuted
* C167: C167_returns_partial, C167_stopped_partial, C167_within_refuted, C167_destroy_refuted, C167_job_refuted
* C168: C168_told_partial, C168_creator_refuted, C168_full_refuted
* C169: C169_joins_partial, C169_bystander_refuted, C169_second_refuted, C169_shared_refuted
* C170: C170_creator_partial, C170_opener_partial, C170_twice_refuted, C170_silent_refuted, C170_absent_refuted
* C171: C171_fixed_partial, C171_data_partial, C171_parts_refuted, C171_forged_refuted
* C172: C172_answered, C172_constant, C172_cancelled, C172_quiet
* C173: C173_log, C173_progress
* C174: C174_sampling_partial, C174_elicit_partial, C174_defaults_partial, C174_enums_partial, C174_sampling_refuted, C174_elicit_refuted
* C175: C175_simple_partial, C175_arguments_partial, C175_resource_partial, C175_image_partial, C175_completion_partial, C175_required_refuted
* C176: C176_returns_partial, C176_clean_partial, C176_quiet_partial, C176_after_partial, C176_handler_refuted, C176_pending_refuted, C176_stream_handler_refuted, C176_notes_refuted, C176_late_thread_refuted, C176_restart_refuted, C176_again_refuted
* C177: C177_ends_partial, C177_frees_partial, C177_clean_partial, C177_broken_refuted, C177_handler_refuted, C177_race_refuted
* C178: C178_plain_partial, C178_tls_refuted
* C179: C179_reads_partial, C179_last_partial, C179_one_meaning, C179_pairs_refuted, C179_integers_refuted
* C180: C180_nearest_partial, C180_integer_partial, C180_one_nearest, C180_small_refuted, C180_great_refuted
* C181: C181_writes_partial, C181_names_refuted, C181_nan_refuted, C181_digits_refuted
* C182: C182_accepts_partial, C182_liberties_refuted
* C183: C183_in_order_partial, C183_delivered_partial, C183_connected, C183_request_refuted
* C184: C184_reported_partial, C184_documents_partial, C184_silent_refuted
* C185: C185_no_effect, C185_told, C185_stream
* C186: C186_alive_partial, C186_quiet_partial, C186_ends_partial, C186_stopped_partial, C186_live_refuted, C186_task_refuted, C186_stopped_refuted
* C187: C187_rest_partial, C187_stays_partial, C187_returns_partial, C187_late_refuted, C187_self_refuted
* C188: C188_written, C188_read, C188_order
* C189: C189_updated_partial, C189_created_partial, C189_back_refuted
* C190: C190_opened_partial, C190_version_partial, C190_used_partial, C190_unfit_partial, C190_failed_refuted
* C191: C191_awaited, C191_unawaited
* C192: C192_served
* C193: C193_reports_partial, C193_none_partial, C193_cleared_refuted
* C194: C194_fields, C194_once, C194_token
* C195: C195_last_partial, C195_none_partial, C195_stream_refuted
* C196: C196_progress_partial, C196_finish_partial, C196_ends
* C197: C197_handlers_partial, C197_error_refuted
* C198: C198_others_finish_partial, C198_error_refuted, C198_stop_refuted
* C199: C199_guarded_partial, C199_set_up_partial, C199_race_refuted
* C200: C200_kept_partial, C200_itself_refuted
* C201: C201_prompts_partial, C201_kept_partial, C201_itself_refuted
* C202: C202_asked, C202_forward, C202_plain, C202_told, C202_heard_partial, C202_told_refuted, C202_stored_refuted, C202_back_refuted
* C203: C203_updates_partial, C203_below_partial, C203_above_partial, C203_once, C203_late_log_refuted, C203_late_update_refuted, C203_overlap_refuted
* C204: C204_failed_partial, C204_reached_partial, C204_same_partial, C204_escapes, C204_noise_refuted, C204_throws_refuted
* C205: C205_tools_partial, C205_resources_partial, C205_templates_partial, C205_prompts_partial, C205_ends, C205_skipped_refuted, C205_twice_refuted, C205_refuted
* C206: C206_once, C206_quiet, C206_session_told, C206_stream_told, C206_stopped_partial, C206_stopped_refuted, C206_alive_partial, C206_throws_refuted, C206_apart_partial, C206_blocked, C206_freed, C206_apart_refuted
* C207: C207_built, C207_either, C207_prompt, C207_texts
* C208: C208_whole_partial, C208_fails, C208_ends_partial, C208_first_only, C208_cut_refuted, C208_none_refuted, C208_refuted, C208_endless_refuted
* C209: C209_pieces, C209_growing_partial, C209_ends, C209_steady, C209_torn_refuted, C209_refuted
* C210: C210_written_partial, C210_level, C210_kept, C210_opened, C210_mute, C210_refuted
* C211: C211_order, C211_sent, C211_refused, C211_taken_partial, C211_answer_partial, C211_opener_refuted, C211_reply_refuted

## 6. What is modelled and what is not

Computed from the line citations in the model files. A cited line is one that a definition says it models; lines left out are listed when six or more lines of code stand together. `examples/` and `tests/` are not modelled.

| file | lines cited | models | not modelled | what it is |
|------|-------------|--------|--------------|------------|
| `include/mcp/auth/BearerAuth.hpp` | 9/42 | DialModel, GearModel | 1-23 (BearerAuth, ensureReady) | declarations, logging |
| `src/mcp/Client.cpp` | 2096/2331 | CacheModel, CancelModel, CoroModel, DescModel, DownModel, FreshModel, LatchModel, PeerModel, ReadModel, RegModel, ServModel, SessModel, TaskModel, TrackModel, TuneModel, TypedModel, WalkModel | 308-322, 459-509, 582-594, 629-663, 2081-2104, 2110-2157 (Impl, coInitialize, coCallToolTask, coListTasksPaged, coListToolsPaged, coListResourcesPaged, coListResourceTemplatesPaged, coListPromptsPaged, coReadResource, errorMessageFromPayload, logInvalidCreateMessageParamsContext, logInvalidCreateMessageResultContext, Connect, Disconnect, ...) | calls whose only work is one request and the same parsing as a modelled call; logging and tracing; the coroutine wrappers |
| `include/mcp/Client.h` | 0/549 | - | the whole file | declarations |
| `include/mcp/typed/ClientTyped.h` | 334/409 | ReadModel, RegModel, TearModel, TypedModel, WalkModel | none of 6 or more code lines | wrappers that combine one modelled call and one modelled parser |
| `src/mcp/ConformanceServerSupport.h` | 649/688 | ProfModel | none of 6 or more code lines | a test server for the conformance suite, built on the modelled API |
| `include/mcp/typed/Content.h` | 164/199 | TypedModel, ValModel | 185-199 (firstText) | declarations, logging |
| `include/mcp/ContentFramer.h` | 0/38 | FramerModel | the whole file | declarations |
| `src/mcp/ContentLengthFramer.cpp` | 75/112 | FramerModel | none of 6 or more code lines |  |
| `include/env/EnvVars.h` | 6/26 | SayModel | none of 6 or more code lines | environment variables |
| `include/mcp/errors/Errors.h` | 85/151 | ErrModel, ReadModel | none of 6 or more code lines |  |
| `include/mcp/async/FutureAwaitable.h` | 15/86 | CoroModel | 1-33, 50-86 (FutureAwaitable, await_ready, await_suspend, makeFutureAwaitable) | coroutine machinery |
| `src/mcp/HTTPServer.cpp` | 969/1263 | ConfModel, FallModel, GuardModel, HttpModel, HupModel, PushModel, SseModel, WwwModel | 1-60, 71-77, 82-108, 113-142, 485-504, 583-611, 937-949, 1075-1101, 1150-1167 (Impl, setError, signalReadyOrErrorOnce, useStreamableHttp, endpointPath, coMakeResponse, Close, IsConnected, GetSessionId, SetRequestHandler, SetNotificationHandler, SetErrorHandler, SetProtectedResourceMetadata) | TLS set-up, socket accept and shutdown, logging |
| `include/mcp/HTTPServer.hpp` | 11/132 | ConfModel, HttpModel | 47-132 (SetBearerAuth) | declarations, logging |
| `src/mcp/HTTPTransport.cpp` | 895/1123 | ConfModel, DialModel, GearModel, HcliModel, HlifeModel, LoopModel, PendModel, PushModel, SseModel, WebModel | 146-156, 212-226, 728-740, 742-754, 765-816, 824-841, 921-932, 945-959 (setError, stopSseLoop, Start, Close, IsConnected, GetSessionId, SendNotification, SetNotificationHandler, SetRequestHandler) | TLS set-up, name resolution and connection, logging |
| `include/mcp/HTTPTransport.hpp` | 42/160 | ConfModel, GearModel, HcliModel | 92-160 (SendRequest, SendNotification) | declarations, logging |
| `include/mcp/auth/IAuth.hpp` | 0/37 | - | the whole file | interface |
| `src/mcp/InMemoryTransport.cpp` | 167/294 | FreshModel, MemModel, PairModel, TalkModel, TuneModel | 43-60, 189-219, 251-294 (Start, Close, SendNotification, SetNotificationHandler, SetErrorHandler, SetRequestHandler, CreateTransport) | coroutine wrappers, logging |
| `include/mcp/InMemoryTransport.hpp` | 0/92 | - | the whole file | declarations |
| `src/mcp/JSONParser.cpp` | 483/610 | DoubleModel, JsonModel, RpcModel | 3-51, 160-216 (JsonParser, parseArray, parseObject, parseValue) | declarations, logging |
| `include/mcp/JSONRPCTypes.h` | 99/219 | ErrModel, JsonModel, RpcModel | 1-72, 181-219 (CreateErrorObject, CreateErrorResponse) | declarations, logging |
| `src/mcp/JsonRpcMessageRouter.cpp` | 149/175 | RouterModel, TalkModel | none of 6 or more code lines |  |
| `include/mcp/JsonRpcMessageRouter.h` | 5/56 | RouterModel | 26-56 (route) | declarations, logging |
| `src/logging/Logger.cpp` | 1/14 | SayModel, ScribeModel | none of 6 or more code lines | logging |
| `include/logging/Logger.h` | 149/378 | LatchModel, LockModel, LogModel, SayModel, ScribeModel | 1-49, 105-162, 288-378 (WStringToUtf8, Utf8ToWString, GetErrorMessage, Check, CategorizeError) | logging, except the masking of secrets that is cited |
| `src/mcp/MetadataSupport.h` | 115/139 | DescModel | none of 6 or more code lines |  |
| `src/mcp/auth/OAuth2ClientCredentialsAuth.cpp` | 115/169 | DialModel, FetchModel, GearModel, OauthModel | 56-84 (parseJsonIntField) | declarations, logging |
| `include/mcp/auth/OAuth2ClientCredentialsAuth.hpp` | 0/51 | OauthModel | the whole file | declarations |
| `src/mcp/auth/OAuthClient.cpp` | 113/171 | DialModel, FetchModel | 1-56 (parseUrl) | declarations, logging |
| `include/mcp/auth/OAuthClient.hpp` | 0/28 | - | the whole file | declarations |
| `src/mcp/auth/OAuthDiscovery.cpp` | 422/484 | DialModel, DiscoModel | 79-90 (skipWhitespace, parseJsonStringValue) | declarations, logging |
| `include/mcp/auth/OAuthDiscovery.hpp` | 25/149 | DiscoModel | 47-149 (coHttpGet, coHttpGetWithStatus, coDiscoverProtectedResourceMetadata, coDiscoverAuthorizationServerMetadata) | declarations, logging |
| `include/mcp/typed/Prompts.h` | 61/92 | ArgsModel, ValModel | none of 6 or more code lines |  |
| `include/mcp/Protocol.h` | 256/477 | CacheModel, DescModel, GuardModel, PeerModel, ProfModel, ServModel, TaskModel | 24-41, 186-218, 278-290, 326-346, 352-369, 404-477 | declarations, logging |
| `include/mcp/typed/Sampling.h` | 72/92 | ValModel | none of 6 or more code lines |  |
| `src/mcp/Server.cpp` | 3052/3348 | CancelModel, CoroModel, DescModel, DownModel, FreshModel, KeepModel, LockModel, LogModel, PeerModel, ProfModel, ReadModel, RegModel, ServModel, SessModel, SubModel, TalkModel, TaskModel, TmplModel, TrackModel, TuneModel, ValModel | 114-147, 458-492, 1110-1136, 1490-1499, 2733-2741, 2750-2761, 2971-3010, 3187-3222, 3306-3317 (coCallToolTask, coListTasksPaged, coRequestCreateMessageTask, coRequestElicitationTask, logInvalidCreateMessageParamsContext, logInvalidCreateMessageResultContext, errorMessageFromPayload, Start, Stop, CallTool, CallToolTask, GetTask, ListTasks, ListTasksPaged, ...) | logging, coroutine wrappers, member declarations |
| `include/mcp/Server.h` | 0/784 | - | the whole file | declarations |
| `src/mcp/auth/ServerAuth.cpp` | 123/152 | AuthModel | none of 6 or more code lines |  |
| `include/mcp/auth/ServerAuth.hpp` | 22/102 | AuthModel | 68-102 (CheckBearerAuth) | declarations, logging |
| `src/mcp/SharedMemoryTransport.cpp` | 308/545 | ConfModel, FreshModel, GaugeModel, PendModel, SegModel, ShmModel, TalkModel, TuneModel | 61-82, 206-235, 241-250, 275-296, 300-353, 433-475 (Start, Close, SendRequest, SendNotification, SetNotificationHandler, SetRequestHandler, SetErrorHandler, CreateTransport) | creation and removal of the boost queues, logging |
| `include/mcp/SharedMemoryTransport.hpp` | 6/98 | ConfModel | 1-32, 39-98 (SendRequest, SendNotification) | declarations, logging |
| `src/mcp/StdioTransport.cpp` | 1049/1336 | ConfModel, DuoModel, FramerModel, FreshModel, LatchModel, LifeModel, LockModel, PendModel, PipeModel, SayModel, StdioModel, TalkModel, WqModel | 2-56, 65-91, 121-201, 1038-1089, 1315-1336 (Close, drainFrames, setConnected, isConnected) | Windows paths, non-Linux poll paths, environment variables and option texts other than those in ConfModel, logging |
| `include/mcp/StdioTransport.hpp` | 0/124 | - | the whole file | declarations |
| `include/mcp/async/Task.h` | 7/78 | CoroModel | 1-31, 39-78 (Task) | coroutine machinery |
| `src/mcp/TaskSupport.h` | 444/530 | DownModel, LatchModel, LockModel, TaskModel, TimeModel | 341-350 (TaskStore, SetStatusCallback) | declarations, background thread bookkeeping that is not cited |
| `include/mcp/Transport.h` | 0/224 | - | the whole file | declarations (interfaces) |
| `include/mcp/validation/Validation.h` | 0/37 | - | the whole file | declarations (mode names) |
| `include/mcp/validation/Validators.h` | 645/731 | ServModel, ValModel | 700-718 | declarations, logging |
| `src/mcp/auth/WwwAuthenticate.cpp` | 130/166 | WwwModel | none of 6 or more code lines |  |
| `include/mcp/auth/WwwAuthenticate.hpp` | 0/35 | - | the whole file | declarations |
| `src/mcp/version.cpp` | 0/28 | - | the whole file | declarations, logging |
| `include/mcp/version.h` | 0/46 | - | the whole file | declarations, logging |
