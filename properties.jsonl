{"id": "C01", "title": "Framing round-trip", "statement": "Decoding a buffer that starts with the frame produced for a payload no larger than the decoder's cap returns exactly that payload and reports as consumed exactly the length of the frame, whatever bytes follow it.", "quantifier": "every payload of at most max bytes, every cap, every byte string that follows", "why_tests_cant": "The payload may contain any bytes, including CRLFCRLF and fake Content-Length headers; the space is infinite.", "anchors": ["src/mcp/ContentLengthFramer.cpp: ContentLengthFramer::encode", "src/mcp/ContentLengthFramer.cpp: ContentLengthFramer::tryDecodeEx"]}
{"id": "C02", "title": "Stdio stream is independent of read chunking", "statement": "However a stream of bytes arriving on stdin is cut into read() results, the stdio transport hands exactly the same messages, in the same order, to message processing; in particular the concatenation of frames for payloads p1..pn delivers exactly p1..pn and leaves an empty buffer.", "quantifier": "every byte stream (well-formed or not), every partition of it into chunks", "why_tests_cant": "Number of partitions is exponential and streams are unbounded; tests pick a few splits.", "anchors": ["src/mcp/StdioTransport.cpp: drainFrames", "src/mcp/ContentLengthFramer.cpp: tryDecodeEx"]}
{"id": "C03", "title": "Decoder never over-reads and never exceeds its cap", "statement": "For any buffer, a successful decode consumes no more bytes than the buffer holds and more than zero, the payload it returns is precisely the slice of the buffer that the header designates, and its length never exceeds the configured cap; a declared length above the cap is reported as too large and never delivered.", "quantifier": "every byte buffer, every cap", "why_tests_cant": "Adversarial headers (signs, overflowing digits, repeated headers) form an infinite input space.", "anchors": ["src/mcp/ContentLengthFramer.cpp: tryDecodeEx", "src/mcp/ContentLengthFramer.cpp: tryDecode"]}
{"id": "C04", "title": "Reader always makes progress and terminates", "statement": "Draining the receive buffer always terminates: every iteration other than 'need more bytes' removes at least one byte or disconnects, so no input can wedge the reader in a busy loop.", "quantifier": "every buffer content", "why_tests_cant": "Non-termination cannot be observed by a finite test for all inputs.", "anchors": ["src/mcp/StdioTransport.cpp: drainFrames"]}
{"id": "C05", "title": "String escaping round-trips", "statement": "Any byte string placed in a JSON string value and serialized parses back to the same byte string, and the serialized form contains no raw control byte or unescaped quote.", "quantifier": "every byte string (all 256 byte values, any length)", "why_tests_cant": "256^n inputs.", "anchors": ["src/mcp/JSONParser.cpp: serializeJSONValue", "src/mcp/JSONParser.cpp: JsonParser::parseString"]}
{"id": "C06", "title": "JSON value round-trip", "statement": "Serializing a JSON value and parsing it back yields the same value, for every value built from null, booleans, 64-bit integers, strings, arrays and objects whose keys need no escaping.", "quantifier": "every JSON value of any depth and size without floating point numbers and with keys free of quotes and backslashes", "why_tests_cant": "Recursive data type; unbounded depth and width.", "anchors": ["src/mcp/JSONParser.cpp: serializeJSONValue", "src/mcp/JSONParser.cpp: JsonParser::parseValue"]}
{"id": "C07", "title": "Object keys survive serialization", "statement": "Serializing an object and parsing it back preserves its keys for arbitrary key strings (the code does not escape keys, so a key containing a quote can inject fields).", "quantifier": "every object with arbitrary byte-string keys", "why_tests_cant": "Needs a for-all over keys; a counterexample refutes it.", "anchors": ["src/mcp/JSONParser.cpp: serializeJSONValue"]}
{"id": "C08", "title": "JSON parsing is total", "statement": "Parsing any byte string terminates with either a value or a parse failure, reading only bytes of the input; the nesting depth of recursion is bounded by the input length.", "quantifier": "every byte string", "why_tests_cant": "Termination and bounds over all inputs.", "anchors": ["src/mcp/JSONParser.cpp: JsonParser"]}
{"id": "C09", "title": "Request round-trip", "statement": "A request with non-empty method serialized and deserialized into a fresh object yields the same id, method and params.", "quantifier": "every request whose id string and method need no escaping and whose params is a round-trippable value", "why_tests_cant": "Unbounded id/method/params space.", "anchors": ["src/mcp/JSONParser.cpp: JSONRPCRequest::Serialize", "src/mcp/JSONParser.cpp: JSONRPCRequest::Deserialize"]}
{"id": "C10", "title": "Response round-trip", "statement": "A response serialized and deserialized into a fresh object yields the same id, result and error.", "quantifier": "every response (result or error) whose id needs no escaping and whose payload is round-trippable", "why_tests_cant": "Unbounded payloads; nested fields can collide with the textual field search.", "anchors": ["src/mcp/JSONParser.cpp: JSONRPCResponse::Serialize", "src/mcp/JSONParser.cpp: JSONRPCResponse::Deserialize"]}
{"id": "C11", "title": "Notification round-trip", "statement": "A notification with non-empty method serialized and deserialized into a fresh object yields the same method and params.", "quantifier": "every notification whose method needs no escaping", "why_tests_cant": "Unbounded params.", "anchors": ["src/mcp/JSONParser.cpp: JSONRPCNotification::Serialize", "src/mcp/JSONParser.cpp: JSONRPCNotification::Deserialize"]}
{"id": "C12", "title": "Message fields are read at top level only", "statement": "Deserializing a well-formed JSON-RPC message reads id, method, params, result and error from the top-level object and not from nested members, for any member order.", "quantifier": "every well-formed JSON-RPC message and every order of its members", "why_tests_cant": "Requires all messages and member orders; a counterexample refutes it.", "anchors": ["src/mcp/JSONParser.cpp: JSONRPCRequest::Deserialize", "src/mcp/JSONParser.cpp: JSONRPCResponse::Deserialize"]}
{"id": "C13", "title": "Serialized messages classify as what they are", "statement": "A serialized request classifies as a request, a serialized notification as a notification and a serialized response as a response, whatever the payload contains.", "quantifier": "every message with escape-free id/method and arbitrary nested payload", "why_tests_cant": "Payload can contain keys named id/result/error/method at any depth and inside strings.", "anchors": ["src/mcp/JsonRpcMessageRouter.cpp: hasTopLevelKey", "src/mcp/JsonRpcMessageRouter.cpp: JsonRpcMessageRouter::classify"]}
{"id": "C14", "title": "Router answers each request exactly once with its id", "statement": "Routing a well-formed request with a request handler installed returns exactly one response message and it carries the request's id, whether the handler returns a value, returns null or throws; routing a notification or a response returns no message.", "quantifier": "every message text, every handler behaviour", "why_tests_cant": "Handlers are arbitrary functions.", "anchors": ["src/mcp/JsonRpcMessageRouter.cpp: JsonRpcMessageRouter::route"]}
{"id": "C15", "title": "A pending request completes at most once and only for cause", "statement": "The future returned for a request is completed at most once, and only by a response bearing the same id, by close/disconnect, by a send failure or by timeout.", "quantifier": "every interleaving of sends, incoming messages, timeouts and close", "why_tests_cant": "Schedules are unbounded.", "anchors": ["src/mcp/InMemoryTransport.cpp: SendRequest/handleResponse/Close", "src/mcp/StdioTransport.cpp: SendRequest/handleResponse/startTimeouts/Close", "src/mcp/HTTPTransport.cpp: deliverResponse", "src/mcp/SharedMemoryTransport.cpp: SendRequest/Close"]}
{"id": "C16", "title": "Close completes every outstanding request", "statement": "After Close returns, no request issued before it is still pending: each future has been completed (with a 'Transport closed' error if no response had arrived).", "quantifier": "every history of sends and responses before Close", "why_tests_cant": "History quantifier.", "anchors": ["src/mcp/InMemoryTransport.cpp: Close", "src/mcp/StdioTransport.cpp: Close", "src/mcp/SharedMemoryTransport.cpp: Close", "src/mcp/HTTPTransport.cpp: Close", "src/mcp/HTTPServer.cpp: Stop"]}
{"id": "C17", "title": "In-memory transport delivers in FIFO order without loss or duplication", "statement": "Messages sent by one endpoint to a connected peer are processed by the peer exactly once each, in the order they were sent.", "quantifier": "every interleaving of sends by either side and processing steps", "why_tests_cant": "Schedules are unbounded.", "anchors": ["src/mcp/InMemoryTransport.cpp: enqueueMessage/processLoop/sendToPeer"]}
{"id": "C18", "title": "Responses reach the matching request end to end", "statement": "In a pair of connected in-memory endpoints, when request ids are distinct, each request future completes with the response that the peer's handler produced for that very request, even if handlers finish in arbitrary order.", "quantifier": "every set of concurrent requests and every completion order", "why_tests_cant": "Interleavings.", "anchors": ["src/mcp/InMemoryTransport.cpp: SendRequest", "src/mcp/InMemoryTransport.cpp: processMessage", "src/mcp/InMemoryTransport.cpp: handleResponse"]}
{"id": "C19", "title": "Outgoing stdio queue is bounded", "statement": "The number of bytes queued for writing never exceeds the configured maximum, and equals the bytes accepted minus the bytes written; a frame that does not fit is rejected whole and disconnects the transport.", "quantifier": "every history of enqueues and partial writes", "why_tests_cant": "History quantifier.", "anchors": ["src/mcp/StdioTransport.cpp: enqueueFrame", "src/mcp/StdioTransport.cpp: dequeueNextFrame", "src/mcp/StdioTransport.cpp: accountWritten"]}
{"id": "C20", "title": "Stdio writes never corrupt or reorder frames", "statement": "The bytes written to stdout are always a prefix of the concatenation of the accepted frames in acceptance order, no matter how writes are split, interrupted or retried.", "quantifier": "every sequence of partial writes, EINTR/EAGAIN results and concurrent enqueues", "why_tests_cant": "Schedules of partial writes.", "anchors": ["src/mcp/StdioTransport.cpp: writerLoop/writeChunkPosix"]}
{"id": "C21", "title": "Request timeouts fire exactly for expired requests", "statement": "A timeout sweep at time t fails exactly the pending requests whose deadline is at or before t with 'Request timeout' and leaves all others pending; an answered request never times out.", "quantifier": "every set of pending deadlines and every sweep time", "why_tests_cant": "All times and histories.", "anchors": ["src/mcp/StdioTransport.cpp: startTimeouts", "src/mcp/StdioTransport.cpp: handleResponse"]}
{"id": "C22", "title": "Task status is monotone", "statement": "Once a task has reached a terminal status (completed, failed, cancelled) its status, payload and status message never change; before that it is 'working' or 'input_required'.", "quantifier": "every sequence of operations on the task store", "why_tests_cant": "History quantifier.", "anchors": ["src/mcp/TaskSupport.h: TaskStore::SetTerminal", "src/mcp/TaskSupport.h: TaskStore::CancelTask", "src/mcp/TaskSupport.h: IsTerminalStatus"]}
{"id": "C23", "title": "Exactly one terminal outcome wins a completion/cancel race", "statement": "When completion, failure and cancellation of a task race, exactly one succeeds, every later attempt is refused and reports the winning state, and every waiter sees the winner's payload.", "quantifier": "every order of terminal attempts on a task", "why_tests_cant": "Races.", "anchors": ["src/mcp/TaskSupport.h: TaskStore::SetTerminal", "src/mcp/TaskSupport.h: TaskStore::WaitForTerminalPayload"]}
{"id": "C24", "title": "Task ids are unique", "statement": "Two task creations never return the same id, and a created task remains retrievable by its id.", "quantifier": "every history of the task store", "why_tests_cant": "History quantifier.", "anchors": ["src/mcp/TaskSupport.h: TaskStore::CreateTask", "src/mcp/TaskSupport.h: TaskStore::GetTask"]}
{"id": "C25", "title": "Task listing pages cover every task exactly once", "statement": "Following nextCursor from the start with any positive limit returns every task exactly once in creation order and terminates.", "quantifier": "every store content, every positive page size", "why_tests_cant": "All sizes.", "anchors": ["src/mcp/TaskSupport.h: TaskStore::ListTasks"]}
{"id": "C26", "title": "Task JSON round-trip", "statement": "Parsing the serialized form of a task, a create-task result or task metadata yields the original.", "quantifier": "every task value", "why_tests_cant": "All field values.", "anchors": ["src/mcp/TaskSupport.h: SerializeTask/ParseTask", "src/mcp/TaskSupport.h: SerializeCreateTaskResult/ParseCreateTaskResult"]}
{"id": "C27", "title": "Attaching related-task metadata is non-destructive", "statement": "Attaching related-task metadata to a result or error changes nothing in it other than the related-task entry in its metadata.", "quantifier": "every result/error value", "why_tests_cant": "All JSON values.", "anchors": ["src/mcp/TaskSupport.h: AttachRelatedTaskMetaToResult", "src/mcp/TaskSupport.h: AttachRelatedTaskMetaToError"]}
{"id": "C28", "title": "Server list paging covers every entry exactly once", "statement": "For tools, resources, templates and prompts: following nextCursor from the start with a fixed positive limit yields each registered entry exactly once in sorted order, ends after finitely many pages, and no page exceeds the limit.", "quantifier": "every registry content, every positive limit", "why_tests_cant": "All sizes and limits.", "anchors": ["src/mcp/Server.cpp: handleToolsList/handleResourcesList/handleResourceTemplatesList/handlePromptsList", "src/mcp/Server.cpp: parsePagingParams", "src/mcp/Server.cpp: computeNextCursor"]}
{"id": "C29", "title": "Registry behaves as a map", "statement": "After any sequence of register/unregister calls, lookup and listing reflect precisely the last registration per name that was not later unregistered.", "quantifier": "every sequence of register and unregister operations", "why_tests_cant": "History quantifier.", "anchors": ["src/mcp/Server.cpp: RegisterTool/UnregisterTool/RegisterResource/RegisterPrompt"]}
{"id": "C30", "title": "Out-of-range cursors give an empty last page", "statement": "A cursor at or beyond the end, or negative, yields an empty page and no next cursor; it never re-serves or skips entries.", "quantifier": "every cursor string", "why_tests_cant": "All cursor values including negative ones and overflow.", "anchors": ["src/mcp/Server.cpp: parsePagingParams", "src/mcp/Server.cpp: computeNextCursor"]}
{"id": "C31", "title": "Template matching is sound", "statement": "If a URI template matches a URI, the returned variables are exactly those of the template, and substituting their values into the template gives back exactly that URI.", "quantifier": "every template without repeated variable names, every URI", "why_tests_cant": "Backtracking matcher over infinite strings.", "anchors": ["src/mcp/Server.cpp: matchResourceTemplate"]}
{"id": "C32", "title": "Template matching is complete", "statement": "If a URI is an instance of a well-formed template under some assignment of non-empty values, the matcher accepts it.", "quantifier": "every template, every instance URI", "why_tests_cant": "Backtracking matcher over infinite strings.", "anchors": ["src/mcp/Server.cpp: matchResourceTemplate"]}
{"id": "C33", "title": "Resource resolution precedence", "statement": "Reading a URI registered directly uses its handler even if templates also match; otherwise exactly one matching template is used; more than one is reported as ambiguous; none is not-found.", "quantifier": "every registry and URI", "why_tests_cant": "All registries.", "anchors": ["src/mcp/Server.cpp: resolveResourceRead"]}
{"id": "C34", "title": "Chunked reads tile the content", "statement": "Reading a text resource in successive (offset,length) windows returns slices whose concatenation equals the text of the full read, each slice no longer than the requested length and the server clamp, and a window past the end is empty.", "quantifier": "every content, every window size, every clamp", "why_tests_cant": "All contents and offsets.", "anchors": ["src/mcp/Server.cpp: buildReadResourceResultJson"]}
{"id": "C35", "title": "readAllResourceInChunks terminates with the whole text", "statement": "The client helper that reads a resource in chunks terminates and the concatenation of the texts it collects equals the full text, for any positive chunk size and any server clamp.", "quantifier": "every text, chunk size and clamp", "why_tests_cant": "Loop over remote calls; all sizes.", "anchors": ["include/mcp/typed/ClientTyped.h: readAllResourceInChunks", "src/mcp/Server.cpp: buildReadResourceResultJson"]}
{"id": "C36", "title": "listAll helpers return exactly the registry", "statement": "The client helpers that follow nextCursor terminate and return exactly the server's sorted list.", "quantifier": "every registry and page limit", "why_tests_cant": "Loop over remote calls.", "anchors": ["include/mcp/typed/ClientTyped.h: listAllTools/listAllResources/listAllPrompts/listAllResourceTemplates", "src/mcp/Server.cpp: handleToolsList"]}
{"id": "C37", "title": "Resource update notifications follow subscriptions", "statement": "An update notification for a URI is sent iff there is no subscription restriction, i.e. the client never subscribed, or it is subscribed to that URI; after unsubscribe it is not sent while other subscriptions remain.", "quantifier": "every sequence of subscribe/unsubscribe/notify", "why_tests_cant": "History quantifier.", "anchors": ["src/mcp/Server.cpp: coNotifyResourceUpdated", "src/mcp/Server.cpp: handleSubscribe/handleUnsubscribe"]}
{"id": "C38", "title": "Log messages respect the client's level", "statement": "A log message below the client-selected level is never sent, one at or above it is sent subject to the rate limit.", "quantifier": "every level setting and message", "why_tests_cant": "History quantifier.", "anchors": ["src/mcp/Server.cpp: coLogToClient", "src/mcp/Server.cpp: handleSetLogLevel"]}
{"id": "C39", "title": "Log rate limit", "statement": "With a limit of n>0 per second, in every one-second window of the limiter at most n non-exempt messages are sent; with no limit none is dropped.", "quantifier": "every sequence of messages and clock readings", "why_tests_cant": "Histories over time.", "anchors": ["src/mcp/Server.cpp: coLogToClient", "src/mcp/Server.cpp: SetLoggingRateLimitPerSecond"]}
{"id": "C40", "title": "Cancellation targets only the named request", "statement": "A cancellation makes the in-flight request with that id be reported cancelled, and never affects a request with a different id.", "quantifier": "every interleaving of registrations, cancellations, completions", "why_tests_cant": "Schedules.", "anchors": ["src/mcp/Server.cpp: registerCancelToken/unregisterCancelToken/cancelById", "src/mcp/Client.cpp: registerCancelToken/cancelById"]}
{"id": "C41", "title": "A late cancellation does not poison later requests", "statement": "A cancellation that arrives after its request completed has no effect on later requests, including later requests that reuse the id.", "quantifier": "every order of completion and cancellation", "why_tests_cant": "Schedules; a counterexample refutes it.", "anchors": ["src/mcp/Server.cpp: cancelById", "src/mcp/Client.cpp: cancelById"]}
{"id": "C42", "title": "Dispatch echoes the id and returns exactly one of result or error", "statement": "For every incoming request the server's reply has the request's id and exactly one of result/error; an unknown method yields MethodNotFound.", "quantifier": "every request", "why_tests_cant": "All methods, params and handler behaviours.", "anchors": ["src/mcp/Server.cpp: dispatchRequest"]}
{"id": "C43", "title": "Bearer authentication is sound", "statement": "A request is admitted only if it carries a Bearer token that the verifier accepted, that holds all required scopes and whose expiry lies strictly in the future; the verified token info is what is exposed to handlers.", "quantifier": "every header value, verifier behaviour, clock and scope list", "why_tests_cant": "Verifier is an arbitrary function; all header strings.", "anchors": ["src/mcp/auth/ServerAuth.cpp: CheckBearerAuth"]}
{"id": "C44", "title": "Authentication failures map to the right status", "statement": "Missing/malformed/unverified/expired tokens give 401 and an accepted token lacking a scope gives 403, always with a challenge.", "quantifier": "every header, verifier behaviour", "why_tests_cant": "Arbitrary verifier.", "anchors": ["src/mcp/auth/ServerAuth.cpp: CheckBearerAuth"]}
{"id": "C45", "title": "Every HTTP entry point is authenticated", "statement": "When bearer auth is configured, no HTTP request other than the public metadata document produces MCP traffic without passing the bearer check (including the GET event stream).", "quantifier": "every HTTP request", "why_tests_cant": "All methods/paths/headers; a counterexample refutes it.", "anchors": ["src/mcp/HTTPServer.cpp: session_plain/session_tls", "src/mcp/HTTPServer.cpp: enforceAuthAndScope"]}
{"id": "C46", "title": "WWW-Authenticate challenges round-trip", "statement": "Parsing a Bearer challenge built from parameter names and quoted values returns exactly those parameters, with names lower-cased; non-Bearer or malformed headers are rejected; parsing always terminates.", "quantifier": "every list of parameters, every byte string value", "why_tests_cant": "Infinite inputs; quoting.", "anchors": ["src/mcp/auth/WwwAuthenticate.cpp: parseWwwAuthenticate"]}
{"id": "C47", "title": "Server challenge is understood by the client parser", "statement": "The challenge header that the HTTP server emits parses back to the configured resource metadata URL, error, scope and description.", "quantifier": "every metadata URL without comma or space, every scope list and message", "why_tests_cant": "All strings.", "anchors": ["src/mcp/HTTPServer.cpp: enforceAuthAndScope", "src/mcp/auth/WwwAuthenticate.cpp: parseWwwAuthenticate"]}
{"id": "C48", "title": "DNS-rebinding guard", "statement": "When the server is bound to a loopback address, a request whose Host (or Origin, if present) does not name a local host is refused with 403, and all local spellings are accepted.", "quantifier": "every Host and Origin header value", "why_tests_cant": "All strings.", "anchors": ["src/mcp/HTTPServer.cpp: shouldValidateDnsRebinding", "src/mcp/HTTPServer.cpp: validateLocalHeaders", "src/mcp/HTTPServer.cpp: extractAuthorityHost", "src/mcp/HTTPServer.cpp: extractOriginHost"]}
{"id": "C49", "title": "Server-sent events round-trip", "statement": "The client's event-stream parser applied to the events the server emits yields the payloads in order, for payloads without line breaks.", "quantifier": "every sequence of newline-free payloads", "why_tests_cant": "Infinite sequences.", "anchors": ["src/mcp/HTTPServer.cpp: SSE writer", "src/mcp/HTTPTransport.cpp: parseEventStream"]}
{"id": "C50", "title": "Event stream is independent of network chunking", "statement": "The payloads delivered by the client do not depend on how the event stream bytes are cut into reads.", "quantifier": "every partition of the stream", "why_tests_cant": "Exponentially many partitions; a counterexample refutes it.", "anchors": ["src/mcp/HTTPTransport.cpp: SSE read loop", "src/mcp/HTTPTransport.cpp: parseEventStream"]}
{"id": "C51", "title": "HTTP sessions are isolated and uniquely identified", "statement": "A response posted on one session never completes a request sent on another, and creating a session never disturbs an existing one.", "quantifier": "every sequence of session operations and random ids", "why_tests_cant": "Histories and random draws.", "anchors": ["src/mcp/HTTPServer.cpp: createSession", "src/mcp/HTTPServer.cpp: resolvePendingResponse", "src/mcp/HTTPServer.cpp: removeSession"]}
{"id": "C52", "title": "Outbound events are FIFO with strictly increasing ids", "statement": "Messages queued to a session are streamed in order, each once, with strictly increasing event ids.", "quantifier": "every interleaving of queueing and streaming", "why_tests_cant": "Schedules.", "anchors": ["src/mcp/HTTPServer.cpp: queueOutbound", "src/mcp/HTTPServer.cpp: session_plain"]}
{"id": "C53", "title": "Protocol-version header validation", "statement": "A request whose protocol-version header is absent, equals the session's version or is a supported older version is accepted; any other is refused with 400.", "quantifier": "every header value", "why_tests_cant": "All strings.", "anchors": ["src/mcp/HTTPServer.cpp: validateProtocolHeader"]}
{"id": "C54", "title": "Listing cache never serves stale data", "statement": "With caching enabled a cached list is served only within its TTL and never after a list-changed notification for that list has been processed.", "quantifier": "every interleaving of list calls, replies, notifications and clock", "why_tests_cant": "Schedules and time.", "anchors": ["src/mcp/Client.cpp: coListTools", "src/mcp/Client.cpp: invalidateCachesForListChanged"]}
{"id": "C55", "title": "Failed listings are not cached", "statement": "A failed list call does not cause later calls to be answered from the cache with an empty list.", "quantifier": "every history", "why_tests_cant": "Histories; a counterexample refutes it.", "anchors": ["src/mcp/Client.cpp: coListTools"]}
{"id": "C56", "title": "Form url-encoding round-trips", "statement": "Form-encoding any byte string yields only unreserved characters, '+', and %XX, and decodes to the original; so credentials can never inject form fields.", "quantifier": "every byte string", "why_tests_cant": "256^n.", "anchors": ["src/mcp/auth/OAuth2ClientCredentialsAuth.cpp: urlEncodeForm"]}
{"id": "C57", "title": "OAuth token freshness", "statement": "A cached token is reused without contacting the token endpoint only while it is non-empty and more than the skew away from expiry.", "quantifier": "every history of ensureReady calls, endpoint replies and clock", "why_tests_cant": "Histories and time.", "anchors": ["src/mcp/auth/OAuth2ClientCredentialsAuth.cpp: ensureReady"]}
{"id": "C58", "title": "Error values round-trip", "statement": "Building an error value from a typed error and reading it back gives the same code, category, message and data.", "quantifier": "every error with 32-bit code", "why_tests_cant": "All values.", "anchors": ["include/mcp/errors/Errors.h"]}
{"id": "C59", "title": "List items round-trip from server to client", "statement": "A tool, resource, template or prompt description serialized by the server's list handler is read back by the client unchanged.", "quantifier": "every description", "why_tests_cant": "All field values.", "anchors": ["src/mcp/Server.cpp: makeToolObj...", "src/mcp/Client.cpp: Populate*FromListItem", "src/mcp/MetadataSupport.h"]}
{"id": "C60", "title": "Strict validators accept all built results", "statement": "Every result built with the typed builders is accepted by the strict result validators.", "quantifier": "every sequence of builder calls", "why_tests_cant": "All builder sequences.", "anchors": ["include/mcp/validation/Validators.h", "include/mcp/typed/Content.h"]}
{"id": "C61", "title": "Generated request ids are fresh", "statement": "Ids generated for requests without an id are pairwise distinct until the 32-bit counter wraps, and injective in the counter.", "quantifier": "every counter value", "why_tests_cant": "2^32 values.", "anchors": ["src/mcp/InMemoryTransport.cpp: generateRequestId", "src/mcp/HTTPTransport.cpp: generateRequestId", "src/mcp/SharedMemoryTransport.cpp: generateRequestId"]}
{"id": "C62", "title": "Shared-memory transport never mistakes a request for a response", "statement": "A request or notification whose payload merely contains the words result or error is still handled as a request or notification.", "quantifier": "every message", "why_tests_cant": "All payloads; a counterexample refutes it.", "anchors": ["src/mcp/SharedMemoryTransport.cpp: processMessage"]}
{"id": "C63", "title": "Keepalive closes only after the threshold of consecutive failures", "statement": "Keepalive closes the transport exactly when the configured number of consecutive pings failed; any success resets the count.", "quantifier": "every sequence of ping outcomes", "why_tests_cant": "Histories.", "anchors": ["src/mcp/Server.cpp: keepalive loop"]}
{"id": "C64", "title": "Wire composition", "statement": "A message serialized, framed, cut arbitrarily, received and deserialized arrives as the same message.", "quantifier": "every list of messages and every chunking", "why_tests_cant": "Composition of unbounded spaces.", "anchors": ["src/mcp/StdioTransport.cpp: drainFrames", "src/mcp/JSONParser.cpp: Serialize/Deserialize", "src/mcp/ContentLengthFramer.cpp: encode"]}
{"id": "C65", "title": "A lost connection fails pending requests", "statement": "When the connection ends without Close being called (end of input, write failure, queue overflow), every pending request is completed with an error, at the latest at its deadline.", "quantifier": "every history in which the connection is lost", "why_tests_cant": "Histories; a counterexample refutes it.", "anchors": ["src/mcp/StdioTransport.cpp: startTimeouts", "src/mcp/StdioTransport.cpp: readLoopLinux", "src/mcp/StdioTransport.cpp: enqueueFrame"]}
{"id": "C66", "title": "A request racing with Close completes", "statement": "A request whose SendRequest overlaps Close on another thread is completed, with an answer or an error.", "quantifier": "every interleaving of SendRequest and Close", "why_tests_cant": "Races; a counterexample refutes it.", "anchors": ["src/mcp/StdioTransport.cpp: SendRequest", "src/mcp/StdioTransport.cpp: Close"]}
{"id": "C67", "title": "Task status reports match the task's history", "statement": "The status callback is invoked exactly once for each task creation and each terminal transition, with the task as it was then, and in that order.", "quantifier": "every interleaving of creations, terminal attempts and callback calls", "why_tests_cant": "Interleavings; a counterexample refutes the order.", "anchors": ["src/mcp/TaskSupport.h: CreateTask", "src/mcp/TaskSupport.h: SetTerminal", "src/mcp/TaskSupport.h: emitStatus"]}
{"id": "C68", "title": "Template variables are bound to something", "statement": "A template matches a URI only with non-empty values for its variables.", "quantifier": "every template and URI", "why_tests_cant": "Infinite strings; a counterexample refutes it.", "anchors": ["src/mcp/Server.cpp: matchResourceTemplate"]}
{"id": "C69", "title": "Strict mode accepts exactly the schema", "statement": "Each strict validator accepts a value if and only if it has the shape the protocol schema gives for that kind of message.", "quantifier": "every JSON value, every validated kind", "why_tests_cant": "All values.", "anchors": ["include/mcp/validation/Validators.h"]}
{"id": "C70", "title": "Strict listings differ only by refusing bad pages", "statement": "In strict mode a list request gets the same page as in lenient mode, unless an entry of the page does not have its schema shape, and then it gets an error.", "quantifier": "every registry, cursor and limit", "why_tests_cant": "All registries.", "anchors": ["src/mcp/Server.cpp: handleToolsList", "include/mcp/validation/Validators.h"]}
{"id": "C71", "title": "Strict reads conform", "statement": "A strict server never delivers a read result, and a strict client never returns read contents, that do not have their schema shape, whatever the handler or the peer does.", "quantifier": "every handler result, every peer reply", "why_tests_cant": "All values.", "anchors": ["src/mcp/Server.cpp: buildReadResourceResultJson", "include/mcp/typed/ClientTyped.h: readResource"]}
{"id": "C72", "title": "UI metadata only for UI clients", "statement": "A client that did not announce the ui extension receives no ui metadata in read results; all other metadata is passed on.", "quantifier": "every handler result and request", "why_tests_cant": "All values; a counterexample refutes it for content items.", "anchors": ["src/mcp/Server.cpp: buildReadResourceResultJson"]}
{"id": "C73", "title": "Advertised keepalive is the keepalive in force", "statement": "While keepalive is advertised in the experimental capabilities, the advertised interval and failure threshold are the configured ones and the server sends pings; enabling keepalive starts pings whatever happened before.", "quantifier": "every history of settings, pings, failures, stops", "why_tests_cant": "Histories; refuted after a stop or after keepalive closed a connection.", "anchors": ["src/mcp/Server.cpp: SetKeepaliveIntervalMs", "src/mcp/Server.cpp: SetKeepaliveFailureThreshold", "src/mcp/Server.cpp: Stop"]}
{"id": "C74", "title": "Capability negotiation", "statement": "After initialize each side knows the capabilities the other one declared, with all their flags.", "quantifier": "every pair of capability records", "why_tests_cant": "All combinations of capabilities, flags and extension objects.", "anchors": ["src/mcp/Server.cpp: handleInitialize", "src/mcp/Server.cpp: parseClientCapabilities", "src/mcp/Server.cpp: serializeServerCapabilities", "src/mcp/Client.cpp: coInitialize", "src/mcp/Client.cpp: serializeClientCapabilities", "src/mcp/Client.cpp: parseServerCapabilities"]}
{"id": "C75", "title": "A request answered with an error has no effect", "statement": "When the server answers a request with an error, its tasks, subscriptions, log level, registrations and client capabilities are as before and no notification was sent.", "quantifier": "every request, handler behaviour, moment of cancellation and state", "why_tests_cant": "All methods, parameters and cancellation points.", "anchors": ["src/mcp/Server.cpp: dispatchRequest"]}
{"id": "C76", "title": "tools/call runs the registered tool", "statement": "A call runs the handler registered last under the name with the arguments given, and the caller receives exactly what it returned or the text it threw; unknown tools give ToolNotFound; task support rules are enforced.", "quantifier": "every registration history, name, argument, handler behaviour", "why_tests_cant": "All histories and handler behaviours.", "anchors": ["src/mcp/Server.cpp: handleToolsCall", "src/mcp/Client.cpp: coCallTool"]}
{"id": "C77", "title": "prompts/get runs the registered prompt", "statement": "A prompt request runs the handler registered last under the name with the arguments given, and the caller receives exactly what it returned or the text it threw; unknown prompts give PromptNotFound.", "quantifier": "every registration history, name, argument, handler behaviour", "why_tests_cant": "All histories and handler behaviours.", "anchors": ["src/mcp/Server.cpp: handlePromptsGet", "src/mcp/Client.cpp: coGetPrompt"]}
{"id": "C78", "title": "Completions round-trip", "statement": "A completion request reaches the handler with the caller's reference, argument and context, and the caller receives the completion the handler returned.", "quantifier": "every reference, argument, context, handler behaviour", "why_tests_cant": "All values.", "anchors": ["src/mcp/Server.cpp: handleCompleteRequest", "src/mcp/Client.cpp: coComplete"]}
{"id": "C79", "title": "Errors reach the caller", "statement": "When the server answers a client call with an error, the caller is given that error or an exception with its message, never a normal-looking result.", "quantifier": "every client call and error reply", "why_tests_cant": "All error replies; a counterexample refutes it.", "anchors": ["src/mcp/Client.cpp: coCallTool", "src/mcp/Client.cpp: coGetPrompt", "src/mcp/Client.cpp: coComplete", "src/mcp/Client.cpp: coInitialize", "src/mcp/Client.cpp: coGetTask"]}
{"id": "C80", "title": "Task-augmented calls deliver the tool's result", "statement": "A tool call made as a task is answered with a new working task, and once the tool is done tasks/result answers what it returned or threw, whatever else happened, unless the task was ended by someone else.", "quantifier": "every history of the task store, handler behaviour", "why_tests_cant": "Unbounded histories.", "anchors": ["src/mcp/Server.cpp: handleToolsCall", "src/mcp/Server.cpp: dispatchRequest tasks/result", "src/mcp/TaskSupport.h: TaskStore"]}
{"id": "C81", "title": "HTTP session end completes its requests", "statement": "When a client deletes its HTTP session or the server transport stops, every request pending on that session completes, once, with an error.", "quantifier": "every history of session operations and every interleaving with senders", "why_tests_cant": "Schedules; a counterexample refutes the racing case.", "anchors": ["src/mcp/HTTPServer.cpp: removeSession", "src/mcp/HTTPServer.cpp: Stop", "src/mcp/HTTPServer.cpp: SendRequest"]}
{"id": "C82", "title": "Server messages reach the client they are for", "statement": "A notification or request that the server sends while it handles a client's request goes to that client's HTTP session.", "quantifier": "every set of live sessions", "why_tests_cant": "Histories of sessions; a counterexample refutes it.", "anchors": ["src/mcp/HTTPServer.cpp: activeSession", "src/mcp/HTTPServer.cpp: SendNotification", "src/mcp/HTTPServer.cpp: SendRequest"]}
{"id": "C83", "title": "HTTP error and metadata bodies are JSON", "statement": "The body of every authentication refusal and the resource metadata document are valid JSON carrying the message and the configured strings.", "quantifier": "every message and configured string", "why_tests_cant": "All strings; a counterexample refutes it.", "anchors": ["src/mcp/HTTPServer.cpp: enforceAuthAndScope", "src/mcp/HTTPServer.cpp: buildResourceMetadataJson"]}
{"id": "C84", "title": "A request between two processes gets its own answer", "statement": "When two processes are connected over stdio and send each other requests and notifications, a future that completes holds what the other side's handler returned for that very request, or says that it timed out, was closed or was not connected; and a handler runs only for messages the other side sent, in order, each at most once.", "quantifier": "every interleaving of both processes' threads and every cutting of the bytes", "why_tests_cant": "Schedules of two multi-threaded processes and arbitrary fragmentation.", "anchors": ["src/mcp/StdioTransport.cpp: SendRequest", "src/mcp/StdioTransport.cpp: drainFrames", "src/mcp/StdioTransport.cpp: processMessage", "src/mcp/JsonRpcMessageRouter.cpp: route"]}
{"id": "C85", "title": "Accepted messages are acceptable", "statement": "A message that one transport accepts for sending can be received by a peer with the same default limits.", "quantifier": "every message size", "why_tests_cant": "All sizes; a counterexample refutes it.", "anchors": ["src/mcp/StdioTransport.cpp: MaxContentLength", "src/mcp/StdioTransport.cpp: writeQueueMaxBytes", "src/mcp/StdioTransport.cpp: enqueueFrame"]}
{"id": "C86", "title": "No expired token is sent", "statement": "Once ensureReady has returned, the Authorization header it prepares carries a token within its lifetime, or none.", "quantifier": "every history of calls, endpoint replies and clock", "why_tests_cant": "Histories and time; a counterexample refutes it.", "anchors": ["src/mcp/auth/OAuth2ClientCredentialsAuth.cpp: ensureReady", "src/mcp/auth/OAuth2ClientCredentialsAuth.cpp: headers"]}
{"id": "C87", "title": "The token used is the token issued", "statement": "For every JSON reply of the token endpoint, the token used is the string value of the document's access_token member, and none is used if there is no such member.", "quantifier": "every JSON document in every layout", "why_tests_cant": "All documents; counterexamples refute the general claim.", "anchors": ["src/mcp/auth/OAuth2ClientCredentialsAuth.cpp: parseJsonStringField"]}
{"id": "C88", "title": "The shared-memory queue delivers in order, without loss or duplication", "statement": "Between two processes joined by shared memory, the messages one side has taken from the queue are, in order and each exactly once, a prefix of the messages the other side put on it.", "quantifier": "every interleaving of both sides' sends, receives, closes and failures", "why_tests_cant": "Schedules.", "anchors": ["src/mcp/SharedMemoryTransport.cpp: sendMessage", "src/mcp/SharedMemoryTransport.cpp: readerThread"]}
{"id": "C89", "title": "A request over shared memory gets its own answer and is run once", "statement": "A request sent over shared memory completes with the response the other side's handler gave to that request, or with an error of the transport; the handler runs at most once for it.", "quantifier": "every schedule of two connected shared-memory transports", "why_tests_cant": "Schedules and payloads; a counterexample refutes the general claim.", "anchors": ["src/mcp/SharedMemoryTransport.cpp: SendRequest", "src/mcp/SharedMemoryTransport.cpp: processMessage"]}
{"id": "C90", "title": "sampling/createMessage runs the sampling handler", "statement": "A sampling request sent to a server runs its sampling handler with the messages, preferences, system prompt and context given, and the caller receives what it returned or the text it threw; without a handler the request is refused.", "quantifier": "every request, handler and server state", "why_tests_cant": "All parameters and handlers.", "anchors": ["src/mcp/Server.cpp: handleCreateMessageRequest"]}
{"id": "C91", "title": "The server announces itself once per initialize", "statement": "Each initialize request handled on a connected transport is followed by notifications/initialized and the three list-changed notifications, in that order, and no other request makes the server send one of them.", "quantifier": "every history of requests", "why_tests_cant": "Histories.", "anchors": ["src/mcp/Server.cpp: sendInitializedAndListChangedAsync", "src/mcp/Server.cpp: dispatchRequest"]}
{"id": "C92", "title": "OAuth metadata documents are read faithfully", "statement": "Every member of a protected resource metadata or authorization server metadata document that the structs have a field for is read with the value the document gives it, however the JSON text is laid out and whichever escapes it uses; missing members read as empty, and the document is refused exactly when it names no authorization server (no token endpoint).", "quantifier": "every JSON object and every text of it", "why_tests_cant": "All documents and layouts; counterexamples refute part of it.", "anchors": ["src/mcp/auth/OAuthDiscovery.cpp: parseProtectedResourceMetadata", "src/mcp/auth/OAuthDiscovery.cpp: parseAuthorizationServerMetadata"]}
{"id": "C93", "title": "Well-known addresses follow the standards", "statement": "The addresses probed for metadata are those of RFC 9728, RFC 8414 and OpenID Connect discovery for the given URL, in that order.", "quantifier": "every http or https URL", "why_tests_cant": "All URLs; a counterexample refutes part of it.", "anchors": ["src/mcp/auth/OAuthDiscovery.cpp: buildWellKnownResourceMetadataUrls", "src/mcp/auth/OAuthDiscovery.cpp: buildAuthorizationServerMetadataUrls"]}
{"id": "C94", "title": "Discovery fetches from where the URL says", "statement": "A URL is fetched from the host and port it names, with the path it names, over TLS exactly when its scheme is https, and the Host header names that host and port.", "quantifier": "every URL", "why_tests_cant": "All URLs; counterexamples refute part of it.", "anchors": ["src/mcp/auth/OAuthDiscovery.cpp: parseUrlParts", "src/mcp/auth/OAuthDiscovery.cpp: coHttpGetWithStatus"]}
{"id": "C95", "title": "Discovery stops at the first usable document", "statement": "Discovery asks the address from the challenge, if there is one, then the well-known addresses in order, stops at the first answer that is successful and usable, asks nothing after it, and returns exactly what that document says; if there is none it returns empty metadata.", "quantifier": "every behaviour of the network", "why_tests_cant": "All networks.", "anchors": ["src/mcp/auth/OAuthDiscovery.cpp: coDiscoverProtectedResourceMetadata", "src/mcp/auth/OAuthDiscovery.cpp: coDiscoverAuthorizationServerMetadata"]}
{"id": "C96", "title": "Metadata is only used for whom it was asked", "statement": "Metadata is returned only if the issuer (the resource) it names is the one discovery was asked for, and only the hosts of that issuer are asked.", "quantifier": "every behaviour of the network", "why_tests_cant": "All networks; a counterexample refutes it.", "anchors": ["src/mcp/auth/OAuthDiscovery.cpp: coDiscoverAuthorizationServerMetadata", "src/mcp/auth/OAuthDiscovery.cpp: coDiscoverProtectedResourceMetadata"]}
{"id": "C97", "title": "An HTTP request is answered by the end of its exchange", "statement": "When the POST that carries a request over the HTTP client transport has ended, successfully or not, the request's future has been completed: with the response that bears its id if one arrived (unchanged), otherwise with an error. A transport that says it is connected does not swallow requests.", "quantifier": "every history of calls, POST completions, replies of any content, events, handlers and Close and Start", "why_tests_cant": "what a server may put in the reply and how replies, events and Close interleave is unbounded", "anchors": ["src/mcp/HTTPTransport.cpp HTTPTransport::SendRequest handleIncomingJson deliverResponse deliverInternalError Start Close"]}
{"id": "C98", "title": "The client stays in its HTTP session", "statement": "Every message POSTed to a streamable endpoint carries the session id the server most recently issued, in the reply to a POST or at the head of the event stream, since the transport was last closed; without an endpoint path, and before one has been issued, none does.", "quantifier": "every history and every list of response headers", "why_tests_cant": "depends on the whole history of replies and on any header list", "anchors": ["src/mcp/HTTPTransport.cpp makeExchangeResult maybeCaptureSessionId coPostJson runSseLoop"]}
{"id": "C99", "title": "The HTTP client posts what it was asked to, once", "statement": "Every POST is a registered request, a notification sent while connected, or the reply to a request of the server; none is posted twice, and every request of the server gets exactly one reply, with its id and what the installed handler returned.", "quantifier": "every history and schedule of POSTs, events and handlers", "why_tests_cant": "schedules and histories are unbounded", "anchors": ["src/mcp/HTTPTransport.cpp SendRequest SendNotification handleIncomingJson coPostJson"]}
{"id": "C100", "title": "The protocol version header names the negotiated version", "statement": "After initialization, the MCP-Protocol-Version header of every POST names the version the server agreed to.", "quantifier": "every history, every answer to initialize", "why_tests_cant": "depends on every history of replies", "anchors": ["src/mcp/HTTPTransport.cpp coPostJson negotiatedProtocolVersion"]}
{"id": "C101", "title": "The client understands the reply formats it accepts", "statement": "A reply to a POST in any of the formats its Accept header names completes the request with the response the reply carries.", "quantifier": "every reply, history and request", "why_tests_cant": "ranges over all replies and states", "anchors": ["src/mcp/HTTPTransport.cpp coPostJson SendRequest handleIncomingJson"]}
{"id": "C102", "title": "Nothing a server sends brings the client process down", "statement": "No reply or event, and no call on the transport, makes the process terminate, whatever the installed handlers do.", "quantifier": "every history, reply, event and handler behaviour", "why_tests_cant": "ranges over all histories and handler behaviours", "anchors": ["src/mcp/HTTPTransport.cpp Start handleIncomingJson SendRequest", "src/mcp/JsonRpcMessageRouter.cpp route"]}
{"id": "C103", "title": "A client answers every request of its server once", "statement": "Whatever request a server sends (ping, roots/list, tasks/*, elicitation/create, sampling/createMessage or anything else), the client's reply carries the request's id and exactly one of a result or an error. It is sent at once, except for tasks/result of a task that has not ended, which is answered when it has. An unknown method gets -32601, and a request without a registered handler or without the needed capability gets -32001 and changes nothing. A server's ping always succeeds.", "quantifier": "all requests, handlers, capabilities, modes and client states", "why_tests_cant": "a test asks a few methods with a few handlers", "anchors": ["src/mcp/Client.cpp: onRequest 664-1073", "src/mcp/Server.cpp: coPing 2708-2729"]}
{"id": "C104", "title": "Roots reach the server unchanged", "statement": "What a server's RequestRootsList returns is the list the client's roots handler returned: the same roots in the same order, with uri, name and metadata. A client's error is not shown as an empty list.", "quantifier": "all lists of roots, handlers and modes", "why_tests_cant": "tests list one or two plain roots", "anchors": ["src/mcp/Client.cpp: roots/list 671-705", "src/mcp/Server.cpp: coRequestRootsList 2331-2396"]}
{"id": "C105", "title": "Elicitations reach the user and the answer reaches the server unchanged", "statement": "The elicitation handler of a client is given exactly what the server asked (message, schema, title, mode, url, id, metadata), and the server's caller gets exactly the action, content and id the handler returned. A failing handler is not shown as an answer.", "quantifier": "all elicitations, answers, handlers and modes", "why_tests_cant": "tests use one form and one answer", "anchors": ["src/mcp/Client.cpp: elicitation/create 835-944", "src/mcp/Server.cpp: coRequestElicitation 2582-2654"]}
{"id": "C106", "title": "Sampling requests reach the model and the result reaches the server unchanged", "statement": "The sampling handler of a client is given what the server asked for, with absent values as null, and the server's caller gets the handler's value, or its error with the text it threw. A request cancelled while the handler runs is answered with an error. Every parameter the server sets can be seen by the handler.", "quantifier": "all sampling parameters, results, handlers and modes", "why_tests_cant": "tests use one message and one result", "anchors": ["src/mcp/Client.cpp: sampling/createMessage 945-1063", "src/mcp/Server.cpp: coRequestCreateMessage 2398-2457"]}
{"id": "C107", "title": "A request run as a task on the client ends once, with the handler's result", "statement": "A server's elicitation or sampling request with task metadata is answered at once with a new working task. Each task has one worker which runs once; its outcome is the worker's, or Cancelled if a cancellation came first, and never changes. tasks/result then returns what the handler returned, marked with the task, or the error it threw.", "quantifier": "all histories of requests, worker completions, cancellations and waits, with fewer than 2^64 requests", "why_tests_cant": "schedules of workers and cancellations cannot be enumerated by tests", "anchors": ["src/mcp/Client.cpp: elicitation/create 886-924, sampling/createMessage 945-1010, tasks/* 706-834", "src/mcp/Server.cpp: coRequestElicitationTask 2656-2706, coRequestCreateMessageTask 2459-2518"]}
{"id": "C108", "title": "Progress notifications arrive as sent", "statement": "A progress notification a server sends reaches the client's progress handler with the same token, value and message; a strict client drops it exactly when the token is empty or the value is not between 0 and 1. The token a server's handler echoes is the token the client sent.", "quantifier": "all tokens, all doubles, all messages, both modes", "why_tests_cant": "tests send a few values", "anchors": ["src/mcp/Client.cpp: handleProgressNotification 510-536", "src/mcp/Server.cpp: coSendProgress 2223-2237, extractProgressToken 59-83"]}
{"id": "C109", "title": "Task status notifications arrive as sent", "statement": "A task status notification that one side of this library sends reaches the other side's handler with the same task, in strict mode too.", "quantifier": "all tasks and both modes", "why_tests_cant": "tests send one status", "anchors": ["src/mcp/Client.cpp: sendTaskStatusNotification 552-564, onNotification 595-628"]}
{"id": "C110", "title": "A notification reaches the handler for its method and no other", "statement": "A notification is handed to the handler registered for its method with its parameters, and to no other handler. A cancellation is handed to no handler and cancels exactly the request it names.", "quantifier": "all notifications, handlers and modes", "why_tests_cant": "tests register one handler", "anchors": ["src/mcp/Client.cpp: onNotification 595-628, parseIdFromParams 227-241"]}
{"id": "C111", "title": "An HTTP client is configured as its text says", "statement": "For every text of name=value settings separated by semicolons, with blanks anywhere around names and values, every option of the HTTP client transport has the value last given under one of its names, or its documented default if none was given. Names that are no options, and values that are no numbers where a number belongs, change nothing.", "quantifier": "all lists of settings and all layouts of their text", "why_tests_cant": "tests configure a handful of fixed texts", "anchors": ["src/mcp/HTTPTransport.cpp: HTTPTransportFactory::CreateTransport 1016-1121", "include/mcp/HTTPTransport.hpp: Options"]}
{"id": "C112", "title": "A stdio transport is configured as its text says", "statement": "For every text of name=value words separated by semicolons, spaces or tabs, the request timeout, the idle and write timeouts and the two size limits are the ones last given, or the defaults (the request timeout from the environment if set there). A request timeout of 0 means that requests do not time out.", "quantifier": "all lists of settings, all layouts of their text, all values of the environment variable", "why_tests_cant": "tests configure a handful of fixed texts and none sends a request with timeout 0", "anchors": ["src/mcp/StdioTransport.cpp: StdioTransportFactory::CreateTransport 1255-1314, SetRequestTimeoutMs 1218-1226, Impl 93-120"]}
{"id": "C113", "title": "A shared memory transport is configured as its address says", "statement": "For every channel name and query, with or without shm:// in front, the channel is the name (mcp-shm if it is empty), and create, maxSize and maxCount have the values last given in the query or their defaults. Two ends given the same name use the same channel.", "quantifier": "all names and queries", "why_tests_cant": "tests use one or two fixed addresses", "anchors": ["src/mcp/SharedMemoryTransport.cpp: SharedMemoryTransportFactory::CreateTransport 472-545"]}
{"id": "C114", "title": "An HTTP server listens where its address says", "statement": "For every address of the form [http://|https://]host[:port][/path][?query], the server uses that scheme (http if none), listens on that host, an IPv6 address in brackets, and that port (9443 if none), and its certificate, key and paths are the values last given in the query. A malformed address does not make the server listen on more interfaces than the address names.", "quantifier": "all schemes, hosts, ports, paths and queries", "why_tests_cant": "tests start a handful of fixed addresses", "anchors": ["src/mcp/HTTPServer.cpp: HTTPServerFactory::CreateTransportAcceptor 1176-1256", "include/mcp/HTTPServer.hpp: Options"]}
{"id": "C115", "title": "Following tasks kept by the peer", "statement": "GetTask returns the task exactly as the peer keeps it or throws 'Unknown task'. ListTasks returns every task the peer has, once and in the order of creation; so do successive pages of any size, even if tasks are created and end between pages. CancelTask of an unfinished task returns it as cancelled, makes its result an error and touches no other task; of a finished or unknown task it throws and changes nothing. A call that the peer did not say it supports throws and changes nothing. This holds for a client asking a server and for a server asking a client, in strict mode or not, whatever the order of JSON members on the wire.", "quantifier": "every history of the peer's task store, every task id, page size and cursor position, both directions, strict or not, every order of members", "why_tests_cant": "tests ask about one or two tasks of one peer; the claim is about every history and about all interleavings of creation and paging", "anchors": ["src/mcp/Client.cpp coGetTask coListTasks coListTasksPaged coCancelTask", "src/mcp/Server.cpp coGetTask coListTasksPaged coCancelTask handleTasksGet", "include/mcp/TaskSupport.h TaskStore"]}
{"id": "C116", "title": "The result of a task reaches the caller", "statement": "After CallToolTask (or a task-augmented elicitation or sampling request by a server), GetTaskResult waits while the task is unfinished and then returns exactly what the handler returned, marked with the task id; if the handler threw or the task was cancelled it returns the error object with the message, also naming the task; for an unknown id it returns an error object. A strict caller that remembers what the task was for accepts every result of the right shape.", "quantifier": "every history in which the task is not ended by somebody else, every handler result, both directions, strict or not, every order of members on the wire", "why_tests_cant": "tests run one tool to completion; the claim is about every result, history and interleaving of other tasks", "anchors": ["src/mcp/Client.cpp coCallToolTask coGetTaskResult rememberOutboundTask", "src/mcp/Server.cpp coGetTaskResult", "include/mcp/TaskSupport.h WaitForTerminalPayload"]}
{"id": "C117", "title": "A server can call a tool of its client as a task", "statement": "Server::CallToolTask requests task execution of a tool by the connected peer and returns the created task.", "quantifier": "every client of this library, every tool name, arguments and time to live", "why_tests_cant": "a test against a stub peer that answers tools/call shows only that the request is sent", "anchors": ["include/mcp/Server.h CallToolTask", "src/mcp/Server.cpp coCallToolTask", "src/mcp/Client.cpp onRequest"]}
{"id": "C118", "title": "The server's calls on itself agree with a client's", "statement": "Server::CallTool, GetPrompt and ReadResource give the application of the server what a client would get for the same tool, prompt or resource: the same result members; where the handler throws they throw the same message; for an unknown name they give null.", "quantifier": "every registry history, handler outcome, name and arguments", "why_tests_cant": "tests compare one tool without structured content; the claim is about every result", "anchors": ["include/mcp/Server.h CallTool GetPrompt ReadResource", "src/mcp/Server.cpp coCallTool coGetPrompt coReadResource"]}
{"id": "C119", "title": "When a server says it is running", "statement": "Server::IsRunning is true exactly when a client has said it is initialized (or HandleInitialize was called), Stop has not been called since, and the transport, if there is one, is connected. In particular it is true during a session with this library's own client, false after every Stop, and false on a new transport until its client has initialized.", "quantifier": "every history of starts, stops, lost connections, requests, notifications, registrations and application calls", "why_tests_cant": "a test follows one order of start, initialize and stop; the claim is about every order, including stops without a transport and restarts", "anchors": ["include/mcp/Server.h IsRunning Start Stop HandleInitialize", "src/mcp/Server.cpp coStart coStop handleNotification", "src/mcp/Client.cpp coInitialize"]}
{"id": "C120", "title": "Telling the client something never crashes the server", "statement": "NotifyToolsListChanged and its siblings, NotifyResourceUpdated, SendProgress, LogToClient and SendNotification never crash the process, whether or not the server was given a transport and whether or not it is connected.", "quantifier": "every history of the server and every such call", "why_tests_cant": "tests call them on a started server; a server used through HandleJSONRPC never has a transport", "anchors": ["include/mcp/Server.h SendProgress LogToClient SendNotification NotifyToolsListChanged HandleJSONRPC", "src/mcp/Server.cpp coSendNotification"]}
{"id": "C121", "title": "A new session does not inherit from the one before", "statement": "After Stop and Start on a new transport, what the next client is answered and told depends on the application's registrations and on that client alone, not on what clients before it did: their tasks, subscriptions, log level and capabilities.", "quantifier": "every two histories with the same registrations, every first request, every later history and request", "why_tests_cant": "needs two arbitrary histories of earlier clients compared; tests use one fresh server per client", "anchors": ["include/mcp/Server.h Start Stop", "src/mcp/Server.cpp coStart coStop parseClientCapabilities handleSubscribeRequest"]}
{"id": "C122", "title": "A client that reconnects asks the new server", "statement": "After Disconnect and Connect, list calls are answered by the server connected now and Initialize returns that server's capabilities; a list call is sent to the connection in force at that time, exactly once, unless it is served from the cache; after the new server has announced a list, an older one is not returned.", "quantifier": "every history of connections, initializations, list calls, replies, notifications and times to live", "why_tests_cant": "tests connect once; the claim ranges over every interleaving of cache contents and connections", "anchors": ["include/mcp/Client.h Connect Disconnect Initialize ListTools SetListingsCacheTtlMs", "src/mcp/Client.cpp coConnect coDisconnect coInitialize coListTools"]}
{"id": "C123", "title": "The current request", "statement": "CurrentRequestId and CurrentProgressToken, called by a handler, give the id and progress token of the request being handled; nested requests restore the outer one; requests on other threads do not matter; outside a request they give none.", "quantifier": "every interleaving of requests on any threads, every nesting, every id and token", "why_tests_cant": "tests call them in one handler on one thread; thread-local state needs every schedule", "anchors": ["include/mcp/Server.h CurrentRequestId CurrentProgressToken", "src/mcp/Server.cpp RequestContextScope requestIdToString extractProgressToken"]}
{"id": "C124", "title": "Changed lists are announced", "statement": "Whenever a registration or its removal changes what a client is answered to tools/list, resources/list, resources/templates/list or prompts/list, the client is sent the matching list-changed notification; changes made while it was away are announced when it initializes.", "quantifier": "every registry state, registration call, list request and history of connections", "why_tests_cant": "tests register one tool and look for one notification", "anchors": ["include/mcp/Server.h RegisterTool UnregisterTool RegisterResourceTemplate", "src/mcp/Server.cpp sendInitializedAndListChangedAsync"]}
{"id": "C125", "title": "A server hears of its client's tasks", "statement": "A tasks/status notification sent by this library's client for a task gives the server's task status handler that same task, whatever the order of members on the wire; every other notification, save the one that says the client is initialized, changes nothing in the server.", "quantifier": "every task, member order, server state and notification", "why_tests_cant": "tests use one literal notification", "anchors": ["include/mcp/Server.h SetTaskStatusHandler", "src/mcp/Server.cpp handleNotification", "src/mcp/Client.cpp sendTaskStatusNotification"]}
{"id": "C126", "title": "An HTTPS client talks only to the server it was told to", "statement": "With scheme https, what the HTTP client transport sends (requests, notifications, session deletions, the request for the event stream, each with its credential) is read only by a peer that speaks TLS 1.3 and holds a certificate for the configured server, issued under the configured authorities (the system's if none are configured); a configured authority that cannot be loaded stops all messages; connections go only to the configured host and port, with only the configured credential; such a peer is not turned away.", "quantifier": "every option text, set of loadable authorities and peer", "why_tests_cant": "tests talk to one local server with one certificate; the claim is about every peer and every configuration", "anchors": ["include/mcp/HTTPTransport.hpp Options", "src/mcp/HTTPTransport.cpp Impl coPostJson coDeleteSession runSseLoop coEnsureAuthHeader", "include/mcp/auth/BearerAuth.hpp"]}
{"id": "C127", "title": "The client secret is sent only to the token endpoint", "statement": "The OAuth client id and secret are posted only to the host, port and path of the token URL, and over https read only by a peer with a certificate for that host issued under the authorities the transport is configured with. Metadata discovery likewise reads only from such a peer.", "quantifier": "every token URL, option text, set of loadable authorities and peer", "why_tests_cant": "needs every peer and certificate; tests use a plain-text token server", "anchors": ["src/mcp/auth/OAuthClient.cpp coPostFormUrlencoded parseUrl", "src/mcp/auth/OAuth2ClientCredentialsAuth.cpp ensureReady", "src/mcp/auth/OAuthDiscovery.cpp createDefaultSslContext doHttpsGet"]}
{"id": "C128", "title": "HTTP requests name their target", "statement": "Every request of the HTTP client transport asks for the configured path, and its Host field names the configured host, and the port unless it is the scheme's default.", "quantifier": "every option text and kind of request", "why_tests_cant": "tests use one path and do not look at the Host field", "anchors": ["src/mcp/HTTPTransport.cpp requestPath notifyPath streamPath coPostJson coDeleteSession runSseLoop"]}
{"id": "C129", "title": "The event stream is kept open", "statement": "Once an initialize request was given a session, the HTTP client keeps an event stream open until Close: one connection at a time, with the session in force, asking again after the delay in force (configured, or the one the server last asked for) when a connection is lost, and not at all after a 405. The events of every connection are received once and in order.", "quantifier": "every history of replies, stream heads, reads, failures, delays, handler exceptions and Close", "why_tests_cant": "tests open one stream on one good connection; the claim is about every sequence of failures and times", "anchors": ["src/mcp/HTTPTransport.cpp maybeStartSseLoop runSseLoop stopSseLoop"]}
{"id": "C130", "title": "Close returns", "statement": "HTTPTransport::Close returns in bounded time whatever the server does, and after it has returned no event stream is asked for.", "quantifier": "every history of the event stream and every behaviour of the server after Close was called", "why_tests_cant": "a test's server answers promptly; the claim is about a server that stays silent or asks for long delays", "anchors": ["include/mcp/HTTPTransport.hpp Close", "src/mcp/HTTPTransport.cpp Close stopSseLoop runSseLoop sleepForRetry"]}
{"id": "C131", "title": "The head of the event stream is read as HTTP", "statement": "A reply opens the event stream exactly when its status is 200, turns it off exactly when it is 405, changes the session to the one its fields name, and what follows the head is the stream's text, byte for byte.", "quantifier": "every status, reason, list of fields and text", "why_tests_cant": "tests use one reply", "anchors": ["src/mcp/HTTPTransport.cpp runSseLoop"]}
{"id": "C132", "title": "Everything written to standard input arrives", "statement": "Every message that the other side writes whole to the stdio transport's standard input is handed over exactly once and in order, however the kernel splits the bytes and whatever wakes or interrupts the reader, as long as both sides stay.", "quantifier": "all message lists, all ways the kernel cuts and delays the bytes, all interruptions, handlers and interleavings with disconnection", "why_tests_cant": "a test reads what its own kernel happens to deliver; the losses need an errno left by a handler, a descriptor shortage or a file as input", "anchors": ["src/mcp/StdioTransport.cpp:readLoopLinux", "src/mcp/StdioTransport.cpp:drainFrames", "src/mcp/StdioTransport.cpp:startReader"]}
{"id": "C133", "title": "The end of input is noticed and nothing before it is lost", "statement": "When the other side ends its output, everything it wrote before is delivered, the transport reports the end once, and IsConnected becomes false.", "quantifier": "all histories before the end, all amounts of unread input, any number of reader turns after it", "why_tests_cant": "needs the bytes and the hang-up to be seen by the kernel at the same time, and a claim about every later turn", "anchors": ["src/mcp/StdioTransport.cpp:readLoopLinux", "src/mcp/StdioTransport.cpp:IsConnected"]}
{"id": "C134", "title": "The idle timeout fires exactly on silence", "statement": "With idle_read_timeout_ms set, the transport reports an idle timeout only if no byte arrived for that long, and a silent connection does not outlive the first check after it; unset, silence never ends the connection.", "quantifier": "all configurations, histories and clock readings", "why_tests_cant": "quantifies over every timing of bytes against the clock", "anchors": ["src/mcp/StdioTransport.cpp:readLoopLinux", "src/mcp/StdioTransport.cpp:SetIdleReadTimeoutMs"]}
{"id": "C135", "title": "Closing the stdio transport returns", "statement": "Close of the stdio transport returns, whatever its reader, writer and timeout threads are doing, and even if reading standard input or writing standard output hangs.", "quantifier": "all histories of starting, sending, closing, thread ends and timeouts, and every interleaving of the timeout thread with Close", "why_tests_cant": "the fatal moment is a few instructions wide, and never returning is a claim about every continuation", "anchors": ["src/mcp/StdioTransport.cpp:Close", "src/mcp/StdioTransport.cpp:startTimeouts", "src/mcp/StdioTransport.cpp:Start"]}
{"id": "C136", "title": "A stdio transport starts and ends cleanly", "statement": "Starting, closing, restarting and destroying a stdio transport, in any order, never ends the process, never leaves a thread that uses a destroyed transport, and never has two threads reading standard input or writing standard output at once.", "quantifier": "all histories of calls, thread ends and waits", "why_tests_cant": "termination and use after destruction depend on the order of calls and on how fast threads notice a close", "anchors": ["src/mcp/StdioTransport.cpp:Start", "src/mcp/StdioTransport.cpp:Close", "src/mcp/StdioTransport.cpp:~Impl"]}
{"id": "C137", "title": "A handler may call the other side", "statement": "While it answers a request or handles a notification, a handler may send requests to the peer that called it and wait for their answers, to any depth: every call returns, with the value that direct calls of the handlers would give, and each handler runs once per request.", "quantifier": "all pairs of handler sets that call each other, all interleavings of application threads, readers, handler threads and timeouts", "why_tests_cant": "whether a wait can end depends on which thread reads the answer and on every interleaving of both sides", "anchors": ["src/mcp/StdioTransport.cpp:processMessage", "src/mcp/StdioTransport.cpp:drainFrames", "src/mcp/InMemoryTransport.cpp:processMessage", "src/mcp/SharedMemoryTransport.cpp:processMessage", "src/mcp/Server.cpp:RequestRootsList"]}
{"id": "C138", "title": "A request being handled does not hold up others", "statement": "While a request is being handled, however long that takes, messages sent after it, such as the notification that cancels it, are still read and handled.", "quantifier": "all handlers, including ones that never return, and all interleavings", "why_tests_cant": "a handler that never returns cannot be waited for in a test, and what is read meanwhile depends on the schedule", "anchors": ["src/mcp/StdioTransport.cpp:drainFrames", "src/mcp/StdioTransport.cpp:processMessage", "src/mcp/InMemoryTransport.cpp:processMessage", "src/mcp/SharedMemoryTransport.cpp:processMessage"]}
{"id": "C139", "title": "What a handler tells comes before its answer", "statement": "All notifications that a request handler sends before it returns, such as progress, reach the caller before the answer to that request, in the order sent, none lost and none twice.", "quantifier": "all handlers and all interleavings of both sides", "why_tests_cant": "order between messages of concurrent threads can be right in every observed run and wrong in another", "anchors": ["src/mcp/StdioTransport.cpp:processMessage", "src/mcp/InMemoryTransport.cpp:processMessage", "src/mcp/SharedMemoryTransport.cpp:processMessage", "src/mcp/Server.cpp:SendProgress"]}
{"id": "C140", "title": "Stopping an HTTP server", "statement": "Stopping an HTTP server returns, whatever clients are connected and whatever they do, and when it has returned nothing of the server runs: no thread, no stream, no handler, and nothing begins before the next start.", "quantifier": "all states of the server, all clients and all interleavings of its threads", "why_tests_cant": "whether a stop returns depends on what every client does and where each thread is at that moment", "anchors": ["src/mcp/HTTPServer.cpp:Stop", "src/mcp/HTTPServer.cpp:session_plain", "src/mcp/HTTPServer.cpp:coMakeResponse"]}
{"id": "C141", "title": "Starting an HTTP server", "statement": "When the future of a start is ready without an exception the server listens, and a server that was stopped, or whose start failed, can be started again.", "quantifier": "all sequences of starts, stops and failures", "why_tests_cant": "histories of starts and stops are unbounded, and a future that never becomes ready cannot be waited for", "anchors": ["src/mcp/HTTPServer.cpp:Start", "src/mcp/HTTPServer.cpp:Stop", "src/mcp/HTTPServer.cpp:acceptLoop"]}
{"id": "C142", "title": "Destroying an HTTP server", "statement": "Destroying an HTTP server, running or not, ends its threads and returns, and nothing uses it afterwards.", "quantifier": "all states of the server and all interleavings of its threads", "why_tests_cant": "use of freed members shows only in some schedules", "anchors": ["src/mcp/HTTPServer.cpp:~Impl", "src/mcp/HTTPServer.cpp:coMakeResponse", "src/mcp/HTTPServer.cpp:session_plain"]}
{"id": "C143", "title": "An HTTP server keeps listening", "statement": "A server that listens accepts connections until it is stopped, whatever its clients and handlers do and whatever fails meanwhile.", "quantifier": "all histories of requests, handlers, streams and failures", "why_tests_cant": "failures such as missing file descriptors and endless handlers come in any order", "anchors": ["src/mcp/HTTPServer.cpp:acceptLoop", "src/mcp/HTTPServer.cpp:coMakeResponse"]}
{"id": "C144", "title": "Streams leave nothing behind", "statement": "What a server keeps for an event stream is given back when the stream ends: the memory and threads it holds are bounded by the streams that are open.", "quantifier": "all histories of streams that come and go", "why_tests_cant": "a bound over histories of any length", "anchors": ["src/mcp/HTTPServer.cpp:session_plain", "src/mcp/HTTPServer.cpp:session_tls", "src/mcp/HTTPServer.cpp:Stop"]}
{"id": "C145", "title": "Calls from many threads never deadlock", "statement": "Any number of threads may call the server's methods while the peer sends requests and notifications and the server's own threads run: no set of them ever waits for each other for ever, and every call that is started can finish.", "quantifier": "all numbers of threads, all sequences of calls, all schedules and all behaviour of handlers", "why_tests_cant": "a deadlock needs one schedule out of unboundedly many", "anchors": ["src/mcp/Server.cpp:Server::Impl", "src/mcp/TaskSupport.h:TaskStore", "src/mcp/TaskSupport.h:BackgroundTaskGroup", "src/mcp/StdioTransport.cpp:enqueueFrame", "src/mcp/StdioTransport.cpp:SendRequest"]}
{"id": "C146", "title": "Callbacks may call the server", "statement": "The code a user gives the server, be it a handler of tools, resources, prompts, completions, sampling, task status or errors, or a callback on a stop token, may call any method of that server, and the call returns.", "quantifier": "all callbacks, all methods they call, nested to any depth, and all schedules", "why_tests_cant": "the calls a handler makes nest without bound and interleave with all other threads", "anchors": ["src/mcp/Server.cpp:handlePromptsGet", "src/mcp/Server.cpp:coGetPrompt", "src/mcp/Server.cpp:cancelById", "src/mcp/StdioTransport.cpp:enqueueFrame"]}
{"id": "C147", "title": "A handler that hangs delays nobody", "statement": "When a handler does not return, only the call it serves waits: every other call, on every other thread, can still finish.", "quantifier": "all sets of hanging handlers, all other calls and all schedules", "why_tests_cant": "not returning cannot be observed by a test, and the calls it may block are all others", "anchors": ["src/mcp/Server.cpp:handlePromptsGet", "src/mcp/Server.cpp:coGetPrompt", "src/mcp/Server.cpp:handleToolsCall", "src/mcp/Server.cpp:handleResourcesRead"]}
{"id": "C148", "title": "No data races", "statement": "Whatever methods of a server run at the same time on any threads, no two of them touch the same member at once with one of them writing it.", "quantifier": "all pairs of methods, all numbers of threads and all schedules", "why_tests_cant": "a race shows only in some schedules, and a run without symptoms does not exclude it", "anchors": ["src/mcp/Server.cpp:handleUnsubscribeRequest", "src/mcp/Server.cpp:parseClientCapabilities", "src/mcp/Server.cpp:collectVisibleResources", "src/mcp/Server.cpp:SetLoggingRateLimitPerSecond", "CONTRIBUTING.md"]}
{"id": "C149", "title": "Arguments of an asynchronous call", "statement": "The arguments given by reference to an asynchronous method of Server or Client need to exist only until the method has returned its future: nothing reads them afterwards, however long the answer takes.", "quantifier": "every sequence of calls to the asynchronous methods of Server and Client, every moment at which their arguments cease to exist, every order of answers and of the threads that go on with them", "why_tests_cant": "The future is usually ready at once in tests, or the argument is a named string; only a temporary together with a late answer shows a read after the end of the lifetime, and then only under a sanitizer.", "anchors": ["src/mcp/Server.cpp:coGetTaskResult", "src/mcp/Client.cpp:coGetTaskResult", "include/mcp/async/Task.h:Task", "include/mcp/async/FutureAwaitable.h:FutureAwaitable"]}
{"id": "C150", "title": "Futures of asynchronous calls", "statement": "The future an asynchronous method returns becomes ready exactly once, after the answer has come, by a step that depends on no other call; a call that has finished is not run again and holds no thread.", "quantifier": "every sequence of calls, answers and thread steps", "why_tests_cant": "Tests make one call at a time; that no interleaving resumes a call twice, loses it, or makes one wait for another ranges over all schedules.", "anchors": ["include/mcp/async/Task.h:promise_type", "include/mcp/async/FutureAwaitable.h:await_suspend", "src/mcp/Client.cpp:Client::Impl", "src/mcp/Server.cpp:Server::Impl"]}
{"id": "C151", "title": "Destroying an object with calls pending", "statement": "A Server or Client may be destroyed while asynchronous calls are pending: nothing of the object is touched after it is gone.", "quantifier": "every sequence of calls, answers and thread steps, and every moment of destruction", "why_tests_cant": "The race is between the destructor and a detached thread that goes on with a call; a test sees it only with luck.", "anchors": ["src/mcp/Client.cpp:Client::~Client", "src/mcp/Server.cpp:Server::~Server", "src/mcp/Client.cpp:coListTools", "include/mcp/async/FutureAwaitable.h:await_suspend"]}
{"id": "C152", "title": "Standard output carries only messages", "statement": "Over stdio, standard output carries the frames of the messages sent and nothing else, whatever the library logs, so the other side reads exactly those messages.", "quantifier": "every sequence of messages, log entries, partial writes and flushes, every setting of the environment, every cutting of the stream by reads", "why_tests_cant": "Tests run with MCP_STDIO_MODE set or through pipes whose log output stays in the buffer; that no log entry ever gets between frames, and what the reader makes of one, ranges over all histories.", "anchors": ["include/logging/Logger.h:Logger::log", "src/mcp/StdioTransport.cpp:Start", "src/mcp/ContentLengthFramer.cpp:tryDecodeEx", "include/env/EnvVars.h:GetEnvOrDefault"]}
{"id": "C153", "title": "The process log", "statement": "The log holds exactly the entries at or above the threshold, in order, each on one line with its place and its text.", "quantifier": "every sequence of log entries with any texts, every threshold, every setting of colour and of the console", "why_tests_cant": "Entries carry texts from the other side; a test picks harmless ones.", "anchors": ["include/logging/Logger.h:Logger::log", "include/logging/Logger.h:parseLogLevel", "src/logging/Logger.cpp:sLogLevel"]}
{"id": "C154", "title": "Over HTTP each request gets its own answer, and the handler runs once", "statement": "A request sent through the HTTP client to the HTTP server completes with what the server's handler answers to that very request, or with an error the client makes for that very request. The server runs its handler at most once for each request, and for no other.", "quantifier": "every interleaving of both programs: any requests, notifications and replies under way at once, served in any order, lost, with any other clients, server operations and events, for all configurations", "why_tests_cant": "The answers of concurrent POSTs can come back in any order and be lost at any point; tests send one request at a time on an intact loopback connection.", "anchors": ["src/mcp/HTTPTransport.cpp:coPostJson", "src/mcp/HTTPTransport.cpp:handleIncomingMessage", "src/mcp/HTTPServer.cpp:handleEndpoint", "src/mcp/HTTPServer.cpp:handleRpc"]}
{"id": "C155", "title": "Over HTTP a request that is served is answered", "statement": "When the server accepts and handles a request's POST and the connection stays, the request completes with the handler's answer once the POST has ended, whatever both sides do in the meantime.", "quantifier": "every history before and between, every request, handler answer, configuration in which both ends fit", "why_tests_cant": "Whether another POST, event or registration can take the answer away depends on the interleaving.", "anchors": ["src/mcp/HTTPTransport.cpp:SendRequest", "src/mcp/HTTPTransport.cpp:coPostJson", "src/mcp/HTTPServer.cpp:makeResponse"]}
{"id": "C156", "title": "HTTP sessions last", "statement": "The session the server opens for a client's initialize request becomes the client's session, every later POST names it, and the server accepts it, as long as no session is deleted, the server is not stopped and no session number is drawn twice.", "quantifier": "every history of both programs with those three exclusions, with any other clients", "why_tests_cant": "The session is kept in two processes and may change hands at any POST; a test sees one run.", "anchors": ["src/mcp/HTTPTransport.cpp:coPostJson", "src/mcp/HTTPServer.cpp:createSession", "src/mcp/HTTPServer.cpp:findSession", "src/mcp/HTTPServer.cpp:handleEndpoint"]}
{"id": "C157", "title": "Over HTTP each request of the server gets its own answer, and the client's handler runs once", "statement": "A request that the HTTP server sends to its client over the event stream completes with what the client's handler answers to that very request, or with an error the server makes for that very request when it closes the session or has none. The client runs its handler at most once for each request, and for no other.", "quantifier": "every interleaving of both programs: any requests and notifications of the server on any sessions and streams, read, lost and answered in any order, with any requests of the client and of others, for all configurations", "why_tests_cant": "The request goes out on one connection and the answer comes back on another, with no order between them; tests send one request and wait.", "anchors": ["src/mcp/HTTPServer.cpp:SendRequest", "src/mcp/HTTPServer.cpp:queueOutbound", "src/mcp/HTTPServer.cpp:resolvePendingResponse", "src/mcp/HTTPTransport.cpp:handleIncomingJson"]}
{"id": "C158", "title": "Over HTTP a request of the server that is heard is answered", "statement": "A request among the events a connected client reads is handled, and the answer is posted. When the server sees that POST, and it names the session the request was sent on, the request completes with that answer, unless it has completed before.", "quantifier": "every history before, every request, handler answer, stream and configuration in which both ends fit", "why_tests_cant": "Whether another answer, event or session change can take the answer away depends on the interleaving.", "anchors": ["src/mcp/HTTPTransport.cpp:handleIncomingJson", "src/mcp/HTTPServer.cpp:handleEndpoint", "src/mcp/HTTPServer.cpp:resolvePendingResponse"]}
{"id": "C159", "title": "Nobody but the client answers the server's requests", "statement": "A request that the HTTP server sends on a session is completed only by the client that opened the session, or with an error of the server.", "quantifier": "every history of both programs, every HTTP request from anybody else, with any headers and body", "why_tests_cant": "Whether a stranger's POST is taken for an answer depends on what is pending at that moment and on everything the stranger may put in it.", "anchors": ["src/mcp/HTTPServer.cpp:handleEndpoint", "src/mcp/HTTPServer.cpp:resolvePendingResponse", "src/mcp/HTTPServer.cpp:enforceAuthAndScope"]}
{"id": "C160", "title": "The typed tool call returns the tool's result or throws the server's error", "statement": "typed::callTool gives its caller exactly what the registered tool returned: the same content items in the same order, the same structured content and metadata and the same error flag. If the server answers with an error it throws with the message of that error, and it never returns a result when none was received.", "quantifier": "every registry history, tool, name, argument, tool result or exception, strict or not at either end, and every member order in which request and reply arrive", "why_tests_cant": "A test has a few results; which members a result may have, in which order they arrive and what stands in for a lost reply is open.", "anchors": ["include/mcp/typed/ClientTyped.h:callTool", "include/mcp/typed/ClientTyped.h:parseCallToolResult", "include/mcp/typed/ClientTyped.h:isErrorObject", "src/mcp/Client.cpp:coCallTool", "src/mcp/Server.cpp:handleToolsCall"]}
{"id": "C161", "title": "The typed prompt and resource calls return the handler's result or throw the server's error", "statement": "typed::getPrompt and typed::readResource give their caller exactly the description and messages, or the contents, that the registered handler returned. If the server answers with an error they throw its message, and they never return a result when none was received.", "quantifier": "every registry history, handler, name, URI, argument, result or exception, strict or not at either end, and every member order in which request and reply arrive", "why_tests_cant": "A test has a few results; which members a result may have, in which order they arrive and what stands in for a lost reply is open.", "anchors": ["include/mcp/typed/ClientTyped.h:getPrompt", "include/mcp/typed/ClientTyped.h:readResource", "include/mcp/typed/ClientTyped.h:parseGetPromptResult", "include/mcp/typed/ClientTyped.h:parseReadResourceResult", "src/mcp/Client.cpp:coGetPrompt", "src/mcp/Client.cpp:coReadResource"]}
{"id": "C162", "title": "A chunked read can be stopped, and says so", "statement": "typed::readAllResourceInChunks with a stop token returns the whole text unless a stop is requested. After the request it fetches no further piece and returns; what it returns is a prefix of the text, and the caller can tell it from the whole. The read ends with every server, and no overload asks for more than the limit the server advertises.", "quantifier": "every text, chunk size, limit, moment of the stop request and server", "why_tests_cant": "The moment of the stop and the server's answers are not under a test's control.", "anchors": ["include/mcp/typed/ClientTyped.h:doReadAllResourceInChunksCancelable", "include/mcp/typed/ClientTyped.h:readAllResourceInChunks", "include/mcp/typed/ClientTyped.h:extractResourceReadClamp"]}
{"id": "C163", "title": "Destroying an in-memory transport returns", "statement": "The destructor of an in-memory transport returns once the notification handler that may be running has returned, whether or not the transport was closed before.", "quantifier": "every history of calls at both ends of a pair and every interleaving of their threads", "why_tests_cant": "The notification and the thread's decision to sleep are a few instructions apart; a test hardly ever meets the schedule in which they cross.", "anchors": ["src/mcp/InMemoryTransport.cpp:InMemoryTransport::Impl::~Impl", "src/mcp/InMemoryTransport.cpp:InMemoryTransport::Impl::startProcessing", "src/mcp/InMemoryTransport.cpp:InMemoryTransport::Close"]}
{"id": "C164", "title": "An in-memory transport can be started again, and one thread delivers", "statement": "Start of an in-memory transport returns, also after Close and also when it is called twice, and from then on exactly one thread hands the messages of that end to the application.", "quantifier": "every history of Start, Close and messages at both ends and every interleaving", "why_tests_cant": "How far the thread of the last Start has come when the next begins depends on the schedule.", "anchors": ["src/mcp/InMemoryTransport.cpp:InMemoryTransport::Start", "src/mcp/InMemoryTransport.cpp:InMemoryTransport::Impl::startProcessing", "src/mcp/InMemoryTransport.cpp:InMemoryTransport::Close"]}
{"id": "C165", "title": "The ends of an in-memory pair may be destroyed in any order", "statement": "Destroying one end of an in-memory pair leaves the other usable: its calls fail cleanly. No thread uses an end that has been destroyed, and destruction does not terminate the process.", "quantifier": "every history of calls at both ends, every order of destruction and every interleaving with request handlers", "why_tests_cant": "Use of freed memory depends on which thread comes last; a run that happens to be fine proves nothing.", "anchors": ["src/mcp/InMemoryTransport.cpp:InMemoryTransport::CreatePair", "src/mcp/InMemoryTransport.cpp:InMemoryTransport::Impl::sendToPeer", "src/mcp/InMemoryTransport.cpp:InMemoryTransport::Impl::processMessage", "src/mcp/InMemoryTransport.cpp:InMemoryTransport::Impl::~Impl"]}
{"id": "C166", "title": "After Close an in-memory transport delivers nothing", "statement": "When Close of an in-memory transport has returned no further message is handed to the application before the next Start, and what was sent before Close is not delivered after the next Start.", "quantifier": "every history of calls at both ends and every interleaving", "why_tests_cant": "Which messages are queued or on their way when Close returns depends on the schedule.", "anchors": ["src/mcp/InMemoryTransport.cpp:InMemoryTransport::Close", "src/mcp/InMemoryTransport.cpp:InMemoryTransport::Impl::startProcessing", "src/mcp/InMemoryTransport.cpp:InMemoryTransport::Impl::enqueueMessage"]}
{"id": "C167", "title": "Close and destruction of a shared-memory transport return and leave nothing running", "statement": "Close and the destructor of a shared-memory transport return, wherever they are called from, and when they have returned no thread of the transport runs any more, no request waits, and no memory of it is used.", "quantifier": "every number of transports on a channel, every history of calls in all of them and every interleaving of their threads and handlers", "why_tests_cant": "Where the processing thread and the request handlers are when Close begins depends on the schedule; a test meets a few of the cases.", "anchors": ["src/mcp/SharedMemoryTransport.cpp:SharedMemoryTransport::Close", "src/mcp/SharedMemoryTransport.cpp:SharedMemoryTransport::Impl::~Impl", "src/mcp/SharedMemoryTransport.cpp:SharedMemoryTransport::Start"]}
{"id": "C168", "title": "A shared-memory transport learns that its peer has closed", "statement": "When one end of a shared-memory channel closes, the other becomes disconnected and its open requests fail, in whichever of the two directions.", "quantifier": "every history and interleaving, every fill of the queues", "why_tests_cant": "It depends on what is in the queue at the moment of Close and on what happens between the message and its receipt.", "anchors": ["src/mcp/SharedMemoryTransport.cpp:SharedMemoryTransport::Close", "src/mcp/SharedMemoryTransport.cpp:SharedMemoryTransport::Impl::processMessage", "src/mcp/SharedMemoryTransport.cpp:SharedMemoryTransport::Impl::sendPayload"]}
{"id": "C169", "title": "The channel name leads to the creator that is connected", "statement": "While a creator of a shared-memory channel is connected, a transport that opens the channel by its name is connected to that creator, crosswise, and gets the answers to its own requests.", "quantifier": "every history of any number of creators and openers of the same name", "why_tests_cant": "The name is a resource of the system that any process may remove or take over at any time.", "anchors": ["src/mcp/SharedMemoryTransport.cpp:SharedMemoryTransport::Start", "src/mcp/SharedMemoryTransport.cpp:SharedMemoryTransport::Close", "src/mcp/SharedMemoryTransport.cpp:SharedMemoryTransport::Impl::~Impl"]}
{"id": "C170", "title": "A shared-memory transport can be started again", "statement": "When Start of a shared-memory transport has returned the transport is connected and one thread receives, also when it was closed before and also when it was started before.", "quantifier": "every history of Start and Close at all ends and every interleaving", "why_tests_cant": "How far the thread of the last Start has come, and what it still writes, depends on the schedule.", "anchors": ["src/mcp/SharedMemoryTransport.cpp:SharedMemoryTransport::Start", "src/mcp/SharedMemoryTransport.cpp:SharedMemoryTransport::Close"]}
{"id": "C171", "title": "The resources of the conformance profile can be read", "statement": "On a server with the conformance profile every fixed resource and every instance of the template is read, whole or by offset and length, with its uri, type and content; the data of the template is a JSON document with the id of the uri.", "quantifier": "every id, every offset and length, every registration made before, strict mode and not", "why_tests_cant": "The ids in the uri are unbounded, and any other resource or template may be registered on the same server.", "anchors": ["src/mcp/ConformanceServerSupport.h:RegisterConformanceServerProfile", "src/mcp/ConformanceServerSupport.h:makeTextResource", "src/mcp/Server.cpp:handleReadResource"]}
{"id": "C172", "title": "A tool of the conformance profile is always answered", "statement": "A call of a tool of the conformance profile is answered with a tool result of the protocol's shape, never with an error of the call, and the tools without a conversation always give the same result.", "quantifier": "every argument, every answer or failure of the client and the transport, every moment of cancellation, every registration made before", "why_tests_cant": "What the client answers and when the call is cancelled is not in the hand of a test.", "anchors": ["src/mcp/ConformanceServerSupport.h:RegisterConformanceServerProfile", "src/mcp/Server.cpp:handleToolsCall"]}
{"id": "C173", "title": "Log messages and progress of the conformance profile arrive in order under the token of the request", "statement": "The logging tool and the progress tool send their steps in order, all that are not cancelled or limited, under the token of the request, and a client takes each progress report for what it is, strict or not.", "quantifier": "every pattern of cancellation and rate limit, every token, every log level, every order of members on the way", "why_tests_cant": "The patterns of cancellation among the steps depend on time.", "anchors": ["src/mcp/ConformanceServerSupport.h:RegisterConformanceServerProfile", "src/mcp/Server.cpp:Server::SendProgress", "src/mcp/Server.cpp:Server::LogToClient"]}
{"id": "C174", "title": "Sampling and elicitation tools ask the client and report what it answered", "statement": "The sampling tool and the elicitation tools of the conformance profile ask the client's handlers their question and answer with what they returned; a question that could not be answered is reported as an error.", "quantifier": "every argument, every client with any handlers, strict or not, every failure of the transport", "why_tests_cant": "It needs all answers and failures of all clients.", "anchors": ["src/mcp/ConformanceServerSupport.h:RegisterConformanceServerProfile", "src/mcp/Server.cpp:Server::RequestCreateMessage", "src/mcp/Server.cpp:Server::RequestElicitation", "src/mcp/ConformanceServerSupport.h:extractFirstTextContent"]}
{"id": "C175", "title": "The prompts of the conformance profile contain their arguments", "statement": "Each prompt of the conformance profile is answered with messages of the user of the protocol's shape that contain the arguments of the request as given, and refused when a required argument is missing; every completion gives the three values.", "quantifier": "every argument, every registration made before, strict mode and not", "why_tests_cant": "The arguments are unbounded texts.", "anchors": ["src/mcp/ConformanceServerSupport.h:RegisterConformanceServerProfile", "src/mcp/ConformanceServerSupport.h:getStringArgument", "src/mcp/Server.cpp:handlePromptsGet"]}
{"id": "C176", "title": "Close of the HTTP client returns and ends everything", "statement": "Close of the HTTP client transport returns from wherever it is called; then the transport is not connected, none of its threads runs, every request and notification is completed, no handler is called any more, and the transport can be started and closed again.", "quantifier": "every schedule of the callers, the i/o thread, the event-stream thread and the network, every caller, every setting of TLS, event stream and DELETE", "why_tests_cant": "It depends on where two threads, the network and the handlers are when Close is called.", "anchors": ["src/mcp/HTTPTransport.cpp:HTTPTransport::Close", "src/mcp/HTTPTransport.cpp:HTTPTransport::Start", "src/mcp/HTTPTransport.cpp:stopSseLoop", "src/mcp/HTTPTransport.cpp:maybeStartSseLoop", "src/mcp/HTTPTransport.cpp:runSseLoop"]}
{"id": "C177", "title": "Destroying the HTTP client ends everything", "statement": "The destructor of the HTTP client transport returns from wherever it is run, never ends the process, leaves no thread, and completes what is pending with an error.", "quantifier": "every schedule as in C176, with or without Close before", "why_tests_cant": "As C176.", "anchors": ["src/mcp/HTTPTransport.cpp:HTTPTransport::Impl::~Impl", "src/mcp/HTTPTransport.cpp:stopSseLoop", "src/mcp/HTTPTransport.cpp:maybeStartSseLoop"]}
{"id": "C178", "title": "A response that has been read is delivered without the peer", "statement": "Once the HTTP response to a request has been read, the request is completed by the threads of the process alone, whatever other peers do.", "quantifier": "every schedule, every number of requests in flight, with TLS and without", "why_tests_cant": "It is about all schedules and all behaviours of the peers of other exchanges.", "anchors": ["src/mcp/HTTPTransport.cpp:HTTPTransport::SendRequest", "src/mcp/HTTPTransport.cpp:coPostJson", "src/mcp/HTTPTransport.cpp:HTTPTransport::Start"]}
{"id": "C179", "title": "A JSON text is read as what it denotes", "statement": "Every JSON text of RFC 8259, however it is spelled (white space, escapes, hexadecimal case, spelling of numbers), is read as the value it denotes, and what follows it is not touched.", "quantifier": "every text of the grammar, of any size and depth, after any white space and before any text that does not continue a number", "why_tests_cant": "There are infinitely many texts, and many spellings of each value.", "anchors": ["src/mcp/JSONParser.cpp:JsonParser"]}
{"id": "C180", "title": "Numbers are read correctly rounded", "statement": "A JSON number with a point or an exponent is read as the nearest double, of two equally near ones the one with the even mantissa; an integer is read as itself.", "quantifier": "every numeral of the grammar", "why_tests_cant": "There are infinitely many numerals, and wrong rounding shows on few of them.", "anchors": ["src/mcp/JSONParser.cpp:JsonParser::parseNumber"]}
{"id": "C181", "title": "What is written is JSON for everybody", "statement": "What the serializer writes is a text of the JSON grammar that denotes the value written, so that any reader that follows RFC 8259 gets this value.", "quantifier": "every value", "why_tests_cant": "Reading back with the library's own parser, as tests do, cannot show it: that parser accepts more than JSON.", "anchors": ["src/mcp/JSONParser.cpp:serializeJSONValue"]}
{"id": "C182", "title": "Only JSON is accepted", "statement": "Whatever the parser accepts as a value is a JSON text of this value: a text that is not JSON is refused and never read as some value.", "quantifier": "every input", "why_tests_cant": "It is about all inputs that are not JSON.", "anchors": ["src/mcp/JSONParser.cpp:JsonParser"]}
{"id": "C183", "title": "Notifications arrive in order, once, unchanged", "statement": "Between the two ends of an in-memory pair, the notification handler of an end is given exactly the notifications the other end sent while this one was open, in the order sent, each once and unchanged, and nothing else.", "quantifier": "every history of both ends: starting, closing, sending requests and notifications, taking and dispatching messages, in any order", "why_tests_cant": "Whether one is lost, doubled or out of order depends on how the two ends interleave.", "anchors": ["src/mcp/InMemoryTransport.cpp:SendNotification", "src/mcp/InMemoryTransport.cpp:processMessage", "src/mcp/InMemoryTransport.cpp:handleNotification"]}
{"id": "C184", "title": "A token that is not obtained is reported", "statement": "Each time the token endpoint's reply yields no access token, the error handler is told so once, with the reason; when a reply yields one it is told nothing.", "quantifier": "every history of overlapping calls and replies, and every reply", "why_tests_cant": "Replies and overlaps are unbounded in number.", "anchors": ["src/mcp/auth/OAuth2ClientCredentialsAuth.cpp:ensureReady", "src/mcp/auth/OAuth2ClientCredentialsAuth.cpp:setErrorHandler"]}
{"id": "C185", "title": "A refused HTTP request has no effect and is told why", "statement": "Whatever the HTTP server answers with a status of 400 or more has called no handler, changed no session and opened none; and each kind of refusal has its own status and text.", "quantifier": "every request, setting, token verifier, set of sessions and handlers", "why_tests_cant": "The requests, settings and sessions are unbounded.", "anchors": ["src/mcp/HTTPServer.cpp:handleRpc", "src/mcp/HTTPServer.cpp:makeResponse"]}
{"id": "C186", "title": "A server or client may be destroyed at any time", "statement": "Whenever a Server or a Client is destroyed, whatever its transport, its handlers, its background tasks and its keepalive thread are doing, none of them uses a part of the object that has already gone, and the destructor comes to an end.", "quantifier": "every history of starting, receiving messages, launching tasks, stopping and destroying, every schedule of the threads, and every transport", "why_tests_cant": "The use after destruction needs one thread at one instruction while another is between two destructors.", "anchors": ["include/mcp/Server.h:~Server", "include/mcp/Client.h:~Client", "src/mcp/Server.cpp:Impl", "src/mcp/Client.cpp:Impl", "include/mcp/detail/TaskSupport.h:BackgroundTaskGroup"]}
{"id": "C187", "title": "When Stop or Disconnect has returned nothing of the object runs", "statement": "Stop and Disconnect return, and when they have returned no handler, no background task and no keepalive thread of the object runs, and none starts until the object is started again.", "quantifier": "every history before and during the call, every schedule of the threads, every transport, and every thread the call is made from", "why_tests_cant": "The task that is missed is the one launched between two steps of the call.", "anchors": ["src/mcp/Server.cpp:coStop", "src/mcp/Client.cpp:coDisconnect", "include/mcp/detail/TaskSupport.h:WaitAll"]}
{"id": "C188", "title": "Timestamps name the moment and sort as moments do", "statement": "The timestamp a task is given has the form of RFC 3339 in UTC with milliseconds; read back it is the moment at which the clock was read; and comparing two timestamps as text compares the two moments.", "quantifier": "every reading of the system clock from 1970 on that its 64 bits can hold, and every pair of them", "why_tests_cant": "The readings are 2^63, with leap years, ends of months and of years among them.", "anchors": ["src/mcp/TaskSupport.h:UtcNowIso8601"]}
{"id": "C189", "title": "A task is not updated before it was created", "statement": "For every task of a server or client, lastUpdatedAt does not sort before createdAt; and of two tasks the one created first does not sort after the other by createdAt.", "quantifier": "every history of the task store and of the clock", "why_tests_cant": "Histories are unbounded, and the clock may be set.", "anchors": ["src/mcp/TaskSupport.h:CreateTask", "src/mcp/TaskSupport.h:SetTerminal", "src/mcp/TaskSupport.h:UtcNowIso8601"]}
{"id": "C190", "title": "Initialize opens a session over HTTP, and only if it succeeds", "statement": "An initialize request posted without a session id and let in is handled once, and its answer names a new session whose protocol version is the one it asks for (the current one if it names none); later requests that name the session and fit its version are handled once each and answered under its name, requests with another version are refused without effect; and a failed initialize opens no session.", "quantifier": "every state of the HTTP server, every configuration, handler and token verifier, every well-formed request", "why_tests_cant": "States come from unbounded histories; requests and versions are arbitrary text.", "anchors": ["src/mcp/HTTPServer.cpp:handleEndpoint", "src/mcp/HTTPServer.cpp:createSession", "src/mcp/HTTPServer.cpp:validateProtocolVersion"]}
{"id": "C191", "title": "A posted response completes the request that waits for it or is reported", "statement": "A response posted on a session completes the request of that session that waits under its id, with that response and without any error report; if none waits it changes nothing, is acknowledged, and the error handler is told once.", "quantifier": "every state of the HTTP server, every configuration and every well-formed response", "why_tests_cant": "What waits depends on unbounded histories of sessions and requests.", "anchors": ["src/mcp/HTTPServer.cpp:handleEndpoint", "src/mcp/HTTPServer.cpp:resolvePendingResponse"]}
{"id": "C192", "title": "Clients without a token learn where to get one", "statement": "A GET of the well-known path, or of the well-known path followed by the folder of the server's main path, is answered with the authorization servers and the supported scopes, with or without a token, and changes nothing.", "quantifier": "every configuration, every path, every state of the server", "why_tests_cant": "Paths are arbitrary text.", "anchors": ["src/mcp/HTTPServer.cpp:makeResponse", "src/mcp/HTTPServer.cpp:buildResourceMetadataJson"]}
{"id": "C193", "title": "Errors of the auth object go to the error handler", "statement": "Whatever the order in which a client's error handler and auth object are set and replaced, the auth object in use is the last one set, and if it reports errors it reports them to the error handler in use and to no other.", "quantifier": "every history of SetErrorHandler and the two SetAuth, with any handlers and auth objects", "why_tests_cant": "The histories are unbounded and every order counts.", "anchors": ["src/mcp/HTTPTransport.cpp:SetErrorHandler", "src/mcp/HTTPTransport.cpp:SetAuth", "include/mcp/auth/BearerAuth.hpp:setErrorHandler"]}
{"id": "C194", "title": "Requests carry the credentials and nothing of theirs is lost", "statement": "Every HTTP request of the client carries each header of its auth object, with the last value given to it, and each of its own fields that the auth object does not name (host, type, length, session, version), each once; Host is never the auth object's on a POST or DELETE; a token is sent as Bearer in Authorization and leaves everything else as it is.", "quantifier": "every configuration, session, version, body and list of headers of the auth object", "why_tests_cant": "Names may differ in case and repeat; lists are unbounded.", "anchors": ["src/mcp/HTTPTransport.cpp:coPostJson", "src/mcp/HTTPTransport.cpp:coDeleteSession", "src/mcp/HTTPTransport.cpp:runSseLoop", "src/mcp/HTTPTransport.cpp:coEnsureAuthHeader"]}
{"id": "C195", "title": "The last response can be looked up", "statement": "QueryLastHttpResponse gives the status, all fields and the challenge of the response to the last HTTP request that had one, and says so if there was none.", "quantifier": "every history of requests and of how they end", "why_tests_cant": "Histories are unbounded.", "anchors": ["src/mcp/HTTPTransport.cpp:QueryLastHttpResponse", "src/mcp/HTTPTransport.cpp:recordResponse"]}
{"id": "C196", "title": "Calls of a client from many threads never deadlock", "statement": "Any number of threads may call the client's methods while the server sends requests and notifications and the client's own threads run: no set of them ever waits for each other for ever, and every call that is started can finish.", "quantifier": "all numbers of threads, all sequences of calls, all schedules and all behaviour of callbacks", "why_tests_cant": "A deadlock needs one schedule out of unboundedly many.", "anchors": ["src/mcp/Client.cpp:Client::Impl", "src/mcp/TaskSupport.h:TaskStore", "src/mcp/StdioTransport.cpp:enqueueFrame", "src/mcp/StdioTransport.cpp:SendRequest"]}
{"id": "C197", "title": "Callbacks may call the client", "statement": "The code a user gives the client, be it a handler of notifications, progress, task status, errors, roots, sampling or elicitation, or a callback on a stop token, may call any method of that client, and the call returns.", "quantifier": "all callbacks, all methods they call, nested to any depth, and all schedules", "why_tests_cant": "The calls a handler makes nest without bound and interleave with all other threads.", "anchors": ["src/mcp/Client.cpp:onNotification", "src/mcp/Client.cpp:onRequest", "src/mcp/Client.cpp:cancelById", "src/mcp/StdioTransport.cpp:enqueueFrame"]}
{"id": "C198", "title": "A callback of the client that hangs delays nobody", "statement": "When a callback does not return, only the call it serves waits: every other call, on every other thread, can still finish.", "quantifier": "all sets of hanging callbacks, all other calls and all schedules", "why_tests_cant": "Not returning cannot be observed by a test, and the calls it may block are all others.", "anchors": ["src/mcp/Client.cpp:cancelById", "src/mcp/Client.cpp:onRequest", "src/mcp/StdioTransport.cpp:enqueueFrame"]}
{"id": "C199", "title": "The client has no data races", "statement": "Whatever methods of a client run at the same time on any threads, no two of them touch the same member at once with one of them writing it.", "quantifier": "all pairs of methods, all numbers of threads and all schedules", "why_tests_cant": "A race shows only in some schedules, and a run without symptoms does not exclude it.", "anchors": ["src/mcp/Client.cpp:SetNotificationHandler", "src/mcp/Client.cpp:SetListingsCacheTtlMs", "src/mcp/Client.cpp:coListTools", "src/mcp/Client.cpp:coInitialize"]}
{"id": "C200", "title": "Handlers of a client can be replaced at any time", "statement": "A handler may be replaced or removed at any time, also by itself: the function that runs is not destroyed before it returns.", "quantifier": "all handlers, all histories of setting and running them and all schedules", "why_tests_cant": "The destroyed function often still seems to work; and when it runs depends on the schedule.", "anchors": ["src/mcp/Client.cpp:onNotification", "src/mcp/Client.cpp:RemoveNotificationHandler", "src/mcp/Client.cpp:SetProgressHandler", "src/mcp/Client.cpp:handleProgressNotification"]}
{"id": "C201", "title": "Handlers of a server can be replaced at any time", "statement": "A handler of a server may be replaced or removed at any time, also by itself: the function that runs is not destroyed before it returns.", "quantifier": "all handlers, all histories of setting and running them and all schedules", "why_tests_cant": "The destroyed function often still seems to work; and when it runs depends on the schedule.", "anchors": ["src/mcp/Server.cpp:handlePromptsGet", "src/mcp/Server.cpp:handleCompleteRequest", "src/mcp/Server.cpp:SetCompletionHandler", "src/mcp/Server.cpp:SetErrorHandler", "src/mcp/Server.cpp:UnregisterPrompt"]}
{"id": "C202", "title": "Lists keep up with the server", "statement": "A list call returns the server's list as it was at some moment between the call's beginning and its return; with the listings cache on, a call that begins after the client has handled a list-changed notification returns a list that has that change, and later calls never return older lists.", "quantifier": "all histories of changes to the registry, notifications, list calls that overlap in any way, cache settings, and all orders in which both sides act", "why_tests_cant": "Which list comes back depends on where a change falls between the reading of the registry, the answer, the notification and the filling of the cache.", "anchors": ["src/mcp/Server.cpp:RegisterTool", "src/mcp/Server.cpp:handleToolsList", "src/mcp/Client.cpp:coListTools", "src/mcp/Client.cpp:invalidateCachesForListChanged", "src/mcp/Client.cpp:SetListingsCacheTtlMs"]}
{"id": "C203", "title": "What a client chose is in force once it is answered", "statement": "Once the answer to a request that subscribes, unsubscribes or sets the log level has arrived, the client receives an update of a resource only if it is subscribed to it or to nothing at all, and a log message only if it is at the level chosen or above; what it is to receive arrives, once.", "quantifier": "all histories of requests and notifications of both kinds, and all orders in which the two sides act", "why_tests_cant": "A notification may be decided on before the request is carried out and sent after it is answered; which of them happens depends on the schedule.", "anchors": ["src/mcp/Server.cpp:handleSubscribeRequest", "src/mcp/Server.cpp:handleUnsubscribeRequest", "src/mcp/Server.cpp:handleSetLogLevel", "src/mcp/Server.cpp:coNotifyResourceUpdated", "src/mcp/Server.cpp:coLogToClient", "src/mcp/Client.cpp:coSubscribeResources"]}
{"id": "C204", "title": "The error handler hears of failures of a token fetch, and changes nothing", "statement": "When a token cannot be fetched the error handler is told once, with the reason; when it is fetched the handler is told nothing; and the handler has no influence on the result, nor do failures on the network bring exceptions to the caller.", "quantifier": "every URL, every way the operations on the network end, every reply and every handler", "why_tests_cant": "Failures of the network at each step, and handlers that throw, are hard to arrange and unbounded in kind.", "anchors": ["src/mcp/auth/OAuthClient.cpp:coPostFormUrlencoded", "src/mcp/auth/OAuth2ClientCredentialsAuth.cpp:ensureReady"]}
{"id": "C205", "title": "Paging through a list that changes", "statement": "A client that follows nextCursor while tools, resources, templates or prompts are registered and unregistered between the pages comes to an end, is only shown entries registered at the moment of their page, and gets every entry registered throughout exactly once.", "quantifier": "all histories of registrations before and between the pages, all page sizes and numbers of pages", "why_tests_cant": "An entry is lost or repeated only when a change falls between two pages and in front of the entry; tests page through lists that stand still.", "anchors": ["src/mcp/Server.cpp:handleToolsList", "src/mcp/Server.cpp:handleResourcesList", "src/mcp/Server.cpp:handleResourceTemplatesList", "src/mcp/Server.cpp:handlePromptsList", "src/mcp/Server.cpp:parsePagingParams", "src/mcp/Server.cpp:computeNextCursor", "include/mcp/typed/ClientTyped.h:listAllTools"]}
{"id": "C206", "title": "HTTP connections fail alone and are reported", "statement": "The error handler of an HTTP server is told once of every connection or event stream that fails, with its kind and the reason; it is not told of peers that hang up, nor of anything once the server is being stopped. What one client does, or leaves undone, never holds up the connections of the others, and no failure ends the program.", "quantifier": "all numbers of connections with and without TLS, all operations that fail in any way at any time, all error handlers, all orders of events", "why_tests_cant": "A failure falls anywhere between handshake, reading, answering, streaming and stopping, and only the right combination of connections shows that one holds up another.", "anchors": ["src/mcp/HTTPServer.cpp:session_plain", "src/mcp/HTTPServer.cpp:session_tls", "src/mcp/HTTPServer.cpp:isBenignDisconnect", "src/mcp/HTTPServer.cpp:acceptLoop", "src/mcp/HTTPServer.cpp:setError"]}
{"id": "C207", "title": "Prompt arguments and messages put together with the helpers", "statement": "Arguments put together with the builder reach the prompt's handler as an object with the value given last to each name and no other names; a result made of texts is accepted, also in strict mode, and tells the client its description and exactly these texts in order.", "quantifier": "all sequences of builder calls, names, values and texts, all prompts and registries", "why_tests_cant": "The names and values are the caller's; repeated names, empty texts and member orders are unbounded.", "anchors": ["include/mcp/typed/Prompts.h:ArgsBuilder", "include/mcp/typed/Prompts.h:makeTextMessages", "include/mcp/typed/Prompts.h:makeTextPromptResult", "include/mcp/typed/Content.h:collectText", "src/mcp/Server.cpp:handlePromptsGet", "src/mcp/Client.cpp:coGetPrompt"]}
{"id": "C208", "title": "A list that is walked through is whole, or the call fails", "statement": "listAllTools and its siblings, and ListTools and its siblings, return all entries of the server's pages, from the first page to one without a cursor, each page being asked for with the cursor of the one before; or they throw.", "quantifier": "all servers, answering each request for a page with anything (pages with string or integer cursors, malformed results, errors, nothing, exceptions) depending on all earlier requests; all limits, strict checking or not", "why_tests_cant": "The server is somebody else's program: its page sizes, cursors and failures at any page are unbounded.", "anchors": ["include/mcp/typed/ClientTyped.h:listAllTools", "include/mcp/typed/ClientTyped.h:listAllResources", "include/mcp/typed/ClientTyped.h:listAllResourceTemplates", "include/mcp/typed/ClientTyped.h:listAllPrompts", "src/mcp/Client.cpp:coListToolsPaged", "src/mcp/Client.cpp:coListTools"]}
{"id": "C209", "title": "Reading in pieces what changes meanwhile", "statement": "When the text of a resource changes while readAllResourceInChunks reads it, the read ends and the text returned is the text of some moment of the read.", "quantifier": "all histories of the resource (text, handlers and registrations at each request), chunk sizes, limits of the server, strict checking or not", "why_tests_cant": "The text may change between any two requests, in any way; the schedules are unbounded.", "anchors": ["include/mcp/typed/ClientTyped.h:doReadAllResourceInChunks", "include/mcp/typed/ClientTyped.h:readResourceRange", "src/mcp/Server.cpp:handleResourcesRead"]}
{"id": "C210", "title": "Log entries reach the file chosen", "statement": "An entry of the process log at the level in force or above is added once and complete, in order, to the log file set last and to no other file; nothing is ever removed from a log file; a message that cannot be formatted is still logged, and a file that cannot be opened is reported.", "quantifier": "all sequences of changes of level and file and of entries, all contents of the files, all outcomes of opening, writing and formatting", "why_tests_cant": "Levels and files may be changed at any moment, and opening or writing can fail at any entry.", "anchors": ["include/logging/Logger.h:setLogFile", "include/logging/Logger.h:setLogLevel", "include/logging/Logger.h:logf", "include/logging/Logger.h:log", "src/logging/Logger.cpp"]}
{"id": "C211", "title": "Message sizes over shared memory", "statement": "Whatever maximum message sizes the two sides of a shared-memory channel are given, a message both have room for arrives, in order and once, and one that is too large for either is refused at its sender, where the request it belongs to, as call or as answer, completes with an error.", "quantifier": "all pairs of sizes, all messages, all interleavings of calls, handlers, closing and the processing threads", "why_tests_cant": "The two sizes are configured in different processes and range over all pairs; a test fixes one pair and a few messages.", "anchors": ["src/mcp/SharedMemoryTransport.cpp:SharedMemoryTransport::Start", "src/mcp/SharedMemoryTransport.cpp:sendPayload", "src/mcp/SharedMemoryTransport.cpp:SharedMemoryTransport::SendRequest", "src/mcp/SharedMemoryTransport.cpp:sendResponse"]}
