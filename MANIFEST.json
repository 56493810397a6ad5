{
 "claims": [
  {
   "property": "C01",
   "status": "proved",
   "theorems": [
    "C01_frame_roundtrip",
    "C01_try_decode_roundtrip"
   ],
   "note": "Both the pure and the erasing decoder entry points."
  },
  {
   "property": "C02",
   "status": "proved",
   "theorems": [
    "C02_chunking_independent",
    "C02_frames_delivered"
   ],
   "note": "Any stream and any partition; well-formed streams deliver exactly their payloads."
  },
  {
   "property": "C03",
   "status": "proved",
   "theorems": [
    "C03_decode_sound",
    "C03_consumes_within_buffer",
    "C03_decode_complete",
    "C03_oversize_disconnects"
   ],
   "note": ""
  },
  {
   "property": "C04",
   "status": "proved",
   "theorems": [
    "C04_reader_terminates",
    "C04_progress"
   ],
   "note": ""
  },
  {
   "property": "C05",
   "status": "proved",
   "theorems": [
    "C05_string_roundtrip",
    "C05_string_wellformed"
   ],
   "note": ""
  },
  {
   "property": "C06",
   "status": "proved",
   "theorems": [
    "C06_value_roundtrip",
    "C06_doubles_refuted"
   ],
   "note": "The quantifier of C06 excludes floating point; the theorem also covers doubles that are multiples of 1e-6. C06_doubles_refuted shows other doubles are not preserved."
  },
  {
   "property": "C07",
   "status": "partial",
   "theorems": [
    "C07_keys_refuted",
    "C07_backslash_refuted"
   ],
   "note": "The code violates this property: keys are not escaped. The refutation theorems exhibit the witnesses; the positive part (escape-free keys) is C06_value_roundtrip."
  },
  {
   "property": "C08",
   "status": "proved",
   "theorems": [
    "C08_parse_total",
    "C08_depth_bounded"
   ],
   "note": ""
  },
  {
   "property": "C09",
   "status": "proved",
   "theorems": [
    "C09_request_roundtrip",
    "C09_request_text"
   ],
   "note": ""
  },
  {
   "property": "C10",
   "status": "partial",
   "theorems": [
    "C10_response_roundtrip_partial",
    "C10_response_text",
    "C10_nested_error_refuted"
   ],
   "note": "The code violates the property when a result has a nested member named error (or an error-only response a nested member named result): the refutation exhibits it. Proved for all other responses."
  },
  {
   "property": "C11",
   "status": "proved",
   "theorems": [
    "C11_notification_roundtrip",
    "C11_notification_text"
   ],
   "note": ""
  },
  {
   "property": "C12",
   "status": "partial",
   "theorems": [
    "C12_nested_id_refuted",
    "C12_request_any_order_partial",
    "C12_response_any_order_partial"
   ],
   "note": "The code violates the property: fields are found by textual search. Proved in every member order when the payloads do not reuse the searched names."
  },
  {
   "property": "C13",
   "status": "proved",
   "theorems": [
    "C13_request",
    "C13_notification",
    "C13_response",
    "C13_top_level_members",
    "C13_surroundings"
   ],
   "note": ""
  },
  {
   "property": "C14",
   "status": "proved",
   "theorems": [
    "C14_request",
    "C14_response",
    "C14_notification",
    "C14_any_text_one_call",
    "C14_any_text_answer"
   ],
   "note": "C14_response carries the restriction of C10 on nested names because it states that the very response is handed over; C14_any_text_* hold for every text."
  },
  {
   "property": "C15",
   "status": "partial",
   "theorems": [
    "C15_memory_at_most_once",
    "C15_memory_for_cause",
    "C15_memory_reused_id_refuted",
    "C15_stdio_at_most_once",
    "C15_stdio_for_cause",
    "C15_shm_at_most_once",
    "C15_shm_for_cause",
    "C15_http_client_at_most_once",
    "C15_http_client_for_cause"
   ],
   "note": "In-memory, stdio, shared-memory and HTTP client transports. At-most-once holds always; the list of causes is complete when ids are not reused. A reused id destroys the earlier promise: the refutation exhibits it."
  },
  {
   "property": "C16",
   "status": "proved",
   "theorems": [
    "C16_memory_close_completes",
    "C16_stdio_close_completes",
    "C16_shm_close_completes",
    "C16_http_client_close_completes"
   ],
   "note": "In-memory, stdio, shared-memory and HTTP client transports. Requests not yet registered when Close starts are the subject of C66."
  },
  {
   "property": "C17",
   "status": "proved",
   "theorems": [
    "C17_fifo",
    "C17_delivered"
   ],
   "note": ""
  },
  {
   "property": "C18",
   "status": "proved",
   "theorems": [
    "C18_answer_matches",
    "C18_all_answered"
   ],
   "note": ""
  },
  {
   "property": "C19",
   "status": "proved",
   "theorems": [
    "C19_queue_bounded",
    "C19_queue_balance",
    "C19_accept_or_refuse"
   ],
   "note": "The balance is stated while connected: a frame abandoned by a disconnect is neither held nor written."
  },
  {
   "property": "C20",
   "status": "proved",
   "theorems": [
    "C20_written_prefix",
    "C20_writer_drains"
   ],
   "note": "For one Start. A second Start after a frame was cut is not modelled."
  },
  {
   "property": "C21",
   "status": "partial",
   "theorems": [
    "C21_sweep_exact",
    "C21_deadline",
    "C21_outcome_final",
    "C21_timely",
    "C21_timely_refuted"
   ],
   "note": "All proved, except that a timeout lowered at run time is served late: the refutation exhibits it."
  },
  {
   "property": "C65",
   "status": "partial",
   "theorems": [
    "C65_lost_connection_refuted"
   ],
   "note": "The code violates the property: the timeout thread ends with the connection, and only Close fails what is pending."
  },
  {
   "property": "C66",
   "status": "partial",
   "theorems": [
    "C66_close_race_refuted",
    "C66_shm_race_refuted",
    "C66_http_client_race_refuted"
   ],
   "note": "The code violates the property: registration can follow the last step of Close."
  },
  {
   "property": "C22",
   "status": "proved",
   "theorems": [
    "C22_terminal_frozen",
    "C22_outcome_frozen",
    "C22_states"
   ],
   "note": "For fewer than 2^64 creations. The status input_required is never used by the code."
  },
  {
   "property": "C23",
   "status": "proved",
   "theorems": [
    "C23_one_winner",
    "C23_first_wins",
    "C23_losers_told",
    "C23_unknown_told",
    "C23_waiters",
    "C23_waiters_wake"
   ],
   "note": ""
  },
  {
   "property": "C24",
   "status": "proved",
   "theorems": [
    "C24_unique",
    "C24_retrievable",
    "C24_only_created"
   ],
   "note": "For fewer than 2^64 creations: the counter has 64 bits."
  },
  {
   "property": "C25",
   "status": "proved",
   "theorems": [
    "C25_pages_cover",
    "C25_pages_end",
    "C25_one_page"
   ],
   "note": "For fewer than 2^63 tasks: the cursor is read back as a signed 64-bit integer."
  },
  {
   "property": "C26",
   "status": "proved",
   "theorems": [
    "C26_task",
    "C26_task_wire",
    "C26_created",
    "C26_created_wire",
    "C26_list",
    "C26_list_wire",
    "C26_metadata",
    "C26_task_id"
   ],
   "note": ""
  },
  {
   "property": "C27",
   "status": "partial",
   "theorems": [
    "C27_result",
    "C27_error",
    "C27_other",
    "C27_data_lost_refuted",
    "C27_meta_lost_refuted"
   ],
   "note": "Proved when the existing metadata and error data are absent or objects. Otherwise the code violates the property: the old value is thrown away."
  },
  {
   "property": "C67",
   "status": "partial",
   "theorems": [
    "C67_status_reports",
    "C67_order_refuted"
   ],
   "note": "Each change is reported exactly once, but the order is violated by the code: reports are made after the lock is released."
  },
  {
   "property": "C59",
   "status": "partial",
   "theorems": [
    "C59_tool_partial",
    "C59_resource_partial",
    "C59_template_partial",
    "C59_prompt_partial",
    "C59_tool_wire_partial",
    "C59_resource_wire_partial",
    "C59_template_wire_partial",
    "C59_prompt_wire_partial",
    "C59_roundtrip_refuted"
   ],
   "note": "Proved when every icon theme is absent, light or dark. Otherwise the code violates the property: the server sends any theme and the client then drops all icons of the item."
  },
  {
   "property": "C28",
   "status": "proved",
   "theorems": [
    "C28_tools",
    "C28_resources",
    "C28_templates",
    "C28_prompts",
    "C28_tools_served",
    "C28_resources_served",
    "C28_templates_served",
    "C28_prompts_served",
    "C28_by_name"
   ],
   "note": "For a registry that does not change between pages and fewer than 2^63 registrations. The _served theorems say the same of what a peer is given by a server after any history of requests, without the strict shape check, which C70 treats."
  },
  {
   "property": "C29",
   "status": "proved",
   "theorems": [
    "C29_tool_lookup",
    "C29_tool_listing",
    "C29_resource_lookup",
    "C29_resource_listing",
    "C29_template_lookup",
    "C29_template_listing",
    "C29_prompt_lookup",
    "C29_prompt_listing"
   ],
   "note": "A tool re-registered by name only keeps the description it had, as the specification tool_now says."
  },
  {
   "property": "C30",
   "status": "partial",
   "theorems": [
    "C30_tools_partial",
    "C30_resources_partial",
    "C30_templates_partial",
    "C30_prompts_partial",
    "C30_beyond_refuted"
   ],
   "note": "Proved for cursors that are 64-bit integers. A larger number makes the code start again at the first entry: refuted."
  },
  {
   "property": "C36",
   "status": "proved",
   "theorems": [
    "C36_tools",
    "C36_resources",
    "C36_templates",
    "C36_prompts",
    "C36_tools_whole",
    "C36_resources_whole",
    "C36_templates_whole",
    "C36_prompts_whole",
    "C36_malformed"
   ],
   "note": "Entries are complete unless they carry icons of a theme other than light or dark, see C59."
  },
  {
   "property": "C31",
   "status": "proved",
   "theorems": [
    "C31_sound",
    "C31_repeated_refuted"
   ],
   "note": "The second theorem shows why repeated variable names are excluded."
  },
  {
   "property": "C32",
   "status": "proved",
   "theorems": [
    "C32_complete",
    "C32_exact"
   ],
   "note": ""
  },
  {
   "property": "C33",
   "status": "proved",
   "theorems": [
    "C33_direct",
    "C33_one_template",
    "C33_ambiguous",
    "C33_none",
    "C33_answer_ambiguous",
    "C33_answer_none"
   ],
   "note": ""
  },
  {
   "property": "C34",
   "status": "proved",
   "theorems": [
    "C34_window",
    "C34_bounds",
    "C34_end",
    "C34_full",
    "C34_tiles",
    "C34_tiles_exist"
   ],
   "note": ""
  },
  {
   "property": "C35",
   "status": "partial",
   "theorems": [
    "C35_whole_text_partial",
    "C35_with_hint_partial",
    "C35_huge_chunk_refuted"
   ],
   "note": "Proved for chunk sizes below 2^63. From 2^63 on the code violates the property: the size becomes a negative length and the read fails."
  },
  {
   "property": "C60",
   "status": "proved",
   "theorems": [
    "C60_content",
    "C60_tool_result",
    "C60_prompt",
    "C60_sampling",
    "C60_text_sampling",
    "C60_tasks"
   ],
   "note": ""
  },
  {
   "property": "C68",
   "status": "partial",
   "theorems": [
    "C68_nonempty_refuted"
   ],
   "note": "Violated by the code: the matcher binds variables to the empty string."
  },
  {
   "property": "C69",
   "status": "proved",
   "theorems": [
    "C69_content",
    "C69_call_tool",
    "C69_read_resource",
    "C69_get_prompt",
    "C69_completion",
    "C69_elicitation",
    "C69_task",
    "C69_lists",
    "C69_sampling"
   ],
   "note": ""
  },
  {
   "property": "C70",
   "status": "proved",
   "theorems": [
    "C70_tools",
    "C70_resources",
    "C70_templates",
    "C70_prompts"
   ],
   "note": ""
  },
  {
   "property": "C71",
   "status": "proved",
   "theorems": [
    "C71_server",
    "C71_client_range",
    "C71_client_whole"
   ],
   "note": ""
  },
  {
   "property": "C72",
   "status": "partial",
   "theorems": [
    "C72_hidden_partial",
    "C72_rest",
    "C72_item_refuted"
   ],
   "note": "Proved for the metadata of the result. The code violates the property for content items: the handler's items are sent with their own metadata."
  },
  {
   "property": "C37",
   "status": "partial",
   "theorems": [
    "C37_sent_partial",
    "C37_only_updates",
    "C37_never_subscribed",
    "C37_after_unsubscribe_refuted",
    "C37_overlap_refuted",
    "C37_requests_partial"
   ],
   "note": "Proved for requests handled one after the other. The code violates the property when the last subscription is dropped (every update is sent again) and when a subscribe and an unsubscribe overlap."
  },
  {
   "property": "C38",
   "status": "partial",
   "theorems": [
    "C38_below_never_sent_partial",
    "C38_above_sent_partial",
    "C38_above_sent_now_partial",
    "C38_critical_dropped_refuted",
    "C38_error_at_emergency_refuted",
    "C38_requests",
    "C38_fatal",
    "C38_set_level_answer",
    "C38_level_sent"
   ],
   "note": "Proved for the names debug, info, warning and error. The code violates it for notice, critical, alert and emergency, which it reads as debug in messages and as error in thresholds."
  },
  {
   "property": "C39",
   "status": "proved",
   "theorems": [
    "C39_windows",
    "C39_any_second",
    "C39_held_back",
    "C39_unlimited",
    "C39_sliding_refuted"
   ],
   "note": "Limit below 2^32. Windows are fixed, not sliding: C39_sliding_refuted shows that a second that straddles two windows may see twice the limit, and C39_any_second that it never sees more."
  },
  {
   "property": "C63",
   "status": "proved",
   "theorems": [
    "C63_closes",
    "C63_no_more_pings",
    "C63_late_errors_refuted"
   ],
   "note": "A ping failed when sending threw or the transport reported an error before the loop looked; C63_late_errors_refuted shows that errors reported later are forgotten."
  },
  {
   "property": "C73",
   "status": "partial",
   "theorems": [
    "C73_advertised",
    "C73_interval",
    "C73_enabled_pings_partial",
    "C73_dead_but_advertised_refuted"
   ],
   "note": "The advertised values are proved to be the configured ones. The code violates the rest: after a stop or a keepalive close nothing is pinged though keepalive is advertised."
  },
  {
   "property": "C40",
   "status": "partial",
   "theorems": [
    "C40_cancelled",
    "C40_others",
    "C40_exactly",
    "C40_no_id",
    "C40_same_text_refuted"
   ],
   "note": "The model covers the server and the client's copy for sampling requests. Proved when ids in use have different texts. The code violates it for the ids 1 and \"1\", which share one table entry (C40_same_text_refuted)."
  },
  {
   "property": "C41",
   "status": "partial",
   "theorems": [
    "C41_forgotten_partial",
    "C41_late_refuted",
    "C41_table_grows_refuted"
   ],
   "note": "A cancellation of a request that has finished is kept under its id and cancels the next request with that id (C41_late_refuted); entries for ids that are never used stay for ever. Proved: a finished request's own token is gone."
  },
  {
   "property": "C42",
   "status": "proved",
   "theorems": [
    "C42_reply",
    "C42_waits",
    "C42_after_wait",
    "C42_unknown"
   ],
   "note": "User code either returns or throws a std::exception."
  },
  {
   "property": "C58",
   "status": "partial",
   "theorems": [
    "C58_value",
    "C58_response",
    "C58_category",
    "C58_exactly",
    "C58_category_refuted",
    "C58_code_cut_refuted"
   ],
   "note": "Proved for errors whose category is the one of their code. The category itself is not sent, so a category left at its default is not preserved (C58_category_refuted)."
  },
  {
   "property": "C74",
   "status": "partial",
   "theorems": [
    "C74_server_partial",
    "C74_client_partial",
    "C74_flags_refuted",
    "C74_extensions_refuted"
   ],
   "note": "The code loses listChanged/subscribe flags, and extensions and experimental capabilities of clients."
  },
  {
   "property": "C75",
   "status": "partial",
   "theorems": [
    "C75_no_effect_partial",
    "C75_cancelled_call_refuted"
   ],
   "note": "Proved with one exception: a task call whose token is cancelled before the reply is answered with an error although its task was created."
  },
  {
   "property": "C76",
   "status": "proved",
   "theorems": [
    "C76_call",
    "C76_unknown",
    "C76_required",
    "C76_forbidden",
    "C76_client"
   ],
   "note": ""
  },
  {
   "property": "C77",
   "status": "proved",
   "theorems": [
    "C77_get",
    "C77_unknown"
   ],
   "note": ""
  },
  {
   "property": "C78",
   "status": "proved",
   "theorems": [
    "C78_complete"
   ],
   "note": ""
  },
  {
   "property": "C79",
   "status": "partial",
   "theorems": [
    "C79_call",
    "C79_tasks",
    "C79_complete_refuted",
    "C79_initialize_refuted"
   ],
   "note": "Proved for tool, prompt and task calls. Complete and Initialize turn every error into an empty result."
  },
  {
   "property": "C80",
   "status": "proved",
   "theorems": [
    "C80_created",
    "C80_result",
    "C80_threw"
   ],
   "note": "untouched excludes attempts to end the task by others, also before it existed."
  },
  {
   "property": "C43",
   "status": "proved",
   "theorems": [
    "C43_admitted",
    "C43_verifier_asked",
    "C43_one_token",
    "C43_exposed"
   ],
   "note": "CheckBearerAuth with any verifier and clock; case-insensitive Bearer prefix; C43_exposed covers the thread-local scope. HTTP-level use is C45."
  },
  {
   "property": "C44",
   "status": "partial",
   "theorems": [
    "C44_forbidden",
    "C44_unauthorized",
    "C44_rest",
    "C44_expired_and_unscoped",
    "C44_challenge",
    "C44_challenge_refuted"
   ],
   "note": "Status codes exactly; the challenge header is present iff a metadata URL is configured, so the unconditional claim is refuted."
  },
  {
   "property": "C46",
   "status": "partial",
   "theorems": [
    "C46_roundtrip",
    "C46_not_bearer",
    "C46_unclosed",
    "C46_terminates",
    "C46_malformed_refuted"
   ],
   "note": "Every challenge of the grammar in WwwSpec is read back; other schemes and unclosed quotes are refused; malformed parameter lists may still be accepted (refuted)."
  },
  {
   "property": "C47",
   "status": "proved",
   "theorems": [
    "C47_understood",
    "C47_comma_cut"
   ],
   "note": "For every metadata URL without comma, leading quote or blanks at its ends (the quantifier of the property); C47_comma_cut shows the comma condition is needed."
  },
  {
   "property": "C45",
   "status": "partial",
   "theorems": [
    "C45_partial",
    "C45_status_partial",
    "C45_calls",
    "C45_stream_refuted"
   ],
   "note": "Holds for every request but the GET event stream, which is served without any token (refuted)."
  },
  {
   "property": "C48",
   "status": "partial",
   "theorems": [
    "C48_host_refused",
    "C48_origin_refused",
    "C48_local_accepted",
    "C48_any_host",
    "C48_userinfo_refuted"
   ],
   "note": "For every well-formed authority and origin without user info, and an exact account of every Host value; authorities with user info get past the guard (refuted). The address-literal test of boost::asio is a parameter."
  },
  {
   "property": "C51",
   "status": "partial",
   "theorems": [
    "C51_one_session",
    "C51_named",
    "C51_completions",
    "C51_once",
    "C51_create_partial",
    "C51_collision_refuted",
    "C51_names_run_out"
   ],
   "note": "Isolation proved for all histories; session names are drawn from 9000 and may repeat, then the older session is cut off (refuted)."
  },
  {
   "property": "C52",
   "status": "partial",
   "theorems": [
    "C52_fifo",
    "C52_stream",
    "C52_once",
    "C52_running",
    "C52_lost_refuted"
   ],
   "note": "Order, numbering and at-most-once for all interleavings (fewer than 2^64 messages for the ids); a message whose write fails is lost (refuted)."
  },
  {
   "property": "C53",
   "status": "partial",
   "theorems": [
    "C53_accepted",
    "C53_refused",
    "C53_older_refuted",
    "C53_rpc_refuted"
   ],
   "note": "Exact for the endpoint and the stream; a supported older version is refused on sessions with another older version, and the legacy paths do not look at the field (refuted)."
  },
  {
   "property": "C81",
   "status": "partial",
   "theorems": [
    "C81_deleted",
    "C81_stopped",
    "C81_delete_request",
    "C81_race_refuted",
    "C51_once"
   ],
   "note": "A request that becomes pending after its session was swept never completes (refuted)."
  },
  {
   "property": "C82",
   "status": "partial",
   "theorems": [
    "C82_last_created",
    "C82_request_answered",
    "C82_none",
    "C82_other_client_refuted"
   ],
   "note": "Messages go to the session created last, not to the client being served (refuted)."
  },
  {
   "property": "C83",
   "status": "partial",
   "theorems": [
    "C83_refusal_json",
    "C83_metadata_json",
    "C83_escapes_refuted"
   ],
   "note": "For strings that need no JSON escapes; others break the document (refuted)."
  },
  {
   "property": "C49",
   "status": "partial",
   "theorems": [
    "C49_payloads",
    "C49_end_to_end",
    "C49_crlf",
    "C49_lost_refuted",
    "C49_injection_refuted"
   ],
   "note": "Proved for payloads on one line, and end to end from the server's send queue to the client's handlers for messages whose names and keys hold no line break. Refuted otherwise: object keys are written unescaped, so a line break in a key loses the message (C49_lost_refuted) and a hostile key makes the client handle a notification never sent (C49_injection_refuted)."
  },
  {
   "property": "C50",
   "status": "partial",
   "theorems": [
    "C50_partial",
    "C50_contained_partial",
    "C50_reads",
    "C50_any_reads",
    "C50_refuted",
    "C50_altered_refuted"
   ],
   "note": "As stated it is false: the client parses each read on its own as soon as the read contains a line break, so a read boundary inside a data line truncates or loses the payload (C50_refuted) or changes it (C50_altered_refuted). Proved: independence of all cuts outside data lines, and for arbitrary cuts that damage stays inside the event whose data line was cut."
  },
  {
   "property": "C64",
   "status": "partial",
   "theorems": [
    "C64_wire_partial",
    "C64_stdio_partial",
    "C64_refuted"
   ],
   "note": "Composition of serializer, framer, writer queue, reads cut anywhere, reader, decoder and router, for ids and methods free of quotes and backslashes. Refuted for responses whose result uses the key error inside (C64_refuted), as in C10."
  },
  {
   "property": "C84",
   "status": "partial",
   "theorems": [
    "C84_own_answer_partial",
    "C84_calls_partial",
    "C84_same_id_refuted"
   ],
   "note": "Refuted when the caller gives two requests the same id: the answer to the first completes the future of the second and the first breaks (C84_same_id_refuted). Proved for messages that meet the round-trip conditions (ids and methods without quotes and backslashes, no nested result/error keys in responses), frames within the reader's limit and pairwise different request ids. Two full stdio transports with readers, writers and timeouts, every interleaving."
  },
  {
   "property": "C85",
   "status": "partial",
   "theorems": [
    "C85_refuted",
    "C85_smaller_cap_partial"
   ],
   "note": "Refuted for the defaults: the queue accepts frames up to 2 MiB, the reader disconnects above 1 MiB. Proved when the cap is at most the reader's limit."
  },
  {
   "property": "C56",
   "status": "proved",
   "theorems": [
    "C56_roundtrip",
    "C56_alphabet",
    "C56_body",
    "C56_injective"
   ],
   "note": "Against an independent decoder of application/x-www-form-urlencoded bodies."
  },
  {
   "property": "C57",
   "status": "proved",
   "theorems": [
    "C57_cached",
    "C57_otherwise_posts",
    "C57_header",
    "C57_lifetime"
   ],
   "note": "Over every interleaving of overlapping ensureReady calls, endpoint replies and clock readings. C57_lifetime ties the lifetime used to the reply's expires_in member for every layout of the reply in which no value mentions that name."
  },
  {
   "property": "C86",
   "status": "partial",
   "theorems": [
    "C86_refuted",
    "C86_partial",
    "C86_replaced_partial"
   ],
   "note": "As stated it is false: a failed refresh leaves the expired token in place and it is still sent (C86_refuted). Proved when the call needed no refresh or the refresh brought a token."
  },
  {
   "property": "C87",
   "status": "partial",
   "theorems": [
    "C87_escape_refuted",
    "C87_null_refuted",
    "C87_mention_refuted",
    "C87_token_partial",
    "C87_raw_partial"
   ],
   "note": "As stated it is false: escapes are not decoded, a null token is replaced by the next quoted text, a value equal to the member name is taken for the key. Proved for every layout of every reply without backslashes whose values do not mention the name."
  },
  {
   "property": "C61",
   "status": "partial",
   "theorems": [
    "C61_equal_exactly",
    "C61_distinct",
    "C61_memory_ids",
    "C61_memory",
    "C61_stdio",
    "C61_shm",
    "C61_shm_counter",
    "C61_http_server",
    "C61_http_client",
    "C61_chosen_id_refuted"
   ],
   "note": "Proved for requests without an id: in memory and over stdio for whole histories of fewer than 2^32 requests, over shared memory for fewer than 2^64-1; for the HTTP server per counter value. for the HTTP client for fewer than 2^32. Missing: an id chosen by the application can coincide with one generated later (C61_chosen_id_refuted)."
  },
  {
   "property": "C62",
   "status": "partial",
   "theorems": [
    "C62_exact",
    "C62_request_partial",
    "C62_notification_partial",
    "C62_response",
    "C62_lost_refuted"
   ],
   "note": "The code violates the property: a request whose payload holds the quoted word result or error and an id of its own reading is taken for a response and never reaches the handler (C62_lost_refuted). C62_exact says exactly which messages are mistaken; the partial theorems give the rest."
  },
  {
   "property": "C88",
   "status": "proved",
   "theorems": [
    "C88_shm_fifo"
   ],
   "note": "The queue itself is boost::interprocess::message_queue, modelled as a bounded FIFO whose sends may fail."
  },
  {
   "property": "C89",
   "status": "partial",
   "theorems": [
    "C89_own_answer_partial",
    "C89_runs_once_partial",
    "C89_wrong_answer_refuted"
   ],
   "note": "Proved for payloads not mistaken in the sense of C62 and ids that are not reused (which C61_shm gives for generated ids). Without that a request is answered with a value that no handler gave (C89_wrong_answer_refuted)."
  },
  {
   "property": "C90",
   "status": "proved",
   "theorems": [
    "C90_sampling",
    "C90_none"
   ],
   "note": ""
  },
  {
   "property": "C91",
   "status": "proved",
   "theorems": [
    "C91_announced"
   ],
   "note": "Over every history of requests handled one after the other; the notifications are recorded as handed to the transport."
  },
  {
   "property": "C54",
   "status": "partial",
   "theorems": [
    "C54_ttl",
    "C54_fresh_partial",
    "C54_kept",
    "C54_off",
    "C54_stale_refuted"
   ],
   "note": "A list is served only if it was stored, nothing said it changed since the store, and the time to live (counted in whole milliseconds) is not over. The code violates the rest: a reply received before a list-changed notification and stored after it is served for the whole time to live (C54_stale_refuted); proved when no such notification is processed while a call on the list is under way."
  },
  {
   "property": "C55",
   "status": "partial",
   "theorems": [
    "C55_thrown_partial",
    "C55_failed_refuted"
   ],
   "note": "The code violates it: an error response is cached as an empty list (C55_failed_refuted). Proved for failures that reach the caller as exceptions."
  },
  {
   "property": "C92",
   "status": "partial",
   "theorems": [
    "C92_resource_partial",
    "C92_server_partial",
    "C92_escape_refuted",
    "C92_mention_refuted",
    "C92_bearer_refuted",
    "C92_cut_lists",
    "C92_cut_refuted"
   ],
   "note": "Proved for any layout with the escapes \\\" \\\\ \\/ \\n \\r \\t and keys that no value mentions. The code violates it for the escapes \\u, \\b and \\f, for a value equal to a key name, and for bearer_methods_supported, a list in RFC 9728 that is read as a string. A document cut short gives prefixes of its lists, but a cut address is taken for whole."
  },
  {
   "property": "C93",
   "status": "partial",
   "theorems": [
    "C93_server",
    "C93_server_root",
    "C93_resource_partial",
    "C93_resource_root",
    "C93_resource_refuted"
   ],
   "note": "Authorization server addresses proved. The code violates RFC 9728 for resource paths of two or more segments (C93_resource_refuted)."
  },
  {
   "property": "C94",
   "status": "partial",
   "theorems": [
    "C94_fetch_partial",
    "C94_scheme_refuted",
    "C94_ipv6_refuted",
    "C94_query_refuted",
    "C94_header_refuted"
   ],
   "note": "Proved, but for the Host header, for lower-case schemes and hosts without colon. Violated for HTTPS in capitals (fetched in the clear), IPv6 hosts, a query after the host, and the Host header with a port."
  },
  {
   "property": "C95",
   "status": "proved",
   "theorems": [
    "C95_server",
    "C95_resource"
   ],
   "note": "The network is any function of the number of the request and the URL."
  },
  {
   "property": "C96",
   "status": "partial",
   "theorems": [
    "C96_origin_partial",
    "C96_issuer_refuted",
    "C96_resource_refuted"
   ],
   "note": "The code violates it: neither name is compared. Proved: only the issuer's own origin is asked."
  },
  {
   "property": "C97",
   "status": "partial",
   "theorems": [
    "C97_answered_partial",
    "C97_own_answer",
    "C97_other_refuted",
    "C97_request_refuted",
    "C97_restart_refuted"
   ],
   "note": "Missing: false as stated. If the reply to the POST of one request answers another pending request, or is itself a request, the first request stays pending after its POST has ended (C97_other_refuted, C97_request_refuted). After Close and Start the transport says it is connected but never posts (C97_restart_refuted): the io_context is not restarted."
  },
  {
   "property": "C98",
   "status": "partial",
   "theorems": [
    "C98_session",
    "C98_session_unique",
    "C98_case_refuted"
   ],
   "note": "Missing: the name of the session header is compared letter for letter, so a session issued under mcp-session-id is ignored (C98_case_refuted), although header names are case-insensitive in HTTP."
  },
  {
   "property": "C99",
   "status": "proved",
   "theorems": [
    "C99_posts"
   ],
   "note": ""
  },
  {
   "property": "C100",
   "status": "partial",
   "theorems": [
    "C100_version_fixed",
    "C100_negotiated_refuted"
   ],
   "note": "Missing: false. The version is fixed at construction; C100_version_fixed says exactly what is sent."
  },
  {
   "property": "C101",
   "status": "partial",
   "theorems": [
    "C101_named",
    "C101_event_reply_refuted",
    "C97_own_answer"
   ],
   "note": "Missing: false for text/event-stream, which the client accepts and then rejects in every case; true for application/json (C97_own_answer)."
  },
  {
   "property": "C102",
   "status": "partial",
   "theorems": [
    "C102_partial",
    "C102_throw_refuted",
    "C102_start_refuted",
    "C102_stream_partial",
    "C102_stream_refuted"
   ],
   "note": "Missing: false for a notification handler that throws when the notification comes in the reply to a POST, for a second Start, and for an initialize after a stream whose head had an empty session id: std::terminate."
  },
  {
   "property": "C103",
   "status": "proved",
   "theorems": [
    "C103_reply",
    "C103_waits",
    "C103_after_wait",
    "C103_unknown",
    "C103_refused",
    "C103_ping",
    "C103_ping_checked"
   ],
   "note": "The transport that carries the reply is not part of this theorem."
  },
  {
   "property": "C104",
   "status": "partial",
   "theorems": [
    "C104_roundtrip_partial",
    "C104_error_refuted",
    "C104_unasked"
   ],
   "note": "Roots with an empty uri are dropped, and an error of the client (a handler that throws, or none) is returned to the server's caller as an empty list without an error: C104_error_refuted."
  },
  {
   "property": "C105",
   "status": "partial",
   "theorems": [
    "C105_roundtrip_partial",
    "C105_error_refuted",
    "C105_improper_refuted"
   ],
   "note": "A handler that throws, or one whose action a strict client rejects, is returned to the server's caller as an answer with an empty action, not as an error. The round trip holds for all answers if neither side is strict, and for the three actions of the protocol otherwise."
  },
  {
   "property": "C106",
   "status": "partial",
   "theorems": [
    "C106_roundtrip_partial",
    "C106_cancelled",
    "C106_dropped_refuted"
   ],
   "note": "maxTokens, temperature, stopSequences and metadata are sent but never given to the handler: C106_dropped_refuted. What the handler is given otherwise, and what comes back, is proved for every request a strict client accepts."
  },
  {
   "property": "C107",
   "status": "proved",
   "theorems": [
    "C107_elicit",
    "C107_sample",
    "C107_outcome",
    "C107_store",
    "C107_elicit_result",
    "C107_sample_result",
    "C107_threw",
    "C107_status",
    "C107_cancelled",
    "C107_not_cancellable"
   ],
   "note": "The handler and CompleteTask are one step of the worker. Sampling results that are not objects are not covered by C107_sample_result (attaching the task replaces them)."
  },
  {
   "property": "C108",
   "status": "partial",
   "theorems": [
    "C108_progress_partial",
    "C108_integer_refuted",
    "C108_token",
    "C108_no_token",
    "C108_token_refuted"
   ],
   "note": "Progress written as an integer is read as 0.0 and an integer token as the empty text (dropped by a strict client); a server echoes a numeric token as text, so a client that sent a number cannot match it."
  },
  {
   "property": "C109",
   "status": "proved",
   "theorems": [
    "C109_status"
   ],
   "note": "Also for the status notifications a server receives: Server.cpp 1172-1181 is the same code."
  },
  {
   "property": "C110",
   "status": "partial",
   "theorems": [
    "C110_routed_partial",
    "C110_cancelled",
    "C110_refuted"
   ],
   "note": "A handler registered for notifications/cancelled, or for progress or task status when the special handlers are set, is never called; and a cancellation that names its request in requestId, as the protocol says, is ignored: the client reads id."
  },
  {
   "property": "C111",
   "status": "partial",
   "theorems": [
    "C111_strings_partial",
    "C111_numbers_partial",
    "C111_switches_partial",
    "C111_unknown",
    "C111_not_a_number",
    "C111_semicolon_refuted",
    "C111_large_refuted",
    "C111_no_refuted",
    "C111_lax_refuted"
   ],
   "note": "Proved for every text and layout, for values without semicolons, numerals below 2^32 and switches written 0, false, False or as a yes. A value with a semicolon (a secret, say) is cut; numbers are taken modulo 2^32; FALSE, no and off switch on; 30s and -1 are taken as numbers."
  },
  {
   "property": "C112",
   "status": "partial",
   "theorems": [
    "C112_options_partial",
    "C112_defaults",
    "C112_ignored",
    "C112_zero_refuted",
    "C112_blanks_refuted"
   ],
   "note": "The request timeout 0 does not disable timeouts: the deadline of every request sent then overflows, which is undefined behaviour. Blanks around the equals sign lose the setting. Otherwise proved for every text and numerals below 2^63."
  },
  {
   "property": "C113",
   "status": "partial",
   "theorems": [
    "C113_options_partial",
    "C113_same_channel",
    "C113_large_refuted"
   ],
   "note": "A maxCount of 2^32 or more is taken modulo 2^32. Otherwise proved for every name and query."
  },
  {
   "property": "C114",
   "status": "partial",
   "theorems": [
    "C114_listen_partial",
    "C114_default",
    "C114_ipv6_refuted",
    "C114_bracket_refuted",
    "C114_letters_refuted"
   ],
   "note": "Proved for every address of the form. An IPv6 address without brackets is misread; with the closing bracket missing the server listens on every interface, without the Host check of a loopback address; a scheme in capitals is read as a host; values are not percent-decoded."
  },
  {
   "property": "C115",
   "status": "proved",
   "theorems": [
    "C115_get",
    "C115_list",
    "C115_pages",
    "C115_pages_end",
    "C115_cancel",
    "C115_cancel_late",
    "C115_unsupported",
    "C115_strict"
   ],
   "note": "both directions; the validation of results in strict mode is included."
  },
  {
   "property": "C116",
   "status": "proved",
   "theorems": [
    "C116_result",
    "C116_failure",
    "C116_unknown",
    "C116_waits",
    "C116_tool",
    "C116_tool_result",
    "C116_tool_threw",
    "C116_elicit_result",
    "C116_sample_result",
    "C116_peer_threw",
    "C116_strict"
   ],
   "note": "a failed task is reported as an error object returned as a value, not thrown; the property is stated that way because the code returns it in all cases. Results are JSON values within 64-bit integers and exact doubles (the predicate ok)."
  },
  {
   "property": "C117",
   "status": "partial",
   "theorems": [
    "C117_refuted"
   ],
   "note": "the property is false of the code: no client of this library answers tools/call, so Server::CallToolTask throws 'Method not found' for every client. There is nothing that holds to prove."
  },
  {
   "property": "C118",
   "status": "partial",
   "theorems": [
    "C118_tool_partial",
    "C118_tool_none",
    "C118_tool_refuted",
    "C118_prompt",
    "C118_empty",
    "C118_read"
   ],
   "note": "Server::CallTool drops structuredContent and _meta (refuted, Server.cpp:1961-1971); everything else is proved."
  },
  {
   "property": "C119",
   "status": "partial",
   "theorems": [
    "C119_running",
    "C119_stop_partial",
    "C119_stop_refuted",
    "C119_restart_refuted",
    "C119_own_client_refuted"
   ],
   "note": "the exact condition is proved; three expectations are false of the code: Stop without a transport leaves the server running, Start on a new transport does not reset it, and this library's client never sends notifications/initialized, so IsRunning stays false in every session with it."
  },
  {
   "property": "C120",
   "status": "partial",
   "theorems": [
    "C120_safe",
    "C120_refuted"
   ],
   "note": "proved once a transport was given; without one coSendNotification dereferences a null pointer (Server.cpp:2157-2166)."
  },
  {
   "property": "C121",
   "status": "partial",
   "theorems": [
    "C121_session_partial",
    "C121_tasks_refuted",
    "C121_told_refuted",
    "C121_caps_refuted"
   ],
   "note": "replies outside tasks are independent of earlier clients if the new one names its capabilities; tasks, subscriptions and the level are inherited, and capabilities too when none are named."
  },
  {
   "property": "C122",
   "status": "partial",
   "theorems": [
    "C122_asks",
    "C122_stale_refuted",
    "C122_announced",
    "C122_caps_partial",
    "C122_caps_refuted"
   ],
   "note": "the cache outlives the connection: the old server's lists are served to a caller connected to the new one until it announces; capabilities are kept when the new server names none."
  },
  {
   "property": "C123",
   "status": "partial",
   "theorems": [
    "C123_current",
    "C123_none",
    "C123_elsewhere_refuted",
    "C123_same_text_refuted"
   ],
   "note": "proved on the thread that entered the request; a handler run elsewhere (the worker of a task) is given none, and an integer id and its text cannot be told apart."
  },
  {
   "property": "C124",
   "status": "partial",
   "theorems": [
    "C124_announced",
    "C124_init",
    "C124_no_transport_refuted"
   ],
   "note": "proved for a server with a transport; a server behind HTTPServer announces nothing."
  },
  {
   "property": "C125",
   "status": "proved",
   "theorems": [
    "C125_status",
    "C125_ignored"
   ],
   "note": "cancellations are C40 and C41; the handler is assumed not to throw."
  },
  {
   "property": "C126",
   "status": "partial",
   "theorems": [
    "C126_https_partial",
    "C126_issuer",
    "C126_served",
    "C126_closed",
    "C126_where",
    "C126_name_refuted",
    "C126_scheme_refuted"
   ],
   "note": "the peer's name is checked only when serverName is configured: by default a certificate for any name will do; a scheme not written https in lower case means no TLS. What OpenSSL does with a context is modelled by handshake. The event stream does not look at caInitOk, but then has no roots."
  },
  {
   "property": "C127",
   "status": "partial",
   "theorems": [
    "C127_token_partial",
    "C127_discovery",
    "C127_discovery_asks",
    "C127_authorities_refuted",
    "C127_scheme_refuted"
   ],
   "note": "the token endpoint is held to the system's authorities, not to caFile/caPath, which are passed and not read; HTTPS in capitals sends the secret in the clear."
  },
  {
   "property": "C128",
   "status": "partial",
   "theorems": [
    "C128_host_partial",
    "C128_port_refuted",
    "C128_target"
   ],
   "note": "the Host field never has the port."
  },
  {
   "property": "C129",
   "status": "partial",
   "theorems": [
    "C129_kept",
    "C129_again",
    "C129_wakes",
    "C129_gets",
    "C129_session_unique",
    "C129_off",
    "C129_received",
    "C129_throw_refuted"
   ],
   "note": "the events that follow one whose handler throws in the same read are lost; payloads cut by reads are C50."
  },
  {
   "property": "C130",
   "status": "partial",
   "theorems": [
    "C130_close_partial",
    "C130_after",
    "C130_delay_refuted",
    "C130_silent_refuted"
   ],
   "note": "Close joins the stream's thread, which sleeps the delay a server asked for, up to 2^32 - 1 ms, without looking, and reads without a time limit (the stream's expires_after does not apply to synchronous reads)."
  },
  {
   "property": "C131",
   "status": "partial",
   "theorems": [
    "C131_opens",
    "C131_refuses_partial",
    "C131_reason_refuted"
   ],
   "note": "the status is looked for anywhere in the status line, so a reason that mentions 200 opens a stream."
  },
  {
   "property": "C132",
   "status": "partial",
   "theorems": [
    "C132_in_order",
    "C132_received_partial",
    "C132_errno_refuted",
    "C132_fallback_refuted",
    "C132_file_refuted"
   ],
   "note": "Order and at-most-once hold always; arrival holds while no system call fails and no handler leaves an errno behind. The code violates the rest: n stays -1 in a turn without input, and whatever errno an earlier call left is then taken for a read error (C132_errno_refuted, C132_fallback_refuted); a regular file as standard input is never read (C132_file_refuted)."
  },
  {
   "property": "C133",
   "status": "partial",
   "theorems": [
    "C133_end_partial",
    "C133_pipe_refuted"
   ],
   "note": "Holds for a terminal. The code violates it for a pipe: on a hang-up the loop neither reads what is left nor ends, so unread messages are lost, the connection is held to stand and the error handler is called at every turn."
  },
  {
   "property": "C134",
   "status": "proved",
   "theorems": [
    "C134_only_idle",
    "C134_fires",
    "C134_off"
   ],
   "note": "Checked at the end of every turn whose wait was not interrupted; clock readings are those of the thread."
  },
  {
   "property": "C135",
   "status": "partial",
   "theorems": [
    "C135_close_partial",
    "C135_no_crash",
    "C135_lost_refuted",
    "C135_again_refuted"
   ],
   "note": "Holds in the first life of a transport except for one moment. The code violates it there: connected is cleared and the condition variable notified without the mutex, so the timeout thread can miss it and Close joins it for ever (C135_lost_refuted); and after a restart readerExited is still set, so Close joins a reader that hangs (C135_again_refuted)."
  },
  {
   "property": "C136",
   "status": "partial",
   "theorems": [
    "C136_orderly_partial",
    "C136_closed_destroyed",
    "C136_close_stops",
    "C136_twice_refuted",
    "C136_destroy_refuted",
    "C136_destroy_hangs_refuted",
    "C136_two_readers_refuted",
    "C136_freed_refuted"
   ],
   "note": "Holds when the transport is started and destroyed only while stopped and its threads notice Close within half a second. Otherwise the code violates it: a second Start, or destruction without Close, ends the process or hangs; detached threads go on after Close, beside new ones or on freed memory."
  },
  {
   "property": "C137",
   "status": "partial",
   "theorems": [
    "C137_answers",
    "C137_once",
    "C137_no_deadlock_partial",
    "C137_ends",
    "C137_completes_partial",
    "C137_reader_waits",
    "C137_stdio_refuted",
    "C137_note_refuted"
   ],
   "note": "The values and the single run hold always. That calls return holds where nothing that waits runs on a reading thread: request handlers over the in-memory and shared memory transports. The code violates it elsewhere: over stdio a request handler runs on the thread that would read its answer (C137_stdio_refuted), and on every transport a notification handler does (C137_note_refuted), so they wait until a timeout, and for ever where there is none."
  },
  {
   "property": "C138",
   "status": "partial",
   "theorems": [
    "C138_threaded_partial",
    "C138_stdio_order",
    "C138_stdio_refuted"
   ],
   "note": "Holds over the in-memory and shared memory transports when notification handlers do not wait. The code violates it over stdio: nothing behind a request is read before that request was answered, so a cancellation comes too late, and a handler that hangs is never cancelled."
  },
  {
   "property": "C139",
   "status": "partial",
   "theorems": [
    "C139_order_partial",
    "C139_one_at_a_time",
    "C139_http_refuted"
   ],
   "note": "Holds for the stdio, in-memory and shared memory transports. The code violates it over HTTP: notifications wait for the thread of the event stream, the answer does not (C139_http_refuted)."
  },
  {
   "property": "C140",
   "status": "partial",
   "theorems": [
    "C140_returns_partial",
    "C140_never_stuck",
    "C140_hang_refuted",
    "C140_quiet",
    "C140_handlers_refuted"
   ],
   "note": "Holds if writes to streams return and no handler runs. The code violates it otherwise: a client that does not read its stream keeps Stop waiting for a write for as long as it likes (C140_hang_refuted), and handlers run on after Stop has returned (C140_handlers_refuted)."
  },
  {
   "property": "C141",
   "status": "partial",
   "theorems": [
    "C141_first_partial",
    "C141_restart_refuted",
    "C141_twice_refuted",
    "C141_failed_refuted"
   ],
   "note": "Holds for the first start when nothing was reported to the error handler. The code violates the rest: the io_context is never restarted, so after a stop no start listens or becomes ready (C141_restart_refuted); a start that fails becomes ready like one that works (C141_failed_refuted), and starting again then ends the process (C141_twice_refuted)."
  },
  {
   "property": "C142",
   "status": "partial",
   "theorems": [
    "C142_destroy_partial",
    "C142_open_stream_refuted",
    "C142_handler_refuted"
   ],
   "note": "Holds for a server that was stopped and has no handler running. The code violates the rest: the destructor does not end streams, so it waits for them (C142_open_stream_refuted), and a handler still running after Stop is left with freed members (C142_handler_refuted)."
  },
  {
   "property": "C143",
   "status": "partial",
   "theorems": [
    "C143_listens_partial",
    "C143_error_refuted"
   ],
   "note": "Holds while accepting does not fail. The code violates it then: one failed accept ends the loop for good, with the server still counted as running."
  },
  {
   "property": "C144",
   "status": "partial",
   "theorems": [
    "C144_pile_refuted",
    "C144_stop_partial"
   ],
   "note": "The code violates it: each stream's thread object is kept until Stop; any number of clients that come and go leave that many finished threads. Stop takes all of them."
  },
  {
   "property": "C145",
   "status": "partial",
   "theorems": [
    "C145_progress_partial",
    "C145_finish_partial",
    "C145_ends"
   ],
   "note": "Proved for every number of threads and every schedule, with handlers of tools, resources, completions, sampling and task status calling anything. Missing: prompt handlers, stop callbacks and the error handler that call what may_call does not list for them, for which it is false (C146)."
  },
  {
   "property": "C146",
   "status": "partial",
   "theorems": [
    "C146_handlers_partial",
    "C146_prompt_refuted",
    "C146_stop_refuted",
    "C146_error_refuted"
   ],
   "note": "Holds for handlers of tools, resources, completions, sampling and task status. The code violates it for the rest, which run with a lock held: a prompt handler that uses the registry, a stop callback that hands in a request, and an error handler that sends when the queue is full wait for themselves for ever."
  },
  {
   "property": "C147",
   "status": "partial",
   "theorems": [
    "C147_others_finish_partial",
    "C147_prompt_refuted"
   ],
   "note": "Holds for handlers of tools, resources, completions, sampling and task status. The code violates it for prompt handlers: they run with the registry locked, and while one hangs nothing that uses the registry makes a step."
  },
  {
   "property": "C148",
   "status": "partial",
   "theorems": [
    "C148_guarded_partial",
    "C148_serving_partial",
    "C148_race_refuted"
   ],
   "note": "Holds for the members always_guarded lists, and for every member while a server that is set up serves. The code violates it for the subscriptions (read without the lock when one is removed), for the capabilities of both sides, and for handlers and the validation mode set while the server runs."
  },
  {
   "property": "C149",
   "status": "partial",
   "theorems": [
    "C149_arguments_partial",
    "C149_kept_partial",
    "C149_arguments_refuted"
   ],
   "note": "Holds for every method but GetTaskResult of Server and of Client, which look up the task id they were given by reference after the wait (Server.cpp:2083, Client.cpp:1338): refuted with a temporary. Proved for those two if the argument is kept until the future is ready. The table of what each coroutine touches after the wait is read off the code."
  },
  {
   "property": "C150",
   "status": "proved",
   "theorems": [
    "C150_once",
    "C150_settles",
    "C150_quiet",
    "C150_waits",
    "C150_at_once",
    "C150_stays",
    "C150_threads",
    "C150_threads_grow"
   ],
   "note": "Proved: the promise is set at most once, only after the answer, by a step of the call's own thread that is always possible and leaves the others alone; finished calls hold no thread. When no thread can go on, every answered call is settled. Not modelled: the failure of std::thread to start, and the values (those are in C103 to C118). Each pending call holds a thread of its own."
  },
  {
   "property": "C151",
   "status": "partial",
   "theorems": [
    "C151_outlives_partial",
    "C151_kinds_partial",
    "C151_closing_refuted",
    "C151_answered_refuted"
   ],
   "note": "Refuted: the thread that goes on with a call reads validationMode, the caches, the outbound tasks or taskWorkers of the object, and nothing keeps the object alive or waits for the thread. Proved: safe once all futures are ready, and at any time for the twenty methods that touch nothing after the wait; if the request failed or the future threw only the listed methods touch the object."
  },
  {
   "property": "C152",
   "status": "partial",
   "theorems": [
    "C152_only_frames_partial",
    "C152_read_partial",
    "C152_quiet_partial",
    "C152_deaf_refuted"
   ],
   "note": "Holds when MCP_STDIO_MODE is 1, true or TRUE, or when nothing logged reaches the threshold. Otherwise the code violates it: entries go to std::cout, and the default threshold INFO lets through the entry that Start itself makes. C152_deaf_refuted: any entry between messages makes the reader of this library lose every later message, with no error."
  },
  {
   "property": "C153",
   "status": "partial",
   "theorems": [
    "C153_lines_partial",
    "C153_same",
    "C153_names",
    "C153_forged_refuted"
   ],
   "note": "Proved for entries without line breaks. Texts are not escaped: a text from the other side (the id of a cancellation, Server.cpp:1152) can make what looks like another entry. Not modelled: the Windows parts, the banner of setLogFile."
  },
  {
   "property": "C154",
   "status": "proved",
   "theorems": [
    "C154_own_answer",
    "C154_once"
   ],
   "note": "For messages the router tells apart (C13, C14), refusals whose text needs no escapes (C83) and requests with different ids. The error of the client is one of its three texts, with the request's id; a request made while not connected gets the fourth and is never sent."
  },
  {
   "property": "C155",
   "status": "proved",
   "theorems": [
    "C155_answered"
   ],
   "note": "Under the conditions of C154, and when both ends fit: the server lets the Host and Authorization headers pass, the paths agree, and with an endpoint the POST names a session the server knows, or is initialize and names none."
  },
  {
   "property": "C156",
   "status": "proved",
   "theorems": [
    "C156_known",
    "C156_accepted",
    "C156_initialized",
    "C156_names"
   ],
   "note": "Under the stated exclusions, and when the version asked for in initialize is one the server takes for the client's header. Without them sessions end for good: the client does not initialize again (C100, C101)."
  },
  {
   "property": "C157",
   "status": "proved",
   "theorems": [
    "C157_own_answer",
    "C157_once",
    "C157_tickets"
   ],
   "note": "For messages the router tells apart (C13, C14), requests with different ids, and when nobody but the client posts responses (C159 has what happens otherwise). What the client reads of a stream is what the server wrote, event by event (C49, C50); the events of a stream are read in order, each once."
  },
  {
   "property": "C158",
   "status": "proved",
   "theorems": [
    "C158_heard",
    "C158_completed"
   ],
   "note": "Under the conditions of C157, and when both ends fit as in C155. That the POST names the session is what C156 gives while the session lasts."
  },
  {
   "property": "C159",
   "status": "partial",
   "theorems": [
    "C159_completer_partial",
    "C159_forged_refuted"
   ],
   "note": "The code does not check who posts an answer: C159_forged_refuted has a stranger with another admitted token, who knows the number of the session (one of 9000, C51_names_run_out), complete a request the client never saw. Proved without assumptions on what is posted: whoever completes a request names the session it was sent on, has an admitted token when authentication is on, and gives a response with the id of that very request."
  },
  {
   "property": "C160",
   "status": "partial",
   "theorems": [
    "C160_returns_partial",
    "C160_throws",
    "C160_strict",
    "C160_lost_refuted",
    "C160_no_message_refuted",
    "C160_named_refuted"
   ],
   "note": "The code violates the last part unless the client is strict: a lost reply, a response with neither result nor error and an error without a message all become an empty result whose error flag is false (C160_lost_refuted, C160_no_message_refuted). A valid result of another server that also has members code and message is thrown as an error (C160_named_refuted). Proved: what this server's tools return or throw arrives, every error of this server is thrown with its message, and a strict client returns valid content only. A strict client is promised the result if no object in the content has two members of the same name."
  },
  {
   "property": "C161",
   "status": "partial",
   "theorems": [
    "C161_prompt_partial",
    "C161_read_partial",
    "C161_throws",
    "C161_strict",
    "C161_lost_refuted"
   ],
   "note": "As C160: a client that is not strict turns a lost reply into an empty prompt or empty contents (C161_lost_refuted)."
  },
  {
   "property": "C162",
   "status": "partial",
   "theorems": [
    "C162_prefix_partial",
    "C162_never",
    "C162_ends",
    "C162_capped",
    "C162_endless_refuted",
    "C162_silent_refuted"
   ],
   "note": "The code violates two parts. A stopped read returns like a complete one, and the result does not say which it is (C162_silent_refuted). Without a stop a server that answers every window with text keeps the read going for ever (C162_endless_refuted). Proved: prefix, pieces within chunk size and limit, whole text unless stopped, nothing fetched after the loop has seen the stop, the end after a stop for every server, and the size asked for. Chunk sizes and texts below 2^63 as in C35. The token is an oracle for what each look at it sees."
  },
  {
   "property": "C163",
   "status": "partial",
   "theorems": [
    "C163_destroy_partial",
    "C163_lost_refuted",
    "C163_closed_refuted"
   ],
   "note": "The code violates it: connected is cleared and the thread notified without the mutex of its condition variable, so a thread that has just found its queue empty falls asleep after the notification and the destructor waits for ever, with or without Close before. Proved: in every other case the destructor returns in every schedule that gives it and the thread six turns."
  },
  {
   "property": "C164",
   "status": "partial",
   "theorems": [
    "C164_start_partial",
    "C164_close_ends_partial",
    "C164_awake_partial",
    "C164_one_thread",
    "C164_twice_refuted",
    "C164_restart_refuted",
    "C164_two_refuted"
   ],
   "note": "The code violates it: Start waits for the thread of the last Start without waking it. Start twice, and Start soon after Close, may never return, and meanwhile two threads deliver. Proved: Start works once the last thread has ended, that thread ends after Close unless it fell asleep as in C163, and outside Start there is one thread."
  },
  {
   "property": "C165",
   "status": "partial",
   "theorems": [
    "C165_careful_partial",
    "C165_peer_refuted",
    "C165_job_refuted",
    "C165_within_refuted"
   ],
   "note": "The code violates it: each end keeps a plain pointer to the other, request handlers run in detached threads that use their transport, and a notification handler that destroys its transport terminates the process. Proved: an application that lets both ends become idle before it destroys one, and does not use the other afterwards, is safe."
  },
  {
   "property": "C166",
   "status": "partial",
   "theorems": [
    "C166_partial",
    "C166_late_refuted",
    "C166_stale_refuted"
   ],
   "note": "The code violates it: one message that was already taken from the queue is still handed over, and queued messages survive Close and are delivered after the next Start. Proved: after Close at most one more."
  },
  {
   "property": "C167",
   "status": "partial",
   "theorems": [
    "C167_returns_partial",
    "C167_stopped_partial",
    "C167_within_refuted",
    "C167_destroy_refuted",
    "C167_job_refuted"
   ],
   "note": "The code violates it: Close within a notification handler ignores the failed join and returns with the thread running, and the Start after it is undone by that thread; destruction within a handler terminates the process; a request handler runs in a detached thread that uses the transport after its destruction. Proved: called by the owner, both return in every schedule that gives them and the thread ten turns, and then no processing thread is left and no request waits."
  },
  {
   "property": "C168",
   "status": "partial",
   "theorems": [
    "C168_told_partial",
    "C168_creator_refuted",
    "C168_full_refuted"
   ],
   "note": "The code violates it: only a creator says goodbye, so a creator never learns that its peer has gone, which is proved for all schedules, and a goodbye that does not fit in the queue is dropped. Proved: with one opener and room in the queue the opener is disconnected and its requests fail after as many turns as there are messages before the goodbye, times three, plus four."
  },
  {
   "property": "C169",
   "status": "partial",
   "theorems": [
    "C169_joins_partial",
    "C169_bystander_refuted",
    "C169_second_refuted",
    "C169_shared_refuted"
   ],
   "note": "The code violates it: a creator removes the names when it is destroyed even if it never started, a second creator takes them over unseen, and several openers share one queue, so one takes the answers of another. Proved: with a single creator that is not closed from its handler, whoever opens the channel while it is connected is connected to it."
  },
  {
   "property": "C170",
   "status": "partial",
   "theorems": [
    "C170_creator_partial",
    "C170_opener_partial",
    "C170_twice_refuted",
    "C170_silent_refuted",
    "C170_absent_refuted"
   ],
   "note": "The code violates it: Start without Close replaces the queue a thread is waiting on, or is undone by the last thread, which clears connected on its way out; Start of an opener without a channel returns as if all were well. Proved: Start of a transport whose last thread is gone, as after Close, returns connected with one thread, for a creator in every schedule, for an opener while the channel exists and before its thread takes the first message."
  },
  {
   "property": "C171",
   "status": "partial",
   "theorems": [
    "C171_fixed_partial",
    "C171_data_partial",
    "C171_parts_refuted",
    "C171_forged_refuted"
   ],
   "note": "The code violates it: the items have no type member, so every read by offset or length is refused; an id with a quotation mark is written unescaped and makes another document. Proved: every whole read gives uri, type and content, and the data is the document of the id for all ids without quotation marks, backslashes and control characters."
  },
  {
   "property": "C172",
   "status": "proved",
   "theorems": [
    "C172_answered",
    "C172_constant",
    "C172_cancelled",
    "C172_quiet"
   ],
   "note": "For all arguments, client answers, failures and cancellation patterns, on a server with any earlier registrations. The handlers are part of the model; the pauses inside them are the moments at which the stop token may change."
  },
  {
   "property": "C173",
   "status": "proved",
   "theorems": [
    "C173_log",
    "C173_progress"
   ],
   "note": "The steps as sent, and joined with the model of the client for progress."
  },
  {
   "property": "C174",
   "status": "partial",
   "theorems": [
    "C174_sampling_partial",
    "C174_elicit_partial",
    "C174_defaults_partial",
    "C174_enums_partial",
    "C174_sampling_refuted",
    "C174_elicit_refuted"
   ],
   "note": "The code violates it: a sampling or elicitation that fails, or that no one can answer, is reported as a success with an empty response. Proved: joined with the model of the client, the handlers get the prompt, the message and the schema asked for, and the answer is theirs."
  },
  {
   "property": "C175",
   "status": "partial",
   "theorems": [
    "C175_simple_partial",
    "C175_arguments_partial",
    "C175_resource_partial",
    "C175_image_partial",
    "C175_completion_partial",
    "C175_required_refuted"
   ],
   "note": "The code violates it: arguments declared as required may be missing, and the prompt is made with empty texts. Proved: the messages with the arguments as given, and the completion."
  },
  {
   "property": "C176",
   "status": "partial",
   "theorems": [
    "C176_returns_partial",
    "C176_clean_partial",
    "C176_quiet_partial",
    "C176_after_partial",
    "C176_handler_refuted",
    "C176_pending_refuted",
    "C176_stream_handler_refuted",
    "C176_notes_refuted",
    "C176_late_thread_refuted",
    "C176_restart_refuted",
    "C176_again_refuted"
   ],
   "note": "The code violates it: in a handler on the i/o thread Close waits for a DELETE that this thread would have to send, for ever, or without a DELETE fails to join itself and leaves the requests pending; in a handler on the event-stream thread it fails at once and the transport stays connected; futures of notifications are not completed; the event-stream thread can be started while Close runs; after Close and Start nothing is sent and a second Close hangs. Proved: called by the application, without a Start after Close, it returns in every fair schedule; then no i/o thread, all requests completed, and no handler ever called again."
  },
  {
   "property": "C177",
   "status": "partial",
   "theorems": [
    "C177_ends_partial",
    "C177_frees_partial",
    "C177_clean_partial",
    "C177_broken_refuted",
    "C177_handler_refuted",
    "C177_race_refuted"
   ],
   "note": "The code violates it: pending requests get broken promises; in a handler the process ends; without Close, while the answer to initialize is worked on, the event-stream thread can be started after the destructor has looked for it, and the process ends. Proved: run by the application the destructor ends in every fair schedule, well if there is no event stream or after Close, and then there are no threads and no open futures."
  },
  {
   "property": "C178",
   "status": "partial",
   "theorems": [
    "C178_plain_partial",
    "C178_tls_refuted"
   ],
   "note": "The code violates it: after every exchange over TLS the i/o thread waits synchronously for the peer to end the connection; meanwhile nothing is delivered or sent and Close does not return. Proved without TLS, for all schedules in which the i/o thread and the handlers get their turns, unless Close or the destructor interrupts."
  },
  {
   "property": "C179",
   "status": "partial",
   "theorems": [
    "C179_reads_partial",
    "C179_last_partial",
    "C179_one_meaning",
    "C179_pairs_refuted",
    "C179_integers_refuted"
   ],
   "note": "The code violates it: every code point above 65535 written as a pair of escapes is read as two encoded surrogates, and integers beyond 64 bits are read as null. Proved for everything else in the grammar (an independent inductive definition with the value of each text), with the last of equal names counting; the grammar is shown unambiguous."
  },
  {
   "property": "C180",
   "status": "partial",
   "theorems": [
    "C180_nearest_partial",
    "C180_integer_partial",
    "C180_one_nearest",
    "C180_small_refuted",
    "C180_great_refuted"
   ],
   "note": "The code violates it out of range: numbers from 2^1024-2^970 on and inexact ones below 2^-1022 are read as null. Proved for all others, in integer arithmetic in units of 2^-1074; std::stod is modelled as correctly rounding."
  },
  {
   "property": "C181",
   "status": "partial",
   "theorems": [
    "C181_writes_partial",
    "C181_names_refuted",
    "C181_nan_refuted",
    "C181_digits_refuted"
   ],
   "note": "The code violates it: names are not escaped, doubles get six decimals, infinities and NaN are written as inf and nan. Proved for all other values."
  },
  {
   "property": "C182",
   "status": "partial",
   "theorems": [
    "C182_accepts_partial",
    "C182_liberties_refuted"
   ],
   "note": "The code violates it: plus signs, leading zeros, missing digits, missing values, raw control bytes and unterminated strings are accepted. Proved: what is accepted is JSON up to a list of liberties given as a second grammar, with the value of each text."
  },
  {
   "property": "C183",
   "status": "partial",
   "theorems": [
    "C183_in_order_partial",
    "C183_delivered_partial",
    "C183_connected",
    "C183_request_refuted"
   ],
   "note": "Holds for every receiving end that has a request handler. The code violates it for one that has none: a request is handed to the notification handler as a notification nobody sent, and is never answered."
  },
  {
   "property": "C184",
   "status": "partial",
   "theorems": [
    "C184_reported_partial",
    "C184_documents_partial",
    "C184_silent_refuted"
   ],
   "note": "The code violates it for a reply whose access_token is the empty string: no header is sent and nothing is reported. Proved for all other replies, of any bytes, and for JSON replies in any layout in which no value mentions the name of the field."
  },
  {
   "property": "C185",
   "status": "proved",
   "theorems": [
    "C185_no_effect",
    "C185_told",
    "C185_stream"
   ],
   "note": "C185_told lists every refusal but those of the guard and of the token check, which C45, C46 and C48 are about."
  },
  {
   "property": "C186",
   "status": "partial",
   "theorems": [
    "C186_alive_partial",
    "C186_quiet_partial",
    "C186_ends_partial",
    "C186_stopped_partial",
    "C186_live_refuted",
    "C186_task_refuted",
    "C186_stopped_refuted"
   ],
   "note": "Holds when the transport is closed and no handler runs, whatever the background tasks and the keepalive thread do; so also after Stop, on the transports whose Close waits for the handlers. The code violates it otherwise: neither destructor closes the transport before the other members go, and after Stop on a transport that runs requests in detached threads a handler may still run."
  },
  {
   "property": "C187",
   "status": "partial",
   "theorems": [
    "C187_rest_partial",
    "C187_stays_partial",
    "C187_returns_partial",
    "C187_late_refuted",
    "C187_self_refuted"
   ],
   "note": "Holds for transports whose Close waits for the handlers, when called from outside the background tasks. The code violates it on the in-memory and shared-memory transports, which run requests in detached threads, and when a background task stops the server itself and waits: it waits for its own end."
  },
  {
   "property": "C188",
   "status": "proved",
   "theorems": [
    "C188_written",
    "C188_read",
    "C188_order"
   ],
   "note": "gmtime_r is taken to return what ISO C and POSIX say. C188_earlier shows that a clock set before 1970 gives text of another form."
  },
  {
   "property": "C189",
   "status": "partial",
   "theorems": [
    "C189_updated_partial",
    "C189_created_partial",
    "C189_back_refuted"
   ],
   "note": "Proved while the clock is not set back. The code reads the system clock, which may be, and then violates it."
  },
  {
   "property": "C190",
   "status": "partial",
   "theorems": [
    "C190_opened_partial",
    "C190_version_partial",
    "C190_used_partial",
    "C190_unfit_partial",
    "C190_failed_refuted"
   ],
   "note": "All but the last part proved. The code opens the session before the handler runs and keeps it when the handler answers with an error (refuted)."
  },
  {
   "property": "C191",
   "status": "proved",
   "theorems": [
    "C191_awaited",
    "C191_unawaited"
   ],
   "note": ""
  },
  {
   "property": "C192",
   "status": "proved",
   "theorems": [
    "C192_served"
   ],
   "note": "For servers and scopes without characters that JSON escapes, as C83 shows is needed."
  },
  {
   "property": "C193",
   "status": "partial",
   "theorems": [
    "C193_reports_partial",
    "C193_none_partial",
    "C193_cleared_refuted"
   ],
   "note": "Proved but for one thing: taking the error handler away leaves it with the auth object (refuted). One transport per auth object."
  },
  {
   "property": "C194",
   "status": "proved",
   "theorems": [
    "C194_fields",
    "C194_once",
    "C194_token"
   ],
   "note": "basic_fields::set of boost is modelled as it is documented."
  },
  {
   "property": "C195",
   "status": "partial",
   "theorems": [
    "C195_last_partial",
    "C195_none_partial",
    "C195_stream_refuted"
   ],
   "note": "Proved for POST and DELETE; the response to the GET of the event stream is not kept (refuted). A status of 000, which no server sends, is left out."
  },
  {
   "property": "C196",
   "status": "partial",
   "theorems": [
    "C196_progress_partial",
    "C196_finish_partial",
    "C196_ends"
   ],
   "note": "Client on the stdio transport. Proved for callbacks of which the error handler calls nothing that sends (C197_error_refuted). Waits for conditions, answers and threads are not waits for locks and are left out (C135, C137, C186)."
  },
  {
   "property": "C197",
   "status": "partial",
   "theorems": [
    "C197_handlers_partial",
    "C197_error_refuted"
   ],
   "note": "Proved but for the error handler: when it is told that the write queue is full, every method that sends never returns (refuted)."
  },
  {
   "property": "C198",
   "status": "partial",
   "theorems": [
    "C198_others_finish_partial",
    "C198_error_refuted",
    "C198_stop_refuted"
   ],
   "note": "Proved but for the error handler and stop callbacks, which the library runs with a lock held (both refuted)."
  },
  {
   "property": "C199",
   "status": "partial",
   "theorems": [
    "C199_guarded_partial",
    "C199_set_up_partial",
    "C199_race_refuted"
   ],
   "note": "Proved for the members a lock guards, and for each other member while nobody calls what sets it; the setters race with the messages of the server (refuted)."
  },
  {
   "property": "C200",
   "status": "partial",
   "theorems": [
    "C200_kept_partial",
    "C200_itself_refuted"
   ],
   "note": "Proved for handlers that nobody replaces; a handler of any kind that replaces or removes itself destroys the function that runs (refuted)."
  },
  {
   "property": "C201",
   "status": "partial",
   "theorems": [
    "C201_prompts_partial",
    "C201_kept_partial",
    "C201_itself_refuted"
   ],
   "note": "Proved for prompt handlers, whatever is called (they run in place, with the registry locked), and for handlers of completions, sampling, task status and errors that nobody replaces; such a handler that replaces itself destroys the function that runs (refuted). Handlers of tools, resources and templates are run from copies made under the lock (read off the code, not a theorem)."
  },
  {
   "property": "C202",
   "status": "partial",
   "theorems": [
    "C202_asked",
    "C202_forward",
    "C202_plain",
    "C202_told",
    "C202_heard_partial",
    "C202_told_refuted",
    "C202_stored_refuted",
    "C202_back_refuted"
   ],
   "note": "Calls that ask the server return a list of a moment within the call and never go back (so all calls, as long as no time to live is set); notifications handled never exceed changes made and equal them when none is owed or under way. With the cache the claim holds as long as no notification is handled while a list call is under way; otherwise it is refuted: an answer read before the change is cached after its notification, on either side of the wire, and lists go back."
  },
  {
   "property": "C203",
   "status": "partial",
   "theorems": [
    "C203_updates_partial",
    "C203_below_partial",
    "C203_above_partial",
    "C203_once",
    "C203_late_log_refuted",
    "C203_late_update_refuted",
    "C203_overlap_refuted"
   ],
   "note": "Proved for notifications that the server begins after the client has received all answers, with the requests carried out in the order sent (the client waits, or the server takes them in order as over stdio); no notification arrives twice. Refuted: one begun earlier may arrive after the answer; requests sent without waiting may, over the in-memory and shared-memory transports, be carried out in the other order. Levels as in C38."
  },
  {
   "property": "C204",
   "status": "partial",
   "theorems": [
    "C204_failed_partial",
    "C204_reached_partial",
    "C204_same_partial",
    "C204_escapes",
    "C204_noise_refuted",
    "C204_throws_refuted"
   ],
   "note": "A failure is reported with its reason, a reply without a token once, a token not as an error; a handler that does not throw changes nothing, and no exception but the handler's own leaves the fetch. Refuted: one failure on the network makes two reports (C204_failed_partial), every successful fetch makes four or five reports of no error through the error handler, and a handler that throws at one of those loses the token."
  },
  {
   "property": "C205",
   "status": "partial",
   "theorems": [
    "C205_tools_partial",
    "C205_resources_partial",
    "C205_templates_partial",
    "C205_prompts_partial",
    "C205_ends",
    "C205_skipped_refuted",
    "C205_twice_refuted",
    "C205_refuted"
   ],
   "note": "Pages show entries of their moment, and the walk ends after at most size / n + 1 pages. An entry that is there throughout is found if no name before it in byte order is lost on the way, and no name is found twice if no name before it is new on the way. Without these conditions the claim is refuted: cursors are places in the sorted list, so unregistering an earlier entry leaves one out and registering an earlier one repeats one. Fewer than 2^63 calls."
  },
  {
   "property": "C206",
   "status": "partial",
   "theorems": [
    "C206_once",
    "C206_quiet",
    "C206_session_told",
    "C206_stream_told",
    "C206_stopped_partial",
    "C206_stopped_refuted",
    "C206_alive_partial",
    "C206_throws_refuted",
    "C206_apart_partial",
    "C206_blocked",
    "C206_freed",
    "C206_apart_refuted"
   ],
   "note": "Reports: at most once per connection, never for hang-ups, always with kind and reason for other failures while the server runs and a handler is set. After stop nothing is reported except std::exceptions other than system_error in the thread of a stream (refuted). No failure ends the program unless the error handler throws when a stream fails (refuted). Without TLS a connection depends on nothing but the events about it and the server; with TLS this is refuted: the synchronous TLS shutdown runs on the only i/o thread, so a client that does not answer it stops all others."
  },
  {
   "property": "C207",
   "status": "proved",
   "theorems": [
    "C207_built",
    "C207_either",
    "C207_prompt",
    "C207_texts"
   ],
   "note": "Values arrive up to the order of object members at every depth, as in C77."
  },
  {
   "property": "C208",
   "status": "partial",
   "theorems": [
    "C208_whole_partial",
    "C208_fails",
    "C208_ends_partial",
    "C208_first_only",
    "C208_cut_refuted",
    "C208_none_refuted",
    "C208_refuted",
    "C208_endless_refuted"
   ],
   "note": "Holds if every reply is a page, or with strict checking if no reply is an error. The code violates the rest: an error in reply to a page ends the list as if it were complete (on the first page: an empty list), ListTools and its siblings return the first page only, and a server that always gives a cursor is asked for ever."
  },
  {
   "property": "C209",
   "status": "partial",
   "theorems": [
    "C209_pieces",
    "C209_growing_partial",
    "C209_ends",
    "C209_steady",
    "C209_torn_refuted",
    "C209_refuted"
   ],
   "note": "Holds of texts that only grow at their end: the text of the last request is returned. Each piece is always from the text of its own moment, at the right place, and the read ends. The code violates the rest: nothing ties the pieces to one version, so a text replaced meanwhile is returned half old and half new."
  },
  {
   "property": "C210",
   "status": "partial",
   "theorems": [
    "C210_written_partial",
    "C210_level",
    "C210_kept",
    "C210_opened",
    "C210_mute",
    "C210_refuted"
   ],
   "note": "Holds as long as no write to the file has failed. The code violates the rest: the stream keeps its error state, so after one failed write nothing is written to the file until setLogFile is called again."
  },
  {
   "property": "C211",
   "status": "partial",
   "theorems": [
    "C211_order",
    "C211_sent",
    "C211_refused",
    "C211_taken_partial",
    "C211_answer_partial",
    "C211_opener_refuted",
    "C211_reply_refuted"
   ],
   "note": "The code violates it: an opener whose size is below that of the creator never receives anything and is disconnected by its first attempt to (C211_opener_refuted), and an answer that is too large is dropped, so that the request stays open (C211_reply_refuted, C211_ex_reply). The size checks of boost::interprocess::message_queue (a receive into a buffer smaller than the size of the queue throws, as does a send of a longer message) are assumed: the library is not in this sandbox and its source was not read. No wrong programs were tried against these theorems."
  }
 ]
}