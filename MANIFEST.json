{
 "claims": [
  {
   "property": "C01",
   "status": "proved",
   "theorems": [
    "C01_accepted_header",
    "C01_written_header",
    "C01_unit"
   ],
   "note": "ranges.py, default ascending mode, arbitrary header strings and headers written from numbers"
  },
  {
   "property": "C02",
   "status": "partial",
   "theorems": [
    "C02_suffix_refuted",
    "C02_suffix_off_by_one_partial"
   ],
   "note": "The full statement is false of the code: 'bytes=-N' selects N+1 bytes; the exact behaviour is proved"
  },
  {
   "property": "C03",
   "status": "partial",
   "theorems": [
    "C03_unordered_partial",
    "C03_size_refuted",
    "C03_disjoint_refuted",
    "C03_refuted"
   ],
   "note": "Coverage, order and bounds proved for every header; disjointness at the last byte and size under merging are false of the code"
  },
  {
   "property": "C04",
   "status": "proved",
   "theorems": [
    "C04_file_or_slice",
    "C04_written_range",
    "C04_beyond_end",
    "C04_stale_if_range",
    "C04_head"
   ],
   "note": "FileResponse.__call__, full file / single range / HEAD, body and zerocopysend modes; pathsend delegates the bytes to the server"
  },
  {
   "property": "C05",
   "status": "partial",
   "theorems": [
    "C05_refuted",
    "C05_parts_partial"
   ],
   "note": "Content-Length of a multipart/byteranges response is always wrong (counts only the slices) and no closing delimiter is sent; the exact body is proved"
  },
  {
   "property": "C06",
   "status": "proved",
   "theorems": [
    "C06_stream_complete",
    "C06_stream_cut",
    "C06_stream_raises",
    "C06_header_only",
    "C06_other_methods"
   ],
   "note": "StreamingResponse.stream and __call__; the disconnect task's schedule is the number of messages sent before it is noticed"
  },
  {
   "property": "C07",
   "status": "partial",
   "theorems": [
    "C07_event_name_refuted",
    "C07_to_wire_partial",
    "C07_single_line_data_partial",
    "C07_multiline_data_partial"
   ],
   "note": "Full statement refuted: an event name or id with a line break forges fields. Proved for every data string when event name and id are single-line."
  },
  {
   "property": "C08",
   "status": "partial",
   "theorems": [
    "C08_refuted",
    "C08_forged_event_refuted",
    "C08_encode_partial"
   ],
   "note": "Full statement refuted: data with line breaks forges events. Proved for single-line field values, every separator and parser state."
  },
  {
   "property": "C09",
   "status": "partial",
   "theorems": [
    "C09_late_first_ping_refuted",
    "C09_ping_during_final_refuted",
    "C09_timeout_refuted",
    "C09_shape_partial",
    "C09_quiet_end_partial",
    "C09_no_ping_partial"
   ],
   "note": "Full statement refuted by three schedules. Proved: shape of the trace on every schedule without timeout; complete response with pings disabled or on schedules with a quiet end."
  },
  {
   "property": "C10",
   "status": "partial",
   "theorems": [
    "C10_trailing_newline_refuted",
    "C10_match_partial",
    "C10_exact_partial",
    "C10_spelling",
    "C10_duplicate_names"
   ],
   "note": "Full statement refuted: the pattern is anchored with $, so an instance followed by one newline also matches. Proved exactly for every template and every path not ending in a newline; captures are unique for unambiguous templates."
  },
  {
   "property": "C100",
   "status": "proved",
   "theorems": [
    "C100_all_run",
    "C100_in_order",
    "C100_one_by_one",
    "C100_after_response"
   ],
   "note": "A relation gives the possible runs; awaits within a task are not modelled. Response.__call__ only."
  },
  {
   "property": "C101",
   "status": "partial",
   "theorems": [
    "C101_emit_partial",
    "C101_only_its_own",
    "C101_refuted",
    "C101_blocking_refuted"
   ],
   "note": "Refuted: keyword arguments a listener declares by name are dropped; for a function with **kwargs emit raises. Proved without keyword arguments, or for coroutine functions with **kwargs. The lock and concurrency of listeners are C300 to C302."
  },
  {
   "property": "C102",
   "status": "partial",
   "theorems": [
    "C102_basic_partial",
    "C102_only",
    "C102_refuted",
    "b64_round_trip",
    "b64_chars"
   ],
   "note": "Refuted: a name or password with a character outside ASCII is answered 401. Proved for ASCII texts; base64 is modelled with CPython's lenient decoder."
  },
  {
   "property": "C103",
   "status": "partial",
   "theorems": [
    "C103_bearer",
    "C103_digest",
    "C103_base",
    "C103_whole",
    "C103_api_key",
    "C103_oauth2_partial",
    "C103_oauth2_refuted"
   ],
   "note": "Refuted: the OAuth2 bearer schemes accept the header 'Bearer' without a token. The rest is proved in both directions."
  },
  {
   "property": "C104",
   "status": "partial",
   "theorems": [
    "C104_challenge",
    "C104_optional_partial",
    "C104_optional_refuted"
   ],
   "note": "Refuted: HTTP Basic answers 401 to unreadable credentials and HTTP Digest to another scheme although auto_error is off. Proved for all other cases."
  },
  {
   "property": "C105",
   "status": "proved",
   "theorems": [
    "C105_json_written"
   ],
   "note": "Python's json module is modelled; floats are represented by their literals, and values that need an encoder are left out."
  },
  {
   "property": "C106",
   "status": "partial",
   "theorems": [
    "C106_json_read_partial",
    "C106_one_value",
    "C106_refuted"
   ],
   "note": "Refuted: the words NaN, Infinity and -Infinity and half surrogate pairs are accepted. Proved: every JSON text is read as its value, and whatever is read is in the grammar with just these two additions. UTF-16 and UTF-32 bodies are not modelled."
  },
  {
   "property": "C107",
   "status": "proved",
   "theorems": [
    "C107_ndjson_lines"
   ],
   "note": "Rows are JSON values; the order of events is that of the loop."
  },
  {
   "property": "C108",
   "status": "proved",
   "theorems": [
    "C108_newest",
    "C108_call_only",
    "C108_native",
    "C108_unknown"
   ],
   "note": "Encoders are arbitrary; one context (ENCODER_TYPES is a variable)."
  },
  {
   "property": "C109",
   "status": "partial",
   "theorems": [
    "C109_restored_partial",
    "C109_refuted",
    "C109_class_partial",
    "C109_class_refuted"
   ],
   "note": "Refuted: a dataclass inside a dataclass comes back as a dict; apply_structure(list, a set) returns the set. Proved for values whose parts are plain JSON and for the class of results on JSON input; UUID texts, ISO dates and base64 are modelled. Paths, timedeltas and aware datetimes are left out."
  },
  {
   "property": "C11",
   "status": "partial",
   "theorems": [
    "C11_placeholder_refuted",
    "C11_slashes_refuted",
    "C11_roundtrip_partial",
    "C11_rendered_partial",
    "C11_wrong_names"
   ],
   "note": "Full statement refuted: values containing another placeholder or repeated slashes. Proved for brace-free values whose path is canonical, floats included (those that 20 decimals tell apart)."
  },
  {
   "property": "C110",
   "status": "partial",
   "theorems": [
    "C110_exclude_partial",
    "C110_idempotent",
    "C110_refuted"
   ],
   "note": "Refuted: None in a dataclass stays, since it is turned into a dict after the exclusion. Proved for all built-in containers."
  },
  {
   "property": "C111",
   "status": "partial",
   "theorems": [
    "C111_filename_partial",
    "C111_slash_refuted",
    "C111_other_types",
    "C111_header_kept"
   ],
   "note": "Refuted: a name with '/' that also needs escapes is sent with a raw '/' in the extended value, which RFC 5987 does not allow. Proved: the exact set of names a strict client reads back, that a client which puts up with '/' reads every name, and that the header never holds anything but printable ASCII. An inline response drops the name."
  },
  {
   "property": "C112",
   "status": "partial",
   "theorems": [
    "C112_document_partial",
    "C112_escaping_refuted",
    "C112_list_refuted",
    "C112_injection_refuted",
    "C112_passed_on"
   ],
   "note": "Refuted: nothing is escaped, so that texts break the document or add elements to it; a top-level list gives several root elements. Proved for names as keys and texts that need no escapes."
  },
  {
   "property": "C113",
   "status": "partial",
   "theorems": [
    "C113_text_partial",
    "C113_transformed_refuted",
    "C113_values",
    "C113_falsy"
   ],
   "note": "Refuted: built through make_response a text keeps JSON's backslash escapes and loses a quote at its end. Proved for plain texts, for all texts without transformation and for all other values."
  },
  {
   "property": "C114",
   "status": "partial",
   "theorems": [
    "C114_match_partial",
    "C114_others",
    "C114_case_refuted",
    "C114_ipv6_refuted"
   ],
   "note": "Refuted in full: host names are compared with their case, and IPv6 hosts are cut at their first colon, so a route for one address serves all addresses with the same first group. Proved for templates whose last text has no colon and hosts without colon not ending in a newline, with any ports."
  },
  {
   "property": "C115",
   "status": "partial",
   "theorems": [
    "C115_roundtrip_partial",
    "C115_named_partial",
    "C115_one_parameter",
    "C115_delimited",
    "C115_missing_refuted",
    "C115_colon_refuted"
   ],
   "note": "Refuted in full: a host parameter that is not given is not noticed and its placeholder stays in the host; a value with a colon gives a host the route does not serve. Proved with values for all parameters, through any chain of mounts, and back when the host can be read in one way (shown for one parameter and for delimited parameters) and has no colon."
  },
  {
   "property": "C116",
   "status": "partial",
   "theorems": [
    "C116_self_refuted",
    "C116_closure_refuted",
    "C116_argument_refuted",
    "C116_result_refuted",
    "C116_own_partial",
    "C116_function_partial"
   ],
   "note": "Refuted in full: a first argument that has an attribute named like the function is left out of the key, functions made by one def share their keys, a date and its text share a key, tuples come back as lists. Proved for plain JSON arguments and results, functions with distinct full names, a first argument without such an attribute; or else a collision of md5 is exhibited."
  },
  {
   "property": "C117",
   "status": "partial",
   "theorems": [
    "C117_async",
    "C117_sync_refuted",
    "C117_sync_partial"
   ],
   "note": "Proved for asynchronous functions with the arguments and names of C116. Refuted for synchronous ones: they share one lock that is held while the function runs, so that nested cached calls never return. Proved for synchronous functions that call no cached function."
  },
  {
   "property": "C118",
   "status": "partial",
   "theorems": [
    "C118_none_refuted",
    "C118_single_refuted",
    "C118_live_partial"
   ],
   "note": "Refuted in full: a result None is never found again, and the lock of the asynchronous wrapper is new for each call, so that overlapping calls all run. Proved for other plain results after a completed run, whatever happens in between."
  },
  {
   "property": "C119",
   "status": "partial",
   "theorems": [
    "C119_life_refuted",
    "C119_life_partial",
    "C119_race_refuted",
    "C119_loop_refuted",
    "C119_ended_partial",
    "C119_idle_partial",
    "C119_method_refuted",
    "C119_method_partial"
   ],
   "note": "Refuted in full: ttl=0 means for ever, a run in progress stores its result after the invalidation, invalidate does nothing within a running event loop, and for bound methods it computes another key. Proved: the lifetime when it is not 0; after a working invalidation values come from runs that ended after it, and began after it when none was in progress; methods without positional arguments."
  },
  {
   "property": "C12",
   "status": "proved",
   "theorems": [
    "C12_canonical",
    "C12_identity",
    "C12_segments",
    "C12_result"
   ],
   "note": "clean_path, every string"
  },
  {
   "property": "C120",
   "status": "partial",
   "theorems": [
    "C120_refuted",
    "C120_partial",
    "C120_for_ever"
   ],
   "note": "Refuted: the wrapper looks for the next version after the class of the instance, not after the class whose version ran, so a hook that returns nothing in a base class calls itself for ever. Proved when the first version gives a result, or the class itself defines the hook and the next version gives a result. Bodies that call super() themselves are not modelled."
  },
  {
   "property": "C121",
   "status": "partial",
   "theorems": [
    "C121_refuted",
    "C121_partial",
    "C121_first",
    "C121_stuck",
    "C121_again"
   ],
   "note": "Refuted: on a first visit the page and the cookie have different tokens, so the first submission is always refused; a browser with a stale token is refused for ever; the page shown after an invalid submission has no token. Proved for a browser that already has an authentic token."
  },
  {
   "property": "C122",
   "status": "partial",
   "theorems": [
    "C122_refuted",
    "C122_request_refuted",
    "C122_partial",
    "C122_handler_partial",
    "C122_names_refuted",
    "C122_names_partial",
    "C122_invalid",
    "C122_get"
   ],
   "note": "Refuted: processors of the template object override the handler, a processor can replace the request, and a context key self is a TypeError. Proved: the exact order of the sources, and what forms show."
  },
  {
   "property": "C123",
   "status": "partial",
   "theorems": [
    "C123_refuted",
    "C123_tasks_refuted",
    "C123_names_refuted",
    "C123_partial"
   ],
   "note": "Refuted three times: a populate_global_context that returns the same dict shares it between requests; a state first used in a thread or child task is invisible to the rest of the request; the names store, copy, clear and _context cannot be read back. Proved for all interleavings of programs that avoid these."
  },
  {
   "property": "C124",
   "status": "partial",
   "theorems": [
    "C124_refuted",
    "C124_arguments_refuted",
    "C124_partial",
    "C124_resolves_partial",
    "C124_uncached"
   ],
   "note": "The full statement is false: a kept value ignores the overrides and the mapping of later calls, and application and global instances are keyed by the function alone, so markers with different arguments share one value. Proved for constant overrides and mappings with equal arguments per shared function (soundness and completeness against the inductive meaning), and for any overrides when nothing is kept."
  },
  {
   "property": "C125",
   "status": "partial",
   "theorems": [
    "C125_once",
    "C125_override",
    "C125_override_refuted"
   ],
   "note": "Once is proved in full, for every state and history. An override by a static value, which the documentation of resolve allows, is called and fails; replacement by functions is proved."
  },
  {
   "property": "C126",
   "status": "partial",
   "theorems": [
    "C126_refuted",
    "C126_partial",
    "C126_missing"
   ],
   "note": "False for functions with *args or **kwargs: they are looked for among the given arguments and reported as missing. Proved for all other signatures after any history."
  },
  {
   "property": "C127",
   "status": "partial",
   "theorems": [
    "C127_refuted",
    "C127_pipe_refuted",
    "C127_partial",
    "C127_class_refuted",
    "C127_tuple_refuted",
    "C127_class_partial"
   ],
   "note": "False for Optional[list] (None arrives as []), for X | None (a dataclass arrives as a dict), for classes without encoder (an int parameter takes a text) and for fixed tuples (too short or too long lists pass). Round trip proved for annotations without X | Y whose unions are decided by their first arm; type safety proved for classes with an encoder under lists, sets, dicts and open tuples at any depth."
  },
  {
   "property": "C128",
   "status": "partial",
   "theorems": [
    "C128_refuted",
    "C128_falsy_refuted",
    "C128_header_refuted",
    "C128_wrapped_refuted",
    "C128_default_refuted",
    "C128_partial",
    "C128_wrapped_partial"
   ],
   "note": "False when the request has a query parameter, header or cookie of the name of a body parameter, for falsy bodies, for omitted parameters with defaults and for wrapped lists of texts. Proved for all signatures and dependencies when no such names occur and the body is truthy or an empty dict; the wrapping proved for lists of dataclasses."
  },
  {
   "property": "C129",
   "status": "partial",
   "theorems": [
    "C129_refuted",
    "C129_late_refuted",
    "C129_partial",
    "C129_reports",
    "C129_headers"
   ],
   "note": "False for a response that is never finished (its body is silently empty) and, with the asynchronous client, for body messages after the end (they overwrite the beginning). Proved for finished responses with both clients and for everything the synchronous client accepts."
  },
  {
   "property": "C13",
   "status": "partial",
   "theorems": [
    "C13_date_refuted",
    "C13_year_refuted",
    "C13_long_int_refuted",
    "C13_float_refuted",
    "C13_negative_zero_refuted",
    "C13_infinite_refuted",
    "C13_roundtrip_partial",
    "C13_int_total",
    "C13_accepted_partial",
    "C13_int_value",
    "C13_float_total",
    "C13_float_value",
    "C13_pattern",
    "C13_date_exact"
   ],
   "note": "Full statement refuted: patterns accept texts the conversion rejects (dates, integers over 4300 digits); years below 1000 are not padded; tiny floats are written as 0, a negative zero as -0, and long digit texts read as infinity. Proved for str, path, int, float (binary64, correctly rounded), uuid and datetime under those bounds."
  },
  {
   "property": "C130",
   "status": "partial",
   "theorems": [
    "C130_refuted",
    "C130_raw_path_refuted",
    "C130_ipv6_refuted",
    "C130_partial"
   ],
   "note": "False for paths with a percent sign (decoded twice), for raw_path with a query string and for IPv6 hosts. Proved for all other paths, hosts, ports and headers."
  },
  {
   "property": "C131",
   "status": "partial",
   "theorems": [
    "C131_users",
    "C131_block",
    "C131_partial",
    "C131_anonymous",
    "C131_refuted"
   ],
   "note": "Users and blocks are proved in full. The state's user differs from the scope's when the lifespan left a user in the state."
  },
  {
   "property": "C132",
   "status": "partial",
   "theorems": [
    "C132_refuted",
    "C132_partial"
   ],
   "note": "False: cookies set by the response to a request with cookies of its own are lost. Proved for all histories without such responses."
  },
  {
   "property": "C133",
   "status": "proved",
   "theorems": [
    "C133_sound",
    "C133_complete",
    "C133_ends",
    "C133_arguments",
    "C133_called_last"
   ],
   "note": "soundness and completeness against rules in ResSpec, for a world that answers each call by its number; overrides by function identity are the third argument of async_resolve_dependencies"
  },
  {
   "property": "C134",
   "status": "partial",
   "theorems": [
    "C134_refuted",
    "C134_own_value_partial"
   ],
   "note": "refuted: each marked parameter gets the value of the provider's own function, which is called once more per marked parameter"
  },
  {
   "property": "C135",
   "status": "partial",
   "theorems": [
    "C135_refuted",
    "C135_handler",
    "C135_nested_partial"
   ],
   "note": "proved below a resolved function; a scheme marked on a handler is called without the connection and fails"
  },
  {
   "property": "C136",
   "status": "partial",
   "theorems": [
    "C136_refuted",
    "C136_never",
    "C136_closing_partial",
    "C136_nesting_refuted"
   ],
   "note": "refuted: nothing closes the request; proved for an HTTP handler that closes it itself, in the order of opening"
  },
  {
   "property": "C137",
   "status": "partial",
   "theorems": [
    "C137_refuted",
    "C137_text_partial",
    "C137_stable",
    "C137_dict",
    "C137_words"
   ],
   "note": "proved for texts whose directive names are distinct and for dicts; with repeated names the last one is sent, while browsers take the first"
  },
  {
   "property": "C138",
   "status": "partial",
   "theorems": [
    "C138_refuted",
    "C138_denial_refuted",
    "C138_added_partial",
    "C138_once"
   ],
   "note": "the headers are added to those of the application, which may then appear twice; denial responses get none"
  },
  {
   "property": "C139",
   "status": "proved",
   "theorems": [
    "C139_frame"
   ],
   "note": ""
  },
  {
   "property": "C14",
   "status": "partial",
   "theorems": [
    "C14_mounted_redirect_refuted",
    "C14_tree",
    "C14_first_full",
    "C14_first_partial",
    "C14_no_match",
    "C14_path_search",
    "C14_mount_search"
   ],
   "note": "For every route tree the router does exactly what the specification 'chosen' says, and runs no other handler. Refuted as literally stated for trees: a mounted router's slash redirect comes before a later full match. For routes that do not involve a matching mount the statement holds as written (first_full, first_partial, no_match)."
  },
  {
   "property": "C140",
   "status": "partial",
   "theorems": [
    "C140_refuted",
    "C140_exact_partial"
   ],
   "note": "handlers of base classes are not found; what a2wsgi sends is an input"
  },
  {
   "property": "C141",
   "status": "partial",
   "theorems": [
    "C141_refuted",
    "C141_switch_refuted",
    "C141_given_partial",
    "C141_setting",
    "C141_router_refuted",
    "C141_router_partial"
   ],
   "note": "refuted for empty and False arguments, which fall back on the setting except for four flags; proved for all others"
  },
  {
   "property": "C142",
   "status": "proved",
   "theorems": [
    "C142_fields",
    "C142_unique",
    "C142_fails",
    "C142_lists"
   ],
   "note": "properties are read only and constant; post_init of subclasses is not modelled"
  },
  {
   "property": "C143",
   "status": "partial",
   "theorems": [
    "C143_refuted",
    "C143_inside_partial",
    "C143_entered",
    "C143_restored_partial",
    "C143_reentrant_refuted",
    "C143_assignments_partial"
   ],
   "note": "refuted when the environment has the variable, and for an override_settings object used inside itself; proved otherwise; monkay's context manager is trusted"
  },
  {
   "property": "C144",
   "status": "partial",
   "theorems": [
    "C144_nearest",
    "C144_refuted",
    "C144_isolated_partial"
   ],
   "note": "refuted: infer_body=True is written to the shared settings; proved for applications with their own settings or without infer_body"
  },
  {
   "property": "C145",
   "status": "proved",
   "theorems": [
    "C145_fields",
    "C145_properties",
    "C145_again"
   ],
   "note": "no property raises"
  },
  {
   "property": "C146",
   "status": "partial",
   "theorems": [
    "C146_refuted",
    "C146_both_fail",
    "C146_built_partial",
    "C146_headers",
    "C146_builds_partial",
    "C146_once"
   ],
   "note": "refuted: no message with both a text and an HTML body can be built; proved for messages with one body and no text alternatives; transfer encodings and the standard library's rendering are not modelled"
  },
  {
   "property": "C147",
   "status": "partial",
   "theorems": [
    "C147_hidden",
    "C147_delivered",
    "C147_validated",
    "C147_many_refuted"
   ],
   "note": "refuted for send_many, which does not validate; proved for send"
  },
  {
   "property": "C148",
   "status": "partial",
   "theorems": [
    "C148_refuted",
    "C148_lost_for_good",
    "C148_usable_partial",
    "C148_accepted",
    "C148_closed",
    "C148_one_connection",
    "C148_many"
   ],
   "note": "refuted after a lost connection or a failed QUIT; proved for histories without them"
  },
  {
   "property": "C149",
   "status": "partial",
   "theorems": [
    "C149_refuted",
    "C149_first_partial",
    "C149_own"
   ],
   "note": "refuted for a message sent by a second backend; proved for own senders and the first default"
  },
  {
   "property": "C15",
   "status": "partial",
   "theorems": [
    "C15_params_refuted",
    "C15_messages_refuted",
    "C15_mount_refuted",
    "C15_unaffected_partial"
   ],
   "note": "Refuted three ways: captured parameters leak to the next route, only one message is replayed, and a mount does not re-arm the replay. Proved for deferring paths that read at most one message, for the route's own and all uncaptured parameters."
  },
  {
   "property": "C150",
   "status": "partial",
   "theorems": [
    "C150_refuted",
    "C150_no_tags",
    "C150_tidy",
    "C150_words_partial"
   ],
   "note": "refuted: the empty line after a paragraph is lost; words proved for well formed segments, with white space as in PyStr.is_space and ASCII case folding; the other parts for every text; entities are not decoded"
  },
  {
   "property": "C151",
   "status": "partial",
   "theorems": [
    "C151_refuted",
    "C151_inside",
    "C151_apart_partial"
   ],
   "note": "refuted for equal moments and subjects that differ in punctuation; proved for different moments"
  },
  {
   "property": "C152",
   "status": "partial",
   "theorems": [
    "C152_operations_partial",
    "C152_made_partial",
    "C152_parameter_refuted",
    "C152_host_refuted",
    "C152_hidden_include_refuted",
    "C152_hidden_handler_refuted",
    "C152_websocket_refuted",
    "C152_method_refuted",
    "C152_object_refuted"
   ],
   "note": "Equivalence for ordinary trees: no hosts, no websockets, includes shown and without parameters, controllers for all methods, nothing hidden by a decorator. The full statement is false in each of these cases, with a witness for each; a route to an object without methods leaves no document at all."
  },
  {
   "property": "C153",
   "status": "partial",
   "theorems": [
    "C153_describes_partial",
    "C153_first_refuted",
    "C153_identifier_refuted"
   ],
   "note": "For ordinary trees when one handler answers the path and method. Refuted: of two routes for the same path and method the router serves the first and the document describes the last; a decorated handler without identifier has none, although the decorator promises its name."
  },
  {
   "property": "C154",
   "status": "partial",
   "theorems": [
    "C154_defined",
    "C154_only_partial",
    "C154_agreed_partial",
    "C154_requirements",
    "C154_definition_refuted",
    "C154_scopes_refuted"
   ],
   "note": "Defined for every tree; the definition is the declared one if the handlers agree. Refuted otherwise (the first wins), and the requirement of an operation holds the definition instead of scopes."
  },
  {
   "property": "C155",
   "status": "partial",
   "theorems": [
    "C155_schema_partial",
    "C155_plain_type_refuted",
    "C155_same_name_refuted",
    "C155_media_refuted"
   ],
   "note": "For models with definitions, and the right one if models of one name agree. Refuted: plain types give references to nothing, models of the same name overwrite each other, the media type is lost."
  },
  {
   "property": "C156",
   "status": "partial",
   "theorems": [
    "C156_servers",
    "C156_other_clients_refuted"
   ],
   "note": "All of the statement except that the root paths of all earlier requests are named too, which is what the refutation shows."
  },
  {
   "property": "C157",
   "status": "partial",
   "theorems": [
    "C157_once_partial",
    "C157_shared",
    "C157_shared_refuted"
   ],
   "note": "One handler, or an empty dictionary. With the same dictionary every further decoration fails, for every dictionary that is not empty."
  },
  {
   "property": "C158",
   "status": "proved",
   "theorems": [
    "C158_markup"
   ],
   "note": "The page is read by a small tokenizer of texts, tags and attribute values defined in the specification; the theorem compares any two pages with the same numbers of frames and lines."
  },
  {
   "property": "C159",
   "status": "partial",
   "theorems": [
    "C159_shown_partial",
    "C159_center",
    "C159_semicolon_refuted"
   ],
   "note": "Proved for source lines without a space followed by a semicolon (spaces are shown as no-break spaces). With one, the page writes &nbsp without a semicolon and the browser takes the source's semicolon as its end."
  },
  {
   "property": "C16",
   "status": "partial",
   "theorems": [
    "C16_empty_refuted",
    "C16_methods_partial",
    "C16_default"
   ],
   "note": "Refuted only for an empty method list, which serves every method; proved for every non-empty list."
  },
  {
   "property": "C160",
   "status": "partial",
   "theorems": [
    "C160_buttons_partial",
    "C160_recursion_refuted"
   ],
   "note": "Proved when no two frames have the same file and line. Recursion from one place gives frames with the same identifier and the later buttons open the first."
  },
  {
   "property": "C161",
   "status": "proved",
   "theorems": [
    "C161_exists",
    "C161_tree"
   ],
   "note": "Termination is on every closed store of applications, with circles; the identifiers of nodes are numbers instead of UUIDs."
  },
  {
   "property": "C162",
   "status": "partial",
   "theorems": [
    "C162_application",
    "C162_routes_partial",
    "C162_includes",
    "C162_explain_partial",
    "C162_permissions_refuted"
   ],
   "note": "All queries are proved right except permissions_for (and so explain) on a route with middleware: it stops at the first middleware and returns nothing, so a protected route is reported as open."
  },
  {
   "property": "C163",
   "status": "partial",
   "theorems": [
    "C163_entries_partial",
    "C163_layers_refuted",
    "C163_router_refuted"
   ],
   "note": "Proved for applications reached through includes without middleware and permissions, each entry listed once however many ways lead to it (once more if the application itself is included again). Refuted for includes with layers and for includes made of a list of routes or a namespace: what they serve is missing."
  },
  {
   "property": "C164",
   "status": "partial",
   "theorems": [
    "C164_first_partial",
    "C164_stale_refuted"
   ],
   "note": "The graph is built once: all readings describe the application as it was at the first."
  },
  {
   "property": "C165",
   "status": "partial",
   "theorems": [
    "C165_events_partial",
    "C165_indent_refuted",
    "C165_separator_refuted",
    "C165_cut_refuted"
   ],
   "note": "Proved equal to a WHATWG parser for every text whose line breaks are LF and CR, that ends with a line end, and whose data values start with at most one space; an unterminated last event is delivered as well. Refuted for deeper indentation, for U+2028 and the like, and for cut-off bodies."
  },
  {
   "property": "C166",
   "status": "proved",
   "theorems": [
    "C166_client",
    "C166_prompt",
    "C166_system_prompt"
   ],
   "note": "A temperature of NaN counts as not negative, as in the code. Numbers are rationals, infinities or NaN."
  },
  {
   "property": "C167",
   "status": "proved",
   "theorems": [
    "C167_payload"
   ],
   "note": "For every request; extra members take precedence over everything, also over stream and messages."
  },
  {
   "property": "C168",
   "status": "proved",
   "theorems": [
    "C168_payload"
   ],
   "note": "The tool call id is not part of this claim: see C172."
  },
  {
   "property": "C169",
   "status": "proved",
   "theorems": [
    "C169_openai",
    "C169_anthropic"
   ],
   "note": "For servers that write one JSON object per event, with characters outside ASCII escaped or without the separators at which httpx cuts lines (C165); events in the documented form."
  },
  {
   "property": "C17",
   "status": "partial",
   "theorems": [
    "C17_newline_refuted",
    "C17_level_partial",
    "C17_nested_partial"
   ],
   "note": "Full statement refuted for paths ending in a newline. Proved for every other path, every mount template and any nesting depth."
  },
  {
   "property": "C170",
   "status": "partial",
   "theorems": [
    "C170_failures_partial",
    "C170_only_ai_errors",
    "C170_error_event_refuted",
    "C170_usage_event_refuted"
   ],
   "note": "Proved for malformed events, failed requests and broken connections. Refuted: an error event of the messages API is skipped and the stream ends as if it was complete; the usage event of the chat completions API raises."
  },
  {
   "property": "C171",
   "status": "partial",
   "theorems": [
    "C171_openai_partial",
    "C171_anthropic_partial",
    "C171_null_message_refuted",
    "C171_not_json_refuted"
   ],
   "note": "Proved for replies in the documented form, failed requests and replies without a choice or content. Refuted: a body that is not JSON, or has a null message, raises ValueError or AttributeError."
  },
  {
   "property": "C172",
   "status": "partial",
   "theorems": [
    "C172_openai_partial",
    "C172_refuted"
   ],
   "note": "Holds for the chat completions API; the messages API payload has no tool call id."
  },
  {
   "property": "C173",
   "status": "partial",
   "theorems": [
    "C173_pool_partial",
    "C173_leak_refuted",
    "C173_closed_client_refuted"
   ],
   "note": "Proved for all histories in which no shutdown starts while another one waits. Refuted: two shutdowns at once leave a client open for ever, and a call during a shutdown gets the closed client."
  },
  {
   "property": "C174",
   "status": "proved",
   "theorems": [
    "C174_octet_stream",
    "C174_named"
   ],
   "note": "The spooled temporary file is its content."
  },
  {
   "property": "C175",
   "status": "partial",
   "theorems": [
    "C175_only_empty_partial",
    "C175_refuted"
   ],
   "note": "Refuted: the empty body raises AssertionError; proved: it is the only one that fails."
  },
  {
   "property": "C176",
   "status": "proved",
   "theorems": [
    "C176_urlencoded"
   ],
   "note": "Also for text/plain, which is read the same way."
  },
  {
   "property": "C177",
   "status": "partial",
   "theorems": [
    "C177_round_trip_partial",
    "C177_refuted"
   ],
   "note": "Refuted: spaces come back as plus signs. Proved exactly: nothing else changes."
  },
  {
   "property": "C178",
   "status": "proved",
   "theorems": [
    "C178_two_parsers"
   ],
   "note": ""
  },
  {
   "property": "C179",
   "status": "partial",
   "theorems": [
    "C179_round_trip_partial",
    "C179_refuted",
    "C179_unnamed_file_refuted"
   ],
   "note": "Refuted for field names ending in an asterisk, which are lost, and for files with an empty name, which come as fields; proved for all other well-formed forms, in one read or cut without splitting a delimiter."
  },
  {
   "property": "C18",
   "status": "partial",
   "theorems": [
    "C18_body",
    "C18_json",
    "C18_stream",
    "C18_sniff",
    "C18_shared_body",
    "C18_shared_sniff_refuted",
    "C18_shared_stream_refuted",
    "C18_disconnected_refuted",
    "C18_disconnected_partial"
   ],
   "note": "Proved for every delivery and every history of sniff/body/stream/json on one Request, and for any number of Requests reading with body/json. Refuted when Requests on one scope mix sniff or stream with body, and for is_disconnected, which drops a message at hand."
  },
  {
   "property": "C180",
   "status": "partial",
   "theorems": [
    "C180_safe_partial",
    "C180_refuted"
   ],
   "note": "Refuted: a delimiter that straddles two reads is not seen. Proved for urlencoded forms and octet streams in all pieces, for multipart when delimiters stay whole."
  },
  {
   "property": "C181",
   "status": "partial",
   "theorems": [
    "C181_ascii_partial",
    "C181_refuted"
   ],
   "note": "Refuted: characters outside Latin-1 are dropped, other non-ASCII ones replaced. Proved for ASCII names. That the codec UTF-8 exists is a hypothesis."
  },
  {
   "property": "C182",
   "status": "partial",
   "theorems": [
    "C182_once_partial",
    "C182_refuted",
    "C182_twice_refuted"
   ],
   "note": "Refuted: never called for a multipart body without its closing delimiter, called again for each further one. Proved for urlencoded forms, octet streams and well-formed multipart forms."
  },
  {
   "property": "C183",
   "status": "proved",
   "theorems": [
    "C183_refused",
    "C183_accepted"
   ],
   "note": "Header values are texts."
  },
  {
   "property": "C184",
   "status": "proved",
   "theorems": [
    "C184_limit",
    "C184_returned"
   ],
   "note": "The sum of the returned numbers is proved for multipart as well; the limit is a whole number."
  },
  {
   "property": "C185",
   "status": "proved",
   "theorems": [
    "C185_schedules_agree"
   ],
   "note": "Confluence: turns of the two threads commute while the block runs. Applications and tests are arbitrary (coinductive) programs."
  },
  {
   "property": "C186",
   "status": "proved",
   "theorems": [
    "C186_messages_in_order"
   ],
   "note": "Invariant over all schedules."
  },
  {
   "property": "C187",
   "status": "proved",
   "theorems": [
    "C187_entering"
   ],
   "note": "For every schedule: the only outcome that can come, and it can come from every reachable state."
  },
  {
   "property": "C188",
   "status": "proved",
   "theorems": [
    "C188_texts_received"
   ],
   "note": "By induction over the texts, for every schedule."
  },
  {
   "property": "C189",
   "status": "proved",
   "theorems": [
    "C189_json_echoed"
   ],
   "note": "Uses the JSON theorem C105 for the websocket's side; values with half a surrogate pair or infinite floats are outside."
  },
  {
   "property": "C19",
   "status": "proved",
   "theorems": [
    "C19_chunks",
    "C19_fields",
    "C19_request"
   ],
   "note": "Every chunking of every body, and every delivery through a Request after any history that did not stream the body away."
  },
  {
   "property": "C190",
   "status": "partial",
   "theorems": [
    "C190_refuted",
    "C190_failure_reported_partial"
   ],
   "note": "False when the test client is used as a context manager: the session shares its portal and does not wait for the application. Proved for sessions with a portal of their own."
  },
  {
   "property": "C191",
   "status": "partial",
   "theorems": [
    "C191_refuted",
    "C191_disconnect_heard_partial"
   ],
   "note": "False for an application that awaits something else when the session is left: it is cancelled there. Proved for applications that await messages only."
  },
  {
   "property": "C192",
   "status": "partial",
   "theorems": [
    "C192_refuted",
    "C192_failure_wakes_partial"
   ],
   "note": "False: an application that returns without an answer leaves the test waiting for ever. Proved: an exception of the application that was not taken yet lets the test go on."
  },
  {
   "property": "C193",
   "status": "partial",
   "theorems": [
    "C193_refuted",
    "C193_refused_partial"
   ],
   "note": "False with a portal of its own if the application goes on waiting after its refusal: entering never ends. Proved for applications that end, and for a shared portal."
  },
  {
   "property": "C194",
   "status": "partial",
   "theorems": [
    "C194_refuted",
    "C194_subprotocols_partial"
   ],
   "note": "False for an empty list, which offers one empty name. Proved for all other lists of names."
  },
  {
   "property": "C195",
   "status": "partial",
   "theorems": [
    "C195_refuted",
    "C195_independent_partial"
   ],
   "note": "False for the synchronous client, which writes into the caller's dictionary. Proved for the asynchronous one."
  },
  {
   "property": "C196",
   "status": "partial",
   "theorems": [
    "C196_refuted",
    "C196_never_left",
    "C196_lifespan_partial",
    "C196_left_partial"
   ],
   "note": "False for an application that reports that its startup failed and returns: the client is entered, and leaving it never ends. Proved for applications that raise."
  },
  {
   "property": "C197",
   "status": "proved",
   "theorems": [
    "C197_transparent"
   ],
   "note": "An application is any tree of receive and send calls that may set the route and path of the scope and write to the span."
  },
  {
   "property": "C198",
   "status": "partial",
   "theorems": [
    "C198_otherwise_partial",
    "C198_server_refuted",
    "C198_host_refuted"
   ],
   "note": "Refuted: with server None (unix sockets) every request ends with a TypeError, a cancelled one too; with a port in Host that is no number the application is not called. Proved: exactly these cases differ."
  },
  {
   "property": "C199",
   "status": "proved",
   "theorems": [
    "C199_status"
   ],
   "note": "What the library records itself when an exception leaves the span is not modelled."
  },
  {
   "property": "C20",
   "status": "partial",
   "theorems": [
    "C20_refuted",
    "C20_round_trip_partial",
    "C20_decoded_twice"
   ],
   "note": "Refuted: the server decodes twice, so '+' and '%' in values do not survive. Proved: what is parsed is exactly the pairs decoded once more, hence the pairs themselves when they contain neither character."
  },
  {
   "property": "C200",
   "status": "partial",
   "theorems": [
    "C200_fine_partial",
    "C200_refuted"
   ],
   "note": "Refuted: a request cancelled after a 200 start is OK. Proved: no Exception and a started response without error status."
  },
  {
   "property": "C201",
   "status": "proved",
   "theorems": [
    "C201_attributes",
    "C201_query"
   ],
   "note": ""
  },
  {
   "property": "C202",
   "status": "partial",
   "theorems": [
    "C202_route_partial",
    "C202_refuted"
   ],
   "note": "Refuted: it is written only before the application runs, when no route is known yet. Proved: it is the route known beforehand."
  },
  {
   "property": "C203",
   "status": "partial",
   "theorems": [
    "C203_server_partial",
    "C203_refuted"
   ],
   "note": "Refuted: the address is the socket's, the port the one of the Host header."
  },
  {
   "property": "C204",
   "status": "proved",
   "theorems": [
    "C204_context"
   ],
   "note": "Extraction itself belongs to the library."
  },
  {
   "property": "C205",
   "status": "proved",
   "theorems": [
    "C205_round_trip"
   ],
   "note": "Payload classes as in C109: dataclasses, named tuples, enums, bytes, uuids, dates, lists, with plain parts."
  },
  {
   "property": "C206",
   "status": "partial",
   "theorems": [
    "C206_exact_partial",
    "C206_version_refuted"
   ],
   "note": "Refuted: version 0 becomes 1 and an empty name the name of the class; proved that nothing else changes."
  },
  {
   "property": "C207",
   "status": "proved",
   "theorems": [
    "C207_accepted"
   ],
   "note": "For the classes apply_structure knows; other types take any payload."
  },
  {
   "property": "C208",
   "status": "proved",
   "theorems": [
    "C208_round_trip"
   ],
   "note": "That a signed payload is verified with the same key is a hypothesis about the library; pydantic and PyJWT on dates are modelled from their documentation."
  },
  {
   "property": "C209",
   "status": "partial",
   "theorems": [
    "C209_exact_partial",
    "C209_naive_refuted",
    "C209_eternal_refuted"
   ],
   "note": "Refuted for naive dates (checked in local time, signed as UTC) and dates after 2603 (read as milliseconds); proved exactly what comes back."
  },
  {
   "property": "C21",
   "status": "partial",
   "theorems": [
    "C21_refuted",
    "C21_late_crlf_overwrites_file",
    "C21_safe_partial"
   ],
   "note": "Refuted: a delimiter cut by a chunk edge is missed, and bytes after the closing delimiter that come in a later chunk overwrite an uploaded file. Proved for every chunking that keeps delimiters whole and the end in one chunk."
  },
  {
   "property": "C210",
   "status": "proved",
   "theorems": [
    "C210_not_expired"
   ],
   "note": ""
  },
  {
   "property": "C211",
   "status": "partial",
   "theorems": [
    "C211_exact_partial",
    "C211_refuted"
   ],
   "note": "Refuted: pydantic checks the expiry again. Proved exactly: at most the second of the expiry is gained."
  },
  {
   "property": "C212",
   "status": "partial",
   "theorems": [
    "C212_others_partial",
    "C212_refuted"
   ],
   "note": "Refuted: sub=None becomes the text None; proved for iss, aud and jti."
  },
  {
   "property": "C213",
   "status": "proved",
   "theorems": [
    "C213_extra"
   ],
   "note": ""
  },
  {
   "property": "C214",
   "status": "proved",
   "theorems": [
    "C214_listeners"
   ],
   "note": "For positional arguments, or keyword arguments when all functions concerned are coroutine functions and the listeners take them all (see C101 and C215 for the others)."
  },
  {
   "property": "C215",
   "status": "partial",
   "theorems": [
    "C215_kwargs_partial",
    "C215_refuted"
   ],
   "note": "Refuted: those of a blocking function go to anyio's run_sync, a TypeError before it runs; proved for coroutine functions and without keyword arguments."
  },
  {
   "property": "C216",
   "status": "partial",
   "theorems": [
    "C216_depth_one_partial",
    "C216_refuted"
   ],
   "note": "Refuted: the raw function is subscribed, so its own events are not sent. Proved: exactly the listeners of the called function run."
  },
  {
   "property": "C217",
   "status": "proved",
   "theorems": [
    "C217_abort"
   ],
   "note": "Through the stack of ExcModel without custom middleware. Headers are kept except that 304 and 412 responses drop entity headers (C56)."
  },
  {
   "property": "C218",
   "status": "partial",
   "theorems": [
    "C218_partial",
    "C218_refuted",
    "C218_json_refuted",
    "C218_answer"
   ],
   "note": "Refuted: a status that http.HTTPStatus does not list is a ValueError unless a text is given, and the client gets a 500. Proved: exactly for which calls it works."
  },
  {
   "property": "C219",
   "status": "proved",
   "theorems": [
    "C219_detail",
    "C219_default"
   ],
   "note": "Non-empty texts; 204 and 304 have no body."
  },
  {
   "property": "C22",
   "status": "proved",
   "theorems": [
    "C22_round_trip",
    "C22_one_chunk"
   ],
   "note": "Every list of fields and files (names without CR or ';', distinct headers that fit on lines, bodies without the delimiter), every boundary without CR, any charset decoder, one chunk or any safe chunking."
  },
  {
   "property": "C220",
   "status": "partial",
   "theorems": [
    "C220_partial",
    "C220_refuted"
   ],
   "note": "Refuted: NotFound, NotAuthorized and PermissionDenied keep the text of their class. Proved for the classes without one."
  },
  {
   "property": "C221",
   "status": "proved",
   "theorems": [
    "C221_jsonify",
    "C221_not_both",
    "C221_errors"
   ],
   "note": "Cookies with usable names and values without a percent sign (C24)."
  },
  {
   "property": "C222",
   "status": "proved",
   "theorems": [
    "C222_names",
    "C222_rest"
   ],
   "note": "Names without a slash (C111). The content itself is sent as C01-C08 and the stream properties say."
  },
  {
   "property": "C223",
   "status": "proved",
   "theorems": [
    "C223_map"
   ],
   "note": "Redis and redis-py are modelled by what GET, SET, SETEX and DEL are documented to do; keys are told apart as texts."
  },
  {
   "property": "C224",
   "status": "partial",
   "theorems": [
    "C224_refuted",
    "C224_partial",
    "C224_negative"
   ],
   "note": "A lifetime of 0 is taken for none, so the value never expires. Proved for other lifetimes; a negative one is refused by the server and changes nothing."
  },
  {
   "property": "C225",
   "status": "partial",
   "theorems": [
    "C225_refuted",
    "C225_partial"
   ],
   "note": "The registry is keyed by id(loop): a loop with the id of a dead one gets its client, whose connections belong to the dead loop. Proved for loops whose identities differ."
  },
  {
   "property": "C226",
   "status": "partial",
   "theorems": [
    "C226_refuted",
    "C226_partial",
    "C226_left"
   ],
   "note": "A client of another loop cannot be closed from this one, and ends the closing of the rest. Proved when all calls ran in the loop that closes; C226_left shows that each synchronous call in a loop of its own leaves a client open."
  },
  {
   "property": "C227",
   "status": "proved",
   "theorems": [
    "C227_serializer"
   ],
   "note": "Steps are the accesses to the attribute and to the lock; the default setup is modelled as configure and the nested bind."
  },
  {
   "property": "C228",
   "status": "partial",
   "theorems": [
    "C228_refuted",
    "C228_falsy_refuted",
    "C228_partial"
   ],
   "note": "Refuted: the logger is read again after the lock, so a use racing with bind_logger(None) gets None; a logger that is false as a condition is replaced by the default at its first use. Proved without these."
  },
  {
   "property": "C229",
   "status": "proved",
   "theorems": [
    "C229_once"
   ],
   "note": "Counted against the binds of None that took place."
  },
  {
   "property": "C23",
   "status": "partial",
   "theorems": [
    "C23_refuted",
    "C23_limits_partial"
   ],
   "note": "Refuted: chunks after the closing delimiter add the last part again without being counted. Proved for every chunking, safe or not, in which nothing follows the chunk completing the closing delimiter."
  },
  {
   "property": "C230",
   "status": "proved",
   "theorems": [
    "C230_progress",
    "C230_bounded"
   ],
   "note": "configure is one step that ends."
  },
  {
   "property": "C231",
   "status": "proved",
   "theorems": [
    "C231_once"
   ],
   "note": "Callbacks that push others while the stack unwinds are not modelled."
  },
  {
   "property": "C232",
   "status": "partial",
   "theorems": [
    "C232_refuted",
    "C232_unaware",
    "C232_partial"
   ],
   "note": "Refuted: the stack is closed with aclose(), so a context manager entered in a request that fails is told that all went well (a transaction commits). Proved for requests that end well."
  },
  {
   "property": "C233",
   "status": "proved",
   "theorems": [
    "C233_failure",
    "C233_never_lost"
   ],
   "note": ""
  },
  {
   "property": "C234",
   "status": "proved",
   "theorems": [
    "C234_current"
   ],
   "note": "contextvars are modelled as a value per task, copied when a task starts, and tokens that restore it."
  },
  {
   "property": "C235",
   "status": "partial",
   "theorems": [
    "C235_refuted",
    "C235_partial"
   ],
   "note": "Refuted: a websocket fails with AssertionError, as the middleware makes a Request of it. Holds for http and lifespan."
  },
  {
   "property": "C236",
   "status": "partial",
   "theorems": [
    "C236_refuted",
    "C236_pages_partial"
   ],
   "note": "Refuted for all four pages: the addresses are put into the page unescaped, and the root path holds what a mount like Include('/{tenant}') matched, so a quote in the path ends the text and the rest is script or markup. Proved for root paths and addresses without quotes, backslashes, <, & and line ends."
  },
  {
   "property": "C237",
   "status": "proved",
   "theorems": [
    "C237_reaches"
   ],
   "note": "Root paths that end in a slash are left out: the page then drops the slash and routing does not."
  },
  {
   "property": "C238",
   "status": "partial",
   "theorems": [
    "C238_refuted",
    "C238_partial"
   ],
   "note": "Refuted: the redirect page of oauth2 is added without an address for the document. Proved: this is the only exception."
  },
  {
   "property": "C239",
   "status": "partial",
   "theorems": [
    "C239_refuted",
    "C239_partial"
   ],
   "note": "Refuted: without a running loop a RuntimeError (or NotImplementedError, RecursionError) of the coroutine itself is taken for a running loop: a coroutine function runs a second time in a thread, and for a coroutine object the error is replaced by 'cannot reuse already awaited coroutine'. Proved inside a running loop and for all other ends."
  },
  {
   "property": "C24",
   "status": "partial",
   "theorems": [
    "C24_refuted",
    "C24_round_trip_partial",
    "C24_last_wins",
    "C24_names_refuted",
    "C24_attribute_refuted"
   ],
   "note": "Proved for every history of set_cookie/delete_cookie whose values have no percent sign; refuted with one (it comes back decoded). Last value wins over several pairs and lines (proved). A trailing ';' adds a nameless cookie and attribute texts can inject attributes (refuted)."
  },
  {
   "property": "C240",
   "status": "partial",
   "theorems": [
    "C240_refuted",
    "C240_partial"
   ],
   "note": "Refuted for every call inside a running loop: the thread starts with an empty context. Proved without a running loop."
  },
  {
   "property": "C241",
   "status": "partial",
   "theorems": [
    "C241_refuted",
    "C241_partial"
   ],
   "note": "Refuted for classes whose instances have an async __call__ (taken for asynchronous, though the class gives an instance) and for plain functions that return an awaitable. Proved for all else."
  },
  {
   "property": "C242",
   "status": "proved",
   "theorems": [
    "C242_coroutine"
   ],
   "note": ""
  },
  {
   "property": "C243",
   "status": "partial",
   "theorems": [
    "C243_refuted",
    "C243_partial"
   ],
   "note": "Refuted: two tasks in one handler whose awaitable gives a resource each time. Proved for blocks that do not overlap."
  },
  {
   "property": "C244",
   "status": "partial",
   "theorems": [
    "C244_refuted",
    "C244_partial"
   ],
   "note": "Refuted: routes whose address holds one of /swagger, /redoc, /openapi.json, /openapi.yaml, /openapi.yml, /elements anywhere (/chemistry/elements) are left out, and a Host makes the command fail with AttributeError. Proved: without hosts these are the only ones left out."
  },
  {
   "property": "C245",
   "status": "partial",
   "theorems": [
    "C245_refuted",
    "C245_partial"
   ],
   "note": "Refuted for get_application and get_app: the path names the function. Proved: else it names the application."
  },
  {
   "property": "C246",
   "status": "partial",
   "theorems": [
    "C246_refuted",
    "C246_partial"
   ],
   "note": "Refuted: the global instance of an earlier file is paired with the app attribute of a later one. Proved if the files before register nothing."
  },
  {
   "property": "C247",
   "status": "partial",
   "theorems": [
    "C247_refuted",
    "C247_partial"
   ],
   "note": "Refuted: the position is fixed (5 or 3), so a class named directly loses its first argument or fails with IndexError, a function named with --directive gets its own name as argument, and --app=X shifts by one. Proved for a class with --directive and a function named directly, with --app X or none."
  },
  {
   "property": "C248",
   "status": "partial",
   "theorems": [
    "C248_refuted",
    "C248_partial"
   ],
   "note": "Refuted: an argument mail, createapp, createproject or createdeployment anywhere switches the search off. Proved else."
  },
  {
   "property": "C249",
   "status": "partial",
   "theorems": [
    "C249_refuted",
    "C249_partial"
   ],
   "note": "Refuted: without reload and workers the discovered application is served and the path ignored. Proved with reload, with workers or if none was discovered."
  },
  {
   "property": "C25",
   "status": "partial",
   "theorems": [
    "C25_reads",
    "C25_wire_refuted",
    "C25_wire_partial",
    "C25_getlist_refuted",
    "C25_getlist_partial",
    "C25_poplist_refuted"
   ],
   "note": "Reads and results proved for every history. The lines given to the server repeat every value once per spelling used (refuted; proved when a name has one spelling); getlist is case-sensitive (refuted, with the exact partial); poplist removes one value only (refuted)."
  },
  {
   "property": "C250",
   "status": "partial",
   "theorems": [
    "C250_refuted",
    "C250_partial"
   ],
   "note": "Refuted: without any directive found UnboundLocalError is raised, and the names location and name match every directive. Proved else."
  },
  {
   "property": "C251",
   "status": "proved",
   "theorems": [
    "C251_contained",
    "C251_told"
   ],
   "note": "Components are taken not to raise ContinueRouting. The other side: such an error reaches neither the server's log nor the application's middlewares."
  },
  {
   "property": "C252",
   "status": "partial",
   "theorems": [
    "C252_exception_partial",
    "C252_refuted",
    "C252_hook_refuted",
    "C252_permission_refuted"
   ],
   "note": "True in endpoint functions inside an application; a controller, a hook or a permission that raises it is closed with 500 and the repr of the exception."
  },
  {
   "property": "C253",
   "status": "partial",
   "theorems": [
    "C253_closed_partial",
    "C253_refuted"
   ],
   "note": "False for an HTTPException raised in a function: the response of the default handler is dropped and nothing is sent at all. True for every other exception and for controllers."
  },
  {
   "property": "C254",
   "status": "partial",
   "theorems": [
    "C254_router_partial",
    "C254_silence",
    "C254_refuted"
   ],
   "note": "True for a bare router (close 1000). In an application the 404 is dropped: nothing is sent and nothing raised."
  },
  {
   "property": "C255",
   "status": "partial",
   "theorems": [
    "C255_once_partial",
    "C255_refuted"
   ],
   "note": "True when a component that has closed ends normally, hooks do not close and the hooks after end normally. An endpoint that closes and then fails is closed a second time."
  },
  {
   "property": "C256",
   "status": "partial",
   "theorems": [
    "C256_function_partial",
    "C256_refuted",
    "C256_route_refuted"
   ],
   "note": "True for functions. Exceptions of controllers never reach the handlers; handlers given to a websocket route or an include are never looked at."
  },
  {
   "property": "C257",
   "status": "proved",
   "theorems": [
    "C257_order",
    "C257_failure"
   ],
   "note": "The hooks are taken to send nothing and the endpoint to send something: an endpoint that sends nothing makes the router try the next route."
  },
  {
   "property": "C258",
   "status": "partial",
   "theorems": [
    "C258_legal_partial",
    "C258_refuted",
    "C258_text_refuted"
   ],
   "note": "True for WebSocketException in a function. Every other error is closed with the code 500 or the http status, which RFC 6455 does not allow, and the repr of the exception as the reason."
  },
  {
   "property": "C259",
   "status": "proved",
   "theorems": [
    "C259_alone"
   ],
   "note": "Safety for every interleaving, and every request is over after finitely many steps of its own. What comes from the path, the body and the providers is an oracle."
  },
  {
   "property": "C26",
   "status": "partial",
   "theorems": [
    "C26_refuted",
    "C26_last_partial",
    "C26_one_partial"
   ],
   "note": "Full replay refuted: only the last message is repeated. Exact behaviour of every history proved."
  },
  {
   "property": "C260",
   "status": "partial",
   "theorems": [
    "C260_same_partial",
    "C260_turns_partial",
    "C260_overlap_refuted",
    "C260_leak_refuted"
   ],
   "note": "False: one object serves all requests. True when handlers leave self alone and the requests either do not overlap or ask for handlers of one signature."
  },
  {
   "property": "C261",
   "status": "partial",
   "theorems": [
    "C261_http_partial",
    "C261_socket_partial",
    "C261_refuted"
   ],
   "note": "A Controller needs a guard of Lilya's protocols next to it, a WebSocketController one that is not."
  },
  {
   "property": "C262",
   "status": "partial",
   "theorems": [
    "C262_hooks_partial",
    "C262_refuted",
    "C262_twice_refuted"
   ],
   "note": "True when a list to which a controller adds hooks is given to one route only; false for shared lists, which are extended in place."
  },
  {
   "property": "C263",
   "status": "proved",
   "theorems": [
    "C263_order",
    "C263_tables"
   ],
   "note": "For guards that let the request pass."
  },
  {
   "property": "C264",
   "status": "partial",
   "theorems": [
    "C264_plain_partial",
    "C264_lost",
    "C264_refuted"
   ],
   "note": "False: the options of the class are lost, permissions among them. True for classes without options."
  },
  {
   "property": "C265",
   "status": "partial",
   "theorems": [
    "C265_single_partial",
    "C265_last",
    "C265_callable_refuted",
    "C265_shared_refuted"
   ],
   "note": "True for functions decorated once with Provide objects; C265_last says what happens in general."
  },
  {
   "property": "C266",
   "status": "proved",
   "theorems": [
    "C266_same_answer"
   ],
   "note": "For content that is not awaitable; cleanup handlers and background tasks are left out."
  },
  {
   "property": "C267",
   "status": "partial",
   "theorems": [
    "C267_idle_partial",
    "C267_refuted",
    "C267_session_refuted",
    "C267_first_cookie_stays_refuted",
    "C267_token_refuted",
    "C267_gzip_refuted",
    "C267_origin_refuted",
    "C267_security_refuted"
   ],
   "note": "False: the middlewares edit the headers of the object in place. True when none of them has anything of a client's to add; the clickjacking middleware is harmless."
  },
  {
   "property": "C268",
   "status": "partial",
   "theorems": [
    "C268_whole_partial",
    "C268_refuted",
    "C268_range_refuted",
    "C268_changed_file_refuted"
   ],
   "note": "False after a range was served, and when the file changes. True while the file stays and no earlier answer was a 206."
  },
  {
   "property": "C269",
   "status": "proved",
   "theorems": [
    "C269_untouched"
   ],
   "note": "Every state the command goes through counts, so also a crash between any two steps. No symbolic links, no other process that writes."
  },
  {
   "property": "C27",
   "status": "partial",
   "theorems": [
    "C27_refuted",
    "C27_cleanup_partial",
    "C27_exactly_once"
   ],
   "note": "LIFO and complete for every set of cleanups and every subset raising Exceptions, including cleanups registered while closing; refuted when a cleanup is cancelled (BaseException), though then none runs twice and none is lost."
  },
  {
   "property": "C270",
   "status": "proved",
   "theorems": [
    "C270_content"
   ],
   "note": "For templates whose file names do not hold the placeholder for the name, as the bundled ones. Jinja is an oracle."
  },
  {
   "property": "C271",
   "status": "partial",
   "theorems": [
    "C271_inside_partial",
    "C271_app_partial",
    "C271_deployment_partial",
    "C271_refuted"
   ],
   "note": "False for a version (or deployment folder) with ..; true when the rendered directories do not lead upwards, for createapp when the version has no slash and is not ..."
  },
  {
   "property": "C272",
   "status": "partial",
   "theorems": [
    "C272_refused_partial",
    "C272_refuted",
    "C272_statement_refuted"
   ],
   "note": "True when the name or the directory is refused; false for conflicts met later."
  },
  {
   "property": "C273",
   "status": "proved",
   "theorems": [
    "C273_no_error",
    "C273_no_handler",
    "C273_plain",
    "C273_one_of_two"
   ],
   "note": "a2wsgi is external: it is taken to hand on the messages in order. Http requests only."
  },
  {
   "property": "C274",
   "status": "partial",
   "theorems": [
    "C274_exact_partial",
    "C274_refuted",
    "C274_parent_refuted",
    "C274_status_refuted",
    "C274_plain_refuted"
   ],
   "note": "False: only the exact class is looked up, a handler for the status or a parent class is passed over, and a plain function ends in a TypeError. True for an async handler of the exact class."
  },
  {
   "property": "C275",
   "status": "proved",
   "theorems": [
    "C275_nothing_sent",
    "C275_answered",
    "C275_unbuffered"
   ],
   "note": "Under the same assumptions on a2wsgi."
  },
  {
   "property": "C276",
   "status": "partial",
   "theorems": [
    "C276_kept_partial",
    "C276_refuted",
    "C276_no_app_refuted"
   ],
   "note": "False: a raised exception propagates as it is; only error answers are converted. True is that no exception is lost."
  },
  {
   "property": "C277",
   "status": "proved",
   "theorems": [
    "C277_taken",
    "C277_scopes",
    "C277_other_scopes",
    "C277_credentials"
   ],
   "note": "pydantic is external, see the comment of the model; values are texts or lists of texts."
  },
  {
   "property": "C278",
   "status": "partial",
   "theorems": [
    "C278_single_spaces_partial",
    "C278_refuted"
   ],
   "note": "False with two spaces in a row. True when single spaces separate the names."
  },
  {
   "property": "C279",
   "status": "partial",
   "theorems": [
    "C279_scope_partial",
    "C279_refuted",
    "C279_password_refuted"
   ],
   "note": "False: the caller's exclude is replaced. True of the field scope."
  },
  {
   "property": "C28",
   "status": "partial",
   "theorems": [
    "C28_refuted",
    "C28_single_partial",
    "C28_own_key"
   ],
   "note": "Every schedule; refuted when two calls for one key overlap (both make an instance); proved when no two calls for one key wait at once."
  },
  {
   "property": "C280",
   "status": "partial",
   "theorems": [
    "C280_strict_partial",
    "C280_refuted",
    "C280_never_refuted"
   ],
   "note": "False: the permissive form has the same requirement. The strict form does what it says."
  },
  {
   "property": "C281",
   "status": "partial",
   "theorems": [
    "C281_reported_partial",
    "C281_refuted"
   ],
   "note": "False for a field called self. True without one."
  },
  {
   "property": "C282",
   "status": "proved",
   "theorems": [
    "C282_names",
    "C282_shown",
    "C282_nearest"
   ],
   "note": "Every class hierarchy. Classes without annotations of their own (object, and what pydantic's BaseModel annotates for itself) are left out of the model."
  },
  {
   "property": "C283",
   "status": "partial",
   "theorems": [
    "C283_refuted",
    "C283_partial"
   ],
   "note": "Refuted: class C(A, B) with a field in A and B shows B's type, Python has A's. Proved when no name comes from two bases of one class."
  },
  {
   "property": "C284",
   "status": "partial",
   "theorems": [
    "C284_refuted",
    "C284_model_partial"
   ],
   "note": "Refuted: every field is documented as required, defaults or not (and for pydantic models too, because the check is isinstance instead of issubclass). Proved: name, fields and types."
  },
  {
   "property": "C285",
   "status": "partial",
   "theorems": [
    "C285_refuted",
    "C285_bar_refuted",
    "C285_annotated_refuted",
    "C285_partial"
   ],
   "note": "Refuted: A | B is returned unconverted, and Annotated[A, ...] is a TypeError at any depth of generics. Proved for classes and generics (list, dict, Optional, Union) to any depth."
  },
  {
   "property": "C286",
   "status": "partial",
   "theorems": [
    "C286_refuted",
    "C286_partial"
   ],
   "note": "Refuted: every custom directive also gets a section of its own name with the item 'name' in it. Proved: what is shown, exactly."
  },
  {
   "property": "C287",
   "status": "partial",
   "theorems": [
    "C287_refuted",
    "C287_partial"
   ],
   "note": "Refuted: the cached list is extended in place, so the custom directives are shown once more with every listing. Proved: what the k-th listing shows."
  },
  {
   "property": "C288",
   "status": "partial",
   "theorems": [
    "C288_refuted",
    "C288_kills_refuted",
    "C288_partial"
   ],
   "note": "Refuted: a file that raises a TypeError or exits ends the command line tool, whatever the command. Proved for all other failures."
  },
  {
   "property": "C289",
   "status": "partial",
   "theorems": [
    "C289_refuted",
    "C289_partial"
   ],
   "note": "Refuted: the command is the last one found by os.walk, run takes the last location in sorted order. Proved for names found in one place."
  },
  {
   "property": "C29",
   "status": "partial",
   "theorems": [
    "C29_refuted",
    "C29_isolation_partial"
   ],
   "note": "Refuted: a value from one request's body stays in the provider and reaches the next request. Proved when the earlier bodies have no value for a provider's parameter."
  },
  {
   "property": "C290",
   "status": "partial",
   "theorems": [
    "C290_refuted",
    "C290_partial"
   ],
   "note": "Refuted: the caller's dictionary is updated with the keyword arguments of each call. Proved for calls without a dictionary or without keyword arguments."
  },
  {
   "property": "C291",
   "status": "proved",
   "theorems": [
    "C291_tasks"
   ],
   "note": "Every list of tasks; the scheduler is a parameter."
  },
  {
   "property": "C292",
   "status": "proved",
   "theorems": [
    "C292_any_schedule",
    "C292_not_cut"
   ],
   "note": "Small-step model of both tasks; content that catches its own cancellation is not modelled."
  },
  {
   "property": "C293",
   "status": "partial",
   "theorems": [
    "C293_refuted",
    "C293_blocked",
    "C293_turns_partial",
    "C293_noticed_partial"
   ],
   "note": "Refuted: iterate_in_threadpool takes the items in the loop's own thread, so synchronous content blocks every other task for as long as send does not suspend, for ever if it is endless. Proved when send suspends, and that nothing happens after the disconnect was noticed."
  },
  {
   "property": "C294",
   "status": "partial",
   "theorems": [
    "C294_refuted",
    "C294_held_partial"
   ],
   "note": "Refuted: each item is held back until the next one is there. Proved: exactly one item is held back."
  },
  {
   "property": "C295",
   "status": "partial",
   "theorems": [
    "C295_refuted",
    "C295_own_partial",
    "C295_origin"
   ],
   "note": "Refuted for nested applications: request.app is the innermost one, whose state has no mailer. Proved for the handlers of the application itself, wherever it is nested."
  },
  {
   "property": "C296",
   "status": "partial",
   "theorems": [
    "C296_refuted",
    "C296_default_partial",
    "C296_other",
    "C296_origin"
   ],
   "note": "Refuted: the dependency always looks at state.ai. Proved for the default attribute."
  },
  {
   "property": "C297",
   "status": "partial",
   "theorems": [
    "C297_refuted",
    "C297_nested_refuted",
    "C297_hooks_partial"
   ],
   "note": "Refuted for an application made with hooks (the added ones are never called) and for nested applications (their lifespan is not run). Proved for an application without hooks: exactly the attached ones run."
  },
  {
   "property": "C298",
   "status": "partial",
   "theorems": [
    "C298_refuted",
    "C298_each_once",
    "C298_late_partial",
    "C298_once_partial"
   ],
   "note": "Refuted: two requests that arrive together both find the cache empty and both call the factory. Proved: no resolution calls it twice; one that begins after a value is stored never does; without overlap it returns at most once."
  },
  {
   "property": "C299",
   "status": "partial",
   "theorems": [
    "C299_refuted",
    "C299_origin",
    "C299_settled_partial"
   ],
   "note": "Refuted: each of two overlapping resolutions keeps its own value, and the stored value changes under those that come later. Proved: every value comes from a call of the factory, and once a value is stored and none is under way it is the one all later resolutions get."
  },
  {
   "property": "C30",
   "status": "partial",
   "theorems": [
    "C30_once",
    "C30_ends",
    "C30_refuted",
    "C30_value_partial"
   ],
   "note": "At most one successful call in every history without cyclic dependencies (proved); the same value each time proved unless the factory returns a generator (refuted there). Overlapping resolutions are C298 and C299."
  },
  {
   "property": "C300",
   "status": "proved",
   "theorems": [
    "C300_reached",
    "C300_only",
    "C300_order",
    "C300_calls",
    "C300_nothing_else"
   ],
   "note": "For coroutine functions in one event loop; anyio's lock and task groups are modelled."
  },
  {
   "property": "C301",
   "status": "partial",
   "theorems": [
    "C301_refuted",
    "C301_returns",
    "C301_calm_partial"
   ],
   "note": "Refuted: a failing listener has the others cancelled, also those that have not begun. Proved: emit returns only when all have run to their end, and without a failing function nothing is cut short."
  },
  {
   "property": "C302",
   "status": "proved",
   "theorems": [
    "C302"
   ],
   "note": "With failures and cancellations; in one event loop."
  },
  {
   "property": "C303",
   "status": "proved",
   "theorems": [
    "C303"
   ],
   "note": "each request is a run of load_session, the application step by step and process_start of SessionModel; the statement follows every note of the run against a reference that holds one session"
  },
  {
   "property": "C304",
   "status": "partial",
   "theorems": [
    "C304_alone_partial",
    "C304_lives_partial",
    "C304_stranger_partial",
    "C304_refuted",
    "C304_logout_refuted"
   ],
   "note": "false: two counters lose a count, and a page that only reads, answered after a logout, logs the user in again; true for a request during which no other answer arrives, while it lives, and for requests that find no session and leave none"
  },
  {
   "property": "C305",
   "status": "proved",
   "theorems": [
    "C305"
   ],
   "note": "isalnum is a parameter that is false of slash, backslash, dot and NUL; building the message is an oracle"
  },
  {
   "property": "C306",
   "status": "partial",
   "theorems": [
    "C306_kept_partial",
    "C306_refuted"
   ],
   "note": "false: two messages in the same microsecond whose subjects agree in letters and digits share a file; true of messages at different times"
  },
  {
   "property": "C307",
   "status": "partial",
   "theorems": [
    "C307_written_partial",
    "C307_refuted"
   ],
   "note": "false: sixty letters of four bytes make a name longer than 255 bytes; true of subjects of the basic plane"
  },
  {
   "property": "C308",
   "status": "partial",
   "theorems": [
    "C308_order",
    "C308_kept_partial",
    "C308_refuted"
   ],
   "note": "false: the outbox holds the same objects, so a later change shows; the order always holds, the contents as long as no sent message is changed"
  },
  {
   "property": "C309",
   "status": "proved",
   "theorems": [
    "C309_default",
    "C309_reached"
   ],
   "note": "the headers of the answer are a parameter"
  },
  {
   "property": "C31",
   "status": "proved",
   "theorems": [
    "C31_order",
    "C31_messages",
    "C31_isolation",
    "C31_headers",
    "C31_sends",
    "C31_observed"
   ],
   "note": "For arbitrary layer programs: entry/exit order, message order, no entry but route metadata changed by code below, header list detached. Not isolated (shown by examples): the innermost layer around a controller class, and mutable scope values other than the header list."
  },
  {
   "property": "C310",
   "status": "partial",
   "theorems": [
    "C310_partial",
    "C310_letters_refuted",
    "C310_mounts_refuted"
   ],
   "note": "false for routes below a mount, and for paths that begin with the letters of the root path; proved for the other routes"
  },
  {
   "property": "C311",
   "status": "proved",
   "theorems": [
    "C311"
   ],
   "note": "without middleware, hooks and exception handlers"
  },
  {
   "property": "C312",
   "status": "partial",
   "theorems": [
    "C312_partial",
    "C312_refuted"
   ],
   "note": "an application with a root path of its own forgets the prefix of the mount; proved for applications without one"
  },
  {
   "property": "C313",
   "status": "proved",
   "theorems": [
    "C313"
   ],
   "note": "for a body known at construction and no detection of the media type from the body"
  },
  {
   "property": "C314",
   "status": "proved",
   "theorems": [
    "C314"
   ],
   "note": "over the model of URLs of C69; the path of the route is a parameter (C11, C53 and C115 are about it)"
  },
  {
   "property": "C315",
   "status": "partial",
   "theorems": [
    "C315_partial",
    "C315_question_refuted",
    "C315_percent_refuted",
    "C315_socket_refuted"
   ],
   "note": "parameters are not escaped; a request without Host to a server on a socket file makes links without a host"
  },
  {
   "property": "C316",
   "status": "proved",
   "theorems": [
    "C316"
   ],
   "note": "lower case of ASCII; no other character has one of these letters as its lower case"
  },
  {
   "property": "C317",
   "status": "proved",
   "theorems": [
    "C317"
   ],
   "note": "over the loader of C45"
  },
  {
   "property": "C318",
   "status": "partial",
   "theorems": [
    "C318_partial",
    "C318_refuted"
   ],
   "note": "the default goes through the cast, so None with cast=int fails"
  },
  {
   "property": "C319",
   "status": "partial",
   "theorems": [
    "C319_partial",
    "C319_refuted"
   ],
   "note": "membership and get ignore the prefix and the case"
  },
  {
   "property": "C32",
   "status": "partial",
   "theorems": [
    "C32_middleware",
    "C32_unique",
    "C32_endpoint",
    "C32_application_refuted",
    "C32_application_partial"
   ],
   "note": "Proved for ExceptionMiddleware and for the wrapper of endpoint functions with every table, resolution order and message history. At the level of an application it fails for handlers registered for 500 (an HTTPException 500 gets the default response); proved when nothing is registered for 500 or Exception. Http requests only."
  },
  {
   "property": "C320",
   "status": "proved",
   "theorems": [
    "C320_named",
    "C320_nameless"
   ],
   "note": "parameter names in small letters, without duplicates; values without CR and semicolon; chunks cut as in C21"
  },
  {
   "property": "C321",
   "status": "proved",
   "theorems": [
    "C321_extended",
    "C321_unmarked"
   ],
   "note": "the codec called UTF-8 is assumed to decode UTF-8"
  },
  {
   "property": "C322",
   "status": "partial",
   "theorems": [
    "C322_plain_partial",
    "C322_refuted"
   ],
   "note": "a part with filename* alone is taken for a field, even where no files are allowed"
  },
  {
   "property": "C323",
   "status": "proved",
   "theorems": [
    "C323",
    "C323_determined"
   ],
   "note": "dicts shared between objects are cells of a heap; C323_determined: the specification fixes every result"
  },
  {
   "property": "C324",
   "status": "partial",
   "theorems": [
    "C324_partial",
    "C324_refuted",
    "C324_copy_refuted"
   ],
   "note": "values under _state and copy take the place of the dict and of the method"
  },
  {
   "property": "C325",
   "status": "proved",
   "theorems": [
    "C325_given_on",
    "C325_count",
    "C325_read"
   ],
   "note": "over the container of C25, whose names have ASCII case folding"
  },
  {
   "property": "C326",
   "status": "partial",
   "theorems": [
    "C326_partial",
    "C326_refuted"
   ],
   "note": "a value that is no UTF-8 raises UnicodeDecodeError for all headers of the request"
  },
  {
   "property": "C327",
   "status": "partial",
   "theorems": [
    "C327_dict_partial",
    "C327_refuted"
   ],
   "note": "holds for dicts; another mapping is iterated by its keys"
  },
  {
   "property": "C328",
   "status": "proved",
   "theorems": [
    "C328",
    "C328_raw",
    "C328_iterated"
   ],
   "note": "bytes are decoded with surrogate escapes, modelled in full"
  },
  {
   "property": "C329",
   "status": "proved",
   "theorems": [
    "C329"
   ],
   "note": "for names that are no attributes of the class"
  },
  {
   "property": "C33",
   "status": "partial",
   "theorems": [
    "C33_grant",
    "C33_granted",
    "C33_preflight",
    "C33_same_origin",
    "C33_credentials_refuted",
    "C33_credentials_partial"
   ],
   "note": "Origins, methods and headers proved for every configuration and request. The clause about credentials and cookies fails for a refused private network request (it carries the wildcard); proved for all other requests. The application is assumed to set no Access-Control-Allow-Origin itself."
  },
  {
   "property": "C330",
   "status": "partial",
   "theorems": [
    "C330_stored_partial",
    "C330_like_set_cookie_partial",
    "C330_refuted"
   ],
   "note": "holds but for the lifetime zero, which is not written"
  },
  {
   "property": "C331",
   "status": "partial",
   "theorems": [
    "C331_readable_partial",
    "C331_encoded_partial",
    "C331_refuted"
   ],
   "note": "raw bytes that are no UTF-8 raise UnicodeDecodeError"
  },
  {
   "property": "C332",
   "status": "partial",
   "theorems": [
    "C332_same_partial",
    "C332_kept_partial",
    "C332_canonical_partial",
    "C332_refuted"
   ],
   "note": "the values of a name come back sorted"
  },
  {
   "property": "C333",
   "status": "proved",
   "theorems": [
    "C333"
   ],
   "note": "for containers of the same class whose values are texts"
  },
  {
   "property": "C334",
   "status": "partial",
   "theorems": [
    "C334_values_partial",
    "C334_refuted",
    "C334_files_refuted"
   ],
   "note": "equality ignores the order of the values of a name; two files under a name cannot be compared"
  },
  {
   "property": "C335",
   "status": "proved",
   "theorems": [
    "C335"
   ],
   "note": "for values of any type"
  },
  {
   "property": "C336",
   "status": "partial",
   "theorems": [
    "C336_last_partial",
    "C336_refuted"
   ],
   "note": "it has the last value, reading gives the first"
  },
  {
   "property": "C337",
   "status": "partial",
   "theorems": [
    "C337_closed_partial",
    "C337_refuted"
   ],
   "note": "the first failure leaves the rest open"
  },
  {
   "property": "C338",
   "status": "proved",
   "theorems": [
    "C338_stays",
    "C338_not_early",
    "C338_noticed"
   ],
   "note": "over the model of a Request of C18; that asking can swallow a part of the body is C18_disconnected_refuted"
  },
  {
   "property": "C339",
   "status": "proved",
   "theorems": [
    "C339_call",
    "C339_history"
   ],
   "note": "what a route does with its options is C95, C262-C265"
  },
  {
   "property": "C34",
   "status": "partial",
   "theorems": [
    "C34_only",
    "C34_refused_refuted",
    "C34_refused_partial",
    "C34_hangs"
   ],
   "note": "The application is called only with an authentic cookie token submitted unchanged: proved for every request. 'Otherwise 403' fails for tokens beyond ASCII (TypeError) and for clients that leave (the request waits for ever); proved for ASCII texts and bodies that arrive. HMAC is a parameter."
  },
  {
   "property": "C340",
   "status": "proved",
   "theorems": [
    "C340"
   ],
   "note": ""
  },
  {
   "property": "C341",
   "status": "proved",
   "theorems": [
    "C341_media"
   ],
   "note": ""
  },
  {
   "property": "C342",
   "status": "proved",
   "theorems": [
    "C342_forms"
   ],
   "note": ""
  },
  {
   "property": "C343",
   "status": "proved",
   "theorems": [
    "C343_queries",
    "C343_names"
   ],
   "note": ""
  },
  {
   "property": "C344",
   "status": "partial",
   "theorems": [
    "C344_refuted",
    "C344_partial"
   ],
   "note": "A name whose value is neither a Query nor a dictionary, list or tuple is dropped without an error; otherwise every name is documented."
  },
  {
   "property": "C345",
   "status": "proved",
   "theorems": [
    "C345_same",
    "C345_length"
   ],
   "note": "libmagic is a parameter; cleanup handlers and background tasks are not part of this model"
  },
  {
   "property": "C346",
   "status": "partial",
   "theorems": [
    "C346_refuted",
    "C346_partial"
   ],
   "note": "The media type found in awaited content replaces the content type that was given; in all other cases it is kept."
  },
  {
   "property": "C347",
   "status": "proved",
   "theorems": [
    "C347_again"
   ],
   "note": ""
  },
  {
   "property": "C348",
   "status": "proved",
   "theorems": [
    "C348_shortcut"
   ],
   "note": "routers that are not the router of an include; what the routes answer is C14-C16"
  },
  {
   "property": "C349",
   "status": "proved",
   "theorems": [
    "C349_form"
   ],
   "note": "secret and cookie of the helper as those of the middleware; cookies as in C24"
  },
  {
   "property": "C35",
   "status": "partial",
   "theorems": [
    "C35_refuted",
    "C35_called_partial",
    "C35_flag_partial",
    "C35_refused_partial",
    "C35_www_partial"
   ],
   "note": "An allowed IPv6 host is refused (the header is cut at its first colon), so the full statement is refuted; proved for every host without a colon, with the 400 and the www redirect."
  },
  {
   "property": "C350",
   "status": "partial",
   "theorems": [
    "C350_refuted",
    "C350_partial",
    "C350_stuck"
   ],
   "note": "An existing cookie is given on without looking at its signature: a client whose cookie is not signed with the present secret can never submit a form."
  },
  {
   "property": "C351",
   "status": "proved",
   "theorems": [
    "C351_server"
   ],
   "note": "httpx's URL.join for references without scheme, query and fragment"
  },
  {
   "property": "C352",
   "status": "partial",
   "theorems": [
    "C352_refuted",
    "C352_partial"
   ],
   "note": "The scope's scheme is compared with https, which no websocket has, and the configured scheme is not asked: the connection is never encrypted."
  },
  {
   "property": "C353",
   "status": "partial",
   "theorems": [
    "C353_refuted",
    "C353_partial"
   ],
   "note": "Of an encrypted websocket the upstream is told that it is not encrypted."
  },
  {
   "property": "C354",
   "status": "partial",
   "theorems": [
    "C354_refuted",
    "C354_partial"
   ],
   "note": "An absolute path is joined to the address, which drops the path of the address."
  },
  {
   "property": "C355",
   "status": "proved",
   "theorems": [
    "C355_session"
   ],
   "note": "at most one close is refuted under C87"
  },
  {
   "property": "C356",
   "status": "proved",
   "theorems": [
    "C356_redirect"
   ],
   "note": "routes of one router, as in C95"
  },
  {
   "property": "C357",
   "status": "proved",
   "theorems": [
    "C357_handed"
   ],
   "note": "Jinja's rendering as a parameter"
  },
  {
   "property": "C358",
   "status": "partial",
   "theorems": [
    "C358_refuted",
    "C358_never",
    "C358_partial"
   ],
   "note": "With a text and a HTML body, which a template with words always gives, no message can be built (C146)."
  },
  {
   "property": "C359",
   "status": "proved",
   "theorems": [
    "C359_checked"
   ],
   "note": "requests one after another"
  },
  {
   "property": "C36",
   "status": "partial",
   "theorems": [
    "C36_untrusted",
    "C36_forwarded_partial",
    "C36_x_forwarded_partial",
    "C36_no_header",
    "C36_real_ip",
    "C36_port_refuted"
   ],
   "note": "Untrusted peers: for every header list. Trusted: proved for forwarding headers whose first node is an IPv4 address or dotted name or a bracketed IPv6 address, with or without port, or a bare IPv6 address, a name or an obfuscated identifier without one; false for an obfuscated identifier with a port, which is kept. The two sanitizers are parameters."
  },
  {
   "property": "C360",
   "status": "proved",
   "theorems": [
    "C360_made"
   ],
   "note": "importlib and the file system as parameters"
  },
  {
   "property": "C361",
   "status": "proved",
   "theorems": [
    "C361_registered",
    "C361_failed"
   ],
   "note": "importing and Asyncz as parameters"
  },
  {
   "property": "C362",
   "status": "partial",
   "theorems": [
    "C362_refuted",
    "C362_partial"
   ],
   "note": "Asyncz's configuration does not implement stop; it has shutdown, as the protocol wants."
  },
  {
   "property": "C363",
   "status": "proved",
   "theorems": [
    "C363_attributes",
    "C363_deleted",
    "C363_jsonify"
   ],
   "note": "texts that could inject attributes are C24_attribute_refuted"
  },
  {
   "property": "C364",
   "status": "proved",
   "theorems": [
    "C364_token_cookie"
   ],
   "note": "responses that set a cookie themselves get no token (C67)"
  },
  {
   "property": "C365",
   "status": "proved",
   "theorems": [
    "C365_data",
    "C365_once"
   ],
   "note": "text keys; what else could be seen through __class__ or __dict__ is not modelled"
  },
  {
   "property": "C366",
   "status": "partial",
   "theorems": [
    "C366_refuted",
    "C366_methods_partial"
   ],
   "note": "Refuted: a value added under the name of a method takes its place. Proved: only then."
  },
  {
   "property": "C367",
   "status": "proved",
   "theorems": [
    "C367_data",
    "C367_none"
   ],
   "note": "the form parser is an oracle here (C19-C23 are about it); JSON is that of JsonModel"
  },
  {
   "property": "C368",
   "status": "partial",
   "theorems": [
    "C368_refuted",
    "C368_utf8_partial"
   ],
   "note": "Refuted: the parameters have bytes as keys and the charset is looked up as a text, so it is always UTF-8. Proved: UTF-8 is read back, whatever the header says."
  },
  {
   "property": "C369",
   "status": "partial",
   "theorems": [
    "C369_refuted",
    "C369_ascii_partial"
   ],
   "note": "Refuted: a type with a Latin-1 character is a UnicodeDecodeError. Proved for ASCII headers."
  },
  {
   "property": "C37",
   "status": "partial",
   "theorems": [
    "C37_history_partial",
    "C37_forged",
    "C37_untouched",
    "C37_cleared",
    "C37_refuted",
    "itsdangerous_round_trip",
    "itsdangerous_chars",
    "int_round_trip"
   ],
   "note": "Full statement refuted: changes made after the response start are lost. Proved for applications that change the session before the response starts and store values the serializer round-trips: every sequence of visits of a browser behaves as a server-side session with expiry. base64 and timestamps are concrete; HMAC and the serializer are parameters that give bytes."
  },
  {
   "property": "C370",
   "status": "proved",
   "theorems": [
    "C370_push"
   ],
   "note": ""
  },
  {
   "property": "C371",
   "status": "partial",
   "theorems": [
    "C371_refuted",
    "C371_only_partial"
   ],
   "note": "Refuted: characters beyond Latin-1 are dropped before the comparison. Proved for headers without them."
  },
  {
   "property": "C372",
   "status": "proved",
   "theorems": [
    "C372_answer"
   ],
   "note": "when the middleware answers is C32, C63 and C64; details that are no JSON values are not modelled"
  },
  {
   "property": "C373",
   "status": "proved",
   "theorems": [
    "C373_handler"
   ],
   "note": "pings, timeouts and data_sender_callable are not in this model (C09 has the pings and timeouts)"
  },
  {
   "property": "C374",
   "status": "proved",
   "theorems": [
    "C374_cancelled"
   ],
   "note": "a handler that goes on after its task was cancelled is not modelled"
  },
  {
   "property": "C375",
   "status": "partial",
   "theorems": [
    "C375_no_handler_partial",
    "C375_refuted"
   ],
   "note": "proved without a client_close_handler; refuted with one: while it waits, the stream goes on sending"
  },
  {
   "property": "C376",
   "status": "proved",
   "theorems": [
    "C376_events"
   ],
   "note": ""
  },
  {
   "property": "C377",
   "status": "proved",
   "theorems": [
    "C377_type"
   ],
   "note": ""
  },
  {
   "property": "C378",
   "status": "partial",
   "theorems": [
    "C378_length_partial",
    "C378_refuted"
   ],
   "note": "proved when the caller spells the name in lower case or does not give it; refuted with Content-Length: the line content-length: 0 is sent"
  },
  {
   "property": "C379",
   "status": "proved",
   "theorems": [
    "C379_kept"
   ],
   "note": "names are compared as the code does, case by case: Cache-Control is sent beside the default cache-control"
  },
  {
   "property": "C38",
   "status": "partial",
   "theorems": [
    "C38_response_partial",
    "C38_refuted",
    "C38_after"
   ],
   "note": "Proved for every complete response with at most one Content-Length line and every streaming compressor; refuted with two Content-Length lines, of which only the first is removed. A body after the end of a compressed response raises and nothing more is sent."
  },
  {
   "property": "C380",
   "status": "proved",
   "theorems": [
    "C380_found"
   ],
   "note": "what os.walk and pkgutil.iter_modules list is given; loading the file is not modelled"
  },
  {
   "property": "C381",
   "status": "partial",
   "theorems": [
    "C381_missing_partial",
    "C381_refuted"
   ],
   "note": "proved when there is some directive and the name is not location or name; refuted without directives (UnboundLocalError) and for the name location"
  },
  {
   "property": "C382",
   "status": "partial",
   "theorems": [
    "C382_kept_partial",
    "C382_refuted"
   ],
   "note": "proved when no shutdown begins while another waits; refuted for overlapping shutdowns with a startup between their ends"
  },
  {
   "property": "C383",
   "status": "proved",
   "theorems": [
    "C383_started"
   ],
   "note": "what an http request sends is C48, C49, C85 to C89"
  },
  {
   "property": "C384",
   "status": "partial",
   "theorems": [
    "C384_served_partial",
    "C384_refuted"
   ],
   "note": "proved when no shutdown ends meanwhile; refuted with one: the check of the client comes after the answer"
  },
  {
   "property": "C385",
   "status": "proved",
   "theorems": [
    "C385_same"
   ],
   "note": "sets of tuples and of frozensets are not modelled"
  },
  {
   "property": "C386",
   "status": "partial",
   "theorems": [
    "C386_json_partial",
    "C386_refuted"
   ],
   "note": "proved for what it returns on mappings, sequences and sets of texts, numbers and members with such values; refuted for frozensets, members with other values, and sets that mix texts and numbers, which raise"
  },
  {
   "property": "C387",
   "status": "proved",
   "theorems": [
    "C387_holds",
    "C387_rest"
   ],
   "note": "keys of dicts are texts; str() of other objects succeeds"
  },
  {
   "property": "C388",
   "status": "partial",
   "theorems": [
    "C388_partial",
    "C388_refuted"
   ],
   "note": "refuted: a detail becomes a list or a dict, which the default handler cannot encode; proved exactly which validation errors it answers: those without a detail, with a response of their own, or with status 204 or 304"
  },
  {
   "property": "C389",
   "status": "proved",
   "theorems": [
    "C389_answer"
   ],
   "note": "when the middleware answers is C32, C63 and C64"
  },
  {
   "property": "C39",
   "status": "partial",
   "theorems": [
    "C39_refuted",
    "C39_ipv6_refuted",
    "C39_redirect_partial",
    "C39_secure",
    "C39_no_loop_partial"
   ],
   "note": "Refuted for paths that hold a percent sign once decoded and for IPv6 hosts with an explicit default port; proved for host names, paths without '%', '?', '#' and control line ends, and queries of URL characters. That secure requests pass is proved for all."
  },
  {
   "property": "C390",
   "status": "proved",
   "theorems": [
    "C390_which",
    "C390_answer"
   ],
   "note": "by the default handler of http exceptions; which texts are ranges is C01"
  },
  {
   "property": "C391",
   "status": "partial",
   "theorems": [
    "C391_partial",
    "C391_refuted"
   ],
   "note": "refuted: the text is no f-string; proved: every refused range gets the same text, placeholders and all"
  },
  {
   "property": "C392",
   "status": "partial",
   "theorems": [
    "C392_partial",
    "C392_refuted"
   ],
   "note": "refuted for a dict that is given again; proved exactly whose request is seen: that of the first response of the dict"
  },
  {
   "property": "C393",
   "status": "partial",
   "theorems": [
    "C393_partial",
    "C393_refuted"
   ],
   "note": "refuted for a dict that is given again; proved when the dict was not used before or none is given"
  },
  {
   "property": "C40",
   "status": "proved",
   "theorems": [
    "C40_first",
    "C40_anonymous",
    "C40_refused",
    "C40_one"
   ],
   "note": "Exceptions other than AuthenticationError leave the middleware; in each case the application is not called."
  },
  {
   "property": "C41",
   "status": "proved",
   "theorems": [
    "C41_legal",
    "C41_exact",
    "C41_raises",
    "C41_close",
    "C41_accept"
   ],
   "note": "For any number of tasks sharing the websocket, in every interleaving. A message counts as sent when it is handed to the server, whose send may raise."
  },
  {
   "property": "C42",
   "status": "partial",
   "theorems": [
    "C42_valid_partial",
    "C42_valid_refuted",
    "C42_tamper_partial",
    "C42_tamper_simple_partial",
    "C42_tamper_refuted"
   ],
   "note": "Refuted for URLs that already have a sig parameter, and for changes through repeated names, blank values and the parameters of the last path segment, which the signature does not cover. Proved otherwise, with the MAC as an oracle and its collisions explicit."
  },
  {
   "property": "C43",
   "status": "partial",
   "theorems": [
    "C43_get_partial",
    "C43_refuted"
   ],
   "note": "Refuted: a lifetime of 0 never expires and a set whose value cannot be serialised keeps the old value. Proved for other lifetimes, serialisable values and a clock that does not go back."
  },
  {
   "property": "C44",
   "status": "proved",
   "theorems": [
    "C44_lexical",
    "C44_normal",
    "C44_response"
   ],
   "note": "For every request path, root path, list of directories and file system; the current directory is absolute."
  },
  {
   "property": "C45",
   "status": "partial",
   "theorems": [
    "C45_precedence",
    "C45_reload",
    "C45_readonly_partial",
    "C45_readonly_refuted",
    "C45_live_refuted"
   ],
   "note": "Precedence (overrides, YAML, .env, system, previous) is proved. Refuted: inherited multidict methods change keys that were read, and keys only in the system environment follow it. Read-only is proved for the loader's own operations and the keys it stores."
  },
  {
   "property": "C46",
   "status": "proved",
   "theorems": [
    "C46_registered",
    "C46_second",
    "C46_first",
    "C46_refused",
    "C46_order",
    "C46_passing"
   ],
   "note": "For every registration history, middleware list and message."
  },
  {
   "property": "C47",
   "status": "partial",
   "theorems": [
    "C47_complete_partial",
    "C47_members",
    "C47_progress",
    "C47_unique",
    "C47_distinct",
    "C47_refuted"
   ],
   "note": "Refuted: a subscriber that leaves just before or while it is served breaks the broadcast with BrokenResourceError, and those after it miss the message. Proved, for every interleaving, for broadcasts that end normally; broadcasts to waiting subscribers do."
  },
  {
   "property": "C48",
   "status": "partial",
   "theorems": [
    "C48_request_partial",
    "C48_response_partial",
    "C48_response_once_partial",
    "C48_rewritten_partial",
    "C48_request_drop_refuted",
    "C48_request_keep_refuted",
    "C48_request_allow_refuted",
    "C48_response_drop_refuted",
    "C48_response_keep_refuted",
    "C48_response_allow_refuted"
   ],
   "note": "Refuted: allow lists have no effect; dropped X-Forwarded headers are sent, and dropped cookies come back when they are rewritten; of repeated request headers one is kept, repeated response headers (cookies) are joined. Proved exactly which headers pass otherwise."
  },
  {
   "property": "C49",
   "status": "partial",
   "theorems": [
    "C49_attempts",
    "C49_body_partial",
    "C49_start_partial",
    "C49_answer",
    "C49_body_refuted",
    "C49_start_refuted",
    "C49_unread_refuted"
   ],
   "note": "The bound on attempts is proved. Refuted: a second attempt has no body left; an answer cut off is followed by another start; after the last refused status nothing is sent. Proved for attempts before which no body was taken, and for answers that are not cut off."
  },
  {
   "property": "C50",
   "status": "partial",
   "theorems": [
    "C50_partial",
    "C50_refuted",
    "C50_context_refuted",
    "C50_full_refuted"
   ],
   "note": "Refuted as stated: with infer_body on, a parameter with an ordinary default is read from the body on the general path only; a bound parameter named context differs. Proved when infer_body is off or no parameter has an ordinary default, no bound parameter is named context and no provider is named request or context."
  },
  {
   "property": "C51",
   "status": "proved",
   "theorems": [
    "C51_ndjson"
   ],
   "note": "NDJSONResponse.stream with the JSON encoder as an arbitrary function"
  },
  {
   "property": "C52",
   "status": "partial",
   "theorems": [
    "C52_quoting_refuted",
    "C52_first_row_refuted",
    "C52_csv_partial",
    "C52_csv_complete"
   ],
   "note": "cells are not quoted and a re-iterable async content repeats its first row; round trip proved for generators and cells without comma or newline"
  },
  {
   "property": "C53",
   "status": "partial",
   "theorems": [
    "C53_sibling_refuted",
    "C53_roundtrip_partial"
   ],
   "note": "Full statement refuted: an earlier mount with a parameter of the same name and another type raises instead of being skipped. Round trip proved for any nesting depth, brace-free values, canonical results."
  },
  {
   "property": "C54",
   "status": "partial",
   "theorems": [
    "C54_refuted",
    "C54_shared_headers_refuted",
    "C54_length_partial",
    "C54_bodyless_refuted"
   ],
   "note": "Refuted for a caller's Content-Length in another spelling, for a dict used for two responses (it is mutated), and for bodies given with 204/304. Proved when the caller gives no Content-Length."
  },
  {
   "property": "C55",
   "status": "partial",
   "theorems": [
    "C55_refuted",
    "C55_vary_partial"
   ],
   "note": "Refuted when there are two Vary lines (the second is dropped); proved for at most one."
  },
  {
   "property": "C56",
   "status": "proved",
   "theorems": [
    "C56_not_modified",
    "C56_kept"
   ],
   "note": "Every dict of headers."
  },
  {
   "property": "C57",
   "status": "partial",
   "theorems": [
    "C57_refuted",
    "C57_again_refuted",
    "C57_close_partial"
   ],
   "note": "Refuted: a raising cleanup stops the rest, and a second close runs all again; proved when none raises."
  },
  {
   "property": "C58",
   "status": "partial",
   "theorems": [
    "C58_websocket",
    "C58_http_refuted",
    "C58_requestless_refuted"
   ],
   "note": "Proved for websockets closed by the handler; refuted for HTTP requests (nothing closes the request) and for request-less Depends (closed before use)."
  },
  {
   "property": "C59",
   "status": "partial",
   "theorems": [
    "C59_refuted",
    "C59_request_first_partial"
   ],
   "note": "Refuted: the request replaces the first parameter when it is not the first itself; proved when it is the first."
  },
  {
   "property": "C60",
   "status": "partial",
   "theorems": [
    "C60_refuted",
    "C60_mapping_partial"
   ],
   "note": "Refuted for a text or JSON array body; proved for mappings and empty bodies."
  },
  {
   "property": "C61",
   "status": "partial",
   "theorems": [
    "C61_refuted",
    "C61_list_refused",
    "C61_constants_partial"
   ],
   "note": "Refuted: True registered after 1 is injected as 1, and unhashable constants are refused; proved up to Python equality, exactly for non-numbers."
  },
  {
   "property": "C62",
   "status": "proved",
   "theorems": [
    "C62_downstream",
    "C62_metadata",
    "C62_metadata_first_message"
   ],
   "note": "What outer layers add is seen below; route metadata reaches the outer scope before the first message and at the end."
  },
  {
   "property": "C63",
   "status": "partial",
   "theorems": [
    "C63_refuted",
    "C63_nearest_partial"
   ],
   "note": "Refuted for endpoint functions (the wrapper consults the application's handlers first); proved for controllers and for exceptions without an application handler."
  },
  {
   "property": "C64",
   "status": "partial",
   "theorems": [
    "C64_refuted",
    "C64_one_response_partial",
    "C64_unhandled_500"
   ],
   "note": "Refuted: handlers of a path or include answer after the response has started. Proved without such handlers."
  },
  {
   "property": "C65",
   "status": "partial",
   "theorems": [
    "C65_refuted",
    "C65_vary_partial"
   ],
   "note": "Refuted for an allowed private network request with all origins allowed; proved for all other requests."
  },
  {
   "property": "C66",
   "status": "partial",
   "theorems": [
    "C66_body",
    "C66_header",
    "C66_urlencoded",
    "C66_multipart_refuted",
    "C66_multipart_partial"
   ],
   "note": "Body, header and urlencoded forms proved; a multipart form is refused if its boundary has a capital letter, proved otherwise."
  },
  {
   "property": "C67",
   "status": "partial",
   "theorems": [
    "C67_refuted",
    "C67_partial"
   ],
   "note": "Refuted if the response sets another cookie; proved otherwise."
  },
  {
   "property": "C68",
   "status": "partial",
   "theorems": [
    "C68_referrer_partial",
    "C68_empty",
    "C68_refuted"
   ],
   "note": "A Referer whose port is not a number raises ValueError instead of a 400 (refuted); proved for referrers that are well-formed URLs with a host name."
  },
  {
   "property": "C69",
   "status": "partial",
   "theorems": [
    "C69_parts_partial",
    "C69_replace_partial",
    "C69_authority_partial",
    "C69_relative_partial",
    "C69_host_refuted",
    "C69_split_refuted"
   ],
   "note": "Proved for well-formed URL texts (the specification's grammar); refuted: replace(hostname=url.hostname) for IPv6, and printing of a URL made from a SplitResult."
  },
  {
   "property": "C70",
   "status": "partial",
   "theorems": [
    "C70_include",
    "C70_remove_partial",
    "C70_remove_refuted",
    "C70_replace"
   ],
   "note": "remove_query_params drops only the first value of a repeated parameter (refuted); proved for parameters that occur once. include and replace proved."
  },
  {
   "property": "C71",
   "status": "proved",
   "theorems": [
    "C71_fixed",
    "C71_taken"
   ],
   "note": "For an equality of values that is exact and an address that is not None."
  },
  {
   "property": "C72",
   "status": "proved",
   "theorems": [
    "C72_part",
    "C72_empty"
   ],
   "note": "For sessions whose value at the sub path is absent or a mapping."
  },
  {
   "property": "C73",
   "status": "partial",
   "theorems": [
    "C73_identity_partial",
    "C73_found_partial",
    "C73_refuted"
   ],
   "note": "Refuted: the middleware looks for the letters gzip, so gzip;q=0 is taken as acceptance. Proved: without these letters nothing is changed, and a listed gzip is found."
  },
  {
   "property": "C74",
   "status": "partial",
   "theorems": [
    "C74_http_partial",
    "C74_unauthenticated",
    "C74_socket_never",
    "C74_refuted"
   ],
   "note": "Refuted: the framework passes websockets positionally, where the decorator does not look, so websocket handlers always run. Proved for http handlers whose request parameter comes first among request, websocket and the configured name."
  },
  {
   "property": "C75",
   "status": "partial",
   "theorems": [
    "C75_sequence_partial",
    "C75_returns",
    "C75_accept",
    "C75_refuted"
   ],
   "note": "Refuted: accept() after a disconnect makes the websocket receive again. Proved for one task that does not do so."
  },
  {
   "property": "C76",
   "status": "partial",
   "theorems": [
    "C76_once",
    "C76_not_connected",
    "C76_data_partial",
    "C76_refuted"
   ],
   "note": "on_disconnect once is proved for every ending of an accepted connection; if on_connect raises no other hook runs. Refuted for data: without an encoding an empty text counts as missing and ends the connection. Proved for the other messages and for every encoding."
  },
  {
   "property": "C77",
   "status": "partial",
   "theorems": [
    "C77_dispatch_partial",
    "C77_refuted"
   ],
   "note": "Refuted: every attribute of the class is reachable as an HTTP method of that name. Proved for methods that name no other attribute."
  },
  {
   "property": "C78",
   "status": "partial",
   "theorems": [
    "C78_served_partial",
    "C78_refuted"
   ],
   "note": "Refuted for a first name that begins with a dot, which is stripped; proved for all other paths."
  },
  {
   "property": "C79",
   "status": "partial",
   "theorems": [
    "C79_no_links_partial",
    "C79_refuted"
   ],
   "note": "Refuted: the resolved path is served wherever it is. Proved only for a file system without links."
  },
  {
   "property": "C80",
   "status": "partial",
   "theorems": [
    "C80_tags_partial",
    "C80_refuted"
   ],
   "note": "Refuted when If-Modified-Since is sent too; proved without it."
  },
  {
   "property": "C81",
   "status": "partial",
   "theorems": [
    "C81_lines_partial",
    "C81_refuted"
   ],
   "note": "Refuted: an empty value swallows the next line. Proved for files of lines with non-empty values."
  },
  {
   "property": "C82",
   "status": "proved",
   "theorems": [
    "C82_flat",
    "C82_leaf"
   ],
   "note": "Top-level keys are not empty; of equal dotted names the last counts."
  },
  {
   "property": "C83",
   "status": "partial",
   "theorems": [
    "C83_expansion_partial",
    "C83_refuted"
   ],
   "note": "Refuted: an empty default counts as none. Proved for texts of plain parts and references with non-empty defaults."
  },
  {
   "property": "C84",
   "status": "proved",
   "theorems": [
    "C84_order"
   ],
   "note": "For every interleaving of broadcasters and subscribers."
  },
  {
   "property": "C85",
   "status": "partial",
   "theorems": [
    "C85_body_partial",
    "C85_refuted"
   ],
   "note": "Refuted for compressed answers, which are decompressed under their old headers; proved without Content-Encoding."
  },
  {
   "property": "C86",
   "status": "partial",
   "theorems": [
    "C86_domain_partial",
    "C86_refuted"
   ],
   "note": "Refuted for a cookie named domain; everything else is proved."
  },
  {
   "property": "C87",
   "status": "partial",
   "theorems": [
    "C87_order",
    "C87_close_partial",
    "C87_close_refuted"
   ],
   "note": "Order and content are proved in every interleaving. Refuted: two closes when the client writes after the upstream's end, or the upstream fails."
  },
  {
   "property": "C88",
   "status": "partial",
   "theorems": [
    "C88_path_partial",
    "C88_refuted"
   ],
   "note": "Refuted: the mount's path is forwarded as well. Proved for a relay that is not mounted and paths without dot segments."
  },
  {
   "property": "C89",
   "status": "partial",
   "theorems": [
    "C89_below_partial",
    "C89_refuted"
   ],
   "note": "Refuted by dot segments; proved without."
  },
  {
   "property": "C90",
   "status": "proved",
   "theorems": [
    "C90_value",
    "C90_refused",
    "C90_422"
   ],
   "note": "Casts, providers and body parsing are oracles; on the paths that are taken by the code. Excludes parameters named request and context, which are always the request and the context."
  },
  {
   "property": "C91",
   "status": "proved",
   "theorems": [
    "C91_provider",
    "C91_missing",
    "C91_websocket",
    "C91_websocket_missing"
   ],
   "note": "Providers are oracles; the levels are those the scope carries."
  },
  {
   "property": "C92",
   "status": "proved",
   "theorems": [
    "C92_nested",
    "C92_overlap"
   ],
   "note": "ASCII digits in indices. Overlapping fields may raise (C92_overlap) or overwrite."
  },
  {
   "property": "C93",
   "status": "partial",
   "theorems": [
    "C93_text_partial",
    "C93_object",
    "C93_json",
    "C93_refuted"
   ],
   "note": "Refuted: white space around a text is stripped. Proved for texts without it. The JSON reader is an oracle."
  },
  {
   "property": "C94",
   "status": "partial",
   "theorems": [
    "C94_type_partial",
    "C94_tuple_partial",
    "C94_bool",
    "C94_union",
    "C94_union_text",
    "C94_items",
    "C94_refuted"
   ],
   "note": "Refuted: a tuple of given types may come out too short (and drops further values). Proved for types without such tuples, and for all types with tuples that may be too short. Classes, str(), bool(), hashing and the JSON mapping are oracles."
  },
  {
   "property": "C95",
   "status": "partial",
   "theorems": [
    "C95_permissions_partial",
    "C95_path",
    "C95_middlewares",
    "C95_refuted"
   ],
   "note": "Refuted: an application with one fixed path and no middleware runs its handler without asking the application's permissions. Proved for all other applications; the middlewares, and what the path itself declares, are enforced in all. All routes are paths."
  },
  {
   "property": "C96",
   "status": "partial",
   "theorems": [
    "C96_shortcut_partial",
    "C96_refuted",
    "C96_callbacks_refuted",
    "C96_overrides_refuted",
    "C96_defer_refuted",
    "C96_added_route_refuted",
    "C96_path_handlers_refuted"
   ],
   "note": "Refuted: permissions, router callbacks, overridden dependencies, ContinueRouting, routes added later and exception handlers of the path are treated differently. Proved without these."
  },
  {
   "property": "C97",
   "status": "partial",
   "theorems": [
    "C97_configured_partial",
    "C97_middleware_accepted",
    "C97_permission_refuted",
    "C97_route_refuted",
    "C97_late_partial",
    "C97_late_refuted"
   ],
   "note": "Refuted: add_permission has no effect, a route added on the path of a one-path application is not reached, a handler of exceptions registered after the first request is not used. Proved for middlewares, handlers, and routes when the shortcut is off."
  },
  {
   "property": "C98",
   "status": "partial",
   "theorems": [
    "C98_hooks_partial",
    "C98_later_partial",
    "C98_refuted",
    "C98_router_partial",
    "C98_router_refuted",
    "C98_context_refuted"
   ],
   "note": "Refuted: a handler added to an application made with any hook (or while a global hook exists) is never called; a router with hooks of its own leaves the global ones out; with a lifespan context manager hooks are silently ignored. Proved for the hooks given at construction, and for added ones if there are no others."
  },
  {
   "property": "C99",
   "status": "partial",
   "theorems": [
    "C99_startup_fails",
    "C99_startup_succeeds",
    "C99_server_gone",
    "C99_protocol",
    "C99_released_partial",
    "C99_released_refuted"
   ],
   "note": "The protocol is proved for all behaviours (contexts that swallow exceptions excepted). Refuted: a shutdown hook after one that raises is not called; proved if only the last may raise."
  }
 ]
}