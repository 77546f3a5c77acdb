{"id": "C01", "title": "A parsed Range header names exactly the bytes the client asked for", "statement": "For a Range header accepted by parse_range_value in its default (ascending) mode, the returned list of ranges is strictly increasing and pairwise disjoint, every range lies inside [0, max], the union of the returned ranges is exactly the union of the ranges requested by the header, and the reported size is the number of bytes in that union. A header with out-of-order or overlapping ranges, or more than max_ranges ranges, or with a unit that is not offered, is ignored (None).", "quantifier": "every header string, every file size, every max_ranges limit", "why_tests_cant": "The set of header strings is infinite; overlap, adjacency and boundary arithmetic can be wrong for one pair of endpoints only.", "anchors": ["lilya/ranges.py:parse_range_value", "lilya/ranges.py:_parse_range", "lilya/ranges.py:_parse_range_intern"]}
{"id": "C02", "title": "A suffix byte range returns exactly the last N bytes", "statement": "For a header 'bytes=-N' on a representation of L bytes the parsed range covers exactly the last min(N, L) bytes, and N=0 is unsatisfiable.", "quantifier": "every N and every length L", "why_tests_cant": "An off-by-one in the suffix form is invisible unless the exact pair (N, L) is compared byte for byte.", "anchors": ["lilya/ranges.py:_parse_range_intern"]}
{"id": "C03", "title": "Unordered range sets are normalised to a disjoint cover of the request", "statement": "With enforce_asc disabled, the parsed ranges are sorted, pairwise disjoint, cover exactly the bytes requested, and the reported size is the number of bytes covered.", "quantifier": "every header string with ranges in any order and overlap pattern, every length", "why_tests_cant": "Overlap patterns are unbounded; a single adjacency/duplicate pattern may break the bookkeeping.", "anchors": ["lilya/ranges.py:parse_range_value"]}
{"id": "C04", "title": "A file response sends exactly the announced bytes", "statement": "For a full-file or single-range file response to a GET, the concatenation of the body messages is exactly the requested slice of the file, Content-Length equals the number of body bytes, Content-Range names that slice, the status is 200 or 206 accordingly, and exactly one message is final (more_body false) and it is the last.", "quantifier": "every file content, every chunk size, every requested slice", "why_tests_cant": "Chunk boundaries interact with file length; only a proof covers all lengths relative to the chunk size.", "anchors": ["lilya/responses.py:FileResponse.__call__", "lilya/responses.py:FileResponse.set_range_headers"]}
{"id": "C05", "title": "A multipart/byteranges response announces its real length and is well formed", "statement": "For a multi-range file response the Content-Length header equals the number of body bytes sent and the body is terminated by the closing boundary.", "quantifier": "every file and every set of at least two ranges", "why_tests_cant": "Header/body agreement must hold for all range sets.", "anchors": ["lilya/responses.py:FileResponse.set_range_headers", "lilya/responses.py:FileResponse.__call__"]}
{"id": "C06", "title": "A streamed response is the concatenation of the produced chunks with one terminator", "statement": "For any sequence of chunks produced by the handler's iterator, a StreamingResponse emits one http.response.start first, then body messages whose concatenation is the concatenation of the chunks in order, and exactly one message with more_body false, which is the last; for HEAD and OPTIONS no chunk is sent.", "quantifier": "every finite sequence of chunks (including empty chunks and the empty sequence), every method", "why_tests_cant": "Chunk sequences are unbounded; the delayed-chunk logic has an off-by-one risk at 0, 1 and n chunks.", "anchors": ["lilya/responses.py:StreamingResponse.stream", "lilya/responses.py:StreamingResponse.__call__"]}
{"id": "C07", "title": "Server-sent event messages survive the wire", "statement": "A message encoded by SSEMessage.to_wire and decoded by a conforming event-stream parser yields one event with the same event name, id, retry and data (data compared line by line), whatever text the data contains.", "quantifier": "every event name, id, retry value and data string", "why_tests_cant": "Strings are unbounded and newline characters inside fields change the framing.", "anchors": ["lilya/contrib/sse/channels.py:SSEMessage.to_wire"]}
{"id": "C08", "title": "Data yielded to an event-stream response cannot forge other fields or events", "statement": "Encoding one event dict for EventStreamResponse produces exactly one event when decoded by a conforming parser, with exactly the given fields, whatever the data string contains.", "quantifier": "every data/event/id string", "why_tests_cant": "Injection depends on a specific character anywhere in an unbounded string.", "anchors": ["lilya/responses.py:EventStreamResponse._encode_event"]}
{"id": "C09", "title": "Concurrent pings never break the event-stream response protocol", "statement": "Under every interleaving of the streaming task and the ping task, the messages sent are one start, then bodies with more_body true, then exactly one body with more_body false, and nothing after it.", "quantifier": "every interleaving of the stream, ping and disconnect tasks and every number of events and pings", "why_tests_cant": "Interleavings are unbounded and rare schedules are not reproducible in tests.", "anchors": ["lilya/responses.py:EventStreamResponse._stream_response", "lilya/responses.py:EventStreamResponse._ping", "lilya/responses.py:EventStreamResponse.__call__"]}
{"id": "C10", "title": "A path matches a template exactly when it is an instance of it", "statement": "compile_path(template) matches a request path iff the path is obtained from the template by replacing each parameter with a string of that parameter's type; the captured values, put back in the template, give the path.", "quantifier": "every template (literals and typed parameters) and every request path", "why_tests_cant": "Both templates and paths are unbounded; regex escaping and anchoring errors show up only on particular strings.", "anchors": ["lilya/_internal/_path.py:compile_path", "lilya/_internal/_path.py:generate_regex_and_format", "lilya/_internal/_path_transformers.py"]}
{"id": "C11", "title": "Reversing a route gives a path that routes back to it with the same parameters", "statement": "For a route and parameters accepted by the reverse lookup, the produced path matches the same route's pattern and the captured parameters convert back to the values supplied.", "quantifier": "every template, every assignment of parameter values", "why_tests_cant": "Values are unbounded strings; separators or braces inside a value break the round trip.", "anchors": ["lilya/_internal/_path.py:replace_params", "lilya/routing/path.py:Path.url_path_for", "lilya/_internal/_path.py:clean_path"]}
{"id": "C12", "title": "Path normalisation is canonical and idempotent", "statement": "clean_path returns a path that starts with '/', contains no '//' and does not end in '/' unless it is '/', is the identity on such paths, and keeps the sequence of non-empty segments.", "quantifier": "every string", "why_tests_cant": "Needs all positions and run lengths of slashes.", "anchors": ["lilya/_internal/_path.py:clean_path"]}
{"id": "C13", "title": "Path parameter converters are inverse of each other", "statement": "For int (and float, uuid forms modelled) converters: the string produced for a value is accepted by the converter's pattern and converts back to the value; every string accepted by the pattern converts without error.", "quantifier": "every non-negative integer, every accepted string", "why_tests_cant": "Infinite domain; leading zeros and sizes matter.", "anchors": ["lilya/_internal/_path_transformers.py"]}
{"id": "C14", "title": "Routing picks the first full match, else the first method mismatch, else redirect, else not found", "statement": "For every list of routes and every request whose handlers send a response and do not defer, the router dispatches to exactly one target: the first route that fully matches; if none, the first that matches except for the method; if none and slash redirect is enabled and toggling the trailing slash would match, a redirect to that path; otherwise the default handler. No other route's handler runs.", "quantifier": "every list of routes, every request", "why_tests_cant": "Route tables and paths are unbounded; priority bugs depend on the order of overlapping patterns.", "anchors": ["lilya/routing/router.py:Router.app", "lilya/routing/router.py:Router.handle_route", "lilya/routing/router.py:Router.handle_partial", "lilya/routing/path.py:Path.search"]}
{"id": "C15", "title": "Deferring to the next route does not change what the next route sees", "statement": "If a handler raises ContinueRouting, the next matching route is run as if the deferring route were absent: same path parameters, same request messages.", "quantifier": "every list of routes with any subset deferring, every request", "why_tests_cant": "Histories of deferral are unbounded and leaks show only when parameter names differ.", "anchors": ["lilya/routing/router.py:Router.handle_route", "lilya/routing/router.py:Router.app", "lilya/datastructures.py:SendReceiveSniffer"]}
{"id": "C16", "title": "A method is served iff it is declared", "statement": "A Path with methods M runs its handler for a request exactly when the request method is in M (compared with M upper-cased) (plus HEAD when GET is in M); otherwise the answer is 405 with an Allow header listing exactly those methods.", "quantifier": "every method set and request method", "why_tests_cant": "Every combination must be consistent between matching and dispatch.", "anchors": ["lilya/routing/path.py:Path.__init__", "lilya/routing/path.py:Path.handle_match", "lilya/routing/path.py:Path.handle_dispatch"]}
{"id": "C17", "title": "Mounting composes: a mounted route is matched on the remainder of the path and the prefix accumulates", "statement": "When an Include matches, the child sees as its route path exactly the remainder after the mount prefix, its root_path is the parent's root_path followed by the matched prefix, and root_path + remaining path is the original path; parameters of all levels are combined.", "quantifier": "every nesting depth, every prefix and path", "why_tests_cant": "Nesting depth is unbounded and prefix stripping is textual.", "anchors": ["lilya/routing/include.py:Include.search", "lilya/routing/include.py:Include.handle_match", "lilya/_internal/_path.py:get_route_path"]}
{"id": "C18", "title": "Reading the body yields exactly the bytes sent, once, in order", "statement": "For every sequence of http.request messages, body() returns the concatenation of the message bodies up to the first with more_body false; repeated calls return the same bytes; stream() yields the same bytes; a client disconnect before the end raises ClientDisconnect; sniffing first does not lose or duplicate bytes.", "quantifier": "every message sequence and every order of calls to sniff/body/stream/json", "why_tests_cant": "Message splits and call orders are unbounded.", "anchors": ["lilya/requests.py:Request.stream", "lilya/requests.py:Request.body", "lilya/requests.py:Request.sniff"]}
{"id": "C19", "title": "URL-encoded parsing does not depend on how the network split the body", "statement": "The fields produced for a body are the same for every way of cutting the body into chunks.", "quantifier": "every body and every partition into chunks", "why_tests_cant": "There are exponentially many partitions; state carried across chunk boundaries is where parsers break.", "anchors": ["lilya/contrib/multipart/parsers.py:QuerystringParser.write", "lilya/contrib/multipart/parsers.py:QuerystringParser.finalize"]}
{"id": "C20", "title": "URL-encoded form values round-trip", "statement": "A list of (name, value) pairs encoded with the standard application/x-www-form-urlencoded encoding is parsed back to the same list.", "quantifier": "every list of pairs of byte strings", "why_tests_cant": "Escaping bugs need particular characters such as '+' or '%'.", "anchors": ["lilya/_internal/_parsers.py:FormParser.parse", "lilya/contrib/multipart/parsers.py:QuerystringParser"]}
{"id": "C21", "title": "Multipart parsing does not depend on how the network split the body", "statement": "The parts produced for a multipart body are the same for every way of cutting the body into chunks.", "quantifier": "every body and every partition into chunks", "why_tests_cant": "Boundary strings can straddle any chunk edge.", "anchors": ["lilya/contrib/multipart/parsers.py:MultipartParser.write", "lilya/_internal/_parsers.py:MultiPartParser.parse"]}
{"id": "C22", "title": "A well-formed multipart body is parsed into its parts", "statement": "For every list of fields and files whose bodies do not contain the delimiter, the multipart encoding of the list delivered in one write is parsed into exactly those fields (name, text) and files (name, file name, headers, content, position 0), in order.", "quantifier": "every list of parts, every boundary, every body content without the delimiter", "why_tests_cant": "Contents are unbounded byte strings including CR/LF sequences near the delimiter.", "anchors": ["lilya/contrib/multipart/parsers.py:MultipartParser.write"]}
{"id": "C23", "title": "Multipart limits bound what a client can make the server keep", "statement": "When max_fields/max_files are set, a multipart form that parses successfully has at most that many text fields and at most that many files.", "quantifier": "every body, every way it is cut into chunks, every limit", "why_tests_cant": "The bound must hold along every history of callbacks, including events after the terminator.", "anchors": ["lilya/_internal/_parsers.py:MultiPartParser.on_part_data", "lilya/_internal/_parsers.py:MultiPartParser.on_part_end", "lilya/_internal/_parsers.py:MultiPartParser.on_headers_finished"]}
{"id": "C24", "title": "Cookies set by a response come back as set", "statement": "After any history of set_cookie and delete_cookie calls, a client that stores the cookies and sends them back makes request.cookies equal to the last values set and not deleted; a Cookie header with several pairs or repeated names gives exactly those names, the last value winning.", "quantifier": "every history of calls, every legal name and every value", "why_tests_cant": "Unbounded strings and repetitions.", "anchors": ["lilya/_internal/_parsers.py:cookie_parser", "lilya/responses.py:Response.set_cookie", "lilya/responses.py:Response.delete_cookie", "lilya/_internal/_connection.py:Connection.cookies"]}
{"id": "C25", "title": "Headers are case-insensitive multi-maps that keep order", "statement": "After any sequence of set/add/delete/setdefault/pop operations, reading a header by any capitalisation (get, getall, getlist, in) returns what the abstract case-insensitive ordered multi-map would return, the operations return its results, poplist removes what it returns, and the header lines given to the server hold exactly its values.", "quantifier": "every operation history and every capitalisation", "why_tests_cant": "Histories are unbounded.", "anchors": ["lilya/datastructures.py:Header", "lilya/datastructures.py:MultiMixin"]}
{"id": "C26", "title": "Replaying a sniffed channel reproduces the original message sequence", "statement": "After any number of receives through SendReceiveSniffer followed by repeat_message, further receives yield first the already consumed messages in order and then the rest, with nothing lost or duplicated.", "quantifier": "every message sequence and every history of receive/repeat", "why_tests_cant": "Histories are unbounded.", "anchors": ["lilya/datastructures.py:SendReceiveSniffer"]}
{"id": "C27", "title": "Scoped dependencies are cleaned up exactly once, in reverse order, even when cleanups fail", "statement": "When a dependency scope closes, every registered cleanup runs exactly once in LIFO order, whatever subset of cleanups raises, including cleanups registered during the closing.", "quantifier": "every registration history and every failure subset", "why_tests_cant": "Failure subsets are exponential.", "anchors": ["lilya/dependencies.py:PureScope"]}
{"id": "C28", "title": "Scope-managed values are created once per scope and key", "statement": "Between two clears of a scope every request for the same (scope, key) returns the same instance and the factory runs once, even when requests overlap.", "quantifier": "every history and every interleaving of requests", "why_tests_cant": "Races between a check and an awaited creation are schedule-dependent.", "anchors": ["lilya/_internal/_scopes.py:ScopeManager.get_or_create", "lilya/_internal/_scopes.py:ScopeManager.clear"]}
{"id": "C29", "title": "One request's data never reaches another request through a shared provider", "statement": "Resolving a Provide for a request depends only on that request and the registered dependencies: the result is the same whatever requests were resolved before with the same Provide object (cache off).", "quantifier": "every history of requests sharing a Provide", "why_tests_cant": "Leaks depend on the history of earlier requests.", "anchors": ["lilya/dependencies.py:Provide._resolve_internal", "lilya/dependencies.py:Provide.resolve"]}
{"id": "C30", "title": "A cached dependency is evaluated once per owner and never again", "statement": "With use_cache a Provide's factory runs at most once over any sequence of resolutions and all later resolutions return the first value.", "quantifier": "every sequence of resolutions", "why_tests_cant": "Quantifies over histories.", "anchors": ["lilya/dependencies.py:Provide.resolve", "lilya/dependencies.py:Provide._resolve_internal"]}
{"id": "C31", "title": "Middlewares nest as declared and leak only routing metadata outward", "statement": "With a stack of middlewares m1..mn applied to an app, entry order is m1..mn and exit order is mn..m1, for every n; and mutations made to the scope by inner layers are visible to an isolated outer layer only for the route metadata keys.", "quantifier": "every list of middlewares and every scope mutation", "why_tests_cant": "Unbounded stacks and arbitrary mutation sets.", "anchors": ["lilya/_internal/_middleware.py:apply_asgi_stack", "lilya/_internal/_middleware.py:ScopeIsolationMiddleware"]}
{"id": "C32", "title": "The most specific registered exception handler runs, and only before the response started", "statement": "For an exception raised by the app, the handler registered for its status code (HTTP exceptions) is used, else the one registered for the first class in its resolution order; with no such handler, or once the response has started, the exception propagates and no handler output is sent.", "quantifier": "every handler table, class hierarchy (MRO list), message history", "why_tests_cant": "Handler tables and hierarchies are unbounded; 'already started' depends on the message history.", "anchors": ["lilya/middleware/exceptions.py:ExceptionMiddleware.__call__", "lilya/_internal/_exception_handlers.py"]}
{"id": "C33", "title": "A disallowed origin never receives a CORS grant", "statement": "For every configuration and request, Access-Control-Allow-Origin in the response is either '*' (only when all origins are allowed) or equal to the request Origin, and the latter only if that origin is allowed; a preflight with a disallowed origin, method or header is answered 400; with credentials and a cookie '*' is never sent.", "quantifier": "every configuration, origin string, method and header list", "why_tests_cant": "Origins are unbounded strings; the rule must hold for every combination of flags.", "anchors": ["lilya/middleware/cors.py:CORSMiddleware"]}
{"id": "C34", "title": "An unsafe request reaches the application only with a matching, authentic CSRF token", "statement": "For a state-changing method the wrapped application is called only if the request carries a CSRF cookie whose signature verifies and a submitted token (header or form field) that is equal to the cookie's token secret; otherwise 403.", "quantifier": "every request (method, cookies, headers, body), every secret", "why_tests_cant": "Adversarial inputs are unbounded.", "anchors": ["lilya/middleware/csrf.py:CSRFMiddleware.__call__", "lilya/contrib/security/csrf.py:tokens_match"]}
{"id": "C35", "title": "Only allowed hosts reach the application", "statement": "With a set of allowed host patterns, the application is called exactly when the Host header (without port) equals a pattern or, for '*.domain', ends in '.domain'; otherwise a 400 is sent (or a redirect to the www form when configured and that form is allowed).", "quantifier": "every pattern list and Host header", "why_tests_cant": "Unbounded strings; suffix checks are famous for edge cases.", "anchors": ["lilya/middleware/trustedhost.py:TrustedHostMiddleware"]}
{"id": "C36", "title": "Forwarded client addresses are believed only from trusted proxies", "statement": "If the peer is not a trusted proxy the reported client IP is the peer's address whatever headers are sent; if trusted, it is taken from the forwarding headers.", "quantifier": "every header list, peer and trusted set", "why_tests_cant": "Headers are attacker controlled and unbounded.", "anchors": ["lilya/clientip.py:get_ip", "lilya/middleware/clientip.py:ClientIPMiddleware"]}
{"id": "C37", "title": "Session data round-trips through the cookie and cannot be forged", "statement": "The session stored at the end of a request is exactly the session loaded by the next request presenting the cookie before expiry; a missing, expired or tampered cookie gives an empty session; clearing a non-empty session deletes the cookie; an untouched empty session sends no cookie.", "quantifier": "every session content and every sequence of requests", "why_tests_cant": "Histories and contents are unbounded; relies on algebra of the signer.", "anchors": ["lilya/middleware/sessions.py:SessionMiddleware"]}
{"id": "C38", "title": "Compressed responses decode to the original and keep the message protocol", "statement": "For every sequence of start/body messages of a response, the compressing middleware emits one start and body messages with one final; decoding the concatenation per Content-Encoding gives the original body; Content-Length, when present, is the length of what is sent; small, already encoded or excluded responses pass unchanged.", "quantifier": "every message sequence and minimum size", "why_tests_cant": "Chunk sequences are unbounded.", "anchors": ["lilya/middleware/compression.py:GZipResponder"]}
{"id": "C39", "title": "Plain-http requests are redirected to the same resource over TLS and secure ones are never redirected", "statement": "Requests whose scheme is http/ws are answered with a redirect to the same host, path and query with https/wss and no explicit default port; requests already secure reach the application; hence redirects cannot loop.", "quantifier": "every host, port, path and query", "why_tests_cant": "Unbounded strings; loops need the composition of two requests.", "anchors": ["lilya/middleware/httpsredirect.py:HTTPSRedirectMiddleware"]}
{"id": "C40", "title": "Authentication: first answering backend wins and a failing backend stops the request", "statement": "Backends are consulted in order; the first non-null result is installed as user/auth; if none answers the user is anonymous; if a backend raises, the application is not called; exactly one of application/error response happens.", "quantifier": "every list of backends and outcomes", "why_tests_cant": "Lists of backends are unbounded.", "anchors": ["lilya/middleware/authentication.py:BaseAuthMiddleware.__call__", "lilya/middleware/authentication.py:AuthenticationMiddleware.authenticate"]}
{"id": "C41", "title": "A WebSocket endpoint can only emit a legal ASGI message sequence", "statement": "Whatever sequence of accept/send/close/receive calls an endpoint makes and whatever the client sends, the messages actually sent are a prefix of: accept, data*, close (or close before accept, or a denial response), and illegal calls raise without sending.", "quantifier": "every call sequence and every client message sequence", "why_tests_cant": "Call sequences are unbounded.", "anchors": ["lilya/websockets.py:WebSocket"]}
{"id": "C42", "title": "A signed URL verifies until it expires and any covered change is rejected", "statement": "For every URL, secret and lifetime, verify(sign(url)) holds before expiry and fails after; changing path or any query pair (other than the signature) makes verification fail unless the MAC collides.", "quantifier": "every URL, query list, time and tampering", "why_tests_cant": "Inputs and tamperings are unbounded.", "anchors": ["lilya/contrib/security/signed_urls.py:SignedURLGenerator"]}
{"id": "C43", "title": "The in-memory cache returns the latest live value", "statement": "After any sequence of set/get/delete operations at non-decreasing times, get returns the value of the last set for that key if it was not deleted since and its lifetime has not elapsed, and nothing otherwise.", "quantifier": "every history, key, ttl and time", "why_tests_cant": "Histories are unbounded.", "anchors": ["lilya/caches/memory.py:InMemoryCache"]}
{"id": "C44", "title": "Static file lookups stay inside the configured directories", "statement": "Whatever the request path, the file looked up lies, after lexical normalisation, inside one of the configured directories.", "quantifier": "every request path", "why_tests_cant": "Traversal strings are unbounded.", "anchors": ["lilya/staticfiles.py:StaticFiles.get_path", "lilya/staticfiles.py:StaticFiles.lookup_path", "lilya/staticfiles.py:StaticFiles.get_full_path"]}
{"id": "C45", "title": "Configuration variables are immutable once read and follow the documented precedence", "statement": "After load, a key's value is the one from the highest-precedence source defining it; once a key has been read, setting or deleting it raises and its value never changes until reload.", "quantifier": "every set of sources and every history of reads/writes", "why_tests_cant": "Histories and source combinations are unbounded.", "anchors": ["lilya/environments.py:EnvironLoader._read_env_file", "lilya/environments.py:EnvironLoader._flatten_dict"]}
{"id": "C46", "title": "CQRS dispatch runs the one registered handler inside the declared middlewares", "statement": "Registering two handlers for one message type fails and keeps the first; dispatch runs exactly the registered handler, wrapped by the middlewares in declared order, and unregistered types raise.", "quantifier": "every registration history and middleware list", "why_tests_cant": "Histories and stacks are unbounded.", "anchors": ["lilya/contrib/cqrs/registry.py:HandlerRegistry", "lilya/contrib/cqrs/bus.py:Pipeline"]}
{"id": "C47", "title": "A broadcast reaches every live subscriber and drops only dead ones", "statement": "A broadcast on a channel delivers the message to every live subscriber, removes exactly the dead ones, and one dead subscriber does not prevent delivery to the others; a named channel is unique in its manager.", "quantifier": "every set of subscribers and every subset that is dead or dies during the broadcast", "why_tests_cant": "Subsets are exponential and death can happen mid-send.", "anchors": ["lilya/contrib/sse/channels.py:SSEChannel.broadcast", "lilya/contrib/sse/channels.py:SSEChannelManager"]}
{"id": "C48", "title": "The relay never forwards hop-by-hop or dropped headers and honours its allow lists", "statement": "Headers sent upstream/downstream contain no hop-by-hop header and no header configured to be dropped, keep all other headers, and when an allow list is configured only listed headers are forwarded.", "quantifier": "every header list and configuration", "why_tests_cant": "Unbounded header lists and capitalisations.", "anchors": ["lilya/contrib/proxy/relay.py:Relay._prepare_request_headers", "lilya/contrib/proxy/relay.py:Relay._sanitize_response_headers"]}
{"id": "C49", "title": "The relay makes at most max_retries+1 attempts, each with the full request, and sends one response", "statement": "Every attempt forwards the complete request body, at most max_retries+1 attempts are made, and the client receives exactly one response start.", "quantifier": "every sequence of upstream outcomes, including failures after the response started", "why_tests_cant": "Failure sequences are unbounded and failures in mid-stream are hard to reproduce.", "anchors": ["lilya/contrib/proxy/relay.py:Relay._handle_http", "lilya/contrib/proxy/relay.py:Relay._forward_to_upstream", "lilya/contrib/proxy/relay.py:Relay._build_request_body_stream"]}
{"id": "C50", "title": "The optimised and the general handler invocation bind the same arguments", "statement": "For a handler eligible for the fast path, the arguments computed by the fast path equal those computed by the general resolution path for every request.", "quantifier": "every eligible signature and every request", "why_tests_cant": "Signatures and requests are unbounded; the two code paths are separately written.", "anchors": ["lilya/_internal/_responses.py:BaseHandler.handle_response", "lilya/_internal/_responses.py:BaseHandler.extract_request_params_information", "lilya/_internal/_responses.py:BaseHandler._extract_params_from_request"]}
{"id": "C51", "title": "An NDJSON response carries exactly the encoded rows, one per line", "statement": "For any sequence of rows, the body of an NDJSONResponse is a complete ASGI body, and when the row encoder emits no raw newline, cutting the body at newlines gives exactly the encoded rows in order; no rows gives an empty body.", "quantifier": "every finite sequence of rows and every row encoder", "why_tests_cant": "The delayed-row logic differs at 0, 1 and n rows and sequences are unbounded.", "anchors": ["lilya/responses.py:NDJSONResponse.stream"]}
{"id": "C52", "title": "A CSV response can be read back as the rows that were given", "statement": "Reading the CSV body gives a header line with the keys of the first row followed by one line per row with that row's values for those keys, for every row content and every kind of iterable.", "quantifier": "every non-empty sequence of rows, every cell text, every kind of (async) iterable", "why_tests_cant": "Cell texts are unbounded strings; one separator character anywhere shifts every later column.", "anchors": ["lilya/responses.py:CSVResponse.stream"]}
{"id": "C53", "title": "Reversing a route inside mounts gives a path that routes back through the same mounts", "statement": "For a named route inside any nesting of mounts and values for the parameters of every level, the reverse lookup returns the prefixes and the route with the values filled in; requesting that path passes the same mounts, the route matches the remainder, and the combined parameters are the values supplied. If some route can produce a path, the lookup produces one.", "quantifier": "every tree of mounts and routes, every nesting depth, every assignment of parameter values", "why_tests_cant": "Trees and values are unbounded, and the prefix is built by textual substitution and stripping.", "anchors": ["lilya/routing/include.py:Include.url_path_for", "lilya/routing/include.py:Include._path_for_without_name", "lilya/routing/router.py:BaseRouter.url_path_for"]}
{"id": "C54", "title": "A response announces the length of the body it sends", "statement": "For every Response with a status that allows a body, the header lines sent contain exactly one Content-Length, equal to the number of body bytes sent; a response whose status allows no body sends no body bytes.", "quantifier": "every status, body, media type, charset and dict of caller headers, and dicts reused for several responses", "why_tests_cant": "Header dicts and their spellings are unbounded, and sharing between responses is a property of histories.", "anchors": ["lilya/responses.py:Response.make_headers", "lilya/responses.py:Response.__call__", "lilya/_internal/_helpers.py:HeaderHelper"]}
{"id": "C55", "title": "Adding to Vary keeps what was there", "statement": "After add_vary_header the tokens of the Vary headers are the previous tokens followed by the added ones, and no other header changes.", "quantifier": "every header container and every added value", "why_tests_cant": "Containers are unbounded and may hold several Vary lines.", "anchors": ["lilya/datastructures.py:Header.add_vary_header"]}
{"id": "C56", "title": "A 304 response carries no entity headers", "statement": "A response with status 304 sends no entity header other than Content-Location and Expires whatever headers, media type and body the program gave, and keeps all other headers.", "quantifier": "every dict of caller headers, media type and body", "why_tests_cant": "The dict of headers is arbitrary.", "anchors": ["lilya/_internal/_helpers.py:HeaderHelper.remove_entity_headers", "lilya/responses.py:Response.make_headers"]}
{"id": "C57", "title": "Cleanups registered on a request or websocket run once when it is closed", "statement": "Closing a request or websocket runs every registered cleanup exactly once, in order, whatever some of them raise, and closing again runs nothing.", "quantifier": "every list of cleanups, every failure subset, cleanups that register more", "why_tests_cant": "Failure subsets and nested registrations are unbounded.", "anchors": ["lilya/requests.py:Request.close", "lilya/requests.py:Request.add_cleanup", "lilya/websockets.py:WebSocket.close"]}
{"id": "C58", "title": "A generator dependency is open while its value is used", "statement": "A dependency written as a generator is set up before the handler uses its value, torn down after the use and before the connection or scope is finished, exactly once.", "quantifier": "any number of generator dependencies, with and without a request", "why_tests_cant": "The order of effects of every combination cannot be enumerated.", "anchors": ["lilya/dependencies.py:Provide._resolve_internal", "lilya/dependencies.py:_handle_generators_requestless", "lilya/_internal/_responses.py:BaseHandler.handle_response"]}
{"id": "C59", "title": "A dependency gets the request and its own dependencies each under its own name", "statement": "A dependency function with a parameter named request and parameters naming other dependencies is called with the request under \"request\" and each dependency's value under its name.", "quantifier": "every signature and dependency map", "why_tests_cant": "Signatures are unbounded.", "anchors": ["lilya/dependencies.py:Provide._resolve_internal"]}
{"id": "C60", "title": "Dependencies resolve whatever kind of body the request has", "statement": "Resolving a dependency never fails because the request's body is a text, a list or empty.", "quantifier": "every request body and dependency tree", "why_tests_cant": "Kinds of bodies combine with every dependency tree.", "anchors": ["lilya/dependencies.py:Provide._resolve_internal"]}
{"id": "C61", "title": "A constant dependency injects the very value registered", "statement": "Whatever constants were registered before, in any application of the process, a constant registered as a dependency is injected as it is.", "quantifier": "every sequence of registrations", "why_tests_cant": "The shared cache makes the result depend on the whole history.", "anchors": ["lilya/dependencies.py:wrap_dependency"]}
{"id": "C62", "title": "Scope additions flow inward and route metadata flows outward", "statement": "What a middleware adds to the scope before calling on is seen by every layer below and by the endpoint; the route metadata found below is in the outer layer's scope when the first message passes it and when the call returns, also if it raises.", "quantifier": "every stack, every set of additions, every application", "why_tests_cant": "Unbounded stacks and arbitrary applications.", "anchors": ["lilya/_internal/_middleware.py:ScopeIsolationMiddleware.__call__", "lilya/_internal/_middleware.py:copy_scope_for_middleware"]}
{"id": "C63", "title": "The nearest registered exception handler answers", "statement": "If the path or include that contains the endpoint registers a handler for the class of the exception, that handler answers, before the handlers of the application.", "quantifier": "every handler table at every level, every exception", "why_tests_cant": "Tables and nesting are unbounded; precedence involves several separately written layers.", "anchors": ["lilya/routing/base.py:BaseHandler._handle_http_exception", "lilya/_internal/_responses.py:BaseHandler.handle_response", "lilya/middleware/exceptions.py:ExceptionMiddleware.__call__"]}
{"id": "C64", "title": "Errors never produce a second response", "statement": "Whatever the endpoint sent before raising and whatever handlers are registered, at most one response start is sent to the client; an exception that nobody handles before the start gives a 500 and is raised to the server.", "quantifier": "every message history, exception, handler table and handler behaviour", "why_tests_cant": "The moment of failure and handler behaviours are unbounded.", "anchors": ["lilya/apps.py:build_middleware_stack", "lilya/middleware/server_error.py:ServerErrorMiddleware", "lilya/middleware/lilya_exception.py:LilyaExceptionMiddleware", "lilya/routing/base.py:BaseHandler.handle_exception_handlers"]}
{"id": "C65", "title": "A response that names an origin says it varies", "statement": "Whenever a CORS response names the request's origin in Access-Control-Allow-Origin, its Vary header lists Origin, whatever the application had put there.", "quantifier": "every configuration, request and application response", "why_tests_cant": "A cache serves a wrong grant only for particular combinations of configuration, cookies and application headers.", "anchors": ["lilya/middleware/cors.py:CORSMiddleware.set_explicit_origin", "lilya/middleware/cors.py:CORSMiddleware.get_preflight_headers"]}
{"id": "C66", "title": "A request that submits the cookie's token is accepted and its body arrives", "statement": "A state-changing request that carries an authentic CSRF cookie and submits the same token in the header, in a field of an urlencoded form or in a field of a multipart form reaches the application, and the application reads exactly the body that was sent.", "quantifier": "every token, form content, boundary and chunking of the body", "why_tests_cant": "Forms, boundaries and chunkings are unbounded.", "anchors": ["lilya/middleware/csrf.py:CSRFMiddleware._read_and_replay_body", "lilya/middleware/csrf.py:CSRFMiddleware._extract_token_from_body"]}
{"id": "C67", "title": "A safe request hands out a CSRF token", "statement": "The response to a safe request of a client without a CSRF cookie sets one, and the token the client then presents is authentic.", "quantifier": "every configuration, response and client with a cookie store", "why_tests_cant": "Responses and configurations are unbounded, and the claim spans two requests.", "anchors": ["lilya/middleware/csrf.py:CSRFMiddleware.get_send_wrapper", "lilya/contrib/security/csrf.py:generate_csrf_token"]}
{"id": "C68", "title": "Only requests from allowed referrers are trusted", "statement": "With a set of allowed referrer patterns, a request is marked trusted exactly when the host of its Referer header is the request's own host (if same-origin is allowed) or matches a pattern, or when it has none and the empty referrer is allowed; untrusted requests are marked so, or answered with a 400 when blocking; every request gets one of these outcomes.", "quantifier": "every pattern list, Host and Referer header", "why_tests_cant": "The Referer is attacker-controlled text; URL parsing and suffix matching have unbounded inputs.", "anchors": ["lilya/middleware/trustedreferrer.py:TrustedReferrerMiddleware"]}
{"id": "C69", "title": "URL objects show the parts of their text, and replace changes only what it is told to", "statement": "For a URL text made of a scheme, authority, path, query and fragment, the URL object shows these parts; replace with new parts gives a URL that shows the new parts and keeps all others, and prints as the text made of them.", "quantifier": "every URL text and every set of replaced parts", "why_tests_cant": "Delimiters, user names, ports and IPv6 brackets combine in unboundedly many texts.", "anchors": ["lilya/datastructures.py:URL"]}
{"id": "C70", "title": "Query parameter operations change only the named parameters", "statement": "include_query_params sets exactly the given parameters, remove_query_params removes exactly the named ones, replace_query_params leaves exactly the given ones; values survive the encoding; all other parts of the URL are kept.", "quantifier": "every URL, parameter dict and list of names", "why_tests_cant": "Needs the round trip of percent-encoding for every text and an invariant over repeated parameters.", "anchors": ["lilya/datastructures.py:URL.include_query_params", "lilya/datastructures.py:URL.remove_query_params", "lilya/datastructures.py:URL.replace_query_params"]}
{"id": "C71", "title": "Session bound to the client address", "statement": "With session fixing, the session the application gets is bound to the client's address; a session bound to another address is emptied before the application runs, one bound to this address is unchanged, and an unbound one keeps its contents; the notification is called exactly when the session is bound or reset.", "quantifier": "all session contents, addresses and applications", "why_tests_cant": "tests try two addresses with one session", "anchors": ["lilya/middleware/session_fixing.py:SessionFixingMiddleware", "lilya/middleware/sessions.py:SessionMiddleware"]}
{"id": "C72", "title": "Session parts are isolated", "statement": "An application behind a session context with a sub path finds and changes only its part of the session; other keys stay as they were at every message; when the response starts the session holds what the application left, and nothing for that part if it left it empty.", "quantifier": "all sessions, all sequences of session changes and messages", "why_tests_cant": "tests try one write before one response", "anchors": ["lilya/middleware/session_context.py:SessionContextMiddleware"]}
{"id": "C73", "title": "Compression only on acceptance", "statement": "A response is changed by the compression middleware only for a client whose Accept-Encoding accepts gzip; every other client gets the application's messages untouched.", "quantifier": "all requests, responses and compressors", "why_tests_cant": "tests try two header values", "anchors": ["lilya/middleware/compression.py:GZipMiddleware.__call__"]}
{"id": "C74", "title": "Required scopes are enforced", "statement": "A handler decorated with required scopes runs only for a connection whose credentials have every one of them; other requests get the configured status or a redirect that carries the requested URL; other websockets are closed.", "quantifier": "all handlers, parameter lists, scopes, credentials and URLs", "why_tests_cant": "tests try single scopes on http handlers", "anchors": ["lilya/authentication.py:requires", "lilya/authentication.py:has_required_scope", "lilya/_internal/_responses.py:handle_websocket_session"]}
{"id": "C75", "title": "Websocket input is a legal sequence", "statement": "The messages an endpoint takes from a websocket are a connect, then data, and at last one disconnect, whatever the server sends; after the disconnect receiving raises.", "quantifier": "all call sequences and server messages", "why_tests_cant": "tests follow the normal order of events", "anchors": ["lilya/websockets.py:WebSocket.receive", "lilya/websockets.py:WebSocket.accept"]}
{"id": "C76", "title": "Websocket controllers see every message and one end", "statement": "A websocket controller calls on_receive with each message of the client in order, and on_disconnect exactly once after everything else, however the connection ends.", "quantifier": "all message sequences, encodings, hook failures and cancellation points", "why_tests_cant": "tests try one or two messages and one ending", "anchors": ["lilya/controllers.py:WebSocketController.handle_dispatch", "lilya/controllers.py:WebSocketController.decode"]}
{"id": "C77", "title": "Controllers refuse undeclared methods", "statement": "A controller answers a request with the method function declared for its HTTP method (HEAD with get) and answers 405 for any other method name, calling nothing.", "quantifier": "all controller classes, method names and requests", "why_tests_cant": "method names are arbitrary text and attributes are inherited", "anchors": ["lilya/controllers.py:Controller"]}
{"id": "C78", "title": "Every static file is reachable", "statement": "Every regular file below a static directory is served under its relative path, from the first directory that has it.", "quantifier": "all directories, relative paths, file systems and mount prefixes", "why_tests_cant": "the set of paths is infinite", "anchors": ["lilya/staticfiles.py:StaticFile.get_path", "lilya/staticfiles.py:StaticFile.lookup_path"]}
{"id": "C79", "title": "Links are not followed out of a static directory", "statement": "With follow_symlink off no file outside the configured directories is served, whatever links they hold.", "quantifier": "all file systems, directories and request paths", "why_tests_cant": "links and paths combine without bound", "anchors": ["lilya/staticfiles.py:StaticFile.lookup_path"]}
{"id": "C80", "title": "If-None-Match decides not modified", "statement": "When If-None-Match is sent, a file is answered as not modified exactly if its entity tag is among the listed ones.", "quantifier": "all tag lists, with any spacing and weak marks, and all other headers", "why_tests_cant": "header texts are unbounded", "anchors": ["lilya/staticfiles.py:StaticFile.is_not_modified"]}
{"id": "C81", "title": "Lines of a .env file", "statement": "Each NAME=value line of a .env file, bare or quoted, defines exactly that name with that value, and no line affects another.", "quantifier": "all files made of well-formed lines, blank lines and comments", "why_tests_cant": "file contents are unbounded", "anchors": ["lilya/environments.py:EnvironLoader._read_env_file", "lilya/environments.py:EnvironLoader._flatten_dict"]}
{"id": "C82", "title": "Flattening nested configuration", "statement": "Flattening a nested YAML document gives each leaf under the dotted path of its keys and indices, and nothing else.", "quantifier": "all nested documents", "why_tests_cant": "documents nest without bound", "anchors": ["lilya/environments.py:EnvironLoader._read_env_file", "lilya/environments.py:EnvironLoader._flatten_dict"]}
{"id": "C83", "title": "Variable expansion", "statement": "A value is expanded by replacing each reference by the variable's value, or by its default when the variable is missing, and every other character is kept.", "quantifier": "all texts, contexts and defaults", "why_tests_cant": "texts and contexts are unbounded", "anchors": ["lilya/environments.py:EnvironLoader._read_env_file", "lilya/environments.py:EnvironLoader._flatten_dict"]}
{"id": "C84", "title": "One order of broadcasts", "statement": "All subscribers of a channel get its messages in one common order, each at most once, and only messages that were broadcast.", "quantifier": "all interleavings of any number of broadcasters and subscribers", "why_tests_cant": "schedules are unbounded", "anchors": ["lilya/contrib/sse/channels.py:SSEChannel.broadcast"]}
{"id": "C85", "title": "The proxy relays bodies byte for byte", "statement": "The body bytes a client of the proxy gets are those the upstream sent, so that they agree with the upstream's Content-Encoding and Content-Length, which are relayed.", "quantifier": "all upstream responses, configurations and earlier failed attempts", "why_tests_cant": "bodies and headers are unbounded", "anchors": ["lilya/contrib/proxy/relay.py:Relay._forward_to_upstream"]}
{"id": "C86", "title": "Cookie domains are rewritten and nothing else", "statement": "Rewriting a Set-Cookie line changes its Domain attribute only: the cookie's name, value and other attributes stay in order, an empty decision removes the attribute, any other decision is its only value.", "quantifier": "all Set-Cookie texts and callbacks", "why_tests_cant": "texts and callbacks are unbounded", "anchors": ["lilya/contrib/proxy/relay.py:Relay._rewrite_cookie"]}
{"id": "C87", "title": "Proxied websockets keep order", "statement": "Frames pass through the proxy unchanged and in order in both directions, and the client is sent at most one close, after all frames.", "quantifier": "all interleavings of client and upstream events", "why_tests_cant": "schedules are unbounded", "anchors": ["lilya/contrib/proxy/relay.py:Relay._pump_websocket"]}
{"id": "C88", "title": "The proxy forwards the path below its mount", "statement": "A request for the mount path followed by a rest is forwarded to the upstream prefix followed by that rest.", "quantifier": "all prefixes, mounts and paths", "why_tests_cant": "paths are unbounded", "anchors": ["lilya/contrib/proxy/relay.py:Relay._build_upstream_url"]}
{"id": "C89", "title": "The proxy stays below its upstream prefix", "statement": "Whatever path a client requests, the upstream path begins with the configured prefix.", "quantifier": "all prefixes and request paths", "why_tests_cant": "paths are unbounded", "anchors": ["lilya/contrib/proxy/relay.py:Relay._join_paths"]}
{"id": "C90", "title": "Bound parameters get the value the request sent", "statement": "When a handler with Query, Header or Cookie parameters is called, each has the value that the request sent under its name or alias, cast when a type is asked for: the text, the list of texts if it was sent several times, or the default if it was not sent; if a required value is missing or a value does not convert, the handler is not called, and the first such parameter is answered with a 422 that names it", "quantifier": "every handler signature, request, cast and set of providers", "why_tests_cant": "the combinations of markers, aliases, repetitions, defaults and casts are unbounded, on both execution paths", "anchors": ["lilya/_internal/_responses.py:_resolve_bound_param_value", "lilya/_internal/_responses.py:extract_request_params_information", "lilya/_internal/_responses.py:_build_handler_plan", "lilya/params.py:Query"]}
{"id": "C91", "title": "The innermost provider of a name is used", "statement": "A handler parameter marked Provides(), or without a default and provided for, gets the value of the provider that the innermost level registers under its name (application, includes from the outside in, the handler, with overrides before all), for HTTP and websocket handlers alike; a marked parameter that no level provides stops the call", "quantifier": "every nesting of levels, every registration and signature", "why_tests_cant": "nesting depth and registrations are unbounded", "anchors": ["lilya/_internal/_responses.py:_extract_params_from_request", "lilya/_internal/_responses.py:handle_websocket_session"]}
{"id": "C92", "title": "Nested form fields become the structure their names describe", "statement": "A form whose field names denote places that do not overlap (user.name, items[0].sku, in any order) is read as the nested dicts and lists that hold each value at its place and no other value, with lists no longer than the fields need", "quantifier": "every set of non-overlapping fields, of any depth, in any order", "why_tests_cant": "depth, indices and order are unbounded", "anchors": ["lilya/_internal/_responses.py:_expand_nested_keys"]}
{"id": "C93", "title": "Form values arrive as sent, JSON values as what they say", "statement": "In a form read for an inferred body, a text that does not look like a JSON object or list is received as it was sent, an upload is left alone, and a text that is JSON is received as the value it describes", "quantifier": "every form and every text", "why_tests_cant": "texts and nesting are unbounded", "anchors": ["lilya/_internal/_responses.py:_maybe_parse_json", "lilya/_internal/_responses.py:_deep_parse_json"]}
{"id": "C94", "title": "Casts give values of the type asked for", "statement": "A bound parameter whose value was cast has the declared type, through unions, lists, tuples, sets and dicts of any depth, containers being cast item by item; a boolean is read from its ten texts in any case and no other; a union gives the first type that takes the value, a text staying a text only if no other type takes it", "quantifier": "every type built from classes, unions and containers, and every value", "why_tests_cant": "types and values nest without bound", "anchors": ["lilya/params.py:BaseParam.__cast__", "lilya/params.py:_as_list"]}
{"id": "C95", "title": "Permissions and middlewares guard every handler", "statement": "Whenever a handler runs, every middleware and every permission of the application and of its path has been asked before and has let the request pass", "quantifier": "every application, history of configuration calls and requests, and request", "why_tests_cant": "the combinations of components, routes and calls are unbounded", "anchors": ["lilya/apps.py:BaseLilya._dispatch", "lilya/apps.py:BaseLilya.build_middleware_stack", "lilya/routing/router.py:BaseRouter.app", "lilya/routing/path.py:Path.handle_dispatch"]}
{"id": "C96", "title": "The shortcut for one fixed path cannot be observed", "statement": "An application with one fixed path answers every request as the same application does when the shortcut is off: the same components are called in the same order, the same messages are sent, and an exception reaches the server in the same cases", "quantifier": "every application with one fixed path and every history", "why_tests_cant": "behaviours of components and exceptions are unbounded", "anchors": ["lilya/apps.py:BaseLilya._dispatch", "lilya/apps.py:BaseLilya._compute_fast_http", "lilya/apps.py:BaseLilya._compute_fast_route"]}
{"id": "C97", "title": "Configuring step by step is configuring at once", "statement": "An application to which middlewares, permissions, handlers and routes are added before the first request answers as the application made with them; a middleware that was accepted guards every later handler; a handler of exceptions registered later is used from then on", "quantifier": "every configuration, sequence of configuration calls and request", "why_tests_cant": "sequences of calls are unbounded", "anchors": ["lilya/apps.py:BaseLilya.add_middleware", "lilya/apps.py:BaseLilya.add_permission", "lilya/apps.py:BaseLilya.add_exception_handler", "lilya/routing/router.py:BaseRouter.add_route"]}
{"id": "C98", "title": "Lifespan hooks run in order", "statement": "When an application starts, the global startup hooks run first, then the application's own, then those added to it; when it stops, its own shutdown hooks run, then the added ones, then the global ones; startup is reported only after all startup hooks, and the shutdown hooks run only after the message to stop", "quantifier": "every list of global, own and added hooks", "why_tests_cant": "the lists are unbounded and are merged in several places", "anchors": ["lilya/apps.py:Lilya.__init__", "lilya/routing/router.py:BaseRouter.__init__", "lilya/routing/router.py:BaseRouter.add_event_handler", "lilya/_internal/_events.py:handle_lifespan_events", "lilya/lifecycle.py:LifecycleRegistry"]}
{"id": "C99", "title": "The lifespan protocol holds whatever fails", "statement": "Exactly one of startup.failed; startup.complete then shutdown.failed; startup.complete then shutdown.complete is sent, failures are raised too; startup is reported complete only if every startup hook returned, shutdown only if every shutdown hook did; after a failed startup no shutdown hook runs, after a successful one they run even if the server breaks off", "quantifier": "every list of hooks, every set of failing hooks, every behaviour of the server and of a user's context manager", "why_tests_cant": "any hook, send or receive may fail", "anchors": ["lilya/routing/router.py:BaseRouter.lifespan", "lilya/_internal/_events.py:AsyncLifespanContextManager", "lilya/_internal/_events.py:AsyncLifespan"]}
{"id": "C100", "title": "Background tasks run once, in order, after the response", "statement": "The background tasks of a response start after its messages were sent and its cleanup ran, never for HEAD and OPTIONS; each runs exactly once, in the order written, the next starting after the previous ended, unless they are a group, which ends after all of its tasks; nothing runs after a task that raises", "quantifier": "every nesting of tasks and groups, every interleaving, every set of failing tasks", "why_tests_cant": "nestings and interleavings are unbounded", "anchors": ["lilya/background.py:Task", "lilya/background.py:Tasks", "lilya/responses.py:Response.__call__"]}
{"id": "C101", "title": "An event reaches its listeners", "statement": "Emitting an event calls each listener subscribed to it once, in the order of subscription, with the positional arguments and with the keyword arguments it accepts, and no other listener", "quantifier": "every sequence of subscriptions, every event and arguments", "why_tests_cant": "sequences of subscriptions are unbounded", "anchors": ["lilya/_internal/_events.py:EventDispatcher"]}
{"id": "C102", "title": "HTTP Basic gives the credentials that were sent", "statement": "For every user name without a colon and every password, if a client sends them with HTTP Basic (scheme in any case), the HTTPBasic scheme returns exactly that name and password; and whatever it returns was sent that way.", "quantifier": "all user names, passwords, header lists and cases of the scheme", "why_tests_cant": "the texts are unbounded and pass through base64, whose padding and alphabet a few samples do not cover", "anchors": ["lilya/contrib/security/http/http.py HTTPBasic.__call__", "lilya/contrib/security/utils.py get_authorization_scheme_param"]}
{"id": "C103", "title": "Tokens and API keys arrive as sent", "statement": "A bearer or digest credential, the Authorization header of OAuth2/OpenID Connect, and an API key in a query parameter, header or cookie are returned exactly as the client sent them, are never empty, and are returned only if they were sent under that scheme or name.", "quantifier": "all header lists, query parameters, cookie lines, tokens and scheme spellings", "why_tests_cant": "equivalence over unbounded texts in both directions", "anchors": ["lilya/contrib/security/http/http.py HTTPBase, HTTPBearer, HTTPDigest", "lilya/contrib/security/oauth2/oauth.py OAuth2PasswordBearer, OAuth2AuthorizationCodeBearer", "lilya/contrib/security/open_id/openid_connect.py OpenIdConnect", "lilya/contrib/security/api_key/api_key.py"]}
{"id": "C104", "title": "Automatic errors are complete and optional authentication never fails", "statement": "With auto_error every security scheme either finds credentials or answers 401 with its WWW-Authenticate challenge, and the flag does not change what counts as credentials; without it a request without usable credentials gives None and no error.", "quantifier": "all ten schemes and all requests", "why_tests_cant": "a claim about every request, including every malformed header", "anchors": ["lilya/contrib/security/errors.py", "lilya/contrib/security/http/http.py", "lilya/contrib/security/oauth2/oauth.py", "lilya/contrib/security/api_key/api_key.py", "lilya/contrib/security/open_id/openid_connect.py"]}
{"id": "C105", "title": "What is written as JSON is JSON and is read back", "statement": "For every JSON value, the body of a JSON response is an RFC 8259 text in UTF-8 that denotes exactly that value, and Request.json and the websocket's receive_json give the value back from it; writing fails only for NaN, infinities and half surrogate pairs.", "quantifier": "all JSON values of any depth, with all texts, integers and number literals; both websocket modes", "why_tests_cant": "a round trip over unbounded nested values and all of Unicode", "anchors": ["lilya/serializers.py CompactSerializer", "lilya/responses.py JSONResponse.make_response", "lilya/requests.py Request.json", "lilya/websockets.py send_json, receive_json"]}
{"id": "C106", "title": "Every JSON text is read as the value it denotes", "statement": "Request.json and receive_json read every RFC 8259 text, however spaced and escaped, as the value it denotes, and accept nothing else.", "quantifier": "all texts and all bodies", "why_tests_cant": "the grammar has unboundedly many spellings of each value, and acceptance must be shown for no other text", "anchors": ["lilya/requests.py Request.json", "lilya/websockets.py receive_json", "lilya/serializers.py CompactSerializer.loads"]}
{"id": "C107", "title": "An NDJSON stream has one line for each row", "statement": "The body of an NDJSON response, split at line feeds, has exactly one line for each row, which reads back as the row, whatever texts the rows hold; only the last message ends the body; if a row cannot be written the rows before it have been sent and the body is never ended.", "quantifier": "all lists of JSON values", "why_tests_cant": "rows hold arbitrary texts, including line feeds", "anchors": ["lilya/responses.py NDJSONResponse.stream"]}
{"id": "C108", "title": "The newest encoder of a name is used, and the newest that accepts a value", "statement": "After any history of registrations and calls there is one encoder of each name, the last one registered, and a value json does not know is encoded by the most recently registered of them that accepts it; encoders given for one call count for that call only; values json knows never reach an encoder.", "quantifier": "all histories of register_encoder, json_encode and apply_structure, all encoders and values", "why_tests_cant": "every history of registrations leaves another registry", "anchors": ["lilya/_internal/_encoders.py register_encoder, json_encode_default, json_encode, apply_structure", "lilya/responses.py Response.make_response"]}
{"id": "C109", "title": "What was encoded is restored by apply_structure", "statement": "For a value of a class the default encoders know, apply_structure of the class on the encoded value gives an equal value, and the result of apply_structure is an instance of the class.", "quantifier": "all bytes, UUIDs, dates, datetimes, enums, dataclasses, named tuples and lists, of any size", "why_tests_cant": "round trips over unbounded values in several textual formats", "anchors": ["lilya/_internal/_encoders.py DataclassEncoder, NamedTupleEncoder, EnumEncoder, DateEncoder, BytesEncoder, StructureEncoder, UUIDEncoder, apply_structure"]}
{"id": "C110", "title": "exclude_none leaves out the nulls and nothing else", "statement": "With exclude_none the JSON text has no null inside arrays and objects at any depth and is otherwise the text without it; applying it again changes nothing.", "quantifier": "all values of any depth", "why_tests_cant": "nesting is unbounded", "anchors": ["lilya/_internal/_encoders.py _exclude_none_recursively, json_encode"]}
{"id": "C111", "title": "The name of a download arrives as given", "statement": "A response with a file name announces it in Content-Disposition so that a client following RFC 6266 and RFC 5987 saves the file under exactly that name; whatever the name, the header stays one header of printable ASCII; a Content-Disposition set by the application is kept.", "quantifier": "every file name, disposition type and set of headers", "why_tests_cant": "File names come from users and may hold quotes, line ends and any Unicode; tests try a few.", "anchors": ["lilya/responses.py: DispositionResponse.make_content_disposition_header, DispositionResponse.make_headers"]}
{"id": "C112", "title": "An XML response is an XML document of its content", "statement": "The body of an XMLResponse for a dict or list is a well-formed document whose elements are the keys and whose texts are the values.", "quantifier": "every nesting of dicts, lists and scalars", "why_tests_cant": "The values are data of any depth with any characters.", "anchors": ["lilya/responses.py: XMLResponse.make_response"]}
{"id": "C113", "title": "A text given to a response is the text that is sent", "statement": "The body of a plain response is the text it was given, also when it is built by make_response; other values become their JSON text.", "quantifier": "every text and value, with and without transformation", "why_tests_cant": "The transformation goes through JSON and a strip of quotes, so that the result depends on every character.", "anchors": ["lilya/responses.py: Response.make_response, make_response"]}
{"id": "C114", "title": "A host route serves the hosts of its template", "statement": "A request is routed to a host route exactly when the host it names, whatever its case and port, is an instance of the route's host template; the converted parameters of the host are added to the parameters of the request.", "quantifier": "every host template with parameters and port, every Host header, every scope type, every earlier set of parameters", "why_tests_cant": "the hosts and templates are unbounded; tests use a handful of lower-case names", "anchors": ["lilya/routing/host.py:Host.search", "lilya/routing/host.py:Host.handle_match", "lilya/_internal/_path.py:compile_path", "lilya/_internal/_path.py:extract_hostname"]}
{"id": "C115", "title": "URLs made through a host route lead back to it", "statement": "The URL made for a route below a host route carries the filled-in host with its port and the path of the route; a request for that host is served by the same host route with the same parameter values.", "quantifier": "every host template, every chain of mounts below it, every assignment of values to the parameters", "why_tests_cant": "round trip over all templates, names and values", "anchors": ["lilya/routing/host.py:Host.url_path_for", "lilya/routing/host.py:Host.url_path_for_with_name", "lilya/routing/host.py:Host.url_path_for_without_name", "lilya/_internal/_path.py:replace_params"]}
{"id": "C116", "title": "A cached function returns only its own results", "statement": "A value that a function decorated with `cache` returns was returned by a run of that same function with equal arguments, whatever calls of it and of other functions overlap and whenever the backend fails.", "quantifier": "every history of overlapping calls, ends of calls and invalidations of any number of cached functions that share a backend, every argument, result, time and backend failure", "why_tests_cant": "keys are built from names and serialised arguments; a clash shows only for particular pairs of calls", "anchors": ["lilya/decorators.py:generate_cache_key", "lilya/decorators.py:cache", "lilya/caches/memory.py:InMemoryCache"]}
{"id": "C117", "title": "Cached functions may call cached functions", "statement": "A program in which cached functions call cached functions, themselves included, returns what it would return without the decorator.", "quantifier": "every program, every nesting of calls, asynchronous or synchronous", "why_tests_cant": "deadlock and stale results depend on which calls are nested", "anchors": ["lilya/decorators.py:cache", "lilya/decorators.py:cache_lock"]}
{"id": "C118", "title": "Live results are not computed again", "statement": "Once a run of a cached function has returned, calls with the same arguments are answered from the cache until the lifetime ends or the entry is invalidated; while a run is going on no second one is started.", "quantifier": "every history of calls before and in between, every lifetime, every result", "why_tests_cant": "needs every interleaving of other calls between the two", "anchors": ["lilya/decorators.py:cache", "lilya/caches/memory.py:InMemoryCache.sync_get", "lilya/caches/memory.py:InMemoryCache.sync_set"]}
{"id": "C119", "title": "No stale results", "statement": "A cached function returns no result older than its lifetime, and after `invalidate` none of a run that began before it.", "quantifier": "every history, every lifetime, every placement of the invalidation among overlapping calls", "why_tests_cant": "the race between a running call and an invalidation appears only under particular schedules", "anchors": ["lilya/decorators.py:cache.invalidate", "lilya/decorators.py:cache.__init__", "lilya/caches/memory.py:InMemoryCache"]}
{"id": "C120", "title": "Every version of a template controller's hook runs once", "statement": "When form_valid or form_invalid returns nothing, the version of the next class of the hierarchy runs, each version exactly once, most derived first, until one gives a result.", "quantifier": "every class hierarchy with single inheritance, every choice of classes that define the hook and of what they return", "why_tests_cant": "The depth of the hierarchy and which classes define the hook are unbounded; the test suite has only two-class hierarchies.", "anchors": ["lilya/templating/controllers.py", "FormController", "FormController.form_valid", "FormController.form_invalid"]}
{"id": "C121", "title": "The CSRF token on a form page is accepted", "statement": "The token that a form page shows, submitted with the cookies that the browser has after that response, passes the CSRF middleware.", "quantifier": "every cookie jar of the client, every secret, random token, set of response headers and configuration", "why_tests_cant": "Depends on the client's history, and on random tokens that tests fix or never compare.", "anchors": ["lilya/templating/controllers.py", "TemplateController.get_csrf_token", "lilya/contrib/security/csrf.py", "get_or_set_csrf_token", "lilya/middleware/csrf.py", "CSRFMiddleware"]}
{"id": "C122", "title": "A template sees the names it is given", "statement": "A template sees the values its handler gave, over those of context processors, and the real request; after an invalid submission it sees what was submitted and the errors.", "quantifier": "every context, list of context processors of the controller and of the template object, and every submission", "why_tests_cant": "Names may clash in every way between five sources; tests try single names.", "anchors": ["lilya/templating/controllers.py", "TemplateController.get_context_data", "TemplateController.render_template", "FormController.form_invalid", "lilya/templating/jinja.py", "lilya/templating/base.py"]}
{"id": "C123", "title": "The global state of a request is its own", "statement": "What a request writes to `g` is what it and the tasks it starts read back, and nothing that any other request, running at the same time, wrote; a child application has a fresh state and the former one is back when it is left; outside of requests there is none.", "quantifier": "every interleaving of any number of tasks, threads, requests, child applications and middlewares, and all reads and writes of g", "why_tests_cant": "Depends on the schedule and on which task uses g first; tests run one request at a time.", "anchors": ["lilya/context.py", "G", "LazyGProxy", "g", "lilya/apps.py", "Lilya.__call__", "populate_global_context", "lilya/middleware/global_context.py", "GlobalContextMiddleware"]}
{"id": "C124", "title": "Keeping and sharing dependency values is transparent", "statement": "Resolving a request-agnostic dependency gives, whatever was resolved before and whatever was kept or shared then, exactly the value that calling its function (or the replacement listed in the overrides of this call) with its arguments, or with its recursively resolved parameters, gives", "quantifier": "every program of functions and markers, every sequence of resolutions with their overrides and mappings, every depth of nesting", "why_tests_cant": "a test resolves a few markers in a fresh process; a stale value shows only after particular earlier resolutions", "anchors": ["lilya/dependencies.py:_Depends.resolve", "lilya/dependencies.py:_Depends._resolve_internal", "lilya/_internal/_scopes.py"]}
{"id": "C125", "title": "Kept and shared dependencies are made once; overrides replace the call", "statement": "Once a marker with use_cache, or with application or global scope, has given a value, every later resolution gives the same value and calls nothing; an override is called in place of the dependency", "quantifier": "every state, every later history, all overrides and mappings", "why_tests_cant": "the number of calls must be right after every history, not the few a test performs", "anchors": ["lilya/dependencies.py:_Depends.resolve", "lilya/dependencies.py:_Depends._resolve_internal"]}
{"id": "C126", "title": "Arguments of injected functions", "statement": "A function decorated with inject is called with the arguments the caller gives, the resolved value for each marker parameter not given, and the default for the others; variadic parameters need no argument", "quantifier": "every signature, every set of given arguments, every earlier history", "why_tests_cant": "the signature, the given arguments and the history are unbounded", "anchors": ["lilya/dependencies.py:inject"]}
{"id": "C127", "title": "Values sent in a body arrive as what the annotation says", "statement": "A value of the type an annotation names, sent as JSON in the form the encoders give it, is structured back to an equal value; and whatever a handler gets for an annotation is of the annotated type", "quantifier": "every annotation built from classes, lists, dicts, sets, tuples, unions and Annotated at any depth, every value of it, every JSON body", "why_tests_cant": "annotations nest without bound and values are unbounded; tests use a few dataclasses", "anchors": ["lilya/_internal/_responses.py:_structure_to_annotation", "lilya/encoders.py:apply_structure"]}
{"id": "C128", "title": "Every body parameter gets its part of the body", "statement": "If body inference is on, the only parameter of a handler that nothing else fills gets the whole body (or the entry of its name), and of several each gets the entry of its name; defaults excuse missing entries; the query string and headers have no part in it", "quantifier": "every signature, every environment of dependencies, every request and body", "why_tests_cant": "which parameters count as body parameters depends on the signature, dependencies of all levels and the names in the request", "anchors": ["lilya/_internal/_responses.py:_extract_params_from_request", "lilya/_internal/_responses.py:_parse_inferred_body"]}
{"id": "C129", "title": "The test client shows the response the application sent", "statement": "The response a test client returns has the status and headers of the start message and the concatenated bodies the application sent; a sequence of messages that is no response is reported; no malformed header is shown", "quantifier": "every application (as an interaction tree that may catch errors), every request body, both clients and all their options", "why_tests_cant": "applications interleave receives and sends arbitrarily; a test shows one sequence of messages", "anchors": ["lilya/testclient/_internal/transport.py:TestClientTransport._process_http_request", "lilya/testclient/_internal/transport.py:AsyncTestClientTransport._process_http_request"]}
{"id": "C130", "title": "The application sees the request the test made", "statement": "The scope has the method, decoded path, raw path, query string, server and headers (with a host) of the URL and headers given to the client", "quantifier": "every path, query, host, port and list of headers", "why_tests_cant": "the path ranges over all texts; decoding mistakes need particular escapes", "anchors": ["lilya/testclient/_internal/transport.py:TestClientTransport._build_http_scope", "lilya/testclient/_internal/transport.py:TestClientTransport._build_headers", "lilya/testclient/_internal/transport.py:TestClientTransport._parse_host_and_port"]}
{"id": "C131", "title": "Authentication of a test client follows its blocks", "statement": "Each request finds the user that authenticate, logout and the enclosing authenticated blocks determine; leaving a block, also by an exception, restores the user before it", "quantifier": "every nesting and sequence of operations, exceptions anywhere", "why_tests_cant": "nesting and histories are unbounded", "anchors": ["lilya/testclient/base.py:TestClient.authenticated", "lilya/testclient/_internal/transport.py:TestClientTransport._inject_authenticated_user"]}
{"id": "C132", "title": "Cookies of a test client", "statement": "Cookies given with one request are sent with it only; cookies that responses set are kept and sent afterwards", "quantifier": "every sequence of requests, every cookies they give and get", "why_tests_cant": "what is sent depends on the whole history", "anchors": ["lilya/testclient/base.py:TestClient.request"]}
{"id": "C133", "title": "Resolve trees give every function its marked dependencies", "statement": "Resolving a function calls it with, for each parameter marked Resolve, the value of the marked dependency (or of what an override puts in its place), itself resolved the same way, for each parameter marked Security the value of awaiting the scheme with the connection, and nothing for other parameters; every mark is resolved anew, arguments are complete before the function is called, and a tree of functions defined one after the other always ends", "quantifier": "every set of functions and marks, every override map, every behaviour of the functions over time, including generators and exceptions", "why_tests_cant": "trees of any shape and depth, behaviours that change from call to call, and failures at any node", "anchors": ["lilya/dependencies.py:async_resolve_dependencies", "lilya/dependencies.py:resolve_dependencies"]}
{"id": "C134", "title": "A provider's marked parameters get their dependencies", "statement": "When the function of a Provide has a parameter marked Resolve(d), it is called once, with the value of d for that parameter", "quantifier": "every function, marks and behaviours", "why_tests_cant": "the value depends on the whole tree, and whether a function was called twice is only visible for functions with effects", "anchors": ["lilya/dependencies.py:Provide._resolve_internal", "lilya/dependencies.py:async_resolve_dependencies"]}
{"id": "C135", "title": "A Security dependency is called with the connection", "statement": "A dependency marked Security is called with the connection as its first argument, overrides do not replace it, and its value is the argument", "quantifier": "every function, scheme and override map", "why_tests_cant": "holds for schemes at any depth of the tree and for handlers", "anchors": ["lilya/dependencies.py:async_resolve_dependencies", "lilya/_internal/_responses.py:_extract_params_from_request"]}
{"id": "C136", "title": "Generator dependencies are closed", "statement": "Every generator opened for the arguments of a handler has been closed once when the connection has been served, before the generators it was built from", "quantifier": "every handler, tree of dependencies, protocol and behaviour of the closing code", "why_tests_cant": "depends on every path out of the handler and on failures of other cleanups", "anchors": ["lilya/requests.py:Request.close", "lilya/websockets.py:WebSocket.close", "lilya/dependencies.py:async_resolve_dependencies", "lilya/_internal/_responses.py:handle_websocket_session"]}
{"id": "C137", "title": "The content policy that is sent is the one that was given", "statement": "A browser that reads the Content-Security-Policy header enforces the directives of the policy given to the middleware as a text or a dict, with the same sources; parsing a rendered policy changes nothing", "quantifier": "every policy text and dict", "why_tests_cant": "whitespace, empty directives and repeated names in any combination", "anchors": ["lilya/middleware/security.py:parse_content_policy"]}
{"id": "C138", "title": "Every response carries the security headers", "statement": "Each response that passes through SecurityMiddleware has each of the seven security headers once, with the configured value; other headers, bodies and the order of messages are unchanged", "quantifier": "every configuration and every sequence of messages of the application", "why_tests_cant": "the application may set the same headers, in any spelling, and answers by http or by denying a websocket", "anchors": ["lilya/middleware/security.py:SecurityMiddleware"]}
{"id": "C139", "title": "Frame options are always present", "statement": "Each http response that passes through XFrameOptionsMiddleware has X-Frame-Options: the application's own, or the setting in upper case, or DENY; nothing else changes", "quantifier": "every setting and sequence of messages", "why_tests_cant": "any headers of the application, in any spelling", "anchors": ["lilya/middleware/clickjacking.py:XFrameOptionsMiddleware"]}
{"id": "C140", "title": "Errors of WSGI applications reach the exception handlers", "statement": "With redirect_exceptions an error response of a WSGI application is replaced by the answer of the handler for the exception class or one of its bases, given the status and the whole body; all other responses pass unchanged and complete", "quantifier": "every response, handler table and class", "why_tests_cant": "any chunking of the body and any class hierarchy", "anchors": ["lilya/middleware/wsgi.py:BufferedWSGIResponder", "lilya/middleware/wsgi.py:WSGIMiddleware"]}
{"id": "C141", "title": "Which value an application uses for an option", "statement": "An option given to the constructor of an application is used; an option not given takes the value of the application's settings module if that is not None, and else of the current settings", "quantifier": "every option that has a setting, every argument, every settings module and global settings", "why_tests_cant": "the order of precedence concerns every combination of sources and every value, including False and empty ones", "anchors": ["lilya/apps.py:BaseLilya.load_settings_value", "lilya/apps.py:Lilya.__init__"]}
{"id": "C142", "title": "Where the fields of a settings object come from", "statement": "A field of a new settings object is what the environment variable with its upper case name means for the annotated type, else the keyword argument, else the class attribute, else None; construction fails exactly if a variable means nothing for its type or a name is a property", "quantifier": "every settings class, environment and set of arguments", "why_tests_cant": "any number of fields, types and variables in any combination", "anchors": ["lilya/conf/global_settings.py:BaseSettings.__init__", "lilya/conf/global_settings.py:BaseSettings._cast"]}
{"id": "C143", "title": "override_settings changes exactly what it names, for its block", "statement": "Inside override_settings the named settings have the given values and the others those they had; nested overrides combine; when the block ends, normally or not, the settings are those from before and what was assigned inside is gone", "quantifier": "every nest of overrides, program inside and way of ending", "why_tests_cant": "any nesting depth, any exception point", "anchors": ["lilya/testclient/utils.py:override_settings", "lilya/conf/__init__.py:SettingsForward"]}
{"id": "C144", "title": "Applications do not disturb one another's settings", "statement": "A handler sees the settings of the innermost application around it that has some, and else the current ones, and constructing an application does not change what the handlers of others see", "quantifier": "every nest of applications and every construction", "why_tests_cant": "any number of applications in any nesting and order of construction", "anchors": ["lilya/apps.py:BaseLilya.__call__", "lilya/apps.py:Lilya.__init__", "lilya/routing/router.py:BaseRouter.__call__"]}
{"id": "C145", "title": "Settings dump to a dictionary and back", "statement": "The dump of settings holds exactly the annotated fields that are not excluded, and the properties if asked, each with its value; a settings object made from a dump equals the original where the environment is silent", "quantifier": "every settings class and object, and combination of options", "why_tests_cant": "any set of fields", "anchors": ["lilya/conf/global_settings.py:BaseSettings.dict"]}
{"id": "C146", "title": "A mail has all its parts", "statement": "A valid message is built, and has its bodies, alternatives, attachments and files, in order and with their contents, and its headers; a header of several lines is refused", "quantifier": "every message, files and header values", "why_tests_cant": "any number and kind of parts and headers", "anchors": ["lilya/contrib/mail/backends/smtp.py:build_email_message"]}
{"id": "C147", "title": "Mail goes to everyone addressed and tells nobody of the hidden", "statement": "Only messages with a recipient and a content are handed to the backend, as they are; the SMTP server gets the built message for the addresses of To, Cc and Bcc together, and the message itself does not depend on Bcc", "quantifier": "every message and backend outcome", "why_tests_cant": "any lists of recipients", "anchors": ["lilya/contrib/mail/mailer.py:Mailer.send", "lilya/contrib/mail/mailer.py:Mailer.send_many", "lilya/contrib/mail/backends/smtp.py:SMTPBackend.send"]}
{"id": "C148", "title": "The SMTP connection over its life", "statement": "A connection that has been opened can be used if the server answers; the server accepts exactly the messages whose sending returned, once and in order; opening twice makes one connection; nothing is sent when closed; sending many delivers those before the first failure", "quantifier": "every history of opening, sending, closing and losing the connection", "why_tests_cant": "histories of any length with failures anywhere", "anchors": ["lilya/contrib/mail/backends/smtp.py:_SMTPConnection", "lilya/contrib/mail/backends/smtp.py:SMTPBackend.send_many"]}
{"id": "C149", "title": "The sender of a mail", "statement": "A message's own sender is kept; a message without one is sent in the name of the backend's default", "quantifier": "every message and sequence of backends that send it", "why_tests_cant": "any sequence of sendings of the same message", "anchors": ["lilya/contrib/mail/backends/smtp.py:SMTPBackend.send"]}
{"id": "C150", "title": "Plain text from HTML", "statement": "The text made from an HTML mail has the words a reader sees, in order, line breaks where tags break lines, no tags, and no stray white space", "quantifier": "every HTML text", "why_tests_cant": "any nesting and malformed input", "anchors": ["lilya/contrib/mail/templates.py:_html_to_text_simple"]}
{"id": "C151", "title": "Mail kept in files", "statement": "Each message is kept in a file of its own in the directory, whatever its subject", "quantifier": "every subject and time", "why_tests_cant": "hostile and equal subjects", "anchors": ["lilya/contrib/mail/backends/file.py:FileBackend.send"]}
{"id": "C152", "title": "The OpenAPI document lists what is served", "statement": "For any tree of routes, the document has an operation for a path and method exactly when a route shown in the schema answers that method at that path, includes counted.", "quantifier": "every tree of paths, includes and hosts, every handler, path and method", "why_tests_cant": "A test looks at a few routes; the claim is about every nesting of includes, every combination of hidden parts and every method.", "anchors": ["lilya/contrib/openapi/utils.py:get_openapi", "lilya/contrib/openapi/utils.py:extract_http_methods_from_endpoint", "lilya/routing/path.py:Path", "lilya/routing/include.py:Include"]}
{"id": "C153", "title": "An operation describes the handler that answers", "statement": "The operation of a path and method names the parameters of the path template in order and then the declared query parameters, has the declared body exactly for the methods with a body, one response for each declared status code (200 if none are declared), and the identifier of the handler that answers.", "quantifier": "every tree of routes, template, method and declared metadata", "why_tests_cant": "Templates, declarations and duplicates of routes are unbounded; a test compares one document with an expected one.", "anchors": ["lilya/contrib/openapi/utils.py:get_openapi", "lilya/contrib/openapi/decorator.py:openapi"]}
{"id": "C154", "title": "Security schemes are defined", "statement": "Every scheme that an operation requires is defined in the document, only declared schemes are, and with the definition that the handler declared.", "quantifier": "every tree of routes and every list of requirements", "why_tests_cant": "The definition of a name depends on all the handlers that use it and their order.", "anchors": ["lilya/contrib/openapi/utils.py:get_openapi", "lilya/contrib/openapi/decorator.py:handle_security_requirement"]}
{"id": "C155", "title": "Response schemas are defined", "statement": "Every documented response with a model refers to a schema that the document defines, the schema of that model, under the declared media type.", "quantifier": "every tree of routes, every set of models", "why_tests_cant": "Whether a reference resolves, and to what, depends on all other handlers of the application.", "anchors": ["lilya/contrib/openapi/utils.py:get_openapi", "lilya/contrib/openapi/decorator.py:response_models"]}
{"id": "C156", "title": "The servers of the document", "statement": "After any sequence of requests the document names the configured servers in order, the root path of the request if asked for, each once, and no others.", "quantifier": "every configuration and every sequence of root paths of requests", "why_tests_cant": "The list is shared and changed by requests; the claim is about every history.", "anchors": ["lilya/contrib/openapi/config.py:OpenAPIConfig.enable"]}
{"id": "C157", "title": "Declaring responses", "statement": "A dictionary of responses can be declared for a handler, and for several.", "quantifier": "every dictionary and number of handlers", "why_tests_cant": "Declaring changes the dictionary of the caller; a test decorates one handler.", "anchors": ["lilya/contrib/openapi/decorator.py:response_models"]}
{"id": "C158", "title": "The error page does not turn data into markup", "statement": "In debug mode, the page for an uncaught exception has the same tags and attribute names, and the same attribute values other than the frame identifiers, whatever the exception's type and text, the file and function names and the source lines contain; the page always ends outside of tags", "quantifier": "all exceptions texts, frames, file names, function names and source lines", "why_tests_cant": "any character of any of these texts could open a tag, close an attribute or end an element", "anchors": ["lilya/middleware/server_error.py:ServerErrorMiddleware.generate_html", "lilya/middleware/server_error.py:ServerErrorMiddleware.generate_frame_html", "lilya/middleware/server_error.py:ServerErrorMiddleware.format_line", "lilya/middleware/styles/errors.py"]}
{"id": "C159", "title": "The error page shows the exception and the frames as they are", "statement": "What a browser shows on the debug page is the type and the text of the exception, then for each frame, innermost first, its file, line number and function and its source lines with their numbers, unchanged; the line of the frame is marked and no other", "quantifier": "all exceptions and tracebacks", "why_tests_cant": "escaping, numbering and order must be right for every text and every number of frames and lines", "anchors": ["lilya/middleware/server_error.py:ServerErrorMiddleware.generate_html", "lilya/middleware/server_error.py:ServerErrorMiddleware.generate_frame_html", "lilya/middleware/server_error.py:ServerErrorMiddleware.format_line"]}
{"id": "C160", "title": "Each button of the error page opens its own frame", "statement": "On the debug page the button beside a frame names the list of lines of that frame, and the first element with that identifier is that list", "quantifier": "all tracebacks", "why_tests_cant": "identifiers are made of file names and line numbers, which may collide or contain any character", "anchors": ["lilya/middleware/server_error.py:ServerErrorMiddleware.generate_frame_html", "lilya/middleware/styles/errors.py"]}
{"id": "C161", "title": "app.graph always exists and is a tree", "statement": "Reading app.graph ends for every composition of applications, also when applications include each other in circles; the graph has one application node, and every other node has exactly one incoming edge, from a node created before it", "quantifier": "all applications and includes between them", "why_tests_cant": "circles and sharing can be arbitrarily deep; a missed check would loop for ever on some composition only", "anchors": ["lilya/introspection/__builder.py:GraphBuilder.build", "lilya/introspection/__builder.py:GraphBuilder._traverse_router", "lilya/introspection/_graph.py:ApplicationGraph.application"]}
{"id": "C162", "title": "The graph's queries return the declared layers", "statement": "middlewares(), route_middlewares(route), permissions_for(route), include_layers(include) and explain(path) return the middleware and permission classes declared on the application, the route and the include, in the declared order", "quantifier": "all applications, all routes and includes in them", "why_tests_cant": "the queries walk chains of edges in a flat graph; whether they stop at the right node depends on everything around it", "anchors": ["lilya/introspection/_graph.py:ApplicationGraph.middlewares", "lilya/introspection/_graph.py:ApplicationGraph.route_middlewares", "lilya/introspection/_graph.py:ApplicationGraph.permissions_for", "lilya/introspection/_graph.py:ApplicationGraph.include_layers", "lilya/introspection/_graph.py:ApplicationGraph.explain"]}
{"id": "C163", "title": "The graph lists every route that is served", "statement": "routes() has a node for every route that the application serves, directly or through includes, and entries reached on several ways are not repeated", "quantifier": "all compositions of applications", "why_tests_cant": "depends on the whole composition: layers on includes, shared and circular applications", "anchors": ["lilya/introspection/__builder.py:GraphBuilder._traverse_router", "lilya/routing/include.py:Include.__init__"]}
{"id": "C164", "title": "The graph describes the application as it is", "statement": "Each reading of app.graph describes the application as it is at that time", "quantifier": "all histories of readings and changes", "why_tests_cant": "a history of changes between readings is needed", "anchors": ["lilya/apps.py:Lilya.graph"]}
{"id": "C165", "title": "Events from AI providers are read as the event stream format says", "statement": "The payloads a streaming provider works on are the data of the events of the response body as an event stream parser gives them", "quantifier": "all response bodies", "why_tests_cant": "bodies can hold any lines, line ends, comments, fields and cut-off events in any order", "anchors": ["lilya/contrib/ai/providers/base.py:BaseHTTPProvider._iter_sse_data"]}
{"id": "C166", "title": "A chat call makes one request with the client's defaults", "statement": "chat, prompt, stream and stream_chat pass exactly one request to the provider, with the messages in order, the model and system prompt of the call or else of the client, and the given parameters; a call without messages, without a model or with limits out of range raises AIConfigurationError and passes none", "quantifier": "all clients, messages and options", "why_tests_cant": "every combination of defaults, given, empty and absent options", "anchors": ["lilya/contrib/ai/client.py:AIClient._build_request", "lilya/contrib/ai/client.py:AIClient.chat", "lilya/contrib/ai/types.py:PromptRequest.__post_init__"]}
{"id": "C167", "title": "A chat completions payload says what the request says", "statement": "The JSON posted has the system prompt and then every message in order with role, content, name and tool call id, each parameter exactly when it is set, and the extra members, which take precedence", "quantifier": "all requests", "why_tests_cant": "all combinations of optional parameters, messages and extra members", "anchors": ["lilya/contrib/ai/providers/openai.py:OpenAICompatibleProvider._build_payload", "lilya/contrib/ai/providers/openai.py:OpenAICompatibleProvider._serialize_messages"]}
{"id": "C168", "title": "A messages payload says what the request says", "statement": "The JSON posted has one system text made of the system prompt and all system messages in order, the other messages in order, a positive token limit, each parameter exactly when it is set, and the extra members", "quantifier": "all requests", "why_tests_cant": "system messages can stand anywhere in the list and can be empty", "anchors": ["lilya/contrib/ai/providers/anthropic.py:AnthropicProvider._build_payload", "lilya/contrib/ai/providers/anthropic.py:AnthropicProvider._split_system_messages"]}
{"id": "C169", "title": "Streamed chunks add up to the text", "statement": "The chunks of a stream are those of the server's events that add text or give a reason to finish, in order; their texts add up to the whole text; nothing after the end marker counts; a broken connection is an error after the chunks that came", "quantifier": "all sequences of events, all texts", "why_tests_cant": "arbitrary texts with any characters split over any number of events", "anchors": ["lilya/contrib/ai/providers/openai.py:OpenAICompatibleProvider.stream", "lilya/contrib/ai/providers/anthropic.py:AnthropicProvider.stream", "lilya/contrib/ai/providers/openai.py:OpenAICompatibleProvider._parse_stream_event", "lilya/contrib/ai/providers/anthropic.py:AnthropicProvider._parse_stream_event"]}
{"id": "C170", "title": "A stream fails exactly when the server or the connection fails", "statement": "An error the server reports, an event that is not a JSON object, a failed request or a broken connection raises an AI error after the chunks before it; other events do not", "quantifier": "all sequences of events and failures", "why_tests_cant": "the failure can come after any prefix of the events", "anchors": ["lilya/contrib/ai/providers/base.py:BaseHTTPProvider._decode_json", "lilya/contrib/ai/providers/openai.py:OpenAICompatibleProvider.stream", "lilya/contrib/ai/providers/anthropic.py:AnthropicProvider.stream"]}
{"id": "C171", "title": "A completion returns the reply or an AI error", "statement": "complete returns the text, reason to finish and token counts of the reply; anything else raises an exception of the package", "quantifier": "all replies", "why_tests_cant": "replies are arbitrary JSON, or no JSON", "anchors": ["lilya/contrib/ai/providers/openai.py:OpenAICompatibleProvider._parse_response", "lilya/contrib/ai/providers/anthropic.py:AnthropicProvider._parse_response", "lilya/contrib/ai/types.py:AIUsage.from_mapping"]}
{"id": "C172", "title": "The result of a tool names its call", "statement": "Two requests that differ in the tool call id of a message are posted differently", "quantifier": "all pairs of requests", "why_tests_cant": "a statement about pairs of requests", "anchors": ["lilya/contrib/ai/types.py:ChatMessage.tool", "lilya/contrib/ai/providers/anthropic.py:AnthropicProvider._split_system_messages", "lilya/contrib/ai/providers/openai.py:OpenAICompatibleProvider._serialize_messages"]}
{"id": "C173", "title": "A provider has at most one open HTTP client and closes it", "statement": "The client calls use is open, and once shutdown has ended no client is open", "quantifier": "all interleavings of startup, calls and shutdowns", "why_tests_cant": "schedules of concurrent calls and shutdowns", "anchors": ["lilya/contrib/ai/providers/base.py:BaseHTTPProvider.startup", "lilya/contrib/ai/providers/base.py:BaseHTTPProvider.shutdown", "lilya/contrib/ai/providers/base.py:BaseHTTPProvider._get_client"]}
{"id": "C174", "title": "An octet stream is one file", "statement": "A non-empty body of type application/octet-stream, read in any pieces, is delivered as one file with all its bytes (up to MAX_BODY_SIZE), its size, and the given name or \"upload\", and then on_end", "quantifier": "all bodies, all ways of cutting them, all limits", "why_tests_cant": "every cut of every body", "anchors": ["lilya/contrib/multipart/form.py:FormParser._build_octet_stream_parser", "lilya/contrib/multipart/parsers.py:OctetStreamParser.write", "lilya/contrib/multipart/form.py:parse_form"]}
{"id": "C175", "title": "An empty octet stream is an empty file", "statement": "Also the empty body of type application/octet-stream is delivered as a file", "quantifier": "all bodies", "why_tests_cant": "a claim about all bodies, with one exception", "anchors": ["lilya/contrib/multipart/parsers.py:OctetStreamParser.finalize", "lilya/contrib/multipart/form.py:FormParser._build_octet_stream_parser"]}
{"id": "C176", "title": "parse_form reads urlencoded bodies piece by piece", "statement": "An urlencoded body, read in any pieces, gives one field for each piece between \"&\" signs, in order, its name and value being what stands before and after the first \"=\", percent-decoded once", "quantifier": "all bodies and ways of cutting them", "why_tests_cant": "every cut of every body", "anchors": ["lilya/contrib/multipart/form.py:FormParser._build_urlencoded_parser", "lilya/contrib/multipart/parsers.py:QuerystringParser.write", "lilya/contrib/multipart/form.py:parse_form"]}
{"id": "C177", "title": "parse_form undoes the encoding of a browser", "statement": "The names and values of an urlencoded form come back as they were", "quantifier": "all lists of names and values", "why_tests_cant": "arbitrary texts", "anchors": ["lilya/contrib/multipart/form.py:FormParser._build_urlencoded_parser", "lilya/contrib/multipart/parsers.py:QuerystringParser.write"]}
{"id": "C178", "title": "The two urlencoded parsers differ by one decoding", "statement": "Request.form and parse_form find the same fields in the same order; the former applies one more unquote_plus to each name and value", "quantifier": "all bodies and ways of cutting them", "why_tests_cant": "a relation between two programs on all inputs", "anchors": ["lilya/contrib/multipart/form.py:parse_form", "lilya/_internal/_parsers.py:FormParser"]}
{"id": "C179", "title": "parse_form undoes the multipart encoding", "statement": "The parts of a well-formed multipart form come back in order: fields with their text, files with name, type, headers and bytes", "quantifier": "all forms", "why_tests_cant": "arbitrary names, headers and contents", "anchors": ["lilya/contrib/multipart/form.py:FormParser._build_multipart_parser", "lilya/contrib/multipart/form.py:parse_form"]}
{"id": "C180", "title": "What parse_form finds does not depend on the reads", "statement": "Two sequences of reads with the same bytes give the same calls", "quantifier": "all pairs of sequences of reads", "why_tests_cant": "a statement about pairs of cuts", "anchors": ["lilya/contrib/multipart/form.py:parse_form", "lilya/contrib/multipart/parsers.py:MultipartParser.write"]}
{"id": "C181", "title": "parse_form decodes filename*", "statement": "A file name sent as RFC 5987 says comes back", "quantifier": "all texts", "why_tests_cant": "arbitrary texts", "anchors": ["lilya/contrib/multipart/utils.py:decode_rfc5987_param", "lilya/contrib/multipart/form.py:FormParser._build_multipart_parser"]}
{"id": "C182", "title": "on_end is called once, at the end", "statement": "When write and finalize raise nothing, on_end has been called exactly once and after the other callbacks", "quantifier": "all content types, bodies and cuts", "why_tests_cant": "all bodies, complete or not", "anchors": ["lilya/contrib/multipart/form.py:FormParser.finalize", "lilya/contrib/multipart/parsers.py:MultipartParser.finalize"]}
{"id": "C183", "title": "Unsupported content types are refused up front", "statement": "Headers without a content type, with a type other than the four supported ones, or multipart without a boundary raise FormParserError before any byte of the body is looked at; the four types are accepted", "quantifier": "all headers and bodies", "why_tests_cant": "header names in any case and number", "anchors": ["lilya/contrib/multipart/form.py:create_form_parser", "lilya/contrib/multipart/form.py:FormParser.__init__"]}
{"id": "C184", "title": "MAX_BODY_SIZE counts bytes over all writes", "statement": "For urlencoded forms and octet streams a limit has the effect of ending the body after that many bytes, wherever the chunks end; the numbers write returns add up to the bytes kept", "quantifier": "all bodies, cuts and limits", "why_tests_cant": "the limit can fall anywhere in any chunk", "anchors": ["lilya/contrib/multipart/parsers.py:OctetStreamParser.write", "lilya/contrib/multipart/parsers.py:QuerystringParser.write", "lilya/contrib/multipart/parsers.py:MultipartParser.write"]}
{"id": "C185", "title": "What a websocket test sees does not depend on the schedule", "statement": "For every application and every test that talks to it through a websocket session of the test client, what entering and the body of the with block give (a value or an exception) is the same whatever the interleaving of the thread of the test and of the application, and while it is not there yet it can still come", "quantifier": "all applications, all tests, all pairs of schedules", "why_tests_cant": "the interleaving of the two threads is up to the operating system; a test runs one of them", "anchors": ["lilya/testclient/_internal/websockets.py:WebSocketTestSession"]}
{"id": "C186", "title": "A websocket session delivers messages in order and once", "statement": "At every moment the messages the test has sent are those the application has received followed by those that wait, the items the application has put are those the test has taken followed by those that wait, the first message heard is the connect, and after leaving the last one sent is the disconnect 1000", "quantifier": "all applications, tests and schedules", "why_tests_cant": "loss or reordering shows only in some interleavings", "anchors": ["lilya/testclient/_internal/websockets.py:WebSocketTestSession.send", "lilya/testclient/_internal/websockets.py:WebSocketTestSession.receive", "lilya/testclient/_internal/websockets.py:WebSocketTestSession._asgi_receive"]}
{"id": "C187", "title": "How entering a websocket session ends", "statement": "If the application answers with an accept, entering gives its subprotocol and headers; with a close, WebSocketDisconnect with its code and reason or 1000 and an empty reason; with a denial response, WebSocketDenialResponse with its status, headers and the bodies joined; if it raises, that exception; in every schedule", "quantifier": "all applications that answer so, all numbers of bodies, all schedules", "why_tests_cant": "unboundedly many bodies and schedules", "anchors": ["lilya/testclient/_internal/websockets.py:WebSocketTestSession.__enter__", "lilya/testclient/_internal/websockets.py:WebSocketTestSession._raise_on_close"]}
{"id": "C188", "title": "The texts sent are the texts received", "statement": "If the application accepts and sends texts, calling receive_text as often gives exactly them in order, in every schedule", "quantifier": "all lists of texts, all applications that send them, all schedules", "why_tests_cant": "unbounded lists and schedules", "anchors": ["lilya/testclient/_internal/websockets.py:WebSocketTestSession.receive_text"]}
{"id": "C189", "title": "JSON through a websocket session", "statement": "A JSON value that a test sends in text or binary mode to a lilya websocket that reads it and sends it back in the same mode comes back as the same value, in every schedule", "quantifier": "all JSON values, both modes, all schedules", "why_tests_cant": "all values and schedules", "anchors": ["lilya/testclient/_internal/websockets.py:WebSocketTestSession.send_json", "lilya/testclient/_internal/websockets.py:WebSocketTestSession.receive_json", "lilya/websockets.py:WebSocket.send_json"]}
{"id": "C190", "title": "An exception of a websocket application reaches the test", "statement": "When a session that was entered is left, the with statement raises what the application raised unless the test has received it before, and otherwise ends as its body did", "quantifier": "all applications, tests, schedules and portals", "why_tests_cant": "the application may raise at any time, also while the session is being left", "anchors": ["lilya/testclient/_internal/websockets.py:WebSocketTestSession.__exit__", "lilya/testclient/base.py:TestClient._portal_factory"]}
{"id": "C191", "title": "An application that is cancelled has heard of the disconnect", "statement": "When leaving a session cancels the application, the application has received all that the test sent and the disconnect at the end", "quantifier": "all applications, tests and schedules", "why_tests_cant": "depends on what the application awaits and on the schedule", "anchors": ["lilya/testclient/_internal/websockets.py:WebSocketTestSession.__exit__", "lilya/testclient/_internal/websockets.py:WebSocketTestSession._run"]}
{"id": "C192", "title": "A test does not wait for an application that is over", "statement": "Once the application has ended, what the test waits for ends too", "quantifier": "all applications, tests and schedules", "why_tests_cant": "a hang is no outcome of a test", "anchors": ["lilya/testclient/_internal/websockets.py:WebSocketTestSession.receive", "lilya/testclient/_internal/websockets.py:WebSocketTestSession._run"]}
{"id": "C193", "title": "A refused connection is reported", "statement": "A test whose connection is refused gets the exception in the end, whatever the application does after refusing", "quantifier": "all applications, tests and schedules", "why_tests_cant": "a hang is no outcome of a test", "anchors": ["lilya/testclient/_internal/websockets.py:WebSocketTestSession.__enter__"]}
{"id": "C194", "title": "The subprotocols that a test asks for are offered", "statement": "The list of subprotocols given to websocket_connect is the list in the scope of the application", "quantifier": "all lists of names without commas, all headers", "why_tests_cant": "all lists", "anchors": ["lilya/testclient/base.py:TestClient._prepare_websocket_headers", "lilya/testclient/_internal/transport.py:TestClientTransport._handle_websocket_request"]}
{"id": "C195", "title": "Sessions opened with the same headers are independent", "statement": "Opening sessions one after the other with one dictionary of headers offers each time the subprotocols asked for that time", "quantifier": "all sequences of sessions, both test clients", "why_tests_cant": "all histories of sessions", "anchors": ["lilya/testclient/base.py:TestClient._prepare_websocket_headers", "lilya/testclient/async_client.py:AsyncTestClient._prepare_websocket_headers"]}
{"id": "C196", "title": "The lifespan around a test client", "statement": "A client is entered only if the application completed its startup; an exception in startup or shutdown is raised by entering or leaving; an application that follows the protocol is entered and left", "quantifier": "all behaviours of the lifespan of an application", "why_tests_cant": "all sequences of messages", "anchors": ["lilya/testclient/base.py:TestClient.wait_startup", "lilya/testclient/base.py:TestClient.wait_shutdown", "lilya/testclient/base.py:TestClient.lifespan"]}
{"id": "C197", "title": "Tracing does not change a request", "statement": "Behind OpenTelemetryMiddleware an application makes the same calls with the same answers, and ends the same way, as without it: always for scopes other than http, and for http whenever the URL of the scope can be read and its server is not None", "quantifier": "all applications, servers and scopes", "why_tests_cant": "applications and servers are arbitrary, including failing sends and cancellations", "anchors": ["lilya/contrib/opentelemetry/middleware.py:OpenTelemetryMiddleware.__call__"]}
{"id": "C198", "title": "Tracing does not change a request, whatever the scope", "statement": "As C197 without the conditions on the scope", "quantifier": "all applications, servers and scopes", "why_tests_cant": "a claim about all scopes ASGI allows", "anchors": ["lilya/contrib/opentelemetry/middleware.py:OpenTelemetryMiddleware.__call__", "lilya/datastructures.py:URL.build_from_scope"]}
{"id": "C199", "title": "The status of the span tells how the request went", "statement": "If the application raises an Exception the span ends with status ERROR and that exception is recorded once; if it returns, the status is ERROR exactly when the last response it started has a status from 400 to 599 or none was started, and nothing is recorded", "quantifier": "all applications and servers", "why_tests_cant": "every way an application can end", "anchors": ["lilya/contrib/opentelemetry/middleware.py:OpenTelemetryMiddleware.__call__"]}
{"id": "C200", "title": "Only a request that was served has status OK", "statement": "A span has status OK only if the application returned", "quantifier": "all applications and servers, cancellations included", "why_tests_cant": "every way an application can end", "anchors": ["lilya/contrib/opentelemetry/middleware.py:OpenTelemetryMiddleware.__call__"]}
{"id": "C201", "title": "The span ends with the attributes of the request", "statement": "The last values written for method, url.path, lilya.route and http.response.status_code are the method, the path in the scope at the end, the route that was found (or else the path), and the status of the last response started, if any", "quantifier": "all applications and servers", "why_tests_cant": "the route is found while the application runs", "anchors": ["lilya/contrib/opentelemetry/middleware.py:OpenTelemetryMiddleware.__call__"]}
{"id": "C202", "title": "http.route is the route", "statement": "When the application found a route, the attribute http.route of the span names it", "quantifier": "all applications and servers", "why_tests_cant": "the route is found while the application runs", "anchors": ["lilya/contrib/opentelemetry/middleware.py:OpenTelemetryMiddleware.__call__"]}
{"id": "C203", "title": "server.address and server.port belong together", "statement": "The two attributes are both those of the URL of the request or both those of the socket", "quantifier": "all scopes and applications", "why_tests_cant": "all combinations of Host header and socket", "anchors": ["lilya/contrib/opentelemetry/middleware.py:OpenTelemetryMiddleware.__call__"]}
{"id": "C204", "title": "The trace context is read from the headers", "statement": "The span of an http request is begun under the name \"HTTP \" and the method, with a context extracted from a mapping that has exactly the names of the request headers, each with its last value", "quantifier": "all headers", "why_tests_cant": "arbitrary, repeated headers", "anchors": ["lilya/contrib/opentelemetry/middleware.py:OpenTelemetryMiddleware.__call__"]}
{"id": "C205", "title": "An envelope crosses the wire", "statement": "An Envelope with a payload of a structured type, a name, a version other than 0 and JSON headers is turned by to_json into a JSON object, from which, also after being written as text and parsed, from_json makes the same envelope", "quantifier": "all payloads of the supported classes with plain parts, all names, versions and headers", "why_tests_cant": "arbitrary nested payloads and headers", "anchors": ["lilya/contrib/cqrs/messages.py:Envelope.to_json", "lilya/contrib/cqrs/messages.py:Envelope.from_json"]}
{"id": "C206", "title": "Every envelope crosses the wire", "statement": "As C205 for all names and versions", "quantifier": "all names and versions", "why_tests_cant": "a claim about all values, with two exceptions", "anchors": ["lilya/contrib/cqrs/messages.py:Envelope.from_json"]}
{"id": "C207", "title": "from_json accepts only envelopes of the asked type", "statement": "From any JSON value from_json returns an envelope only with a payload of the asked class, an integer version and a non-empty name, or raises; without metadata the name is that of the class, the version 1 and the headers are empty", "quantifier": "all JSON values and payload types", "why_tests_cant": "input from outside is arbitrary", "anchors": ["lilya/contrib/cqrs/messages.py:Envelope.from_json"]}
{"id": "C208", "title": "A token comes back", "statement": "A Token whose dates are aware and not beyond the year 2603, encoded and later decoded with the same key before it expires, says the same: the same moments of expiry and issue, the same subject, issuer, audience and id", "quantifier": "all tokens, keys, algorithms and moments", "why_tests_cant": "all moments and offsets from UTC", "anchors": ["lilya/contrib/security/jwt/token.py:Token.encode", "lilya/contrib/security/jwt/token.py:Token.decode", "lilya/contrib/security/utils.py:convert_time"]}
{"id": "C209", "title": "Every token comes back", "statement": "As C208 for all dates", "quantifier": "all tokens", "why_tests_cant": "dates of every kind and local time zones", "anchors": ["lilya/contrib/security/jwt/token.py:Token.decode", "lilya/contrib/security/utils.py:convert_time"]}
{"id": "C210", "title": "Expired tokens are refused", "statement": "Whatever text, key and leeway are given, Token.decode returns a token only if its expiry is not a second or more in the past and it was not issued in the future", "quantifier": "all texts, keys, clocks and leeways", "why_tests_cant": "all claims a text can carry", "anchors": ["lilya/contrib/security/jwt/token.py:Token.validate_expiration", "lilya/contrib/security/jwt/token.py:Token.decode"]}
{"id": "C211", "title": "leeway is respected", "statement": "With a leeway a token is accepted until that long after its expiry", "quantifier": "all claims, clocks and leeways", "why_tests_cant": "all moments", "anchors": ["lilya/contrib/security/jwt/token.py:Token.decode", "lilya/contrib/security/jwt/token.py:Token.validate_expiration"]}
{"id": "C212", "title": "None is no claim", "statement": "Giving None for an optional claim of a Token is the same as not giving it", "quantifier": "all claims", "why_tests_cant": "a claim about all arguments", "anchors": ["lilya/contrib/security/jwt/token.py:Token.validate_sub"]}
{"id": "C213", "title": "Further claims are signed", "statement": "Claims given to Token.encode are signed next to those of the token and win over them; a Token is made from its six claims alone", "quantifier": "all tokens and claims", "why_tests_cant": "arbitrary claims", "anchors": ["lilya/contrib/security/jwt/token.py:Token.encode"]}
{"id": "C214", "title": "An observable function notifies its listeners", "statement": "Calling a function decorated with observable runs it once with the arguments; if it raises, that exception comes out and nobody is notified; otherwise every function declared for an event it sends is called once per declaration with the same arguments, and the result of the function is returned exactly when none of them fails", "quantifier": "all sets of decorated functions, arguments and behaviours of functions", "why_tests_cant": "sets of functions and events are unbounded", "anchors": ["lilya/decorators.py:observable", "lilya/_internal/_events.py:EventDispatcher.emit"]}
{"id": "C215", "title": "Observable functions take keyword arguments", "statement": "A decorated function can be called with keyword arguments", "quantifier": "all functions and arguments", "why_tests_cant": "all combinations of functions and arguments", "anchors": ["lilya/decorators.py:observable"]}
{"id": "C216", "title": "Events spread", "statement": "When a listener itself sends events, calling the first function also notifies the listeners of those", "quantifier": "all sets of decorated functions", "why_tests_cant": "chains of any shape", "anchors": ["lilya/decorators.py:observable"]}
{"id": "C217", "title": "abort ends the request with what it is given", "statement": "When a handler calls abort(status, detail, headers) and no handler is registered for the status or for HTTPException, the client gets one complete response with that status, with the headers given, and with the text, the JSON of the dict or list, or else the phrase of the status as its body", "quantifier": "all status codes of http.HTTPStatus (and any code with a text), details, headers, other handlers, with functions or controllers", "why_tests_cant": "details, headers and handler tables are unbounded", "anchors": ["lilya/contrib/responses/shortcuts.py:abort", "lilya/exceptions.py:HTTPException", "lilya/middleware/exceptions.py:ExceptionMiddleware.http_exception"]}
{"id": "C218", "title": "abort takes every status", "statement": "abort raises an HTTPException with the status it is given, whatever the status from 100 to 599", "quantifier": "all status codes and details", "why_tests_cant": "details are unbounded", "anchors": ["lilya/contrib/responses/shortcuts.py:abort", "lilya/exceptions.py:HTTPException"]}
{"id": "C219", "title": "The detail of an http exception is the text of the answer", "statement": "HTTPException and its subclasses answer with the status given, else that of the class, else 500, and with the text given as detail, else that of the class, else the phrase of the status", "quantifier": "all classes, arguments, texts and headers", "why_tests_cant": "classes and texts are unbounded", "anchors": ["lilya/exceptions.py:HTTPException", "lilya/middleware/exceptions.py:ExceptionMiddleware.http_exception"]}
{"id": "C220", "title": "The message of an http exception is the text of the answer", "statement": "raise SomeException(message) answers with the message", "quantifier": "the exception classes of lilya and all messages", "why_tests_cant": "messages are unbounded", "anchors": ["lilya/exceptions.py:HTTPException", "lilya/exceptions.py:NotFound", "lilya/exceptions.py:PermissionDenied", "lilya/exceptions.py:NotAuthorized"]}
{"id": "C221", "title": "The JSON shortcuts send what they are given", "statement": "A client reads from jsonify the one value, the list of values or the object of the named values it was given, and gets its cookies; from json_error, unauthorized, forbidden and not_found the error, with the status of the function", "quantifier": "all JSON values, status codes, headers and cookies", "why_tests_cant": "values are unbounded", "anchors": ["lilya/contrib/responses/json.py:jsonify", "lilya/contrib/responses/shortcuts.py:json_error", "lilya/contrib/responses/shortcuts.py:send_json", "lilya/contrib/responses/shortcuts.py:unauthorized", "lilya/contrib/responses/shortcuts.py:forbidden", "lilya/contrib/responses/shortcuts.py:not_found"]}
{"id": "C222", "title": "send_file names the download", "statement": "With as_attachment a client saves the file under the name given, else under the last component of the path, else as \"download\"; without it the content is shown inline; max_age is sent as Cache-Control", "quantifier": "all paths, names, contents and ages", "why_tests_cant": "paths and names are unbounded", "anchors": ["lilya/contrib/responses/files.py:send_file", "lilya/responses.py:SimpleFileResponse"]}
{"id": "C223", "title": "The redis cache is a map with lifetimes", "statement": "After any history of get, set and delete calls on a RedisCache, made from any event loops whose identities differ, with values JSON can carry and positive lifetimes, get answers the value of the last set of the key if it was not deleted since and its lifetime has not elapsed, and None otherwise.", "quantifier": "every history of calls, times, loops, keys and values", "why_tests_cant": "The answer depends on the whole history of calls and times and on which loops made them; tests run short histories against a mock.", "anchors": ["lilya/caches/redis.py:RedisCache.get", "lilya/caches/redis.py:RedisCache.set", "lilya/caches/redis.py:RedisCache.delete", "lilya/caches/redis.py:RedisCache.async_client"]}
{"id": "C224", "title": "Nothing in the redis cache outlives its lifetime", "statement": "A value last set with a lifetime of d seconds is not found d seconds later or after.", "quantifier": "every history, lifetime and time", "why_tests_cant": "It ranges over all lifetimes and histories; tests use a few positive lifetimes.", "anchors": ["lilya/caches/redis.py:RedisCache.set", "lilya/caches/redis.py:RedisCache.get"]}
{"id": "C225", "title": "Calls of the redis cache work from any loop", "statement": "No get, set or delete of a RedisCache fails, whichever event loops the calls run in, including the loops that the synchronous methods make for each call.", "quantifier": "every history of calls and every assignment of identities to event loops", "why_tests_cant": "Whether the identity of a dead loop is given to a new one depends on the memory allocator; tests see one run.", "anchors": ["lilya/caches/redis.py:RedisCache.async_client", "lilya/caches/redis.py:RedisCache.sync_get", "lilya/caches/redis.py:RedisCache.sync_set", "lilya/caches/redis.py:RedisCache.sync_delete"]}
{"id": "C226", "title": "Closing the redis cache closes every client", "statement": "After close, every client the cache made is closed and the registry is empty; each is closed once.", "quantifier": "every history of calls before close and every loop that closes", "why_tests_cant": "The clients that exist depend on the loops of the whole history.", "anchors": ["lilya/caches/redis.py:RedisCache.close", "lilya/caches/redis.py:RedisCache.async_client"]}
{"id": "C227", "title": "The serializer proxy never comes up empty and never loses a serializer", "statement": "Whatever threads bind serializers (or None) and use the proxy, under every schedule, each use works on the serializer in place at a moment of that use, never on None, and the default is put in place only when none is bound.", "quantifier": "any number of threads, programs and schedules", "why_tests_cant": "Interleavings of threads are unbounded and tests see few of them.", "anchors": ["lilya/serializers.py:SerializerProxy", "lilya/serializers.py:setup_serializer"]}
{"id": "C228", "title": "The logger proxy never comes up empty and never loses a logger", "statement": "Whatever threads bind loggers (or None) and use the proxy, under every schedule, each use works on the logger in place at a moment of that use, never on None, and the default is put in place only when none is bound.", "quantifier": "any number of threads, programs and schedules", "why_tests_cant": "Interleavings of threads are unbounded and tests see few of them.", "anchors": ["lilya/logging.py:LoggerProxy", "lilya/logging.py:setup_logging"]}
{"id": "C229", "title": "The default logger and serializer are set up once", "statement": "Under every schedule the default is configured at most once, and at most once more for each time None is bound, when the bound loggers are true as conditions.", "quantifier": "any number of threads, programs and schedules", "why_tests_cant": "Interleavings of threads are unbounded; double set up needs a race.", "anchors": ["lilya/logging.py:LoggerProxy", "lilya/serializers.py:SerializerProxy"]}
{"id": "C230", "title": "The proxies do not deadlock", "statement": "Under every schedule, while a thread is not done some thread can move, and a thread finishes each bind or use within ten of its own steps.", "quantifier": "any number of threads, programs and schedules", "why_tests_cant": "Deadlocks depend on the schedule.", "anchors": ["lilya/logging.py:LoggerProxy", "lilya/serializers.py:SerializerProxy"]}
{"id": "C231", "title": "The exit stack of a request runs every callback once", "statement": "However a request ends (well, with an exception, cancelled) and whatever the callbacks do, every callback pushed on scope[\"lilya_asyncexitstack\"] is called exactly once, the last pushed first.", "quantifier": "all lists of callbacks, their reactions and all ends of the application", "why_tests_cant": "callbacks may raise, suppress or pass in any combination and number", "anchors": ["lilya/middleware/asyncexit.py:AsyncExitStackMiddleware"]}
{"id": "C232", "title": "Context managers entered in a request are told how it ended", "statement": "A context manager entered on the exit stack of a request is told of the exception that is on its way, as in nested with statements around the application, and all ends as these would.", "quantifier": "all lists of context managers, their reactions and all ends of the application", "why_tests_cant": "the combinations of reactions are unbounded", "anchors": ["lilya/middleware/asyncexit.py:AsyncExitStackMiddleware"]}
{"id": "C233", "title": "The exit stack does not lose a failure", "statement": "An exception of the application goes on after the callbacks ran, unless a callback raises one of its own; a request that failed never ends well.", "quantifier": "all lists of callbacks, their reactions and exceptions including cancellation", "why_tests_cant": "the combinations of reactions are unbounded", "anchors": ["lilya/middleware/asyncexit.py:AsyncExitStackMiddleware"]}
{"id": "C234", "title": "The request context is the request that is served", "statement": "In every interleaving of tasks, the current request in a task is the innermost that reached RequestContextMiddleware in it and is not done, else the one its parent task served when it started the task, else none.", "quantifier": "all histories of tasks entering, leaving and starting tasks", "why_tests_cant": "interleavings are unbounded", "anchors": ["lilya/middleware/request_context.py:RequestContextMiddleware", "lilya/context.py:RequestContext"]}
{"id": "C235", "title": "RequestContextMiddleware lets every connection through", "statement": "Each connection, http, websocket or lifespan, reaches the application behind RequestContextMiddleware and ends as the application ends.", "quantifier": "all connections and ends of the application", "why_tests_cant": "stated for all applications", "anchors": ["lilya/middleware/request_context.py:RequestContextMiddleware", "lilya/requests.py:Request"]}
{"id": "C236", "title": "A request cannot change the documentation pages", "statement": "The pages of Swagger UI, ReDoc, Stoplight Elements and RapiDoc are the same text for all requests, but for quoted values that a browser reads as the root path of the request followed by the configured addresses.", "quantifier": "all configurations, pages and root paths", "why_tests_cant": "the root path comes from the request (mounts with parameters), and the claim is about how every such text is read", "anchors": ["lilya/contrib/openapi/docs.py:get_swagger_ui_html", "lilya/contrib/openapi/docs.py:get_redoc_html", "lilya/contrib/openapi/config.py:enable"]}
{"id": "C237", "title": "A documentation page leads to the document", "statement": "The first address a documentation page shows for a request is, under the same root path, the path of the route that answers with the openapi document.", "quantifier": "all configurations, pages and root paths without special characters and last slash", "why_tests_cant": "joins two requests for all root paths", "anchors": ["lilya/contrib/openapi/config.py:enable", "lilya/_internal/_path.py:get_route_path"]}
{"id": "C238", "title": "No document, no documentation", "statement": "An address is answered by the documentation page it is configured for, exactly when it is configured and the document has an address; without one no route is added.", "quantifier": "all configurations", "why_tests_cant": "stated for all combinations of addresses", "anchors": ["lilya/contrib/openapi/config.py:enable"]}
{"id": "C239", "title": "run_sync runs a coroutine once", "statement": "run_sync(f, ...) and run_sync(coroutine) run the coroutine exactly once, with or without a running event loop, and return or raise what it does.", "quantifier": "all coroutines (any effect, result, exception), contexts and worlds", "why_tests_cant": "effects of a second run show only for some exceptions; the claim is for all bodies", "anchors": ["lilya/compat.py:run_sync"]}
{"id": "C240", "title": "run_sync keeps the context", "statement": "A coroutine run by run_sync sees the context variables of its caller.", "quantifier": "all coroutines, contexts, with or without a running loop", "why_tests_cant": "stated for all bodies", "anchors": ["lilya/compat.py:run_sync"]}
{"id": "C241", "title": "is_async_callable tells what has to be awaited", "statement": "is_async_callable is true of an object exactly if calling it gives an awaitable, through any number of functools.partial; enforce_async_callable leaves those alone and moves all others to a thread.", "quantifier": "all functions, methods, instances, classes and nested partials", "why_tests_cant": "nesting is unbounded", "anchors": ["lilya/compat.py:is_async_callable", "lilya/concurrency.py:enforce_async_callable"]}
{"id": "C242", "title": "A form entered with async with is closed once", "statement": "In every interleaving of tasks, the resource of a handler over a coroutine (async with request.form()) is made at most once, open while its block runs and closed exactly once after.", "quantifier": "all interleavings of tasks entering and leaving", "why_tests_cant": "schedules", "anchors": ["lilya/compat.py:AsyncResourceHandler", "lilya/requests.py:Request.form"]}
{"id": "C243", "title": "AsyncResourceHandler closes what it opened", "statement": "For any awaitable, each resource an AsyncResourceHandler made for a block is closed exactly once when all blocks have ended.", "quantifier": "all interleavings of tasks", "why_tests_cant": "schedules", "anchors": ["lilya/compat.py:AsyncResourceHandler"]}
{"id": "C244", "title": "show-urls lists every http route", "statement": "lilya show-urls lists every http route of the application, through any nesting of includes, once, in order and under its full address.", "quantifier": "all trees of routes", "why_tests_cant": "nesting and paths are unbounded", "anchors": ["lilya/cli/directives/operations/show_urls.py:get_routes_table"]}
{"id": "C245", "title": "The path of a discovered application leads to it", "statement": "The path module:attribute that discovery reports (and that reload and workers import) names the application that was discovered.", "quantifier": "all sets of discovery files and their contents", "why_tests_cant": "ranges over all modules", "anchors": ["lilya/cli/env.py:DirectiveEnv.find_app", "lilya/cli/env.py:DirectiveEnv.import_app_from_string"]}
{"id": "C246", "title": "Discovery pairs an application with its own Lilya instance", "statement": "The Lilya application found by discovery is one that the file it was found in holds, registers on import, or makes in its functions.", "quantifier": "all sequences of discovery files", "why_tests_cant": "depends on the order of imports and what each registers", "anchors": ["lilya/cli/env.py:DirectiveEnv._find_app_in_folder"]}
{"id": "C247", "title": "A directive gets the arguments after its name", "statement": "A custom directive, class or function, gets exactly the arguments that follow its name, with --app X, --app=X or neither, and with the name given by --directive or directly.", "quantifier": "all command lines of these forms", "why_tests_cant": "all combinations and arguments", "anchors": ["lilya/cli/directives/operations/run.py:get_position", "lilya/cli/base.py:BaseDirective.execute_from_command"]}
{"id": "C248", "title": "lilya run finds its application", "statement": "lilya run looks for the application, whatever the directive and its arguments are, unless help is asked for.", "quantifier": "all command lines", "why_tests_cant": "arguments are arbitrary texts", "anchors": ["lilya/cli/groups.py:DirectiveGroup.invoke"]}
{"id": "C249", "title": "runserver serves what it is told to", "statement": "If a path is given to runserver, that application is served.", "quantifier": "all combinations of options and discovered applications", "why_tests_cant": "stated for all", "anchors": ["lilya/cli/directives/operations/runserver.py:runserver"]}
{"id": "C250", "title": "A custom directive is loaded from its own file", "statement": "A custom directive is loaded from a file of its name that was found, the last location in order if there are many, and reported as unknown if there is none.", "quantifier": "all lists of directives found and names", "why_tests_cant": "lists are unbounded", "anchors": ["lilya/cli/utils.py:fetch_custom_directive"]}
{"id": "C251", "title": "A failing websocket route is contained and its client told", "statement": "Whatever the endpoints, hooks, middlewares and permissions of the routes raise on a websocket, the call of the application ends normally as long as the application's own middlewares, permissions, hooks and handlers do; and an exception no handler of the application takes ends the connection with one last close", "quantifier": "all trees of paths, includes and mounted applications, all behaviours of their components, all exceptions", "why_tests_cant": "the trees, the places of a failure and the exceptions are unbounded", "anchors": ["lilya/routing/base.py:handle_exception_handlers", "lilya/routing/websocket.py:handle_dispatch", "lilya/routing/include.py:handle_dispatch"]}
{"id": "C252", "title": "A WebSocketException closes with its code and its reason", "statement": "A WebSocketException that is raised while a websocket is served closes it with the code and the reason of the exception", "quantifier": "all exceptions, all places where they are raised (functions, controllers, hooks, permissions), all options of the route", "why_tests_cant": "a test raises at a few places", "anchors": ["lilya/_internal/_responses.py:handle_websocket_session", "lilya/middleware/exceptions.py:websocket_exception", "lilya/routing/base.py:_handle_websocket_exception"]}
{"id": "C253", "title": "When a websocket endpoint fails its connection is closed", "statement": "If an endpoint raises an exception that no handler of the user takes, a close is sent", "quantifier": "all endpoints, all exceptions, all messages sent before", "why_tests_cant": "exceptions and tables are unbounded", "anchors": ["lilya/_internal/_exception_handlers.py:handle_websocket_exception", "lilya/middleware/exceptions.py:http_exception"]}
{"id": "C254", "title": "A websocket connection to an unknown path is refused", "statement": "A connection that no route matches is answered with a close", "quantifier": "all routers and applications, all tables of handlers", "why_tests_cant": "tables of handlers are unbounded", "anchors": ["lilya/routing/router.py:handle_not_found", "lilya/middleware/exceptions.py:ExceptionMiddleware"]}
{"id": "C255", "title": "A websocket is closed at most once", "statement": "If each component of the user closes at most once, the server gets at most one close", "quantifier": "all trees of routes, all behaviours", "why_tests_cant": "the trees and the failures in them are unbounded", "anchors": ["lilya/routing/base.py:_handle_websocket_exception", "lilya/routing/websocket.py:handle_dispatch"]}
{"id": "C256", "title": "Exception handlers of the application get the exceptions of websockets", "statement": "The handler that is registered for an exception is called when a websocket endpoint raises it", "quantifier": "all tables, all exceptions, all endpoints", "why_tests_cant": "tables and class hierarchies are unbounded", "anchors": ["lilya/_internal/_exception_handlers.py:wrap_app_handling_exceptions", "lilya/routing/base.py:handle_exception_handlers"]}
{"id": "C257", "title": "Hooks around a websocket endpoint run from the outside to the inside and back", "statement": "Hooks before, middlewares and permissions of the includes from the outside to the inside, then those of the path, the endpoint, and the hooks after in the reverse nesting; if the endpoint fails only the hooks after of its own path are left out", "quantifier": "all depths of includes, all lists of hooks, middlewares and permissions", "why_tests_cant": "depths and lists are unbounded", "anchors": ["lilya/routing/websocket.py:handle_dispatch", "lilya/routing/include.py:handle_dispatch"]}
{"id": "C258", "title": "What a websocket is closed with is legal and tells no secrets", "statement": "The close sent for an exception has a code a server may send and a reason of at most 123 bytes that does not contain the text of an internal error", "quantifier": "all exceptions, all endpoints", "why_tests_cant": "exceptions are unbounded", "anchors": ["lilya/routing/base.py:_handle_websocket_exception", "lilya/routing/base.py:_get_status_code"]}
{"id": "C259", "title": "A controller serves every request as if it were alone", "statement": "On a route without middlewares and permissions every request to a controller runs the handler of its own method with the arguments its own signature asks for, on an object whose attributes no other request has touched, however many requests are in flight", "quantifier": "all controllers, all lists of requests, all interleavings", "why_tests_cant": "interleavings of requests are unbounded and tests serve one request at a time", "anchors": ["lilya/routing/path.py:handle_controller", "lilya/controllers.py:handle_dispatch"]}
{"id": "C260", "title": "A guard in front of a controller does not mix its requests up", "statement": "The same when the route has middlewares or permissions that let the requests pass", "quantifier": "all controllers, all lists of requests, all interleavings", "why_tests_cant": "interleavings of requests are unbounded and tests serve one request at a time", "anchors": ["lilya/controllers.py:handle_dispatch", "lilya/protocols/permissions.py:MetaPermission", "lilya/protocols/middleware.py:MetaMiddleware", "lilya/_internal/_middleware.py:apply_asgi_stack"]}
{"id": "C261", "title": "Any middleware or permission can guard a controller", "statement": "A request that all guards of a route let pass reaches the controller, for http and websocket controllers, with and without arguments", "quantifier": "all lists of guards, all kinds of controllers", "why_tests_cant": "lists of guards are unbounded", "anchors": ["lilya/_internal/_middleware.py:apply_asgi_stack", "lilya/controllers.py:WebSocketController"]}
{"id": "C262", "title": "A route runs its own hooks and those of its controller", "statement": "Before and after a request a route runs exactly the hooks given to it followed by those its controller declares, whatever other routes were made before and after it and from whichever lists", "quantifier": "all lists of routes, all lists of hooks, all class hierarchies", "why_tests_cant": "depends on all routes of the program", "anchors": ["lilya/routing/path.py:_apply_controller_options", "lilya/routing/websocket.py:_apply_controller_options"]}
{"id": "C263", "title": "Guards of a route stand outside those of its controller", "statement": "A request meets the middlewares of the route, then those its controller declares or inherits, then the permissions of the route and those of the controller; exception handlers and dependencies of the controller win over those of the route", "quantifier": "all routes, all class hierarchies, all tables", "why_tests_cant": "lists, tables and hierarchies are unbounded", "anchors": ["lilya/routing/path.py:_apply_controller_options", "lilya/_internal/_middleware.py:apply_asgi_stack"]}
{"id": "C264", "title": "A controller with arguments keeps its options", "statement": "Controller.with_init(...) has the permissions, middlewares, handlers, dependencies and hooks of the controller", "quantifier": "all controllers", "why_tests_cant": "class hierarchies are unbounded", "anchors": ["lilya/controllers.py:with_init"]}
{"id": "C265", "title": "A decorated handler gets the dependencies of its decorator", "statement": "Each parameter named in the dependencies of @app.get(...) and its siblings gets what that dependency provides, as it does with Path(...)", "quantifier": "all lists of decorations, all functions, all dependencies", "why_tests_cant": "depends on all later decorations of the function", "anchors": ["lilya/routing/router.py:route", "lilya/routing/router.py:websocket", "lilya/_internal/_responses.py:_extract_params_from_request"]}
{"id": "C266", "title": "A response object can answer many requests", "statement": "A plain response made once and returned for many requests, with no middleware that edits headers, gives every client the same status, headers and body", "quantifier": "all responses, all lists of requests", "why_tests_cant": "the number and kind of requests an object serves is unbounded", "anchors": ["lilya/responses.py:Response"]}
{"id": "C267", "title": "A shared response keeps clients apart", "statement": "A response made once and returned for many requests gives each client the headers and the body a new response would have given it, behind the session, CSRF, clickjacking, security, gzip and CORS middlewares in any order", "quantifier": "all stacks of these middlewares, all responses, all lists of requests", "why_tests_cant": "depends on every earlier request of every client", "anchors": ["lilya/responses.py:message", "lilya/datastructures.py:ensure_header_instance", "lilya/middleware/sessions.py:process_response", "lilya/middleware/compression.py:handle_standard_gzip_response", "lilya/middleware/csrf.py:CSRFMiddleware", "lilya/middleware/cors.py:send"]}
{"id": "C268", "title": "A shared file response serves every request like a new one", "statement": "A FileResponse made once, mounted or returned for many requests, gives each client the file as it is then, or the part of it that client asked for", "quantifier": "all files and their changes, all lists of requests, all Range headers", "why_tests_cant": "depends on every earlier request and on the history of the file", "anchors": ["lilya/responses.py:FileResponse"]}
{"id": "C269", "title": "Scaffolding never touches an existing file", "statement": "createproject, createapp and createdeployment leave every file that was there as it was, for any list of names and wherever they stop, by an error or a crash", "quantifier": "all file systems, all template directories, all lists of names and options, all points of interruption", "why_tests_cant": "all file systems and points of interruption", "anchors": ["lilya/cli/templates.py:TemplateDirective", "lilya/cli/directives/operations/createproject.py:create_project"]}
{"id": "C270", "title": "A generated project is its rendered template", "statement": "When a scaffolding command succeeds, the new files are exactly the rendered files of the template, each at its place and under its name, without compiled files and hidden directories", "quantifier": "all template directories, all names and options, all file systems", "why_tests_cant": "template trees and file systems are unbounded", "anchors": ["lilya/cli/templates.py:iterate_templates", "lilya/cli/templates.py:manage_template_variables"]}
{"id": "C271", "title": "A generated project stays in its directory", "statement": "Every file a scaffolding command creates is in the new directory named by the command", "quantifier": "all options, all file systems", "why_tests_cant": "all option texts", "anchors": ["lilya/cli/templates.py:handle", "lilya/cli/directives/operations/createapp.py:create_app"]}
{"id": "C272", "title": "A failed scaffolding command leaves nothing behind", "statement": "When a scaffolding command reports an error the file system is as before, so that it can be given again", "quantifier": "all options, all file systems", "why_tests_cant": "all points of failure", "anchors": ["lilya/cli/templates.py:handle", "lilya/cli/templates.py:validate_name"]}
{"id": "C273", "title": "Answers of WSGI applications go out whole", "statement": "Through WSGIMiddleware an answer of the WSGI application goes out message by message as it is, unless exceptions are redirected, the answer is an error and a handler is registered for the exception class; then the client gets the handler's answer, and nothing of the first", "quantifier": "all answers, handler tables, both settings of redirect_exceptions", "why_tests_cant": "ranges over all message sequences a WSGI application can produce", "anchors": ["lilya/middleware/wsgi.py:BufferedWSGIResponder", "lilya/middleware/wsgi.py:WSGIMiddleware"]}
{"id": "C274", "title": "Redirected errors reach the application's handler", "statement": "With redirect_exceptions an error answer of a WSGI application goes to the exception handler that the Lilya application would choose for that exception: by status, else by class along the inheritance", "quantifier": "all error answers, all tables of handlers, all exception classes, handlers plain or async", "why_tests_cant": "the combination of tables, classes and handlers is unbounded", "anchors": ["lilya/middleware/wsgi.py:BufferedWSGIResponder"]}
{"id": "C275", "title": "A buffered WSGI application that fails has sent nothing", "statement": "With redirect_exceptions, when the WSGI application raises, however far it had got with its answer, nothing of it was sent, and the surrounding application can still answer with its handler", "quantifier": "all runs that end in an exception, all tables", "why_tests_cant": "the point of failure is arbitrary", "anchors": ["lilya/middleware/wsgi.py:BufferedWSGIResponder", "lilya/middleware/exceptions.py:ExceptionMiddleware"]}
{"id": "C276", "title": "Redirection converts what a WSGI application raises", "statement": "With redirect_exceptions=True an exception raised by the WSGI application is converted into the configured exception class and handled as such", "quantifier": "all runs that end in an exception", "why_tests_cant": "the exceptions of an application are arbitrary", "anchors": ["lilya/middleware/wsgi.py:WSGIMiddleware"]}
{"id": "C277", "title": "The OAuth2 password form reads what was asked for", "statement": "The form object exists exactly when grant_type is \"password\" and username and password are texts (and client id and secret texts if given); its scopes are the words of the field scope, and no other field of the client, such as scopes, changes them", "quantifier": "all form data", "why_tests_cant": "client input is arbitrary", "anchors": ["lilya/contrib/security/oauth2/oauth.py:OAuth2PasswordRequestForm"]}
{"id": "C278", "title": "Scopes are names", "statement": "No scope read from a password form is the empty text", "quantifier": "all form data", "why_tests_cant": "client input is arbitrary", "anchors": ["lilya/contrib/security/oauth2/oauth.py:validate_scope"]}
{"id": "C279", "title": "A dump of the password form honours exclusions", "statement": "model_dump(exclude=...) of the password form leaves out every excluded field", "quantifier": "all forms, all sets of excluded names", "why_tests_cant": "ranges over all sets of names", "anchors": ["lilya/contrib/security/oauth2/oauth.py:model_dump"]}
{"id": "C280", "title": "The permissive password form does without grant_type", "statement": "OAuth2PasswordRequestForm takes a form without grant_type that is otherwise correct; only OAuth2PasswordRequestFormStrict insists on it", "quantifier": "all form data", "why_tests_cant": "client input is arbitrary", "anchors": ["lilya/contrib/security/oauth2/oauth.py:OAuth2PasswordRequestForm", "lilya/contrib/security/oauth2/oauth.py:OAuth2PasswordRequestFormStrict"]}
{"id": "C281", "title": "A bad password form is a validation error", "statement": "Form data that is not a correct password form is reported as a validation error that names the wrong fields", "quantifier": "all form data", "why_tests_cant": "client input is arbitrary", "anchors": ["lilya/contrib/security/oauth2/oauth.py:OAuth2PasswordRequestForm"]}
{"id": "C282", "title": "The documented fields of a class are those it and its ancestors declare", "statement": "The names documented for a class are exactly those annotated by it or by an ancestor. For each, the class's own annotation counts, otherwise that of the last base that declares it; along a single line of ancestors the nearest one decides.", "quantifier": "every class hierarchy, of any depth and number of bases", "why_tests_cant": "Hierarchies are unbounded and the fields are merged recursively.", "anchors": ["lilya/contrib/openapi/helpers.py:get_base_annotations", "lilya/contrib/openapi/helpers.py:convert_annotation_to_pydantic_model"]}
{"id": "C283", "title": "The documented type of an inherited field is the one Python inherits", "statement": "When several bases of a class declare a field, the documentation shows the type that the class has by Python's inheritance.", "quantifier": "every class hierarchy", "why_tests_cant": "Which base wins depends on the shape of the hierarchy.", "anchors": ["lilya/contrib/openapi/helpers.py:get_base_annotations"]}
{"id": "C284", "title": "The documentation says which fields are required", "statement": "For a class handled by an encoder (dataclasses, pydantic models) the documented model has its name, all its fields with their types, and marks as required exactly the fields without a default.", "quantifier": "every class and every field", "why_tests_cant": "Classes are arbitrary.", "anchors": ["lilya/contrib/openapi/helpers.py:convert_annotation_to_pydantic_model"]}
{"id": "C285", "title": "Annotations are documented at any depth", "statement": "In an annotation every class handled by an encoder is replaced by its documented model, at any depth of generics and unions, and everything else stays.", "quantifier": "every annotation", "why_tests_cant": "Annotations nest without bound.", "anchors": ["lilya/contrib/openapi/helpers.py:convert_annotation_to_pydantic_model"]}
{"id": "C286", "title": "The list of directives shows every directive once", "statement": "`lilya directives` shows each directive of the framework and of the application exactly once, in its section, and nothing else.", "quantifier": "every set of native and custom directives", "why_tests_cant": "Directives are discovered at run time.", "anchors": ["lilya/cli/directives/operations/list.py:directives", "lilya/cli/utils.py:get_application_directives"]}
{"id": "C287", "title": "Listing the directives does not change them", "statement": "Listing directives again in the same process shows the same.", "quantifier": "any number of listings, every set of directives", "why_tests_cant": "It depends on a cache shared between calls.", "anchors": ["lilya/cli/directives/operations/list.py:directives", "lilya/cli/utils.py:get_directives"]}
{"id": "C288", "title": "A broken directive file costs only its own command", "statement": "The commands offered are exactly the last displayed directive found for each name, whatever the other files do when they are loaded.", "quantifier": "every list of directive files and every outcome of loading them", "why_tests_cant": "Outcomes combine over an unbounded list of files.", "anchors": ["lilya/cli/utils.py:get_custom_directives_to_cli", "lilya/cli/utils.py:fetch_custom_directive_by_location"]}
{"id": "C289", "title": "A custom command is the directive that run executes", "statement": "`lilya NAME` and `lilya run NAME` execute the same file.", "quantifier": "every list of directive files, in every order of discovery", "why_tests_cant": "The order of discovery is that of the file system.", "anchors": ["lilya/cli/utils.py:get_custom_directives_to_cli", "lilya/cli/utils.py:fetch_custom_directive"]}
{"id": "C290", "title": "Calls of reverse are independent of each other", "statement": "The URL returned by `reverse` depends only on the parameters given to that call, also when a dictionary of parameters is used for several calls.", "quantifier": "every sequence of calls with one dictionary", "why_tests_cant": "Histories of calls are unbounded.", "anchors": ["lilya/_internal/_urls.py:reverse"]}
{"id": "C291", "title": "The scheduler gets the enabled tasks", "statement": "A scheduler configuration hands over the enabled tasks in their order; it fails exactly if the scheduler refuses one, and then the scheduler has those before it.", "quantifier": "every list of tasks and every behaviour of the scheduler", "why_tests_cant": "Which tasks are refused depends on the scheduler's state.", "anchors": ["lilya/contrib/schedulers/asyncz/config.py:AsynczConfig.register_tasks"]}
{"id": "C292", "title": "A streamed response is right under every schedule", "statement": "However the event loop interleaves the stream and the task that waits for the disconnect, wherever their awaits suspend and whenever messages arrive: when the call of a StreamingResponse has ended, the start was sent first and either the content was exhausted and the body is complete and made of all its items, or the content raised, the body is unfinished and the exception comes out, or the client had left and what was sent is the beginning of the content; the cleanup ran once, after the last message.", "quantifier": "every content (finite or not, synchronous or asynchronous), every schedule, every arrival of messages", "why_tests_cant": "The schedules of the two tasks, their suspensions and the arrivals are unbounded.", "anchors": ["lilya/responses.py:StreamingResponse.__call__", "lilya/responses.py:StreamingResponse.stream", "lilya/responses.py:StreamingResponse.wait_for_disconnect"]}
{"id": "C293", "title": "Producing a stream leaves the event loop to others", "statement": "While the content of a StreamingResponse is produced the other tasks get their turn, so that a client that leaves is noticed; once it is noticed nothing more is taken or sent.", "quantifier": "every content, every schedule, every behaviour of the server's send", "why_tests_cant": "A test cannot observe that something never happens; the content may be endless.", "anchors": ["lilya/concurrency.py:iterate_in_threadpool", "lilya/responses.py:StreamingResponse.__call__"]}
{"id": "C294", "title": "What a stream has produced is sent at once", "statement": "Whenever a StreamingResponse waits for the next item of its content, all items taken so far have been sent.", "quantifier": "every content, every schedule", "why_tests_cant": "It must hold at each of the unboundedly many points where a stream can wait.", "anchors": ["lilya/responses.py:StreamingResponse.stream"]}
{"id": "C295", "title": "The mailer that was set up is the one injected", "statement": "After setup_mail on an application, the Mail dependency gives the mailer set up last on it in every handler the application serves, nested applications without a mailer of their own included; nothing but a mailer is ever injected.", "quantifier": "every history of setups and assignments to the state, every nesting of applications", "why_tests_cant": "Histories and nestings are unbounded.", "anchors": ["lilya/contrib/mail/startup.py:setup_mail", "lilya/contrib/mail/dependencies.py:_resolve_mailer", "lilya/apps.py:Lilya.__call__"]}
{"id": "C296", "title": "The AI client that was set up is the one injected", "statement": "After setup_ai on an application the AI dependency gives the client set up last in its handlers, whatever the state attribute chosen.", "quantifier": "every history of setups, every attribute name", "why_tests_cant": "Histories and names are unbounded.", "anchors": ["lilya/contrib/ai/startup.py:setup_ai", "lilya/contrib/ai/dependencies.py:_resolve_ai_client"]}
{"id": "C297", "title": "Attached services are opened and closed with the application", "statement": "Every mailer and AI client set up with its life cycle on an application, or on one nested in it, is opened before the startup is reported and closed after the message to stop.", "quantifier": "every history of setups, every application and its hooks", "why_tests_cant": "Histories and hook lists are unbounded.", "anchors": ["lilya/contrib/mail/startup.py:setup_mail", "lilya/contrib/ai/startup.py:setup_ai", "lilya/routing/router.py:BaseRouter.lifespan"]}
{"id": "C298", "title": "A cached dependency is made once, also under concurrent requests", "statement": "However the resolutions of one Provide with use_cache interleave, its factory is called at most once when it does not fail.", "quantifier": "every schedule of any number of overlapping resolutions, every behaviour of the factory", "why_tests_cant": "Schedules and the number of requests are unbounded.", "anchors": ["lilya/dependencies.py:Provide.resolve", "lilya/dependencies.py:Provide._resolve_internal"]}
{"id": "C299", "title": "All users of a cached dependency share one value", "statement": "However they interleave, all resolutions of one Provide with use_cache that give a value give the same one, and it was made by the factory.", "quantifier": "every schedule of any number of overlapping resolutions, every behaviour of the factory", "why_tests_cant": "Schedules and the number of requests are unbounded.", "anchors": ["lilya/dependencies.py:Provide.resolve", "lilya/dependencies.py:Provide._resolve_internal"]}
{"id": "C300", "title": "Emissions and subscriptions that overlap", "statement": "However calls of subscribe and emit from any number of tasks interleave, an emission starts each function at least as often as it was subscribed when emit was called and at most as often as it is when the listeners have been started; of two emissions of one event the later starts what the earlier did, in the same order, and maybe more; nothing else is started.", "quantifier": "every number of tasks, every program of subscribe, emit and other awaits, every schedule", "why_tests_cant": "Schedules and numbers of tasks are unbounded.", "anchors": ["lilya/_internal/_events.py:EventDispatcher.emit", "lilya/_internal/_events.py:EventDispatcher.subscribe"]}
{"id": "C301", "title": "An emission is over when its listeners are", "statement": "When emit returns or raises, each listener it started has run to its end or has failed itself.", "quantifier": "every number of tasks, every program of listeners, failing ones included, every schedule", "why_tests_cant": "Schedules and nestings are unbounded.", "anchors": ["lilya/_internal/_events.py:EventDispatcher.emit"]}
{"id": "C302", "title": "Listeners may subscribe and emit", "statement": "Calls of subscribe and emit, also from inside listeners and to any depth, never block each other for good: as long as a task is not at its end, one can go on.", "quantifier": "every number of tasks, every program, every schedule", "why_tests_cant": "Deadlocks depend on schedules and nestings, which are unbounded.", "anchors": ["lilya/_internal/_events.py:EventDispatcher.emit", "lilya/_internal/_events.py:EventDispatcher.subscribe"]}
{"id": "C303", "title": "Overlapping requests find the session of the last answer", "statement": "However the requests of one browser overlap, each finds the session saved by the last answer that reached the browser before it was made, while that lives, and what populate_session gives otherwise; what other applications do to their sessions meanwhile is not seen.", "quantifier": "every history of requests, steps of their applications and arrivals of answers, every session content, lifetime and time", "why_tests_cant": "the number of interleavings of a few requests is beyond any test suite", "anchors": ["lilya/middleware/sessions.py:SessionMiddleware.__call__", "lilya/middleware/sessions.py:SessionMiddleware.load_session_data", "lilya/middleware/sessions.py:SessionMiddleware.process_response"]}
{"id": "C304", "title": "Overlapping requests keep each other's session changes", "statement": "When the answer to a request arrives, its change is made to the session the browser has, so no change another request made in the meantime is undone; a request that does not change its session undoes nothing.", "quantifier": "every history of overlapping requests, every session and change", "why_tests_cant": "lost updates appear only under particular interleavings", "anchors": ["lilya/middleware/sessions.py:SessionMiddleware.process_response"]}
{"id": "C305", "title": "Stored messages stay in their directory", "statement": "Whatever the subjects of messages are, the file backend writes only right inside its directory, to names of letters, digits, hyphens and underscores ending in .eml, with the content of a message that was sent; no other file changes.", "quantifier": "every history of opening and sending, every subject, time and content", "why_tests_cant": "one subject with a path in it would be enough", "anchors": ["lilya/contrib/mail/backends/file.py:FileBackend.send"]}
{"id": "C306", "title": "Stored messages are not overwritten", "statement": "Every message the file backend has accepted is found in a file of its own afterwards.", "quantifier": "every history of sends, every subject and time", "why_tests_cant": "needs messages at the same moment with subjects that agree after cleaning", "anchors": ["lilya/contrib/mail/backends/file.py:FileBackend.send"]}
{"id": "C307", "title": "Every message can be stored", "statement": "Once the directory is there, the file backend stores every message that can be built, whatever its subject.", "quantifier": "every subject and time", "why_tests_cant": "the limit of the file system is met only by certain subjects", "anchors": ["lilya/contrib/mail/backends/file.py:FileBackend.open", "lilya/contrib/mail/backends/file.py:FileBackend.send"]}
{"id": "C308", "title": "The outbox shows what was sent", "statement": "The outbox of the in-memory backend shows all messages in the order of sending, as they were when they were sent.", "quantifier": "every history of making, sending and changing messages", "why_tests_cant": "aliasing shows only in particular histories", "anchors": ["lilya/contrib/mail/backends/inmemory.py:InMemoryBackend.send", "lilya/contrib/mail/backends/inmemory.py:InMemoryBackend.send_many"]}
{"id": "C309", "title": "An unhandled HTTP error is answered by itself", "statement": "An HTTP exception that no handler is registered for is answered with the response it carries, or else with its status (500 if it has none), its headers and its text, and with no body for 204 and 304.", "quantifier": "every table of handlers, every exception and everything sent before", "why_tests_cant": "particular status codes, classes and tables are only samples", "anchors": ["lilya/middleware/exceptions.py:ExceptionMiddleware.http_exception"]}
{"id": "C310", "title": "A root path handled by a proxy changes nothing", "statement": "An application with a root path, behind a proxy that removes that prefix, serves every request as the same application without a root path does: same answers, same handlers with the same parameters.", "quantifier": "every routing table of any nesting, every root path that does not end in a slash, every path without doubled slashes, every method and body", "why_tests_cant": "particular root paths, tables and requests are only samples of them", "anchors": ["lilya/apps.py:Lilya.__call__", "lilya/_internal/_path.py:get_route_path", "lilya/routing/include.py:Include.handle_match"]}
{"id": "C311", "title": "A root path kept in the path is transparent", "statement": "If paths arrive with the root path in front (the one of the application, or else the one the server names), each request is served as the rest of its path is without a root path, through any nesting of mounts: same answers, same handlers with the same parameters, and redirects have the root path in front.", "quantifier": "every routing table of any nesting, every root path, every path without doubled slashes, every method and body, handlers that do not look at the root path", "why_tests_cant": "particular root paths, tables and requests are only samples of them", "anchors": ["lilya/apps.py:Lilya.__call__", "lilya/_internal/_path.py:get_route_path", "lilya/routing/include.py:Include.handle_match"]}
{"id": "C312", "title": "An application below a mount serves what follows the prefix", "statement": "An application mounted under a prefix, whatever its own root path, serves what follows the prefix as it does alone, with the prefix in front of its redirects.", "quantifier": "every mount, application, root path, path without doubled slashes, method and body", "why_tests_cant": "particular mounts and root paths are only samples", "anchors": ["lilya/apps.py:Lilya.__call__", "lilya/routing/include.py:Include.search", "lilya/routing/include.py:Include.handle_match"]}
{"id": "C313", "title": "The content type of a response", "statement": "A response that may have a body and whose headers name no content type is sent with exactly one, made of its media type: followed by the charset if it is a type of text, unchanged otherwise; and with none if it has no media type.", "quantifier": "every status that may have a body, every body, charset, media type and set of other headers, every iteration order of sets", "why_tests_cant": "particular media types and headers are only samples", "anchors": ["lilya/responses.py:Response.make_headers", "lilya/_internal/_helpers.py:HeaderHelper.get_content_type"]}
{"id": "C314", "title": "The parts of a link", "statement": "The absolute URL that a request makes for a route has the scheme of the route's kind (http or ws), secure exactly if the request is; the route's host, or else the authority of the request (its Host header, or the server's address without an implied port); and as path the root path of the application without slashes at the end followed by the path of the route. Its text reads back as these parts, with no query and no fragment.", "quantifier": "every request over http, https, ws or wss with an authority, every root path and every path of a route without \"?\" and \"#\"", "why_tests_cant": "particular requests, root paths and routes are only samples", "anchors": ["lilya/datastructures.py:URLPath.make_absolute_url", "lilya/_internal/_connection.py:Connection.base_url", "lilya/_internal/_connection.py:Connection.url_path_for"]}
{"id": "C315", "title": "Whoever follows a link reaches the route", "statement": "A link that a request makes for a route, when it is followed, arrives at the application with the path of that route, whatever the parameters in it.", "quantifier": "every request, root path and path of a route", "why_tests_cant": "particular parameters are only samples of what users put into them", "anchors": ["lilya/datastructures.py:URLPath.make_absolute_url", "lilya/_internal/_connection.py:Connection.url_path_for", "lilya/routing/path.py:Path.url_path_for", "lilya/_internal/_path.py:get_route_path"]}
{"id": "C316", "title": "Reading a variable as a boolean", "statement": "A variable read as a boolean is true for exactly the texts true, 1, y, yes and on, false for exactly false, 0, n, no and off, in any mixture of capitals, and any other text is an error.", "quantifier": "every loader, prefix, live environment, key, text and default", "why_tests_cant": "there are infinitely many texts and spellings", "anchors": ["lilya/environments.py:_parse_boolean", "lilya/environments.py:EnvironLoader.env"]}
{"id": "C317", "title": "When a read of the environment fails", "statement": "A read raises KeyError exactly if neither the loader nor the live environment has the variable and no default is given; a variable that is set is read and cast whatever the default; errors of type and value in the cast become ValueError; and after the read, failed or not, the variable can be neither set nor deleted, with everything else unchanged.", "quantifier": "every loader, live environment, key, cast and default", "why_tests_cant": "particular loaders, casts and defaults are only samples", "anchors": ["lilya/environments.py:EnvironLoader.env", "lilya/environments.py:EnvironLoader._cast"]}
{"id": "C318", "title": "A variable that is not set reads as the default", "statement": "A variable that neither the loader nor the environment has reads as the given default, whatever the cast.", "quantifier": "every loader, live environment, key, cast and default", "why_tests_cant": "particular casts and defaults are only samples", "anchors": ["lilya/environments.py:EnvironLoader.env", "lilya/environments.py:EnvironLoader._cast"]}
{"id": "C319", "title": "Membership agrees with reading", "statement": "A key is in the loader, and get gives its value, exactly if reading it with brackets succeeds, with that value.", "quantifier": "every loader and key", "why_tests_cant": "particular prefixes and keys are only samples", "anchors": ["lilya/environments.py:EnvironLoader.__getitem__", "lilya/environments.py:EnvironLoader"]}
{"id": "C320", "title": "The parts of a form are named as they declare", "statement": "In a multipart form whose parts declare any parameters in any order, quoted or not, every part comes out under its name, or where it declares none under its decoded name*, as a file if it declares a filename and as a field otherwise; a part that declares neither name nor name* makes the whole form fail.", "quantifier": "every list of parts, every set of parameters, and every safe way to cut the body into chunks", "why_tests_cant": "the combinations of parameters, parts and cuts are unbounded", "anchors": ["lilya/_internal/_parsers.py:MultiPartParser.on_headers_finished", "lilya/_internal/_parsers.py:MultiPartParser._set_field_name", "lilya/contrib/multipart/utils.py:parse_options_header"]}
{"id": "C321", "title": "Extended names come back", "statement": "A field name sent as RFC 5987 says, in UTF-8, comes back as the text it was made from, for every field of the form; an extended name that lacks the charset and the two quotes names its part with the empty text.", "quantifier": "all texts, all lists of fields, every content type charset and every safe way to cut the body", "why_tests_cant": "texts are unbounded", "anchors": ["lilya/contrib/multipart/utils.py:_decode_rfc5987", "lilya/_internal/_parsers.py:MultiPartParser._set_field_name"]}
{"id": "C322", "title": "An extended file name makes a file", "statement": "A part that declares a file name, plain or as RFC 5987 says, is stored as a file.", "quantifier": "every list of parts", "why_tests_cant": "the combinations of parameters and parts are unbounded", "anchors": ["lilya/_internal/_parsers.py:MultiPartParser.on_headers_finished", "lilya/_internal/_parsers.py:MultiPartParser._handle_filename"]}
{"id": "C323", "title": "A state is a map of names to values", "statement": "Over any history, reading a name of a state gives the value that was put there last and not deleted since, and an error if there is none; setting and deleting change no other name; len counts the names. All connections over one scope, and the \"state\" that the server put there, are one map; a State made by hand or by copy has a map of its own, which starts empty or with the names of the original.", "quantifier": "every history of scopes, connections, states, sets, reads, deletes and copies with names that are not \"copy\" and do not start with an underscore", "why_tests_cant": "histories are unbounded and sharing shows only between several objects", "anchors": ["lilya/datastructures.py:State", "lilya/_internal/_connection.py:Connection.state"]}
{"id": "C324", "title": "Any name can be put in a state", "statement": "The same with every name.", "quantifier": "every history", "why_tests_cant": "the names that break it are a few among all", "anchors": ["lilya/datastructures.py:State.__getattribute__", "lilya/datastructures.py:State.__copy__"]}
{"id": "C325", "title": "The headers of a request arrive and are given on as they are", "statement": "The headers of a request in UTF-8 can be read: under any capitalisation of a name are the texts of its values, in order. Iterating over them, as the next application or server does, gives the same lines of bytes, none more and none less, under each name in the same order.", "quantifier": "all lists of header lines with names in lower-case ASCII and values in UTF-8, and all orders of sets", "why_tests_cant": "names and values are unbounded", "anchors": ["lilya/datastructures.py:Header.parse_headers", "lilya/datastructures.py:Header.encoded_multi_items", "lilya/datastructures.py:Header.from_scope"]}
{"id": "C326", "title": "The headers of every request can be read", "statement": "Whatever bytes a client sends in the values of headers, the application can read the headers of the request.", "quantifier": "all lists of header lines", "why_tests_cant": "the values that break it are a few among all", "anchors": ["lilya/datastructures.py:Header.parse_headers"]}
{"id": "C327", "title": "Headers are made from any mapping", "statement": "A header container made from a mapping has one line for each name and value; for a dict, a value that is a list gives one line for each element, and bytes are read as UTF-8.", "quantifier": "all mappings", "why_tests_cant": "mappings are unbounded and of many types", "anchors": ["lilya/datastructures.py:Header.parse_headers"]}
{"id": "C328", "title": "What is in a header container", "statement": "A name, as text or bytes, is in a container exactly if there is a line with that name in some capitalisation; a pair is in it exactly if there is a line with that name and exactly that value; whatever iterating gives is in it; other things are not.", "quantifier": "all containers, names and pairs", "why_tests_cant": "containers and texts are unbounded", "anchors": ["lilya/datastructures.py:Header.__contains__"]}
{"id": "C329", "title": "Headers as attributes", "statement": "A header that is read as an attribute, with underscores for hyphens and perhaps some more at the end, gives the values of its name in order, with commas between, and an empty text if there is none.", "quantifier": "all containers and all names without underscores that do not end in a hyphen", "why_tests_cant": "names are unbounded", "anchors": ["lilya/datastructures.py:Header.__getattr__"]}
{"id": "C330", "title": "A cookie object is written as the cookie it describes", "statement": "A Cookie's header line makes a client keep its name and value, with its attributes, or forget it if its lifetime is zero or less; it is the line set_cookie would add for the same arguments.", "quantifier": "all cookies with usable names and attribute texts, all earlier jars", "why_tests_cant": "names, values and attributes are unbounded", "anchors": ["lilya/datastructures.py:Cookie.to_header"]}
{"id": "C331", "title": "Query parameters can be read from every query string", "statement": "Whatever bytes follow the question mark of a request, the application can read its query parameters; pairs a client has encoded are read back as they were, in order.", "quantifier": "all query strings and all lists of pairs of texts", "why_tests_cant": "the strings that break it are a few among all", "anchors": ["lilya/datastructures.py:QueryParam.__init__", "lilya/_internal/_connection.py:Connection.query_params"]}
{"id": "C332", "title": "The text of query parameters reads as the parameters", "statement": "Parameters written as text and read again have the same values under each name in the same order, and equal parameters have the same text.", "quantifier": "all lists of pairs of texts and all orders of sets", "why_tests_cant": "lists are unbounded and the order of sets varies between runs", "anchors": ["lilya/datastructures.py:QueryParam.__str__", "lilya/datastructures.py:MultiMixin.multi_items"]}
{"id": "C333", "title": "Equal containers hold the same pairs", "statement": "Two containers of texts are equal exactly when they hold the same pairs, each as often, in whatever order they were added and whatever order their sets of names have.", "quantifier": "all containers of texts and all orders of sets", "why_tests_cant": "containers are unbounded and the order of sets varies between runs", "anchors": ["lilya/datastructures.py:MultiDict.__eq__", "lilya/datastructures.py:ImmutableMultiDict.__eq__"]}
{"id": "C334", "title": "Equal containers read alike", "statement": "Any two containers can be compared, and if they are equal then reading a name gives the same value in both.", "quantifier": "all containers", "why_tests_cant": "containers are unbounded", "anchors": ["lilya/datastructures.py:MultiDict.__eq__", "lilya/datastructures.py:FormData"]}
{"id": "C335", "title": "Lists, dictionaries and copies keep every value", "statement": "The list of a name, the dictionary of lists and the mutable and immutable copies give each name all its values in order, and have no other names; the dictionary has each name once.", "quantifier": "all containers, names and orders of sets", "why_tests_cant": "containers are unbounded and the order of sets varies between runs", "anchors": ["lilya/datastructures.py:MultiMixin.dict", "lilya/datastructures.py:MultiDict.getlist", "lilya/datastructures.py:ImmutableMultiDict.mutablecopy", "lilya/datastructures.py:MultiDict.to_immutable"]}
{"id": "C336", "title": "The dictionary without duplicates agrees with reading", "statement": "The dictionary without duplicates has each name once, with the value that reading the name in the container gives.", "quantifier": "all containers and names", "why_tests_cant": "containers are unbounded", "anchors": ["lilya/datastructures.py:MultiMixin.dump"]}
{"id": "C337", "title": "Closing a form closes its files", "statement": "Closing a form closes every uploaded file of it that can be closed.", "quantifier": "all forms, orders of sets and sets of files whose closing fails", "why_tests_cant": "the file that fails can be any of them", "anchors": ["lilya/datastructures.py:FormData.close", "lilya/datastructures.py:FormMultiDict.close"]}
{"id": "C338", "title": "A client that has gone stays gone, and not before it has", "statement": "Once request.is_disconnected() has answered True it answers True whenever it is asked, whatever is read or sniffed in between. It never answers True while the server still holds a part of the body. After the body was read, a disconnect the server knows of is noticed.", "quantifier": "all deliveries of a body, all histories of reading, sniffing and asking, and all moments at which a message is at hand", "why_tests_cant": "histories and the timing of messages are unbounded", "anchors": ["lilya/requests.py:Request.is_disconnected", "lilya/requests.py:Request.stream"]}
{"id": "C339", "title": "Every way of registering a route registers that route", "statement": "Each decorator and each add method, of an application or of its router, appends exactly one route with the path, methods, target and options it was given, after all routes registered before; decorators give the function back; a refused call raises and leaves the routes as they were. So after any history of such calls the routes are those asked for, in order.", "quantifier": "all histories of calls on the application and on its router with all options", "why_tests_cant": "histories and combinations of options are unbounded", "anchors": ["lilya/routing/mixins.py:RoutingMethodsMixin", "lilya/routing/router.py:Router.route", "lilya/routing/router.py:BaseRouter.add_route", "lilya/apps.py:BaseLilya.add_route", "lilya/apps.py:Lilya.forward_single_method_route", "lilya/apps.py:BaseLilya.add_child_lilya"]}
{"id": "C340", "title": "A decorated function answers the method of its decorator", "statement": "The route made by a decorator get, head, query, post, put, patch, delete, trace or options accepts requests with that method, and with HEAD for get, and no others.", "quantifier": "all nine decorators on applications and routers, all paths, options and request methods", "why_tests_cant": "methods of requests are any texts", "anchors": ["lilya/routing/mixins.py:RoutingMethodsMixin", "lilya/routing/path.py:Path.__init__"]}
{"id": "C341", "title": "The documented media type of a schema body", "statement": "When a handler is decorated with a JSON Schema as its request body, the document shows that schema unchanged under exactly one media type: the one given to the decorator, and otherwise multipart/form-data if \"format: binary\" stands anywhere inside the schema, at whatever depth of dictionaries and lists, and application/json if it does not.", "quantifier": "every schema of any depth, every media type given or not, every method with a body", "why_tests_cant": "Schemas nest without bound and tests try a few depths", "anchors": ["lilya/contrib/openapi/decorator.py:_build_request_body_metadata", "lilya/contrib/openapi/decorator.py:_schema_contains_binary_format", "lilya/contrib/openapi/utils.py:_normalize_request_body_operation"]}
{"id": "C342", "title": "The forms a request body is declared in", "statement": "A complete requestBody object is documented as it is; a list or tuple with one model documents the schema of a list of that model, any other model its own schema; a list or tuple of another length is refused with a ValueError and nothing else is; no request body, or a method that takes none, documents none.", "quantifier": "every value given as request body, every method and media type, every answer pydantic gives", "why_tests_cant": "The values that can be given are unbounded", "anchors": ["lilya/contrib/openapi/decorator.py:_build_request_body_metadata", "lilya/contrib/openapi/utils.py:_normalize_request_body_operation"]}
{"id": "C343", "title": "Declared query parameters are documented", "statement": "The query parameters of a decorated handler are documented once each, in the order of their declaration, with the required flag, description, style and schema of their declaration, a text if no schema was declared; names given as a set are optional texts; a list or tuple in place of a declaration is refused with a ValueError.", "quantifier": "every dictionary of declarations and every set of names", "why_tests_cant": "Dictionaries of declarations are unbounded", "anchors": ["lilya/contrib/openapi/decorator.py:query_strings", "lilya/contrib/openapi/params.py:Query.as_openapi_dict"]}
{"id": "C344", "title": "No declared query parameter is dropped", "statement": "Every name in the dictionary given as query is documented as a parameter.", "quantifier": "every dictionary of declarations that is accepted", "why_tests_cant": "The kinds of values given in place of a declaration are unbounded", "anchors": ["lilya/contrib/openapi/decorator.py:query_strings"]}
{"id": "C345", "title": "Awaited content is sent as content given at once", "statement": "A response whose content is an awaitable sends the same status and body, and the same values under every header name, as a response made with the awaited content itself; in particular it announces the length of its body exactly once. This holds for lower-case header names and, where the media type is to be found from the body, for statuses with a body and no content type given.", "quantifier": "all bodies, statuses, media types, given headers and ways of finding the media type", "why_tests_cant": "The two paths through the code compute headers at different times; no test compares them for all inputs", "anchors": ["lilya/responses.py:Response.resolve_async_content", "lilya/responses.py:Response.make_headers"]}
{"id": "C346", "title": "A content type given with the headers is kept", "statement": "If the headers given to a response hold a content type, that one is sent, with whatever way of finding the media type.", "quantifier": "all responses with content given at once or awaited", "why_tests_cant": "All combinations of options, statuses and headers", "anchors": ["lilya/responses.py:Response.resolve_async_content", "lilya/responses.py:Response.make_headers"]}
{"id": "C347", "title": "A response can be sent again", "statement": "A response that is called several times sends the same start and body each time, also if its content was awaited for the first; as long as awaiting the content fails nothing is sent.", "quantifier": "all numbers of calls and failures", "why_tests_cant": "Histories of calls are unbounded", "anchors": ["lilya/responses.py:Response.__call__", "lilya/responses.py:Response.resolve_async_content"]}
{"id": "C348", "title": "Changing the routes of a router takes effect at once", "statement": "Whatever a router has answered before and however its list of routes was changed in between (replaced, extended, shortened, one route exchanged for another), each request is answered as by a new router with the present routes: the remembered shortcut for a single path is never out of date.", "quantifier": "all histories of changes and requests, all routes, paths and handlers", "why_tests_cant": "Histories are unbounded and staleness shows only after particular sequences of changes", "anchors": ["lilya/routing/router.py:Router.app", "lilya/routing/router.py:Router._compute_fast_path"]}
{"id": "C349", "title": "A form made with the token of its response can be submitted", "statement": "If a handler behind the CSRF middleware puts the token of get_or_set_csrf_token into its page and passes its response, then a client that had no token can submit the form: the token is signed, and a request with the cookies the client then has and that token is admitted, whatever cookies the response set before and whatever the middleware does to the response.", "quantifier": "all clients without a token, all tokens drawn, all cookies set before, all later unsafe requests", "why_tests_cant": "The agreement of helper, middleware and client over two requests cannot be tested for all tokens and cookies", "anchors": ["lilya/contrib/security/csrf.py:get_or_set_csrf_token", "lilya/contrib/security/csrf.py:ensure_csrf_cookie", "lilya/middleware/csrf.py:CSRFMiddleware"]}
{"id": "C350", "title": "A client that has a token cookie can submit the form it gets", "statement": "Whatever value of the token cookie a client comes with, the token get_or_set_csrf_token gives for its page is admitted when it is submitted.", "quantifier": "all cookie values, secrets, requests", "why_tests_cant": "The values a client may have kept are unbounded", "anchors": ["lilya/contrib/security/csrf.py:get_or_set_csrf_token", "lilya/middleware/csrf.py:CSRFMiddleware._set_cookie_if_needed"]}
{"id": "C351", "title": "No request leads the proxy to another server", "statement": "Whatever path a client asks for, the request or websocket is sent to the configured server with the client's query, and a websocket goes to the path a request would go to.", "quantifier": "all configured addresses, prefixes that do not begin with two slashes, request paths and queries", "why_tests_cant": "The paths a hostile client may send are unbounded", "anchors": ["lilya/contrib/proxy/relay.py:Relay._join_paths", "lilya/contrib/proxy/relay.py:Relay._build_upstream_url", "lilya/contrib/proxy/relay.py:Relay._build_upstream_ws_url"]}
{"id": "C352", "title": "Websockets to an https upstream are encrypted", "statement": "The proxy connects to its upstream by an encrypted websocket exactly if the upstream is configured with https.", "quantifier": "all addresses, prefixes and websocket scopes", "why_tests_cant": "All combinations of schemes, hosts and paths matter", "anchors": ["lilya/contrib/proxy/relay.py:Relay._build_upstream_ws_url"]}
{"id": "C353", "title": "The upstream is told whether the client's connection is encrypted", "statement": "X-Forwarded-Proto is https exactly if the client's request or websocket came encrypted, whatever header the client sends itself.", "quantifier": "all configurations, headers, clients and the four schemes", "why_tests_cant": "The headers of a client are unbounded", "anchors": ["lilya/contrib/proxy/relay.py:Relay._prepare_request_headers"]}
{"id": "C354", "title": "The path of the configured address is kept", "statement": "The path of an address with a path, which the class documents as allowed, comes before the path of each request.", "quantifier": "all configured addresses and request paths", "why_tests_cant": "Paths are unbounded", "anchors": ["lilya/contrib/proxy/relay.py:Relay._build_upstream_url"]}
{"id": "C355", "title": "A proxied websocket is accepted once and then ends properly", "statement": "The client's websocket is accepted first and once; if the upstream cannot be reached it gets exactly one close that says so; otherwise it gets the upstream's frames in order without a gap and then only closes, at least one if the upstream ends.", "quantifier": "all interleavings of events of client and upstream, all ways of connecting", "why_tests_cant": "The interleavings are unbounded", "anchors": ["lilya/contrib/proxy/relay.py:Relay._handle_websocket", "lilya/contrib/proxy/relay.py:Relay._pump_websocket"]}
{"id": "C356", "title": "A slash redirect is given only where it helps", "statement": "A request whose path some route has, for whatever method, is never redirected. Any other is redirected exactly if redirects are on, it is not for the root and some route has the path with the slash at its end added or removed; else it is not found.", "quantifier": "all routes, requests, root paths, states of the dependency overrides", "why_tests_cant": "Routes and paths are unbounded, and the one-route and many-route ways must agree", "anchors": ["lilya/routing/router.py:BaseRouter.app", "lilya/routing/router.py:BaseRouter.handle_not_found"]}
{"id": "C357", "title": "A mail from templates is what was asked for", "statement": "The backend is handed a message with the rendered bodies (the text from its template, or made from the HTML) and everything that was passed, and nothing else; this happens exactly if there are a renderer and a backend, the templates can be rendered, and there is a recipient and a content.", "quantifier": "all templates, contexts, renderers and parameters", "why_tests_cant": "Templates and contexts are unbounded", "anchors": ["lilya/contrib/mail/mailer.py:Mailer.send_template", "lilya/contrib/mail/templates.py:TemplateRenderer.render_pair"]}
{"id": "C358", "title": "A mail from templates can be sent by SMTP", "statement": "A mail made from templates that can be rendered, to a recipient and without attachments or headers of its own, can be built for the SMTP server.", "quantifier": "all templates, contexts and parameters", "why_tests_cant": "Templates and contexts are unbounded", "anchors": ["lilya/contrib/mail/mailer.py:Mailer.send_template", "lilya/contrib/mail/backends/smtp.py:build_email_message"]}
{"id": "C359", "title": "Static files report missing directories until they are there", "statement": "A request is answered exactly if at its time or that of an earlier request all given directories were there; otherwise it fails and names the first that is not one.", "quantifier": "all directories, all histories of requests and of the file system", "why_tests_cant": "Histories are unbounded", "anchors": ["lilya/staticfiles.py:StaticFiles.__call__", "lilya/staticfiles.py:StaticFiles.check_config", "lilya/staticfiles.py:StaticFiles._check_dirs"]}
{"id": "C360", "title": "Static files are looked for in the given directories, then in those of the packages", "statement": "Static files can be made exactly if each package has its directory and, unless the check is off, each given directory is there; the directories are the given ones followed by those of the packages, in order.", "quantifier": "all lists of directories and packages", "why_tests_cant": "Lists are unbounded", "anchors": ["lilya/staticfiles.py:StaticFiles.__init__", "lilya/staticfiles.py:StaticFiles.get_directories"]}
{"id": "C361", "title": "A scheduler gets exactly the enabled tasks", "statement": "Configuring succeeds exactly if all named tasks can be loaded and the scheduler takes the enabled ones; it has then been given those, in order, once each, with their functions and settings. If it fails, the tasks before the one at fault were given and none after it, and the error is its.", "quantifier": "all dictionaries of tasks, all schedulers", "why_tests_cant": "Configurations are unbounded", "anchors": ["lilya/contrib/schedulers/asyncz/config.py:AsynczConfig.register_tasks", "lilya/contrib/schedulers/asyncz/config.py:Task.add_task"]}
{"id": "C362", "title": "A stopped scheduler does not run", "statement": "After the method stop that the base class demands of every scheduler, the scheduler does not run.", "quantifier": "all histories of starts and stops", "why_tests_cant": "Histories are unbounded", "anchors": ["lilya/contrib/schedulers/base.py:SchedulerConfig.stop", "lilya/contrib/schedulers/asyncz/config.py:AsynczConfig.shutdown"]}
{"id": "C363", "title": "A cookie has the attributes it was given", "statement": "Setting a cookie adds one Set-Cookie line in which a client reads the domain, path, expiry, age, SameSite and flags of the call and nothing else; deleting one adds a line for the same domain and path that has ended; jsonify's cookies are for every path with SameSite lax.", "quantifier": "all names, values, attribute texts without a semicolon or outer blanks, and headers already there", "why_tests_cant": "Names, values and attributes are arbitrary texts and a value might spill into the attributes", "anchors": ["lilya/responses.py:Response.set_cookie", "lilya/responses.py:Response.delete_cookie", "lilya/contrib/responses/json.py:jsonify"]}
{"id": "C364", "title": "The CSRF cookie has the configured attributes", "statement": "The response that hands out a CSRF token sets one cookie, with the configured domain, path, SameSite and flags, and without an end.", "quantifier": "all configurations with usable texts, requests and responses that set no cookie", "why_tests_cant": "Configurations and responses are unbounded", "anchors": ["lilya/middleware/csrf.py:CSRFMiddleware.get_send_wrapper", "lilya/middleware/csrf.py:CSRFMiddleware._set_cookie_if_needed"]}
{"id": "C365", "title": "The data of a context are what was added to it", "statement": "After any values were added to a handler's context, its data hold for each key the last value added; a key that names one of the context's own properties is refused and changes nothing, and keys with two underscores at an end are never shown.", "quantifier": "all keys, values and histories of additions", "why_tests_cant": "Histories and keys are unbounded", "anchors": ["lilya/context.py:Context.add_to_context", "lilya/context.py:Context.get_context_data"]}
{"id": "C366", "title": "A context keeps its methods", "statement": "Whatever is added to a context, its methods can still be called.", "quantifier": "all keys, values and histories of additions", "why_tests_cant": "Keys are arbitrary texts", "anchors": ["lilya/context.py:Context.add_to_context"]}
{"id": "C367", "title": "The data of a request follow its media type", "statement": "However the media type is written (case, blanks around it, parameters), data() gives the form for the two form types, the value for JSON and the text otherwise; a body that is no JSON is given as bytes, or is a ValueError if asked for. is_json and is_form say the same.", "quantifier": "all headers naming a type, bodies, and results of the form parser", "why_tests_cant": "Headers and bodies are unbounded and there are many spellings of one type", "anchors": ["lilya/requests.py:Request.data", "lilya/requests.py:Request.content_type", "lilya/requests.py:Request.is_json", "lilya/requests.py:Request.is_form", "lilya/contrib/multipart/utils.py:parse_options_header"]}
{"id": "C368", "title": "A text is read in its declared charset", "statement": "text() decodes the body in the charset of the Content-Type header, UTF-8 if it has none.", "quantifier": "all charsets, headers and bodies", "why_tests_cant": "Charsets, headers and bodies are unbounded", "anchors": ["lilya/requests.py:Request.text", "lilya/requests.py:Request.charset", "lilya/requests.py:Request.media"]}
{"id": "C369", "title": "Asking for the kind of a request raises nothing", "statement": "is_json and is_form answer for every Content-Type header.", "quantifier": "all headers", "why_tests_cant": "Headers are arbitrary texts", "anchors": ["lilya/requests.py:Request.is_json", "lilya/requests.py:Request.is_form"]}
{"id": "C370", "title": "A push promise carries the headers of content negotiation", "statement": "send_push_promise sends one message with the path and exactly the request's accept, accept-encoding, accept-language, cache-control and user-agent headers, byte for byte, and nothing if the server cannot push.", "quantifier": "all requests, paths and orders of sets", "why_tests_cant": "Headers are unbounded and sets have no order", "anchors": ["lilya/requests.py:Request.send_push_promise"]}
{"id": "C371", "title": "Only JSON is taken for JSON", "statement": "is_json and is_form hold only of requests whose header names such a type.", "quantifier": "all headers", "why_tests_cant": "Headers are arbitrary texts", "anchors": ["lilya/requests.py:Request.is_json", "lilya/requests.py:Request.is_form", "lilya/contrib/multipart/utils.py:parse_options_header"]}
{"id": "C372", "title": "An unhandled exception is reported as JSON", "statement": "With global interception on, an exception nobody handles is answered with its status (500 for other exceptions), its headers, the type application/json and a JSON object of its status, its detail and its extra data, each if there is one.", "quantifier": "all http exceptions and other exceptions whose detail and extra data have a JSON text", "why_tests_cant": "Details, extra data and headers are unbounded", "anchors": ["lilya/middleware/lilya_exception.py:LilyaExceptionMiddleware.create_exception_response", "lilya/middleware/lilya_exception.py:Content.dict"]}
{"id": "C373", "title": "The handler for a client that is gone is called once", "statement": "The client_close_handler of an event stream is called with the http.disconnect message when the response receives it, never for another message, and at most once, whatever the order in which the tasks run.", "quantifier": "all event streams, messages of the server and schedules of the tasks", "why_tests_cant": "Schedules and histories of messages are unbounded", "anchors": ["lilya/responses.py:EventStreamResponse._listen_for_disconnect"]}
{"id": "C374", "title": "A client that is gone ends an event stream", "statement": "When the client_close_handler is done, also when it raised, or at once if there is none, the tasks of the response are cancelled; a cancelled response sends and calls nothing more.", "quantifier": "all event streams, messages of the server and schedules of the tasks", "why_tests_cant": "Schedules and histories of messages are unbounded", "anchors": ["lilya/responses.py:EventStreamResponse._listen_for_disconnect", "lilya/responses.py:EventStreamResponse.__call__"]}
{"id": "C375", "title": "No event is sent to a client known to be gone", "statement": "After the response has received http.disconnect, it sends no event.", "quantifier": "all event streams, with and without a client_close_handler, and schedules of the tasks", "why_tests_cant": "Schedules are unbounded", "anchors": ["lilya/responses.py:EventStreamResponse._listen_for_disconnect", "lilya/responses.py:EventStreamResponse._stream_response"]}
{"id": "C376", "title": "An event stream sends the events of its source in order", "statement": "Whatever the schedule, the events sent are the first events of the source, in order; if neither a disconnect nor an exception cut the stream, all of them are sent before the tasks are cancelled.", "quantifier": "all lists of events, messages of the server and schedules of the tasks", "why_tests_cant": "Lists of events and schedules are unbounded", "anchors": ["lilya/responses.py:EventStreamResponse._stream_response", "lilya/responses.py:EventStreamResponse.__call__"]}
{"id": "C377", "title": "An event stream has one content type", "statement": "An event stream response is sent with exactly one content-type line, text/event-stream, whatever headers and media type the caller gives.", "quantifier": "all statuses, header dictionaries, charsets and media types", "why_tests_cant": "Header names can be spelled in unboundedly many ways", "anchors": ["lilya/responses.py:EventStreamResponse.__init__"]}
{"id": "C378", "title": "An event stream has no content length", "statement": "An event stream response is sent without a content-length line, whatever headers the caller gives.", "quantifier": "all statuses and header dictionaries", "why_tests_cant": "Header names can be spelled in many ways and dictionaries are unbounded", "anchors": ["lilya/responses.py:EventStreamResponse.__init__"]}
{"id": "C379", "title": "An event stream keeps the other headers", "statement": "Every header the caller gives, other than content-type and content-length, is sent as given; cache-control, connection, x-accel-buffering and transfer-encoding have their defaults if the caller does not give these names.", "quantifier": "all header dictionaries, and statuses other than 304 and 412", "why_tests_cant": "Dictionaries are unbounded", "anchors": ["lilya/responses.py:EventStreamResponse.__init__"]}
{"id": "C380", "title": "A custom directive is found", "statement": "lilya run finds every directive that an operations folder of the application offers (a module, no package, not beginning with an underscore); offered by several folders, it is taken from the last folder in the order of texts.", "quantifier": "all directory trees and directive names other than location and name", "why_tests_cant": "Directory trees are unbounded", "anchors": ["lilya/cli/utils.py:find_application_directives", "lilya/cli/utils.py:fetch_custom_directive"]}
{"id": "C381", "title": "A missing directive is reported", "statement": "lilya run reports a directive that no operations folder offers as missing.", "quantifier": "all directory trees and directive names", "why_tests_cant": "Directory trees are unbounded", "anchors": ["lilya/cli/utils.py:fetch_custom_directive"]}
{"id": "C382", "title": "A relay loses no client", "statement": "Every HTTP client that a relay makes is closed by a shutdown, or is still the client of the relay.", "quantifier": "all histories of startups and shutdowns, which may overlap", "why_tests_cant": "Histories and interleavings are unbounded", "anchors": ["lilya/contrib/proxy/relay.py:Relay.startup", "lilya/contrib/proxy/relay.py:Relay.shutdown"]}
{"id": "C383", "title": "A relay must be started", "statement": "After startup a relay forwards http requests until a shutdown ends; a relay that is not started sends nothing for an http request and raises.", "quantifier": "all histories of startups and shutdowns and all requests", "why_tests_cant": "Histories are unbounded", "anchors": ["lilya/contrib/proxy/relay.py:Relay.startup", "lilya/contrib/proxy/relay.py:Relay.__call__"]}
{"id": "C384", "title": "A connection served to its end is no error", "statement": "A relay that was started when a connection came, and whose handler served it without an exception, returns without an exception.", "quantifier": "all connections and all histories before and during them", "why_tests_cant": "Interleavings of connections and shutdowns are unbounded", "anchors": ["lilya/contrib/proxy/relay.py:Relay.__call__"]}
{"id": "C385", "title": "The report of an application does not depend on set order", "statement": "The metadata of an application graph are reported the same, whatever the order in which their sets, at any depth, give their elements.", "quantifier": "all nested mappings, sequences and sets of texts, numbers and members of enumerations", "why_tests_cant": "The iteration order of a Python set changes from run to run, and nesting is unbounded", "anchors": ["lilya/introspection/_graph.py:_to_json_safe"]}
{"id": "C386", "title": "The report of an application has a JSON text", "statement": "The metadata of an application graph are reported as values that have a JSON text.", "quantifier": "all nested mappings, sequences, sets, frozensets and members of enumerations", "why_tests_cant": "Nesting is unbounded", "anchors": ["lilya/introspection/_graph.py:_to_json_safe"]}
{"id": "C387", "title": "A validation error holds what it was given", "statement": "A ValidationError can be made of every detail whose bytes are UTF-8; its detail has the same lists and dicts with a text for everything else, a single thing is put into a list, and without anything it is \"Validation error.\"; its status is 400 unless another is given.", "quantifier": "all nested details, statuses and headers", "why_tests_cant": "Details nest without bound", "anchors": ["lilya/exceptions.py:ValidationError.__init__", "lilya/exceptions.py:_get_error_details", "lilya/_internal/_encoding.py:force_str"]}
{"id": "C388", "title": "A validation error is answered with its status", "statement": "The default handler of http exceptions makes a response of every ValidationError.", "quantifier": "all details, statuses and headers", "why_tests_cant": "Details nest without bound", "anchors": ["lilya/exceptions.py:ValidationError", "lilya/middleware/exceptions.py:ExceptionMiddleware.http_exception", "lilya/responses.py:Response.make_response"]}
{"id": "C389", "title": "With global interception a validation error is reported in full", "statement": "With global interception on, a ValidationError is answered with its status and a JSON object that holds the status and the whole detail.", "quantifier": "all details of texts that have an encoding, with any nesting, statuses and headers", "why_tests_cant": "Details nest without bound", "anchors": ["lilya/exceptions.py:ValidationError", "lilya/middleware/lilya_exception.py:LilyaExceptionMiddleware.create_exception_response"]}
{"id": "C390", "title": "A refused range is answered with 416 and the size", "statement": "A closed range is refused exactly if it ends past the end; a refused range is answered with status 416 and a Content-Range header that names the unit and the size of the whole.", "quantifier": "all ranges, sizes and units", "why_tests_cant": "Sizes and range texts are unbounded", "anchors": ["lilya/exceptions.py:ContentRangeNotSatisfiable", "lilya/ranges.py:_parse_range", "lilya/middleware/exceptions.py:ExceptionMiddleware.http_exception"]}
{"id": "C391", "title": "The answer to a refused range names the range", "statement": "The detail of the exception for a refused range holds the first and the last position that were asked for.", "quantifier": "all refused closed ranges", "why_tests_cant": "Sizes and range texts are unbounded", "anchors": ["lilya/exceptions.py:ContentRangeNotSatisfiable"]}
{"id": "C392", "title": "A template sees the request it answers", "statement": "When neither the given context nor a context processor has a request of its own, a rendered template sees the request that its response answers.", "quantifier": "all histories of template responses over any context dicts, given once or many times", "why_tests_cant": "Histories are unbounded and dicts may be shared by any of their responses", "anchors": ["lilya/templating/base.py:BaseTemplateRenderer.prepare_response", "lilya/templating/jinja.py:TemplateRenderer.__call__"]}
{"id": "C393", "title": "A template sees nothing of other responses", "statement": "What a rendered template sees depends on its own call alone, not on template responses made before.", "quantifier": "all histories of template responses over any context dicts", "why_tests_cant": "Histories are unbounded and dicts may be shared by any of their responses", "anchors": ["lilya/templating/jinja.py:TemplateRenderer.__call__", "lilya/templating/jinja.py:TemplateRenderer._parse_args"]}
