# Formal model of dymmond/lilya in Rocq (Coq 8.16.1)

## 1. Layout

`rocq/theories/` holds one group of files per area `X`:

* `XModel.v`  — executable Gallina functions mirroring the Python, branch by branch,
  each with a comment citing the file and lines of /repo it models and every simplification;
* `XSpec.v`   — the small independent specification used in theorem statements
  (where it is more than a line or two);
* `XProofs.v` — lemmas and proofs;
* `XProps.v`  — only the property theorems, each `exact`ed from a lemma, with
  `Print Assumptions`, and `Example`s showing that the hypotheses are met.

Shared: `PyStr.v`/`PyStrFacts.v`, Python strings and bytes as `list N` (code points / bytes)
with `split`, `strip`, `find`, `replace`, case mapping, decimal numbers.

## 2. Modelling conventions

* Strings are lists of Unicode code points, byte strings lists of bytes, both `list N`.
  Literals are written `u "..."` (ASCII).
* Exceptions are values of a result type; mutation returns the new value.
* A loop is structural recursion; a `while True` over an input stream is recursion on the stream.
* External code (HMAC, gzip, clock, JSON, file system, user handlers, user callbacks) is a
  `Section` variable, so each theorem is universally quantified over it once the section is
  closed; assumed algebraic laws (e.g. "unsign of sign is the payload") appear as explicit
  hypotheses of the theorem and are listed in section 5.
* Concurrency: tasks are small-step programs whose atomic steps are the code between two
  `await`s that can suspend; theorems quantify over every schedule (list of task choices).

## 3. Plan per property

| id | what is modelled | how it is proved |
|----|------------------|------------------|
| C01 | `ranges.py` parsing on strings, ascending mode | invariant of the accumulator over the list of range texts; union/size against a byte-set spec |
| C02 | suffix branch | full statement refuted by witness; exact law of what the code returns proved |
| C03 | non-ascending branch | refuted by witness; sortedness/containment part proved |
| C04 | `FileResponse.__call__` single range and full file | loop invariant on (position, remaining) |
| C05 | multi-range branch | refuted for all multi-range requests |
| C06 | `StreamingResponse.stream` | induction on the chunk list |
| C07 | `SSEMessage.to_wire` + event-stream decoder spec | round trip by induction on lines |
| C08 | `_encode_event` | refuted; round trip under "no line break" |
| C09 | interleaving model of stream/ping tasks | refuted with ping; invariant with ping disabled |
| C10 | `compile_path` and the regex subset it emits | matcher equivalence with an inductive instance relation |
| C11 | `replace_params`, `url_path_for` | round trip under conditions; refutations for the conditions |
| C12 | `clean_path` | segment characterisation |
| C13 | converters; floats as `FltModel` (binary64, half to even) | digit-string induction; error bounds over the rationals for floats |
| C14 | `Router.app` loop | refinement to a declarative choice |
| C15 | `ContinueRouting` loop with scope mutation | refuted (stale params); message replay part proved |
| C16 | methods | set reasoning |
| C17 | `Include` | list/prefix reasoning, induction on nesting |
| C18 | `Request.stream/body/sniff` | invariant over call histories |
| C19 | `QuerystringParser` | state machine commutes with append |
| C20 | form decode | refuted (double unquoting); round trip for values fixed by the second decoding |
| C21 | `MultipartParser.write` on chunks | refuted by witness |
| C22 | `MultipartParser.write` | induction on parts |
| C23 | `MultiPartParser` callbacks | invariant over event lists; refutation for post-terminator events |
| C24 | `cookie_parser` | induction on pairs |
| C25 | `Header`/`MultiMixin` operations | refinement to an ordered multi-map |
| C26 | `SendReceiveSniffer` | invariant over histories |
| C27 | `PureScope` | induction on the stack |
| C28 | `ScopeManager` | invariant for sequential histories; interleaving refutation |
| C29 | `Provide` with body data | refuted; independence when no body key collides |
| C30 | `Provide` cache | invariant over histories |
| C31 | middleware stack, scope isolation | induction on the stack |
| C32 | exception lookup/middleware | case analysis over MRO list and message history |
| C33 | CORS | decision rules over all configurations |
| C34 | CSRF decision | implication with the MAC as oracle |
| C35 | trusted host | equivalence with a suffix spec |
| C36 | client ip | decision rule |
| C37 | sessions | step function over request histories, signer as oracle with its laws |
| C38 | gzip responder | invariant over message sequences, codec as oracle |
| C39 | https redirect | decision rule and two-step composition |
| C40 | authentication | induction on backends |
| C41 | WebSocket state machine | trace language invariant |
| C42 | signed urls | MAC as oracle |
| C43 | memory cache | refinement to last-write history |
| C44 | static files path | lexical normalisation |
| C45 | environment loader | invariant over histories |
| C46 | CQRS | induction on histories/stacks |
| C47 | SSE channel | induction on subscribers, refutation for mid-send death |
| C48 | relay headers | filter characterisation; refutation for the allow lists |
| C49 | relay retry loop | bound proved; body/one-start refuted |
| C50 | handler argument binding | equality of two independently modelled functions |
| C51 | `NDJSONResponse` | induction on rows, encoder as oracle |
| C52 | `CSVResponse` | refuted (no quoting, first row repeated); partial for plain cells |
| C53 | reverse lookup through nested `Include`s | induction on nesting; refutations |
| C54 | `Response.make_headers`, `__call__` | case analysis over headers and status |
| C55 | `add_vary_header` | token-list reasoning; refuted for two lines |
| C56 | `remove_entity_headers` | filter reasoning |
| C57 | `Request.close`, `WebSocket.close` | induction on cleanups; refutations (second close, raise) |
| C58 | generator dependencies, request and request-less | event traces; refuted |
| C59 | `Provide._resolve_internal` arguments | dict reasoning; refuted for `request` not in first place |
| C60 | body of a dependency's request | refuted for text and array bodies |
| C61 | `wrap_dependency` with its `lru_cache` | refuted for 1/True and unhashable values |
| C62 | `ScopeIsolationMiddleware` | induction on the stack |
| C63 | lookup order of exception handlers over the layers | trace reasoning; refuted |
| C64 | the three exception middlewares and the app stack | at most one start over all programs; refuted |
| C65 | CORS `Vary` | token reasoning; refuted for private network |
| C66 | CSRF body reading and replay | scanner equivalences for urlencoded and multipart bodies; refuted |
| C67 | CSRF cookie | step function; refuted |
| C68 | trusted referrer | equivalence with a suffix spec; refutations |
| C69 | `URL`, with `urlsplit`/`urlunsplit` modelled | round trip over an authority grammar |
| C70 | query parameter operations | list/dict reasoning over `parse_qsl`, `urlencode` models |
| C71 | session fixing | step function over histories |
| C72 | session context | dict reasoning |
| C73 | `GZipMiddleware.__call__` | decision rule; refuted for q=0 |
| C74 | `requires` | case analysis over handler kinds; refuted for websockets |
| C75 | `WebSocket.receive*` | trace invariant; refutations |
| C76 | `WebSocketController` | induction on the message list |
| C77 | `Controller` dispatch | decision rule; refuted |
| C78 | `StaticFile.get_path`, `lookup_path` | path algebra; refuted for leading dots |
| C79 | links | file-system oracle; refuted |
| C80 | `is_not_modified` | decision rule; refuted |
| C81 | .env files | scanner equivalence with a line grammar |
| C82 | `_flatten_dict` | nested induction |
| C83 | variable expansion | scanner equivalence with pieces |
| C84 | `SSEChannel` | invariant over interleavings |
| C85 | relay bodies | trace reasoning; refuted |
| C86 | relay cookies | parser equivalence; refuted |
| C87 | relay websockets | invariant over interleavings |
| C88 | relay paths | string algebra; refuted |
| C89 | relay prefix | resolution of dot segments; refuted |
| C90 | Query/Header/Cookie parameters on both execution paths | induction on the signature |
| C91 | provider levels, HTTP and websocket | induction on the levels |
| C92 | `_expand_nested_keys` | get/put laws, invariant over the fields |
| C93 | `_deep_parse_json` | commutes with access; refuted (spaces) |
| C94 | `BaseParam.__cast__` | structural induction over types; refuted for fixed tuples |
| C95 | `Lilya._dispatch`, the middleware stack, router and path | invariant over histories, induction over the guards; refuted for one fixed path |
| C96 | the shortcut of `_dispatch` | both ways settle an exception alike; refutations for each missing condition |
| C97 | `add_*` of an application | simulation of the application made at once; refuted |
| C98 | hooks of `Lilya`, `Router` and the registry | trace equality; refuted for hooks added later, routers, context managers |
| C99 | `BaseRouter.lifespan` | case analysis over every failure; refuted for shutdown hooks after a failing one |
| C100 | `Task`, `Tasks`, `Response.__call__` | nested induction over jobs, interleavings as shuffles |
| C101 | `EventDispatcher` | induction over subscriptions; refuted for keyword arguments |
| C102 | `HTTPBasic`, base64 | round trip through a concrete base64; refuted outside ASCII |
| C103 | bearer, digest, OAuth2, OpenID, API key schemes | equivalences; refuted for OAuth2's empty token |
| C104 | `auto_error` of the ten schemes | case analysis; refuted for Basic and Digest |
| C105 | writer of `json` and the readers over it | the writer's text is in the grammar of RFC 8259 (inductive relation), then C106 |
| C106 | `json.loads` as a recursive descent with fuel; the RFC's grammar as an inductive relation | mutual induction both ways; refuted by NaN |
| C107 | `NDJSONResponse.stream` | induction over the rows; no line feed byte in a JSON text |
| C108 | registry, `json.dumps` with `default` over arbitrary encoders | refinement to 'first of each name' over histories; fuel monotonicity |
| C109 | default encoders with UUID, ISO date and base64 texts | per class round trips over C105/C106; refuted for nested dataclasses and for sets |
| C110 | `_exclude_none_recursively` | commutes with the conversion to JSON; refuted for dataclasses |
| C111 | `make_content_disposition_header`, `quote` | a reader of RFC 6266/5987 headers as specification; iff for the strict reader; refuted for '/' |
| C112 | `XMLResponse.make_response` | a stack-based XML reader as specification, induction on the value; refuted for texts with markup and for lists |
| C113 | `Response.make_response` over the JSON model | strip of quotes, C105/C106; refuted for texts with escapes |
| C114 | [Host.search] and [handle_match] on top of the compiled templates of the path model; the header is read with the header model | soundness and completeness of the regex model for the template without its port; the two counterexamples by computation |
| C115 | [url_path_for] of a host route: substitution in the host, then the first child route that answers | the substitution lemma with left-over parameters, then the theorem on chains of mounts (C53) for the child; the way back from rmatch soundness, completeness and unique reading |
| C116 | the key, lookups and stores over the JSON, encoder and memory cache models; calls as begin and end events in any order | an invariant naming for each entry the run it came from; injectivity of the key from the JSON round trip; counterexamples by computation |
| C117 | bodies as trees of calls, evaluated with and without the cache | induction on depth and body with an invariant on the store; the deadlock by computation |
| C118 | the same histories | the entry stays at hand over every step between |
| C119 | the same histories with times and invalidations | from the invariant of C116 and an invariant on running calls |
| C120 | classes with or without the hook, the metaclass's wrapper, its search for the parent, call depth as fuel | specification runs down the list of classes once; case analysis on the first two versions; induction on the depth for the endless case |
| C121 | get_csrf_token and get_or_set_csrf_token without a response, the middleware's cookie, a browser's cookie jar, the urlencoded submission | composes C66 and C67: the cookie handed out is the second random token; a submission is accepted only if equal to the cookie |
| C122 | get_context_data, processors and their parameters, render_template, the template object's processors, form_more, form_invalid | induction over the processors; lookup equations of update |
| C123 | the context variable per task with its tokens, G objects as addresses of dicts, lazily created state, copies of the context for new tasks and threads; events of all tasks in any order | refinement to a machine with one store per entered application, by an invariant that maps stores to dicts and says that a state not yet created is known to one task only |
| C124 | markers, signatures, calls and kept values as a state machine (InjModel) against an inductive meaning of markers without any state (InjSpec) | consistency of what is kept with the meaning, by induction on the depth; determinism and completeness by mutual induction on the meaning; refutations by evaluation |
| C125 | the same state machine | what is kept for a marker survives every history, by induction on depth and history |
| C126 | the loop of inject over the parameters | induction over the parameters, with C124's completeness for the markers |
| C127 | _structure_to_annotation over the values and encoders of EncModel (BodyModel), against typing relations by recursion on the annotation (BodySpec) | structural induction over annotations, with the restoring lemmas of C109 at the leaves; refutations by evaluation |
| C128 | the inferred body as the parse_body of ArgsModel; body parameters defined from the signature, the dependency levels and the request alone (BodySpec) | the model's list of names is exactly the specified set; then the merging order of C99's argument model; refutations by evaluation |
| C129 | applications as interaction trees; send, receive and the BytesIO of both transports (TcModel) against a server that refuses nothing (TcSpec) | invariant relating the stream and flags to the messages sent, along the run; prefix lemmas on answers; refutations by evaluation |
| C130 | URL, host, header and scope functions | round trip of percent encoding (Utf8), splitting lemmas; refutations by evaluation |
| C131 | the client's state under authenticate, logout, requests, failures and blocks, against a variable with block scope | nested induction over programs |
| C132 | the jar of one site under requests with and without own cookies, against a browser relation | induction over the history |
| C133 | `ResModel`: functions as a table, marks, overrides, a world that answers calls; `resolve` | rules `solved`/`supplied` in `ResSpec`, induction on fuel and on derivations |
| C134 | `ResModel.provide`: the loop of a provider over marked parameters | counter-example, and induction over the parameters for what they get |
| C135 | `ResModel.scheme_call`, `arguments` | counter-example for handlers, induction on derivations below |
| C136 | `ResModel.run_cleanups`, `serve` | counter-examples; the numbers of open generators are increasing |
| C137 | `HardModel.parse_content_policy`, `words` | CSP3's parser as specification in `HardSpec`; split/join round trips |
| C138 | `HardModel.security` on sequences of messages | `HeaderSpec.values` of each name; counter-examples |
| C139 | `HardModel.clickjacking` | case analysis per message |
| C140 | `HardModel.buffered`, `wsgi` | first start message, counter-example with a class hierarchy |
| C141 | `ConfModel.configured`, `load_value`: every option of the constructor | the spec's own list of options; counter-examples for the falsy arguments |
| C142 | `ConfModel.make`, `cast`: classes with annotations, defaults and properties | rules `means`/`initial` in `ConfSpec`; induction over the fields |
| C143 | `ConfModel.run`: programs with overrides, applications, assignments and exceptions over a heap of settings objects | induction over programs with a frame invariant on the context managers |
| C144 | `ConfModel.run` on `PApp` and `PNew` | induction over the nest; counter-example |
| C145 | `ConfModel.dump` | induction over the fields |
| C146 | `MailModel.build` with the standard library's `add_alternative`, `add_attachment` and header checks | leaves and rules of `MailSpec`; induction over the lists |
| C147 | `MailModel.mailer_send`, `smtp_send` | direct; counter-example for `send_many` |
| C148 | `MailModel.cstep`, `cruns`, `smtp_send_many` | induction over histories; counter-example |
| C149 | `MailModel.senders` | induction over the backends; counter-example |
| C150 | `MailModel.html_to_text`: the five substitutions and the strip | a relation "white space removed", invariants along a substitution, and segments rendered to HTML |
| C151 | `MailModel.file_name` | character membership; counter-example |
| C152 | `DocModel.gather`, `get_openapi`, routes as trees of leaves, includes and hosts | induction over trees (gather against the relation `located`), the document as a fold of items, equivalence per leaf with the relation `answers`; refutations by computation |
| C153 | `operation_of`, `path_params`, `responses_of` | the last item of a key decides; template of pieces by induction; dictionaries of distinct codes |
| C154 | `add_schemes`, `requirements` | first definition kept through the fold; origin of every definition |
| C155 | `add_schemas`, `responses_of` with the definitions of models as a parameter | keys are kept, origin of every value, agreement |
| C156 | `serve`, `serves` | invariant over the sequence of requests |
| C157 | `convert_responses`, `decorate` | induction over the dictionary |
| C158 | the debug page of server_error.py with the templates of styles/errors.py and html.escape, character by character | the escapes leave no markup characters, and the tokenizer passes over safe text without leaving its place; induction on frames and lines |
| C159 | the same page, with an HTML text reader and a decoder of character references | decode inverts escape; texts between tags computed for the constant parts and by induction for the rest |
| C160 | the identifiers written in the page | the last hyphen separates file and line, decimal numerals are injective |
| C161 | GraphBuilder on a store of numbered applications with includes between them, fuel for the recursion | the visited set grows at every descent, so fuel above the number of applications is enough; blocks of nodes and edges as an invariant |
| C162 | the queries of ApplicationGraph over the flat lists of nodes and edges | the WRAPS edges are exactly those from a node to the layer after it; the chain is a prefix of the list of nodes |
| C163 | the traversal as depth-first search | closure and soundness of the visited set against an inductive reachability; counting of entries |
| C164 | the cached property over a list of readings | induction on the readings |
| C165 | iter_sse over str.splitlines of the body, against the WHATWG parser of SseSpec | lines of both agree by induction on the text; the buffer is the parser's data buffer |
| C166 | build_request and post_init with truthiness of texts; the provider as a function | case analysis against a declarative notion of preferred text and good limits |
| C167 | openai_payload into a dict of JSON values | dget of every key through the chain of updates, both ways |
| C168 | anthropic_payload, split_system | the loop is two filters; join of the non-empty texts |
| C169 | run_stream on the body text, JSON parsed by JsonModel | JSON on one line (ASCII lemma for the escaping writer), round trip of JsonProofs, induction over the events |
| C170 | consume with failures | as C169 with a bad event after any prefix |
| C171 | run_complete, openai_response, anthropic_response, from_mapping | computation over replies described by relations |
| C172 | both payload functions | the relation of C167 determines a message; witness for the other API |
| C173 | pool_step, shutdown in two steps around its wait | invariant over serial histories |
| C174 | feed over write and finalize with OctetStreamParser | induction over the chunks with the consumed size |
| C175 | as C174 | the state is the initial one only for the empty body |
| C176 | qs_write and the callbacks of form.py | the pieces closed so far and the buffer, by induction over the chunks |
| C177 | as C176 | unquote of quote_plus is the text with plus for space |
| C178 | as C176, and FormModel | both are maps over the same pieces |
| C179 | mp_write, the callbacks on parts, header options | events of an encoded form (MultipartFormProofs), then the callbacks part by part |
| C180 | feed for the three kinds | cut_lemma of MultipartProofs up to splitting of data events, which the callbacks do not see |
| C181 | decode_5987, push_filename | unquote of the encoded name; one-part body |
| C182 | calls with CEnd | from the exact results of C174, C176, C179; witnesses |
| C183 | form_kind, content_type_of | case analysis on the declared type |
| C184 | admitted | admitted distributes over concatenation |
| C185 | the two threads, the two queues and the scheduler as a small-step system; applications and tests as coinductive programs | turns commute (diamond), hence an outcome reached in one schedule is reachable from every state of every other; block results are stable |
| C186 | as C185 with logs of what was sent and received | invariant |
| C187 | as C185 | one schedule that reaches the outcome, then C185 |
| C188 | as C185 | induction over the texts, then C185 |
| C189 | as C185 with the JSON model | C105 and C185 |
| C190 | leaving a session: disconnect, notice, portal, drain | invariant over the schedules of leaving; witness for the shared portal |
| C191 | cancellation where the application waits | invariant; witness |
| C192 | the application ends without a word | a state in which nobody can move; invariant for exceptions |
| C193 | refusals | a state in which nobody can move; runs of what the application has left to do |
| C194 | headers and the scope | induction over the names |
| C195 | one dictionary of headers for many sessions | induction over the sessions; witness |
| C196 | the streams of the lifespan | case analysis; witness |
| C197 | call, traced, finish as transformations of application trees; run against an arbitrary server | induction over the tree with the holder of the status code as a function of the calls made |
| C198 | as C197 | the finally block for server None by the same induction; witnesses |
| C199 | as C197 | the notes of a run are first attributes, notes of the middle and tail_notes |
| C200 | as C199 | witness: cancelled after the start; reading off tail_notes |
| C201 | as C199 | the tail sets method, path and route; induction for the status code |
| C202 | as C199 | no note in the middle or the tail names http.route |
| C203 | as C199 | the same for server.port; tail for server.address |
| C204 | carrier_of | induction over the headers from the right |
| C205 | to_json, from_json over json_encode and apply_structure of EncModel | values are encoded to plain ones on which encoding is the identity (C108, C109) |
| C206 | as C205 | the same, with the defaults spelled out; witness |
| C207 | from_json with or_else, py_int | case analysis, C109_class_partial for the payload |
| C208 | make, encode, decode of JwtModel with a trusted signer | the claims as signed, then both checks on whole seconds |
| C209 | as C208 | witnesses with a signer of one payload; the dates read back |
| C210 | as C208 | inversion of make |
| C211 | as C208 | witness; exact condition by arithmetic |
| C212 | make | case analysis on the names; witness |
| C213 | payload, make | update of dicts |
| C214 | register, wrapper over emit of BgModel | the subscriptions of the declarations, induction over events and listeners |
| C215 | own_call | case analysis; witness |
| C216 | as C214 | membership in the calls made; witness |
| C217 | construct, abort, default_response, exc_of over the middleware of ExcModel | the default handler is the chosen one (C32), bodies by C105 and C113 |
| C218 | construct, phrase | case analysis on the detail; witnesses 599 and 499 |
| C219 | construct, or_status, default_response | case analysis |
| C220 | as C219 | case analysis; witness NotFound |
| C221 | jsonify, send_json, json_error | C105 for the bodies, C24 for the cookies |
| C222 | path_name, send_file, simple_file | split and join of paths, C111 for the header |
| C223 | RedisModel: server with expiry, registry of clients by loop identity, get/set/delete branch by branch over JSON values | refinement to the memory cache model (C43) with shifted lifetimes; values by C105 |
| C224 | the same | witness with lifetime 0; from the refinement otherwise |
| C225 | the same | witness with two loops of one identity; induction over the history |
| C226 | redis_close and the numbers of the clients made and closed | witness with two loops; invariant of the registry over histories |
| C227 | ProxyModel: threads as programs of binds and uses, a reentrant lock, one step per access, a trace of what was put and got | invariant of the lock and of what its owner knows, induction over the schedule |
| C228 | the same model, kind Logger | two witnesses; the invariant with "once there, always there" |
| C229 | the same, both kinds | counting invariant over schedules |
| C230 | the same, both kinds | the owner of the lock can always move; a measure per thread |
| C231 | ExitModel: contextlib's unwinding loop, the lazy stack and the middleware | induction over the callbacks |
| C232 | the same, against nested with statements | the loop refines the nesting; witness with one failing request |
| C233 | the same | from the refinement |
| C234 | contexts of tasks with tokens, as histories of events | strong induction over histories, balanced segments |
| C235 | request_context by scope type | case analysis; witness websocket |
| C236 | DocuiModel: the texts of the four pages and their handlers; DocuiSpec: a reader of quoted texts in scripts and attributes | closure of readable texts under concatenation; a value with a quote needs an escape in the page; witness through the model of Include |
| C237 | the same with get_route_path | from C236's lemma |
| C238 | the routes added by enable | case analysis |
| C239 | SyncModel: anyio.run refuses in a running loop, else runs the body on the world; run_sync's retry | case analysis for all bodies; witness that counts |
| C240 | the same with contexts | case analysis |
| C241 | objects with definitions, nested partials | induction over the partials |
| C242 | the handler as a state machine over histories of Enter and Exit | three reachable states, by induction over histories |
| C243 | the same | induction over blocks; witness |
| C244 | CliModel: parse_routes over trees of routes; the spec puts the raw paths together | nested induction; a documentation name in the address of an include is in all addresses below; clean_path over concatenations from C12 |
| C245 | modules with attributes, the three searches of _find_app_in_folder | induction over the files |
| C246 | the global instance threaded through imports | the same |
| C247 | argv and get_position | computation for all arguments |
| C248 | invoke's tests on sys.argv | membership |
| C249 | runserver's choice | case analysis |
| C250 | fetch_custom_directive's loop | reverse induction over the list |
| C251 | trees of websocket routes (paths, includes of routes, includes of applications) with hooks, guards and endpoints as oracles, one trace of calls and messages | induction over the tree: a route never ends by an exception; the router's own 404 finds the default handler |
| C252 | the wrapper of endpoint functions with the tables in the scope | the trace is computed for every route and message list; witnesses for controllers, hooks and permissions |
| C253 | the default handlers on a websocket | case analysis on the chosen handler; witness with an HTTPException |
| C254 | the router after its last route, inside and outside an application | both traces for all tables and lists of routes without a match |
| C255 | the same model | an invariant (no close, or one close and a normal end) by induction over the tree; witness with an endpoint that closes and fails |
| C256 | the same model, with the handlers of routes as an unused field | the trace for functions; witnesses for controllers and for handlers of the route |
| C257 | includes nested in includes | induction over the nesting |
| C258 | the same model with UTF-8 lengths | from the trace of C252; witnesses with a ValueError |
| C259 | requests as tasks cut where they wait, an object each, any interleaving | the state of a task depends on the number of its own steps only; induction over the schedule and over the code of the handler |
| C260 | the same with one object | invariant relating the shared object with the one a task would have alone; witnesses with an overlapping POST and with a counter on self |
| C261 | how the innermost guard calls the controller | case analysis on the last guard; witnesses |
| C262 | lists of hooks by their place, extended in place while the routes are made | induction over the routes: a list is what it was plus what was added; counting of the names; witnesses with two routes |
| C263 | the same | the stacks as maps, attribute lookup along the bases |
| C264 | the factory class as a subclass of Controller | attribute lookup; witness with a permission |
| C265 | the attribute on the function and the map of the path | induction over the decorations; witnesses |
| C266 | the object and what a call leaves of it | induction over the requests |
| C267 | the middlewares as in-place edits of the header container the object and its messages share | idle middlewares amount to the frame edits, which are idempotent; witnesses; the fate of the first session cookie by an invariant over all later requests |
| C268 | the stateful object around the C04 model: headers, status and boundary left by each call | set_stat_headers is idempotent and a call reads the headers only through it; witnesses with one range and with a changed file |
| C269 | the file system as a value, the command as the list of states it goes through | a relation kept by every step, through the loops over files, directories and names |
| C270 | the same with the template as a tree | what one file adds, then induction over files and directories; tree induction for os.walk |
| C271 | the same with the joining of paths | the relation grows; witness with ../../../etc |
| C272 | the same | computation; witness with a version named like a directory of the template |
| C273 | the run of the WSGI application as messages and an exception, on the exception model of C32 | case analysis on the first start message and the lookup |
| C274 | the same, against the choice of handlers C32 specifies | witnesses, each for a whole family of tables; the exact class by case analysis |
| C275 | the same inside ExceptionMiddleware | the C32 lookup lemma |
| C276 | the same | witness |
| C277 | the form as a dictionary, validation as the list of wrong fields | splitting on spaces has one solution |
| C278 | the same | witness; splitting undoes joining |
| C279 | the dump as a filter | witness |
| C280 | the same; the strict class adds nothing to objects | witness |
| C281 | the same | witness; the list of wrong fields, field by field |
| C282 | `AnnModel`: classes as trees of bases, merging of annotations | relations `declares`, `shows` in `AnnSpec`; induction over classes |
| C283 | the same | relation `inherits` (first base); counter-example, induction on derivations |
| C284 | `AnnModel.model_of` | counter-example; corollary of C282 |
| C285 | `AnnModel.convert` | relation `documents`; nested induction over annotations |
| C286 | `DirsModel.listing` | exact list of entries; counter-example |
| C287 | `DirsModel.listing` with its cache, repeated | induction over the number of listings |
| C288 | `DirsModel.to_cli` with the outcome of every file | induction over the files found |
| C289 | `to_cli` against `CliModel.fetch_custom` on a sorted permutation | counter-example; uniqueness |
| C290 | `DirsModel.reverse` with the caller's dictionary | induction over the calls; counter-example by evaluation of `url_path_for` |
| C291 | `DirsModel.register` with the scheduler as a parameter | induction over the tasks |
| C292 | the stream task, the disconnect task and the loop as small steps | invariant over all schedules, against the specification of C06's model |
| C293 | the same machine with a policy for suspensions | induction on the pieces of one turn |
| C294 | the same machine | the invariant of C292 |
| C295 | setup_mail, app.state and request.app over a world of applications | the last write decides, by induction over the history |
| C296 | setup_ai likewise | the same |
| C297 | the hooks they add, in LifeModel | induction over the history, C98's lemmas |
| C298 | resolve as pieces between its awaits, any schedule | an invariant of all schedules, by induction over the schedule |
| C299 | the same | the same |
| C300 | subscribe and emit as pieces between awaits, anyio's lock as a queue, task groups as trees of tasks, any schedule | invariants of all schedules: who is in the lock, the tree of groups, listeners = subscriptions returned |
| C301 | the same, with failures and cancellation | a cancelled listener has a failed sibling or a cancelled group above it |
| C302 | the same | the last task in the tree that is not at its end, or the one that holds the lock, can go on |
| C303 | every interleaving of going requests, application steps and arriving answers (TabsModel), each request with its own session from the cookie the browser sent | simulation: the jar agrees with a memory of one session, each request with what is known of it; induction over the history |
| C304 | the same histories | from C303: splitting the trace of notes; two executions refute the full statement |
| C305 | the directory as a mapping from paths to contents, pathlib's joining, the cleaned subject and the time stamp | induction over the history; the characters of the name |
| C306 | the same | the time stamp has fixed width and is injective; two sends at one time refute |
| C307 | the length of the name in UTF-8 against 255 bytes | bounds on the parts of the name; a subject of sixty wide letters refutes |
| C308 | messages as objects and the outbox as a list of references | induction over the history; one change after sending refutes |
| C309 | the default handler and the tables of the exception middleware | from the choice of the handler; the status by cases |
| C310 | the root path of an application in front of the router of C14 | by simulation between the two runs of the router; witnesses for the refutations |
| C311 | the root path of an application in front of the router of C14 | by simulation along the nesting of the mounts |
| C312 | the same below a mount | the simulation of C311; a witness for the refutation |
| C313 | the headers a response is made with and their order on the wire | by the keys of the dictionary |
| C314 | the base URL of a request and the absolute URL of a route, over C69's URLs | by the splitting lemmas of C69; the scheme and the authority by cases |
| C315 | the same, read by a server that decodes percent escapes | from C314; witnesses for the refutations |
| C316 | the typed read over the loader of C45 | by the spelling of lower case and the table of ten words |
| C317 | the typed read over the loader of C45 | by cases on where the name is found |
| C318 | the same with a default | a witness for the refutation |
| C319 | the inherited membership and get beside the bracket read | a witness for the refutation; by the name a key stands for |
| C320 | the parser of C21 on parts with arbitrary parameters | by induction on the parameters and on the parts |
| C321 | the decoder of extended parameters as Request.form uses it, with percent decoding and UTF-8 | by the inverse of percent encoding |
| C322 | the same forms | a witness for the refutation |
| C323 | states, connections and scopes over a heap of dicts, against one map per scope or State | by a simulation between heap and maps, by induction over the history |
| C324 | the same | the simulation for setting and getting; witnesses for the refutations |
| C325 | the parsing of header lines and their encoding, with UTF-8 | by the round trip of UTF-8 and by induction over the set of names |
| C326 | the same with any bytes | strict decoding succeeds exactly on UTF-8; a witness for the refutation |
| C327 | the parsing of dicts and of other mappings | by induction over the dict; witnesses for the refutation |
| C328 | the search in containers with surrogate escapes | decoding with escapes is exact on UTF-8 and leaves surrogates otherwise |
| C329 | the attribute access | by the lemmas on stripping |
| C330 | Cookie.to_header over the SimpleCookie of C24 | by the lemma of C24 on stored lines; a witness for the refutation |
| C331 | QueryParam over the parser of query strings of C69 | strict decoding succeeds exactly on UTF-8, encoded strings are ASCII, and the round trip of C70 |
| C332 | the text of QueryParam with a real sort | sorting is a permutation and unique; the values under a name of a sorted list are sorted |
| C333 | equality with a real sort | two sorted permutations of each other are equal |
| C334 | equality, and the comparison of files | from C333; witnesses for the refutations |
| C335 | multi_items, dict, getlist, mutablecopy, to_immutable | by induction over the set of names |
| C336 | dump | the last entry of a name wins in a dict built from pairs |
| C337 | the loop of close, with files that may fail | by induction over the entries; a witness for the refutation |
| C338 | is_disconnected with the other operations of a Request | invariants over histories: the mark is never taken back, and it is set only when nothing but the disconnect is left |
| C339 | the decorators of the mixin, of routers and of applications, and the add methods | case analysis of a call against the route it means, and induction over histories |
| C340 | the same with the methods of a path of C16 | computed for each decorator, for all request methods |
| C341 | DeclModel: the decorator's reading of a request body and the document's normalization of it; pydantic is a parameter | by nested induction the search for binary formats decides the inductive relation of values inside a schema; then by cases |
| C342 | the same model | case analysis on the forms of the value |
| C343 | DeclModel: the loop over declarations, the sets of names and the parameter objects | induction over the declarations with what has been collected so far |
| C344 | the same model | a text in place of a declaration refutes it; else by the induction for C343 |
| C345 | AwModel: constructor, make_headers with a body that may be pending, and resolve_async_content, over the header model of C54; libmagic is a parameter | the values under a name after setdefault and item assignment are computed from those before; both paths then agree by cases |
| C346 | the same model | a CSV whose type is found again refutes it; else by the same computation |
| C347 | the same model with repeated calls | induction over the calls |
| C348 | FastModel: the remembered length and route of Router.app over the model of C14-C16 | invariant: what is remembered was computed for some list of routes; refinement to the router without memory by induction over the history |
| C349 | TokModel: the token helpers over the models of C24 (cookies and a client that stores them) and C34 (the middleware) | the round trip of cookies of C24 followed by admission of C66 |
| C350 | the same | an old cookie refutes it; with a signed one by C66; the third theorem from C34 |
| C351 | WsuModel: the parts of an httpx URL and its join, with a reference that begins with two slashes naming another server | the joined path never begins with two slashes |
| C352 | the same | a wss scope and an https address refute it; that it is always ws is the second half |
| C353 | RelayModel's request headers | a wss scope refutes it; the header is set after all others |
| C354 | WsuModel's join | /v1 refutes it; by C88 without a path |
| C355 | WsuModel: connection outcomes around RelayModel's pump | invariant over all event lists: frames, then closes, and a close once the iteration has ended |
| C356 | DispModel's router of C95 with one or many routes | match decided by a separate relation on paths below the root path; the redirect target is unique |
| C357 | TmailModel: the rendering of a pair of templates and the message made of it, over MailModel | both directions by cases |
| C358 | the same with MailModel's building for SMTP | by C146: both bodies are never built; with one empty body they are |
| C359 | SconfModel: the flag of the check and the directories at each request | induction over the history |
| C360 | SconfModel: making static files | by induction over the packages |
| C361 | SchedModel: registration over importing and refusals as parameters | induction over the tasks with what the scheduler already has |
| C362 | SchedModel: the methods of base class and protocol | start and stop refute it; induction over histories |
| C363 | CookieModel's set_cookie and delete_cookie, AbtModel's jsonify | a separate reader of attributes (RFC 6265 5.2) reads exactly what the call gave |
| C364 | CsrfModel's send_wrapper | the reader of C363 on the one line set |
| C365 | the instance dictionary of Context | induction over the additions against a separate 'last value added' |
| C366 | attribute lookup on the instance dictionary | a value under a method's name hides it; else the method is found |
| C367 | media, charset, content_type, is_form, is_json, text and data of Request over parse_options_header | the main value of a header of the spelled form is the type; then by cases |
| C368 | the dictionary of media has bytes and text keys | the look-up never finds a bytes key; strict UTF-8 round trip |
| C369 | content_type decodes what was encoded as Latin-1 | one byte beyond ASCII is no UTF-8 |
| C370 | send_push_promise | membership through getlist and the set order |
| C371 | encode("latin-1", "ignore") | dropped characters; the converse of C367 without them |
| C372 | Content.dict and create_exception_response over the responses of C217 and the JSON of C105 | a separate relation says what is reported; the body is read back by the JSON reader |
| C373 | the tasks run_stream and _listen_for_disconnect as a state machine with one action per atomic step | an invariant gives the shape of every log; the claim follows from the shape |
| C374 | the same state machine | by the same invariant |
| C375 | the same state machine | follows from C374 without a handler; a schedule of three actions refutes it with one |
| C376 | the same state machine | invariants: what was sent and what is to come make up the source |
| C377 | the dictionary of defaults, its update and the headers of a plain response (as in C313) | the lines with that name after the assignment, then the lines on the wire |
| C378 | the same | the keys of the dictionary have no other spelling, so the one line made for the empty body is the one that is removed; a witness refutes the full statement |
| C379 | the same | membership through the dictionary, the response and the wire |
| C380 | the walk of the folders, the dictionaries of directives, the stable sort and the loop | the last match of a sorted list is the greatest; the spec says what is offered without the code's lists |
| C381 | the same | no key of any dictionary is the name; witnesses refute the full statement |
| C382 | startup and shutdown as steps, the latter cut at its await | an invariant over histories; a history of six events refutes the full statement |
| C383 | the same, and __call__ over what its handlers send | induction over the history after the startup |
| C384 | the same | induction over the history meanwhile; a shutdown during the answer refutes the full statement |
| C385 | _to_json_safe with its sort | mutual induction over a relation that permutes sets; a sorted list is unique for a total antisymmetric order |
| C386 | the same | induction over nested values; witnesses refute the full statement |
| C387 | ValidationError, _get_error_details and force_str over the exceptions of C217 | a separate inductive relation says what a detail is told as; both directions by nested induction |
| C388 | the same, with the default handler of C217 | case analysis over that relation; one text refutes the full statement |
| C389 | the same, with the response of C372 | told values have a JSON text, by induction; then C372 |
| C390 | ContentRangeNotSatisfiable over the ranges of RangesModel and the handler of C217 | case analysis of _parse_range; headers are kept by C217's lemmas |
| C391 | the same | one range refutes the full statement |
| C392 | the dicts of a program and the calls that change them, over template_context of C122 | induction over histories; two calls with one dict refute the full statement |
| C393 | the same | frame lemma over histories; two calls refute the full statement |

## 4. Status and findings

MANIFEST.json lists every property with its theorems. `proved`: the statement of properties.jsonl
holds of the model as it stands. `partial`: the statement is false of the code, and a theorem
`..._refuted` shows it with a witness computed by the kernel, beside a theorem `..._partial` that proves
the statement under the conditions it names. The witnesses are behaviours of the code that users may trip over. By area:

* **Ranges, files.** A suffix longer than the file is not the whole file; a range that ends beyond the
  file is refused (416); a multi-range response announces a wrong Content-Length and has no closing
  boundary; ETags are unquoted. CSV output has no quoting and repeats the first row.
* **SSE.** `_encode_event` lets a line break in `event`/`id` inject fields; a ping may fall inside an event;
  the broadcast channel stops at the first subscriber that is gone, and a slow one blocks the others.
* **Paths, router.** `$` accepts a trailing newline; substituted values may be substituted again; `//` in
  path values; integers beyond 4300 digits and impossible dates match and then raise; years before 1000
  are not padded; a mount's slash redirect pre-empts a later full match; path parameters leak after a
  deferred match; `methods=[]` serves every method; the fast path can answer twice after `ContinueRouting`.
* **Requests, forms.** Two Request objects on one scope disturb each other's body; `is_disconnected`
  swallows a message; url-encoded values are unquoted twice; a multipart boundary cut by a chunk is
  missed; later writes repeat the last part; `;` in a quoted filename breaks the parser; in-memory
  fields have no limit. Nested form keys: overlapping names raise (500), an index allocates the list
  it names whatever its size, and texts lose the spaces around them.
* **Headers, cookies.** `multi_items` repeats headers that differ in case; `poplist` returns all and removes
  one; a second `Vary` line is lost; cookie values are percent-decoded; attribute texts inject attributes;
  `Response(cookies=...)` is ignored.
* **Scopes, providers, arguments.** A cancelled cleanup aborts the rest; HTTP requests are never closed, so
  generator dependencies are not torn down; request-less generator dependencies are closed before use;
  body values stay in a provider between requests; `use_cache` caches a generator object; 1 and True share
  a cached constant. With `infer_body` the fast path ignores the body for parameters with defaults; a bound
  parameter named `context` depends on the path taken; a query parameter or header of the same name
  takes a body parameter away; Query/Header/Cookie markers are never resolved for websocket handlers.
  `tuple[int, int]` accepts one value.
* **Middleware, errors.** The innermost layer around a controller shares its scope; an `HTTPException(500)`
  never reaches the 500 handler; route handlers answer after a response has started; async route-level
  handlers and sync handlers of `LilyaExceptionMiddleware` fail with TypeError.
* **CORS, CSRF, hosts.** A refused private-network preflight carries `*`; an allowed one lacks `Vary`; CSRF: a
  non-ASCII token is a 500, a disconnect during the body never ends, boundaries are lowercased, the cookie is
  not set beside another cookie. IPv6 hosts are cut at the first colon; hosts are compared with case; an https
  redirect does not re-quote the path; the leftmost X-Forwarded-For is believed.
* **Sessions, gzip, auth, websockets.** Changes after the response start are lost; `gzip;q=0` is acceptance;
  206 responses are compressed; one of two Content-Length lines stays; `@requires` is never enforced on
  websocket handlers; `accept()` after a disconnect makes the socket receive again.
* **URLs, signed URLs, static files.** `URL(SplitResult)` prints as empty; `replace(hostname=...)` breaks IPv6; a
  signed URL's repeated names, blank values and `;params` can be tampered with; `.env` serves `env`; links are
  followed; a failed If-None-Match falls through to If-Modified-Since.
* **Environment, caches, controllers, buses.** `A=` swallows the next line; `${A|}` ignores its empty default;
  `$HOST.com` is one name; ttl 0 never expires; any attribute of a controller is reachable as a method.
* **Relay.** The allow lists are ignored; dropped X-Forwarded-* and Host are sent all the same; repeated response
  headers are joined with commas; a retry sends an empty body; a response cut in the middle starts a second
  response; the mount's path is forwarded too; `..` leaves the upstream prefix.
* **Application shortcut.** An application with one fixed path (no middleware, no handlers, no debug) does not ask its
  own permissions, skips the router's callbacks and the overridden dependencies, lets ContinueRouting out to the
  server, and answers 405 to another method added on the same path. `add_permission` never has an effect;
  a handler of exceptions added after the first request is ignored by ExceptionMiddleware.
* **Lifespan and events.** Event handlers added to an application made with any hook never run; a router's own
  hooks displace the global ones; hooks given along with a lifespan are ignored without notice; a failing
  shutdown hook keeps the later ones from running; `EventDispatcher.emit` drops keyword arguments that a listener
  declares by name and raises TypeError for a plain function with `**kwargs`.
* **Security schemes.** HTTP Basic refuses names and passwords outside ASCII; `Authorization: Bearer` without a
  token passes the OAuth2 bearer schemes as the token ""; with `auto_error=False` HTTP Basic still answers 401 to
  unreadable credentials and HTTP Digest to another scheme.
* **JSON.** `Request.json` and `receive_json` accept `NaN`, `Infinity` and `-Infinity`, which lilya itself refuses to write, and
  half surrogate pairs, which then cannot be sent back.
* **Encoders.** A dataclass nested in another is not restored by `apply_structure`; `apply_structure(list, a_set)` returns the
  set and `apply_structure(date, a_datetime)` the datetime; `exclude_none` does not reach the fields of dataclasses;
  encoders for subclasses of types json knows (such as `NamedTupleEncoder`) are never asked to serialize.
* **Rendering.** `Content-Disposition` leaves `/` unescaped in `filename*`, and an inline response drops its file name.
  `XMLResponse` escapes nothing: `<`, `&` and `]]>` in a value break the document, a value can add elements, and a list
  gives several roots. `make_response(text, PlainText)` sends JSON escapes (`say "hi"` becomes `say \"hi\`).
  `Response(0)` has an empty body and `Response(1)` raises.
* **Host routes** (`routing/host.py`): the host is compared with its case although host names have none (`Host("example.org")` does not serve `Example.org`); header and template are cut at their first colon, so `Host("[2001:db8::1]")` serves every address that starts with `2001:`; `url_path_for` below a host does not notice missing host parameters and returns the host `{sub}.example.org`; the child scope of a host route has no `dependencies` entry, so dependencies declared on a `Host` are never used.
* **Cache decorator** (`decorators.py`): `generate_cache_key` drops the first argument when it has an attribute named like the function, so `@cache def count(text)` returns one result for all texts; methods of different objects share keys; functions made by one `def` in a factory share keys; the lock of the asynchronous wrapper is made per call and excludes nothing; the lock of the synchronous wrapper is global and not reentrant, so a cached function that calls a cached function never returns; `None` results are never reused; `ttl=0` means the default or for ever; `invalidate` uses `anyio.run`, which fails within a running event loop and is only logged; `invalidate(obj.method, x)` computes the key without `x` and removes nothing.
* **Template controllers.** (1) A `form_valid`/`form_invalid` that returns nothing in a base class recurses without end (RecursionError, its side effects repeated) as soon as a subclass does not define the hook, or does and returns nothing too (C120_refuted, C120_for_ever). (2) `get_or_set_csrf_token` is called without a response: the token on the first page a browser gets is not the token in its cookie, and the submission is refused (C121_first); a stale cookie is never replaced (C121_stuck); the page re-rendered after an invalid submission has no token (C121_again). (3) Context processors of the template object override the handler's own values, a processor can replace `request`, and a context key named `self` is a TypeError (C122). Processors of the controller run twice on a form page.
* **Global state `g`.** The state is created when first used, in the context of the task that uses it. A handler that is not a coroutine function runs in a thread with a copy of the context: what it writes to `g` is gone for the middleware around it unless `g` was used before (C123_tasks_refuted). A `populate_global_context` that returns one dict for all requests makes them share it, as `G` does not copy (C123_refuted). `g.store`, `g.copy`, `g.clear` and `g._context` can be assigned but not read back (C123_names_refuted). Deleting a missing name raises KeyError instead of AttributeError.
* **Request-agnostic dependencies keep too much.** A marker with `use_cache=True` returns its kept value even if a later call passes `overrides` or another `dependencies_map` (`C124_refuted`); `Scope.APP` and `Scope.GLOBAL` instances are stored under the function only, so `Depends(f, 1, scope=APP)` and `Depends(f, 2, scope=APP)` give the same value (`C124_arguments_refuted`). An override that is a static value is called and raises a TypeError although the documentation allows it (`C125_override_refuted`). `inject` refuses functions with `*args` or `**kwargs` that receive nothing (`C126_refuted`).
* **Body inference.** `Optional[list[T]]` turns `null` into `[]` (`C127_refuted`); `X | None` is not structured at all while `Optional[X]` is, so a dataclass arrives as a dict (`C127_pipe_refuted`); a class without encoder accepts anything (`C127_class_refuted`); `tuple[A, B]` accepts lists of other lengths (`C127_tuple_refuted`). The names of query parameters, headers and cookies *of the request* are excluded from the body parameters, so a client who adds `?a=` changes what the parameter `b` of `def f(a, b)` gets (`C128_refuted`), and a parameter called `host` is never read from the body (`C128_header_refuted`). A falsy body such as `0` becomes `{}` (`C128_falsy_refuted`). With two body parameters an omitted one fails even if it has a default (`C128_default_refuted`). The documented wrapping `{"names": [...]}` gives `["names"]` for `list[str]` (`C128_wrapped_refuted`).
* **Test client.** A response that is started but not finished is returned with an empty body, whatever was sent, and nothing is reported (`C129_refuted`). The asynchronous client accepts body messages after the end of a response; they overwrite its beginning (`C129_late_refuted`). The path is percent-decoded twice, by httpx and again, so `/%2541` arrives as `/A` (`C130_refuted`); `raw_path` includes the query string (`C130_raw_path_refuted`); IPv6 hosts raise a ValueError (`C130_ipv6_refuted`). Cookies passed with one request make the client forget the cookies its response sets (`C132_refuted`). `scope["state"]["user"]` keeps a user the lifespan left there while `scope["user"]` is the authenticated one (`C131_refuted`).
* **A provider with a marked parameter calls its function twice (C134).** `Provide(get_current_user)` with `def get_current_user(user=Resolve(get_user))` resolves `get_current_user` itself for the parameter `user` (dependencies.py:230-236 passes `func=self.dependency`), and then calls it again with its own result. The repository's tests work around it (`if isinstance(oauth_header, BaseModel): return oauth_header`).
* **A scheme marked on a handler gets no connection (C135).** `async def handler(token=Security(scheme))` calls `scheme()` without the request, although a scheme below another function is called with it: a TypeError for every scheme of `contrib.security`.
* **Generator dependencies are never closed (C136).** The generators are registered with `add_cleanup`, but nothing in the framework calls `Request.close()`; a websocket handler that closes its session closes nothing either, because the dependencies were resolved with another WebSocket object. A handler that does close its request closes the generators in the order of opening, so what a generator uses is closed before it, and one failing cleanup skips the rest.
* **A repeated directive weakens the content policy (C137).** Given the text `default-src 'none'; default-src *`, the middleware keeps the last one, while a browser that had been sent the text as it is would enforce the first.
* **Security headers are added, not set (C138).** `SecurityMiddleware` uses `headers.add`: an application that sets `x-frame-options: SAMEORIGIN` itself gets both values (and, because of the spelling, each of them twice on the wire, see C25). Responses that deny a websocket get none of the headers.
* **WSGI errors reach only a handler of exactly the exception class (C140).** `exception_handlers.get(type(exc))` does not look at base classes or at handlers for status codes, unlike the rest of the framework.
* **Empty arguments do not override settings (C141).** `Lilya(middleware=[])`, `root_path=""` and `enable_intercept_global_exceptions=False` use the setting (apps.py:74-77 tests truth, not presence, except for `debug`, `enable_openapi`, `redirect_slashes` and `include_in_schema`). The router of the application is given the argument `include_in_schema` and never the setting (apps.py:1254). `setup_serializer` is called only when there is no serializer configuration (apps.py:1262).
* **The environment overrides override_settings (C143).** `override_settings(debug=True)` builds a new settings object, whose constructor prefers the environment variable `DEBUG` to the argument. A setting that is a property, such as `middleware`, cannot be overridden at all: AttributeError. A function decorated with `override_settings` that calls itself leaves the override in force, because the object has one slot for its context manager.
* **infer_body leaks between applications (C144).** `Lilya(infer_body=True)` assigns to the shared settings object, and so switches inference on for every application without a settings module.
* **A list setting read from the environment is split into characters (C142).** `list[str]` is called with the text.
* **A mail with a text and an HTML body cannot be sent (C146).** `_add_alternative` passes bytes without `maintype` to the standard library (smtp.py:24), which raises TypeError. This concerns SMTP and file backends, every `send_template` (it always makes both bodies) and every `text/...` alternative. Custom headers that repeat a header with a single value raise ValueError.
* **send_many does not validate (C147).** It hands messages without recipients or content to the backend (mailer.py:97-109).
* **A lost SMTP connection is never reopened (C148).** `open()` does nothing while a client object is there, and `close()` keeps the object when `quit()` raises, so after the server closed an idle connection the backend cannot send again.
* **The default sender sticks to the message (C149).** It is written into the caller's message, so another backend sends it in the first one's name.
* **Paragraphs run together (C150).** The two line feeds put for `</p>` are made one by the next substitution. Entities such as `&amp;` stay as they are.
* **Mail files can overwrite one another (C151).** Names are made of the time and the subject without punctuation.
* **OpenAPI document.** The parameters of an include's path, and what follows them, are dropped, so its routes are documented where they are not served (`C152_parameter_refuted`); what is under a host is missing; `include_in_schema=False` on an include or in the decorator has no effect; websocket routes appear as GET operations; a controller restricted by `methods` is documented for all methods it has; a route to an object without `methods` makes the document fail (`C152_*_refuted`). For two routes with the same path and method the document describes the one that is never reached (`C153_first_refuted`), and a decorated handler has no operationId unless one is given, although its documentation says otherwise (`C153_identifier_refuted`). Security requirements hold definitions instead of scopes, schemes and models of the same name overwrite each other, plain types give dangling references, and declared media types are lost (`C154_*`, `C155_*`). Root paths of one client's requests are shown to all later clients (`C156_other_clients_refuted`). Declaring responses changes the caller's dictionary, so it cannot be shared (`C157_shared`).
* **The debug page loses semicolons.** `format_line` replaces each space with `&nbsp` (no semicolon). In a source line where a space is followed by `;`, the browser reads `&nbsp;` and the semicolon disappears. `C159_semicolon_refuted`.
* **Recursive frames share an identifier on the debug page.** The identifier is the file and the line, so for a function that calls itself every button toggles the first of its frames. `C160_recursion_refuted`.
* **`permissions_for` hides permissions behind middleware.** The builder puts the middleware of a route before its permissions on one chain; `permissions_for` stops at the first node that is not a permission, so for a route with any middleware it returns nothing and `explain` reports no permissions. `C162_permissions_refuted`.
* **The graph misses routes behind includes.** `Include.app` is the wrapped application as soon as the include has middleware or permissions, and a `Router` when it is made of `routes=` or `namespace=`; the builder descends only into instances of `Lilya`, and its branch for raw routes needs `app` to be `None`, which it never is. `C163_layers_refuted`, `C163_router_refuted`. The middleware of child applications and all application-level permissions are not in the graph at all.
* **`app.graph` is never rebuilt.** Routes added after the first reading are missing. `C164_stale_refuted`.
* **AI streams break at U+2028, U+0085 and the like.** `_iter_sse_data` reads `aiter_lines()` of httpx, which cuts where `str.splitlines` does; a provider that does not escape these characters in JSON makes the stream raise `AIProviderError` in the middle of a text. `C165_separator_refuted`. It also strips all leading space of a data line and delivers an event that was cut off.
* **Errors in a stream of the messages API are dropped.** An event of type `error` (overloaded, for example) gives no chunk and no exception: the text just ends. `C170_error_event_refuted`. The reason to finish of that API comes in `message_delta` events, which are ignored, so `finish_reason` is read from an event that never has it.
* **Asking for usage breaks a chat completions stream.** The last event then has `"choices": []`, which is taken for an error. `C170_usage_event_refuted`.
* **`complete` can raise exceptions that are not AI errors.** `response.json()` is outside the `try`, and `message.get` on a null message is an `AttributeError`. `C171_null_message_refuted`, `C171_not_json_refuted`.
* **Tool call ids are not sent to the messages API.** `C172_refuted`.
* **Shutting a provider down while it is used.** `shutdown` waits between its test and `self._client = None`: a call meanwhile gets the closed client, and with two shutdowns a client built in between is dropped without being closed. `C173_closed_client_refuted`, `C173_leak_refuted`.
* **`extra` can contradict the method.** `complete(extra={"stream": True})` posts a streaming request and then parses the body as one JSON document; an empty `system_prompt` cannot turn the default off. Part of `C167_payload` and `C166_client`.
* **parse_form fails on an empty octet stream.** `OctetStreamParser.finalize` calls `on_end` although `on_start` never ran; the assertion in the callback fails. `C175_refuted`.
* **parse_form does not decode "+".** Neither `QuerystringParser` nor the callbacks turn plus signs into spaces (Request.form does so later, together with a second percent-decoding): every form a browser sends has its spaces replaced. `C177_refuted`, `C178_two_parsers`.
* **Field names ending in "*" are lost.** `field_name_raw.endswith(b"*")` tests the value of the parameter instead of its key; such a name is taken for an RFC 5987 value and becomes empty, while real `name*` values are not decoded. `C179_refuted`.
* **A file input left empty arrives as a text field.** `filename=""` is falsy, so the part is a Field. `C179_unnamed_file_refuted`.
* **parse_form loses parts of large uploads.** It reads 1 MiB at a time, and a delimiter that straddles a read is not recognised (as in C21). `C180_refuted`.
* **decode_rfc5987_param loses non-ASCII names.** It percent-decodes as UTF-8 first and then encodes the text as Latin-1 ignoring errors: "文" disappears and "é" becomes U+FFFD; the example of its docstring is wrong. `C181_refuted`.
* **on_end is not called for truncated multipart bodies.** `C182_refuted`; it is called again for further closing delimiters (`C182_twice_refuted`). `MAX_BODY_SIZE` truncates without a sign (`C184_limit`).
* **A test can hang for ever on a websocket application (C192, C193).** An application that returns without sending anything leaves `WebSocketTestSession.__enter__` waiting on a queue that nobody will fill, because only exceptions are put there at its end; a second `receive` after the exception waits too. An application that closes or denies the connection and then waits for another message makes `__enter__` hang in `exit_stack.close()`, since nobody sets `should_close`.
* **Exceptions of a websocket application are lost inside `with TestClient(...)` (C190).** The session then shares the client's portal, whose exit does not wait for the application, so that what it raises on the disconnect comes after the queue was emptied. Also, an exception raised after a refusal is never reported.
* **Leaving a session cancels an application that awaits anything but a message (C191)** before it sees the disconnect.
* **`websocket_connect(subprotocols=[])` offers one empty subprotocol (C194), and the synchronous client writes its headers into the caller's dictionary (C195)**, so that the next session opened with it offers the subprotocols of the first. The asynchronous client copies the dictionary; its sessions, however, are given `portal_factory=None` and cannot be entered at all.
* **A failed startup can go unnoticed (C196).** An application that sends `lifespan.startup.failed` and returns, as the ASGI specification has it, is entered by the test client, which then hangs when it is left.
* **Tracing breaks servers on unix sockets.** `scope.get("server", ["testserver"])[0]` in the `finally` block raises TypeError when `server` is None, which ASGI allows: after the response was sent, and replacing the exception of the application or its cancellation. `C198_server_refuted`, `C198_otherwise_partial`.
* **A malformed Host header fails before the application is called.** The middleware reads `request.url` to fill attributes, so "Host: example.org:x" becomes a 500 that the application alone would not produce. `C198_host_refuted`.
* **Cancelled requests are traced as OK.** Only `Exception` is caught, so after a 200 start the status is OK. `C200_refuted`.
* **http.route is never set behind the router.** It is written only before the application runs; the `finally` block updates lilya.route only. `C202_refuted`.
* **server.address is overwritten, server.port is not.** The first is the socket's address in the end, the second stays that of the Host header. `C203_refuted`.
* **Envelope.from_json changes version 0.** `version or 1` and `name or type name`. `C206_version_refuted`.
* **Tokens with naive dates live in the wrong time zone.** `convert_time` drops the result of `astimezone`; a naive `exp` is checked as local time but signed as UTC, so the token lives longer or shorter by the offset of the server. `C209_naive_refuted`.
* **Tokens that never expire are refused.** A number beyond 2e10 (after the year 2603, `datetime.max` for example) is read by pydantic as milliseconds, that is as a date in 1978, and the decoded token is "expired". `C209_eternal_refuted`.
* **leeway has no effect in Token.decode.** The constructor checks `exp` against the clock again (`C211_refuted`). `options=` cannot be passed either, since decode passes it itself.
* **Token(sub=None) has the subject "None".** `C212_refuted`.
* **observable functions that are no coroutines take no keyword arguments.** `anyio.to_thread.run_sync(func, *args, **kwargs)` gives them to run_sync. `C215_refuted`.
* **Events of listeners are not sent.** `observable` subscribes the undecorated function, so a function with both `listen` and `send` sends nothing when it is notified. `C216_refuted`.
* **abort fails for status codes Python does not know.** `abort(599)`, and `abort(499, {"error": ...})`, raise ValueError from `http.HTTPStatus(...)` while building the exception; the client gets a 500. `C218_refuted`, `C218_json_refuted`.
* **NotFound("message") drops the message.** The class attribute `detail` wins over the positional argument in NotFound, NotAuthorized and PermissionDenied. `C220_refuted`.
* **RedisCache mixes up event loops.** The registry of clients is keyed by `id(loop)` and never forgets a loop. Each `sync_*` call runs in a new loop that is closed afterwards; when a later loop gets the same id, it is handed a client whose connections belong to the closed loop, and the call raises (C225). Each such call also leaves its client open, and `close()` raises at the first client of another loop and leaves the rest (C226). `ttl=0` stores the value for ever (C224).
* **The logger proxy can come up empty or drop a logger.** `LoggerProxy.__getattr__` reads `_logger` again without the lock: with `bind_logger(None)` in another thread the lookup runs on None (AttributeError), which SerializerProxy avoids. `if not self._logger` also takes a bound logger that is false (an object with `__len__` 0) for none and binds the default over it. `C228_refuted`, `C228_falsy_refuted`.
* **Context managers on the request's exit stack are never told of a failure.** AsyncExitStackMiddleware catches the exception, calls `stack.aclose()` (which passes no exception) and raises it again: `__aexit__` of a transaction entered in the handler sees success and commits. `C232_refuted`, `C232_unaware`.
* **RequestContextMiddleware breaks websockets.** It acts on websocket scopes but builds a `Request`, whose constructor asserts http. `C235_refuted`.
* **The documentation pages of a mounted application can be used for script injection.** `get_swagger_ui_html` writes `url: '{openapi_url}'` with the root path of the scope, unescaped; the three others write an attribute. Under `Include("/{tenant}", app=child)` the root path is the percent-decoded text of the request, so `/x'-alert(1)-'/docs/swagger` runs script. `C236_refuted`.
* **The oauth2 redirect page is served when the document is switched off.** `C238_refuted`.
* **`run_sync` runs a coroutine function twice if it raises RuntimeError.** `except RuntimeError` is meant for "already running", but catches errors of the coroutine (also NotImplementedError and RecursionError): effects happen twice. For a coroutine object, as in synchronous dependency resolution (dependencies.py:508), the real error is hidden by "cannot reuse already awaited coroutine". `C239_refuted`.
* **`run_sync` inside a loop loses context variables** (request context, settings overrides): ThreadPoolExecutor does not copy the context. `C240_refuted`.
* **A class with `async def __call__` counts as asynchronous itself**, so `Provides(SomeClass)` or an exception handler class is awaited after construction and fails. `C241_refuted`.
* **`show-urls` hides user routes and fails on Host.** Any address that holds e.g. `/elements` is skipped, with all routes below it; `Host` has no `path`. `C244_refuted`.
* **`lilya run` slices sys.argv at a fixed position.** A class directive named directly loses its first argument (or IndexError without arguments), with `--app=X` everything shifts. `C247_refuted`.
* **An argument "mail" or "createapp" switches off the loading of the application** for any directive. `C248_refuted`.
* **`runserver --path x:app` is ignored** when discovery found another application and neither reload nor workers are used. `C249_refuted`.
* **Discovery may pair an ASGI app with the Lilya instance of another file.** `C246_refuted`. The path reported for a factory names the function, so reload serves the factory as application. `C245_refuted`.
* **A custom directive in a project without directives fails with UnboundLocalError.** `C250_refuted`.
* **HTTPException in a websocket function ends in silence.** `handle_websocket_exception` calls `http_exception` and drops the response, so a function that raises HTTPException (NotAuthorized, PermissionDenied) on a websocket sends nothing; the router then tries the next routes, and its own 404 is dropped the same way. A websocket to an unknown path of an application gets no answer either. `C253_refuted`, `C254_silence`.
* **Websocket errors are closed with http status codes and the repr of the exception.** `_handle_websocket_exception` sends `code=500` (or 403, 404, even None) and `reason=repr(exc)`: not a legal close code, not bounded to 123 bytes, and it shows internal texts to the client. The exception goes no further: it is neither logged nor seen by middlewares, and `exception_handlers` of websocket routes and includes are ignored. `C258_refuted`, `C258_text_refuted`, `C256_route_refuted`.
* **WebSocketException is understood only in functions.** Raised in a WebSocketController, a hook or a permission it closes with 500. `C252_refuted`, `C252_hook_refuted`, `C252_permission_refuted`.
* **A websocket can be closed twice.** An endpoint that closes and then raises is closed again by its route, and once more by each include whose hooks fail. `C255_refuted`.
* **Requests to a guarded controller share one object.** The metaclasses of MiddlewareProtocol and PermissionProtocol replace a controller class by `app()` when the route is made, so every request runs on the same object. `handle_dispatch` stores the signature on `self`, waits for the dependencies, and reads it back: a request that overlaps with one for another method is called with the arguments of the other one's signature (its Query, Header and Cookie parameters stay unfilled: the handler sees the marker objects, or the call fails with TypeError and 500). Attributes set on `self` are seen by later requests of other clients. Without a guard each request has its own object. `C260_overlap_refuted`, `C260_leak_refuted`.
* **with_init drops the controller's permissions.** `Controller.with_init(...)` returns a subclass of Controller instead of the class itself, so permissions, middlewares, exception handlers, dependencies and hooks declared on the controller are silently not applied: a protected controller becomes public. `C264_lost`, `C264_refuted`.
* **Some guards cannot stand in front of a controller.** A WebSocketController behind a permission or middleware of Lilya's protocols cannot be registered (TypeError); a Controller behind a plain ASGI middleware fails on every request. `C261_refuted`.
* **Hooks of a controller leak through shared lists.** A path extends the caller's before_request and after_request lists in place, so another route given the same list runs the controller's hooks, and building the same routes twice runs them twice. `C262_refuted`, `C262_twice_refuted`.
* **Dependencies of a decorator are kept on the function, unwrapped.** A function decorated twice uses the last decorator's dependencies on both routes, and a plain callable or value, which Path accepts, fails with AttributeError when the handler is called. `C265_shared_refuted`, `C265_callable_refuted`.
* **A shared response leaks session cookies.** The start message carries the response's own header container and the middlewares edit it in place. A response object returned for more than one request (a module-level constant, or a response used as the handler of a path) therefore keeps the first client's session cookie: every later client is sent it and never gets its own. The same goes for the CSRF token and the allowed origin; security headers pile up. `C267_session_refuted`, `C267_first_cookie_stays_refuted`, `C267_token_refuted`, `C267_origin_refuted`, `C267_security_refuted`.
* **A shared response is corrupted by gzip.** After one client that accepts gzip, the body goes out unpacked but labelled `content-encoding: gzip` with the packed length, to all clients. `C267_gzip_refuted`.
* **A shared FileResponse is spoilt by a Range request.** Status 206, Content-Range and Content-Length stay on the object: the next client that asks for the whole file gets its first bytes as a 206 with the other client's range. A file that has grown is cut to its first length. `C268_range_refuted`, `C268_changed_file_refuted`.
* **createapp writes outside its directory.** The version goes into the path unchecked: `lilya createapp blog --version ../../../etc` creates the files of the version in /etc (it never replaces existing ones). `C271_refuted`. The deployment folder is joined the same way.
* **A failed createapp leaves half an application behind.** A version equal to another directory of the template (`directives`) fails half way; the directory stays, and the next attempt is refused because it exists. `C272_refuted`.
* **The port of an obfuscated forwarded node is kept.** `Forwarded: for="_hidden:4711"` from a trusted proxy gives the client address `_hidden:4711`. `C36_port_refuted`.
* **Redirected WSGI errors skip most handlers.** `BufferedWSGIResponder` looks up `exception_handlers.get(type(exc))`: a handler for the status code or for a parent class, which the application would use for any other exception, is passed over, and a handler that is a plain function raises TypeError because its response is awaited. Without `scope["app"]` an error answer becomes an AttributeError. `C274_refuted`, `C274_status_refuted`, `C274_plain_refuted`, `C276_no_app_refuted`.
* **redirect_exceptions does not convert exceptions.** The documentation of the option says that exceptions raised by the WSGI application are transformed into `exception_class`; only answers with a status of 400 or more are. `C276_refuted`.
* **Two spaces make an empty scope.** `validate_scope` splits on single spaces, so `"a  b"` yields the scopes a, the empty text and b. `C278_refuted`.
* **The password form cannot be dumped without the password.** `model_dump` overwrites the caller's `exclude`, so `form.model_dump(exclude={"password"})` contains the password. `C279_refuted`, `C279_password_refuted`.
* **The permissive password form insists on grant_type.** The documentation says that only the strict form does. `C280_refuted`.
* **The documentation of classes.** Every field is documented as required (`C284_refuted`): `convert_annotation_to_pydantic_model` rebuilds dataclasses, and pydantic models as well (it tests `isinstance(cls, BaseModel)`, which no class is), from bare annotations, dropping defaults and constraints. With two bases the last one wins (`C283_refuted`). `User | None` is not converted, `Annotated[User, ...]` raises a TypeError (`C285_bar_refuted`, `C285_annotated_refuted`).
* **Custom directives.** Every command, even `lilya createproject`, loads each file of every directory called `operations` below the current one; a file that raises a TypeError, or exits, ends it (`C288_kills_refuted`). `lilya NAME` and `lilya run NAME` can be different files (`C289_refuted`). The listing shows a section with the item `name` per custom directive (`C286_refuted`).
* **`reverse` changes its caller's dictionary.** `path_params.update(kwargs)`: the next call with that dictionary has the keyword arguments of the one before, and finds no route (`C290_refuted`).
* **Synchronous streams run on the event loop.** `iterate_in_threadpool` only creates its generator in a thread (`to_thread.run_sync(worker)` where `worker` is an async generator function); the items are taken by the loop's thread. A blocking generator blocks the server, and an endless one with a `send` that never waits (a client that left) keeps every other task from running for ever. `C293_refuted`, `C293_blocked`.
* **A stream is always one item late.** `StreamingResponse.stream` sends an item when the next one is there; content that waits for a reaction to its first item never gets it. `C294_refuted`.
* **A mailer does not reach nested applications.** `Mail` looks at `request.app.state`, and `request.app` is the innermost application, so handlers of a ChildLilya get "No Mailer configured"; set up on the child itself, the mailer is never opened, as only the outermost application has a lifespan. `C295_refuted`, `C297_nested_refuted`.
* **setup_ai(state_attribute=...) disables the AI dependency.** It reads `state.ai` only. `C296_refuted`.
* **setup_mail on an application with an on_startup hook never opens the mailer.** The handlers added are ignored (see C98). `C297_refuted`.
* **Cached dependencies are not single-flight.** Requests that arrive while the first resolution awaits (the body, or an asynchronous factory) call the factory again; each keeps its own value, and the stored one is that of whichever ends last, so two "singletons" are in use. `C298_refuted`, `C299_refuted`.
* **A failing listener silences the others.** `emit` runs the listeners in one task group: when one raises, the others are cancelled at their next await, and those that have not begun never run. `C301_refuted`.
* **Sessions lose updates, and a reader undoes a logout.** `SessionMiddleware` sends the whole session back with every answer whose session is not empty, changed or not (sessions.py:119-160). Of two overlapping requests the later answer wins. A request that only reads the session, made before a logout and answered after it, puts the session of before back into the browser: the user is logged in again (C304_logout_refuted).
* **Stored mail can be lost or refused.** `FileBackend` names files by microsecond and the letters of the subject and opens them with "wb" (file.py:54-61): two messages in one microsecond with subjects such as "hello world" and "hello, world!" share a file. The subject is cut to sixty characters, not bytes, so sixty letters of four bytes make the name too long and sending fails.
* **Root paths.** `root_path` is documented as "a path prefix that is handled by a proxy not seen in the application", but with it no route below an `Include` is found unless the path still has the prefix (`C310_mounts_refuted`): the mount appends what it matched to the root path, and the result is not a prefix of the path. A path that merely begins with the same letters (`/apix` with the root path `/api`) is cut (`C310_letters_refuted`). A mounted application with a root path of its own, for instance from the settings, overwrites the mount's prefix and finds none of its routes (`C312_refuted`).
* **Links.** `url_path_for` puts parameters into links unescaped: a parameter with `?` or `#` ends the path, and `%41` arrives as `A` (`C315_question_refuted`, `C315_percent_refuted`). A request without a `Host` header to a server on a socket file makes links without a host, `http:///run/app.sock:None/list` (`C315_socket_refuted`).
* **Defaults and membership of the environment.** A default goes through the cast: `env("PORT", cast=int, default=None)` raises ValueError (`C318_refuted`). `key in env` and `env.get(key)` are inherited and ignore the prefix and `ignore_case`, so they deny keys that `env[key]` reads (`C319_refuted`).
* **Uploads with an extended name.** Request.form asks only for `filename`: a part that gives its file name as `filename*` alone becomes a field, its bytes decoded as text, and it does not count among the files, although `_handle_filename` has a branch for it (`C322_refuted`). A `name*` without charset and quotes gives the empty name (`C321_unmarked`).
* **State.** `state._state = x` makes `len(state)`, `state["a"]`, `del state.a` and `state.copy()` work on `x` instead of what is stored (`C324_refuted`); `state.copy = x` takes away the method (`C324_copy_refuted`). `del state.missing` raises KeyError, not AttributeError.
* **Headers that are no UTF-8.** A request with one header value that is not UTF-8 (`X-Name: René` in Latin-1, which HTTP allows) makes `request.headers`, and so the whole request, fail with UnicodeDecodeError: names and values are decoded strictly, while they are encoded with surrogate escapes (`C326_refuted`).
* **Headers from mappings.** `Header(mapping)` with a mapping that is no dict (a multidict, a MappingProxy) runs over the letters of its keys: ValueError, or for a key of two letters another header, `te` becomes `t: e` (`C327_refuted`).
* **A lifetime of zero.** `Cookie(key, max_age=0)`, the usual way to delete a cookie, is written without Max-Age: the client keeps the cookie for its session instead of forgetting it, because the attribute is tested for truth (`C330_refuted`). `Response.set_cookie` does write it.
* **Query strings with raw bytes.** A request for `/?q=é` with the letter as a raw Latin-1 byte makes `request.query_params` raise UnicodeDecodeError (`C331_refuted`).
* **Text of query parameters.** `str(query_params)` sorts the pairs, so `?sort=b&sort=a` becomes `sort=a&sort=b`: values of a name that stand in an order are swapped (`C332_refuted`).
* **Equality of containers.** Containers that differ in the order of the values of a name are equal, though reading them differs (`C334_refuted`); comparing forms that have two files under one name raises TypeError (`C334_files_refuted`).
* **Dictionary without duplicates.** `dump()` keeps the last value of a name, `get` gives the first (`C336_refuted`).
* **Closing forms.** If closing one uploaded file fails, the files after it stay open (`C337_refuted`).
* **A query parameter declared with a text is not documented (C344).** `@openapi(query={"q": "string"})` passes every test of the loop (decorator.py:300-307), which has no last branch: the name is dropped without an error, while a list in its place raises ValueError. (A tuple inside a hand-written JSON Schema is also not searched for binary formats, so such a body is documented as JSON.)
* **Awaited content loses the content type that was given (C346).** With `deduce_media_type_from_body` a response keeps the content-type header it is given (`setdefault`, responses.py:237), but if its content is an awaitable the header is replaced by what libmagic finds (`self.headers["content-type"] = ...`, responses.py:147); it is then also written for statuses like 204 that have no body.
* **A client with an old CSRF cookie is locked out (C350).** `get_or_set_csrf_token` gives any non-empty cookie back without verifying it (security/csrf.py:138-142), and the middleware sets a cookie only if there is none (middleware/csrf.py:235). After the secret is changed, every client that kept its cookie is refused each form until it deletes the cookie itself (C350_stuck).
* **Proxied websockets are never encrypted (C352).** `_build_upstream_ws_url` takes `wss` only if the scope's scheme is `https` (relay.py:698-699). A websocket scope has `ws` or `wss`, and the scheme of the configured address is not looked at, so that an `https` upstream is contacted in clear text, against the method's own description. For the same reason `X-Forwarded-Proto` is `http` for encrypted websockets (relay.py:444-446, C353).
* **The path of the proxy's address is dropped (C354).** `target_base_url` is documented as scheme, host and optional base path (relay.py:79), but an absolute path is joined to it (relay.py:378-379): `http://up/v1` forwards `/users` to `/users`.
* **Mails from templates cannot be sent by SMTP (C358).** `send_template` always gives a text and a HTML body (mailer.py:153-162), and messages with both cannot be built (C146), so that the documented way to send template mails fails with every template that has words.
* **The scheduler's stop is missing (C362).** The base class demands `stop` (schedulers/base.py:14-15), the protocol and `AsynczConfig` have `shutdown`: `stop` of an Asyncz configuration raises NotImplementedError and the scheduler runs on.
* **A key can take the place of a method of the context.** `context.add_to_context("get_context_data", 1)` is accepted and makes `context.get_context_data()` raise a TypeError (C366).
* **The charset of a request is ignored.** `Request.charset` looks up the text "charset" among bytes keys, so `text()` reads every body as UTF-8 and fails on `text/plain; charset=latin-1` (C368).
* **`is_json` can raise.** A Content-Type with a character between U+0080 and U+00FF is encoded as Latin-1 and decoded as UTF-8, a UnicodeDecodeError in `is_json`, `is_form` and `content_type` (C369); characters beyond U+00FF are dropped, so `application/jso中n` counts as JSON (C371).
* **Events go to a client that is gone while the handler waits (C375).** `_listen_for_disconnect` sets `active` to false and awaits `client_close_handler` before it cancels the tasks; the stream task never looks at `active`, so every event that comes while the handler waits is still sent (responses.py:761-808, 871-880).
* **An event stream may be declared empty (C378).** `EventStreamResponse(..., headers={"Content-Length": "5"})` is sent with `content-length: 0`: the dictionary is searched for the lower-case name only, the response then adds the length of its empty body, and `headers.pop` removes just the first of the two lines (responses.py:704-714).
* **Without custom directives, `lilya run x` raises UnboundLocalError (C381).** `fetch_custom_directive` reads its loop variable after the loop, which is unset when there are no directives (cli/utils.py:150-151). The loop also compares the name with all keys of each dictionary, so `lilya run location` and `lilya run name` try to load a file that does not exist.
* **A relay raises after it has answered (C384).** `Relay.__call__` checks `self._client` after the request was handled (relay.py:205-216): a shutdown that ends while a response is sent turns the answered request into an AssertionError, and a websocket on a relay that was never started is proxied in full before the error.
* **Some metadata cannot be reported as JSON (C386).** `_to_json_safe` leaves frozensets and the values of enumeration members as they are, and `sorted` raises TypeError for a set that mixes texts and numbers (introspection/_graph.py:29-39).
* **A validation error with a detail is not answered (C388).** `ValidationError` turns its detail into a list or keeps a dict (exceptions.py:206-217), and the default handler gives it to `PlainText` (middleware/exceptions.py:169), where `content.encode` raises AttributeError (responses.py:205): the client gets 500 in place of 400. Only global interception (C389) reports it.
* **The text for a refused range shows placeholders (C391).** The detail of `ContentRangeNotSatisfiable` lacks its f prefix (exceptions.py:150), so clients read "Requested range ({range_def[0]}-{range_def[1]}) is not satisfiable."
* **A context dict that is given again keeps the first request (C392, C393).** `prepare_response` puts the request into the handler's own dict with `setdefault` (templating/base.py:37), and context processors write into it too (jinja.py:62): a handler that passes a dict of its module or class shows every later user the first user's request, and what processors gave for one user stays visible to the next.

seeded/LOG.jsonl records the wrong programs the theorems were tried against.
* **Float parameters (C13).** A float below 2^-13 need not come back from its own URL: 2^-70 is written `0` (`C13_float_refuted`). A negative zero passes the check for negative values and is written `-0`, which does not match the route (`C13_negative_zero_refuted`). 310 digits match and arrive as infinity (`C13_infinite_refuted`).

## 5. Trusted base

* Coq 8.16.1's kernel (and `vm_compute`, used for witnesses and examples).
* `Print Assumptions` stands under every property theorem and prints "Closed under the global context" for each:
  no axiom is used, neither our own nor the standard library's. (The library axioms vcheck lists are fields of
  `Coq.ssr.ssrunder`, a module loaded by the standard library; no theorem depends on them.)
* The models: that they say what the Python says was checked by reading, not by running. Each definition
  cites the lines it models and names its simplifications. Recurring ones: `lower`/`upper` and digit classes are
  ASCII unless a parameter says otherwise; regular expressions are modelled by hand-written matchers; dicts are
  association lists in insertion order; integers are unbounded; memory and time are not modelled; the text
  of error messages mostly is not.
* Oracles. These are parameters of the theorems, with their laws as hypotheses where a law is needed: HMAC and
  token generation, the session serializer (`good_senv`), gzip, JSON and YAML readers, charset codecs,
  IP address syntax, the clock, the file system, `os.environ`, user handlers and callbacks, providers, classes
  called by a cast (`python`), httpx, the ASGI server, and the order of iteration over sets.
* Standard-library code modelled because the property depends on it: `urlsplit`, `urlunsplit`, `parse_qsl`,
  `urlencode`, `quote`, `unquote`, `http.cookies` quoting, `os.path` joins and normalisation, multidict access,
  parts of `email.message`-style option parsing, UTF-8 decoding, base64 (and itsdangerous' use of it).
  `float(text)` and `"%.20f"` are taken to round correctly, half to even, as CPython's `dtoa.c` documents.

Modelled, by file of /repo/lilya (the model file cites the lines):

* `AbtModel.v` — contrib/responses/shortcuts.py, exceptions.py, middleware/exceptions.py, responses.py
* `AiModel.v` — contrib/ai/client.py, contrib/ai/types.py, contrib/ai/providers/base.py, contrib/ai/providers/openai.py, contrib/ai/providers/anthropic.py
* `AnnModel.v` — contrib/openapi/helpers.py
* `ArgsModel.v` — _internal/_responses.py
* `AuthModel.v` — authentication.py, middleware/authentication.py
* `AwModel.v` — responses.py
* `BgModel.v` — _internal/_events.py, background.py, responses.py
* `BodyModel.v` — _internal/_responses.py
* `BusModel.v` — contrib/cqrs/bus.py
* `CacheModel.v` — caches/memory.py
* `CastModel.v` — params.py
* `ChanModel.v` — contrib/sse/channels.py
* `CliModel.v` — cli/base.py, cli/env.py, cli/groups.py, cli/utils.py, cli/directives/operations/run.py, cli/directives/operations/runserver.py, cli/directives/operations/show_urls.py
* `CollModel.v` — datastructures.py
* `ConfModel.v` — apps.py, conf/__init__.py, conf/global_settings.py, testclient/utils.py
* `CookieModel.v` — _internal/_connection.py, _internal/_parsers.py, responses.py
* `CoopModel.v` — concurrency.py, responses.py
* `CorsModel.v` — enums.py, middleware/cors.py
* `CqModel.v` — contrib/cqrs/messages.py
* `CsrfModel.v` — contrib/security/csrf.py, middleware/csrf.py
* `CtrlModel.v` — controllers.py
* `CtxModel.v` — context.py
* `CtxshModel.v` — templating/jinja.py
* `DeclModel.v` — contrib/openapi/decorator.py
* `DepModel.v` — dependencies.py
* `DirsModel.v` — _internal/_urls.py, cli/cli.py, cli/directives/operations/list.py, cli/utils.py, contrib/schedulers/asyncz/config.py
* `DispModel.v` — apps.py, exceptions.py, routing/path.py, routing/router.py
* `DocModel.v` — contrib/openapi/datastructures.py, contrib/openapi/decorator.py, contrib/openapi/utils.py
* `DocuiModel.v` — contrib/openapi/config.py, contrib/openapi/docs.py
* `EmitModel.v` — _internal/_events.py
* `EmlModel.v` — contrib/mail/backends/file.py, contrib/mail/backends/inmemory.py
* `EncModel.v` — _internal/_encoders.py
* `EnvModel.v` — environments.py
* `EvhModel.v` — responses.py
* `ExcModel.v` — _internal/_responses.py, apps.py, middleware/exceptions.py, middleware/lilya_exception.py, middleware/server_error.py, routing/base.py
* `ExitModel.v` — middleware/asyncexit.py, middleware/request_context.py
* `FastModel.v` — routing/router.py
* `FdirModel.v` — cli/utils.py
* `FileModel.v` — responses.py
* `FltModel.v` — _internal/_path_transformers.py
* `FormModel.v` — _internal/_parsers.py, contrib/multipart/parsers.py, requests.py
* `GlobModel.v` — context.py
* `GzipModel.v` — middleware/compression.py
* `HardModel.v` — middleware/clickjacking.py, middleware/security.py, middleware/wsgi.py
* `HeaderModel.v` — _internal/_helpers.py, datastructures.py, responses.py
* `HinModel.v` — datastructures.py
* `HostModel.v` — clientip.py, middleware/clientip.py, middleware/httpsredirect.py, middleware/trustedhost.py, middleware/trustedreferrer.py
* `HostRouteModel.v` — routing/host.py
* `InjModel.v` — _internal/_scopes.py, dependencies.py
* `InstModel.v` — _internal/_middleware.py, controllers.py, protocols/middleware.py, protocols/permissions.py, routing/path.py
* `IntroModel.v` — apps.py, introspection/__builder.py, introspection/_graph.py, routing/include.py
* `JsafeModel.v` — introspection/_graph.py
* `JsonModel.v` — serializers.py
* `JwtModel.v` — contrib/security/jwt/token.py, contrib/security/utils.py
* `LexcModel.v` — middleware/lilya_exception.py
* `LifeModel.v` — _internal/_events.py, apps.py, lifecycle.py, routing/router.py
* `LinkModel.v` — see its head
* `MailModel.v` — contrib/mail/mailer.py, contrib/mail/message.py, contrib/mail/templates.py, contrib/mail/backends/file.py, contrib/mail/backends/smtp.py
* `MemoModel.v` — caches/memory.py, decorators.py
* `MultipartModel.v` — _internal/_parsers.py, contrib/multipart/parsers.py
* `MwModel.v` — _internal/_middleware.py
* `NestModel.v` — _internal/_responses.py
* `NsatModel.v` — exceptions.py, ranges.py
* `ObsModel.v` — decorators.py
* `OformModel.v` — contrib/security/oauth2/oauth.py
* `OptsModel.v` — _internal/_responses.py, controllers.py, routing/path.py, routing/router.py, routing/websocket.py
* `OtelModel.v` — contrib/opentelemetry/middleware.py
* `OutModel.v` — responses.py
* `OverModel.v` — dependencies.py
* `PageModel.v` — middleware/server_error.py, middleware/styles/errors.py
* `PathModel.v` — _internal/_path.py, _internal/_path_transformers.py
* `PnameModel.v` — see its head
* `ProxyModel.v` — logging.py, serializers.py
* `PushModel.v` — contrib/multipart/form.py
* `RangesModel.v` — ranges.py
* `RdataModel.v` — requests.py
* `ReadModel.v` — environments.py
* `RedisModel.v` — caches/redis.py
* `RegModel.v` — apps.py, routing/mixins.py, routing/router.py
* `RelayModel.v` — contrib/proxy/relay.py
* `RequestModel.v` — requests.py
* `ResModel.v` — _internal/_responses.py, dependencies.py, requests.py, websockets.py
* `ReuseModel.v` — datastructures.py, responses.py
* `RlifeModel.v` — contrib/proxy/relay.py
* `RootModel.v` — apps.py
* `RouterModel.v` — routing/router.py
* `ScafModel.v` — cli/templates.py
* `SchedModel.v` — see its head
* `SconfModel.v` — staticfiles.py
* `ScopeModel.v` — _internal/_responses.py, _internal/_scopes.py, dependencies.py, requests.py, websockets.py
* `SecModel.v` — contrib/security/utils.py
* `SessionModel.v` — middleware/session_context.py, middleware/session_fixing.py, middleware/sessions.py
* `SignedModel.v` — contrib/security/signed_urls.py
* `SseConcModel.v` — responses.py
* `SseModel.v` — contrib/sse/channels.py, responses.py
* `SsedModel.v` — responses.py
* `StateModel.v` — _internal/_connection.py, datastructures.py
* `StaticModel.v` — staticfiles.py
* `StreamModel.v` — responses.py
* `SvcModel.v` — _internal/_connection.py, apps.py, contrib/ai/dependencies.py, contrib/ai/startup.py, contrib/mail/dependencies.py, contrib/mail/startup.py
* `SyncModel.v` — compat.py, concurrency.py
* `TabsModel.v` — middleware/sessions.py
* `TcModel.v` — testclient/_internal/transport.py, testclient/base.py
* `TmailModel.v` — contrib/mail/mailer.py
* `TokModel.v` — contrib/security/csrf.py
* `TplModel.v` — contrib/security/csrf.py, templating/controllers.py, templating/jinja.py
* `UrlModel.v` — datastructures.py
* `VexcModel.v` — _internal/_encoding.py, exceptions.py
* `WsModel.v` — controllers.py, websockets.py
* `WsgiModel.v` — middleware/wsgi.py
* `WsrModel.v` — _internal/_exception_handlers.py, _internal/_responses.py, apps.py, middleware/exceptions.py, routing/base.py, routing/include.py, routing/router.py, routing/websocket.py
* `WstModel.v` — testclient/_internal/transport.py, testclient/_internal/websockets.py, testclient/async_client.py, testclient/base.py
* `WsuModel.v` — contrib/proxy/relay.py

Not modelled:

* what these files hold beyond constants, types, documentation and re-exports: `_internal/_crypto.py`, `_internal/_encoding.py`,
  `_internal/_inspect.py`, `_internal/_module_loading.py`, `_internal/_representation.py`, `_utils.py`, `conf/enums.py`, `status.py`,
  `protocols/`, `middleware/app_settings.py`, `permissions/deny_all.py`;
* the command line beyond `CliModel.v` and `ScafModel.v`: the shell, the terminal output, `mail sendtest`, the registration of commands
  (`cli/cli.py`) and everything done by sayer, click and rich;
* the registration decorators of `routing/mixins.py`, which pass their arguments on, and the helpers that build test clients
  (`testclient/helpers.py`);
* the generation of JSON schemas by pydantic (`contrib/openapi/models.py`), the start of OpenTelemetry's exporters
  (`contrib/opentelemetry/instrumentation.py`), the console and in-memory mail backends;
* everything in C extensions and in other packages (httpx, jinja2, multidict, pydantic, msgspec, attrs, asyncz, redis, PyJWT, anyio,
  and the event loop), except where a model says so.
