{"id": "C01", "title": "Accepted paths contain only safe segments", "statement": "Whenever a URL or route path string is accepted, every stored segment is non-empty, contains no '/', and is neither '.' nor '..'; so no accepted path can climb out of its root.", "quantifier": "every byte string given as a path", "why_tests_cant": "there are infinitely many path strings and dot/slash combinations; a test samples a handful", "anchors": ["src/path.rs: PathBuf::parse"]}
{"id": "C02", "title": "Path parsing is exact dot-segment resolution", "statement": "A path string is accepted with segments r exactly when r is what remains after deleting empty and '.' segments and repeatedly cancelling 'x/..' pairs of the '/'-separated string, with no '..' left over; otherwise (some prefix climbs above the root) it is rejected with InvalidPathError.", "quantifier": "every byte string", "why_tests_cant": "needs both directions (accept and reject) for every nesting of dot segments", "anchors": ["src/path.rs: PathBuf::parse", "src/error.rs: InvalidPathError"]}
{"id": "C03", "title": "Path printing and parsing round-trip", "statement": "Printing any accepted path and parsing it again gives back the same path; distinct accepted paths print differently.", "quantifier": "every accepted path", "why_tests_cant": "round-trip law over an infinite set", "anchors": ["src/path.rs: PathBuf::parse", "src/path.rs: Display for PathBuf"]}
{"id": "C04", "title": "Slash-insensitivity and compositionality of path parsing", "statement": "Leading, trailing and repeated slashes never change the parsed path, and parsing a + '/' + b gives the segments of a followed by the segments of b whenever both parse.", "quantifier": "all strings a, b", "why_tests_cant": "universal law over pairs of strings", "anchors": ["src/path.rs: PathBuf::parse", "src/path.rs: PathBuf::concat"]}
{"id": "C05", "title": "Concat and subtract laws", "statement": "subtract(self, other) succeeds exactly when other is a leading part of self, and then returns the remaining segments; subtracting p from concat(p, q) gives q; concat is associative with the empty path as unit; concat and concat_owned agree.", "quantifier": "all pairs/triples of paths", "why_tests_cant": "algebraic laws over unbounded lists", "anchors": ["src/path.rs: PathBuf::subtract, concat, concat_owned"]}
{"id": "C06", "title": "Prefix test", "statement": "check_starts_with(self, other) should hold exactly when other is a leading part of self. (The code answers true whenever either path is a prefix of the other, so the property is refuted.)", "quantifier": "all pairs of paths", "why_tests_cant": "the failing cases (self shorter than other) are easy to leave out of a test suite", "anchors": ["src/path.rs: PathBuf::check_starts_with"]}
{"id": "C07", "title": "Route pattern matching and variable binding", "statement": "A pattern matches a request path exactly when they have the same number of segments and every pattern segment is either a ':name' variable or equal to the corresponding request segment. On a match, looking up a name gives the request segment at the last position where the pattern has ':name', and names that do not occur are absent. Matching never panics on parsed paths.", "quantifier": "all patterns and all request paths", "why_tests_cant": "matching is quantified over unbounded segment lists, including repeated and empty variable names", "anchors": ["src/path.rs: PathBuf::check_matches"]}
{"id": "C08", "title": "Route table lookup is sound and complete", "statement": "After any sequence of insertions into a fresh route table, looking up a request path returns exactly the inserted entries whose pattern matches it, each as often as it was inserted and with the variables of its own pattern; neither insertion nor lookup ever panics on parsed paths.", "quantifier": "all insertion histories and all request paths", "why_tests_cant": "a trie with wildcard branches has unboundedly many shapes; soundness and completeness must hold for each", "anchors": ["src/path.rs: PathNode::insert, dfs, get"]}
{"id": "C09", "title": "Route table iteration visits every entry exactly once and terminates", "statement": "For any table, under any hash-map iteration order, both the borrowing and the consuming iterator yield every stored entry exactly once, then report exhaustion, and keep reporting it.", "quantifier": "all tables, all hash iteration orders", "why_tests_cant": "the order of a HashMap is random per process; the explicit-stack iterator must be right for all of them", "anchors": ["src/path.rs: PathNodeIterator::next, OwnedPathNodeIterator::next, PathNode::iter, into_iter"]}
{"id": "C10", "title": "Merging route tables loses nothing", "statement": "Extending a table with all entries of another (or rebuilding a table from its own entries) yields a table whose lookups return exactly the matches of both, for every request path, under any hash iteration order.", "quantifier": "all pairs of tables, all orders, all request paths", "why_tests_cant": "depends on hash iteration order and arbitrary table shapes", "anchors": ["src/path.rs: Extend for PathNode, FromIterator for PathNode, IntoIterator for PathNode", "src/router.rs: Router::append"]}
{"id": "C11", "title": "Handlers run in registration order", "statement": "For a router built by any sequence of registrations (METHOD routes, add_route, add, mounted sub-routers), serving a request invokes exactly the handlers registered for its method (or for all methods) with a matching path plus all middlewares, in global registration order, stopping after the first one that returns Flow::Stop.", "quantifier": "all registration histories (with any number of mounted routers), all requests, all handler behaviours", "why_tests_cant": "order across separately stored tables is only correct if indices are right for every history and every hash order", "anchors": ["src/router.rs: Router::run, append, Route for Router, inject_method!", "src/server.rs: Route for Octane"]}
{"id": "C12", "title": "Mounting a router equals registering its routes there", "statement": "app.with_router(r) has the same effect on every request as performing r's registrations on app at that point, in r's order: after everything already registered and before everything registered later.", "quantifier": "all apps, all routers, all later registrations and requests", "why_tests_cant": "index shifting must be right for all counter values and nesting depths", "anchors": ["src/router.rs: Router::append", "src/server.rs: Octane::with_router"]}
{"id": "C13", "title": "A rejected registration is a no-op", "statement": "If registering a route fails with InvalidPathError, every later request is served exactly as if the call had not been made.", "quantifier": "all routers, all invalid paths, all later requests", "why_tests_cant": "effect must be compared on every possible future request", "anchors": ["src/router.rs: inject_method!", "src/path.rs: PathBuf::parse"]}
{"id": "C14", "title": "Each handler sees the variables of its own route", "statement": "Every invoked route handler receives the variable map obtained by matching its own pattern against the request path, and every middleware receives an empty map, whatever ran before.", "quantifier": "all routers, all requests", "why_tests_cant": "the variables are written into a shared mutable request object between calls, so leaks depend on the sequence of handlers", "anchors": ["src/router.rs: Router::run (matched.vars)", "src/path.rs: PathNode::get"]}
{"id": "C15", "title": "Method isolation", "statement": "A handler registered for one method is never invoked for a request with another method; add_route handlers are invoked for every method.", "quantifier": "all routers, all pairs of methods", "why_tests_cant": "quantifies over all routers and requests", "anchors": ["src/router.rs: Router::run, Route for Router"]}
{"id": "C16", "title": "Flow::Stop cuts the chain", "statement": "Once a handler returns Stop, no later handler can influence the response; if every matching handler returns Next, all of them run.", "quantifier": "all routers, requests and handler behaviours", "why_tests_cant": "must hold for arbitrary handler behaviour", "anchors": ["src/router.rs: Router::run, Flow::should_continue"]}
{"id": "C17", "title": "Dispatch never panics by itself", "statement": "With fewer than usize::MAX registrations, dispatch performs no out-of-bounds access or failed unwrap; a panic can only come out of a user handler.", "quantifier": "all routers below the counter bound, all requests", "why_tests_cant": "index arithmetic over unbounded histories", "anchors": ["src/router.rs: Router::run", "src/path.rs: PathNode::get"]}
{"id": "C18", "title": "Request head is independent of network segmentation", "statement": "How the TCP stream is cut into reads never changes the parsed request line, the header block, the accept/reject decision, or the sequence of bytes that follow the head.", "quantifier": "all byte streams and all segmentations into non-empty reads", "why_tests_cant": "the number of segmentations is exponential; boundary bugs show only for particular cuts", "anchors": ["octane_http/src/http1x/mod.rs: Http1xReader::new, find_in_slice, parse_without_body"]}
{"id": "C19", "title": "Request body is exactly Content-Length bytes under every segmentation", "statement": "The body handed to handlers is exactly the first Content-Length bytes after the head, independent of how the stream was segmented. (Refuted: if more bytes than Content-Length arrived with the head, the whole remainder becomes the body; so the body depends on segmentation. Proved when the stream carries exactly the announced bytes.)", "quantifier": "all streams, all segmentations", "why_tests_cant": "depends on read schedule; tests on localhost almost always see one segmentation", "anchors": ["src/request.rs: Request::from_raw"]}
{"id": "C20", "title": "Truncated heads are answered with 400 and never reach handlers", "statement": "If the client closes the connection before sending a complete head, the server answers 400 Bad Request and runs no handler, wherever the cut happens.", "quantifier": "every truncation point of every stream, every segmentation", "why_tests_cant": "crash-point quantification", "anchors": ["octane_http/src/http1x/mod.rs: Http1xReader::new", "src/server.rs: Octane::serve"]}
{"id": "C21", "title": "Header block round-trip", "statement": "Serialising any list of valid name/value pairs as 'name: value' lines joined by CRLF and parsing it yields raw headers equal to that list, in order.", "quantifier": "all lists of headers with token names and CR/LF/control-free values not starting with space or tab", "why_tests_cant": "infinite set of header lists", "anchors": ["src/request.rs: Headers::parse, Header::parse", "src/util.rs: Spliterator"]}
{"id": "C22", "title": "Header lookup is case-insensitive and folds repeats in order", "statement": "Looking up a lower-case name returns the values of all headers whose name equals it ignoring ASCII case, in order of appearance, joined with ', '; it is absent exactly when no such header occurs.", "quantifier": "all header blocks and all names", "why_tests_cant": "folding law over arbitrary lists", "anchors": ["src/request.rs: Headers::parse"]}
{"id": "C23", "title": "Header validation", "statement": "A header line is accepted exactly when it contains ':' , the part before the first ':' is non-empty and (in faithful mode) consists of token characters, and (in faithful mode) the value after stripping leading spaces/tabs has no rejected control character; a header block is accepted exactly when every CRLF-separated line is.", "quantifier": "all header lines and blocks, both feature settings", "why_tests_cant": "full accept/reject characterisation", "anchors": ["src/request.rs: Header::parse, Headers::parse", "src/constants.rs: TOKEN_CHARS"]}
{"id": "C24", "title": "No control characters in accepted header values", "statement": "In faithful mode no accepted header value contains a control character (0x00-0x1F or 0x7F). (Refuted: 0x1F is accepted, because the test is c < 0x1F.)", "quantifier": "all header lines", "why_tests_cant": "an off-by-one at a single code point", "anchors": ["src/path.rs: is_ctl", "src/request.rs: Header::parse"]}
{"id": "C25", "title": "Request line parsing", "statement": "In faithful mode 'M SP P SP V' is accepted exactly when there are exactly three space-separated fields, P is a resolvable path and V starts with 'HTTP/'; the method is the exact upper-case keyword or the 'unknown' method, the version is one of the four known numbers or 'invalid'.", "quantifier": "all strings", "why_tests_cant": "full characterisation including the panic cases", "anchors": ["src/request.rs: RequestLine::parse"]}
{"id": "C26", "title": "HTTP version names round-trip", "statement": "Printing a version recognised in a request line gives the version number the client sent. (Refuted for 2.0, which prints as 0.2.)", "quantifier": "all recognised versions", "why_tests_cant": "finite, but the failing entry is not covered by any test", "anchors": ["octane_http/src/lib.rs: ToString for HttpVersion", "src/request.rs: RequestLine::parse"]}
{"id": "C27", "title": "Malformed input never kills the connection without an answer", "statement": "Every byte stream a client can send is answered with an HTTP response. (Refuted: traversal paths, short versions, malformed headers or request lines, truncated bodies and cookies without '=' panic the task and close the connection silently. The exact set of panicking inputs is proved.)", "quantifier": "all client streams and segmentations", "why_tests_cant": "the panicking set is an infinite, thin set of inputs", "anchors": ["src/server.rs: Octane::serve", "src/request.rs: RequestLine::parse, Request::from_raw", "src/cookie.rs: Cookie::parse"]}
{"id": "C28", "title": "Keep-Alive header parsing", "statement": "timeout (resp. max) is the value of the last comma-separated 'timeout=n' (resp. 'max=n') item whose value is a valid u64, ignoring surrounding white space and all other items; absent if there is none.", "quantifier": "all header values", "why_tests_cant": "arbitrary lists of items, overflow boundary at 2^64", "anchors": ["src/request.rs: KeepAlive::parse"]}
{"id": "C29", "title": "HTTP/1.1 requests need a Host header", "statement": "A request is rejected as malformed exactly when its version is 1.1 and it has no Host header (in any letter case); the rejection code is 400.", "quantifier": "all requests", "why_tests_cant": "all combinations of versions and headers", "anchors": ["src/http/mod.rs: Http::validate", "src/http/http11.rs: http11_check", "src/http/http10.rs: http10_check"]}
{"id": "C30", "title": "Keep-alive decision", "statement": "The connection-persistence decision depends only on version, Connection and Keep-Alive headers: 1.1 with 'keep-alive' is user-defined, 1.0 with 'keep-alive' and a Keep-Alive header uses its timeout (0 if absent), everything else closes.", "quantifier": "all requests", "why_tests_cant": "complete decision table over unbounded header values", "anchors": ["src/http/mod.rs: Http::validate, keep_alive", "src/http/http10.rs", "src/http/http11.rs"]}
{"id": "C31", "title": "Percent-decoding inverts percent-encoding of ASCII text", "statement": "For every ASCII string and every choice of which characters to escape (with '%' always escaped) and of hex-digit case, decoding the escaped form returns the string; strings without '%' are unchanged; a '%' not followed by two hex digits is kept literally.", "quantifier": "all strings, all escape choices", "why_tests_cant": "round-trip with look-ahead state; malformed escapes at every position", "anchors": ["src/query.rs: unescape_hex, from_hex"]}
{"id": "C32", "title": "Percent-decoding of UTF-8 text", "statement": "Decoding the percent-encoded UTF-8 bytes of a string returns that string. (Refuted for every non-ASCII character: bytes are widened to Latin-1 characters one by one.)", "quantifier": "all Unicode strings", "why_tests_cant": "tests use ASCII only", "anchors": ["src/query.rs: unescape_hex"]}
{"id": "C33", "title": "Two-element look-ahead is transparent", "statement": "Interleaving any number of peeks (and peek resets) with next() never loses, duplicates or reorders items: next() yields the underlying items in order, and a peek sequence started by a reset shows the next items without consuming them. (The part about next() is proved for every interleaving; the part about peeks is refuted when two items are already buffered: the second peek after a reset then returns None. It is proved when at most one item is buffered, which is the case in the library's own use.)", "quantifier": "all item sequences and all operation sequences", "why_tests_cant": "stateful cache, arbitrary histories", "anchors": ["src/query.rs: DoublePeek::peek, DoublePeek::next"]}
{"id": "C34", "title": "Query parsing keeps the last value of each key", "statement": "For every query string, looking up a key returns the decoded value of the last '&'-separated item whose decoded name is that key (empty value if the item has no '='), and in faithful mode empty items and items with an empty raw name are ignored; no other keys occur.", "quantifier": "all query strings and keys", "why_tests_cant": "arbitrary item lists", "anchors": ["src/query.rs: parse_query"]}
{"id": "C35", "title": "get_query returns the URL's query parameters", "statement": "For a request to '/path?k=v', get_query() maps k to v. (Refuted: the path is never split at '?', so the first key carries the path and '?', and the last value ends in '/'.)", "quantifier": "all request targets with a query", "why_tests_cant": "no test exercises get_query on a parsed request", "anchors": ["src/request.rs: Request::get_query, RequestLine::parse", "src/query.rs: parse_query"]}
{"id": "C36", "title": "Query strings do not influence routing", "statement": "A request to '/p?q' is routed like a request to '/p'. (Refuted: the query is part of the last segment.)", "quantifier": "all targets", "why_tests_cant": "no test sends a query string", "anchors": ["src/request.rs: RequestLine::parse", "src/path.rs: PathNode::get"]}
{"id": "C37", "title": "Extended query precedence", "statement": "For each key, if any plain assignment occurs the result is the string of the last one; otherwise the first of 'k[]=' / 'k[x]=' decides between array and object, and the array contains all 'k[]' values in order (resp. the object maps each x to its last value).", "quantifier": "all query strings and keys", "why_tests_cant": "order-dependent merging over arbitrary item lists", "anchors": ["src/query.rs: parse_extended_query, QueryValue"]}
{"id": "C38", "title": "Request cookies", "statement": "The cookies of a request are the '; '-separated items of its (folded) Cookie header, parsed one by one, in order; none if there is no Cookie header.", "quantifier": "all Cookie headers", "why_tests_cant": "arbitrary number of items", "anchors": ["src/cookie.rs: Cookie::parse", "src/request.rs: Request::parse"]}
{"id": "C39", "title": "Responses with cookies are well-formed", "statement": "The head of every response is terminated by an empty line before the body. (Refuted as soon as one cookie is set: the last Set-Cookie line is followed by a single CRLF, so the body is read as header text. Proved for responses without cookies.)", "quantifier": "all responses", "why_tests_cant": "no test serialises a response with a cookie", "anchors": ["src/responder.rs: Response::headers, get_data", "src/cookie.rs: Cookie::serialise"]}
{"id": "C40", "title": "Response wire round-trip", "statement": "For every response without cookies whose header names/values contain no CR or LF and whose names contain no ':', a client that splits the bytes at CRLF recovers the status code, version, exactly the set of headers, and the body, under every hash iteration order.", "quantifier": "all responses, all hash orders", "why_tests_cant": "serialisation order is random", "anchors": ["src/responder.rs: Response::get_data, status_line, headers"]}
{"id": "C41", "title": "No header injection through response setters", "statement": "A header value supplied by the application (or taken from the client by it) cannot create additional header lines or start the body. (Refuted for set, redirect, with_type and the text of a status of one's own, for every response; proved for charset and attachment file names, which are quoted.)", "quantifier": "all header values", "why_tests_cant": "needs adversarial values", "anchors": ["src/responder.rs: Response::set, redirect, attachment_with_filename, charset"]}
{"id": "C42", "title": "send() announces the exact body length", "statement": "If send(b) is the last body-setting call, and no later call overrides Content-Length, then the transmitted body is b and Content-Length is the decimal length of b, whatever was called before and after.", "quantifier": "all bodies, all sequences of setter calls before and after", "why_tests_cant": "arbitrary call histories", "anchors": ["src/responder.rs: Response::send, default_headers, get_data"]}
{"id": "C43", "title": "Content-Length never contradicts the body", "statement": "If the application never sets Content-Length itself, a transmitted Content-Length always equals the length of the transmitted body. (Refuted: send followed by send_file leaves the old length.)", "quantifier": "all call histories", "why_tests_cant": "depends on call order", "anchors": ["src/responder.rs: Response::send, send_file"]}
{"id": "C44", "title": "send_file transmits the file", "statement": "After a successful send_file the transmitted body is the content of the file. (Refuted: the reader never marks bytes as filled, so an empty body is transmitted for every file.)", "quantifier": "all file contents, all read schedules", "why_tests_cant": "tests never read the body of a file response", "anchors": ["src/util.rs: AsyncReader::poll_read", "src/responder.rs: send_file", "src/server.rs: Octane::send"]}
{"id": "C45", "title": "Response headers behave like a map", "statement": "After any sequence of set calls, get(k) returns the last value set for k, other headers are unchanged, and each name is transmitted at most once.", "quantifier": "all call histories", "why_tests_cant": "arbitrary histories", "anchors": ["src/responder.rs: Response::set, get"]}
{"id": "C46", "title": "Content-Type defaulting", "statement": "send() keeps a Content-Type chosen before by the application; otherwise it sets text/html, with the charset appended when one was set.", "quantifier": "all call histories", "why_tests_cant": "arbitrary histories", "anchors": ["src/responder.rs: Response::default_headers, with_type, charset"]}
{"id": "C47", "title": "Status codes", "statement": "Each named status code has a unique number and a unique identifier; the status line is 'HTTP/<version> <number> <REASON>' with the reason in upper case; parsing the number back identifies the code.", "quantifier": "all status codes including user-defined ones", "why_tests_cant": "table-wide injectivity", "anchors": ["octane_http/src/lib.rs: status_codes!", "octane_macros/src/status.rs", "octane_macros/src/util.rs: pascal_case", "src/responder.rs: status_line"]}
{"id": "C48", "title": "The Date header is the correct Gregorian date and weekday", "statement": "For every time stamp the year/month/day/hour/minute/second computed is the unique valid proleptic Gregorian date-time whose distance from 1970-01-01 is that many seconds, and the weekday is the right one.", "quantifier": "all time stamps (all of i64 where the subtraction does not overflow)", "why_tests_cant": "leap-year corner cases at 4/100/400-year boundaries over billions of years", "anchors": ["src/time.rs: Time::time", "src/constants.rs: LEAPOCH, DAYS_PER_400Y, DAYS_PER_100Y, DAYS_PER_4Y, DAYS_IN_MONTH"]}
{"id": "C49", "title": "The Date header has the HTTP date format", "statement": "The formatted date is a 29-character IMF-fixdate 'Www, DD Mon YYYY HH:MM:SS GMT' for all years 1970-9999. (Refuted in September: 'Sept'; proved for the other eleven months.)", "quantifier": "all time stamps from 1970 to 9999", "why_tests_cant": "tests sample three dates, none in September", "anchors": ["src/time.rs: Time::format, week_day, month_day, pad_zero", "src/constants.rs: WEEKS, MONTHS"]}
{"id": "C50", "title": "Date arithmetic cannot overflow or go out of bounds", "statement": "For every time stamp between the epoch and i64::MAX no intermediate value leaves the i64 range and the month loop stays inside its table.", "quantifier": "all non-negative i64 time stamps", "why_tests_cant": "extreme values", "anchors": ["src/time.rs: Time::time"]}
{"id": "C51", "title": "MIME types depend only on the case-folded extension", "statement": "The MIME type is the same for every letter case of the extension, and text/plain for any extension not in the table or absent.", "quantifier": "all extensions", "why_tests_cant": "infinite set of extensions", "anchors": ["src/file_handler.rs: FileHandler::mime_type, get_extension"]}
{"id": "C52", "title": "MIME types are well-formed", "statement": "Every MIME type produced has a registered top-level type (text, application, image, audio, video, font). (Refuted: 'bin' gives 'applcation/octet-stream'; proved for all other extensions.)", "quantifier": "all extensions", "why_tests_cant": "a typo in one of 70 entries", "anchors": ["src/file_handler.rs: FileHandler::mime_type"]}
{"id": "C53", "title": "Configuration is replaced, last call wins", "statement": "After with_config(c) the server uses c's key, certificate, TLS port and keep-alive time, whatever was configured before; later setters override it. Assigning to the public fields (settings, keep_alive, ssl and its parts) counts like a call; app.settings = c replaces everything.", "quantifier": "all configuration call histories", "why_tests_cant": "arbitrary histories", "anchors": ["src/config.rs: OctaneConfig::append, Config for OctaneConfig", "src/server.rs: Config for Octane, with_config"]}
{"id": "C54", "title": "No configured value is silently dropped", "statement": "with_config(c) carries over every setting in c, and with_ssl_config(s) every setting in s. (Refuted: worker_threads and the TLS port are dropped.)", "quantifier": "all configurations", "why_tests_cant": "field-by-field completeness", "anchors": ["src/config.rs: OctaneConfig::append, with_ssl_config, worker_threads", "src/server.rs: Config for Octane"]}
{"id": "C55", "title": "Exactly one response with the right status per connection", "statement": "A served connection writes either nothing (panic) or exactly one response: 400 for an incomplete or non-UTF-8/header-less head or a 1.1 request without Host, 501 for an unknown method, 404 when no handler produced a body, and the handlers' response otherwise.", "quantifier": "all streams, segmentations, applications", "why_tests_cant": "complete decision over all inputs", "anchors": ["src/server.rs: Octane::serve", "src/error.rs: Error::send, declare_error!"]}
{"id": "C56", "title": "End-to-end delivery", "statement": "For every application and every well-formed request, serialised and cut into arbitrary TCP segments, the handlers selected by the routing specification are run, in order, on exactly that method, path, headers and body, and the bytes written are the serialisation of the response they produced.", "quantifier": "all applications, requests and segmentations", "why_tests_cant": "composition of every layer", "anchors": ["src/server.rs: Octane::serve"]}
{"id": "C57", "title": "Connections do not interfere", "statement": "Under every interleaving of the events of any number of connections, each connection receives the bytes it would receive alone, provided handlers share no state.", "quantifier": "all interleavings, any number of connections", "why_tests_cant": "schedules", "anchors": ["src/server_builder.rs: ServerBuilder::listen", "src/server.rs: Octane::serve"]}
{"id": "C58", "title": "The server keeps accepting", "statement": "A failed accept does not stop the server from accepting later connections. (Refuted: the first accept error ends the accept loop.)", "quantifier": "all sequences of accept results", "why_tests_cant": "needs OS-level failures", "anchors": ["src/server_builder.rs: ServerBuilder::listen, listen_ssl"]}
{"id": "C59", "title": "The listen callback runs when the server is listening", "statement": "The callback passed to listen is invoked exactly once, and only after the port has been bound. (Refuted: it runs before the socket is bound, even if binding fails.)", "quantifier": "all outcomes of the socket calls", "why_tests_cant": "needs failure injection", "anchors": ["src/server.rs: Octane::listen", "src/server_builder.rs: ServerBuilder::new"]}
{"id": "C60", "title": "HEAD responses carry no body", "statement": "The response to a HEAD request has no body bytes. (Refuted: it is served like GET.)", "quantifier": "all applications", "why_tests_cant": "tests do not look at raw bytes", "anchors": ["src/server.rs: Octane::serve"]}
{"id": "C61", "title": "Derived JSON conversion uses the declared fields", "statement": "The derive macros convert exactly the declared fields. (Proved for private fields whose types have no top-level comma; refuted for 'pub' fields and for types with a top-level comma such as Map<K, V>.)", "quantifier": "all struct bodies", "why_tests_cant": "token streams of arbitrary length", "anchors": ["octane_macros/src/json.rs: handle_derive, fromjson_braces, tojson_braces, fromjson_parens, tojson_parens"]}
{"id": "C62", "title": "Derived JSON conversion round-trips", "statement": "from_json(to_json(s)) = Some(s) for derived structs whose field types round-trip; objects with missing or extra members are rejected.", "quantifier": "all structs, all values", "why_tests_cant": "universal over field lists and values", "anchors": ["octane_macros/src/json.rs: fromjson_braces, tojson_braces, fromjson_parens, tojson_parens"]}
{"id": "C63", "title": "The main attribute preserves the function", "statement": "The attribute keeps all signature tokens except async, in order, takes the first brace group as the body, and reports an error exactly when async is missing.", "quantifier": "all token streams", "why_tests_cant": "arbitrary token streams", "anchors": ["octane_macros/src/stream_parser.rs: StreamParser::parse", "octane_macros/src/lib.rs: main"]}
{"id": "C64", "title": "Request heads are bounded", "statement": "There is a bound on the number of head bytes the server buffers for one connection. (Refuted: it buffers without limit.)", "quantifier": "all streams", "why_tests_cant": "no finite test shows unboundedness", "anchors": ["octane_http/src/http1x/mod.rs: Http1xReader::new"]}
{"id": "C65", "title": "Sequence splitting is lossless", "statement": "Splitting a byte string at a non-empty separator yields pieces that contain no separator and whose join is the original string; there is exactly one such split for CRLF; iteration terminates and stays exhausted.", "quantifier": "all strings and separators", "why_tests_cant": "infinite inputs; termination", "anchors": ["src/util.rs: Spliterator", "octane_http/src/http1x/mod.rs: find_in_slice"]}
{"id": "C66", "title": "Invariants of shared application state survive concurrency", "statement": "If every handler, run on its own, preserves an invariant of the state handlers share (also when it panics), then the invariant holds after every interleaving of any number of connections, including malformed, broken and truncated ones.", "quantifier": "all invariants, handlers, applications, interleavings", "why_tests_cant": "all schedules and all byte streams", "anchors": ["src/server.rs: Octane::serve", "src/server_builder.rs: ServerBuilder::listen"]}
{"id": "C67", "title": "Derived impls are for the declared type", "statement": "For every struct declaration the derive macros accept, the generated impl is for the declared name with its declared type parameters, repeats the parameters' bounds and the where clause, and adds one bound per type parameter; everything that is not a struct is rejected with a compile error. (Proved for type parameters with balanced bounds and simple where clauses; refuted for lifetimes, const parameters, commas or arrows in where clauses, tuple-struct where clauses; unit structs panic.)", "quantifier": "all declarations (token streams)", "why_tests_cant": "unbounded token streams, nesting of angle brackets", "anchors": ["octane_macros/src/json.rs: handle_derive", "octane_macros/src/json.rs: fromjson_braces, tojson_braces"]}
{"id": "C68", "title": "A response is what the last calls made it", "statement": "For every sequence of calls on a response, each part of the resulting response (status, version, charset, body and its length, each header, date, content type) has the value given by the last call that gives it one and is otherwise as before, cookies are appended in order, and the Content-Length header is the decimal length of the body at the last filling-in; the sequence panics exactly if headers are filled in while the clock is before the epoch or a regular file without a file name is sent; filling in default headers is idempotent.", "quantifier": "all call sequences, arguments, file systems, clocks, initial responses", "why_tests_cant": "unbounded call sequences with interacting calls", "anchors": ["src/responder.rs: Response::set, send, default_headers, with_type, send_file, status, http_version, attachment, attachment_with_filename, redirect, cookie, charset"]}
{"id": "C69", "title": "send_file succeeds exactly for regular files and fails cleanly", "statement": "send_file returns Ok exactly when the path can be opened and is a regular file; then body, content length and content type are the file's and nothing else changes; when it returns Err the response is unchanged.", "quantifier": "all paths, file systems, responses", "why_tests_cant": "all file-system states and prior responses", "anchors": ["src/responder.rs: Response::send_file", "src/file_handler.rs: FileHandler::handle_file"]}
{"id": "C70", "title": "Cookies are sent in order, one Set-Cookie line each", "statement": "With the cookies feature, the head of a response with cookies consists of the status line, one line per header and then one Set-Cookie line per cookie in the order in which they were set, with no line lost, duplicated or merged (header values and cookies free of line breaks).", "quantifier": "all responses, cookies, header orders", "why_tests_cant": "unbounded numbers of headers and cookies, all hash orders", "anchors": ["src/responder.rs: Response::headers", "src/cookie.rs: Cookie::serialise"]}
{"id": "C71", "title": "Interleaved execution has one consistent explanation", "statement": "However the runtime interleaves the handler calls of requests on any number of connections (a task may be suspended between any two handler calls, while reading, and while writing), there is one sequential history of handler calls on the shared state such that, for each connection, its calls in that history are exactly the calls the routing specification requires for its own request, in order, up to the first that stops, each on the response left by its predecessor, and the connection is reading, working, answering or crashed exactly as those calls imply. A task that is not interrupted behaves as the sequential server does.", "quantifier": "all applications, handlers, numbers of connections, schedules, byte streams and segmentations", "why_tests_cant": "unbounded schedules and streams; races are not reproducible", "anchors": ["src/server.rs: Octane::serve", "src/router.rs: Router::run", "src/server_builder.rs: ServerBuilder::listen"]}
{"id": "C72", "title": "Request processing always terminates", "statement": "Once a request has been read, it is answered (or its task panics) after at most one handler step per registered handler plus one, whatever other connections do and whatever the handlers decide; handlers cannot make the dispatch loop run forever.", "quantifier": "all applications, handlers, schedules", "why_tests_cant": "liveness over all schedules and handler decisions", "anchors": ["src/router.rs: Router::run", "src/server.rs: Octane::serve"]}
{"id": "C73", "title": "Composed answers are delivered completely", "statement": "Once an answer is composed, as long as writes to the connection do not fail and the peer takes enough bytes, exactly the bytes of the answer are delivered, in order, whatever pieces the socket accepts and whatever other connections do; after a write error exactly a prefix has been delivered.", "quantifier": "all answers, split points of writes, schedules", "why_tests_cant": "arbitrary partial writes and interleavings", "anchors": ["src/server.rs: Octane::serve", "src/responder.rs: Response::get_data"]}
{"id": "C74", "title": "Handlers of one request are not interrupted by other requests", "statement": "The handlers run for one request see shared state as left by the previous handler of the same request, so values may be passed between them through shared state. (Refuted: the runtime may run handlers of another request in between; a request may then be answered with the data of another request. Such values have to be passed in the response or request.)", "quantifier": "all applications, schedules", "why_tests_cant": "needs a particular interleaving", "anchors": ["src/router.rs: Router::run", "src/server_builder.rs: ServerBuilder::listen"]}
{"id": "C75", "title": "HTTPS cannot disturb HTTP", "statement": "A server compiled with TLS does for its plain connections exactly what it would do without TLS: whatever the TLS configuration, TLS accept errors, handshakes and TLS connections do, the plain listener is in the same state, accepts the same connections and (if handlers do not change shared state) gives each of them the same bytes.", "quantifier": "all TLS library behaviours, configurations, event sequences, applications", "why_tests_cant": "needs arbitrary schedules of both listeners and misbehaving TLS peers", "anchors": ["src/server.rs: Octane::listen", "src/server_builder.rs: listen_ssl"]}
{"id": "C76", "title": "Only accept errors end a listener", "statement": "A started listener goes on accepting until accept itself fails; connections, panicking tasks, failing handshakes and the other listener cannot stop it. Exactly the connections offered before that are taken on, and everything that happens on them reaches their tasks.", "quantifier": "all event sequences, applications", "why_tests_cant": "needs arbitrary event orders", "anchors": ["src/server_builder.rs: ServerBuilder::listen, listen_ssl"]}
{"id": "C77", "title": "No TLS peer is served before its handshake succeeded", "statement": "Nothing arriving on a TLS connection has an effect before its handshake succeeded, and a peer whose handshake fails leaves listeners, other connections and shared state as if it had said nothing.", "quantifier": "all event sequences, applications", "why_tests_cant": "security property over all schedules", "anchors": ["src/server_builder.rs: listen_ssl", "src/tls/openssl.rs", "src/tls/rustls.rs"]}
{"id": "C78", "title": "Unusable TLS configuration is reported as an error", "statement": "If the TLS listener cannot be set up (socket, key or certificate unusable) the listen call reports an error instead of panicking; otherwise it accepts, with the configured key and certificates. (Refuted: with rustls, a readable key file without an RSA key - for example PKCS#8 - panics.)", "quantifier": "all configurations, files and TLS library behaviours", "why_tests_cant": "depends on all possible file contents and library answers", "anchors": ["src/tls/rustls.rs: acceptor", "src/tls/openssl.rs: acceptor", "src/config.rs: get_cert, get_key"]}
{"id": "C79", "title": "Chunked request bodies are received", "statement": "A request with Transfer-Encoding: chunked delivers the decoded chunk data to the handlers. (Refuted: the coding is not looked at; without a usable Content-Length the body is always empty.)", "quantifier": "all requests, chunkings and segmentations", "why_tests_cant": "unbounded space of chunkings; unit tests of the parser never see a connection", "anchors": ["src/request.rs: Request::parse, Request::from_raw", "src/server.rs: Octane::serve"]}
{"id": "C80", "title": "Malformed or contradictory Content-Length is rejected", "statement": "A request whose Content-Length is repeated or not a number is answered with an error, as RFC 7230 3.3.3 demands. (Refuted: exactly the requests with one number that fits are given a body; all others are accepted with an empty body.)", "quantifier": "all header lists", "why_tests_cant": "needs an exact characterisation of which headers count, for all strings", "anchors": ["src/request.rs: Request::from_raw", "src/request.rs: Headers::parse"]}
{"id": "C81", "title": "Pipelined requests are answered", "statement": "Each request sent on a connection is answered. (Refuted: whatever follows a request without body is ignored.)", "quantifier": "all streams, segmentations, applications", "why_tests_cant": "quantifies over all continuations of a stream", "anchors": ["src/server.rs: Octane::serve", "src/request.rs: Request::from_raw"]}
{"id": "C82", "title": "Packetisation never changes the answer", "statement": "The answer and the effect on the application depend only on the bytes sent, not on how the network cuts them. (Refuted for streams with more bytes than announced; proved for all others.)", "quantifier": "all pairs of segmentations of all streams, all applications", "why_tests_cant": "exponentially many segmentations of unboundedly many streams", "anchors": ["src/server.rs: Octane::serve", "octane_http/src/http1x/mod.rs", "src/request.rs: Request::from_raw"]}
{"id": "C83", "title": "Equivalent spellings are answered identically", "statement": "Two requests that mean the same - targets that resolve to the same path, header names in different case, different white space after the colon - are answered identically and reach the handlers with the same line, headers, cookies and body.", "quantifier": "all requests, spellings, segmentations, applications", "why_tests_cant": "relates pairs of unboundedly many inputs through the whole server", "anchors": ["src/request.rs: RequestLine::parse, Headers::parse", "src/path.rs: PathBuf::parse", "src/router.rs: run"]}
{"id": "C84", "title": "Absolute-form targets are routed by their path", "statement": "A request for http://host/path is routed like one for /path, as RFC 7230 5.3.2 demands. (Refuted: scheme and host become path segments.)", "quantifier": "all hosts and paths", "why_tests_cant": "all targets", "anchors": ["src/request.rs: RequestLine::parse", "src/path.rs: PathBuf::parse"]}
{"id": "C85", "title": "Percent-encoded paths are decoded for routing", "statement": "A path and its percent-encoded form select the same routes. (Refuted: segments are taken verbatim; proved: every segment of the path is a segment of the target as sent.)", "quantifier": "all targets", "why_tests_cant": "all targets and encodings", "anchors": ["src/path.rs: PathBuf::parse", "src/request.rs: RequestLine::parse"]}
{"id": "C86", "title": "204 and 304 responses carry no body", "statement": "A response with status 204 or 304 is sent without body. (Refuted: no status keeps the body from being sent.)", "quantifier": "all responses and statuses", "why_tests_cant": "all responses", "anchors": ["src/responder.rs: get_data", "src/server.rs: send"]}
{"id": "C87", "title": "Response header names are unique regardless of case", "statement": "No response has two header lines whose names differ in case only. (Refuted: setting content-type yields two content types; proved if each name is spelt one way.)", "quantifier": "all call sequences", "why_tests_cant": "all sequences of calls", "anchors": ["src/responder.rs: set, default_headers"]}
{"id": "C88", "title": "The address can be reused after a restart", "statement": "SO_REUSEADDR is set before the address is bound, so that it has an effect. (Refuted: it is always set after.)", "quantifier": "all outcomes of system calls", "why_tests_cant": "depends on kernel state at restart", "anchors": ["src/server_builder.rs: ServerBuilder::new"]}
{"id": "C89", "title": "Closing the connection is announced", "statement": "As the server closes each connection after one response, its HTTP/1.1 responses say Connection: close. (Refuted: no response does unless the application sets the header.)", "quantifier": "all call sequences", "why_tests_cant": "all responses", "anchors": ["src/responder.rs: default_headers", "src/server.rs: Octane::serve"]}
{"id": "C90", "title": "route_next! continues and route_stop! stops", "statement": "A handler written with route_next! lets the next matching handler run and one written with route_stop! ends the chain, whatever its body does; so a chain of them runs the bodies in registration order up to and including the first route_stop!. (Holds for bodies without a return of their own; refuted otherwise: a return in the body returns from the generated closure and decides instead.)", "quantifier": "all bodies, registrations, requests, hash orders", "why_tests_cant": "arbitrary handler bodies", "anchors": ["src/router.rs: route!, route_next!, route_stop!"]}
{"id": "C91", "title": "path! gives an existing path under the manifest directory", "statement": "path!(lit) compiles only if the path exists, and then means concat!(env!(\"CARGO_MANIFEST_DIR\"), lit). (The first half holds always. The second holds for literals without escapes when the compiler runs in the manifest directory; refuted otherwise.)", "quantifier": "all token inputs, working directories, file systems", "why_tests_cant": "depends on where the compiler is started and on the file system", "anchors": ["octane_macros/src/lib.rs: path"]}
{"id": "C92", "title": "Unset settings have the documented defaults", "statement": "A setting that no configuration call assigns has its documented default: keep-alive of 5 seconds, TLS port 443, empty key and certificate paths, no number of worker threads.", "quantifier": "all configuration call histories", "why_tests_cant": "arbitrary histories", "anchors": ["src/config.rs: OctaneConfig::new, Ssl::new"]}
{"id": "C93", "title": "Starting succeeds completely or reports failure", "statement": "listen(port) goes through all its steps (callback, socket, bind to that port, listen, accept) exactly if every system call succeeds; otherwise it stops before accepting and returns an error. The TLS task does the same on the configured TLS port. A started server has no connections and has not touched the application's state.", "quantifier": "all outcomes of system calls, TLS set-ups", "why_tests_cant": "needs failure injection", "anchors": ["src/server.rs: Octane::listen", "src/server_builder.rs: ServerBuilder::new"]}
{"id": "C94", "title": "The error of a failed send_file says what is wrong", "statement": "If send_file fails, the response is untouched and the error's text depends only on what was wrong: every failure to open the path (missing or not permitted alike) reads 'File Handling error, File not found', a path that opens but is no regular file reads 'File Handling error, Not a file', and failing metadata hands on the operating system's own text. A regular file gives no error.", "quantifier": "all file systems, paths, responses", "why_tests_cant": "needs file systems that fail at each step", "anchors": ["src/file_handler.rs: FileHandler::handle_file", "src/file_handler.rs: FileHandlerError", "src/responder.rs: send_file"]}
{"id": "C95", "title": "The main attribute sizes the thread pool for the machine", "statement": "The runtime made by #[octane::main] has twice as many worker threads as there are CPUs available to the program. (Refuted: the number is twice the CPUs of the machine that compiled it.)", "quantifier": "all functions, numbers of CPUs at compile time and at run time", "why_tests_cant": "a test is compiled and run on the same machine", "anchors": ["octane_macros/src/lib.rs: main"]}
{"id": "C96", "title": "The attributes give the runtime of tokio's attributes", "statement": "#[octane::main] and #[octane::test] are just like #[tokio::main] and #[tokio::test]: the body runs on a multi-threaded (single-threaded) runtime with sockets and timers switched on. (Refuted for timers: only enable_io is called, so tokio::time panics.)", "quantifier": "all functions", "why_tests_cant": "a property of the generated code for every function", "anchors": ["octane_macros/src/lib.rs: main", "octane_macros/src/lib.rs: test"]}
{"id": "C97", "title": "Unrelated registrations have no influence", "statement": "What a connection gets (answer and change of application state) depends only on the registrations that apply to its request, in their order. Adding, removing or swapping other registrations, directly or on mounted routers, changes nothing.", "quantifier": "all applications, requests, segmentations, handlers, hash orders", "why_tests_cant": "the routes share one tree and one index; an interference needs a particular pair of routes among unboundedly many", "anchors": ["src/router.rs: Router::run", "src/path.rs: PathNode::get", "src/server.rs: Octane::serve"]}
{"id": "C98", "title": "Hash order shows at most in the order of header lines", "statement": "The random iteration order of hash maps, both when routers are merged and when headers are written, never changes which handlers run, the state, the first line, the set of header lines, the cookies or the body; only header lines may come in another order.", "quantifier": "all applications, requests, event sequences on any number of connections, and pairs of hash orders", "why_tests_cant": "the order is random per map and per process; a test sees one", "anchors": ["src/router.rs: Router::append", "src/path.rs: PathNode::extend", "src/responder.rs: Response::headers"]}
{"id": "C99", "title": "Route variables are safe path segments", "statement": "Every URL variable a handler sees is one whole segment of the request path: not empty, not a dot or two dots, and without a slash. Appending it to a directory therefore names an entry of that directory.", "quantifier": "all applications, targets, patterns, handlers", "why_tests_cant": "the attacker chooses the target; the claim is about all targets", "anchors": ["src/path.rs: PathBuf::parse", "src/path.rs: PathBuf::check_matches", "src/request.rs: MatchedRequest"]}
{"id": "C100", "title": "Keep-alive and worker settings take effect", "statement": "The configured keep-alive duration and number of worker threads change how the server runs. (Refuted: nothing but the TLS settings is ever read.)", "quantifier": "all configurations, TLS set-ups and system call results", "why_tests_cant": "the absence of any effect is a claim about all runs", "anchors": ["src/config.rs: OctaneConfig", "src/server.rs: Octane::listen"]}
{"id": "C101", "title": "Error pages name the status of the response", "statement": "The page sent with an error response names the status of that response. (Refuted for 400 and 501: the page says 404 NOT FOUND. Proved for 404.)", "quantifier": "all streams, applications, clocks", "why_tests_cant": "holds or fails for every malformed stream, not for chosen ones", "anchors": ["src/error.rs: Error::send", "src/constants.rs: NOT_FOUND"]}
{"id": "C102", "title": "A response without a body is sent", "statement": "Status, headers and cookies set by the handlers are sent even if no handler sets a body (for example after redirect). (Refuted: such a response is replaced by a 404 without any of them.)", "quantifier": "all applications, handlers, requests", "why_tests_cant": "a claim about every handler", "anchors": ["src/server.rs: Octane::serve", "src/responder.rs: Response::has_body"]}
{"id": "C103", "title": "Expect: 100-continue is answered", "statement": "A client that announces a body and waits for 100 Continue gets an interim or final answer. (Refuted: nothing is written while announced bytes are missing.)", "quantifier": "all streams with a complete head and an incomplete body, all segmentations", "why_tests_cant": "a liveness failure: the connection waits forever", "anchors": ["src/request.rs: Request::from_raw", "src/server.rs: Octane::serve"]}
{"id": "C104", "title": "Reading a head takes linear work", "statement": "The work of reading a request head is at most proportional to the bytes received, whatever the segmentation. (Refuted: all data are searched again after each read, so a dripping client causes quadratic work; a quadratic bound holds.)", "quantifier": "all streams and segmentations", "why_tests_cant": "asymptotic claim over all segmentations", "anchors": ["octane_http/src/http1x/mod.rs: Http1xReader::new", "octane_http/src/http1x/mod.rs: find_in_slice"]}
{"id": "C105", "title": "headers_sent tells whether the response has been sent", "statement": "Response::headers_sent returns true exactly if the response has been sent. (Refuted: it is true as soon as one header has been set; it is true after every send.)", "quantifier": "all sequences of calls on a response", "why_tests_cant": "ranges over all call sequences", "anchors": ["src/responder.rs: Response::headers_sent"]}
{"id": "C106", "title": "get_extended_query returns the parameters of the URL", "statement": "get_extended_query returns the query parameters of the request target, with arrays and objects for bracketed names. (Refuted: it parses the displayed path, so the first name includes the path and the last value ends in a slash; escaped names in brackets are not decoded.)", "quantifier": "all request targets, all queries", "why_tests_cant": "ranges over all targets", "anchors": ["src/request.rs: Request::get_extended_query", "src/query.rs: parse_extended_query"]}
{"id": "C107", "title": "Every complete request is answered under every fair schedule", "statement": "If the bytes sent on a connection are a complete request (or a bad one), and the task of the connection gets enough turns, then the answer is written or a panic ends the task, whatever other connections do; a well-formed request dies only by a panic in a handler.", "quantifier": "all schedules, all applications, all handlers, all numbers of connections", "why_tests_cant": "interleavings are unbounded", "anchors": ["src/server.rs: Octane::listen", "src/server.rs: Octane::serve", "src/router.rs: Router::run", "src/server_builder.rs: ServerBuilder::listen"]}
{"id": "C108", "title": "Requests of unsupported versions are refused", "statement": "A request whose version is not HTTP/1.1 or 1.0 is not handed to the handlers. (Refuted: every version, also an unknown one, is accepted; the answer is HTTP/1.1.)", "quantifier": "all requests of other versions, all applications", "why_tests_cant": "ranges over all requests and applications", "anchors": ["src/http/mod.rs: Http::validate", "src/request.rs: RequestLine::parse"]}
{"id": "C109", "title": "Requests with several Host headers are rejected", "statement": "A request with more than one Host header gets a 400 answer (RFC 7230, 5.4). (Refuted: such requests are handed to the handlers.)", "quantifier": "all requests with two Host lines, all applications", "why_tests_cant": "ranges over all requests", "anchors": ["src/http/http11.rs: http11_check", "src/request.rs: Headers::parse"]}
{"id": "C110", "title": "Silent clients are timed out", "statement": "A connection whose client stops sending in the middle of a request is closed after some time. (Refuted: it stays open through any number of events.)", "quantifier": "all schedules in which the client is silent", "why_tests_cant": "a claim about unbounded waiting", "anchors": ["src/server.rs: Octane::serve", "octane_http/src/http1x/mod.rs: Http1xReader::new"]}
{"id": "C111", "title": "Response::default() is an empty 200 response", "statement": "Response::default(), sent as it is, is transmitted as the status line HTTP/1.1 200 OK and an empty head; sending a body makes of it what it makes of the response given to handlers; its default headers announce length 0, which is the length of its body.", "quantifier": "all feature sets, worlds, hash orders, bodies", "why_tests_cant": "ranges over all hash orders, clocks and bodies", "anchors": ["src/responder.rs: impl Default for Response", "src/responder.rs: Response::new_from_slice"]}
{"id": "C112", "title": "The client reads the file name given to attachment_with_filename", "statement": "A client that reads the Content-Disposition header's file name as a quoted string (RFC 7230) gets the name given to attachment_with_filename. (Refuted: the name is written as a Rust string literal, so a tab is read as t. Exactly the names are read back whose characters are visible ASCII characters, including quotes and backslashes, spaces, or printable beyond ASCII; different names always give different headers.)", "quantifier": "all file names, responses, worlds", "why_tests_cant": "ranges over all names", "anchors": ["src/responder.rs: Response::attachment_with_filename"]}
{"id": "C113", "title": "Memory reserved for a body is bounded by what was received", "statement": "The memory reserved for the body of a request is bounded in terms of the bytes received. (Refuted: for every length up to isize::MAX a head of at most 60 bytes makes the server reserve that length and wait. Proved: never more than twice the announced length, and nothing before the head is complete.)", "quantifier": "all streams and segmentations, all announced lengths", "why_tests_cant": "ranges over all lengths and segmentations; a test with a huge length exhausts the machine", "anchors": ["src/request.rs: Request::from_raw", "src/server.rs: Octane::catch_request"]}
{"id": "C114", "title": "Header order and headers nobody looks up have no influence on the answer", "statement": "If handlers use headers by name only, two requests that differ in the order of their headers (headers of one name keeping theirs) get the same answer and leave the same state; and so do requests that differ by a header that no handler looks up and that is not Host, Content-Length or Cookie.", "quantifier": "all handlers that look headers up, routers, requests, segmentations, hash orders", "why_tests_cant": "ranges over all permutations, headers and handlers", "anchors": ["src/request.rs: Headers::parse", "src/server.rs: Octane::catch_request"]}
{"id": "C115", "title": "The code generated by the JSON derives does what the struct declaration says", "statement": "For every struct declaration with private fields whose types have no commas, the derives produce impls of FromJSON and ToJSON whose functions, read and run as Rust code, always return; from_json gives a struct exactly for objects with the declared members and no others, each readable; to_json gives the object of the members, or None exactly when a field cannot be written; what was written is read back. The same for tuple structs and arrays. With a public named field the generated functions are not valid Rust, and with a comma in a type the generated struct expression has a field too many. Anything that is not a struct gives a compile error.", "quantifier": "all struct heads, field lists, conversions of field types, values", "why_tests_cant": "ranges over all declarations, values and conversions; generated code only exists once a struct is written", "anchors": ["octane_macros/src/json.rs: fromjson_braces", "octane_macros/src/json.rs: fromjson_parens", "octane_macros/src/json.rs: tojson_braces", "octane_macros/src/json.rs: tojson_parens"]}
{"id": "C116", "title": "status_codes! turns every table into an enum and a fetch function that agree with it", "statement": "For every list of tokens whose literals are lines of a number that fits an i32 and a phrase of printable ASCII with a letter, status_codes! expands to an enum with one variant per line, in order, named after the phrase in camel case, and Other; the generated fetch gives for each variant the number and the phrase of its line (if the names differ), and what Other holds. A number too large or missing, or a phrase without letters, gives no expansion. On the table of octane_http the expansion agrees with the modelled fetch function.", "quantifier": "all token lists, all tables", "why_tests_cant": "ranges over all tables; the enum only exists once the macro is expanded", "anchors": ["octane_macros/src/status.rs: status_codes", "octane_macros/src/util.rs: pascal_case", "octane_http/src/lib.rs: StatusCode"]}
{"id": "C117", "title": "On Unix, file-system paths made from request paths stay below the directory they are appended to", "statement": "On Unix, for every accepted request path and every base directory text, appending either conversion of the path (to_std_pathbuf or From) with PathBuf::push leads, following the text from any working directory, exactly to the base directory's place followed by the path's segments: a request cannot name anything outside the base (symbolic links aside).", "quantifier": "all request paths, base directories, working directories", "why_tests_cant": "ranges over all paths, including every way of spelling parent directories", "anchors": ["src/path.rs: to_std_pathbuf", "src/path.rs: From<PathBuf> for StdPathBuf", "src/path.rs: PathBuf::parse"]}
{"id": "C118", "title": "Both conversions to file-system paths find the file a request names", "statement": "For every accepted, non-empty request path and every directory tree, to_std_pathbuf and the From conversion find the file or directory at the path's segments. False for to_std_pathbuf: its text ends in a slash, so it finds directories only; the From conversion finds exactly what is there.", "quantifier": "all request paths, all directory trees, all working directories", "why_tests_cant": "ranges over all paths and file systems", "anchors": ["src/path.rs: to_std_pathbuf", "src/path.rs: From<PathBuf> for StdPathBuf"]}
{"id": "C119", "title": "A client reads exactly the response that the handlers made for its request", "statement": "For every application whose handlers do not panic and make ordinary responses (no line breaks in status and headers, a body that is not a file, no cookies), every well-formed request in any pieces, and every interleaving with any other connections in which its task gets enough turns: the handlers the routing specification asks for are called in order on exactly the request meant, as part of one history of all calls, and the bytes delivered are read by the client as version, status, headers and body of the response they made (a 404 page if they made no body). With stateless handlers that response is the one made when nothing else goes on. One history of handler calls explains all connections and the shared state at once. A request that is refused (400 or 501) calls no handler and its client reads the error.", "quantifier": "all applications, requests, segmentations, schedules, hash orders, features", "why_tests_cant": "ranges over all programs of handlers, requests and interleavings; tests run a few", "anchors": ["src/server.rs: Octane::serve", "src/router.rs: Router::run", "src/request.rs: Request::from_raw", "src/responder.rs: get_data"]}
{"id": "C120", "title": "Choosing the handlers of a request takes work bounded by the registrations", "statement": "For every application, hash order, feature set, method and path: the trie nodes entered are at most two plus the number of leading segments that the patterns registered for the method have in common with the path, the recursion is at most one deeper than the longest such common part, at most as many segments are compared, and at most three vectors are looked at per applicable handler. In particular nodes, comparisons and vectors together are at most 2 + 2 * (segments of all registered patterns) + 3 * (number of registrations), and the recursion at most 1 + the length of the longest pattern, whatever path a client sends.", "quantifier": "all applications, hash orders, features, methods, paths, handlers, states", "why_tests_cant": "a bound on work over all requests; the lookup branches at every segment (exact name and variable), so single timings say nothing about the worst path", "anchors": ["src/path.rs: PathNode::dfs, get, check_matches", "src/router.rs: Router::run"]}
{"id": "C121", "title": "Reading the headers of a request copies linearly many bytes", "statement": "There are a and b such that for every header block of n bytes at most a*n+b bytes are copied into header values while it is read. (Refuted: a header line whose name has occurred before copies all earlier values of that name again, so n lines of one name copy about n^2 bytes; for every block at most half the square of its size is copied.)", "quantifier": "all header blocks, features", "why_tests_cant": "a bound on work over blocks of every size; tests read a few short blocks", "anchors": ["src/request.rs: Headers::parse"]}
{"id": "C122", "title": "On Windows too, file-system paths made from request paths stay below the directory they are appended to", "statement": "On Windows, for every accepted request path and every base directory text that is not on a network share, appending either conversion of the path (to_std_pathbuf or From) with PathBuf::push leads exactly to the base directory's place followed by the path's segments. (Refuted: every place on the machine is named by some request whatever the base, since a segment such as D:\\secret.txt replaces the base; it holds of paths without backslashes and colons.)", "quantifier": "all request paths, base directories, current drives and directories", "why_tests_cant": "ranges over all paths, bases and states of the machine; tests on Unix cannot show it", "anchors": ["src/path.rs: to_std_pathbuf", "src/path.rs: From<PathBuf> for StdPathBuf", "src/path.rs: PathBuf::parse"]}
{"id": "C123", "title": "Handlers that only watch (logging, counting) change no answer", "statement": "Let E relate states of the application that no handler can tell apart (related states lead to the same response and decision, and to related states). Registering, anywhere and any number of times, handlers that leave the response as it is, go on with the next handler and change the state only within E changes no byte sent to any connection, and leaves a related state.", "quantifier": "all applications, handlers, relations, states, connections, features, worlds, hash orders", "why_tests_cant": "compares every pair of applications that differ in such handlers, on all connections; tests run a few", "anchors": ["src/server.rs: Octane::serve", "src/router.rs: Router::append", "src/server.rs: Octane::with_router"]}
{"id": "C124", "title": "Error answers reveal nothing about the request, the application or its state", "statement": "Any two requests refused with the same status (400 or 501) get the same bytes, and any two requests for which the handlers end without a body (404) get the same bytes, for a given clock and hash order, whatever the requests contain and whatever the applications, handlers and states are.", "quantifier": "all pairs of requests, applications, handlers, states; all features, worlds, hash orders", "why_tests_cant": "a relation between all pairs of requests and applications; tests compare single answers with expectations", "anchors": ["src/server.rs: Octane::serve", "src/error.rs: Error::send"]}
{"id": "C125", "title": "No part of a response body is read as headers", "statement": "Whatever the body of a response contains, a client reads as headers exactly those the application has set (and its cookies), and as body exactly the body given. (Refuted: with a cookie set, the empty line that ends the head is missing, so header lines at the start of the body are read as headers of the response; who can choose the body can redirect the client or set further cookies. It holds of responses without cookies.)", "quantifier": "all responses, bodies, features, worlds, hash orders, cookie libraries", "why_tests_cant": "ranges over all bodies, hostile ones included; a test sends a few harmless ones", "anchors": ["src/responder.rs: Response::headers", "src/responder.rs: Response::get_data", "src/server.rs: Octane::send"]}
{"id": "C126", "title": "No task outlives its peer", "statement": "Once the peer of a connection has closed or broken it off, at whatever point of whatever request, the task of the connection ends: it needs at most one turn more than there are registrations and, if it has an answer to send, one write that fails. Other connections and their handlers cannot prevent this.", "quantifier": "all applications, handlers, requests, points of disconnection, interleavings", "why_tests_cant": "a liveness statement over all schedules and all points of disconnection; a leak shows only under load", "anchors": ["src/server.rs: Octane::serve", "src/server.rs: Octane::send", "src/server_builder.rs: ServerBuilder::listen"]}
{"id": "C127", "title": "A guard protects everything registered after it", "statement": "If a handler (for example an authorisation check) stops a request in every state, then nothing registered after it, directly or through mounted routers, has any influence on that request: none of the later handlers is called for it, in any interleaving with other connections, and answer and change of state are the same whatever is registered there.", "quantifier": "all applications, guards, later registrations, requests the guard turns away, interleavings, hash orders", "why_tests_cant": "a security statement about the absence of calls over all route tables, requests and interleavings", "anchors": ["src/router.rs: Router::run", "src/router.rs: Router::append", "src/server.rs: Octane::serve"]}
{"id": "C128", "title": "The started program answers the requests of every connection it takes on", "statement": "After start-up, a plain connection that was accepted, or a TLS connection whose handshake succeeded, and that sends the text of a request, has exactly the handlers called that the routing specification asks for, on exactly the request meant, and reads the response they made (or the error, if the request is refused) - whatever the other connections, failed handshakes, failed accepts of either listener and panics of other tasks do, as long as the caller of listen has not returned. A connection that was not taken on is neither read nor answered.", "quantifier": "all applications, configurations, system-call results at start, requests, segmentations and interleavings of all events of the program", "why_tests_cant": "composition of start-up, listeners, handshakes, reading, routing, handlers and writing over all interleavings", "anchors": ["src/server.rs: Octane::listen, Octane::serve", "src/server_builder.rs: ServerBuilder::listen, listen_ssl"]}
{"id": "C129", "title": "A failed accept spares the connections already taken on", "statement": "When accepting a further connection fails, the requests of connections already taken on are still answered. (Refuted: listen returns the error at once, and when its caller - as in all examples - returns, the runtime and with it all connections of both listeners stop where they are; until then C128 holds.)", "quantifier": "all executions of the program", "why_tests_cant": "needs an accept error (for example out of file descriptors) while another request is being handled", "anchors": ["src/server_builder.rs: ServerBuilder::listen", "src/server.rs: Octane::listen", "octane_macros/src/lib.rs: main"]}
{"id": "C130", "title": "Escaped parameters arrive as they are and cannot add others", "statement": "A list of parameters, each name and value escaped in any way that leaves no '&' and '=' (in names also no '['), is read by the query parsers as exactly these parameters: every name has the last value given to it and no other name occurs; in particular every list of ASCII parameters can be sent this way. Through get_query this holds for all parameters between the first and the last item.", "quantifier": "all parameter lists, all ways of escaping, all feature sets", "why_tests_cant": "injection freedom over all values and escapings", "anchors": ["src/query.rs: parse_query, parse_extended_query, unescape_hex", "src/request.rs: Request::get_query"]}
{"id": "C131", "title": "Requests with one stateful handler are served as if one after the other", "statement": "If of the handlers run for a request at most one uses the state shared between requests, then every execution, with the handler calls of different connections interleaved in any way, is explained by the connections taking turns: every connection is served as if alone, from the state before its turn to the state after it, and the final state is the one after the last turn. The order of the turns agrees with the clock: a connection answered before another one has sent its request has its turn first. Applications where all registrations but one are of handlers that do not use the state are of this kind.", "quantifier": "all applications, states, handlers of this kind, schedules and inputs", "why_tests_cant": "all interleavings of all requests", "anchors": ["src/server.rs: Octane::listen (one task per connection)", "src/server.rs: Octane::catch_request"]}
{"id": "C132", "title": "Requests are answered while handlers of other requests are still running", "statement": "With n worker threads, a request is read, handled and answered although handlers of other requests have not returned yet. (True part: as long as fewer than n requests are being handled, every connection can go on; at most n are handled at a time; once handlers return, all threads become free again.)", "quantifier": "all numbers of threads, applications, schedules and inputs", "why_tests_cant": "needs all schedules and any number of threads; starvation shows only when every thread is taken", "anchors": ["src/router.rs: Router::run, Closure", "src/server.rs: Octane::serve", "src/server_builder.rs: ServerBuilder::listen", "octane_macros/src/lib.rs: main"]}
{"id": "C133", "title": "Every complete request is answered in the end", "statement": "In every execution that goes on forever, a connection whose input is a complete request (or ends) is in the end closed with its whole answer delivered, or its task has died of a panic, provided its own task runs on, the handlers it calls return and its peer reads. Nothing is assumed of other connections: their handlers may run forever, their peers may be silent.", "quantifier": "all infinite executions, applications, states, inputs", "why_tests_cant": "liveness over infinite executions with arbitrary behaviour of the other connections", "anchors": ["src/server.rs: Octane::serve, Octane::send", "src/router.rs: Router::run", "src/server_builder.rs: ServerBuilder::listen"]}
{"id": "C134", "title": "A path that exists for other methods only is answered with 405", "statement": "A request for a path that has routes, but none for the method of the request, is answered with status 405. (True part: whatever is registered for other methods, it is answered with 404, no handler runs and the shared state stays as it was.)", "quantifier": "all applications, requests, handlers and states", "why_tests_cant": "ranges over all applications and all pairs of methods and paths", "anchors": ["src/server.rs: Octane::serve", "src/router.rs: Router::run"]}
{"id": "C135", "title": "HEAD is answered like GET", "statement": "Where no route is registered for HEAD, a HEAD request is answered with the status that the same GET request is answered with. (True part: two requests that differ in the method only are answered alike, byte for byte, if the same is registered for both and the handlers do not look at the method.)", "quantifier": "all applications, requests, methods and states", "why_tests_cant": "a relation between two requests for all applications and inputs", "anchors": ["src/router.rs: Router::run, Route::head, Route::get", "src/server.rs: Octane::serve"]}
{"id": "C136", "title": "Handlers added to a mounted router run only for its routes", "statement": "Mounting a router whose routes are all below one path changes nothing for requests to other paths: like app.use in Express, a handler added to that router without a path runs only for requests to the router. (True part: it holds for routers without such handlers; a handler added without a path is in the chain of every request.)", "quantifier": "all applications, routers, requests, handlers and states", "why_tests_cant": "ranges over all routers and all requests outside them", "anchors": ["src/server.rs: Octane::with_router", "src/router.rs: Router::append, Route::add"]}
{"id": "C137", "title": "With handlers that only record, the schedule makes no difference", "statement": "If the answers of the handlers do not depend on the shared state and their changes to it commute (hit counters, sets of visitors, maxima), then two executions in which the connections receive the same input, and in which all requests started are finished, end with the same shared state, with the same connections still waiting for input, and with each connection answered from the same response, or dead in both.", "quantifier": "all handlers that only record, routers, initial states, pairs of schedules, clocks and hash orders, numbers of connections", "why_tests_cant": "relates every pair of interleavings of any number of requests; a race shows in few schedules and cannot be forced by a test", "anchors": ["src/server_builder.rs: ServerBuilder::listen", "src/server.rs: Octane::serve", "src/router.rs: Router::run"]}
{"id": "C138", "title": "The running program serves every connection in the end", "statement": "In every infinite execution of the started program whose caller does not return, a connection that is accepted by one of the two listeners (with a successful handshake on the TLS one), whose input is a complete or hopeless request, whose task runs on, whose handlers return and whose peer reads, is answered and the answer delivered, or its task dies of a panic of its own; if it sends a well-formed request whose handlers behave, the client receives an answer from which it reads the response the handlers made for that request. Other connections, failed handshakes, accept errors and handlers that never return elsewhere make no difference.", "quantifier": "all applications, handlers, initial states, infinite executions with any number of connections, TLS configurations, clocks, hash orders", "why_tests_cant": "a liveness claim about infinite executions with unboundedly many connections", "anchors": ["src/server.rs: Octane::listen, Octane::serve", "src/server_builder.rs: ServerBuilder::listen, listen_openssl, listen_rustls", "src/router.rs: Router::run"]}
{"id": "C139", "title": "What matters of the way a request arrives", "statement": "The answer to a request, its effects, and whether there is an answer depend on the way the byte stream is cut into segments only through the bytes that came along with the end of the head: the bytes behind the first empty line that the read completing it brought, fewer than 512. The body handed to the application is empty if nothing is announced, those bytes if they are at least as many as announced, and otherwise exactly the announced number of bytes; and exactly which streams kill the task is determined by them and the stream.", "quantifier": "all applications, handlers, states, byte streams, segmentations, endings, feature sets", "why_tests_cant": "it is about all segmentations of all streams, including streams that announce more than isize::MAX bytes", "anchors": ["octane_http/src/http1x/mod.rs: Http1xReader::new", "src/request.rs: Request::from_raw", "src/server.rs: Octane::serve"]}
{"id": "C140", "title": "When one application can take the place of another", "statement": "If two applications have the same handlers, in the same order and with the same path variables, for every request that can reach the handlers, then every execution of their programs looks the same: state of the application, listeners, connections, bytes received and sent. In particular spelling a path differently or moving a registration to a router mounted at the same place changes nothing. Conversely, applications that differ in this for some request are told apart by handlers that merely note their calls.", "quantifier": "all pairs of applications, hash orders, handlers that look variables up by name, executions with any number of connections and any interleaving", "why_tests_cant": "about all pairs of applications and all interleavings of all requests; the internal route trees, indices and loop states of the two programs differ", "anchors": ["src/router.rs: Router::run", "src/router.rs: Router::with_router, Octane::with_router", "src/path.rs: PathBuf::parse", "src/server.rs: Octane::serve"]}
{"id": "C141", "title": "The Date header tells the second in which a response was sent", "statement": "Responses sent with send in different seconds (up to the year 9999) have different Date headers, responses sent in the same second have the same one, whatever was set before; and the dates are ordered as the seconds are.", "quantifier": "all pairs of clock readings from 1970 to 9999, all responses and bodies", "why_tests_cant": "about all pairs of 253402300800 seconds; a collision would be a pair of dates at some month or year boundary", "anchors": ["src/time.rs: Time::format", "src/time.rs: Time::with_stamp", "src/responder.rs: default_headers"]}
{"id": "C142", "title": "Features that an application does not use make no difference", "statement": "Built with other features, no stricter ones, the program answers a request with the same bytes and the same change of state, provided the handlers use only what both builds have, no pattern has a variable unless both builds know variables, and the request has no Cookie header unless both builds look at it; if the builds are equally strict and agree on cookies this holds of every connection, also of those that carry no request.", "quantifier": "all pairs of feature sets, all applications, handlers, requests, segmentations, states", "why_tests_cant": "compares sixteen builds of the program on all requests; a test compares two builds on one request", "anchors": ["Cargo.toml: features", "src/request.rs: Headers::parse", "src/request.rs: Request::parse", "src/responder.rs: headers", "src/path.rs: MatchedPath, get"]}
{"id": "C143", "title": "Nothing the client sent is left unread when its connection is closed", "statement": "When the server closes a connection after its answer, every byte the client has sent on it has been read; otherwise the operating system resets the connection, and the reset may reach the client before the answer. Exactly: of a request that is followed by nothing, nothing is left; what follows a request in segments of its own is left; of a request refused for its head, all that did not arrive with the end of the head is left.", "quantifier": "all streams, all ways to cut them into segments, all features", "why_tests_cant": "the loss needs a second request or a refused body to arrive separately, and a reset to overtake the answer; loopback tests rarely show either", "anchors": ["octane_http/src/http1x/mod.rs: Http1xReader::new", "src/request.rs: Request::from_raw", "src/server.rs: serve"]}
{"id": "C144", "title": "Clients that only connect cannot stop the server", "statement": "On a system that lets the program hold at most n connections at a time and whose accept fails exactly while n are held, clients that connect and send nothing do not end the program: when they have gone, it still accepts and answers.", "quantifier": "all limits, all applications, handlers, states and executions", "why_tests_cant": "needs as many idle connections as the system allows and one more; a test suite never comes near the limit, and the limit differs between machines", "anchors": ["src/server_builder.rs: listen", "src/server.rs: listen", "octane_macros/src/lib.rs: main"]}
{"id": "C145", "title": "Every route that is accepted can be reached", "statement": "If registering a route succeeds, some request reaches its handler (unless a handler before it stops the request); more exactly, the handler can be reached with every path the pattern stands for.", "quantifier": "all patterns, registration methods, applications (with mounted routers), handlers and requests, all feature sets", "why_tests_cant": "that no request at all reaches a handler is a statement about all byte streams; a test tries a few requests for a few patterns, and a pattern that is never reached looks like a wrong request", "anchors": ["src/router.rs: inject_method!", "src/request.rs: RequestLine::parse", "src/path.rs: PathBuf::parse", "src/path.rs: PathNode::insert", "src/path.rs: dfs"]}
{"id": "C146", "title": "Changing the public fields of a router makes no handler fail, get lost or run twice", "statement": "route_counter, middlewares and paths of a Router are public. Whatever an application assigns to them (other indices, another order of middlewares, a reset counter, tables collected from other entries or removed) before it hands the router to with_router, every handler that applies to a request is called exactly once (unless one before it stops the request), with the variables of its own pattern, in the order of the indices; with equal indices, routes of the method come before add_route routes and these before middlewares; a middleware behind one with a greater index waits for it. (Refuted: an index of usize::MAX is never the smallest, so dispatch reads past the end of the first list and panics; proved for all other indices.)", "quantifier": "all sequences of registrations and field assignments, all mounts, requests, handlers, hash orders", "why_tests_cant": "ranges over all routers that assignments can produce and all interleavings of three lists of indices", "anchors": ["src/router.rs: struct Router (pub fields), Router::append, Router::run", "src/middlewares/mod.rs: Closures", "src/path.rs: PathNode::from_iter"]}
{"id": "C147", "title": "Assigning to the public fields of a response counts like a call and keeps the announced length right", "statement": "status_code, content_len, http_version, headers, charset and cookies of a Response are public, and a handler may put Response::default() in place of its response. After any sequence of calls and such assignments each part of the response has the value given by the last call or assignment that gives it one; a content type that was taken away is filled in by the next send or default_headers; no assignment panics; and a Content-Length announced by the response is the length of the body sent. (Refuted for the last: default_headers announces whatever content_len was assigned. Proved if the body is given anew between such an assignment and the next default_headers, and neither a file nor a Content-Length of one's own is used.)", "quantifier": "all sequences of calls and assignments, responses, worlds, cookie libraries", "why_tests_cant": "ranges over all sequences of calls and assignments", "anchors": ["src/responder.rs: struct Response (pub fields), Response::default_headers, Response::send, impl Default for Response"]}
{"id": "C148", "title": "Clients cannot add header lines to a response through text that a handler copies into a header", "statement": "Whatever a client sends, a handler that copies a piece of the request (a path segment, the path, a route variable, a header value, a query parameter) into a header of its response (set, with_type, redirect) does not let the client add or change other lines of the head: another client reads exactly the headers the response has. (Refuted for query parameters: percent-decoding yields CR LF, so every ASCII header can be added by a well-formed request; refuted for route variables if the reader takes LF alone for a line end. Proved for segments, paths, route variables and header values, for readers that take only CR LF for a line end, in any sequence of calls, each copying one piece between text of the program's own.)", "quantifier": "all requests, transports, routes, sequences of calls, injected headers, hash orders, cookie libraries, features", "why_tests_cant": "ranges over all requests and all sequences of calls; the decoding and the writing are far apart in the code", "anchors": ["src/request.rs: RequestLine::parse, Headers::parse, Request::get_query", "src/query.rs: parse_query, unescape_hex", "src/responder.rs: Response::set, Response::redirect, Response::with_type, Response::get_data", "src/path.rs: PathBuf::parse"]}
{"id": "C149", "title": "What handlers are given of a request is no larger than what the client sent", "statement": "For every request that reaches the handlers, the header map (names, values and one byte for each entry), the path and the body together have at most as many bytes as the client sent; so have, each by itself, the list of raw headers, the number of cookies, the map returned by get_query and the map of texts, arrays and objects returned by get_extended_query. The values of the variables given to a handler are no larger than the path. A small request cannot make large data.", "quantifier": "all streams, segmentations, features, cookie libraries, queries, applications, paths", "why_tests_cant": "ranges over all requests, including repeated and folded headers, nested brackets and escapes that decode to two-byte characters", "anchors": ["src/request.rs: Headers::parse, Request::parse, Request::get_query, Request::get_extended_query", "src/query.rs: unescape_hex, parse_query, parse_extended_query", "src/path.rs: PathBuf::parse, PathNode::get", "octane_http/src/http1x/mod.rs: Http1xReader::new"]}
{"id": "C150", "title": "Reading the parameters of a URL takes linear work", "statement": "For every request that reaches the handlers, get_query takes at most 8 and get_extended_query at most 10 elementary steps for each byte that the client sent, whatever the query contains (percent signs, brackets, repeated names); percent-decoding alone takes at most 4 for each byte and one more. Steps are calls of next and peek, characters pushed, bytes looked at by searches, bytes copied or checked, and for each operation on a hash map one and the bytes of its key.", "quantifier": "all streams, segmentations, features, cookie libraries, queries, texts", "why_tests_cant": "a bound on work for all inputs; the expensive inputs are the unusual ones (runs of percent signs, where every character is looked at several times; many items for one array)", "anchors": ["src/query.rs: unescape_hex, DoublePeek, parse_query, parse_extended_query", "src/request.rs: Request::get_query, Request::get_extended_query"]}
{"id": "C151", "title": "Splitting a head into lines takes linear work", "statement": "Taking all pieces of a Spliterator over s with a non-empty sequence q makes at most |q| comparisons for each element of s, however often and wherever q or parts of it occur; for the lines of a header block these are at most two for each byte. No head makes the splitting itself expensive.", "quantifier": "all data, all non-empty sequences", "why_tests_cant": "a bound on work for all inputs, including those that nearly match everywhere", "anchors": ["src/util.rs: Spliterator", "octane_http/src/http1x/mod.rs: find_in_slice", "src/request.rs: Headers::parse"]}
{"id": "C152", "title": "Reading a request line takes linear work", "statement": "Parsing a request line takes at most five steps for each of its bytes and a constant, and parsing a path at most four for each byte and four more, whatever the path contains: many slashes, dots, steps up, or a path that is refused. (Steps: bytes looked at while splitting, comparisons of strings and of their bytes, bytes copied, pushes and pops.)", "quantifier": "all lines, paths, features", "why_tests_cant": "a bound on work for all inputs", "anchors": ["src/request.rs: RequestLine::parse", "src/path.rs: PathBuf::parse"]}
{"id": "C153", "title": "Writing a response takes linear work", "statement": "Making the head of a response copies at most five bytes for each byte of the head, besides the name of the status, however many headers and cookies there are; and the head is exactly as long as its parts (eleven bytes around version, number and reason, four around each header, twelve before each cookie and two between cookies), whatever the hash order.", "quantifier": "all responses, features, worlds, hash orders, cookie libraries", "why_tests_cant": "a bound on work for all responses and all hash orders", "anchors": ["src/responder.rs: get_data, status_line, headers", "src/cookie.rs: Cookie::serialise"]}
