# Formal model of OctaneWeb/Octane in Rocq (Coq 8.16.1)

## 1. Layout

* `rocq/theories/Model/*`: definitions only, each with a comment citing the file and lines in /repo
  that it models, and stating any simplification.
* `rocq/theories/Spec/*`: small specifications, independent of the helpers of the model.
* `rocq/theories/Proofs/*`: lemmas; `*Witness.v` hold the concrete values used in examples.
* `rocq/theories/Props/*`: only property theorems closed by `exact`, `Print Assumptions` beneath
  each, and an `Example` meeting the hypotheses beside it.
* `rocq/theories/Proofs/RepoTests.v`: the project's own unit and integration tests, run on the
  model. They are tests that the model agrees with the code where the authors wrote down the
  answer; they prove nothing more.
* `properties.jsonl`: the properties; `MANIFEST.json`: status and theorems of each;
  `seeded/LOG.jsonl`: wrong programs tried against the theorems. Lines marked `automatic` are
  generated one-token edits; for them `failed` lists the theorems that depend on the first lemma whose
  proof no longer checks, and edits that survive are either equivalent or answered by a tightening.

| model file | code |
|---|---|
| `RustStd.v` | the std functions used (str, HashMap, integer parsing and overflow, UTF-8) and the Cargo features |
| `Path.v` | src/path.rs: `PathBuf`, matching, the route trie and its iterators |
| `Router.v` | src/router.rs: registration, mounting, merging, dispatch; src/middlewares/mod.rs |
| `Fields.v` | handlers that assign to the public fields of their response (src/responder.rs:54-70) |
| `Edit.v` | routers whose public fields the application assigns to (src/router.rs:212-219) |
| `Request.v` | src/request.rs, src/http/*.rs, octane_http/src/http1x/*.rs, src/util.rs, src/cookie.rs, src/constants.rs: transport, head reading, header, request-line and body parsing, keep-alive |
| `Query.v` | src/query.rs: percent-decoding, `DoublePeek`, both query parsers |
| `Time.v` | src/time.rs |
| `Status.v` | the status table of octane_http/src/lib.rs and the macro (octane_macros/src/status.rs) that turns it into code |
| `Response.v` | src/responder.rs, src/file_handler.rs: builders, MIME types, serialisation |
| `Config.v` | src/config.rs |
| `Server.v` | src/server.rs, src/error.rs, src/server_builder.rs: one connection at a time, start-up |
| `Tasks.v` | the same at the grain of handler calls and partial writes, for any schedule |
| `Listen.v` | the two listeners, TLS set-up (src/tls/*.rs) and handshakes, for any schedule |
| `Workers.v` | worker threads: which steps of `Tasks.v` are possible with n threads |
| `Whole.v` | the whole program: listeners and handshakes of `Listen.v`, tasks of `Tasks.v`, and the end of the program |
| `Cost.v`, `RouteCost.v`, `QueryCost.v`, `SplitCost.v`, `LineCost.v`, `WriteCost.v`, `Memory.v` | the head reader, the dispatcher, the splitter, the request line, the query readers, the response writer and the body reader again, counting comparisons, trie nodes, steps, copied and reserved bytes; proved to compute the same |
| `DebugChars.v` | `{:?}` of strings with characters beyond ASCII, where `debug_str` copies all of them; for the attachment names |
| `Unread.v` | the readers again, returning also what they leave of the stream; proved to read the same |
| `Derive.v` | octane_macros/src/json.rs: the tokens of the generated impls |
| `DeriveText.v` | octane_macros/src/json.rs: the texts of the generated impls, and a lexer for `parse::<TokenStream>` |
| `StatusText.v` | octane_macros/src/status.rs on tokens: the expansion of `status_codes!`, without its doc comments |
| `StdPath.v` | src/path.rs: conversions to paths of the file system, with `std::path::PathBuf::push` on Unix and on Windows (drives, not network shares) |
| `Macros.v` | octane_macros/src/*: `main` and `test` with the tokens they return, `ToJSON`/`FromJSON` derives on token streams, and the meaning of the generated code |
| `Sugar.v` | src/router.rs:350-411: `route!`, `route_next!`, `route_stop!`; `path!` of octane_macros/src/lib.rs |

## 2. Modelling decisions

* Byte strings are `list byte`. A Rust `&str`/`String` is its UTF-8 byte sequence; `from_utf8` is a
  concrete validator and decoder.
* `Result`/`Option` stay data; every panic is an explicit `Panic` value (`outcome`). Slicing out of
  range, `unwrap`, integer overflow in the date code and `Vec::with_capacity` above `isize::MAX` are
  such panics.
* `HashMap` is an association list with one entry per key; where the code iterates over one the
  model asks an `order` oracle (any permutation), and theorems quantify over it.
* `usize`/`u64`/`i64` are `N`/`Z` with the bound written where it matters (64-bit target).
* The network is a list of non-empty segments followed by end of file, an error, or silence: every
  segmentation of every stream is a value of that type. A read of at most 512 bytes returns what has
  arrived, as `read` on a socket does.
* Cargo features that change behaviour are fields of a record.
* External code is a parameter theorems quantify over (nothing is assumed about it unless the
  theorem says so): cookie crate, Unicode case mapping, clock, file system, TLS crates, `Debug`
  printing of a `PathBuf`. No hypothesis about them is an axiom.
* Handlers are arbitrary functions of request, response and a shared state, which may also panic.
* Loops are structural or carry fuel; running out of fuel is a separate value that theorems exclude
  (for example `read_request_fuel`).

## 3. Trusted base

* Coq's kernel (8.16.1), including its `vm_compute` machine, used for examples, witnesses and the
  finite status/MIME tables.
* `Print Assumptions` under every theorem in `Props/` prints "Closed under the global context": no
  axiom at all, neither own nor from the standard library. `coqchk -o` lists no axiom used by these
  files; the names a checker may report (`Coq.ssr.ssrunder.Under_rel.*`) are the parameters of a
  module type of the standard library that is loaded but not used.
* The model: that the definitions in `Model/` say what the cited lines of /repo do. The code was
  read, never run. Section 6 lists what is left out.
* The specifications in `Spec/` and the statements in `Props/`. For C115 this includes the reader and evaluator of `Spec/RustLang.v`, a fragment of Rust.

## 4. Properties

"model" names what is modelled; "proof" how the theorem is proved. R = refuted as stated: the code at
this commit violates it (`..._refuted` gives the witness), and the true part, where there is one, is
proved (`..._partial`). No property had to be left as not expressible; section 6 says which aspects
are out of reach of the model.

| id | model | proof |
|----|-------|-------|
| C01 | `PathBuf::parse` | invariant of the segment loop |
| C02 | `PathBuf::parse` | against a rewriting specification of dot segments; climbing above the root is exactly what is rejected |
| C03 | `to_string`, `parse` | induction on segments |
| C04 | `parse` | induction; repeated, leading and trailing slashes; parse of a concatenation |
| C05 | `concat`, `subtract` | induction |
| C06 R | `check_starts_with` | exact meaning: one is a prefix of the other; witness for the asymmetric claim |
| C07 | `check_matches` | both directions, with the bound variables, and without the `url_variables` feature |
| C08 | trie `insert`, `get` | trie invariant; lookup is a permutation of the matching insertions |
| C09 | trie iterators as explicit-stack machines | measure on the stack; every hash order |
| C10 | trie `extend` | permutation with the insertion log |
| C11 | registration, `run` with its merge loop | refinement to the list of registrations in order; the merge loop is the sorted merge |
| C12 | `Router::append`/`Router::with` | mounting equals registering the prefixed routes in place |
| C13 | failing registrations | state unchanged; the error is returned |
| C14 | variables per handler call | from the refinement of C11 |
| C15 | per-method tables, `add_route` | from the refinement of C11 |
| C16 | `Flow::Stop`/`Next` | from the refinement of C11 |
| C17 | `run` | no index out of range under the counter bound; panics only come from handlers |
| C18 | `Http1xReader`, `find_in_slice` | first occurrence of CRLFCRLF in the received prefix is that of the stream, for every segmentation; what counts as text is proved to be UTF-8 as RFC 3629 writes it (`utf8_text`). `C18_line_ends` and `C18_no_empty_line` give the line ends as the numbers 13 and 10 |
| C19 R | `Request::from_raw` | exact body when the stream carries exactly it; otherwise prefix; witness with excess bytes; the accepted numbers by a grammar of their own (`number`) |
| C20 | `read_head`, error answer | every cut of a head |
| C21 | `Header::parse`, `Headers::parse` | round trip by induction, in both parsing modes |
| C22 | `Headers` map | folding by induction; absent exactly if there is no such line; names compared up to the case of ASCII letters (`same_fold`, byte by byte, not by the model's lower-casing) |
| C23 | header validation | iff characterisation of lines and blocks |
| C24 R | `is_ctl` | 0x1F passes (witness); all other control characters rejected |
| C25 | `RequestLine::parse` | iff characterisation, exact panic set |
| C26 R | `HttpVersion` | finite; 2.0 prints as 0.2 |
| C27 R | everything before the handler | exact set of panicking streams, except one narrow band that depends on segmentation (named in the theorem; decided in C139) |
| C28 | `KeepAlive::parse` | against a grammar: white space, key, `=`, digits, white space; `trim` proved to take white space and all of it |
| C29 | `Http::validate` | iff |
| C30 | keep-alive decision | decision table for all headers |
| C31 | `unescape_hex` | decoding inverts encoding; meaning of every input; total |
| C32 R | `unescape_hex` | every non-ASCII character decodes wrongly; ASCII round-trips |
| C33 R | `DoublePeek` | `next` transparent under every interleaving; peeks exact with at most one buffered item; witness with two |
| C34 | `parse_query` | fold; last value wins |
| C35 R | `get_query` | for all plain paths, keys and values the key is missing |
| C36 R | request path, router | witness; the query joins the last segment; exactly which routes still match, and what their variable becomes |
| C37 | `parse_extended_query` | precedence of repeated keys; keys unique |
| C38 | request cookies | from the cookie parser (parameter) |
| C39 R | `get_data` | every response with cookies lacks the empty line; without cookies terminated |
| C40 | `get_data`, header reading | round trip through an independent reader; reading unique; every call history. `Spec/BytesSpec.v` spells out the bytes of an answer with the line ends as the numbers 13 and 10 (`C40_answer_bytes`) |
| C41 R | setters | line breaks pass through `set`, `redirect`, `with_type`; clean arguments stay clean in every history; for every response: a value with a line break gives a second header line, one with an empty line a body of the caller's choice, and a status of one's own with a line break a header line |
| C42 | `send` | length announced and transmitted |
| C43 R | `send`, `send_file` | stale length after `send_file`; consistent in all other histories |
| C44 R | `AsyncReader`, `copy` | for every file nothing is transmitted |
| C45 | header map | last set wins, others unchanged, unique |
| C46 | Content-Type | histories |
| C47 | status macro and table | finite computation lifted to all codes; identification from the status line |
| C48 | `Time` | day counting in the proleptic Gregorian calendar as specification; linear arithmetic, for all representable stamps |
| C49 R | `format` | eleven months; every September date is wrong |
| C50 | `Time` | bounds of every intermediate value |
| C51 | `mime_type`, `Path::extension` | table; case folding; extension specification |
| C52 R | MIME table | malformed exactly for "bin" |
| C53 | `OctaneConfig` | call histories |
| C54 R | `with_config`, `with_ssl_config` | witnesses; all other calls proved |
| C55 | `serve` | one clause per outcome, exclusive, for every stream, segmentation, application |
| C56 | the whole path from request text to answer | composition; `C56_request_bytes` for the bytes of a request with the line ends as numbers |
| C57 | connection tasks | independence from other connections; also at the grain of handler calls |
| C58 R | accept loop | ends at the first error; otherwise accepts all |
| C59 R | start-up trace | exactly once; always before the bind |
| C60 R | HEAD | witness; for every HEAD request the body the handlers gave is sent (`C60_body_always_sent`) |
| C61 R | derive macros | token-level induction; refuted for all `pub` fields and types with top-level commas |
| C62 | generated code | round trip, exact behaviour |
| C63 | `main_tokens`, `test_tokens` | the generated tokens; the block is read back as statements |
| C64 R | head buffer | unbounded, for every n |
| C65 | `Spliterator` | lossless; unique for CRLF |
| C66 | shared state | invariants kept, also interleaved |
| C67 R | impl headers of derives | exact for parameters with bounds and simple where clauses; witnesses otherwise |
| C68 | builder histories | response determined by the last calls |
| C69 | `send_file` | exact success condition; unchanged on failure |
| C70 | Set-Cookie lines | order and number, every history |
| C71 | `Tasks.v` | one linear history of handler calls explains every schedule |
| C72 | `Tasks.v` | step bound |
| C73 | `Tasks.v`, writes | accepted prefixes add up to the answer; after an error, and at any time, what was sent is a beginning of it |
| C74 R | `Tasks.v` | schedule in which one client gets the data of another; C131 says when this cannot happen |
| C75 | `Listen.v` | simulation between the server with TLS and the plain events alone |
| C76 | `Listen.v` | induction over events; the connection tasks run as in C55-C58 |
| C77 | `Listen.v` | induction over events |
| C78 R | `rustls_acceptor`, `openssl_acceptor` | exact conditions; rustls panics without an RSA key |
| C79 R | `read_request` | witness, against the grammar of chunked coding; every chunked body without a length is lost (`C79_body_lost`) |
| C80 R | Content-Length in `read_request` | exact set of header lists that announce a length; all others give an empty body |
| C81 R | `serve` | bytes after a request without body have no effect; witness |
| C82 R | `serve` | exact value of `read_request` as a function of the stream and one number below 512; equal for all segmentations unless there are surplus bytes |
| C83 | `serve` | exact request value from the meaning of the head |
| C84 R | `RequestLine::parse`, `PathBuf::parse` | scheme and host become segments; witness |
| C85 R | `PathBuf::parse` | segments are verbatim; witness |
| C86 R | `get_data`, `Octane::send` | body sent for every status; witness |
| C87 R | response calls | names come from the calls; unique if spelt one way; witness |
| C88 R | `ServerBuilder::new` | all outcomes of system calls |
| C89 R | response calls | no call but `set` adds the header; witness. `C89_no_answer_says_so`: as long as handlers do not add it, no client reads one in any answer |
| C90 R | `route!` family | the body is a function to a state and an exit (value, `return`, panic); dispatch equals running the bodies; witness with `return` |
| C91 R | `path!` | literal syntax specified by `lit_chars`, shown unambiguous; output is a literal of an existing path; witnesses for escapes and for every other working directory |
| C92 | `Config.v` | C53 from the concrete initial configuration |
| C93 | `octane_listen`, `tls_start`, `sys_start` | exact sequence of steps, also of the TLS task on the configured port; a failing start is a proper prefix of it |
| C94 | `send_file_result`, `file_error_show` | by case on what the file system answers |
| C95 R | `main_tokens` | the generated tokens; the builder's method chain is read back from the statements of the block; witness: compiled on 4 CPUs, run on 64 |
| C96 R | `main_tokens`, `test_tokens` | the only method chain on the builder contains `enable_io` and neither `enable_time` nor `enable_all` |
| C97 | `serve`, `build`, `router_run` | the calls made are a function of the selected registrations only (`calls_of_selected`); unrelated and swapped registrations select the same |
| C98 | `serve`, `server_run`, `ord_fn` | dispatch is independent of the order used by `build`; two sent messages differ by a permutation of the header lines; induction on events. `C98_clients_read_the_same`: clients read the same status, fields up to order and body |
| C99 | `serve`, `vars_of`, `path_parse` | variables come from `binds`, hence are members of the request path, whose segments are normal (C01); two handlers agreeing on safe variables give equal runs |
| C100 R | `sys_start`, `tls_start` | both depend on the configuration through `cf_ssl` only |
| C101 R | `error_send`, `NOT_FOUND` | the body of every error answer is the constant page, which contains 404 NOT FOUND and neither 400 nor 501 |
| C102 R | `respond`, `has_body` | the chain keeps the body empty, so the answer is `error_send` of 404, as for the empty application |
| C103 R | `serve`, `request_from_raw` | every such stream is in `stream_waits`, which excludes the other kinds: the task blocks without writing |
| C104 R | `read_head_counted` (Model/Cost.v) | byte-by-byte delivery of n letters costs about n^2/2 comparisons; each search costs at most four times the data, each read takes at least a byte; in terms of reads: one search of all data for each |
| C105 R | `headers_sent`, `apply_op` | each call sets a header or leaves the list empty; induction over the calls. Counterexample: one `set` |
| C106 R | `get_extended_query`, `parse_extended_query`, `qv_str`, `qv_arr`, `qv_obj` | the displayed path is split at `&`; its items are the path with the first item, the middle items, the last item with `/`; then as C37 |
| C107 | `tasks_run` | the task leaves reading at the first turn after the stream is complete; each further turn runs a handler or ends the chain; then invariants of C71 |
| C108 R | `serve`, `parse_version` | every request carried by the stream runs the chain of handlers; the version is not consulted |
| C109 R | `serve`, `http11_check` | as C108: the validation only asks whether a Host line exists |
| C110 R | `tasks_run` | induction over the events: a reading task is only changed by input |
| C111 | `response_default`, `get_data`, `res_send`, `default_headers` | computation; no header to order |
| C112 R | `attachment_with_filename`, `debug_str` | each escaped character is read back by the quoted-string grammar of `Spec/ClientSpec.v`, which is functional; escapes are prefix-free. What is read back of any ASCII name is computed, so that the exact set follows. Three styles of `{:?}` (changes of the standard library over the years) are covered. The bytes written are those of the table in `Spec/LiteralSpec.v` (`C112_written`; for charsets `C46_charset_written`). `Model/DebugChars.v` prints names with characters beyond ASCII, for any table of hidden characters (`Spec/DebugSpec.v`, `C112_any_*`); on ASCII names it is the function of the other theorems. Counterexample: tab |
| C113 R | `from_raw_counted`, `read_request_counted` (Model/Memory.v) | the counting reader equals `read_request` in its first component; cases of the reader; decimal numerals up to isize::MAX have at most 19 digits |
| C114 | `serve`, `headers_parse` | both header tables answer the same lookups (C23); the framework itself looks up three names; handlers are extensional in the lookups |
| C115 | `derive_from_json`, `derive_to_json` (Model/Derive.v), and as texts (Model/DeriveText.v) | the generated tokens are read by the parser and run by the evaluator of `Spec/RustLang.v` (which knows nothing of the macros), by induction over the fields; then C61, C62, C67. Public fields and types with commas, which the derives mishandle, are covered by `C115_public_fields` and `C115_comma_types`. `C115_text`: running lexer and group reader over the texts piece by piece gives the same tokens, for every printer of token streams whose output is read back |
| C116 | `status_codes` (Model/StatusText.v) | induction over the lines of the table; the text of each arm is run through the lexer piece by piece as for C115; the enum and the match are read by `Spec/EnumLang.v`. Doc comments are not modelled. The table of octane_http by computation |
| C117 | `to_std_pathbuf`, `std_from`, `std_push` (Model/StdPath.v) | the segments of the pushed text are those of the base followed by those of the path (C01); `Spec/FsSpec.v` follows them |
| C118 R | `to_std_pathbuf`, `std_from` (Model/StdPath.v) | refuted for every file: a trailing slash asks for a directory; exact statements for both conversions |
| C119 | `tasks_run` (Model/Tasks.v) and everything below it | C107 says which handler calls are made and that the answer is written; C40 says how it is read; handlers keep `presentable` responses. For stateless handlers all states in the history are the first |
| C120 | `router_run_counted` (Model/RouteCost.v) | every table of a built router is made by insertions; an insertion adds at most the segments the new pattern has in common with the path to the nodes entered; found entries agree in full |
| C121 R | `headers_parse_counted` (Model/Cost.v) | n+1 lines of one empty header copy n(n+1) bytes; a value in the map is never longer than the lines read so far and each line has at least two bytes; names that occur at most k times: double counting over pairs of lines with one name |
| C122 R | `to_std_pathbuf`, `win_from`, `win_push` (Model/StdPath.v) | the segment `d:\a\b` is accepted and replaces every base; paths without backslash and colon are relative texts, whose push appends their steps; `Spec/WinSpec.v` follows drives and directories |
| C123 | `serve`, `build`, `router_run` (Model/Server.v, Model/Router.v) | induction over `unwatched`, a list of registrations without some of those that only watch (Spec/AppSpec.v): the two chains of calls end in the same response and related states |
| C124 | `serve`, `error_send` (Model/Server.v) | each of the three answers is computed from status, world and hash order only; `refused` (Spec/TaskSpec.v) and `unanswered` (Spec/AppSpec.v) say which requests get them |
| C125 R | `get_data`, `headers_block`, `octane_send` (Model/Response.v) | the lines of a response with cookies are followed by the body directly, so the lines of the body up to its first empty line join the head; the positive part from C40 and the uniqueness of `wire_reads` |
| C126 | `tasks_run` (Model/Tasks.v) | the invariant of C71 says a reading task has an input that has not ended; turns use up the job's weight (C72); a failed write closes a sending task; ended tasks stay ended |
| C127 | `serve`, `tasks_run`, `router_run` | one connection: the chains of both applications agree up to the call of the guard; all connections: in the history of C71 every call of a handler selected behind the guard is preceded by a call of the guard that let the request pass |
| C128 | `prog_run` (Model/Whole.v) | the program's tasks are those of `tasks_run` on the events of open connections; links open as C75/C76 say; then C119 |
| C129 R | `prog_run` (Model/Whole.v) | accept error, then the caller of `listen` returns: a request at work is never answered; nothing changes after that |
| C130 | `parse_query`, `parse_extended_query`, `get_query` | C34 and C37 give the items; an escaped item sets exactly its parameter |
| C131 | `Tasks.v` | calls that do not use the state are dropped from the history of C71 and moved next to the one that does; `served` of C55 for each connection |
| C132 R | `Workers.v` | `busy` counts the tasks between reading and answering; with all threads taken no event but a return is possible |
| C133 | `Tasks.v` along an infinite sequence of events | the work left decreases with every step of the task, the rest of the answer with every accepted byte; C71 says which answer |
| C134 R | `Server.v`, `Router.v` | no registration applies, so the chain is empty, the response has no body and `error!(404)` is sent |
| C135 R | `Server.v`, `Router.v` | `alike_for`: the same registrations apply, so the chains are equal and handlers that ignore the method do the same |
| C136 R | `Router.v`, `Server.v` | the registrations of a mounted router are those of the application (C12); those without a path apply to everything |
| C137 | `Tasks.v` | `total`: the shared state with the changes still pending in all tasks applied is the same after every step; it depends on the input of the connections only |
| C138 | `Whole.v`, `Tasks.v` | what the tasks hear of an infinite execution is an infinite execution of `Tasks.v` (other events become steps without effect on another connection), so C133 applies; with well-behaved handlers the story can only end in the answer of C119 |
| C139 | `Request.v`, `Server.v` | the reads of 512-byte buffers are specified from the segments (`read_as`); the remainder kept by the head reader is the text `along`, unique; the rest is a function of it, the stream and the ending |
| C140 | `Router.v`, `Tasks.v`, `Whole.v` | bisimulation of the two programs: jobs are related by the sorted list of matches still to be called (`loop_inv`), although tables, indices and match vectors differ; the converse runs one probing handler per variable name |
| C141 | `Time.v`, `Response.v` | order from the day-by-day calendar of C48; the text determines all fields but the weekday, in September too |
| C142 | `Request.v`, `Router.v`, `Response.v`, `Server.v` | both builds read requests that agree in all but what the features add; the same handlers are called with the same variables; no cookie is ever set; bisimulation for whole programs |
| C143 R | `Unread.v`, `Request.v` | the readers return, besides their result, the stream that is left; the result is that of the reader of the other properties; what is left is computed from the stream, the announced length and what arrives with the end of the head |
| C144 R | `Whole.v` | executions possible under a limit on connections held; the failed accept ends the listener, and `PrReturn` the program; otherwise the listener is accepting after every prefix |
| C145 R | `Path.v`, `Request.v`, `Router.v`, `Server.v` | the request text for a path is constructed and shown to be read as that path; handlers that note their calls; patterns with spaces (or with `:x` without url_variables) match no path a request line can carry |
| C146 R | `Router` with edited fields (Model/Edit.v), `run_matches`, `run_loop` | a router is abstracted to a list of items with indices through registration, assignment and mounting; the loop is a merge of two sorted lists and the middlewares as they stand, whose k-th element has the greatest index so far as its turn |
| C147 R | `Response` with assigned fields (Model/Fields.v), `default_headers`, `send`, `Default` | the histories of C68, extended by assignments; the body agrees with the header as long as the field agrees with the body or is given anew before it is used |
| C148 R | `get_query`, `unescape_hex`, `RequestLine::parse`, `Headers::parse`, `Response::set`/`redirect`/`with_type`, `get_data` | request texts are pieces of text split at CR LF, and the round trip of C40 holds for values with CR or LF alone; the refutation runs the server on a request for every header |
| C149 | `Headers::parse`, `Request::parse`, `get_query`, `get_extended_query`, `unescape_hex`, `PathBuf::parse`, route variables | each token of a query adds at most its length to the map, decoding shortens; headers through C22's folding, per name; path through the resolution steps of C02; variables sit at distinct segments |
| C150 | `unescape_hex`, `DoublePeek`, `parse_query`, `parse_extended_query`, `get_query`, `get_extended_query` | counting versions proved equal to the functions (Model/QueryCost.v); a pass of the decoder that takes one character makes at most 4 steps, one that takes three makes 6; each item costs at most 7 (9) per byte, summed over the pieces |
| C151 | `Spliterator`, `find_in_slice` (Model/SplitCost.v) | a search that succeeds at offset j makes at most (j+1)·len comparisons and takes j+len elements away; the last one is bounded by the rest |
| C152 | `RequestLine::parse`, `PathBuf::parse` (Model/LineCost.v) | each chunk of length n costs at most 4(n+1), by cases on its length; the chunks and separators add up to the path |
| C153 | `get_data`, `status_line`, `headers` (Model/WriteCost.v) | induction over headers and cookies; each byte of a header line is copied three times, of a cookie line five times. The size from the same induction, the order by permutation |

## 5. Disagreements between code and expectation (findings)

Each is proved in the theorem named, or visible in a cited definition.

* A request can end its connection without an answer (task panic): path climbing above the root,
  version token shorter than five bytes, header line without `:` or otherwise invalid, body shorter
  than announced, huge Content-Length, Cookie header without `=` (C27).
* A request without any header line is answered 400 (C55).
* Bytes that arrive with the head beyond Content-Length become part of the body (C19).
* Routing sees the query string; `get_query` never splits at `?` (C35, C36).
* Percent-decoding widens bytes to Latin-1 (C32). The second of two peeks with two buffered items
  gives nothing (C33).
* `to_std_pathbuf` ends in a slash, so that the system finds no file there (C118).
* On Windows a segment such as `D:\secret.txt` or `..\x` is accepted and, pushed onto a directory, leaves it (C122).
* Repeated header lines of one name make the reader copy quadratically many bytes (C121).
* With a cookie set, header lines at the start of the body become headers of the response (C125).
* `is_ctl` misses 0x1F (C24). `HttpVersion` 2.0 prints "0.2" (C26). "Sept" in dates (C49).
  "applcation" in a MIME type (C52).
* File bodies are never transmitted although their length is announced (C44); cookies leave the
  head unterminated (C39); `send` then `send_file` announces the old length (C43).
* `set`, `redirect`, `with_type` copy CR LF (C41).
* All error answers carry the 404 page (`error_answer` in `Spec/ServerSpec.v`); a redirect without
  body is answered 404; error answers panic if the clock is before 1970.
* The first accept error ends the listener (C58) and, when the caller of `listen` returns, cuts off every
  connection (C129). As many idle clients as the system allows, and one more, suffice for that (C144); the callback runs before the bind (C59);
  `SO_REUSEADDR` is set after the bind (C88).
* The keep-alive decision of C30 is not used: one request per connection (C55). What a client sends after it,
  or as the body of a request that is refused for its head, is left unread when the connection is closed, so
  that the system resets the connection and the client may lose the answer (C143).
* There is no bound on the head and no time limit on reading (C64). The announced length of a body is
  reserved before any of it arrives (C113). Attachment names are written as Rust literals (C112).
* `with_config` drops `worker_threads`, `with_ssl_config` the port (C54).
* Without the `url_variables` feature a route `/:x` never matches (C07). Routes with a space in them are accepted
  and never reached, encoded or not (C145). The fields of `Router` are public; a middleware that is given the index
  `usize::MAX` makes dispatch panic (C146). An assigned `content_len` is announced whatever the body (C147).
* Derive macros: `pub` fields, types with commas, lifetimes, const parameters, `Fn(..)` bounds,
  defaults of parameters and raw identifiers are mishandled (C61, C67). The `json` code of the main
  crate does not compile as it stands; only the macros are modelled.
* With rustls a PKCS#8 key file panics the TLS task (C78). With both TLS features the crate does not
  compile.
* Handlers of different requests interleave (C74). They block the worker thread they run on, so that as many
  of them as there are threads stop the server (C132).
* A `return` in the body of `route_next!`/`route_stop!` overrides the macro (C90). `path!` uses the
  working directory of the compiler, not the manifest directory, and does not interpret escapes
  (C91). The documented form `route!(move |req, res| ..)` does not match the macro's pattern.
* The main attribute fixes the number of worker threads when the program is compiled (C95), and
  neither attribute switches on tokio's timers (C96). Any failure to open a file reads "File not
  found" (C94).
* Standard conformance: chunked bodies, repeated lengths, pipelining, absolute-form targets, encoded
  paths, 204/304, announcement of closing (C79-C81, C84-C86, C89). A header set in another spelling
  than the framework's is sent beside the automatic one (C87).
* A guard added to a mounted router guards the whole application, not that router (C136). A path registered
  for other methods only is answered 404, HEAD for a GET route too (C134, C135).

## 6. What is not modelled

* Below `read`/`write`/`accept`: TCP (also the reset that follows a close with unread bytes, C143), TLS records and cryptography, the kernel, time-outs (the code
  sets none), the tokio scheduler beyond "some enabled task makes the next step", memory
  exhaustion, stack depth.
* Work within one handler call is one step; a handler that runs forever is a task whose step never
  comes (C132). That a tokio runtime with n worker threads runs n tasks at a time, each until its next
  `await`, is taken from tokio's documentation.
* `copy` and `write_all` are modelled by what they transmit; errors of writes in `Tasks.v`.
* Not modelled because they have no behaviour of their own: trait boilerplate (`Deref`, `Default`,
  `Debug`), doc examples, build files, `deref!`-style convenience macros.
* Compile errors of the Rust compiler on generated code are modelled only as far as C61, C67 say.
