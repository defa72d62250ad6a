(** Model of the status-code table of octane_http/src/lib.rs and of the macro that expands it
    (octane_macros/src/status.rs, octane_macros/src/util.rs). *)
From Verif.Model Require Export RustStd.
Local Open Scope Z_scope.

(** ** The macro *)

(** octane_macros/src/util.rs:7-21 one pass of the loop of [pascal_case] *)
Definition pascal_step (st : str * bool) (c : byte) : str * bool :=
  let '(ret, uppercase) := st in
  if beqb c SP then (ret, true)
  else if negb (is_alpha c) then (ret, uppercase)
  else (ret ++ [if uppercase then upper c else lower c], false).
(** octane_macros/src/util.rs:4-23 [pascal_case].  Scans bytes: a non-ASCII character is skipped
    like each of its bytes. *)
Definition pascal_case (dat : str) : str := fst (fold_left pascal_step dat ([], true)).

(** The tokens of the macro input: number literals, string literals (their content), others.
    (octane_macros/src/status.rs:11-29) *)
Inductive status_tok := TNum (repr : str) | TStr (content : str) | TOther.

(** The source text of a literal token: a string literal is quoted (no escapes in the table).
    (octane_macros/src/status.rs:13) *)
Definition lit_repr (t : status_tok) : option str :=
  match t with
  | TNum r => Some r
  | TStr s => Some ([x22] ++ s ++ [x22])
  | TOther => None
  end.

(** [str::parse::<i32>()] (octane_macros/src/status.rs:12-18) *)
Definition parse_i32 (s : str) : option Z :=
  match s with
  | x2d :: (_ :: _) as r =>
      match parse_uint 2147483648 (tl s) with
      | Some n => match tl s with x2b :: _ => None | _ => Some (- Z.of_N n) end
      | None => None
      end
  | _ => match parse_uint 2147483647 s with Some n => Some (Z.of_N n) | None => None end
  end.

(** octane_macros/src/status.rs:10-31 the loop: the state is [is_string], [prev_num], [entries].
    Panics (a compile error) if a number does not parse. *)
Fixpoint status_loop (is_string : bool) (prev_num : Z) (entries : list (Z * str * str))
    (toks : list status_tok) : outcome (list (Z * str * str)) :=
  match toks with
  | [] => Done entries
  | t :: rest =>
      match lit_repr t with
      | None => status_loop is_string prev_num entries rest
      | Some repr =>
          if negb is_string then
            match parse_i32 repr with
            | None => Panic
            | Some val => status_loop (negb is_string) val entries rest
            end
          else
            let name := firstn (length repr - 2) (skipn 1 repr) in
            status_loop (negb is_string) prev_num
              (entries ++ [(prev_num, name, pascal_case name)]) rest
      end
  end.
(** octane_macros/src/status.rs:4-31: the entries from which both the enum (25, 32-42) and the
    match arms of [fetch] (43-51) are generated. *)
Definition status_entries (toks : list status_tok) : outcome (list (Z * str * str)) :=
  status_loop false (-1) [] toks.

(** ** The table *)

(** octane_http/src/lib.rs:53-115 *)
Definition status_source : list status_tok := [
  TNum (B "100"); TStr (B "Continue");
  TNum (B "101"); TStr (B "Switching Protocol");
  TNum (B "102"); TStr (B "Processing");
  TNum (B "103"); TStr (B "Early Hints");
  TNum (B "200"); TStr (B "OK");
  TNum (B "201"); TStr (B "Created");
  TNum (B "202"); TStr (B "Accepted");
  TNum (B "203"); TStr (B "Non-Authoritative Information");
  TNum (B "204"); TStr (B "No Content");
  TNum (B "205"); TStr (B "Reset Content");
  TNum (B "206"); TStr (B "Partial Content");
  TNum (B "207"); TStr (B "Multi-Status");
  TNum (B "208"); TStr (B "Already Reported");
  TNum (B "226"); TStr (B "IM Used");
  TNum (B "300"); TStr (B "Multiple Choice");
  TNum (B "301"); TStr (B "Moved Permanently");
  TNum (B "302"); TStr (B "Found");
  TNum (B "303"); TStr (B "See Other");
  TNum (B "304"); TStr (B "Not Modified");
  TNum (B "307"); TStr (B "Temporary Redirect");
  TNum (B "308"); TStr (B "Permanent Redirect");
  TNum (B "400"); TStr (B "Bad Request");
  TNum (B "401"); TStr (B "Unauthorized");
  TNum (B "402"); TStr (B "Payment Required");
  TNum (B "403"); TStr (B "Forbidden");
  TNum (B "404"); TStr (B "Not Found");
  TNum (B "405"); TStr (B "Method Not Allowed");
  TNum (B "406"); TStr (B "Not Acceptable");
  TNum (B "407"); TStr (B "Proxy Authentication Required");
  TNum (B "408"); TStr (B "Request Timeout");
  TNum (B "409"); TStr (B "Conflict");
  TNum (B "410"); TStr (B "Gone");
  TNum (B "411"); TStr (B "Length Required");
  TNum (B "412"); TStr (B "Precondition Failed");
  TNum (B "413"); TStr (B "Payload Too Large");
  TNum (B "414"); TStr (B "URI Too Long");
  TNum (B "415"); TStr (B "Unsupported Media Type");
  TNum (B "416"); TStr (B "Range Not Satisfiable");
  TNum (B "417"); TStr (B "Expectation Failed");
  TNum (B "418"); TStr (B "I'm a teapot");
  TNum (B "421"); TStr (B "Misdirected Request");
  TNum (B "422"); TStr (B "Unprocessable Entity");
  TNum (B "423"); TStr (B "Locked");
  TNum (B "424"); TStr (B "Failed Dependency");
  TNum (B "425"); TStr (B "Too Early");
  TNum (B "426"); TStr (B "Upgrade Required");
  TNum (B "428"); TStr (B "Precondition Required");
  TNum (B "429"); TStr (B "Too Many Requests");
  TNum (B "431"); TStr (B "Request Header Fields Too Large");
  TNum (B "451"); TStr (B "Unavailable For Legal Reasons");
  TNum (B "500"); TStr (B "Internal Server Error");
  TNum (B "501"); TStr (B "Not Implemented");
  TNum (B "502"); TStr (B "Bad Gateway");
  TNum (B "503"); TStr (B "Service Unavailable");
  TNum (B "504"); TStr (B "Gateway Timeout");
  TNum (B "505"); TStr (B "HTTP Version Not Supported");
  TNum (B "506"); TStr (B "Variant Also Negotiates");
  TNum (B "507"); TStr (B "Insufficient Storage");
  TNum (B "508"); TStr (B "Loop Detected");
  TNum (B "510"); TStr (B "Not Extended");
  TNum (B "511"); TStr (B "Network Authentication Required") ].

(** The enum generated by the macro (octane_macros/src/status.rs:25, 32-42) for the table. *)
Inductive status_code :=
| StContinue
| StSwitchingProtocol
| StProcessing
| StEarlyHints
| StOk
| StCreated
| StAccepted
| StNonauthoritativeInformation
| StNoContent
| StResetContent
| StPartialContent
| StMultistatus
| StAlreadyReported
| StImUsed
| StMultipleChoice
| StMovedPermanently
| StFound
| StSeeOther
| StNotModified
| StTemporaryRedirect
| StPermanentRedirect
| StBadRequest
| StUnauthorized
| StPaymentRequired
| StForbidden
| StNotFound
| StMethodNotAllowed
| StNotAcceptable
| StProxyAuthenticationRequired
| StRequestTimeout
| StConflict
| StGone
| StLengthRequired
| StPreconditionFailed
| StPayloadTooLarge
| StUriTooLong
| StUnsupportedMediaType
| StRangeNotSatisfiable
| StExpectationFailed
| StImATeapot
| StMisdirectedRequest
| StUnprocessableEntity
| StLocked
| StFailedDependency
| StTooEarly
| StUpgradeRequired
| StPreconditionRequired
| StTooManyRequests
| StRequestHeaderFieldsTooLarge
| StUnavailableForLegalReasons
| StInternalServerError
| StNotImplemented
| StBadGateway
| StServiceUnavailable
| StGatewayTimeout
| StHttpVersionNotSupported
| StVariantAlsoNegotiates
| StInsufficientStorage
| StLoopDetected
| StNotExtended
| StNetworkAuthenticationRequired
| StOther (n : Z) (s : str).

(** The function generated by the macro (octane_macros/src/status.rs:43-66). *)
Definition status_fetch (c : status_code) : Z * str :=
  match c with
  | StContinue => (100, B "Continue")
  | StSwitchingProtocol => (101, B "Switching Protocol")
  | StProcessing => (102, B "Processing")
  | StEarlyHints => (103, B "Early Hints")
  | StOk => (200, B "OK")
  | StCreated => (201, B "Created")
  | StAccepted => (202, B "Accepted")
  | StNonauthoritativeInformation => (203, B "Non-Authoritative Information")
  | StNoContent => (204, B "No Content")
  | StResetContent => (205, B "Reset Content")
  | StPartialContent => (206, B "Partial Content")
  | StMultistatus => (207, B "Multi-Status")
  | StAlreadyReported => (208, B "Already Reported")
  | StImUsed => (226, B "IM Used")
  | StMultipleChoice => (300, B "Multiple Choice")
  | StMovedPermanently => (301, B "Moved Permanently")
  | StFound => (302, B "Found")
  | StSeeOther => (303, B "See Other")
  | StNotModified => (304, B "Not Modified")
  | StTemporaryRedirect => (307, B "Temporary Redirect")
  | StPermanentRedirect => (308, B "Permanent Redirect")
  | StBadRequest => (400, B "Bad Request")
  | StUnauthorized => (401, B "Unauthorized")
  | StPaymentRequired => (402, B "Payment Required")
  | StForbidden => (403, B "Forbidden")
  | StNotFound => (404, B "Not Found")
  | StMethodNotAllowed => (405, B "Method Not Allowed")
  | StNotAcceptable => (406, B "Not Acceptable")
  | StProxyAuthenticationRequired => (407, B "Proxy Authentication Required")
  | StRequestTimeout => (408, B "Request Timeout")
  | StConflict => (409, B "Conflict")
  | StGone => (410, B "Gone")
  | StLengthRequired => (411, B "Length Required")
  | StPreconditionFailed => (412, B "Precondition Failed")
  | StPayloadTooLarge => (413, B "Payload Too Large")
  | StUriTooLong => (414, B "URI Too Long")
  | StUnsupportedMediaType => (415, B "Unsupported Media Type")
  | StRangeNotSatisfiable => (416, B "Range Not Satisfiable")
  | StExpectationFailed => (417, B "Expectation Failed")
  | StImATeapot => (418, B "I'm a teapot")
  | StMisdirectedRequest => (421, B "Misdirected Request")
  | StUnprocessableEntity => (422, B "Unprocessable Entity")
  | StLocked => (423, B "Locked")
  | StFailedDependency => (424, B "Failed Dependency")
  | StTooEarly => (425, B "Too Early")
  | StUpgradeRequired => (426, B "Upgrade Required")
  | StPreconditionRequired => (428, B "Precondition Required")
  | StTooManyRequests => (429, B "Too Many Requests")
  | StRequestHeaderFieldsTooLarge => (431, B "Request Header Fields Too Large")
  | StUnavailableForLegalReasons => (451, B "Unavailable For Legal Reasons")
  | StInternalServerError => (500, B "Internal Server Error")
  | StNotImplemented => (501, B "Not Implemented")
  | StBadGateway => (502, B "Bad Gateway")
  | StServiceUnavailable => (503, B "Service Unavailable")
  | StGatewayTimeout => (504, B "Gateway Timeout")
  | StHttpVersionNotSupported => (505, B "HTTP Version Not Supported")
  | StVariantAlsoNegotiates => (506, B "Variant Also Negotiates")
  | StInsufficientStorage => (507, B "Insufficient Storage")
  | StLoopDetected => (508, B "Loop Detected")
  | StNotExtended => (510, B "Not Extended")
  | StNetworkAuthenticationRequired => (511, B "Network Authentication Required")
  | StOther n s => (n, s)
  end.

(** All the variants without payload, with their Rust names. (octane_http/src/lib.rs:53-115) *)
Definition all_status : list (status_code * str) := [
  (StContinue, B "Continue");
  (StSwitchingProtocol, B "SwitchingProtocol");
  (StProcessing, B "Processing");
  (StEarlyHints, B "EarlyHints");
  (StOk, B "Ok");
  (StCreated, B "Created");
  (StAccepted, B "Accepted");
  (StNonauthoritativeInformation, B "NonauthoritativeInformation");
  (StNoContent, B "NoContent");
  (StResetContent, B "ResetContent");
  (StPartialContent, B "PartialContent");
  (StMultistatus, B "Multistatus");
  (StAlreadyReported, B "AlreadyReported");
  (StImUsed, B "ImUsed");
  (StMultipleChoice, B "MultipleChoice");
  (StMovedPermanently, B "MovedPermanently");
  (StFound, B "Found");
  (StSeeOther, B "SeeOther");
  (StNotModified, B "NotModified");
  (StTemporaryRedirect, B "TemporaryRedirect");
  (StPermanentRedirect, B "PermanentRedirect");
  (StBadRequest, B "BadRequest");
  (StUnauthorized, B "Unauthorized");
  (StPaymentRequired, B "PaymentRequired");
  (StForbidden, B "Forbidden");
  (StNotFound, B "NotFound");
  (StMethodNotAllowed, B "MethodNotAllowed");
  (StNotAcceptable, B "NotAcceptable");
  (StProxyAuthenticationRequired, B "ProxyAuthenticationRequired");
  (StRequestTimeout, B "RequestTimeout");
  (StConflict, B "Conflict");
  (StGone, B "Gone");
  (StLengthRequired, B "LengthRequired");
  (StPreconditionFailed, B "PreconditionFailed");
  (StPayloadTooLarge, B "PayloadTooLarge");
  (StUriTooLong, B "UriTooLong");
  (StUnsupportedMediaType, B "UnsupportedMediaType");
  (StRangeNotSatisfiable, B "RangeNotSatisfiable");
  (StExpectationFailed, B "ExpectationFailed");
  (StImATeapot, B "ImATeapot");
  (StMisdirectedRequest, B "MisdirectedRequest");
  (StUnprocessableEntity, B "UnprocessableEntity");
  (StLocked, B "Locked");
  (StFailedDependency, B "FailedDependency");
  (StTooEarly, B "TooEarly");
  (StUpgradeRequired, B "UpgradeRequired");
  (StPreconditionRequired, B "PreconditionRequired");
  (StTooManyRequests, B "TooManyRequests");
  (StRequestHeaderFieldsTooLarge, B "RequestHeaderFieldsTooLarge");
  (StUnavailableForLegalReasons, B "UnavailableForLegalReasons");
  (StInternalServerError, B "InternalServerError");
  (StNotImplemented, B "NotImplemented");
  (StBadGateway, B "BadGateway");
  (StServiceUnavailable, B "ServiceUnavailable");
  (StGatewayTimeout, B "GatewayTimeout");
  (StHttpVersionNotSupported, B "HttpVersionNotSupported");
  (StVariantAlsoNegotiates, B "VariantAlsoNegotiates");
  (StInsufficientStorage, B "InsufficientStorage");
  (StLoopDetected, B "LoopDetected");
  (StNotExtended, B "NotExtended");
  (StNetworkAuthenticationRequired, B "NetworkAuthenticationRequired") ].

(** octane_http/src/lib.rs:117-122 [Into<i32>] *)
Definition status_into_i32 (c : status_code) : Z := fst (status_fetch c).
(** octane_http/src/lib.rs:124-129 [Display] *)
Definition status_display (c : status_code) : str := snd (status_fetch c).
