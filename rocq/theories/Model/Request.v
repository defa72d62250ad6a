(** Model of src/request.rs, src/util.rs (Spliterator), src/cookie.rs, src/http/*.rs and of the
    request reader octane_http/src/http1x/mod.rs. *)
From Verif.Model Require Export RustStd Path.

(** ** Methods and versions *)

(** src/request.rs:24-47 [RequestMethod] *)
Inductive method :=
| MOptions | MGet | MHead | MPost | MPut | MDelete | MTrace | MConnect | MPatch | MAll | MNone.
(** src/request.rs:23 derived [PartialEq] *)
Definition method_eqb (a b : method) : bool :=
  match a, b with
  | MOptions, MOptions | MGet, MGet | MHead, MHead | MPost, MPost | MPut, MPut
  | MDelete, MDelete | MTrace, MTrace | MConnect, MConnect | MPatch, MPatch
  | MAll, MAll | MNone, MNone => true
  | _, _ => false
  end.
(** src/request.rs:51-53 [RequestMethod::is_some] *)
Definition method_is_some (m : method) : bool :=
  match m with MNone => false | _ => true end.

(** octane_http/src/lib.rs:27-38 [HttpVersion] *)
Inductive http_version := Http11 | Http10 | Http02 | Http09 | HttpInvalid.
(** octane_http/src/lib.rs:40-51 [ToString for HttpVersion] *)
Definition version_to_string (v : http_version) : str :=
  match v with
  | Http11 => B "1.1"
  | Http10 => B "1.0"
  | Http09 => B "0.9"
  | Http02 => B "0.2"
  | HttpInvalid => B ""
  end.

(** ** Request line *)

(** src/request.rs:75-82 [RequestLine] *)
Record request_line := RequestLine {
  rl_method : method;
  rl_path : pathbuf;
  rl_version : http_version
}.

(** src/request.rs:96-102 *)
Definition parse_version (ver : str) : http_version :=
  if seqb ver (B "1.1") then Http11
  else if seqb ver (B "1.0") then Http10
  else if seqb ver (B "2.0") then Http02
  else if seqb ver (B "0.9") then Http09
  else HttpInvalid.
(** src/request.rs:107-118 *)
Definition parse_method (m : str) : method :=
  if seqb m (B "POST") then MPost
  else if seqb m (B "GET") then MGet
  else if seqb m (B "DELETE") then MDelete
  else if seqb m (B "PUT") then MPut
  else if seqb m (B "OPTIONS") then MOptions
  else if seqb m (B "HEAD") then MHead
  else if seqb m (B "TRACE") then MTrace
  else if seqb m (B "CONNECT") then MConnect
  else if seqb m (B "PATCH") then MPatch
  else MNone.

(** src/request.rs:87-124 [RequestLine::parse].  [toks.next()?] on the k-th token is
    [nth_error toks k]; an invalid path and a bad [split_at] panic. *)
Definition request_line_parse (ft : features) (line : str) : outcome (option request_line) :=
  let toks := split_char SP line in
  match nth_error toks 0 with
  | None => Done None
  | Some m =>
  match nth_error toks 1 with
  | None => Done None
  | Some p =>
  match path_parse p with
  | None => Panic
  | Some path =>
  match nth_error toks 2 with
  | None => Done None
  | Some version =>
      obind (split_at version 5) (fun fv =>
        let '(first, ver) := fv in
        let enum_ver := parse_version ver in
        if faithful ft &&
           (negb (seqb first (B "HTTP/")) ||
            match nth_error toks 3 with Some _ => true | None => false end)
        then Done None
        else Done (Some (RequestLine (parse_method m) path enum_ver)))
  end end end end.

(** ** Headers *)

(** octane_http/src/http1x/mod.rs:54-72 [find_in_slice]: the outer loop over start offsets
    [0 ..= len - needle.len()], the inner loop comparing [needle.len()] elements. *)
Fixpoint slice_matches_at (haystack needle : str) (i : nat) : bool :=
  match needle with
  | [] => true
  | n :: needle' =>
      match nth_error haystack i with
      | Some h => if beqb h n then slice_matches_at haystack needle' (S i) else false
      | None => false   (* out of bounds: cannot happen for the offsets tried below *)
      end
  end.
(** octane_http/src/http1x/mod.rs:59-70 the outer loop *)
Fixpoint find_from (haystack needle : str) (i count : nat) : option nat :=
  match count with
  | O => None
  | S count' => if slice_matches_at haystack needle i then Some i
                else find_from haystack needle (S i) count'
  end.
(** octane_http/src/http1x/mod.rs:54-72 [find_in_slice] *)
Definition find_in_slice (haystack needle : str) : option nat :=
  if Nat.ltb (length haystack) (length needle) then None
  else find_from haystack needle 0 (S (length haystack - length needle)).

(** src/util.rs:9-13 [Spliterator] *)
Record spliterator := Spliterator { sp_string : str; sp_finished : bool; sp_seq : str }.
(** src/util.rs:16-22 [Spliterator::new] *)
Definition spliterator_new (s seq : str) : spliterator := Spliterator s false seq.
(** src/util.rs:32-47 [Spliterator::next] *)
Definition spliterator_next (t : spliterator) : option str * spliterator :=
  if sp_finished t then (None, t)
  else match find_in_slice (sp_string t) (sp_seq t) with
       | Some v =>
           (Some (firstn v (sp_string t)),
            Spliterator (skipn (length (sp_seq t)) (skipn v (sp_string t))) false (sp_seq t))
       | None => (Some (sp_string t), Spliterator (sp_string t) true (sp_seq t))
       end.
(** [for tok in toks]: collects until [None]; [None] = fuel exhausted (callers pass
    [2 + length], proved sufficient for a non-empty separator). (src/util.rs:29-48,
    src/request.rs:207, 211) *)
Fixpoint spliterator_collect (fuel : nat) (t : spliterator) : option (list str) :=
  match fuel with
  | O => None
  | S f => match spliterator_next t with
           | (None, _) => Some []
           | (Some x, t') => match spliterator_collect f t' with
                             | Some l => Some (x :: l)
                             | None => None
                             end
           end
  end.

(** src/constants.rs:24-28 [TOKEN_CHARS] *)
Definition TOKEN_CHARS : str :=
  B "!#$%&'*+-.0123456789ABCDEFGHIJKLMNOPQRSTUVWXYZ^_`abcdefghijklmnopqrstuvwxyz|~".
(** src/constants.rs:23-31 [TOKEN_CHARS.get(&c)] on the HashSet of those characters *)
Definition is_token_char (c : char) : bool := existsb (fun b => N.eqb c (bN b)) TOKEN_CHARS.

(** src/request.rs:136-139 [Header] *)
Record header := Header { h_name : str; h_value : str }.

(** [str::splitn(2, c)] (src/request.rs:145) *)
Definition splitn2 (c : byte) (s : str) : str * option str :=
  match find_char c s with
  | Some i => (firstn i s, Some (skipn (S i) s))
  | None => (s, None)
  end.

(** src/request.rs:144-163 [Header::parse] *)
Definition header_parse (ft : features) (line : str) : option header :=
  let '(name, rest) := splitn2 COLON line in
  if is_nil name then None
  else if faithful ft && negb (forallb is_token_char (chars name)) then None
  else match rest with
       | None => None
       | Some v =>
           let value := trim_start_matches (fun c => beqb c SP || beqb c HT) v in
           if faithful ft && existsb is_ctl (chars value) then None
           else Some (Header name value)
       end.

(** src/request.rs:194-202 [Headers]; [raw] is empty when the feature raw_headers is off. *)
Record headers := Headers { parsed : list (str * str); raw : list header }.
(** [Deref] to the HashMap, src/request.rs:447: [headers.get(name)]. *)
Definition headers_get (h : headers) (name : str) : option str := mget seqb name (parsed h).

(** src/request.rs:216-219 the [entry(..).and_modify(..).or_insert_with(..)] chain *)
Definition add_header (m : list (str * str)) (p : header) : list (str * str) :=
  let key := to_ascii_lowercase (h_name p) in
  match mget seqb key m with
  | Some v => mset seqb key (v ++ B ", " ++ h_value p) m
  | None => mset seqb key (h_value p) m
  end.

(** src/request.rs:211-222 the loop over the lines, [?] returns [None]. *)
Fixpoint headers_loop (ft : features) (acc : headers) (toks : list str) : option headers :=
  match toks with
  | [] => Some acc
  | tok :: rest =>
      if utf8_valid tok then
        match header_parse ft tok with
        | None => None
        | Some p =>
            headers_loop ft
              (Headers (add_header (parsed acc) p)
                       (if raw_headers_on ft then raw acc ++ [p] else raw acc)) rest
        end
      else None
  end.
(** src/request.rs:206-230 [Headers::parse] *)
Definition headers_parse (ft : features) (request : str) : option headers :=
  match spliterator_collect (2 + length request) (spliterator_new request CRLF) with
  | Some toks => headers_loop ft (Headers [] []) toks
  | None => None
  end.

(** ** Cookies *)

(** The external [cookie] crate (cookie 0.14): parsing of one "name=value; attributes" string and
    printing.  Nothing is assumed about it. (src/cookie.rs:75, 83) *)
Record cookie_lib := CookieLib {
  ck : Type;
  ck_parse : str -> option ck;      (* CookieRs::parse(..).ok() *)
  ck_show : ck -> str               (* CookieRs::to_string *)
}.

(** src/cookie.rs:70-79 [Cookie::parse]: [unwrap] panics on the first bad item. *)
Definition cookie_parse (cl : cookie_lib) (header : str) : outcome (list (ck cl)) :=
  omapM (fun tok => unwrap (ck_parse cl tok)) (split_str (B "; ") header).
(** src/cookie.rs:82-84 [Cookie::serialise] *)
Definition cookie_serialise (cl : cookie_lib) (c : ck cl) : str :=
  B "Set-Cookie:" ++ [SP] ++ ck_show cl c.

(** ** Requests *)

(** src/request.rs:259-270 [Request] *)
Record request (cl : cookie_lib) := Request {
  rq_line : request_line;
  rq_headers : headers;
  rq_body : str;
  rq_cookies : list (ck cl)
}.
Arguments Request {cl}.
Arguments rq_line {cl}.
Arguments rq_headers {cl}.
Arguments rq_body {cl}.
Arguments rq_cookies {cl}.

(** src/request.rs:275-295 [Request::parse] (always [Some] unless cookie parsing panics) *)
Definition request_parse (ft : features) (cl : cookie_lib)
    (rl : request_line) (h : headers) (body : str) : outcome (option (request cl)) :=
  if cookies_on ft then
    match headers_get h (B "cookie") with
    | Some v => obind (cookie_parse cl v) (fun cs => Done (Some (Request rl h body cs)))
    | None => Done (Some (Request rl h body []))
    end
  else Done (Some (Request rl h body [])).

(** ** The network

    What the peer does: the stream arrives as a list of segments, then the peer closes ([Eof]),
    the connection breaks ([Broken], every later read is an error), or nothing more ever arrives
    ([Stall]).  A [read] returns at most the requested number of bytes of the first segment. (what
    octane_http/src/http1x/mod.rs:27 and src/request.rs:311 meet) *)
Inductive ending := Eof | Broken | Stall.
(** The stream read in octane_http/src/http1x/mod.rs:27 and src/request.rs:311: see [ending] *)
Record transport := Transport { segs : list str; fin : ending }.

(** Result of the reading code (octane_http/src/http1x/mod.rs:17-51, src/request.rs:296-323): a
    value, a panic, waiting for ever, or fuel exhausted (an artefact, proved impossible) *)
Inductive io (A : Type) :=
| IoDone (a : A)
| IoPanic        (* the task panicked *)
| IoBlocked      (* the task waits forever *)
| IoFuel.        (* model artefact: fuel exhausted; proved impossible *)
Arguments IoDone {A}.
Arguments IoPanic {A}.
Arguments IoBlocked {A}.
Arguments IoFuel {A}.

(** [.await] and sequencing, octane_http/src/http1x/mod.rs:27, src/request.rs:311 *)
Definition io_bind {A C} (x : io A) (f : A -> io C) : io C :=
  match x with
  | IoDone a => f a
  | IoPanic => IoPanic
  | IoBlocked => IoBlocked
  | IoFuel => IoFuel
  end.
(** Code that does not read, such as src/server.rs:175-176 *)
Definition io_of_outcome {A} (o : outcome A) : io A :=
  match o with Done a => IoDone a | Panic => IoPanic end.

(** [AsyncReadExt::read(&mut buf[..k]).await]; [None] = [Err(_)]. (octane_http/src/http1x/mod.rs:27) *)
Definition tr_read (k : nat) (t : transport) : io (option str * transport) :=
  match segs t with
  | [] => match fin t with
          | Eof => IoDone (Some [], t)
          | Broken => IoDone (None, t)
          | Stall => IoBlocked
          end
  | s :: rest =>
      if Nat.leb (length s) k then IoDone (Some s, Transport rest (fin t))
      else IoDone (Some (firstn k s), Transport (skipn k s :: rest) (fin t))
  end.

(** octane_http/src/http1x/mod.rs:75-81 [parse_without_body] *)
Definition parse_without_body (data : str) : option (str * str) :=
  match find_str CRLF data with
  | None => None
  | Some n => Some (firstn n data, skipn 2 (skipn n data))
  end.

(** octane_http/src/http1x/mod.rs:32 *)
Definition CRLFCRLF : str := CRLF ++ CRLF.

(** What [Http1xReader::new] returns: headers text, request line text, bytes already read after
    the head, and the rest of the stream; or [Err(BadRequest)]. (octane_http/src/http1x/mod.rs:20,
    29, 41, 45-50) *)
Inductive head_result :=
| HeadOk (raw_headers raw_request_line body_remainder : str) (reader_left : transport)
| HeadBad.

(** Number of bytes to come: fuel for the loop octane_http/src/http1x/mod.rs:26-44 *)
Definition total_len (l : list str) : nat := list_sum (map (@length byte) l).

(** octane_http/src/http1x/mod.rs:26-44 the read loop ([BUF] = 512, line 24).  A read error is
    [unwrap]ped, hence panics. *)
Definition BUF : nat := 512.
(** octane_http/src/http1x/mod.rs:26-44 the read loop *)
Fixpoint head_loop (fuel : nat) (data : str) (t : transport) : io head_result :=
  match fuel with
  | O => IoFuel
  | S fuel' =>
      io_bind (tr_read BUF t) (fun rt =>
        let '(r, t') := rt in
        match r with
        | None => IoPanic
        | Some chunk =>
            if Nat.eqb (length chunk) 0 then IoDone HeadBad
            else
              let data' := data ++ chunk in
              match find_in_slice data' CRLFCRLF with
              | None => head_loop fuel' data' t'
              | Some i =>
                  let head := firstn i data' in
                  if utf8_valid head then
                    match parse_without_body head with
                    | Some (rl, heads) => IoDone (HeadOk heads rl (skipn (i + 4) data') t')
                    | None => IoDone HeadBad
                    end
                  else IoDone HeadBad
              end
        end)
  end.
(** octane_http/src/http1x/mod.rs:17-51 [Http1xReader::new] *)
Definition read_head (t : transport) : io head_result :=
  head_loop (S (total_len (segs t))) [] t.

(** [AsyncReadExt::read_exact] for [n > 0] bytes: keeps reading; a read of 0 bytes is an
    UnexpectedEof error.  [None] = error. (src/request.rs:311) *)
Fixpoint read_exact_segs (n : nat) (l : list str) (e : ending) : io (option str) :=
  match l with
  | [] => match e with
          | Stall => IoBlocked
          | _ => IoDone None
          end
  | s :: rest =>
      if is_nil s then IoDone None
      else if Nat.leb n (length s) then IoDone (Some (firstn n s))
      else io_bind (read_exact_segs (n - length s) rest e) (fun o =>
             IoDone (match o with Some x => Some (s ++ x) | None => None end))
  end.

(** Limit of allocations ([vec!] panics with capacity overflow), src/request.rs:310 *)
Definition ISIZE_MAX : N := 9223372036854775807.

(** src/request.rs:304-307 *)
Definition content_length (h : headers) : N :=
  match headers_get h (B "content-length") with
  | Some s => match parse_uint USIZE_MAX s with Some n => n | None => 0%N end
  | None => 0%N
  end.

(** src/request.rs:296-323 [Request::from_raw].  [vec![0; n]] (line 310) and [Vec::with_capacity(n)]
    (line 312) panic (capacity overflow) above isize::MAX; allocation failure below that is not
    modelled. *)
Definition request_from_raw (ft : features) (cl : cookie_lib) (h : headers) (rl : request_line)
    (body_remainder : str) (reader : transport) : io (option (request cl)) :=
  let body_len := content_length h in
  if (0 <? body_len)%N then
    let have := N.of_nat (length body_remainder) in
    if (have <? body_len)%N then
      let missing := (body_len - have)%N in
      if (ISIZE_MAX <? missing)%N then IoPanic
      else
        io_bind (read_exact_segs (N.to_nat missing) (segs reader) (fin reader)) (fun o =>
          match o with
          | None => IoPanic
          | Some temp =>
              if (ISIZE_MAX <? body_len)%N then IoPanic
              else io_of_outcome (request_parse ft cl rl h (body_remainder ++ temp))
          end)
    else io_of_outcome (request_parse ft cl rl h body_remainder)
  else io_of_outcome (request_parse ft cl rl h []).

(** ** Keep-Alive *)

(** src/request.rs:354-357 [KeepAlive] *)
Record keepalive := KeepAlive { ka_timeout : option N; ka_max : option N }.

(** src/request.rs:368-384 one iteration of the loop *)
Definition keepalive_item (ret : keepalive) (tok : str) : keepalive :=
  let trimmed := trim tok in
  match find_char x3d trimmed with
  | None => ret
  | Some i =>
      let name := firstn i trimmed in
      let val_str := skipn i trimmed in
      match parse_uint U64_MAX (skipn 1 val_str) with
      | None => ret
      | Some v =>
          if seqb name (B "timeout") then KeepAlive (Some v) (ka_max ret)
          else if seqb name (B "max") then KeepAlive (ka_timeout ret) (Some v)
          else ret
      end
  end.
(** src/request.rs:363-386 [KeepAlive::parse] *)
Definition keepalive_parse (header : str) : keepalive :=
  fold_left keepalive_item (split_char x2c header) (KeepAlive None None).

(** ** Version-specific validation: src/http *)

(** src/http/mod.rs:11-15 [KeepAliveState]; a Duration is its number of seconds. *)
Inductive keepalive_state := KClose | KUserDefined | KParticular (secs : N).

(** src/http/mod.rs:17-21 [Http], without the borrowed request.  The only error code ever stored
    is BadRequest, so [err_code : Option<StatusCode>] becomes a boolean "is BadRequest". *)
Record http_check := HttpCheck { err_bad_request : bool; keep_alive : keepalive_state }.

(** src/http/http11.rs:4-15 *)
Definition http11_check (h : headers) (v : http_check) : http_check :=
  let v1 := match headers_get h (B "host") with
            | None => HttpCheck true (keep_alive v)
            | Some _ => v
            end in
  match headers_get h (B "connection") with
  | Some c =>
      if seqb c (B "keep-alive") then HttpCheck (err_bad_request v1) KUserDefined
      else if seqb c (B "close") then HttpCheck (err_bad_request v1) KClose
      else v1
  | None => v1
  end.
(** src/http/http10.rs:5-19 *)
Definition http10_check (h : headers) (v : http_check) : http_check :=
  match headers_get h (B "connection") with
  | Some c =>
      if seqb c (B "keep-alive") then
        match headers_get h (B "keep-alive") with
        | Some ka =>
            let d := keepalive_parse ka in
            HttpCheck (err_bad_request v)
                      (KParticular (match ka_timeout d with Some t => t | None => 0%N end))
        | None => v
        end
      else if seqb c (B "close") then HttpCheck (err_bad_request v) KClose
      else v
  | None => v
  end.
(** src/http/mod.rs:24-36 [Http::validate] *)
Definition http_validate (ver : http_version) (h : headers) : http_check :=
  let handler := HttpCheck false KClose in
  match ver with
  | Http11 => http11_check h handler
  | Http10 => http10_check h handler
  | _ => handler
  end.
(** src/http/mod.rs:47-49 [keep_alive()] *)
Definition http_keep_alive (v : http_check) : bool :=
  match keep_alive v with KClose => false | _ => true end.
