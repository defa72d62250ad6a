(** Model of src/responder.rs, src/file_handler.rs, the reader of src/util.rs and src/error.rs. *)
From Verif.Model Require Export RustStd Path Request Time Status.

(** ** Unicode case mapping

    [str::to_lowercase]/[to_uppercase]: on ASCII strings the ASCII mapping; on other strings an
    arbitrary function [u] (the Unicode tables are not modelled). (src/file_handler.rs:69) *)
Definition to_lowercase (u : str -> str) (s : str) : str :=
  if ascii_str s then to_ascii_lowercase s else u s.
(** [str::to_uppercase], src/responder.rs:479 *)
Definition to_uppercase (u : str -> str) (s : str) : str :=
  if ascii_str s then to_ascii_uppercase s else u s.

(** What the outside world provides to one call: the clock (seconds since the epoch, [None] =
    before it), the file system, the Unicode case mappings, and the toolchain's way of printing
    strings with [{:?}]. (src/file_handler.rs:34-36) *)
Inductive fs_entry :=
| FsNoOpen                                 (* File::open fails *)
| FsNoMeta                                 (* metadata() fails *)
| FsNotFile                                (* a directory, ... *)
| FsFile (len : N) (content : str).        (* metadata().len(), and what reading yields *)
(** src/time.rs:29-41 (clock), src/file_handler.rs:34-36 (files), src/responder.rs:479 and
    src/file_handler.rs:69 (case mappings), src/responder.rs:159, 362 ([{:?}]) *)
Record world := World {
  clock : option N;
  fs : str -> fs_entry;
  ulower : str -> str;
  uupper : str -> str;
  dbg_sq : debug_style
}.

(** ** Paths and MIME types *)

(** [std::path::Path::file_name] (src/file_handler.rs:43) on Unix: the last component if it is a normal one.  [Components]
    drops empty components and "."; a final ".." is not a file name. *)
Definition std_file_name (path : str) : option str :=
  let comps := filter (fun c => negb (is_nil c || seqb c DOT)) (split_char SLASH path) in
  match rev comps with
  | [] => None
  | c :: _ => if seqb c DOTDOT then None else Some c
  end.
(** [std::path::Path::extension] (src/file_handler.rs:39, 60): the part of the file name after its last dot, unless there is no
    dot or only a leading one. *)
Definition std_extension (path : str) : option str :=
  match std_file_name path with
  | None => None
  | Some f =>
      match find_char x2e (rev f) with
      | None => None
      | Some i =>
          let before := firstn (length f - S i) f in
          let after := skipn (length f - i) f in
          if is_nil before then None else Some after
      end
  end.

(** src/file_handler.rs:69-144 the arms of the match, in order *)
Definition mime_table : list (str * str) := [
  (B "css", B "text/css");
  (B "csv", B "text/csv");
  (B "html", B "text/html");
  (B "htm", B "text/html");
  (B "ics", B "text/calendar");
  (B "js", B "text/javascript");
  (B "mjs", B "text/javascript");
  (B "txt", B "text/plain");
  (B "abw", B "application/x-abiword");
  (B "arc", B "application/x-freearc");
  (B "azw", B "application/vnd.amazon.ebook");
  (B "bin", B "applcation/octet-stream");
  (B "bz", B "application/x-bzip");
  (B "bz2", B "application/x-bzip2");
  (B "csh", B "application/x-csh");
  (B "doc", B "application/msword");
  (B "docx", B "application/vnd.openxmlformats-officedocument.wordprocessingml.document");
  (B "eot", B "application/vnd.ms-fontobject");
  (B "epub", B "application/epub+zip");
  (B "gz", B "application/gzip");
  (B "java", B "application/java-archive");
  (B "json", B "application/json");
  (B "jsonld", B "application/ld+json");
  (B "mpkg", B "application/vnd.apple.installer+xml");
  (B "odp", B "application/vnd.oasis.opendocument.presentation");
  (B "ods", B "application/vnd.oasis.opendocument.spreadsheet");
  (B "odt", B "application/vnd.oasis.opendocument.text");
  (B "ogx", B "application/ogg");
  (B "pdf", B "application/pdf");
  (B "php", B "application/x-httpd-php");
  (B "ppt", B "application/vnd.ms-powerpoint");
  (B "pptx", B "application/vnd.openxmlformats-officedocument.presentationml.presentation");
  (B "rar", B "application/vnd.rar");
  (B "rtf", B "application/rtf");
  (B "sh", B "application/x-sh");
  (B "swf", B "application/x-shockwave-flash");
  (B "tar", B "application/x-tar");
  (B "vsd", B "application/vnd.visio");
  (B "xhtml", B "application/xhtml+xml");
  (B "xls", B "application/vnd.ms-excel");
  (B "xlsx", B "application/vnd.openxmlformats-officedocument.spreadsheetml.sheet");
  (B "xml", B "application/xml");
  (B "xul", B "application/vnd.mozilla.xul+xml");
  (B "zip", B "application/zip");
  (B "7z", B "application/x-7z-compressed");
  (B "bmp", B "image/bmp");
  (B "gif", B "image/gif");
  (B "ico", B "image/vnd.microsoft.icon");
  (B "jpeg", B "image/jpeg");
  (B "jpg", B "image/jpeg");
  (B "png", B "image/png");
  (B "svg", B "image/svg+xml");
  (B "tif", B "image/tiff");
  (B "tiff", B "image/tiff");
  (B "webp", B "image/webp");
  (B "aac", B "audio/aac");
  (B "mid", B "audio/midi");
  (B "midi", B "audio/x-midi");
  (B "mp3", B "audio/mpeg");
  (B "oga", B "audio/ogg");
  (B "opus", B "audio/opus");
  (B "wav", B "audio/wav");
  (B "weba", B "audio/webm");
  (B "avi", B "video/x-msvideo");
  (B "mpeg", B "video/mpeg");
  (B "ogv", B "video/ogg");
  (B "ts", B "video/mp2t");
  (B "webm", B "video/webm");
  (B "otf", B "font/otf");
  (B "ttf", B "font/ttf");
  (B "woff", B "font/woff");
  (B "woff2", B "font/woff2") ].
(** src/file_handler.rs:68-148 [FileHandler::mime_type] *)
Definition mime_type (w : world) (extension : str) : str :=
  match mget seqb (to_lowercase (ulower w) extension) mime_table with
  | Some t => t
  | None => B "text/plain"
  end.
(** [Option::unwrap_or], src/file_handler.rs:41, 62 *)
Definition unwrap_or {A} (o : option A) (d : A) : A := match o with Some a => a | None => d end.
(** src/file_handler.rs:57-65 [FileHandler::get_extension] (it returns the MIME type) *)
Definition get_extension (w : world) (path : str) : str :=
  mime_type w (unwrap_or (std_extension path) []).

(** ** Readers *)

(** A [BoxReader], src/responder.rs:15: a [Cursor] over the remaining bytes, or an
    [AsyncReader<File>] (src/util.rs:53-55) with the bytes the file still has to give. *)
Inductive reader := RCursor (bytes : str) | RFile (content : str).

(** tokio's [ReadBuf] over an initialised buffer: the buffer and how much of it is filled.
    (src/util.rs:66) *)
Record readbuf := ReadBuf { rb_bytes : str; rb_filled : nat }.
(** overwrite [new] at offset [off] (src/util.rs:67) *)
Definition overwrite (off : nat) (new buf : str) : str :=
  firstn off buf ++ new ++ skipn (off + length new) buf.

(** [poll_read] of a reader (always ready, no error):
    - [Cursor] (tokio): copies as much as fits after the filled part and advances [filled];
    - [AsyncReader], src/util.rs:65-70: [self.reader.read(buf.initialized_mut())] writes at the
      start of the buffer and ignores the returned count, so [filled] does not move. *)
Definition poll_read (r : reader) (b : readbuf) : reader * readbuf :=
  match r with
  | RCursor bytes =>
      let k := Nat.min (length bytes) (length (rb_bytes b) - rb_filled b) in
      (RCursor (skipn k bytes),
       ReadBuf (overwrite (rb_filled b) (firstn k bytes) (rb_bytes b)) (rb_filled b + k))
  | RFile content =>
      let k := Nat.min (length content) (length (rb_bytes b)) in
      (RFile (skipn k content), ReadBuf (overwrite 0 (firstn k content) (rb_bytes b)) (rb_filled b))
  end.

(** tokio 0.3 [io::copy]: a zeroed buffer of 2048 bytes; read, stop when nothing was filled, write
    what was filled, repeat.  The buffer is reused (it keeps old bytes).  Returns the bytes
    written. [None]: fuel exhausted (proved impossible for [S] of the number of bytes).
    (src/server.rs:221) *)
Fixpoint copy_loop (fuel : nat) (buf : str) (r : reader) : option str :=
  match fuel with
  | O => None
  | S fuel' =>
      let '(r', b') := poll_read r (ReadBuf buf 0) in
      if Nat.eqb (rb_filled b') 0 then Some []
      else match copy_loop fuel' (rb_bytes b') r' with
           | Some rest => Some (firstn (rb_filled b') (rb_bytes b') ++ rest)
           | None => None
           end
  end.
(** Size of the buffer of tokio's [copy], src/server.rs:221 *)
Definition COPY_BUF : nat := 2048.
(** Fuel for [copy_loop] (src/server.rs:221) *)
Definition reader_len (r : reader) : nat :=
  match r with RCursor b => length b | RFile c => length c end.
(** src/server.rs:221: the bytes [copy] writes *)
Definition copy_bytes (r : reader) : str :=
  unwrap_or (copy_loop (S (reader_len r)) (repeat x00 COPY_BUF) r) [].

(** src/responder.rs:17-21 [ResBody] *)
Inductive resbody := BodyNone | BodySized (len : N) (r : reader) | BodyUnsized (r : reader).
(** src/responder.rs:24-30 [get_reader] *)
Definition get_reader (b : resbody) : reader :=
  match b with
  | BodySized _ r => r
  | BodyUnsized r => r
  | BodyNone => RCursor []
  end.
(** src/responder.rs:31-33 [is_some] *)
Definition body_is_some (b : resbody) : bool := match b with BodyNone => false | _ => true end.

(** ** Response *)

(** src/responder.rs:54-70 [Response] *)
Record response (cl : cookie_lib) := Response {
  rs_body : resbody;
  rs_status : status_code;
  rs_content_len : option N;
  rs_version : str;
  rs_headers : list (str * str);
  rs_charset : option str;
  rs_cookies : list (ck cl)
}.
Arguments Response {cl}.
Arguments rs_body {cl}.
Arguments rs_status {cl}.
Arguments rs_content_len {cl}.
Arguments rs_version {cl}.
Arguments rs_headers {cl}.
Arguments rs_charset {cl}.
Arguments rs_cookies {cl}.

Section Responses.
Context {cl : cookie_lib}.

(** Record update of [self.headers], src/responder.rs:96, 150-154 *)
Definition with_headers (r : response cl) (h : list (str * str)) : response cl :=
  Response (rs_body r) (rs_status r) (rs_content_len r) (rs_version r) h (rs_charset r)
           (rs_cookies r).

(** src/responder.rs:95-98 [set] *)
Definition res_set (key value : str) (r : response cl) : response cl :=
  with_headers r (mset seqb key value (rs_headers r)).
(** src/responder.rs:116-118 [get] *)
Definition res_get (field : str) (r : response cl) : option str := mget seqb field (rs_headers r).

(** src/responder.rs:148-164 [default_headers]; panics if the clock is before the epoch
    (src/time.rs:38). *)
Definition default_headers (w : world) (r : response cl) : outcome (response cl) :=
  let h1 := match rs_content_len r with
            | Some x => mset seqb (B "Content-Length") (show_N x) (rs_headers r)
            | None => rs_headers r
            end in
  obind (time_now (clock w)) (fun now =>
    let h2 := match now with
              | Some date => mset seqb (B "Date") (time_format date) h1
              | None => h1
              end in
    let h3 := match mget seqb (B "Content-Type") h2 with
              | Some _ => h2
              | None =>
                  let format := B "text/html" ++
                    match rs_charset r with
                    | Some charset => B " ;charset=" ++ debug_str (dbg_sq w) charset
                    | None => []
                    end in
                  mset seqb (B "Content-Type") format h2
              end in
    Done (with_headers r h3)).

(** src/responder.rs:138-144 [send] *)
Definition res_send (w : world) (body : str) (r : response cl) : outcome (response cl) :=
  let len := N.of_nat (length body) in
  default_headers w
    (Response (BodySized len (RCursor body)) (rs_status r) (Some len) (rs_version r)
              (rs_headers r) (rs_charset r) (rs_cookies r)).

(** src/responder.rs:184-190 [with_type] *)
Definition with_type (t : str) (r : response cl) : response cl := res_set (B "Content-Type") t r.

(** src/file_handler.rs:12-17 [FileHandler] (fields used). *)
Record file_handler := FileHandler {
  fh_name : str; fh_file : reader; fh_extension : str; fh_len : N
}.
(** src/file_handler.rs:19-29 [FileHandlerError], with the number it carries; [IoError] is the
    error of [file.metadata()?] (line 35), handed on as it is. *)
Inductive file_error := FileHandlerError (err_type : N) | IoError.
(** src/file_handler.rs:151-160 [Display]; the text of an [IoError] is the operating system's,
    [io_text]. *)
Definition file_error_show (io_text : str) (e : file_error) : str :=
  match e with
  | FileHandlerError t =>
      let err_string :=
        if (t =? 0)%N then B "File not found" else if (t =? 1)%N then B "Not a file"
        else B "Unknown error" in
      B "File Handling error, " ++ err_string
  | IoError => io_text
  end.
(** src/file_handler.rs:33-54 [handle_file]; [inl] = [Err]. *)
Definition handle_file (w : world) (path : str) : outcome (file_error + file_handler) :=
  match fs w path with
  | FsNoOpen => Done (inl (FileHandlerError 0))
  | FsNoMeta => Done (inl IoError)
  | FsNotFile => Done (inl (FileHandlerError 1))
  | FsFile len content =>
      let extension := unwrap_or (std_extension path) [] in
      obind (unwrap (std_file_name path)) (fun name =>
        Done (inr (FileHandler name (RFile content) extension len)))
  end.

(** src/responder.rs:221-231 [send_file], with the error it returns, if any. *)
Definition send_file_result (w : world) (path : str) (r : response cl)
  : outcome (response cl * option file_error) :=
  obind (handle_file w path) (fun o =>
    match o with
    | inl e => Done (r, Some e)
    | inr f =>
        Done (Response (BodySized (fh_len f) (fh_file f)) (rs_status r) (Some (fh_len f))
                (rs_version r)
                (mset seqb (B "Content-Type") (mime_type w (fh_extension f)) (rs_headers r))
                (rs_charset r) (rs_cookies r), None)
    end).
(** src/responder.rs:221-231 [send_file]; the boolean tells whether it returned [Ok]. *)
Definition send_file (w : world) (path : str) (r : response cl)
  : outcome (response cl * bool) :=
  omap (fun x => (fst x, match snd x with None => true | Some _ => false end))
       (send_file_result w path r).

(** src/responder.rs:287-290 [status] *)
Definition set_status (c : status_code) (r : response cl) : response cl :=
  Response (rs_body r) c (rs_content_len r) (rs_version r) (rs_headers r) (rs_charset r)
           (rs_cookies r).
(** src/responder.rs:293-296 [http_version] *)
Definition set_http_version (v : http_version) (r : response cl) : response cl :=
  Response (rs_body r) (rs_status r) (rs_content_len r) (version_to_string v) (rs_headers r)
           (rs_charset r) (rs_cookies r).
(** src/responder.rs:315-317 [headers_sent] *)
Definition headers_sent (r : response cl) : bool := negb (is_nil (rs_headers r)).
(** src/responder.rs:335-338 [attachment] *)
Definition attachment (r : response cl) : response cl :=
  res_set (B "Content-Disposition") (B "attachment") r.
(** src/responder.rs:358-366 [attachment_with_filename] *)
Definition attachment_with_filename (w : world) (file_name : str) (r : response cl)
  : response cl :=
  let extension := get_extension w file_name in
  res_set (B "Content-Type") extension
    (res_set (B "Content-Disposition")
       (B "attachment; filename = " ++ debug_str (dbg_sq w) file_name) r).
(** src/responder.rs:383-387 [redirect] *)
Definition redirect (location : str) (r : response cl) : response cl :=
  res_set (B "Location") location (set_status StFound r).
(** src/responder.rs:409-412 [cookie] *)
Definition add_cookie (c : ck cl) (r : response cl) : response cl :=
  Response (rs_body r) (rs_status r) (rs_content_len r) (rs_version r) (rs_headers r)
           (rs_charset r) (rs_cookies r ++ [c]).
(** src/responder.rs:429-432 [charset] *)
Definition set_charset (c : str) (r : response cl) : response cl :=
  Response (rs_body r) (rs_status r) (rs_content_len r) (rs_version r) (rs_headers r)
           (Some c) (rs_cookies r).
(** src/responder.rs:433-435 [has_body] *)
Definition has_body (r : response cl) : bool := body_is_some (rs_body r).

(** src/responder.rs:459-477 [new] *)
Definition res_new (body : reader) (content_len : option N) : response cl :=
  Response (match content_len with Some x => BodySized x body | None => BodyUnsized body end)
           StOk content_len (B "1.1") [] None [].
(** src/responder.rs:437-443 [new_from_slice] *)
Definition new_from_slice (body : str) : response cl :=
  res_new (RCursor body) (Some (N.of_nat (length body))).
(** src/responder.rs:517-521 [Default for Response] *)
Definition response_default : response cl := new_from_slice [].
(** src/responder.rs:445-457 [new_empty] *)
Definition new_empty : response cl := Response BodyNone StOk None (B "1.1") [] None [].

(** ** Serialisation *)

(** src/responder.rs:478-480 [reason_phrase] *)
Definition reason_phrase (w : world) (r : response cl) : str :=
  to_uppercase (uupper w) (status_display (rs_status r)).
(** src/responder.rs:484-495 [status_line] *)
Definition status_line (w : world) (r : response cl) : str :=
  B "HTTP" ++ B "/" ++ rs_version r ++ [SP] ++ show_Z (status_into_i32 (rs_status r)) ++ [SP]
    ++ reason_phrase w r ++ CRLF.
(** src/responder.rs:501 one header *)
Definition header_line (kv : str * str) : str := fst kv ++ B ":" ++ [SP] ++ snd kv ++ CRLF.
(** src/responder.rs:496-513 [headers]; [ho i] is the hash order of the header map. *)
Definition headers_block (ft : features) (ho : order) (pos : list nat) (r : response cl) : str :=
  flat_map header_line (ord_fn ho pos _ (rs_headers r)) ++
  (if cookies_on ft then join CRLF (map (cookie_serialise cl) (rs_cookies r)) else []).
(** src/responder.rs:193-198 [get_data] *)
Definition get_data (ft : features) (w : world) (ho : order) (pos : list nat) (r : response cl)
  : str * reader :=
  (status_line w r ++ headers_block ft ho pos r ++ CRLF, get_reader (rs_body r)).

(** src/server.rs:213-223 [Octane::send]: the bytes written (write errors are not modelled: the
    peer is assumed to accept everything). *)
Definition octane_send (d : str * reader) : str := fst d ++ copy_bytes (snd d).

(** src/constants.rs:22 [NOT_FOUND] *)
Definition NOT_FOUND : str := B "<!DOCTYPE html><html><head><title>404 NOT FOUND - OCTANE</title></head><body style=""padding: 20px;""><h2 style=""text-align: center;"">404 NOT FOUND</h2><hr><h5>OCTANE - 0.1</h2></body></html>".

(** src/error.rs:48-60 [Error::send]: the bytes written. *)
Definition error_send (ft : features) (w : world) (ho : order) (pos : list nat)
    (kind : status_code) : outcome str :=
  omap (fun r => octane_send (get_data ft w ho pos
                    (res_set (B "Content-Type") (B "text/html") r)))
       (default_headers w (set_status kind (new_from_slice NOT_FOUND))).

(** ** Calls on a response

    One call of a public method of [Response] by a handler (src/responder.rs:95-432).  The
    [json] method (260-266) does not type-check and is not modelled; writes to public
    fields are in Model/Fields.v. *)
Inductive rop :=
| OpSet (k v : str)
| OpSend (body : str)
| OpDefaultHeaders
| OpWithType (t : str)
| OpSendFile (path : str)
| OpStatus (c : status_code)
| OpVersion (v : http_version)
| OpAttachment
| OpAttachmentName (f : str)
| OpRedirect (l : str)
| OpCookie (c : ck cl)
| OpCharset (s : str).

(** One call of src/responder.rs:95-432, see the functions above *)
Definition apply_op (w : world) (o : rop) (r : response cl) : outcome (response cl) :=
  match o with
  | OpSet k v => Done (res_set k v r)
  | OpSend b => res_send w b r
  | OpDefaultHeaders => default_headers w r
  | OpWithType t => Done (with_type t r)
  | OpSendFile p => omap fst (send_file w p r)
  | OpStatus c => Done (set_status c r)
  | OpVersion v => Done (set_http_version v r)
  | OpAttachment => Done (attachment r)
  | OpAttachmentName f => Done (attachment_with_filename w f r)
  | OpRedirect l => Done (redirect l r)
  | OpCookie c => Done (add_cookie c r)
  | OpCharset s => Done (set_charset s r)
  end.
(** A sequence of calls, each in the world of its moment. (the calls a closure makes,
    src/router.rs:310) *)
Fixpoint apply_ops (l : list (world * rop)) (r : response cl) : outcome (response cl) :=
  match l with
  | [] => Done r
  | (w, o) :: rest => obind (apply_op w o r) (apply_ops rest)
  end.

End Responses.
Arguments rop : clear implicits.
