(** Specification of responses as seen by the application and by the client. *)
From Verif.Model Require Import RustStd Path Request Time Status Response.
From Verif.Spec Require Export TextSpec.
From Verif.Spec Require Import Common RequestSpec.

(** ** Decimal numbers *)
(** [s] is the usual decimal notation of [n]. *)
Definition decimal (n : N) (s : str) : Prop :=
  s <> [] /\ Forall is_digit s /\ dec_val s = n /\ (forall s', s = x30 :: s' -> s' = []).

(** ** The client's view *)

(** No line break characters. *)
Definition clean (s : str) : Prop := ~ In x0d s /\ ~ In x0a s.
(** A header line of the response. *)
Definition header_line_is (line : str) (kv : str * str) : Prop :=
  line = fst kv ++ B ": " ++ snd kv /\ ~ In x3a (fst kv).
(** A client reads the bytes: everything up to the first empty line is the head, whose lines are
    the status line and the headers; what follows is the body. *)
Definition wire_reads (bytes ver num reason : str) (hs : list (str * str)) (body : str) : Prop :=
  exists a hls, head_at bytes a body /\
    pieces_of CRLF a ((B "HTTP/" ++ ver ++ [SP] ++ num ++ [SP] ++ reason) :: hls) /\
    ~ In SP ver /\ ~ In SP num /\ Forall2 header_line_is hls hs.

(** The body the application gave (not a file). *)
Definition given_body (b : resbody) (bytes : str) : Prop :=
  match b with
  | BodyNone => bytes = []
  | BodySized _ (RCursor x) => bytes = x
  | BodyUnsized (RCursor x) => bytes = x
  | _ => False
  end.

Section Ops.
Context {cl : cookie_lib}.

(** The headers of a response can be written on one line each. *)
Definition headers_ok (r : response cl) : Prop :=
  Forall (fun kv => clean (fst kv) /\ ~ In x3a (fst kv) /\ clean (snd kv)) (rs_headers r).

(** ** Calls *)

(** The arguments that go into headers unprocessed. *)
Definition raw_clean (o : rop cl) : Prop :=
  match o with
  | OpSet k v => clean k /\ ~ In x3a k /\ clean v
  | OpWithType t => clean t
  | OpRedirect l => clean l
  | _ => True
  end.
Definition sets_body (o : rop cl) : bool :=
  match o with OpSend _ | OpSendFile _ => true | _ => false end.
Definition sets_header (name : str) (o : rop cl) : Prop :=
  match o with OpSet k _ => k = name | _ => False end.
(** The call chooses a content type. *)
Definition chooses_type (w : world) (o : rop cl) (t : str) : Prop :=
  match o with
  | OpSet k v => k = B "Content-Type" /\ v = t
  | OpWithType t' => t' = t
  | OpAttachmentName f => get_extension w f = t
  | OpSendFile p => exists len content, fs w p = FsFile len content /\
                      t = mime_type w (unwrap_or (std_extension p) [])
  | _ => False
  end.
(** The call fills in missing headers. *)
Definition fills_in (o : rop cl) : bool :=
  match o with OpSend _ | OpDefaultHeaders => true | _ => false end.
Definition charset_of (l : list (world * rop cl)) (before : option str) : option str :=
  fold_left (fun acc wo => match snd wo with OpCharset s => Some s | _ => acc end) l before.
(** The [set] calls of a history, as assignments. *)
Definition set_all (l : list (str * str)) (r : response cl) : response cl :=
  fold_left (fun r kv => res_set (fst kv) (snd kv) r) l r.
(** The call may change the header [k]. *)
Definition touches (o : rop cl) (k : str) : Prop :=
  match o with
  | OpSet k' _ => k = k'
  | OpSend _ | OpDefaultHeaders => In k [B "Content-Length"; B "Date"; B "Content-Type"]
  | OpWithType _ | OpSendFile _ => k = B "Content-Type"
  | OpAttachment => k = B "Content-Disposition"
  | OpAttachmentName _ => In k [B "Content-Disposition"; B "Content-Type"]
  | OpRedirect _ => k = B "Location"
  | _ => False
  end.
(** The call does not open a regular file. *)
Definition no_file (w : world) (o : rop cl) : Prop :=
  match o with OpSendFile p => forall len content, fs w p <> FsFile len content | _ => True end.
End Ops.

(** The content type filled in when the application chose none. *)
Definition default_type (sq : debug_style) (charset : option str) : str :=
  match charset with
  | None => B "text/html"
  | Some c => B "text/html ;charset=" ++ debug_str sq c
  end.
(** Characters that are copied unchanged into a quoted string. *)
Definition plain_char (b : byte) : Prop := (32 <= bN b)%N /\ ~ In b [x22; x27; x5c; x7f].

(** ** Letter case *)
(** [t] is [s] with the ASCII letters in upper case. *)
Definition upper_of (s t : str) : Prop := Forall2 upper_byte s t.

(** ** Content types *)
Definition top_level : list str :=
  [B "text"; B "application"; B "image"; B "audio"; B "video"; B "font"].
Definition mime_ok (t : str) : Prop :=
  exists top sub, t = top ++ B "/" ++ sub /\ In top top_level /\ sub <> [] /\
    Forall (fun b => (33 <= bN b <= 126)%N /\ ~ In b [x2f; x22; x28; x29; x2c; x3a; x3b; x3c; x3d; x3e; x3f; x40]) sub.
(** The types a web application needs, as registered. *)
Definition web_types : list (str * str) :=
  [(B "html", B "text/html"); (B "htm", B "text/html"); (B "css", B "text/css");
   (B "js", B "text/javascript"); (B "mjs", B "text/javascript"); (B "txt", B "text/plain");
   (B "csv", B "text/csv"); (B "json", B "application/json"); (B "xml", B "application/xml");
   (B "xhtml", B "application/xhtml+xml"); (B "pdf", B "application/pdf");
   (B "zip", B "application/zip"); (B "gz", B "application/gzip"); (B "png", B "image/png");
   (B "jpg", B "image/jpeg"); (B "jpeg", B "image/jpeg"); (B "gif", B "image/gif");
   (B "svg", B "image/svg+xml"); (B "webp", B "image/webp"); (B "bmp", B "image/bmp");
   (B "ico", B "image/vnd.microsoft.icon"); (B "mp3", B "audio/mpeg"); (B "wav", B "audio/wav");
   (B "webm", B "video/webm"); (B "mpeg", B "video/mpeg"); (B "ogv", B "video/ogg");
   (B "ttf", B "font/ttf"); (B "otf", B "font/otf"); (B "woff", B "font/woff");
   (B "woff2", B "font/woff2")].

(** ** Registered status codes (IANA registry names as used in the code's table). *)
Definition registered_codes : list (Z * str) :=
  [(100%Z, B "Continue"); (200%Z, B "OK"); (201%Z, B "Created"); (202%Z, B "Accepted"); (204%Z, B "No Content");
   (206%Z, B "Partial Content"); (301%Z, B "Moved Permanently"); (302%Z, B "Found"); (303%Z, B "See Other");
   (304%Z, B "Not Modified"); (307%Z, B "Temporary Redirect"); (308%Z, B "Permanent Redirect");
   (400%Z, B "Bad Request"); (401%Z, B "Unauthorized"); (403%Z, B "Forbidden"); (404%Z, B "Not Found");
   (405%Z, B "Method Not Allowed"); (406%Z, B "Not Acceptable"); (408%Z, B "Request Timeout"); (409%Z, B "Conflict");
   (410%Z, B "Gone"); (411%Z, B "Length Required"); (412%Z, B "Precondition Failed"); (413%Z, B "Payload Too Large");
   (414%Z, B "URI Too Long"); (415%Z, B "Unsupported Media Type"); (416%Z, B "Range Not Satisfiable");
   (417%Z, B "Expectation Failed"); (426%Z, B "Upgrade Required"); (429%Z, B "Too Many Requests");
   (431%Z, B "Request Header Fields Too Large"); (500%Z, B "Internal Server Error"); (501%Z, B "Not Implemented");
   (502%Z, B "Bad Gateway"); (503%Z, B "Service Unavailable"); (504%Z, B "Gateway Timeout");
   (505%Z, B "HTTP Version Not Supported")].
