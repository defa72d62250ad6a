(** Specification of HTTP request texts.  Shared with the model: byte strings, the records
    [header] and [request_line], the enumerations [method] and [http_version]; path resolution
    is the specification [path_means]. *)
From Verif.Model Require Import RustStd Request.
From Verif.Spec Require Import PathSpec RoutingSpec TextSpec.

(** ** Header lines *)

(** RFC 7230 "tchar". *)
Definition tchar (b : byte) : Prop :=
  (48 <= bN b <= 57)%N \/ (65 <= bN b <= 90)%N \/ (97 <= bN b <= 122)%N \/
  In b [x21; x23; x24; x25; x26; x27; x2a; x2b; x2d; x2e; x5e; x5f; x60; x7c; x7e].

Definition blank (b : byte) : Prop := b = x20 \/ b = x09.
(** The control characters the implementation rejects (0x1F is missing, see C24). *)
Definition rejected_ctl (b : byte) : Prop := (bN b < 0x1f)%N \/ bN b = 0x7f%N.

Definition valid_name (strict : bool) (n : str) : Prop :=
  n <> [] /\ ~ In x3a n /\ (strict = true -> Forall tchar n).
Definition valid_value (strict : bool) (v : str) : Prop :=
  (forall b r, v = b :: r -> ~ blank b) /\ (strict = true -> Forall (fun b => ~ rejected_ctl b) v).

(** [line] is a header line for name [n] and value [v]. *)
Definition header_means (strict : bool) (line n v : str) : Prop :=
  valid_name strict n /\ valid_value strict v /\
  exists ws, Forall blank ws /\ line = n ++ [x3a] ++ ws ++ v.

(** [s] is a header block with the headers [hs], one per CRLF-separated line. *)
Definition header_block (strict : bool) (s : str) (hs : list header) : Prop :=
  exists lines, pieces_of CRLF s lines /\
    Forall2 (fun l hd => utf8_valid l = true /\ header_means strict l (h_name hd) (h_value hd)) lines hs.

(** The text of a header, and the headers that can be sent as text. *)
Definition header_text (hd : header) : str := h_name hd ++ B ": " ++ h_value hd.
Definition good_header (strict : bool) (hd : header) : Prop :=
  valid_name strict (h_name hd) /\ valid_value strict (h_value hd) /\
  utf8_valid (header_text hd) = true /\ ~ occurs CRLF (header_text hd).

(** The value seen for a (lower-case) name: all values of that name in order, joined by ", ". *)
Definition named (k : str) (hd : header) : bool := seqb (to_ascii_lowercase (h_name hd)) k.
Definition folded (k : str) (hs : list header) : option str :=
  match map h_value (filter (named k) hs) with
  | [] => None
  | vs => Some (join (B ", ") vs)
  end.

(** ** Request lines *)

Inductive method_named : str -> method -> Prop :=
| mn_options : method_named (B "OPTIONS") MOptions
| mn_get : method_named (B "GET") MGet
| mn_head : method_named (B "HEAD") MHead
| mn_post : method_named (B "POST") MPost
| mn_put : method_named (B "PUT") MPut
| mn_delete : method_named (B "DELETE") MDelete
| mn_trace : method_named (B "TRACE") MTrace
| mn_connect : method_named (B "CONNECT") MConnect
| mn_patch : method_named (B "PATCH") MPatch.
Definition method_of (s : str) (m : method) : Prop :=
  method_named s m \/ (m = MNone /\ forall m', ~ method_named s m').

Inductive version_named : str -> http_version -> Prop :=
| vn_11 : version_named (B "1.1") Http11
| vn_10 : version_named (B "1.0") Http10
| vn_20 : version_named (B "2.0") Http02
| vn_09 : version_named (B "0.9") Http09.
Definition version_of (s : str) (v : http_version) : Prop :=
  version_named s v \/ (v = HttpInvalid /\ forall v', ~ version_named s v').

(** The request line with method text [m], path text [p] and version field [v]. *)
Definition line_means (strict : bool) (line : str) (rl : request_line) : Prop :=
  exists m p first ver rest,
    pieces_of [x20] line (m :: p :: (first ++ ver) :: rest) /\
    length first = 5 /\ (forall b r, ver = b :: r -> is_continuation b = false) /\
    (strict = true -> first = B "HTTP/" /\ rest = []) /\
    path_means p (rl_path rl) /\ method_of m (rl_method rl) /\ version_of ver (rl_version rl).

(** The request line is not answered but kills the task: its path climbs above the root, or its
    third field has fewer than five bytes (or byte five is inside a character). *)
Definition line_kills (line : str) : Prop :=
  exists m p rest, pieces_of [x20] line (m :: p :: rest) /\
    ((forall path, ~ path_means p path) \/
     exists v rest', rest = v :: rest' /\
       (length v < 5 \/ exists b, nth_error v 5 = Some b /\ is_continuation b = true)).

(** ** Keep-Alive *)

(** The item sets [key] to [v]: apart from surrounding white space it is "key=digits". *)
Definition item_sets (key : str) (v : N) (item : str) : Prop :=
  exists l digits r, item = l ++ key ++ [x3d] ++ digits ++ r /\ blank_text l /\ blank_text r /\
    number U64_MAX digits v.
(** The last item that sets [key]. *)
Definition last_setting (key : str) (items : list str) (o : option N) : Prop :=
  match o with
  | None => forall item v, In item items -> ~ item_sets key v item
  | Some v => exists pre item post, items = pre ++ item :: post /\ item_sets key v item /\
                forall item' v', In item' post -> ~ item_sets key v' item'
  end.

(** ** Cookies and body length *)

(** The cookies: the "; "-separated items of the Cookie header, each parsed by the cookie library. *)
Definition cookies_mean (cl : cookie_lib) (on : bool) (hs : list header) (cs : list (ck cl)) : Prop :=
  if on then
    match folded (B "cookie") hs with
    | None => cs = []
    | Some v => exists items, pieces_of (B "; ") v items /\
                  Forall2 (fun item c => ck_parse cl item = Some c) items cs
    end
  else cs = [].

(** The body length announced by the headers; 0 if absent or not a number. *)
Definition announced (hs : list header) : N :=
  match folded (B "content-length") hs with
  | Some v => match parse_uint USIZE_MAX v with Some n => n | None => 0%N end
  | None => 0%N
  end.

(** ** The byte stream of a connection *)

(** The stream has the head [a] (everything before the first empty line), followed by [b]. *)
Definition head_at (stream a b : str) : Prop :=
  stream = a ++ CRLFCRLF ++ b /\ first_at CRLFCRLF stream (length a).
(** The head consists of the request line [rl] and the header block [hs]. *)
Definition head_parts (a rl hs : str) : Prop := a = rl ++ CRLF ++ hs /\ ~ occurs CRLF rl.

(** A read that returns data returns at least one byte. *)
Definition real_segments (t : transport) : Prop := Forall (fun s => s <> []) (segs t).
Definition stream_of (t : transport) : str := concat (segs t).

(** The head [a] carries this request line, these headers and these cookies. *)
Definition head_means (ft : features) (cl : cookie_lib) (a : str)
    (rl : request_line) (hs : list header) (cs : list (ck cl)) : Prop :=
  utf8_valid a = true /\ exists rlt hst, head_parts a rlt hst /\
    line_means (faithful ft) rlt rl /\ header_block (faithful ft) hst hs /\
    cookies_mean cl (cookies_on ft) hs cs.

(** A head that is answered with 400 without looking at it further. *)
Definition head_bad (a : str) : Prop := utf8_valid a = false \/ ~ occurs CRLF a.

(** A stream ending in [e] for which the connection's task dies without answering. *)
Definition stream_kills (ft : features) (cl : cookie_lib) (s : str) (e : ending) : Prop :=
  (~ occurs CRLFCRLF s /\ e = Broken) \/
  exists a b rlt hst, head_at s a b /\ utf8_valid a = true /\ head_parts a rlt hst /\
    ((forall hs, ~ header_block (faithful ft) hst hs) \/
     (forall rl, ~ line_means (faithful ft) rlt rl) \/
     exists hs, header_block (faithful ft) hst hs /\
       (((N.of_nat (length b) < announced hs)%N /\ e <> Stall) \/
        ((announced hs <= N.of_nat (length b))%N /\
         ((forall cs, ~ cookies_mean cl (cookies_on ft) hs cs) \/ (ISIZE_MAX < announced hs)%N)) \/
        (ISIZE_MAX + 511 < announced hs)%N)).
(** The only streams for which it depends on how they are cut into segments whether the task dies (or
    waits for more): a proper head that announces between isize::MAX + 1 and isize::MAX + 511 bytes, of
    which fewer have come.  (The task waits if what is missing after the read that completed the head
    is at most isize::MAX.) *)
Definition borderline (ft : features) (s : str) (e : ending) : Prop :=
  e = Stall /\ exists a b rlt hst rl hs, head_at s a b /\ utf8_valid a = true /\ head_parts a rlt hst /\
    line_means (faithful ft) rlt rl /\ header_block (faithful ft) hst hs /\
    (N.of_nat (length b) < announced hs)%N /\ (ISIZE_MAX < announced hs <= ISIZE_MAX + 511)%N.

(** The body handed to the application when [n] bytes are announced and [b] follows the head: the
    announced bytes, or all the bytes of one 512-byte read (C19). *)
Definition body_choice (n : nat) (b body : str) : Prop :=
  body = firstn n b \/ (0 < n /\ exists k, n < k < 512 /\ body = firstn k b).

(** Two results of reading a head that agree on everything but how the rest is cut. *)
Definition same_head (r r' : io head_result) : Prop :=
  match r, r' with
  | IoDone (HeadOk hs rl rem tl), IoDone (HeadOk hs' rl' rem' tl') =>
      hs = hs' /\ rl = rl' /\ rem ++ stream_of tl = rem' ++ stream_of tl' /\ fin tl = fin tl'
  | IoDone HeadBad, IoDone HeadBad => True
  | IoPanic, IoPanic => True
  | IoBlocked, IoBlocked => True
  | _, _ => False
  end.

(** The results of [k] successive calls of the iterator. *)
Fixpoint nexts (k : nat) (t : spliterator) : list (option str) :=
  match k with
  | O => []
  | S k' => fst (spliterator_next t) :: nexts k' (snd (spliterator_next t))
  end.
