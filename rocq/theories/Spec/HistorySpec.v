(** Specification of a response by the history of the calls made on it: every call gives some parts
    of the response a value, and what counts is the last value given. *)
From Verif.Model Require Import RustStd Path Request Time Status Response.
From Verif.Spec Require Import Common TextSpec RequestSpec ResponseSpec.

Section Hist.
Context {cl : cookie_lib}.
Local Notation call := (world * rop cl)%type.

Definition sets_status (c : call) (s : status_code) : Prop :=
  match snd c with OpStatus s' => s' = s | OpRedirect _ => s = StFound | _ => False end.
Definition sets_version (c : call) (v : http_version) : Prop := snd c = OpVersion v.
Definition sets_charset (c : call) (s : str) : Prop := snd c = OpCharset s.
(** [send] gives the bytes and their number; [send_file] the file and the length found with it,
    if it is a regular file that can be opened. *)
Definition gives_body (c : call) (b : N * reader) : Prop :=
  match snd c with
  | OpSend x => b = (N.of_nat (length x), RCursor x)
  | OpSendFile p => exists len content, fs (fst c) p = FsFile len content /\ b = (len, RFile content)
  | _ => False
  end.
(** The headers no call fills in by itself. *)
Definition ordinary (k : str) : Prop := ~ In k [B "Content-Length"; B "Date"; B "Content-Type"].
Definition gives_header (k : str) (c : call) (v : str) : Prop :=
  match snd c with
  | OpSet k' v' => k' = k /\ v' = v
  | OpRedirect l => k = B "Location" /\ v = l
  | OpAttachment => k = B "Content-Disposition" /\ v = B "attachment"
  | OpAttachmentName f => k = B "Content-Disposition" /\
                          v = B "attachment; filename = " ++ debug_str (dbg_sq (fst c)) f
  | _ => False
  end.
(** The date is the one of the last filling-in (its text: C48 to C50). *)
Definition gives_date (c : call) (v : str) : Prop :=
  match snd c with
  | OpSet k v' => k = B "Date" /\ v' = v
  | OpSend _ | OpDefaultHeaders => exists t, time_now (clock (fst c)) = Done (Some t) /\ v = time_format t
  | _ => False
  end.
(** The content length is written by filling in, with the length of the body at that time. *)
Definition writes_length (c : call) : Prop :=
  match snd c with
  | OpSet k _ => k = B "Content-Length"
  | OpSend _ | OpDefaultHeaders => True
  | _ => False
  end.
Definition cookies_given (l : list call) : list (ck cl) :=
  flat_map (fun c => match snd c with OpCookie k => [k] | _ => [] end) l.

(** The call does not panic: the clock can be read, and a regular file has a name. *)
Definition safe (c : call) : Prop :=
  match snd c with
  | OpSend _ | OpDefaultHeaders => clock (fst c) <> None
  | OpSendFile p => (exists len content, fs (fst c) p = FsFile len content) -> std_file_name p <> None
  | _ => True
  end.

(** [r'] is what the calls [l] make of [r]. *)
Record made_by (r : response cl) (l : list call) (r' : response cl) : Prop := MadeBy {
  made_status : forall o, last_in sets_status l o -> rs_status r' = match o with Some s => s | None => rs_status r end;
  made_version : forall o, last_in sets_version l o ->
    rs_version r' = match o with Some v => version_to_string v | None => rs_version r end;
  made_charset : forall o, last_in sets_charset l o ->
    rs_charset r' = match o with Some s => Some s | None => rs_charset r end;
  made_body : forall o, last_in gives_body l o ->
    rs_body r' = match o with Some (n, rd) => BodySized n rd | None => rs_body r end /\
    rs_content_len r' = match o with Some (n, _) => Some n | None => rs_content_len r end;
  made_header : forall k o, ordinary k -> last_in (gives_header k) l o ->
    res_get k r' = match o with Some v => Some v | None => res_get k r end;
  made_date : forall o, last_in gives_date l o ->
    res_get (B "Date") r' = match o with Some v => Some v | None => res_get (B "Date") r end;
  made_type : forall o, last_in (fun c => chooses_type (fst c) (snd c)) l o ->
    match o with
    | Some t => res_get (B "Content-Type") r' = Some t
    | None => forall t, res_get (B "Content-Type") r = Some t -> res_get (B "Content-Type") r' = Some t
    end;
  made_cookies : rs_cookies r' = rs_cookies r ++ cookies_given l
}.
End Hist.
