(** Specification of a response by the history of the calls on it and of the assignments to its fields: each gives
    some parts a value, and what counts is the last value given. *)
From Verif.Model Require Import RustStd Path Request Time Status Response Fields.
From Verif.Spec Require Import Common TextSpec RequestSpec ResponseSpec HistorySpec.

Section FieldHist.
Context {cl : cookie_lib}.
Local Notation fcall := (world * fop cl)%type.

(** A map has one value for each key. *)
Definition is_map (c : fcall) : Prop := match snd c with FHeaders h => NoDup (map fst h) | _ => True end.

Definition puts_status (c : fcall) (s : status_code) : Prop :=
  match snd c with
  | FCall o => sets_status (fst c, o) s
  | FStatus s' => s = s'
  | FReset => s = StOk
  | _ => False
  end.
Definition puts_version (c : fcall) (v : str) : Prop :=
  match snd c with
  | FCall (OpVersion x) => v = version_to_string x
  | FVersion v' => v = v'
  | FReset => v = B "1.1"
  | _ => False
  end.
Definition puts_charset (c : fcall) (s : option str) : Prop :=
  match snd c with
  | FCall (OpCharset x) => s = Some x
  | FCharset s' => s = s'
  | FReset => s = None
  | _ => False
  end.
Definition puts_body (c : fcall) (b : N * reader) : Prop :=
  match snd c with
  | FCall o => gives_body (fst c, o) b
  | FReset => b = (0%N, RCursor [])
  | _ => False
  end.
(** The field [content_len] is given with the body, or by itself. *)
Definition puts_length (c : fcall) (n : option N) : Prop :=
  match snd c with
  | FLen n' => n = n'
  | _ => exists m rd, n = Some m /\ puts_body c (m, rd)
  end.
(** A header of the name [k], or (by assigning a map without it) none. *)
Definition puts_header (k : str) (by_call : world * rop cl -> str -> Prop) (c : fcall) (v : option str) : Prop :=
  match snd c with
  | FCall o => exists x, v = Some x /\ by_call (fst c, o) x
  | FHeaders h => forall x, v = Some x <-> In (k, x) h
  | FReset => v = None
  | _ => False
  end.
Definition puts_type : fcall -> option str -> Prop :=
  puts_header (B "Content-Type") (fun c => chooses_type (fst c) (snd c)).
Definition puts_cookies (c : fcall) (l : list (ck cl)) : Prop :=
  match snd c with FCookies l' => l = l' | FReset => l = [] | _ => False end.
Definition cookies_added (l : list fcall) : list (ck cl) :=
  flat_map (fun c => match snd c with FCall (OpCookie k) => [k] | _ => [] end) l.

(** [r'] is what the calls and assignments [l] make of [r]. *)
Record left_by (r : response cl) (l : list fcall) (r' : response cl) : Prop := LeftBy {
  left_status : forall o, last_in puts_status l o -> rs_status r' = match o with Some s => s | None => rs_status r end;
  left_version : forall o, last_in puts_version l o -> rs_version r' = match o with Some v => v | None => rs_version r end;
  left_charset : forall o, last_in puts_charset l o -> rs_charset r' = match o with Some s => s | None => rs_charset r end;
  left_body : forall o, last_in puts_body l o ->
    rs_body r' = match o with Some (n, rd) => BodySized n rd | None => rs_body r end;
  left_length : forall o, last_in puts_length l o -> rs_content_len r' = match o with Some n => n | None => rs_content_len r end;
  left_header : forall k o, ordinary k -> last_in (puts_header k (gives_header k)) l o ->
    res_get k r' = match o with Some v => v | None => res_get k r end;
  left_date : forall o, last_in (puts_header (B "Date") gives_date) l o ->
    res_get (B "Date") r' = match o with Some v => v | None => res_get (B "Date") r end;
  left_cookies : forall base pre post, l = pre ++ post -> (forall c k, In c post -> ~ puts_cookies c k) ->
    (pre = [] /\ base = rs_cookies r) \/ (exists q c, pre = q ++ [c] /\ puts_cookies c base) ->
    rs_cookies r' = base ++ cookies_added post
}.

(** Filling in missing headers. *)
Definition fills (c : fcall) : Prop := match snd c with FCall o => fills_in o = true | _ => False end.
(** The header Content-Length may be changed. *)
Definition may_set_length (c : fcall) : Prop :=
  match snd c with FCall o => writes_length (fst c, o) | FHeaders _ | FReset => True | _ => False end.
(** The body is given anew, with its length. *)
Definition gives_anew (c : fcall) : Prop := match snd c with FCall (OpSend _) | FReset => True | _ => False end.
(** Neither a file nor a content length of one's own. *)
Definition plain_call (c : fcall) : Prop :=
  match snd c with
  | FCall o => no_file (fst c) o /\ ~ sets_header (B "Content-Length") o
  | FHeaders h => ~ In (B "Content-Length") (map fst h)
  | _ => True
  end.
(** Between an assignment to [content_len] and the next [default_headers] the body is given anew. *)
Definition length_unused (l : list fcall) : Prop :=
  forall pre w n mid w' post, l = pre ++ (w, FLen n) :: mid ++ (w', FCall OpDefaultHeaders) :: post ->
  exists c, In c mid /\ gives_anew c.
(** The call does not panic. *)
Definition harmless (c : fcall) : Prop := match snd c with FCall o => safe (fst c, o) | _ => True end.
End FieldHist.
