(** Handlers that write to the public fields of their response, or replace it (src/responder.rs:54-70). *)
From Verif.Model Require Export RustStd Path Request Time Status Response.

Section Fields.
Context {cl : cookie_lib}.

(** What a handler does with its [&mut Response]: it calls a method (src/responder.rs:95-432), assigns to a public
    field (57, 59, 61, 63, 65, 68; changing the header map or the vector of cookies in place is assigning the
    changed one), or puts the default response in its place (src/responder.rs:517-521).  The body is private (55). *)
Inductive fop :=
| FCall (o : rop cl)
| FStatus (c : status_code)
| FLen (n : option N)
| FVersion (v : str)
| FHeaders (h : list (str * str))
| FCharset (s : option str)
| FCookies (l : list (ck cl))
| FReset.
(** One of these; fields of src/responder.rs:54-70 *)
Definition apply_fop (w : world) (f : fop) (r : response cl) : outcome (response cl) :=
  match f with
  | FCall o => apply_op w o r
  | FStatus c => Done (Response (rs_body r) c (rs_content_len r) (rs_version r) (rs_headers r) (rs_charset r) (rs_cookies r))
  | FLen n => Done (Response (rs_body r) (rs_status r) n (rs_version r) (rs_headers r) (rs_charset r) (rs_cookies r))
  | FVersion v => Done (Response (rs_body r) (rs_status r) (rs_content_len r) v (rs_headers r) (rs_charset r) (rs_cookies r))
  | FHeaders h => Done (Response (rs_body r) (rs_status r) (rs_content_len r) (rs_version r) h (rs_charset r) (rs_cookies r))
  | FCharset s => Done (Response (rs_body r) (rs_status r) (rs_content_len r) (rs_version r) (rs_headers r) s (rs_cookies r))
  | FCookies l => Done (Response (rs_body r) (rs_status r) (rs_content_len r) (rs_version r) (rs_headers r) (rs_charset r) l)
  | FReset => Done response_default
  end.
(** Several of these, each in the world of its moment (what closures do with [&mut res], src/router.rs:310) *)
Fixpoint apply_fops (l : list (world * fop)) (r : response cl) : outcome (response cl) :=
  match l with
  | [] => Done r
  | (w, f) :: rest => obind (apply_fop w f r) (apply_fops rest)
  end.
End Fields.
Arguments fop : clear implicits.
