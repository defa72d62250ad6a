(** The work of writing a response: src/responder.rs:193-198 and 478-513 again, counting the bytes copied into strings.
    The growth of strings is not counted, nor what the cookie library does to print a cookie (only the text it
    returns). *)
From Verif.Model Require Export RustStd Path Request Time Status Response.

Section WriteCost.
Context {cl : cookie_lib}.

(** src/responder.rs:478-480 [reason_phrase]: [to_string], then [to_uppercase] *)
Definition reason_phrase_counted (w : world) (r : response cl) : str * nat :=
  let shown := status_display (rs_status r) in
  let upper := to_uppercase (uupper w) shown in
  (upper, length shown + length upper).
(** src/responder.rs:484-495 [status_line] *)
Definition status_line_counted (w : world) (r : response cl) : str * nat :=
  let p := reason_phrase_counted w r in
  let line := B "HTTP" ++ B "/" ++ rs_version r ++ [SP] ++ show_Z (status_into_i32 (rs_status r)) ++ [SP] ++ fst p ++ CRLF in
  (line, snd p + length line).
(** src/responder.rs:499-501 the loop over the headers: each line is formatted and then pushed *)
Fixpoint push_headers_counted (pushed : str) (hs : list (str * str)) : str * nat :=
  match hs with
  | [] => (pushed, 0)
  | kv :: rest =>
      let line := fst kv ++ B ":" ++ [SP] ++ snd kv ++ CRLF in
      let r := push_headers_counted (pushed ++ line) rest in
      (fst r, length line + length line + snd r)
  end.
(** src/cookie.rs:82-84 [Cookie::serialise] for each cookie, collected (src/responder.rs:505-509) *)
Fixpoint serialise_counted (cs : list (ck cl)) : list str * nat :=
  match cs with
  | [] => ([], 0)
  | c :: rest =>
      let text := ck_show cl c in
      let line := B "Set-Cookie:" ++ [SP] ++ text in
      let r := serialise_counted rest in
      (line :: fst r, length text + length line + snd r)
  end.
(** src/responder.rs:496-513 [headers] *)
Definition headers_counted (ft : features) (ho : order) (pos : list nat) (r : response cl) : str * nat :=
  let h := push_headers_counted [] (ord_fn ho pos _ (rs_headers r)) in
  if cookies_on ft then
    let c := serialise_counted (rs_cookies r) in
    let joined := join CRLF (fst c) in
    (fst h ++ joined, snd h + snd c + length joined + length joined)
  else h.
(** src/responder.rs:193-198 [get_data] *)
Definition get_data_counted (ft : features) (w : world) (ho : order) (pos : list nat) (r : response cl)
  : (str * reader) * nat :=
  let l := status_line_counted w r in
  let h := headers_counted ft ho pos r in
  let head := fst l ++ fst h ++ CRLF in
  ((head, get_reader (rs_body r)), snd l + snd h + length head).

End WriteCost.
