(** Properties of responses as results of the calls made on them. *)
From Verif.Proofs Require Import HistoryWitness.
From Verif.Spec Require Import Common TextSpec RequestSpec ResponseSpec HistorySpec.
From Coq Require Import Permutation.

(** C68.  The last call that gives a part of the response a value decides. *)
Theorem C68_history :
  forall cl (l : list (world * rop cl)) r r', apply_ops l r = Done r' -> made_by r l r'.
Proof. exact @history_made. Qed.
Print Assumptions C68_history.
(** The length written is the one of the body at the last filling-in. *)
Theorem C68_length :
  forall cl (pre : list (world * rop cl)) w o post r r' n rd,
  apply_ops (pre ++ (w, o) :: post) r = Done r' ->
  fills_in o = true -> (forall c, In c post -> ~ writes_length c) ->
  last_in gives_body (pre ++ [(w, o)]) (Some (n, rd)) \/
  (last_in gives_body (pre ++ [(w, o)]) None /\ rs_content_len r = Some n) ->
  exists s, res_get (B "Content-Length") r' = Some s /\ decimal n s.
Proof. exact @length_header. Qed.
Print Assumptions C68_length.
(** Which histories do not panic. *)
Theorem C68_no_panic :
  forall cl (l : list (world * rop cl)) r, (exists r', apply_ops l r = Done r') <-> Forall safe l.
Proof. exact @history_safe. Qed.
Print Assumptions C68_no_panic.
(** Filling in twice at the same time changes nothing. *)
Theorem C68_idempotent :
  forall cl w (r r' : response cl), default_headers w r = Done r' -> default_headers w r' = Done r'.
Proof. exact @default_idempotent. Qed.
Print Assumptions C68_idempotent.
Example C68_example :
  let at_ := map (fun o : rop ex_cl => (ex_world, o)) in
  let l := at_ [OpStatus StCreated; OpSend (B "one"); OpRedirect (B "/x"); OpSet (B "A") (B "1"); @OpCookie ex_cl (B "c=1");
                OpSend (B "three"); OpSet (B "A") (B "2"); OpAttachment; OpAttachmentName (B "f.png"); @OpCookie ex_cl (B "d=2");
                OpVersion Http10; OpCharset (B "utf-8")] in
  Forall safe l /\
  last_in sets_status l (Some StFound) /\ last_in sets_version l (Some Http10) /\ last_in sets_charset l (Some (B "utf-8")) /\
  last_in gives_body l (Some (5%N, RCursor (B "three"))) /\ last_in (gives_header (B "A")) l (Some (B "2")) /\
  last_in (gives_header (B "Location")) l (Some (B "/x")) /\ last_in (gives_header (B "Z")) l None /\
  last_in (gives_header (B "Content-Disposition")) l (Some (B "attachment; filename = ""f.png""")) /\
  last_in gives_date l (Some (B "Fri, 01 Jan 2021 00:00:00 GMT")) /\
  last_in (fun c => chooses_type (fst c) (snd c)) l (Some (B "image/png")) /\ cookies_given l = [B "c=1"; B "d=2"] /\
  (exists pre post, l = pre ++ (ex_world, OpSend (B "three")) :: post /\ (forall c, In c post -> ~ writes_length c) /\
     last_in gives_body (pre ++ [(ex_world, OpSend (B "three"))]) (Some (5%N, RCursor (B "three")))) /\
  (exists r, apply_ops l new_empty = Done r /\
     rs_headers r = [(B "Content-Length", B "5"); (B "Date", B "Fri, 01 Jan 2021 00:00:00 GMT"); (B "Content-Type", B "image/png");
                     (B "Location", B "/x"); (B "A", B "2"); (B "Content-Disposition", B "attachment; filename = ""f.png""")]).
Proof. exact history_example. Qed.

(** C69.  [send_file] succeeds exactly for regular files, and then gives the file, its length and
    its type; a failure leaves the response as it was. *)
Theorem C69_send_file :
  forall cl w p (r r' : response cl) ok, send_file w p r = Done (r', ok) ->
  match fs w p with
  | FsFile len content =>
      ok = true /\ rs_body r' = BodySized len (RFile content) /\ rs_content_len r' = Some len /\
      res_get (B "Content-Type") r' = Some (mime_type w (unwrap_or (std_extension p) [])) /\
      (forall k, k <> B "Content-Type" -> res_get k r' = res_get k r) /\
      rs_status r' = rs_status r /\ rs_version r' = rs_version r /\ rs_charset r' = rs_charset r /\
      rs_cookies r' = rs_cookies r
  | _ => ok = false /\ r' = r
  end.
Proof. exact @send_file_outcome. Qed.
Print Assumptions C69_send_file.
Theorem C69_no_panic :
  forall cl w p (r : response cl), (exists x, send_file w p r = Done x) <->
  ((exists len content, fs w p = FsFile len content) -> std_file_name p <> None).
Proof. exact @file_done. Qed.
Print Assumptions C69_no_panic.
Example C69_example :
  fs ex_world (B "/a/x.txt") = FsFile 5 (B "hello") /\ std_file_name (B "/a/x.txt") = Some (B "x.txt") /\
  (exists r', send_file ex_world (B "/a/x.txt") (@new_empty ex_cl) = Done (r', true) /\
     rs_headers r' = [(B "Content-Type", B "text/plain")]) /\
  send_file ex_world (B "/nope") (@new_empty ex_cl) = Done (new_empty, false).
Proof. repeat split; try (eexists; split); vm_compute; reflexivity. Qed.

(** C94.  What the error of a failed [send_file] says: any failure to open reads "File not found", a
    path that opens but is no regular file reads "Not a file", and a failing look at its metadata
    hands on the text [io] of the operating system.  The response is as it was in each case, and a
    regular file gives no error. *)
Theorem C94_message :
  forall cl w p (r r' : response cl) e io, send_file_result w p r = Done (r', e) ->
  match fs w p with
  | FsNoOpen => r' = r /\ option_map (file_error_show io) e = Some (B "File Handling error, File not found")
  | FsNotFile => r' = r /\ option_map (file_error_show io) e = Some (B "File Handling error, Not a file")
  | FsNoMeta => r' = r /\ option_map (file_error_show io) e = Some io
  | FsFile len content => e = None /\ send_file w p r = Done (r', true)
  end.
Proof. exact @send_file_message. Qed.
Print Assumptions C94_message.
Example C94_example : let w := World None (fun p => if seqb p (B "/d") then FsNotFile else if seqb p (B "/m") then FsNoMeta else
    if seqb p (B "/f.css") then FsFile 2 (B "ab") else FsNoOpen) (fun s => s) (fun s => s) DebugNew in
  send_file_result w (B "/x") (@new_empty ex_cl) = Done (new_empty, Some (FileHandlerError 0)) /\
  send_file_result w (B "/d") (@new_empty ex_cl) = Done (new_empty, Some (FileHandlerError 1)) /\
  send_file_result w (B "/m") (@new_empty ex_cl) = Done (new_empty, Some IoError) /\
  (exists r', send_file_result w (B "/f.css") (@new_empty ex_cl) = Done (r', None) /\ rs_content_len r' = Some 2%N).
Proof. repeat split; try (eexists; split); vm_compute; reflexivity. Qed.

(** C70.  Every cookie is a line of its own after the headers, in the order of the calls.  (C39: the
    empty line after them is missing.) *)
Theorem C70_cookie_lines :
  forall cl ft w ho pos (r : response cl), cookies_on ft = true -> rs_cookies r <> [] ->
  headers_ok r -> clean (rs_version r) -> clean (reason_phrase w r) ->
  Forall (fun c => clean (ck_show cl c)) (rs_cookies r) ->
  exists hls hs, Permutation hs (rs_headers r) /\ Forall2 header_line_is hls hs /\
    pieces_of CRLF (fst (get_data ft w ho pos r))
      ((B "HTTP/" ++ rs_version r ++ [SP] ++ show_Z (status_into_i32 (rs_status r)) ++ [SP] ++ reason_phrase w r) ::
       hls ++ map (fun c => B "Set-Cookie: " ++ ck_show cl c) (rs_cookies r) ++ [[]]).
Proof. exact @cookie_lines. Qed.
Print Assumptions C70_cookie_lines.
(** The cookies of a response are those of the calls made on it, in their order, whatever else was called. *)
Theorem C70_in_order_of_calls :
  forall cl (l : list (world * rop cl)) r, apply_ops l new_empty = Done r ->
  rs_cookies r = flat_map (fun c => match snd c with OpCookie k => [k] | _ => [] end) l.
Proof. exact @cookies_in_order. Qed.
Print Assumptions C70_in_order_of_calls.
Example C70_example :
  cookies_on default_features = true /\
  exists r : response ex_cl, run [OpSet (B "A") (B "1"); @OpCookie ex_cl (B "c=1"); @OpCookie ex_cl (B "d=2")] = Done r /\
    rs_cookies r = [B "c=1"; B "d=2"] /\ headers_ok r /\ clean (rs_version r) /\ clean (reason_phrase ex_world r) /\
    Forall (fun c => clean (ck_show ex_cl c)) (rs_cookies r) /\
    fst (get_data default_features ex_world insertion_order [] r) =
    B "HTTP/1.1 200 OK" ++ CRLF ++ B "A: 1" ++ CRLF ++ B "Set-Cookie: c=1" ++ CRLF ++ B "Set-Cookie: d=2" ++ CRLF.
Proof. exact cookie_example. Qed.

(** C125 is false: as the head of a response with cookies is not ended (C39), a client reads the body's
    own text as further headers; whoever can choose the body chooses headers, all of them. *)
Theorem C125_refuted :
  forall cl ft w ho pos (r : response cl) hs' rest, cookies_on ft = true -> rs_cookies r <> [] ->
  headers_ok r -> clean (rs_version r) -> ~ In SP (rs_version r) -> clean (reason_phrase w r) ->
  Forall (fun c => clean (ck_show cl c)) (rs_cookies r) ->
  Forall (fun kv => clean (fst kv) /\ ~ In x3a (fst kv) /\ clean (snd kv)) hs' ->
  given_body (rs_body r) (flat_map (fun kv => fst kv ++ B ": " ++ snd kv ++ CRLF) hs' ++ CRLF ++ rest) ->
  exists hs, Permutation hs (rs_headers r) /\
    wire_reads (octane_send (get_data ft w ho pos r)) (rs_version r) (show_Z (status_into_i32 (rs_status r)))
      (reason_phrase w r) (hs ++ map (fun c => (B "Set-Cookie", ck_show cl c)) (rs_cookies r) ++ hs') rest.
Proof. exact @body_read_as_headers. Qed.
Print Assumptions C125_refuted.
(** Without cookies a client reads the headers that were set, and the body that was given, whatever it is. *)
Theorem C125_without_cookies_partial :
  forall cl ft w ho pos (r : response cl) body v n p hs b, cookies_on ft = false \/ rs_cookies r = [] ->
  headers_ok r -> given_body (rs_body r) body ->
  clean (rs_version r) -> ~ In SP (rs_version r) -> clean (reason_phrase w r) ->
  wire_reads (octane_send (get_data ft w ho pos r)) v n p hs b -> Permutation hs (rs_headers r) /\ b = body.
Proof. exact @only_headers_set. Qed.
Print Assumptions C125_without_cookies_partial.
Example C125_example :
  exists r : response ex_cl, run [@OpCookie ex_cl (B "c=1"); OpSend forged] = Done r /\
    rs_cookies r = [B "c=1"] /\ headers_ok r /\ clean (rs_version r) /\ ~ In SP (rs_version r) /\ clean (reason_phrase ex_world r) /\
    Forall (fun c => clean (ck_show ex_cl c)) (rs_cookies r) /\
    given_body (rs_body r) (flat_map (fun kv => fst kv ++ B ": " ++ snd kv ++ CRLF) [(B "Location", B "http://evil.example")] ++ CRLF ++ B "<p>") /\
    octane_send (get_data default_features ex_world insertion_order [] r) =
    B "HTTP/1.1 200 OK" ++ CRLF ++ B "Content-Length: 36" ++ CRLF ++ B "Date: Fri, 01 Jan 2021 00:00:00 GMT" ++ CRLF ++
    B "Content-Type: text/html" ++ CRLF ++ B "Set-Cookie: c=1" ++ CRLF ++ B "Location: http://evil.example" ++ CRLFCRLF ++ B "<p>".
Proof. exact forged_example. Qed.
