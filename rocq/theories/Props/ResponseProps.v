(** C39-C47, C51, C52: responses.  [apply_ops l r] is the response after the calls [l], each made
    in the world (clock, files) of its moment; [octane_send (get_data ...)] are the bytes written;
    the hash order [ho], the feature set [ft] and the cookie library [cl] are arbitrary. *)
From Verif.Model Require Import RustStd Path Request Time Status Response.
From Verif.Spec Require Import Common TextSpec RequestSpec ResponseSpec.
From Verif.Proofs Require Import ResponseProofs ResponseExtra StatusMime ResponseWitness InjectProofs.
From Coq Require Import Permutation.

(** C39.  Without cookies the head ends with an empty line, the first one; with a cookie it never
    contains one. *)
Theorem C39_head_terminated_partial :
  forall cl ft w ho pos (r : response cl),
  cookies_on ft = false \/ rs_cookies r = [] -> headers_ok r -> clean (rs_version r) ->
  clean (reason_phrase w r) ->
  exists a, head_at (octane_send (get_data ft w ho pos r)) a (copy_bytes (get_reader (rs_body r))) /\
    fst (get_data ft w ho pos r) = a ++ CRLFCRLF.
Proof. exact @head_terminated. Qed.
Print Assumptions C39_head_terminated_partial.
Theorem C39_cookies_refuted :
  forall cl ft w ho pos (r : response cl), cookies_on ft = true -> rs_cookies r <> [] ->
  headers_ok r -> clean (rs_version r) -> clean (reason_phrase w r) ->
  Forall (fun c => clean (ck_show cl c)) (rs_cookies r) ->
  ~ occurs CRLFCRLF (fst (get_data ft w ho pos r)).
Proof. exact @cookies_unterminated. Qed.
Print Assumptions C39_cookies_refuted.
Example C39_example :
  wire_of (run [OpSet (B "A") (B "b"); OpCookie (B "id=7" : ck ex_cl)]) =
    B "HTTP/1.1 200 OK" ++ CRLF ++ B "A: b" ++ CRLF ++ B "Set-Cookie: id=7" ++ CRLF /\
  wire_of (run [OpSet (B "A") (B "b")]) = B "HTTP/1.1 200 OK" ++ CRLF ++ B "A: b" ++ CRLFCRLF.
Proof. split; vm_compute; reflexivity. Qed.

(** C40 *)
Theorem C40_round_trip :
  forall cl ft w ho pos (r : response cl) body,
  cookies_on ft = false \/ rs_cookies r = [] -> headers_ok r -> given_body (rs_body r) body ->
  clean (rs_version r) -> ~ In SP (rs_version r) -> clean (reason_phrase w r) ->
  exists hs, Permutation hs (rs_headers r) /\
    wire_reads (octane_send (get_data ft w ho pos r)) (rs_version r) (show_Z (status_into_i32 (rs_status r)))
      (reason_phrase w r) hs body.
Proof. exact @round_trip. Qed.
Print Assumptions C40_round_trip.
(** A client has no other way to read the bytes. *)
Theorem C40_reading_unique :
  forall bytes v n p hs b v' n' p' hs' b',
  wire_reads bytes v n p hs b -> wire_reads bytes v' n' p' hs' b' ->
  v = v' /\ n = n' /\ p = p' /\ hs = hs' /\ b = b'.
Proof. exact @wire_reads_fun. Qed.
Print Assumptions C40_reading_unique.
(** For responses built by calls, from the empty one. *)
Theorem C40_history :
  forall cl (l : list (world * rop cl)) r ft w ho pos,
  apply_ops l new_empty = Done r ->
  Forall (fun wo => raw_clean (snd wo) /\ no_file (fst wo) (snd wo) /\ forall c, snd wo <> OpCookie c) l ->
  clean (reason_phrase w r) ->
  exists hs body,
    wire_reads (octane_send (get_data ft w ho pos r)) (rs_version r) (show_Z (status_into_i32 (rs_status r)))
      (reason_phrase w r) hs body /\
    given_body (rs_body r) body /\ NoDup (map fst hs) /\ (forall k v, In (k, v) hs <-> res_get k r = Some v).
Proof. exact @history_wire. Qed.
Print Assumptions C40_history.
Example C40_example :
  let l := [(ex_world, OpCharset (B "utf-8")); (ex_world, OpSend (B "hi")); (ex_world, OpAttachmentName (B "a""b"))]
             : list (world * rop ex_cl) in
  (exists r, apply_ops l new_empty = Done r /\ reason_phrase ex_world r = B "OK") /\
  Forall (fun wo => raw_clean (snd wo) /\ no_file (fst wo) (snd wo) /\ forall c, snd wo <> OpCookie c) l /\
  clean (B "OK").
Proof.
  split; [eexists; split; vm_compute; reflexivity|]. split; [|clean_lit].
  repeat constructor; discriminate.
Qed.

(** C41.  File names and charsets cannot add a line to the headers, and clean arguments of the other
    calls do not either; [set], [redirect] and [with_type] copy theirs, and so does a status of the
    application's own. *)
Theorem C41_no_injection_partial :
  forall cl (l : list (world * rop cl)) r r',
  Forall (fun wo => raw_clean (snd wo)) l -> headers_ok r -> apply_ops l r = Done r' -> headers_ok r'.
Proof. exact @ops_ok. Qed.
Print Assumptions C41_no_injection_partial.
Theorem C41_quoted : forall sq s, clean (debug_str sq s).
Proof. exact debug_str_clean. Qed.
Print Assumptions C41_quoted.
(** Whatever the response and the order of its headers, the client reads the second line as a header. *)
Theorem C41_value_injects_refuted :
  forall cl k v n x ft w ho pos (r : response cl) body,
  cookies_on ft = false \/ rs_cookies r = [] -> headers_ok r -> given_body (rs_body r) body ->
  clean (rs_version r) -> ~ In SP (rs_version r) -> clean (reason_phrase w r) ->
  clean k -> ~ In x3a k -> clean v -> clean n -> ~ In x3a n -> clean x ->
  exists hs, wire_reads (octane_send (get_data ft w ho pos (res_set k (v ++ CRLF ++ n ++ B ": " ++ x) r))) (rs_version r)
      (show_Z (status_into_i32 (rs_status r))) (reason_phrase w r) hs body /\
    In (k, v) hs /\ In (n, x) hs /\ forall k' v', k' <> k -> In (k', v') (rs_headers r) -> In (k', v') hs.
Proof. exact @line_injected. Qed.
Print Assumptions C41_value_injects_refuted.
Theorem C41_which_calls : forall cl (r : response cl) w s,
  apply_op w (OpRedirect s) r = Done (res_set (B "Location") s (set_status StFound r)) /\
  apply_op w (OpWithType s) r = Done (res_set (B "Content-Type") s r) /\
  forall k, apply_op w (OpSet k s) r = Done (res_set k s r).
Proof. repeat split. Qed.
Print Assumptions C41_which_calls.
(** An empty line in the value ends the head: what follows it is read as the body. *)
Theorem C41_body_injects_refuted :
  forall cl ft w ho pos (r : response cl) k v b,
  cookies_on ft = false \/ rs_cookies r = [] -> headers_ok r ->
  clean (rs_version r) -> clean (reason_phrase w r) -> clean k -> ~ In x3a k -> clean v ->
  exists a rest, head_at (octane_send (get_data ft w ho pos (res_set k (v ++ CRLFCRLF ++ b) r))) a (b ++ CRLF ++ rest).
Proof. exact @body_injected. Qed.
Print Assumptions C41_body_injects_refuted.
Theorem C41_status_injects_refuted :
  forall cl ft w ho pos (r : response cl) body num a n x,
  cookies_on ft = false \/ rs_cookies r = [] -> headers_ok r -> given_body (rs_body r) body ->
  clean (rs_version r) -> ~ In SP (rs_version r) ->
  clean a -> clean n -> ~ In x3a n -> clean x -> ascii_str (a ++ CRLF ++ n ++ B ": " ++ x) = true ->
  exists hs an nn xx, upper_of a an /\ upper_of n nn /\ upper_of x xx /\ Permutation hs (rs_headers r) /\
    wire_reads (octane_send (get_data ft w ho pos (set_status (StOther num (a ++ CRLF ++ n ++ B ": " ++ x)) r))) (rs_version r)
      (show_Z num) an ((nn, xx) :: hs) body.
Proof. exact @status_injected. Qed.
Print Assumptions C41_status_injects_refuted.
Example C41_status_example :
  octane_send (get_data default_features ex_world insertion_order []
    (set_status (StOther 299 (B "Odd" ++ CRLF ++ B "Evil: x")) (@new_empty ex_cl))) =
  B "HTTP/1.1 299 ODD" ++ CRLF ++ B "EVIL: X" ++ CRLFCRLF.
Proof. vm_compute. reflexivity. Qed.
Theorem C41_set_refuted : exists r, injected_set = Done r /\ res_get (B "Evil") r = None /\
  exists v n p hs body, wire_reads (wire_of injected_set) v n p hs body /\ In (B "Evil", B "2") hs.
Proof. exact inject_set. Qed.
Print Assumptions C41_set_refuted.
Theorem C41_redirect_refuted : exists r, injected_redirect = Done r /\ res_get (B "Evil") r = None /\
  exists v n p hs body, wire_reads (wire_of injected_redirect) v n p hs body /\ In (B "Evil", B "2") hs.
Proof. exact inject_redirect. Qed.
Print Assumptions C41_redirect_refuted.
Theorem C41_type_refuted : exists r, injected_type = Done r /\ res_get (B "Evil") r = None /\
  exists v n p hs body, wire_reads (wire_of injected_type) v n p hs body /\ In (B "Evil", B "2") hs.
Proof. exact inject_type. Qed.
Print Assumptions C41_type_refuted.
Theorem C41_body_refuted : exists r, injected_body = Done r /\ given_body (rs_body r) (B "hi") /\
  exists v n p hs, wire_reads (wire_of injected_body) v n p hs (B "other body" ++ CRLFCRLF ++ B "hi").
Proof. exact inject_body. Qed.
Print Assumptions C41_body_refuted.
Example C41_example : exists r,
  run [OpSet (B "A") (B "b"); OpAttachmentName (B "x" ++ CRLF ++ B "Evil: 2"); OpCharset CRLF; OpSend []] = Done r /\
  headers_ok r /\ res_get (B "Content-Disposition") r = Some (B "attachment; filename = ""x\r\nEvil: 2""").
Proof.
  eexists. split; [vm_compute; reflexivity|]. split; [|vm_compute; reflexivity].
  repeat (constructor; [repeat split; not_in|]). constructor.
Qed.

(** C42 *)
Theorem C42_send_length :
  forall cl pre w b post (r r' : response cl), apply_ops (pre ++ (w, OpSend b) :: post) r = Done r' ->
  Forall (fun wo => sets_body (snd wo) = false /\ ~ sets_header (B "Content-Length") (snd wo)) post ->
  given_body (rs_body r') b /\
  exists s, decimal (N.of_nat (length b)) s /\ res_get (B "Content-Length") r' = Some s.
Proof. exact @send_length. Qed.
Print Assumptions C42_send_length.
(** A given body is transmitted as it is, after the head. *)
Theorem C42_body_transmitted :
  forall cl ft w ho pos (r : response cl) b, given_body (rs_body r) b ->
  octane_send (get_data ft w ho pos r) = fst (get_data ft w ho pos r) ++ b.
Proof. exact @given_transmitted. Qed.
Print Assumptions C42_body_transmitted.
Example C42_example : exists r,
  run [OpSendFile (B "/a/x.txt"); OpSend (B "0123456789"); OpRedirect (B "/"); OpDefaultHeaders] = Done r /\
  res_get (B "Content-Length") r = Some (B "10") /\ given_body (rs_body r) (B "0123456789").
Proof. eexists. split; [vm_compute; reflexivity|]. split; reflexivity. Qed.

(** C43.  Holds as long as no file is sent. *)
Theorem C43_length_consistent_partial :
  forall cl (l : list (world * rop cl)) r r',
  r = new_empty \/ (exists b, r = new_from_slice b) ->
  Forall (fun wo => no_file (fst wo) (snd wo) /\ ~ sets_header (B "Content-Length") (snd wo)) l ->
  apply_ops l r = Done r' -> forall s, res_get (B "Content-Length") r' = Some s ->
  forall ft w ho pos, exists body, octane_send (get_data ft w ho pos r') = fst (get_data ft w ho pos r') ++ body /\
  decimal (N.of_nat (length body)) s.
Proof. exact @length_consistent. Qed.
Print Assumptions C43_length_consistent_partial.
Theorem C43_send_file_refuted :
  let l := [OpSend (B "hi"); OpSendFile (B "/a/x.txt")] : list (rop ex_cl) in
  Forall (fun o => ~ sets_header (B "Content-Length") o) l /\
  exists r, run l = Done r /\ rs_body r = BodySized 5 (RFile (B "hello")) /\
  exists v n p hs, wire_reads (wire_of (run l)) v n p hs [] /\ In (B "Content-Length", B "2") hs.
Proof. exact length_contradicts. Qed.
Print Assumptions C43_send_file_refuted.
Example C43_example : exists r,
  run [OpSend (B "hi"); OpSendFile (B "/missing"); OpSend (B "hello")] = Done r /\
  res_get (B "Content-Length") r = Some (B "5") /\ given_body (rs_body r) (B "hello").
Proof. eexists. split; [vm_compute; reflexivity|]. split; reflexivity. Qed.

(** C44.  Nothing is transmitted after the head, whatever the file contains. *)
Theorem C44_send_file_refuted :
  forall cl w p (r r' : response cl), send_file w p r = Done (r', true) ->
  (exists len c, fs w p = FsFile len c /\ rs_body r' = BodySized len (RFile c)) /\
  forall ft w' ho pos, octane_send (get_data ft w' ho pos r') = fst (get_data ft w' ho pos r').
Proof. exact @send_file_empty. Qed.
Print Assumptions C44_send_file_refuted.
Example C44_example : exists r', send_file ex_world (B "/a/x.txt") (@new_empty ex_cl) = Done (r', true) /\
  fs ex_world (B "/a/x.txt") = FsFile 5 (B "hello") /\
  wire_of (Done r') = B "HTTP/1.1 200 OK" ++ CRLF ++ B "Content-Type: text/plain" ++ CRLFCRLF.
Proof. eexists. split; [vm_compute; reflexivity|]. split; vm_compute; reflexivity. Qed.

(** C45 *)
Theorem C45_last_set_wins :
  forall cl l (r : response cl) k o, last_in (fun kv v => fst kv = k /\ snd kv = v) l o ->
  res_get k (set_all l r) = match o with Some v => Some v | None => res_get k r end.
Proof. exact @set_all_get. Qed.
Print Assumptions C45_last_set_wins.
Theorem C45_others_unchanged :
  forall cl (l : list (world * rop cl)) r r' k, Forall (fun wo => ~ touches (snd wo) k) l ->
  apply_ops l r = Done r' -> res_get k r' = res_get k r.
Proof. exact @ops_untouched. Qed.
Print Assumptions C45_others_unchanged.
Theorem C45_names_unique :
  forall cl (l : list (world * rop cl)) r r', NoDup (map fst (rs_headers r)) ->
  apply_ops l r = Done r' -> NoDup (map fst (rs_headers r')).
Proof. exact @ops_keys. Qed.
Print Assumptions C45_names_unique.
Example C45_example :
  let l := [(B "A", B "1"); (B "B", B "2"); (B "A", B "3")] in
  last_in (fun kv v => fst kv = B "A" /\ snd kv = v) l (Some (B "3")) /\
  res_get (B "A") (set_all l (@new_empty ex_cl)) = Some (B "3") /\
  rs_headers (set_all l (@new_empty ex_cl)) = [(B "A", B "3"); (B "B", B "2")].
Proof.
  split; [|split; reflexivity]. exists [(B "A", B "1"); (B "B", B "2")], (B "A", B "3"), [].
  split; [reflexivity|]. split; [auto|]. intros a' v' [].
Qed.

(** C46 *)
Theorem C46_chosen_type_kept :
  forall cl (l : list (world * rop cl)) r r' t, apply_ops l r = Done r' ->
  last_in (fun wo t => chooses_type (fst wo) (snd wo) t) l (Some t) ->
  res_get (B "Content-Type") r' = Some t.
Proof. exact @ctype_chosen. Qed.
Print Assumptions C46_chosen_type_kept.
Theorem C46_default_type :
  forall cl pre w o post (r r' : response cl), apply_ops (pre ++ (w, o) :: post) r = Done r' ->
  res_get (B "Content-Type") r = None ->
  (forall wo t, In wo (pre ++ (w, o) :: post) -> ~ chooses_type (fst wo) (snd wo) t) ->
  Forall (fun wo => fills_in (snd wo) = false) pre -> fills_in o = true ->
  res_get (B "Content-Type") r' = Some (default_type (dbg_sq w) (charset_of pre (rs_charset r))).
Proof. exact @ctype_default. Qed.
Print Assumptions C46_default_type.
Theorem C46_charset_text :
  forall sq s, Forall plain_char s ->
  default_type sq (Some s) = B "text/html ;charset=""" ++ s ++ B """".
Proof. exact default_type_plain. Qed.
Print Assumptions C46_charset_text.
Example C46_example :
  (exists r, run [OpCharset (B "utf-8"); OpSend (B "x"); OpCharset (B "latin1"); OpSend (B "y")] = Done r /\
     res_get (B "Content-Type") r = Some (B "text/html ;charset=""utf-8""")) /\
  (exists r, run [OpSend (B "x"); OpWithType (B "text/css"); OpSend (B "y")] = Done r /\
     res_get (B "Content-Type") r = Some (B "text/css")).
Proof. split; eexists; (split; [vm_compute; reflexivity|reflexivity]). Qed.

(** C47.  [status_entries] is the macro that generates the codes from the table. *)
Theorem C47_table :
  status_entries status_source =
  Done (map (fun ci => (status_into_i32 (fst ci), status_display (fst ci), snd ci)) all_status).
Proof. exact entries_table. Qed.
Print Assumptions C47_table.
Theorem C47_all_codes : forall c, (forall n s, c <> StOther n s) <-> In c (map fst all_status).
Proof. exact named_all. Qed.
Print Assumptions C47_all_codes.
Theorem C47_numbers_unique : NoDup (map (fun ci => status_into_i32 (fst ci)) all_status).
Proof. exact numbers_nodup. Qed.
Print Assumptions C47_numbers_unique.
Theorem C47_identifiers_unique : NoDup (map snd all_status).
Proof. exact idents_nodup. Qed.
Print Assumptions C47_identifiers_unique.
Theorem C47_range : forall c, (forall n s, c <> StOther n s) -> (100 <= status_into_i32 c <= 599)%Z.
Proof. exact status_number_range. Qed.
Print Assumptions C47_range.
Theorem C47_status_line :
  forall cl w (r : response cl), ascii_str (status_display (rs_status r)) = true ->
  (0 <= status_into_i32 (rs_status r))%Z ->
  exists num reason, status_line w r = B "HTTP/" ++ rs_version r ++ [SP] ++ num ++ [SP] ++ reason ++ CRLF /\
    decimal (Z.to_N (status_into_i32 (rs_status r))) num /\ upper_of (status_display (rs_status r)) reason.
Proof. exact @status_text_spec. Qed.
Print Assumptions C47_status_line.
Theorem C47_status_line_identifies :
  forall cl w w' (r r' : response cl), (forall n s, rs_status r <> StOther n s) ->
  (forall n s, rs_status r' <> StOther n s) -> ~ In SP (rs_version r) -> ~ In SP (rs_version r') ->
  status_line w r = status_line w' r' -> rs_status r = rs_status r' /\ rs_version r = rs_version r'.
Proof. exact @status_line_identifies. Qed.
Print Assumptions C47_status_line_identifies.
(** The registered codes. *)
Theorem C47_registered : forall n s, In (n, s) registered_codes ->
  exists c, (forall n s, c <> StOther n s) /\ status_into_i32 c = n /\ status_display c = s.
Proof. exact registered_ok. Qed.
Print Assumptions C47_registered.
Example C47_example :
  status_line ex_world (set_status StImATeapot (@new_empty ex_cl)) = B "HTTP/1.1 418 I'M A TEAPOT" ++ CRLF /\
  status_line ex_world (set_status (StOther 599 (B "Odd one")) (@new_empty ex_cl)) = B "HTTP/1.1 599 ODD ONE" ++ CRLF.
Proof. split; vm_compute; reflexivity. Qed.

(** C51.  ASCII extensions (for others the Unicode tables decide). *)
Theorem C51_case_folded :
  forall w w' e e', ascii_str e = true -> same_fold e e' -> mime_type w e = mime_type w' e'.
Proof. exact mime_fold. Qed.
Print Assumptions C51_case_folded.
Theorem C51_known : forall w k t e, In (k, t) mime_table -> same_fold k e -> mime_type w e = t.
Proof. exact mime_known. Qed.
Print Assumptions C51_known.
Theorem C51_unknown :
  forall w e, ascii_str e = true -> (forall k t, In (k, t) mime_table -> ~ same_fold k e) ->
  mime_type w e = B "text/plain".
Proof. exact mime_unknown. Qed.
Print Assumptions C51_unknown.
Theorem C51_web_types : forall w k t e, In (k, t) web_types -> same_fold k e -> mime_type w e = t.
Proof. exact mime_web. Qed.
Print Assumptions C51_web_types.
(** The extension is what follows the last dot of the last component. *)
Theorem C51_extension :
  forall dir name ext, ~ In x2f name -> ~ In x2f ext -> ~ In x2e ext -> name <> [] ->
  ~ (name = B "." /\ ext = []) ->
  std_extension (dir ++ B "/" ++ name ++ B "." ++ ext) = Some ext /\ std_extension (name ++ B "." ++ ext) = Some ext.
Proof. exact extension_spec. Qed.
Print Assumptions C51_extension.
Theorem C51_no_extension :
  forall w dir name, ~ In x2f name -> ~ In x2e name -> name <> [] ->
  get_extension w (dir ++ B "/" ++ name) = B "text/plain" /\ get_extension w name = B "text/plain".
Proof. exact no_extension_plain. Qed.
Print Assumptions C51_no_extension.
Example C51_example :
  get_extension ex_world (B "/srv/a.b/photo.old.JPg") = B "image/jpeg" /\
  get_extension ex_world (B "/srv/a.b/README") = B "text/plain" /\
  get_extension ex_world (B ".html") = B "text/plain" /\ same_fold (B "jpg") (B "JPg").
Proof.
  split; [vm_compute; reflexivity|]. split; [vm_compute; reflexivity|]. split; [vm_compute; reflexivity|].
  apply same_fold_lower. reflexivity.
Qed.

(** C52.  Exactly the extension "bin" has a malformed type. *)
Theorem C52_well_formed_partial :
  forall w e, ascii_str e = true -> (mime_ok (mime_type w e) <-> ~ same_fold (B "bin") e).
Proof. exact mime_ok_iff. Qed.
Print Assumptions C52_well_formed_partial.
Theorem C52_any_extension :
  forall w e, mime_ok (mime_type w e) \/ mime_type w e = B "applcation/octet-stream".
Proof. exact mime_ok_or. Qed.
Print Assumptions C52_any_extension.
Theorem C52_bin_refuted : ~ mime_ok (mime_type ex_world (B "bin")).
Proof. exact mime_bad. Qed.
Print Assumptions C52_bin_refuted.
Example C52_example : mime_ok (mime_type ex_world (B "Woff2")).
Proof. apply mime_okb_ok. reflexivity. Qed.
