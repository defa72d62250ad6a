(** Concrete histories. *)
From Verif.Proofs Require Export HistoryProofs ResponseWitness.
From Verif.Spec Require Import Common TextSpec RequestSpec ResponseSpec HistorySpec.

(** [last_in] for one call out of a list, counted from the end. *)
Ltac not_later := let Hx := fresh in intros ? ? Hx; cbn in Hx;
  repeat first [exfalso; exact Hx | destruct Hx as [<-|Hx]; [let Hy := fresh in intro Hy; cbn in Hy;
     try (decompose [ex and] Hy); try contradiction; try discriminate; try congruence|]].
Ltac last_by n tac := match goal with |- last_in _ ?l (Some _) =>
  exists (firstn n l); eexists; exists (skipn (S n) l); split; [reflexivity|split; [tac|not_later]] end.
Ltac last_at n := last_by n ltac:(solve [reflexivity | split; reflexivity]).

Lemma history_example :
  let at_ := map (fun o : rop ex_cl => (ex_world, o)) in
  let l := at_ [OpStatus StCreated; OpSend (B "one"); OpRedirect (B "/x"); OpSet (B "A") (B "1"); @OpCookie ex_cl (B "c=1");
                OpSend (B "three"); OpSet (B "A") (B "2"); OpAttachment; OpAttachmentName (B "f.png"); @OpCookie ex_cl (B "d=2");
                OpVersion Http10; OpCharset (B "utf-8")] in
  Forall safe l /\
  last_in sets_status l (Some StFound) /\ last_in sets_version l (Some Http10) /\ last_in sets_charset l (Some (B "utf-8")) /\
  last_in gives_body l (Some (5%N, RCursor (B "three"))) /\ last_in (gives_header (B "A")) l (Some (B "2")) /\
  last_in (gives_header (B "Location")) l (Some (B "/x")) /\ last_in (gives_header (B "Z")) l None /\
  last_in (gives_header (B "Content-Disposition")) l (Some (B "attachment; filename = ""f.png""")) /\
  last_in gives_date l (Some (B "Fri, 01 Jan 2021 00:00:00 GMT")) /\
  last_in (fun c => chooses_type (fst c) (snd c)) l (Some (B "image/png")) /\ cookies_given l = [B "c=1"; B "d=2"] /\
  (exists pre post, l = pre ++ (ex_world, OpSend (B "three")) :: post /\ (forall c, In c post -> ~ writes_length c) /\
     last_in gives_body (pre ++ [(ex_world, OpSend (B "three"))]) (Some (5%N, RCursor (B "three")))) /\
  (exists r, apply_ops l new_empty = Done r /\
     rs_headers r = [(B "Content-Length", B "5"); (B "Date", B "Fri, 01 Jan 2021 00:00:00 GMT"); (B "Content-Type", B "image/png");
                     (B "Location", B "/x"); (B "A", B "2"); (B "Content-Disposition", B "attachment; filename = ""f.png""")]).
Proof.
  cbv zeta. cbn [map].
  split; [repeat constructor; discriminate|].
  split; [last_at 2|]. split; [last_at 10|]. split; [last_at 11|]. split; [last_at 5|]. split; [last_at 6|].
  split; [last_at 2|]. split; [not_later|]. split; [last_at 8|].
  split; [last_by 5 ltac:(eexists; split; vm_compute; reflexivity)|].
  split; [last_at 8|]. split; [reflexivity|].
  split.
  - eexists [_; _; _; _; _], _. split; [reflexivity|]. split.
    + intros c Hc. cbn in Hc. repeat first [contradiction | destruct Hc as [<-|Hc]; [intro Hy; vm_compute in Hy; try contradiction; discriminate|]].
    + last_at 5.
  - eexists. split; vm_compute; reflexivity.
Qed.
Lemma cookie_example :
  cookies_on default_features = true /\
  exists r : response ex_cl, run [OpSet (B "A") (B "1"); @OpCookie ex_cl (B "c=1"); @OpCookie ex_cl (B "d=2")] = Done r /\
    rs_cookies r = [B "c=1"; B "d=2"] /\ headers_ok r /\ clean (rs_version r) /\ clean (reason_phrase ex_world r) /\
    Forall (fun c => clean (ck_show ex_cl c)) (rs_cookies r) /\
    fst (get_data default_features ex_world insertion_order [] r) =
    B "HTTP/1.1 200 OK" ++ CRLF ++ B "A: 1" ++ CRLF ++ B "Set-Cookie: c=1" ++ CRLF ++ B "Set-Cookie: d=2" ++ CRLF.
Proof.
  split; [reflexivity|]. eexists. split; [vm_compute; reflexivity|]. split; [reflexivity|].
  split; [|split; [|split; [|split]]].
  - repeat constructor; try clean_lit; cbn; intuition discriminate.
  - clean_lit.
  - clean_lit.
  - repeat constructor; clean_lit.
  - vm_compute. reflexivity.
Qed.

(** The body sent contains a header line and an empty line. *)
Definition forged : str := B "Location: http://evil.example" ++ CRLFCRLF ++ B "<p>".
Lemma forged_example :
  exists r : response ex_cl, run [@OpCookie ex_cl (B "c=1"); OpSend forged] = Done r /\
    rs_cookies r = [B "c=1"] /\ headers_ok r /\ clean (rs_version r) /\ ~ In SP (rs_version r) /\ clean (reason_phrase ex_world r) /\
    Forall (fun c => clean (ck_show ex_cl c)) (rs_cookies r) /\
    given_body (rs_body r) (flat_map (fun kv => fst kv ++ B ": " ++ snd kv ++ CRLF) [(B "Location", B "http://evil.example")] ++ CRLF ++ B "<p>") /\
    octane_send (get_data default_features ex_world insertion_order [] r) =
    B "HTTP/1.1 200 OK" ++ CRLF ++ B "Content-Length: 36" ++ CRLF ++ B "Date: Fri, 01 Jan 2021 00:00:00 GMT" ++ CRLF ++
    B "Content-Type: text/html" ++ CRLF ++ B "Set-Cookie: c=1" ++ CRLF ++ B "Location: http://evil.example" ++ CRLFCRLF ++ B "<p>".
Proof.
  eexists. split; [vm_compute; reflexivity|]. split; [reflexivity|].
  split; [|split; [|split; [|split; [|split; [|split]]]]].
  - repeat constructor; try clean_lit; cbn; intuition discriminate.
  - clean_lit.
  - cbn; intuition discriminate.
  - clean_lit.
  - repeat constructor; clean_lit.
  - vm_compute. reflexivity.
  - vm_compute. reflexivity.
Qed.
