(** Concrete responses for the examples and the refutations. *)
From Verif.Proofs Require Export ResponseExtra StatusMime PathExtra.
From Verif.Spec Require Import Common TextSpec RequestSpec ResponseSpec.
From Coq Require Import Permutation.

(** A world: 1 Jan 2021 00:00:00, one readable file. *)
Definition ex_world : world :=
  World (Some 1609459200%N) (fun p => if seqb p (B "/a/x.txt") then FsFile 5 (B "hello") else FsNoOpen)
        (fun s => s) (fun s => s) DebugNew.
(** A cookie library: cookies are the strings themselves. *)
Definition ex_cl : cookie_lib := CookieLib str (fun s => Some s) (fun s => s).
Definition run (l : list (rop ex_cl)) : outcome (response ex_cl) :=
  apply_ops (map (fun o => (ex_world, o)) l) new_empty.
Definition wire_of (o : outcome (response ex_cl)) : str :=
  match o with Done r => octane_send (get_data default_features ex_world insertion_order [] r) | Panic => [] end.

Lemma wire_reads_b bytes v n p hs body a hls :
  bytes = a ++ CRLFCRLF ++ body -> find_str CRLFCRLF bytes = Some (length a) ->
  split_str CRLF a = (B "HTTP/" ++ v ++ [SP] ++ n ++ [SP] ++ p) :: hls ->
  ~ In SP v -> ~ In SP n -> Forall2 header_line_is hls hs ->
  wire_reads bytes v n p hs body.
Proof.
  intros E F S V N H. exists a, hls. split; [split; auto; apply find_str_Some; auto|].
  split; [|auto]. rewrite <- S. apply split_str_spec. discriminate.
Qed.
Ltac not_in := let I := fresh in intro I; cbn in I; intuition discriminate.

Definition injected_set := run [OpSend (B "hi"); OpSet (B "X") (B "1" ++ CRLF ++ B "Evil: 2")].
Definition injected_redirect := run [OpSend (B "hi"); OpRedirect (B "/" ++ CRLF ++ B "Evil: 2")].
Definition injected_type := run [OpSend (B "hi"); OpWithType (B "a/b" ++ CRLF ++ B "Evil: 2")].
Definition injected_body := run [OpSend (B "hi"); OpSet (B "X") (B "1" ++ CRLFCRLF ++ B "other body")].
Lemma inject l : forall r r', run l = Done r -> r' = r -> res_get (B "Evil") r' = None ->
  forall a hls hs v n p body,
  wire_of (run l) = a ++ CRLFCRLF ++ body -> find_str CRLFCRLF (wire_of (run l)) = Some (length a) ->
  split_str CRLF a = (B "HTTP/" ++ v ++ [SP] ++ n ++ [SP] ++ p) :: hls ->
  ~ In SP v -> ~ In SP n -> Forall2 header_line_is hls hs -> In (B "Evil", B "2") hs ->
  exists r, run l = Done r /\ res_get (B "Evil") r = None /\
  exists v n p hs body, wire_reads (wire_of (run l)) v n p hs body /\ In (B "Evil", B "2") hs.
Proof.
  intros r r' E -> G a hls hs v n p body E1 E2 E3 V N F I. exists r. split; auto. split; auto.
  exists v, n, p, hs, body. split; auto. eapply wire_reads_b; eauto.
Qed.
Lemma inject_set : exists r, injected_set = Done r /\ res_get (B "Evil") r = None /\
  exists v n p hs body, wire_reads (wire_of injected_set) v n p hs body /\ In (B "Evil", B "2") hs.
Proof.
  eapply (inject [OpSend (B "hi"); OpSet (B "X") (B "1" ++ CRLF ++ B "Evil: 2")] _ _ ltac:(vm_compute; reflexivity) eq_refl) with
    (a := B "HTTP/1.1 200 OK" ++ CRLF ++ B "Content-Length: 2" ++ CRLF ++ B "Date: Fri, 01 Jan 2021 00:00:00 GMT" ++ CRLF ++
          B "Content-Type: text/html" ++ CRLF ++ B "X: 1" ++ CRLF ++ B "Evil: 2")
    (v := B "1.1") (n := B "200") (p := B "OK") (body := B "hi")
    (hs := [(B "Content-Length", B "2"); (B "Date", B "Fri, 01 Jan 2021 00:00:00 GMT"); (B "Content-Type", B "text/html");
            (B "X", B "1"); (B "Evil", B "2")]);
    try (vm_compute; reflexivity); try not_in.
  - repeat constructor; not_in.
  - cbn; tauto.
Qed.
Lemma inject_redirect : exists r, injected_redirect = Done r /\ res_get (B "Evil") r = None /\
  exists v n p hs body, wire_reads (wire_of injected_redirect) v n p hs body /\ In (B "Evil", B "2") hs.
Proof.
  eapply (inject [OpSend (B "hi"); OpRedirect (B "/" ++ CRLF ++ B "Evil: 2")] _ _ ltac:(vm_compute; reflexivity) eq_refl) with
    (a := B "HTTP/1.1 302 FOUND" ++ CRLF ++ B "Content-Length: 2" ++ CRLF ++ B "Date: Fri, 01 Jan 2021 00:00:00 GMT" ++ CRLF ++
          B "Content-Type: text/html" ++ CRLF ++ B "Location: /" ++ CRLF ++ B "Evil: 2")
    (v := B "1.1") (n := B "302") (p := B "FOUND") (body := B "hi")
    (hs := [(B "Content-Length", B "2"); (B "Date", B "Fri, 01 Jan 2021 00:00:00 GMT"); (B "Content-Type", B "text/html");
            (B "Location", B "/"); (B "Evil", B "2")]);
    try (vm_compute; reflexivity); try not_in.
  - repeat constructor; not_in.
  - cbn; tauto.
Qed.
Lemma inject_type : exists r, injected_type = Done r /\ res_get (B "Evil") r = None /\
  exists v n p hs body, wire_reads (wire_of injected_type) v n p hs body /\ In (B "Evil", B "2") hs.
Proof.
  eapply (inject [OpSend (B "hi"); OpWithType (B "a/b" ++ CRLF ++ B "Evil: 2")] _ _ ltac:(vm_compute; reflexivity) eq_refl) with
    (a := B "HTTP/1.1 200 OK" ++ CRLF ++ B "Content-Length: 2" ++ CRLF ++ B "Date: Fri, 01 Jan 2021 00:00:00 GMT" ++ CRLF ++
          B "Content-Type: a/b" ++ CRLF ++ B "Evil: 2")
    (v := B "1.1") (n := B "200") (p := B "OK") (body := B "hi")
    (hs := [(B "Content-Length", B "2"); (B "Date", B "Fri, 01 Jan 2021 00:00:00 GMT"); (B "Content-Type", B "a/b");
            (B "Evil", B "2")]);
    try (vm_compute; reflexivity); try not_in.
  - repeat constructor; not_in.
  - cbn; tauto.
Qed.
Lemma length_contradicts :
  let l := [OpSend (B "hi"); OpSendFile (B "/a/x.txt")] : list (rop ex_cl) in
  Forall (fun o => ~ sets_header (B "Content-Length") o) l /\
  exists r, run l = Done r /\ rs_body r = BodySized 5 (RFile (B "hello")) /\
  exists v n p hs, wire_reads (wire_of (run l)) v n p hs [] /\ In (B "Content-Length", B "2") hs.
Proof.
  split; [repeat constructor; intros []|]. eexists. split; [vm_compute; reflexivity|]. split; [reflexivity|].
  exists (B "1.1"), (B "200"), (B "OK"), [(B "Content-Length", B "2"); (B "Date", B "Fri, 01 Jan 2021 00:00:00 GMT");
    (B "Content-Type", B "text/plain")]. split; [|left; reflexivity].
  eapply wire_reads_b with (a := B "HTTP/1.1 200 OK" ++ CRLF ++ B "Content-Length: 2" ++ CRLF ++
          B "Date: Fri, 01 Jan 2021 00:00:00 GMT" ++ CRLF ++ B "Content-Type: text/plain");
    try (vm_compute; reflexivity); try not_in. repeat constructor; not_in.
Qed.
Lemma inject_body : exists r, injected_body = Done r /\ given_body (rs_body r) (B "hi") /\
  exists v n p hs, wire_reads (wire_of injected_body) v n p hs (B "other body" ++ CRLFCRLF ++ B "hi").
Proof.
  eexists. split; [vm_compute; reflexivity|]. split; [reflexivity|].
  exists (B "1.1"), (B "200"), (B "OK"), [(B "Content-Length", B "2"); (B "Date", B "Fri, 01 Jan 2021 00:00:00 GMT");
    (B "Content-Type", B "text/html"); (B "X", B "1")].
  eapply wire_reads_b with (a := B "HTTP/1.1 200 OK" ++ CRLF ++ B "Content-Length: 2" ++ CRLF ++
          B "Date: Fri, 01 Jan 2021 00:00:00 GMT" ++ CRLF ++ B "Content-Type: text/html" ++ CRLF ++ B "X: 1");
    try (vm_compute; reflexivity); try not_in.
  repeat constructor; not_in.
Qed.
