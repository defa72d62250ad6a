(** Example applications and connections. *)
From Verif.Proofs Require Export ConnProofs ResponseWitness.
From Verif.Spec Require Import Common PathSpec RoutingSpec TextSpec RequestSpec ResponseSpec ServerSpec.

(** Handlers: 1 answers "hi" and counts, 2 echoes the body, 3 panics, others do nothing.  The shared
    state is a counter. *)
Definition ex_handle (h : nat) (mr : matched_request demo_lib) (x : nat * response demo_lib)
  : (nat * response demo_lib) * outcome flow :=
  let '(s, r) := x in
  let send b := match res_send ex_world b r with Done r' => ((s, r'), Done FStop) | Panic => ((s, r), Panic) end in
  match h with
  | 1 => let '((s, r), f) := send (B "hi") in ((S s, r), f)
  | 2 => send (rq_body (mr_request mr))
  | 3 => ((s, r), Panic)
  | _ => ((s, r), Done FNext)
  end.
(** The same without counting. *)
Definition ro_handle (h : nat) (mr : matched_request demo_lib) (x : nat * response demo_lib) :=
  let '((s, r), f) := ex_handle h mr x in ((fst x, r), f).
Definition ex_app : list (oreg nat) :=
  [OAdd 0; ORoute VGet (B "/hi") 1; ORoute VHead (B "/hi") 1; ORoute VPost (B "/echo/:x") 2; ORoute VGet (B "/boom") 3].
Definition ex_router : router nat := match build insertion_order ex_app with Done r => r | Panic => router_new end.
Lemma ex_built : build insertion_order ex_app = Done ex_router.
Proof. vm_compute. reflexivity. Qed.
Definition ex_serve (stream : str) (e : ending) : nat * io str :=
  serve default_features demo_lib ex_handle ex_world insertion_order [] ex_router 7 (Transport [stream] e).
Definition get_hi : str := B "GET /hi HTTP/1.1" ++ CRLF ++ B "Host: x" ++ CRLFCRLF.
Definition head_hi : str := B "HEAD /hi HTTP/1.1" ++ CRLF ++ B "Host: x" ++ CRLFCRLF.
Definition get_boom : str := B "GET /boom HTTP/1.1" ++ CRLF ++ B "Host: x" ++ CRLFCRLF.
Definition answer_head (status : str) (len : str) : str :=
  B "HTTP/1.1 " ++ status ++ CRLF ++ B "Content-Length: " ++ len ++ CRLF ++
  B "Date: Fri, 01 Jan 2021 00:00:00 GMT" ++ CRLF ++ B "Content-Type: text/html" ++ CRLFCRLF.

Lemma real_one s e : s <> [] -> real_segments (Transport [s] e).
Proof. intro N. constructor; auto. Qed.
Lemma ro_read_only : read_only ro_handle.
Proof. intros h mr s r. unfold ro_handle. destruct (ex_handle h mr (s, r)) as [[s' r'] f]. reflexivity. Qed.

(** HEAD answers carry a body. *)
Lemma head_body : exists out hs, ex_serve head_hi Stall = (8, IoDone out) /\
  wire_reads out (B "1.1") (B "200") (B "OK") hs (B "hi").
Proof.
  exists (answer_head (B "200 OK") (B "2") ++ B "hi"),
         [(B "Content-Length", B "2"); (B "Date", B "Fri, 01 Jan 2021 00:00:00 GMT"); (B "Content-Type", B "text/html")].
  split; [vm_compute; reflexivity|].
  eapply wire_reads_b with (a := B "HTTP/1.1 200 OK" ++ CRLF ++ B "Content-Length: 2" ++ CRLF ++
          B "Date: Fri, 01 Jan 2021 00:00:00 GMT" ++ CRLF ++ B "Content-Type: text/html");
    try (vm_compute; reflexivity); try not_in.
  repeat constructor; not_in.
Qed.

(** Serving a request with an n-byte header. *)
Lemma big_head_served n : exists t, real_segments t /\ n <= length (stream_of t) /\
  exists rq, read_request default_features demo_lib t = IoDone (RdRequest rq) /\
             headers_get (rq_headers rq) (B "host") = Some (repeat x61 n).
Proof.
  set (t := Transport [request_text (B "GET") (B "/") (B "1.1") [big_header n] []] Stall).
  assert (St : stream_of t = request_text (B "GET") (B "/") (B "1.1") [big_header n] []).
  { unfold t, stream_of. cbn [segs concat]. apply app_nil_r. }
  exists t. assert (R : real_segments t) by (apply real_one; discriminate). split; [exact R|]. split.
  - rewrite St. unfold request_text. cbn [map join]. unfold header_text. cbn [big_header h_name h_value].
    rewrite !app_length, repeat_length. lia.
  - destruct (text_head default_features demo_lib (B "GET") (B "/") (B "1.1") [big_header n] [] MGet Http11 [] []) as (a & Ha & Hm).
    + constructor.
    + constructor.
    + split; [clean_lit|split; [not_in|reflexivity]].
    + apply path_means_parse. reflexivity.
    + discriminate.
    + constructor; [apply big_good|constructor].
    + reflexivity.
    + rewrite <- St in Ha.
      destruct (read_request_ok default_features demo_lib t a [] _ _ _ R Ha Hm) as (h & body & E & G & _).
      * vm_compute. discriminate.
      * vm_compute. discriminate.
      * exists (Request (RequestLine MGet [] Http11) h body []). split; [exact E|]. cbn [rq_headers]. rewrite G. reflexivity.
Qed.

(** Corollaries in the form of the property theorems. *)
Lemma killed_silently ft cl (H ST : Type) handle (rt : router H) w ho pos (s : ST) t : real_segments t ->
  stream_kills ft cl (stream_of t) (fin t) -> serve ft cl handle w ho pos rt s t = (s, IoPanic).
Proof. intros R K. unfold serve. rewrite (proj2 (read_request_panics ft cl t R) K). reflexivity. Qed.
Lemma truncated_same ft cl (H ST : Type) handle handle' (rt rt' : router H) w ho pos (s : ST) t : real_segments t ->
  ~ occurs CRLFCRLF (stream_of t) ->
  serve ft cl handle w ho pos rt s t = serve ft cl handle' w ho pos rt' s t.
Proof.
  intros R N. unfold serve. rewrite (read_request_none ft cl t R N). destruct (fin t); reflexivity.
Qed.
Lemma kinds_exclusive ft cl s e :
  (stream_bad s e -> ~ stream_kills ft cl s e /\ ~ stream_waits ft s e) /\
  (stream_kills ft cl s e -> ~ stream_waits ft s e) /\
  (forall rl hs cs body, carries ft cl s rl hs cs body ->
     ~ stream_bad s e /\ ~ stream_kills ft cl s e /\ ~ stream_waits ft s e).
Proof.
  split; [intro X; split; [apply bad_not_kills; auto|apply bad_not_waits; auto]|].
  split; [apply kills_not_waits|]. intros rl hs cs body C.
  split; [|split]; intro X.
  - eapply bad_not_carried; eauto.
  - eapply kills_not_carried; eauto.
  - eapply waits_not_carried; eauto.
Qed.
Lemma error_answer_fun num reason out num' reason' : error_answer num reason out -> error_answer num' reason' out ->
  num = num' /\ reason = reason'.
Proof.
  intros (hs & b & l & W & _) (hs' & b' & l' & W' & _).
  destruct (wire_reads_fun _ _ _ _ _ _ _ _ _ _ _ W W') as (_ & ? & ? & _). auto.
Qed.
Lemma as_if_alone ft cl (H ST : Type) (handle : H -> matched_request cl -> ST * response cl -> (ST * response cl) * outcome flow)
    (rt : router H) s0 evs i :
  read_only handle -> real_events evs ->
  let t := input_of (events_of i evs) in
  match conn_get i (conns (server_run ft cl handle rt (ServerState s0 []) evs)) with
  | Running received => received = segs t /\ fin t = Stall /\ (events_of i evs <> [] -> read_request ft cl t = IoBlocked)
  | Answered out => exists e w ho, In (i, e, (w, ho)) evs /\ snd (serve ft cl handle w ho [i] rt s0 t) = IoDone out
  | Crashed => exists e w ho, In (i, e, (w, ho)) evs /\ snd (serve ft cl handle w ho [i] rt s0 t) = IoPanic
  end.
Proof.
  intros K R t. pose proof (@each_served ft cl H ST handle (fun s => s = s0) rt s0 evs i (@read_only_keeps cl H ST handle s0 K) eq_refl R) as X.
  unfold conn_ok in X. fold t in X. destruct (conn_get i _); auto;
  destruct X as (e & w & ho & s & s' & -> & I & E); exists e, w, ho; rewrite E; auto.
Qed.
Lemma callback_once tls os port : exists pre post, fst (octane_listen tls os port) = pre ++ EvCallback :: post /\
  ~ In EvCallback pre /\ ~ In EvCallback post.
Proof. destruct (startup_shape tls os port) as (pre & post & H1 & H2 & H3 & _). exists pre, post. auto. Qed.
Lemma callback_before_bound tls os port pre post : fst (octane_listen tls os port) = pre ++ EvCallback :: post ->
  forall p, ~ In (EvBound p) pre.
Proof.
  intros E. destruct (startup_shape tls os port) as (pre' & post' & H1 & H2 & H3 & H4). rewrite E in H1.
  assert (pre = pre') as ->; auto. clear - H1 H2 H3. revert pre' H1 H2.
  induction pre as [|x pre IH]; intros [|y pre'] E N; auto; cbn [app] in E.
  - injection E as <- E. destruct N. left. reflexivity.
  - injection E as -> E. destruct H3. rewrite <- E. apply in_or_app. right. left. reflexivity.
  - injection E as <- E. f_equal. apply IH; auto. intro I. apply N. right. auto.
Qed.
Lemma example_56 :
  let hs := [Header (B "Host") (B "x"); Header (B "Content-Length") (B "3")] in
  let t := Transport (map (fun b => [b]) (request_text (B "POST") (B "/echo/./7") (B "1.1") hs (B "abc"))) Stall in
  serve default_features demo_lib ex_handle ex_world insertion_order [] ex_router 7 t =
    (7, IoDone (answer_head (B "200 OK") (B "3") ++ B "abc")) /\
  Forall (fun hd => good_header true hd /\ clean (header_text hd)) hs /\ target_ok (B "/echo/./7") /\
  path_means (B "/echo/./7") [B "echo"; B "7"] /\ announced hs = 3%N.
Proof.
  split; [vm_compute; reflexivity|]. split; [|split; [|split]].
  - apply Forall_cons; [|apply Forall_cons; [|apply Forall_nil]].
    + split; [|clean_lit]. apply strict_good; [|split|reflexivity].
      * split; [discriminate|]. split; [not_in|]. intros _. apply Forall_forall. intros b I. apply tchar_b.
        repeat (destruct I as [<-|I]; [reflexivity|]). destruct I.
      * cbn [h_value]. intros b r E. injection E as <- _. intros [X|X]; discriminate.
      * intros _. repeat apply Forall_cons; try apply Forall_nil; intros [X|X]; vm_compute in X; discriminate.
    + split; [|clean_lit]. apply strict_good; [|split|reflexivity].
      * split; [discriminate|]. split; [not_in|]. intros _. apply Forall_forall. intros b I. apply tchar_b.
        repeat (destruct I as [<-|I]; [reflexivity|]). destruct I.
      * cbn [h_value]. intros b r E. injection E as <- _. intros [X|X]; discriminate.
      * intros _. repeat apply Forall_cons; try apply Forall_nil; intros [X|X]; vm_compute in X; discriminate.
  - split; [clean_lit|split; [not_in|reflexivity]].
  - apply path_means_parse. reflexivity.
  - reflexivity.
Qed.
Lemma example_57 : read_only ro_handle /\
  let x := (ex_world, insertion_order) in
  let evs := [(1, Arrive (firstn 9 get_hi), x); (2, Arrive get_boom, x); (3, Arrive (B "GE"), x);
              (1, Arrive (skipn 9 get_hi), x); (3, PeerClose, x)] in
  let st := server_run default_features demo_lib ro_handle ex_router (ServerState 7 []) evs in
  conn_get 1 (conns st) = Answered (answer_head (B "200 OK") (B "2") ++ B "hi") /\
  conn_get 2 (conns st) = Crashed /\
  conn_get 3 (conns st) = Answered (answer_head (B "400 BAD REQUEST") (B "189") ++ NOT_FOUND) /\ real_events evs.
Proof.
  split; [apply ro_read_only|]. split; [vm_compute; reflexivity|]. split; [vm_compute; reflexivity|].
  split; [vm_compute; reflexivity|]. repeat constructor; discriminate.
Qed.
Lemma example_66 : keeps (fun n => 7 <= n) ex_handle /\
  let x := (ex_world, insertion_order) in
  shared (server_run default_features demo_lib ex_handle ex_router (ServerState 7 [])
    [(1, Arrive get_hi, x); (2, Arrive get_boom, x); (3, Arrive get_hi, x)]) = 9.
Proof.
  split; [|vm_compute; reflexivity]. intros h mr s r L. unfold ex_handle.
  destruct h as [|[|[|[|h]]]]; cbn [fst]; auto.
  - destruct (res_send ex_world (B "hi") r); cbn [fst]; lia.
Qed.
