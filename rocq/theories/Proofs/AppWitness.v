(** Example applications for Props/AppProps.v. *)
From Coq Require Import Permutation.
From Verif.Model Require Import RustStd Path Request Time Status Response Router Server Config Listen Cost.
From Verif.Spec Require Import Common PathSpec RoutingSpec TextSpec RequestSpec ResponseSpec ServerSpec AppSpec.
From Verif.Proofs Require Export AppProofs OrderProofs CostProofs ServerWitness.

Lemma carried_line ft cl t rq : real_segments t -> read_request ft cl t = IoDone (RdRequest rq) ->
  forall rl hs cs body, carries ft cl (stream_of t) rl hs cs body -> rl = rq_line rq.
Proof.
  intros R E rl hs cs body C. pose proof (read_request_cases ft cl t R) as X. rewrite E in X.
  destruct X as (rl' & hs' & cs' & body' & C' & -> & _). destruct (carries_fun _ _ _ _ _ _ _ _ _ _ _ C C') as (-> & _). reflexivity.
Qed.
Lemma ex_keeps (P : response demo_lib -> Prop) : (forall b r r', P r -> res_send ex_world b r = Done r' -> P r') ->
  forall h mr s r, P r -> P (snd (fst (ex_handle h mr (s, r)))).
Proof.
  intros K h mr s r Pr. unfold ex_handle.
  destruct h as [|[|[|[|h]]]]; try exact Pr; destruct (res_send ex_world _ r) eqn:E; cbn [fst snd]; eauto.
Qed.
Definition t_hi : transport := Transport [get_hi] Stall.
Lemma hi_line rl hs cs body : carries default_features demo_lib (stream_of t_hi) rl hs cs body -> rl = RequestLine MGet [B "hi"] Http11.
Proof.
  intro C. eassert (E : read_request default_features demo_lib t_hi = IoDone (RdRequest _)) by (vm_compute; reflexivity).
  rewrite (carried_line _ _ t_hi _ (real_one get_hi Stall ltac:(discriminate)) E rl hs cs body C). reflexivity.
Qed.
Lemma route_off (H : Type) wv m path v p (h : H) pat : path_parse p = Some pat -> ~ route_matches wv pat path ->
  ~ applies wv m path (RRoute v p h).
Proof. intros E N (_ & pat' & Hp & M). apply path_means_parse in Hp. rewrite E in Hp. injection Hp as <-. auto. Qed.

(** [ex_app] with a route for another path, and with two routes swapped. *)
Definition extra : rreg nat := RRoute VGet (B "/boom/:x") 3.
Definition more_app : list (oreg nat) := [OAdd 0] ++ inline extra :: tl ex_app.
Definition more_router := match build reverse_order more_app with Done r => r | Panic => router_new end.
Lemma example_97 :
  build reverse_order more_app = Done more_router /\ fits more_app /\ ex_app = [OAdd 0] ++ tl ex_app /\
  (forall rl hs cs body, carries default_features demo_lib (stream_of t_hi) rl hs cs body ->
     ~ applies true (rl_method rl) (rl_path rl) extra) /\
  serve default_features demo_lib ex_handle ex_world insertion_order [] more_router 7 t_hi =
    (8, IoDone (answer_head (B "200 OK") (B "2") ++ B "hi")) /\
  ex_serve get_hi Stall = (8, IoDone (answer_head (B "200 OK") (B "2") ++ B "hi")).
Proof.
  split; [vm_compute; reflexivity|]. split; [vm_compute; discriminate|]. split; [reflexivity|]. split; [|split; vm_compute; reflexivity].
  intros rl hs cs body C. rewrite (hi_line _ _ _ _ C). cbn [rl_method rl_path].
  apply (route_off nat true MGet [B "hi"] VGet (B "/boom/:x") 3 [B "boom"; B ":x"]); [reflexivity|].
  intro F. cbn [route_matches] in F. inversion F as [|? ? ? ? _ F']; subst. inversion F'.
Qed.

(** The header lines of an answer come in the order of the hash map. *)
Lemma example_98 :
  serve default_features demo_lib ex_handle ex_world insertion_order [] ex_router 7 t_hi =
    (8, IoDone (B "HTTP/1.1 200 OK" ++ CRLF ++ B "Content-Length: 2" ++ CRLF ++ B "Date: Fri, 01 Jan 2021 00:00:00 GMT" ++ CRLF ++
                B "Content-Type: text/html" ++ CRLFCRLF ++ B "hi")) /\
  serve default_features demo_lib ex_handle ex_world reverse_order [] ex_router 7 t_hi =
    (8, IoDone (B "HTTP/1.1 200 OK" ++ CRLF ++ B "Content-Type: text/html" ++ CRLF ++ B "Date: Fri, 01 Jan 2021 00:00:00 GMT" ++ CRLF ++
                B "Content-Length: 2" ++ CRLFCRLF ++ B "hi")) /\
  (forall h mr s r, writable ex_world r -> writable ex_world (snd (fst (ex_handle h mr (s, r))))).
Proof.
  split; [vm_compute; reflexivity|]. split; [vm_compute; reflexivity|]. apply ex_keeps. intros. eapply writable_send; eauto.
Qed.

(** Handler 1 sends the file named by the variable; [guarded] is the same but panics on any name that
    is not safe. *)
Definition name_handle (h : nat) (mr : matched_request demo_lib) (x : nat * response demo_lib)
  : (nat * response demo_lib) * outcome flow :=
  let '(s, r) := x in
  match mget seqb (B "name") (mr_vars mr) with
  | Some v => match res_send ex_world (B "static/" ++ v) r with Done r' => ((s, r'), Done FStop) | Panic => ((s, r), Panic) end
  | None => ((s, r), Done FNext)
  end.
Definition safe_b (val : str) : bool := normal_b val && negb (existsb (beqb x2f) val).
Definition guarded (h : nat) (mr : matched_request demo_lib) (x : nat * response demo_lib) :=
  match mget seqb (B "name") (mr_vars mr) with
  | Some v => if safe_b v then name_handle h mr x else (x, Panic)
  | None => name_handle h mr x
  end.
Lemma guarded_same h mr x : safe_variables mr -> name_handle h mr x = guarded h mr x.
Proof.
  intro S. unfold guarded. destruct (mget seqb (B "name") (mr_vars mr)) as [v|] eqn:E; auto.
  destruct (S _ _ E) as (_ & N & L). assert (X : safe_b v = true); [|rewrite X; reflexivity].
  unfold safe_b. rewrite (proj2 (normal_b_spec v) N). cbn [andb]. destruct (existsb (beqb x2f) v) eqn:Ex; auto.
  exfalso. apply L. apply existsb_exists in Ex as (b & I & Eb). apply beqb_eq in Eb. subst b. exact I.
Qed.
Definition name_router := match build insertion_order [ORoute VGet (B "/f/:name") 1] with Done r => r | Panic => router_new end.
Definition name_serve (target : str) : nat * io str :=
  serve default_features demo_lib guarded ex_world insertion_order [] name_router 7
    (Transport [B "GET " ++ target ++ B " HTTP/1.1" ++ CRLF ++ B "Host: x" ++ CRLFCRLF] Stall).
Lemma example_99 :
  (forall h mr x, safe_variables mr -> name_handle h mr x = guarded h mr x) /\
  name_serve (B "/f/a.txt") = (7, IoDone (answer_head (B "200 OK") (B "12") ++ B "static/a.txt")) /\
  name_serve (B "/f/x/../..a") = (7, IoDone (answer_head (B "200 OK") (B "10") ++ B "static/..a")) /\
  name_serve (B "/f/..") = (7, IoDone (answer_head (B "404 NOT FOUND") (B "189") ++ NOT_FOUND)) /\
  path_parse (B "static/..a") = Some [B "static"; B "..a"].
Proof. split; [exact guarded_same|]. repeat split; vm_compute; reflexivity. Qed.

(** Handlers that set everything but a body. *)
Definition see_other (h : nat) (mr : matched_request demo_lib) (x : nat * response demo_lib)
  : (nat * response demo_lib) * outcome flow :=
  let '(s, r) := x in ((S s, res_set (B "X-Token") (B "t") (redirect (B "/login") r)), Done FStop).
Lemma see_other_bodiless h mr s r : rs_body r = BodyNone ->
  rs_body (snd (fst (see_other h mr (s, r)))) = BodyNone /\ snd (see_other h mr (s, r)) <> Panic.
Proof. intro E. split; [exact E|discriminate]. Qed.
Lemma example_102 :
  serve default_features demo_lib see_other ex_world insertion_order [] ex_router 7 t_hi =
    (8, IoDone (answer_head (B "404 NOT FOUND") (B "189") ++ NOT_FOUND)) /\
  serve default_features demo_lib see_other ex_world insertion_order [] router_new 7 t_hi =
    (7, IoDone (answer_head (B "404 NOT FOUND") (B "189") ++ NOT_FOUND)) /\
  (forall h mr s r, rs_body r = BodyNone ->
     rs_body (snd (fst (see_other h mr (s, r)))) = BodyNone /\ snd (see_other h mr (s, r)) <> Panic).
Proof. split; [|split]; [vm_compute; reflexivity|vm_compute; reflexivity|exact see_other_bodiless]. Qed.

(** An upload whose client waits for leave to send the body. *)
Definition expecting : str :=
  B "POST /echo/7 HTTP/1.1" ++ CRLF ++ B "Host: x" ++ CRLF ++ B "Content-Length: 3" ++ CRLF ++ B "Expect: 100-continue" ++ CRLFCRLF.
Lemma example_103 : ex_serve expecting Stall = (7, IoBlocked) /\
  ex_serve (expecting ++ B "abc") Stall = (7, IoDone (answer_head (B "200 OK") (B "3") ++ B "abc")).
Proof. split; vm_compute; reflexivity. Qed.
