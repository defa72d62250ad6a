(** Examples for Props/ApiProps.v. *)
From Verif.Model Require Import RustStd Path Request Time Status Response Router Server Query Tasks.
From Verif.Spec Require Import Common PathSpec RoutingSpec TextSpec RequestSpec ResponseSpec ServerSpec QuerySpec TaskSpec AppSpec ApiSpec.
From Verif.Proofs Require Export ApiProofs AppWitness TaskWitness ResponseWitness.

(** A carried request, given what reading it yields. *)
Lemma carried_some ft cl t rq : real_segments t -> read_request ft cl t = IoDone (RdRequest rq) ->
  exists rl hs cs body, carries ft cl (stream_of t) rl hs cs body /\ request_is ft rq rl hs cs body.
Proof. intros R E. pose proof (read_request_cases ft cl t R) as X. rewrite E in X. exact X. Qed.

Definition ex_run (l : list (rop demo_lib)) : outcome (response demo_lib) := apply_ops (map (fun o => (ex_world, o)) l) new_empty.

Definition odd_version : str := B "GET /hi HTTP/9.9" ++ CRLF ++ B "A: b" ++ CRLFCRLF.
Lemma example_108 :
  (exists rl hs cs body, carries default_features demo_lib (stream_of (Transport [odd_version] Stall)) rl hs cs body /\
     rl = RequestLine MGet [B "hi"] HttpInvalid) /\
  ex_serve odd_version Stall = (8, IoDone (answer_head (B "200 OK") (B "2") ++ B "hi")).
Proof.
  split; [|vm_compute; reflexivity].
  eassert (E : read_request default_features demo_lib (Transport [odd_version] Stall) = IoDone (RdRequest _)) by (vm_compute; reflexivity).
  destruct (carried_some _ _ _ _ (real_one odd_version Stall ltac:(discriminate)) E) as (rl & hs & cs & body & C & Q).
  exists rl, hs, cs, body. split; [exact C|]. destruct Q as (Q & _). rewrite <- Q. reflexivity.
Qed.
Definition two_hosts : str := B "GET /hi HTTP/1.1" ++ CRLF ++ B "Host: a" ++ CRLF ++ B "HOST: b" ++ CRLFCRLF.
Lemma example_109 :
  (exists rl hs cs body, carries default_features demo_lib (stream_of (Transport [two_hosts] Stall)) rl hs cs body /\
     rl_method rl = MGet /\ hs = [Header (B "Host") (B "a"); Header (B "HOST") (B "b")]) /\
  ex_serve two_hosts Stall = (8, IoDone (answer_head (B "200 OK") (B "2") ++ B "hi")).
Proof.
  split; [|vm_compute; reflexivity].
  eassert (E : read_request default_features demo_lib (Transport [two_hosts] Stall) = IoDone (RdRequest _)) by (vm_compute; reflexivity).
  destruct (carried_some _ _ _ _ (real_one two_hosts Stall ltac:(discriminate)) E) as (rl & hs & cs & body & C & Q).
  exists rl, hs, cs, body. split; [exact C|]. destruct Q as (Q & _ & _ & _ & Q2). split; [rewrite <- Q; reflexivity|].
  rewrite <- Q2; reflexivity.
Qed.

Lemma not_waiting t r : real_segments t -> read_request default_features demo_lib t = IoDone r ->
  ~ stream_waits default_features (stream_of t) (fin t).
Proof.
  intros R E W. pose proof (read_request_cases default_features demo_lib t R) as X. rewrite E in X. destruct r.
  - eapply bad_not_waits; eauto.
  - destruct X as (rl & hs & cs & body & C & _). eapply waits_not_carried; eauto.
Qed.
Lemma example_107 :
  let evs1 := firstn 2 mixed in let evs2 := firstn 6 (skipn 2 mixed) in let evs3 := skipn 8 mixed in
  mixed = evs1 ++ evs2 ++ evs3 /\
  ~ stream_waits default_features (stream_of (input_of (inputs 1 evs1))) (fin (input_of (inputs 1 evs1))) /\
  length (flatten relay_app) < runs_of 1 evs2 /\ writes_succeed 1 mixed /\
  task_get demo_lib 1 (tasks mixed_state) = TClosed (answer_head (B "200 OK") (B "1") ++ B "b").
Proof.
  cbv zeta. split; [reflexivity|]. split; [|split; [vm_compute; auto|split; [exact (proj1 (proj2 example_73))|exact (proj1 mixed_ends)]]].
  eapply not_waiting.
  - apply inputs_real. unfold real_inputs, mixed. cbn [firstn]. repeat constructor; vm_compute; discriminate.
  - vm_compute. reflexivity.
Qed.
Lemma relay_total : forall h mr x, snd (relay_handle h mr x) <> Panic.
Proof.
  intros h mr [s r]. unfold relay_handle. destruct h; [discriminate|].
  destruct (default_headers_total ex_world (Response (BodySized (N.of_nat (length s)) (RCursor s)) (rs_status r) (Some (N.of_nat (length s)))
    (rs_version r) (rs_headers r) (rs_charset r) (rs_cookies r))) as (r' & E); [discriminate|].
  unfold res_send. cbv zeta. rewrite E. discriminate.
Qed.
Lemma example_107_carries : exists rl hs cs body, carries default_features demo_lib (stream_of (input_of (inputs 1 mixed))) rl hs cs body.
Proof.
  eassert (E : read_request default_features demo_lib (input_of (inputs 1 mixed)) = IoDone (RdRequest _)) by (vm_compute; reflexivity).
  destruct (carried_some _ _ _ _ (inputs_real 1 mixed mixed_real) E) as (rl & hs & cs & body & C & _). eauto.
Qed.
Lemma example_110 :
  let evs := (1, TInput (Arrive (B "GET /hi HT")), ex_x) :: map (fun n => (n mod 3, TRun, (World (Some (N.of_nat n * 1000000000)%N) (fs ex_world) (ulower ex_world) (uupper ex_world) DebugNew, insertion_order))) (seq 0 50) in
  task_get demo_lib 1 (tasks (tasks_run default_features demo_lib relay_handle relay_router (TasksState [] []) evs)) = TReading [B "GET /hi HT"].
Proof. vm_compute. reflexivity. Qed.
