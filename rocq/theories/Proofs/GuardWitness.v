(** Examples for C127. *)
From Verif.Spec Require Import Common PathSpec RoutingSpec TextSpec RequestSpec ResponseSpec ServerSpec TaskSpec AppSpec GuardSpec.
From Verif.Model Require Import Tasks.
From Verif.Proofs Require Export AppWitness TaskWitness GuardProofs.

Definition has_key (mr : matched_request demo_lib) : bool :=
  match headers_get (rq_headers (mr_request mr)) (B "x-key") with Some _ => true | None => false end.
(** Handler 0 asks for a key; handler 1 gives the gold away and counts those who got it without a key;
    handler 2 does nothing. *)
Definition vault_handle (h : nat) (mr : matched_request demo_lib) (x : nat * response demo_lib)
  : (nat * response demo_lib) * outcome flow :=
  let '(n, r) := x in
  let send b n := match res_send ex_world b r with Done r' => ((n, r'), Done FStop) | Panic => ((n, r), Panic) end in
  match h with
  | 0 => if has_key mr then ((n, r), Done FNext) else send (B "no") n
  | 1 => send (B "gold") (if has_key mr then n else S n)
  | _ => ((n, r), Done FNext)
  end.
Definition vault_app : list (oreg nat) :=
  [ORoute VAll (B "/:any") 2; OMount [RAdd 0; RRoute VGet (B "/vault") 1]; ORoute VGet (B "/:any") 1].
Definition open_app : list (oreg nat) := [ORoute VGet (B "/vault") 1; OAdd 0; OAdd 1].
Definition bare_app : list (oreg nat) := [ORoute VAll (B "/:any") 2; OAdd 0].
Definition vault_router := match build reverse_order vault_app with Done r => r | Panic => router_new end.
Definition bare_router := match build insertion_order bare_app with Done r => r | Panic => router_new end.
Definition open_router := match build insertion_order open_app with Done r => r | Panic => router_new end.
Definition get_vault : str := B "GET /vault HTTP/1.1" ++ CRLF ++ B "Host: x" ++ CRLFCRLF.
Definition get_vault_key : str := B "GET /vault HTTP/1.1" ++ CRLF ++ B "Host: x" ++ CRLF ++ B "X-Key: 1" ++ CRLFCRLF.
Definition t_vault : transport := Transport [get_vault] Stall.
Lemma vault_turned (rq : request demo_lib) : headers_get (rq_headers rq) (B "x-key") = None ->
  turned_away default_features vault_handle (RAdd 0) rq.
Proof.
  intro E. split; [exact I|]. intros vars s r. cbn [handler_in vault_handle]. unfold has_key. cbn [mr_request]. rewrite E.
  destruct (res_send ex_world (B "no") r); cbn [snd]; discriminate.
Qed.
Lemma vault_keeps h mr s r :
  handles_one_of [RRoute VAll (B "/:any") 2; RAdd 0] h \/ ~ turned_away default_features vault_handle (RAdd 0) (mr_request mr) ->
  s = 0 -> fst (fst (vault_handle h mr (s, r))) = 0.
Proof.
  intros A ->. unfold vault_handle. destruct h as [|[|h]]; [| |reflexivity].
  - destruct (has_key mr); [reflexivity|]. destruct (res_send ex_world (B "no") r); reflexivity.
  - destruct (has_key mr) eqn:E; [destruct (res_send ex_world (B "gold") r); reflexivity|]. exfalso. destruct A as [(c & I & Ec)|A].
    + destruct I as [<-|[<-|[]]]; discriminate Ec.
    + apply A, vault_turned. unfold has_key in E. destruct (headers_get _ _); [discriminate|reflexivity].
Qed.
Lemma vault_stream rl hs cs body rq : carries default_features demo_lib (stream_of t_vault) rl hs cs body ->
  request_is default_features rq rl hs cs body -> turned_away default_features vault_handle (RAdd 0) rq.
Proof.
  intros C Ri. apply vault_turned. destruct Ri as (_ & _ & _ & G & _).
  assert (R : real_segments t_vault) by (apply real_one; discriminate).
  pose proof (read_request_cases default_features demo_lib t_vault R) as X.
  eassert (E : read_request default_features demo_lib t_vault = IoDone (RdRequest _)) by (vm_compute; reflexivity).
  rewrite E in X. destruct X as (rl' & hs' & cs' & body' & C' & Ri').
  destruct (carries_fun _ _ _ _ _ _ _ _ _ _ _ C C') as (<- & <- & <-). destruct Ri' as (_ & _ & _ & G' & _).
  rewrite G, <- G'. vm_compute. reflexivity.
Qed.
Definition vault_evs : list (nat * task_event * (world * order)) :=
  [(1, TInput (Arrive get_vault), ex_x); (2, TInput (Arrive get_vault_key), ex_x); (1, TRun, ex_x); (2, TRun, ex_x); (2, TRun, ex_x);
   (1, TRun, ex_x); (2, TRun, ex_x); (1, TRun, ex_x); (2, TRun, ex_x); (1, TAccept 500, ex_x); (2, TAccept 500, ex_x)].
Lemma example_127 :
  fits vault_app /\ fits bare_app /\ build reverse_order vault_app = Done vault_router /\ build insertion_order bare_app = Done bare_router /\
  real_segments t_vault /\
  flatten vault_app = [RRoute VAll (B "/:any") 2] ++ RAdd 0 :: [RRoute VGet (B "/vault") 1; RRoute VGet (B "/:any") 1] /\
  flatten bare_app = [RRoute VAll (B "/:any") 2] ++ RAdd 0 :: [] /\
  (forall rl hs cs body rq, carries default_features demo_lib (stream_of t_vault) rl hs cs body ->
     request_is default_features rq rl hs cs body -> turned_away default_features vault_handle (RAdd 0) rq) /\
  serve default_features demo_lib vault_handle ex_world insertion_order [] vault_router 0 t_vault =
    (0, IoDone (answer_head (B "200 OK") (B "2") ++ B "no")).
Proof.
  split; [vm_compute; discriminate|]. split; [vm_compute; discriminate|]. split; [vm_compute; reflexivity|]. split; [vm_compute; reflexivity|].
  split; [apply real_one; discriminate|]. split; [reflexivity|]. split; [reflexivity|]. split; [exact vault_stream|].
  vm_compute. reflexivity.
Qed.
Lemma example_127_run :
  real_inputs vault_evs /\ Forall (fun ev => clock (fst (snd ev)) <> None) vault_evs /\
  (forall h mr s r,
     handles_one_of ([RRoute VAll (B "/:any") 2] ++ [RAdd 0]) h \/ ~ turned_away default_features vault_handle (RAdd 0) (mr_request mr) ->
     s = 0 -> fst (fst (vault_handle h mr (s, r))) = 0) /\
  let final := tasks_run default_features demo_lib vault_handle vault_router (TasksState 0 []) vault_evs in
  task_get demo_lib 1 (tasks final) = TClosed (answer_head (B "200 OK") (B "2") ++ B "no") /\
  task_get demo_lib 2 (tasks final) = TClosed (answer_head (B "200 OK") (B "4") ++ B "gold") /\ tshared final = 0.
Proof.
  split; [repeat constructor; discriminate|]. split; [repeat constructor; discriminate|]. split; [exact vault_keeps|].
  vm_compute. auto.
Qed.
(** A guard registered too late protects nothing: the order of registration matters. *)
Lemma late_guard :
  build insertion_order open_app = Done open_router /\
  serve default_features demo_lib vault_handle ex_world insertion_order [] open_router 0 t_vault =
    (1, IoDone (answer_head (B "200 OK") (B "4") ++ B "gold")).
Proof. split; vm_compute; reflexivity. Qed.
