(** Witnesses for requests served as if one after the other. *)
From Verif.Proofs Require Export SerialProofs TaskWitness.
From Verif.Spec Require Import Common PathSpec RoutingSpec TextSpec RequestSpec ResponseSpec ServerSpec TaskSpec SerialSpec.

(** Handler 1 appends the body to the state and answers with the state; handler 0 passes on. *)
Definition append_handle (h : nat) (mr : matched_request demo_lib) (x : str * response demo_lib)
  : (str * response demo_lib) * outcome flow :=
  let '(s, r) := x in
  match h with
  | 0 => ((s, r), Done FNext)
  | _ => let s' := s ++ rq_body (mr_request mr) in
         match res_send ex_world s' r with Done r' => ((s', r'), Done FNext) | Panic => ((s, r), Panic) end
  end.
Definition append_app : list (oreg nat) := [OAdd 0; ORoute VPost (B "/") 1; OAdd 0].
Definition append_router : router nat := match build insertion_order append_app with Done r => r | Panic => router_new end.
Lemma append_built : build insertion_order append_app = Done append_router.
Proof. vm_compute. reflexivity. Qed.
Lemma append_one : one_stateful_registration demo_lib append_handle append_app.
Proof.
  exists [RAdd 0], [RRoute VPost (B "/") 1], [RAdd 0]. split; [reflexivity|]. split; [cbn; lia|].
  intros c I rq vars. exists (fun r => (r, Done FNext)). intros s r.
  destruct I as [<-|[<-|[]]]; reflexivity.
Qed.
(** The requests 1 and 2 begin in this order, the handlers that use the state run in the other. *)
Definition crossing : list (nat * task_event * (world * order)) :=
  [(1, TInput (Arrive (post (B "a"))), ex_x); (2, TInput (Arrive (post (B "b"))), ex_x);
   (1, TRun, ex_x); (2, TRun, ex_x); (2, TRun, ex_x); (1, TRun, ex_x); (2, TRun, ex_x); (1, TRun, ex_x);
   (1, TRun, ex_x); (2, TRun, ex_x); (1, TAccept 999, ex_x); (2, TAccept 999, ex_x)].
Definition crossing_state := tasks_run default_features demo_lib append_handle append_router (TasksState [] []) crossing.
Lemma example_131 :
  (N.of_nat (length (flatten append_app)) <= USIZE_MAX)%N /\ build insertion_order append_app = Done append_router /\
  real_inputs crossing /\ Forall (fun ev : nat * task_event * (world * order) => clock (fst (snd ev)) <> None) crossing /\
  simple_requests default_features demo_lib append_handle append_app crossing /\
  linked [] [(2, ([], B "b")); (1, (B "b", B "ba"))] (tshared crossing_state) /\
  task_get demo_lib 2 (tasks crossing_state) = TClosed (answer_head (B "200 OK") (B "1") ++ B "b") /\
  task_get demo_lib 1 (tasks crossing_state) = TClosed (answer_head (B "200 OK") (B "2") ++ B "ba").
Proof.
  split; [vm_compute; discriminate|]. split; [exact append_built|].
  split; [unfold real_inputs, crossing; repeat constructor; vm_compute; discriminate|].
  split; [unfold crossing; repeat constructor; vm_compute; discriminate|].
  split; [apply one_registration; exact append_one|].
  split; [vm_compute; auto|]. split; vm_compute; reflexivity.
Qed.
