(** Example schedules. *)
From Verif.Proofs Require Export TaskProofs ServerWitness.
From Verif.Spec Require Import Common PathSpec RoutingSpec TextSpec RequestSpec ResponseSpec ServerSpec TaskSpec.

(** Two handlers that talk through the shared state: 0 stores the body, 1 answers what is stored. *)
Definition relay_handle (h : nat) (mr : matched_request demo_lib) (x : str * response demo_lib)
  : (str * response demo_lib) * outcome flow :=
  let '(s, r) := x in
  match h with
  | 0 => ((rq_body (mr_request mr), r), Done FNext)
  | _ => match res_send ex_world s r with Done r' => ((s, r'), Done FStop) | Panic => ((s, r), Panic) end
  end.
Definition relay_app : list (oreg nat) := [OAdd 0; ORoute VPost (B "/") 1].
Definition relay_router : router nat := match build insertion_order relay_app with Done r => r | Panic => router_new end.
Lemma relay_built : build insertion_order relay_app = Done relay_router.
Proof. vm_compute. reflexivity. Qed.
Definition post (body : str) : str :=
  request_text (B "POST") (B "/") (B "1.1") [Header (B "Host") (B "x"); Header (B "Content-Length") (B "1")] body.
Definition ex_x : world * order := (ex_world, insertion_order).
Definition mixed : list (nat * task_event * (world * order)) :=
  [(1, TInput (Arrive (post (B "a"))), ex_x); (2, TInput (Arrive (post (B "b"))), ex_x);
   (1, TRun, ex_x); (2, TRun, ex_x); (1, TRun, ex_x); (2, TRun, ex_x); (1, TRun, ex_x); (2, TRun, ex_x);
   (1, TAccept 50, ex_x); (2, TAccept 999, ex_x); (1, TAccept 999, ex_x)].
Definition mixed_state := tasks_run default_features demo_lib relay_handle relay_router (TasksState [] []) mixed.
Lemma mixed_ends : task_get demo_lib 1 (tasks mixed_state) = TClosed (answer_head (B "200 OK") (B "1") ++ B "b") /\
  task_get demo_lib 2 (tasks mixed_state) = TClosed (answer_head (B "200 OK") (B "1") ++ B "b").
Proof. split; vm_compute; reflexivity. Qed.
Lemma mixed_real : real_inputs mixed.
Proof. unfold real_inputs, mixed. repeat constructor; vm_compute; discriminate. Qed.
Lemma mixed_clocks : Forall (fun ev : nat * task_event * (world * order) => clock (fst (snd ev)) <> None) mixed.
Proof. unfold mixed. repeat constructor; vm_compute; discriminate. Qed.
(** Alone, the same request is answered with its own body. *)
Lemma relay_alone b : snd (serve default_features demo_lib relay_handle ex_world insertion_order [1] relay_router []
    (Transport [post [b]] Stall)) = IoDone (answer_head (B "200 OK") (B "1") ++ [b]).
Proof.
  destruct b; vm_compute; reflexivity.
Qed.

Lemma example_73 :
  task_get demo_lib 1 (tasks mixed_state) = TClosed (answer_head (B "200 OK") (B "1") ++ B "b") /\
  writes_succeed 1 mixed /\ room_of 1 mixed = 1049 /\
  (exists rest, task_get demo_lib 1 (tasks (tasks_run default_features demo_lib relay_handle relay_router (TasksState [] [])
     (firstn 8 mixed ++ [(1, TAccept 20, ex_x); (1, TWriteError, ex_x)]))) = TClosed (B "HTTP/1.1 200 OK" ++ CRLF ++ rest)).
Proof.
  split; [exact (proj1 mixed_ends)|]. split; [|split].
  - intros e x I. unfold mixed in I. cbn [In] in I.
    repeat match goal with H : _ \/ _ |- _ => destruct H as [H|H] end; try contradiction;
      injection I as <- <-; split; discriminate.
  - vm_compute. reflexivity.
  - exists (B "Con"). vm_compute. reflexivity.
Qed.
Lemma crossed :
  task_get demo_lib 1 (tasks mixed_state) = TClosed (answer_head (B "200 OK") (B "1") ++ B "b") /\
  stream_of (input_of (inputs 1 mixed)) = post (B "a") /\
  forall b, snd (serve default_features demo_lib relay_handle ex_world insertion_order [1] relay_router []
    (Transport [post [b]] Stall)) = IoDone (answer_head (B "200 OK") (B "1") ++ [b]).
Proof. split; [exact (proj1 mixed_ends)|]. split; [vm_compute; reflexivity|exact relay_alone]. Qed.
