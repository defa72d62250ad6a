(** Witnesses for worker threads. *)
From Verif.Proofs Require Export WorkerProofs TaskWitness.
From Verif.Spec Require Import Common PathSpec RoutingSpec TextSpec RequestSpec ResponseSpec ServerSpec TaskSpec WorkerSpec.

Definition all_ask (n : nat) : list (nat * task_event * (world * order)) :=
  map (fun i => (i, TInput (Arrive get_hi), ex_x)) (seq 0 n).
Lemma hi_taken : exists j, task_input default_features demo_lib ex_router [] (Arrive get_hi) = TWorking j.
Proof. eexists. vm_compute. reflexivity. Qed.
Lemma starved n :
  let st := tasks_run default_features demo_lib ex_handle ex_router (TasksState 7 []) (all_ask n) in
  on_threads default_features demo_lib ex_handle n ex_router (TasksState 7 []) (all_ask n) /\
  (forall i, i < n -> in_handler demo_lib i st) /\
  forall more, none_returns demo_lib st more -> on_threads default_features demo_lib ex_handle n ex_router st more ->
    task_get demo_lib n (tasks (tasks_run default_features demo_lib ex_handle ex_router st more)) = TReading [].
Proof.
  destruct hi_taken as [j Ej]. destruct (fill default_features demo_lib ex_handle n ex_router get_hi ex_x j 7 Ej) as (T & Bk & Hi & Hr).
  fold (all_ask n) in T, Bk, Hi, Hr. cbv zeta. split; [exact T|]. split; [exact Hi|]. intros more N M.
  rewrite (stand_still default_features demo_lib ex_handle n ex_router more _ (Nat.eq_le_incl _ _ (eq_sym Bk)) N M). apply Hr. lia.
Qed.
Lemma example_132 :
  let evs := all_ask 2 ++ [(0, TRun, ex_x); (1, TRun, ex_x); (0, TRun, ex_x); (1, TRun, ex_x); (1, TRun, ex_x);
                           (2, TInput (Arrive get_hi), ex_x)] in
  let st := tasks_run default_features demo_lib ex_handle ex_router (TasksState 7 []) evs in
  on_threads default_features demo_lib ex_handle 2 ex_router (TasksState 7 []) evs /\ busy demo_lib st = 2 /\
  tshared st = 9 /\ task_get demo_lib 1 (tasks st) = TSending [] (answer_head (B "200 OK") (B "2") ++ B "hi").
Proof.
  split; [|split; [|split]]; try (vm_compute; reflexivity).
  unfold on_threads, all_ask, has_thread. cbn [seq map app].
  repeat (split; [first [left; vm_compute; reflexivity | right; vm_compute; auto]|]). exact I.
Qed.
Lemma example_132_room :
  let st := tasks_run default_features demo_lib ex_handle ex_router (TasksState 7 []) (all_ask 1) in
  busy demo_lib st < 2 /\ in_handler demo_lib 0 st /\
  task_get demo_lib 1 (tasks (tasks_run default_features demo_lib ex_handle ex_router st
    [(1, TInput (Arrive get_hi), ex_x); (1, TRun, ex_x); (1, TRun, ex_x); (1, TRun, ex_x)]))
  = TSending [] (answer_head (B "200 OK") (B "2") ++ B "hi").
Proof. split; [vm_compute; auto|]. split; [eexists; vm_compute; reflexivity|vm_compute; reflexivity]. Qed.
