(** C127: handlers that guard those registered after them.  Handlers, cookie library, world, hash orders and
    application are arbitrary; [fits]: at most 2^64-1 registrations. *)
From Verif.Model Require Import RustStd Path Request Time Status Response Router Server Tasks.
From Verif.Spec Require Import Common PathSpec RoutingSpec TextSpec RequestSpec ResponseSpec ServerSpec TaskSpec AppSpec GuardSpec.
From Verif.Proofs Require Import GuardWitness.

(** C127.  The registrations after a guard [c] (directly, or through mounted routers) have no influence on a
    request the guard turns away: answer and change of state are those of any other application with the same
    registrations up to the guard. *)
Theorem C127_nothing_behind_the_guard :
  forall ft cl (H ST : Type) (handle : H -> matched_request cl -> ST * response cl -> (ST * response cl) * outcome flow)
    o o' app app' (rt rt' : router H) w ho pos s t l1 c l2 l2',
  fits app -> fits app' -> build o app = Done rt -> build o' app' = Done rt' -> real_segments t ->
  flatten app = l1 ++ c :: l2 -> flatten app' = l1 ++ c :: l2' ->
  (forall rl hs cs body rq, carries ft cl (stream_of t) rl hs cs body -> request_is ft rq rl hs cs body -> turned_away ft handle c rq) ->
  serve ft cl handle w ho pos rt s t = serve ft cl handle w ho pos rt' s t.
Proof. exact @guarded_serve. Qed.
Print Assumptions C127_nothing_behind_the_guard.
Example C127_example :
  fits vault_app /\ fits bare_app /\ build reverse_order vault_app = Done vault_router /\ build insertion_order bare_app = Done bare_router /\
  real_segments t_vault /\
  flatten vault_app = [RRoute VAll (B "/:any") 2] ++ RAdd 0 :: [RRoute VGet (B "/vault") 1; RRoute VGet (B "/:any") 1] /\
  flatten bare_app = [RRoute VAll (B "/:any") 2] ++ RAdd 0 :: [] /\
  (forall rl hs cs body rq, carries default_features demo_lib (stream_of t_vault) rl hs cs body ->
     request_is default_features rq rl hs cs body -> turned_away default_features vault_handle (RAdd 0) rq) /\
  serve default_features demo_lib vault_handle ex_world insertion_order [] vault_router 0 t_vault =
    (0, IoDone (answer_head (B "200 OK") (B "2") ++ B "no")).
Proof. exact example_127. Qed.
(** Among any number of connections, at the grain of handler calls: an invariant of the shared state holds
    throughout if it is kept by the handlers registered up to the guard, and by the others on requests that the
    guard does not turn away.  No handler behind the guard is ever called for a request it turns away. *)
Theorem C127_guarded_invariant :
  forall ft cl (H ST : Type) (handle : H -> matched_request cl -> ST * response cl -> (ST * response cl) * outcome flow)
    c l1 l2 o app (rt : router H) (Inv : ST -> Prop) s0 evs,
  (N.of_nat (length (flatten app)) <= USIZE_MAX)%N -> build o app = Done rt ->
  real_inputs evs -> Forall (fun ev => clock (fst (snd ev)) <> None) evs -> flatten app = l1 ++ c :: l2 ->
  (forall h mr s r, handles_one_of (l1 ++ [c]) h \/ ~ turned_away ft handle c (mr_request mr) -> Inv s ->
     Inv (fst (fst (handle h mr (s, r))))) ->
  Inv s0 -> Inv (tshared (tasks_run ft cl handle rt (TasksState s0 []) evs)).
Proof. exact @guarded_run. Qed.
Print Assumptions C127_guarded_invariant.
Example C127_invariant_example :
  real_inputs vault_evs /\ Forall (fun ev => clock (fst (snd ev)) <> None) vault_evs /\
  (forall h mr s r,
     handles_one_of ([RRoute VAll (B "/:any") 2] ++ [RAdd 0]) h \/ ~ turned_away default_features vault_handle (RAdd 0) (mr_request mr) ->
     s = 0 -> fst (fst (vault_handle h mr (s, r))) = 0) /\
  let final := tasks_run default_features demo_lib vault_handle vault_router (TasksState 0 []) vault_evs in
  task_get demo_lib 1 (tasks final) = TClosed (answer_head (B "200 OK") (B "2") ++ B "no") /\
  task_get demo_lib 2 (tasks final) = TClosed (answer_head (B "200 OK") (B "4") ++ B "gold") /\ tshared final = 0.
Proof. exact example_127_run. Qed.
(** A guard protects only what is registered after it. *)
Example C127_late_guard :
  build insertion_order open_app = Done open_router /\
  serve default_features demo_lib vault_handle ex_world insertion_order [] open_router 0 t_vault =
    (1, IoDone (answer_head (B "200 OK") (B "4") ++ B "gold")).
Proof. exact late_guard. Qed.
