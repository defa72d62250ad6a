(** Witnesses for executions whose outcome does not depend on the schedule. *)
From Verif.Proofs Require Export RecordProofs TaskWitness.
From Verif.Spec Require Import Common PathSpec RoutingSpec TextSpec RequestSpec ResponseSpec ServerSpec TaskSpec RecordSpec.

(** Handler 0 counts requests, 1 adds the length of the body to the count and answers with the body, 2 panics
    after counting twice. *)
Definition tally_handle (h : nat) (mr : matched_request demo_lib) (x : nat * response demo_lib)
  : (nat * response demo_lib) * outcome flow :=
  let '(s, r) := x in
  match h with
  | 0 => ((s + 1, r), Done FNext)
  | 1 => match res_send ex_world (rq_body (mr_request mr)) r with
         | Done r' => ((s + 10 * length (rq_body (mr_request mr)), r'), Done FStop)
         | Panic => ((s + 10 * length (rq_body (mr_request mr)), r), Panic)
         end
  | _ => ((s + 2, r), Panic)
  end.
Lemma tally_records : records demo_lib tally_handle.
Proof.
  exists (fun h mr _ s => s + match h with 0 => 1 | 1 => 10 * length (rq_body (mr_request mr)) | _ => 2 end).
  exists (fun h mr r => (snd (fst (tally_handle h mr (0, r))), snd (tally_handle h mr (0, r)))). split.
  - intros [|[|h]] mr s r; cbn [tally_handle fst snd]; auto.
  - intros. rewrite <- !Nat.add_assoc. f_equal. apply Nat.add_comm.
Qed.
Definition tally_app : list (oreg nat) := [OAdd 0; ORoute VPost (B "/") 1; ORoute VGet (B "/boom") 2].
Definition tally_router : router nat := match build insertion_order tally_app with Done r => r | Panic => router_new end.
(** Another world and hash order. *)
Definition later : world * order := (World (Some 1700000000%N) (fs ex_world) (ulower ex_world) (uupper ex_world) (dbg_sq ex_world), reverse_order).
Definition given (i : nat) (m x : str) (y : world * order) : nat * task_event * (world * order) :=
  (i, TInput (Arrive (if seqb m (B "POST") then post x else get_boom)), y).
(** Three requests, once interleaved, once one after the other in another order; 4 never completes its request. *)
Definition tally_mixed : list (nat * task_event * (world * order)) :=
  [given 1 (B "POST") (B "a") ex_x; given 2 (B "POST") (B "b") ex_x; (1, TRun, ex_x); given 3 (B "GET") [] ex_x; (2, TRun, ex_x);
   (4, TInput (Arrive (B "GET /")), ex_x); (3, TRun, ex_x); (3, TRun, ex_x); (2, TRun, ex_x); (1, TRun, ex_x); (1, TRun, ex_x);
   (2, TRun, ex_x); (1, TAccept 999, ex_x)].
Definition tally_serial : list (nat * task_event * (world * order)) :=
  [given 3 (B "GET") [] later; (3, TRun, later); (3, TRun, later); (4, TInput (Arrive (B "GET /")), later);
   given 2 (B "POST") (B "b") later; (2, TRun, later); (2, TRun, later); (2, TRun, later); (2, TAccept 20, later); (2, TWriteError, later);
   given 1 (B "POST") (B "a") later; (1, TRun, later); (1, TRun, later); (1, TRun, later)].
Definition tally_end (evs : list (nat * task_event * (world * order))) : tasks_state demo_lib (H := nat) (ST := nat) :=
  tasks_run default_features demo_lib tally_handle tally_router (TasksState 0 []) evs.

Definition idle {H} (t : task demo_lib (H := H)) : bool := match t with TWorking _ => false | _ => true end.
Lemma settled_check {H ST} (st : tasks_state demo_lib (H := H) (ST := ST)) :
  forallb (fun x => idle (snd x)) (tasks st) = true -> settled demo_lib st.
Proof.
  intros F i j E. unfold task_get in E. destruct (mget Nat.eqb i (tasks st)) as [t|] eqn:G; [|discriminate]. subst t.
  apply (mget_In Nat.eqb Nat.eqb_eq) in G. rewrite forallb_forall in F. specialize (F _ G). discriminate F.
Qed.
Lemma inputs_check {X Y} (l : list nat) (evs : list (nat * task_event * X)) (evs' : list (nat * task_event * Y)) :
  forallb (fun ev => existsb (Nat.eqb (fst (fst ev))) l) evs = true ->
  forallb (fun ev => existsb (Nat.eqb (fst (fst ev))) l) evs' = true ->
  Forall (fun i => inputs i evs = inputs i evs') l -> forall i, inputs i evs = inputs i evs'.
Proof.
  intros F F' E i. destruct (existsb (Nat.eqb i) l) eqn:Ei.
  - apply existsb_exists in Ei. destruct Ei as (k & Ik & Ek). apply Nat.eqb_eq in Ek. subst k. rewrite Forall_forall in E. auto.
  - assert (Z : forall Z (es : list (nat * task_event * Z)), forallb (fun ev => existsb (Nat.eqb (fst (fst ev))) l) es = true -> inputs i es = []).
    { intros Z es Fz. unfold inputs, own_events. replace (filter (on_task i) es) with (@nil (nat * task_event * Z)); auto. symmetry.
      induction es as [|ev es IH]; auto. cbn [forallb] in Fz. apply Bool.andb_true_iff in Fz. destruct Fz as [Fv Fz]. cbn [filter].
      unfold on_task at 1. destruct (Nat.eqb_spec (fst (fst ev)) i) as [D|D]; auto. rewrite D in Fv. congruence. }
    rewrite !Z; auto.
Qed.
Lemma example_137 : records demo_lib tally_handle /\
  Forall (fun ev : nat * task_event * (world * order) => clock (fst (snd ev)) <> None) tally_mixed /\
  Forall (fun ev : nat * task_event * (world * order) => clock (fst (snd ev)) <> None) tally_serial /\
  (forall i, inputs i tally_mixed = inputs i tally_serial) /\
  settled demo_lib (tally_end tally_mixed) /\ settled demo_lib (tally_end tally_serial) /\
  tshared (tally_end tally_mixed) = 25 /\ tshared (tally_end tally_serial) = 25 /\
  task_get demo_lib 1 (tasks (tally_end tally_mixed)) = TClosed (answer_head (B "200 OK") (B "1") ++ B "a") /\
  task_get demo_lib 3 (tasks (tally_end tally_mixed)) = TCrashed /\
  task_get demo_lib 4 (tasks (tally_end tally_mixed)) = TReading [B "GET /"].
Proof.
  split; [exact tally_records|]. split; [unfold tally_mixed; repeat constructor; vm_compute; discriminate|].
  split; [unfold tally_serial; repeat constructor; vm_compute; discriminate|].
  split; [apply (inputs_check [1; 2; 3; 4]); [vm_compute; reflexivity|vm_compute; reflexivity|repeat constructor]|].
  split; [apply settled_check; vm_compute; reflexivity|]. split; [apply settled_check; vm_compute; reflexivity|].
  repeat split; vm_compute; reflexivity.
Qed.

(** With handlers that use what others stored, states and answers depend on the schedule. *)
Definition relay_serial : list (nat * task_event * (world * order)) :=
  [(2, TInput (Arrive (post (B "b"))), ex_x); (2, TRun, ex_x); (2, TRun, ex_x); (2, TRun, ex_x); (2, TAccept 999, ex_x);
   (1, TInput (Arrive (post (B "a"))), ex_x); (1, TRun, ex_x); (1, TRun, ex_x); (1, TRun, ex_x); (1, TAccept 999, ex_x)].
Lemma relay_depends :
  let st := tasks_run default_features demo_lib relay_handle relay_router (TasksState [] []) in
  (forall i, inputs i mixed = inputs i relay_serial) /\ settled demo_lib (st mixed) /\ settled demo_lib (st relay_serial) /\
  tshared (st mixed) = B "b" /\ tshared (st relay_serial) = B "a" /\
  task_get demo_lib 1 (tasks (st mixed)) = TClosed (answer_head (B "200 OK") (B "1") ++ B "b") /\
  task_get demo_lib 1 (tasks (st relay_serial)) = TClosed (answer_head (B "200 OK") (B "1") ++ B "a").
Proof.
  cbn zeta. split; [apply (inputs_check [1; 2]); [vm_compute; reflexivity|vm_compute; reflexivity|repeat constructor]|].
  split; [apply settled_check; vm_compute; reflexivity|]. split; [apply settled_check; vm_compute; reflexivity|].
  repeat split; vm_compute; reflexivity.
Qed.
