(** Lemmas behind C126. *)
From Verif.Model Require Import RustStd Path Request Response Router Server Tasks.
From Verif.Spec Require Import Common RoutingSpec RequestSpec ServerSpec TaskSpec.
From Verif.Proofs Require Import Basics ConnProofs TaskProofs ApiProofs.

Section Gone.
Context (ft : features) (cl : cookie_lib) {H ST : Type}
  (handle : H -> matched_request cl -> ST * response cl -> (ST * response cl) * outcome flow).
Notation run rt st evs := (tasks_run ft cl handle rt st evs).

Lemma ended_input l e : In e l -> (forall seg, e <> Arrive seg) -> fin (input_of l) <> Stall.
Proof.
  intros I N. induction l as [|x l IH]; [destruct I|]. destruct I as [->|I].
  - destruct e; cbn [input_of fin]; try discriminate. exfalso. eapply N; reflexivity.
  - destruct x; cbn [input_of fin]; try discriminate. auto.
Qed.
Lemma inputs_in {X} i e (x : X) evs : In (i, TInput e, x) evs -> In e (inputs i evs).
Proof.
  intro I. unfold inputs, own_events. apply in_flat_map. exists (i, TInput e, x). split; [|now left].
  apply filter_In. split; auto. unfold on_task. cbn [fst]. apply Nat.eqb_refl.
Qed.
Definition over (k : task cl (H := H)) : Prop := k = TCrashed \/ exists sent, k = TClosed sent.
Lemma step_over rt st ev i : over (task_get cl i (tasks st)) -> over (task_get cl i (tasks (tasks_step ft cl handle rt st ev))).
Proof.
  intro O. destruct ev as [[n e] [w ho]]. destruct (Nat.eqb_spec n i) as [->|N]; [|rewrite tasks_step_other by auto; exact O].
  cbn [tasks_step]. destruct O as [E|[sent E]]; rewrite E; destruct e; rewrite E; unfold over; eauto.
Qed.
Lemma run_over rt evs i : forall st, over (task_get cl i (tasks st)) -> over (task_get cl i (tasks (run rt st evs))).
Proof. unfold tasks_run. induction evs as [|ev evs IH]; intros st O; auto. cbn [fold_left]. apply IH, step_over, O. Qed.
Lemma write_fails rt evs i f x : f = TWriteError \/ f = TAccept 0 -> In (i, f, x) evs -> forall st, begun cl (task_get cl i (tasks st)) ->
  ~ working cl (task_get cl i (tasks st)) -> over (task_get cl i (tasks (run rt st evs))).
Proof.
  intros Hf I. induction evs as [|ev evs IH]; intros st Bg Nw; [destruct I|].
  change (run rt st (ev :: evs)) with (run rt (tasks_step ft cl handle rt st ev) evs).
  destruct I as [->|I].
  - apply run_over. destruct x as [w ho]. cbn [tasks_step]. destruct (task_get cl i (tasks st)) as [rec|j|sent rest|sent|] eqn:E.
    + exfalso. eapply Bg; reflexivity.
    + exfalso. apply Nw. exists j. reflexivity.
    + destruct Hf as [->| ->]; cbn [tasks]; rewrite task_get_set, Nat.eqb_refl; right; cbn [Nat.eqb orb]; eauto.
    + destruct Hf as [->| ->]; rewrite E; right; eauto.
    + destruct Hf as [->| ->]; rewrite E; left; reflexivity.
  - destruct (step_begun ft cl handle rt st ev i Bg) as [Bg' W]. apply IH; auto.
    intros [j' E]. destruct (W j' E) as (j & Ej & _). apply Nw. exists j. exact Ej.
Qed.
Theorem gone_over o app rt s0 evs1 evs2 evs3 i e f x x' :
  (N.of_nat (length (flatten app)) <= USIZE_MAX)%N -> build o app = Done rt ->
  real_inputs evs1 -> Forall (fun ev => clock (fst (snd ev)) <> None) evs1 ->
  In (i, TInput e, x) evs1 -> (forall seg, e <> Arrive seg) ->
  length (flatten app) < runs_of i evs2 -> f = TWriteError \/ f = TAccept 0 -> In (i, f, x') evs3 ->
  let k := task_get cl i (tasks (run rt (TasksState s0 []) (evs1 ++ evs2 ++ evs3))) in
  k = TCrashed \/ exists sent, k = TClosed sent.
Proof.
  intros HB Eb R C I N Lt Hf I3. set (st0 := TasksState s0 []).
  assert (Bg1 : begun cl (task_get cl i (tasks (run rt st0 evs1)))).
  { intros rec E. destruct (tasks_ok ft cl handle o app rt HB Eb s0 evs1 R C) as (L & _ & K1). specialize (K1 i).
    fold st0 in K1. rewrite E in K1. destruct K1 as (_ & K1 & _). revert K1. apply (ended_input _ e); auto.
    eapply inputs_in; eauto. }
  destruct (begun_run ft cl handle rt evs2 i _ Bg1) as [Bg2 W2].
  assert (Nw2 : ~ working cl (task_get cl i (tasks (run rt st0 (evs1 ++ evs2))))).
  { destruct (task_get cl i (tasks (run rt st0 evs1))) as [rec|j|sent rest|sent|] eqn:E1.
    - exfalso. eapply Bg1; reflexivity.
    - apply (tasks_finish ft cl handle o app rt s0 evs1 evs2 i HB Eb R C); auto. exists j. exact E1.
    - rewrite tasks_run_app. apply W2. intros [j E]. discriminate.
    - rewrite tasks_run_app. apply W2. intros [j E]. discriminate.
    - rewrite tasks_run_app. apply W2. intros [j E]. discriminate. }
  rewrite <- tasks_run_app in Bg2. cbv zeta. rewrite app_assoc, tasks_run_app. eapply write_fails; eauto.
Qed.
End Gone.
