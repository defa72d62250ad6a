(** Worker threads. *)
From Verif.Model Require Export Workers.
From Verif.Proofs Require Export TaskProofs.
From Verif.Spec Require Import Common PathSpec RoutingSpec TextSpec RequestSpec ResponseSpec ServerSpec TaskSpec WorkerSpec.

Section Workers.
Context (ft : features) (cl : cookie_lib) {H ST : Type}
  (handle : H -> matched_request cl -> ST * response cl -> (ST * response cl) * outcome flow).
Notation state := (tasks_state cl (H := H) (ST := ST)).
Notation step := (tasks_step ft cl handle).
Notation runs := (tasks_run ft cl handle).
Notation threaded := (on_threads ft cl handle).

Lemma on_in i (st : state) : on_thread cl (task_get cl i (tasks st)) = true <-> in_handler cl i st.
Proof.
  unfold in_handler. destruct (task_get cl i (tasks st)); cbn [on_thread]; split; intro E; try discriminate; eauto.
  all: destruct E as [j0 E]; discriminate.
Qed.

(** ** Counting *)
Definition keys (l : list (nat * task cl (H := H))) := map fst l.
Definition count (l : list (nat * task cl (H := H))) : nat := length (filter (fun x => on_thread cl (snd x)) l).
Definition weigh (t : task cl (H := H)) : nat := if on_thread cl t then 1 else 0.
Lemma count_cons i t l : count ((i, t) :: l) = weigh t + count l.
Proof. unfold count, weigh. cbn [filter snd]. destruct (on_thread cl t); reflexivity. Qed.
Lemma task_get_cons i j t l : task_get cl i ((j, t) :: l) = if Nat.eqb i j then t else task_get cl (H := H) i l.
Proof. unfold task_get. cbn [mget]. destruct (Nat.eqb i j); reflexivity. Qed.
Lemma count_set i t l : count (mset Nat.eqb i t l) + weigh (task_get cl i l) = count l + weigh t.
Proof.
  induction l as [|[j u] l IH]; cbn [mset].
  - rewrite count_cons. unfold task_get. cbn. lia.
  - rewrite task_get_cons. destruct (Nat.eqb_spec i j) as [->|Nij]; rewrite !count_cons; lia.
Qed.
(** A step of task [i] changes the count by that task only. *)
Lemma count_step rt (st : state) ev : let i := fst (fst ev) in
  busy cl (step rt st ev) + weigh (task_get cl i (tasks st)) = busy cl st + weigh (task_get cl i (tasks (step rt st ev))).
Proof.
  destruct ev as [[i e] [w ho]]. cbn [fst]. unfold busy. fold (count (tasks st)).
  fold (count (tasks (step rt st (i, e, (w, ho))))).
  assert (P : forall s t, count (tasks (TasksState (cl := cl) (ST := ST) s (mset Nat.eqb i t (tasks st)))) + weigh (task_get cl i (tasks st)) =
    count (tasks st) + weigh (task_get cl i (tasks (TasksState (cl := cl) (ST := ST) s (mset Nat.eqb i t (tasks st)))))).
  { intros s t. cbn [tasks]. rewrite count_set, task_get_set, Nat.eqb_refl. reflexivity. }
  cbn [tasks_step]. destruct (task_get cl i (tasks st)) as [rec|j|sent rest|sent|] eqn:Eg; destruct e as [e| |k|]; try (rewrite Eg; reflexivity); try apply P.
  destruct (job_step ft cl handle w ho [i] (tshared st) j) as [s' r]. apply P.
Qed.
Lemma weigh_le t : weigh t <= 1.
Proof. unfold weigh. destruct (on_thread cl t); lia. Qed.

(** ** At most [n] requests are handled at a time *)
Lemma step_busy n rt (st : state) ev : has_thread cl n st ev -> busy cl st <= n -> busy cl (step rt st ev) <= n.
Proof.
  intros [W|W] L; pose proof (count_step rt st ev) as E; cbv zeta in E.
  - unfold weigh at 1 in E. rewrite W in E. pose proof (weigh_le (task_get cl (fst (fst ev)) (tasks (step rt st ev)))). lia.
  - pose proof (weigh_le (task_get cl (fst (fst ev)) (tasks (step rt st ev)))). lia.
Qed.
Theorem at_most n rt evs : forall st : state, busy cl st <= n -> threaded n rt st evs -> busy cl (runs rt st evs) <= n.
Proof.
  unfold tasks_run. induction evs as [|ev evs IH]; intros st L T; auto. destruct T as [T1 T2]. cbn [fold_left]. apply IH; auto.
  apply step_busy; auto.
Qed.
Theorem at_most_start n rt s0 evs : threaded n rt (TasksState s0 []) evs -> busy cl (runs rt (TasksState s0 []) evs) <= n.
Proof. apply at_most. cbn. lia. Qed.

(** ** When all threads are taken *)
Lemma idle_step rt (st : state) i e x : in_handler cl i st -> e <> TRun -> step rt st (i, e, x) = st.
Proof. intros [j E] N. destruct x as [w ho]. cbn [tasks_step]. rewrite E. destruct e; congruence. Qed.
Theorem stand_still n rt evs : forall st : state, n <= busy cl st -> none_returns cl st evs -> threaded n rt st evs -> runs rt st evs = st.
Proof.
  unfold tasks_run. induction evs as [|[[i e] x] evs IH]; intros st L N T; auto. destruct T as [[W|W] T]; [|lia]. cbn [fst] in W.
  apply on_in in W. cbn [fold_left].
  assert (E : step rt st (i, e, x) = st).
  { apply idle_step; auto. intros ->. apply (N i x W). left. reflexivity. }
  rewrite E in *. apply IH; auto. intros k y I J. apply (N k y I). right. exact J.
Qed.

(** ** When a thread is free, or has the task *)
Lemma own_threaded n rt i evs : forall st : state, busy cl st < n + weigh (task_get cl i (tasks st)) ->
  Forall (fun ev => fst (fst ev) = i) evs -> threaded n rt st evs.
Proof.
  induction evs as [|ev evs IH]; intros st L F; [exact I|]. inversion F as [|? ? E F']; subst. cbn [on_threads]. split.
  - unfold has_thread. unfold weigh in L. destruct (on_thread cl _); auto. right. lia.
  - apply IH; auto. pose proof (count_step rt st ev) as C. cbv zeta in C. lia.
Qed.
Theorem room n rt i evs (st : state) : busy cl st < n -> Forall (fun ev => fst (fst ev) = i) evs -> threaded n rt st evs.
Proof. intros L. apply own_threaded. lia. Qed.

(** ** When the handlers return *)
Lemma threaded_app n rt evs1 : forall (st : state) evs2, threaded n rt st evs1 -> threaded n rt (runs rt st evs1) evs2 -> threaded n rt st (evs1 ++ evs2).
Proof. unfold tasks_run. induction evs1 as [|ev evs1 IH]; intros st evs2 T1 T2; auto. destruct T1. cbn [app on_threads]. split; auto. Qed.
Lemma runs_repeat i (x : world * order) k : runs_of i (repeat (i, TRun, x) k) = k.
Proof.
  unfold runs_of, own_events. induction k as [|k IH]; auto. cbn [repeat filter]. unfold on_task at 1. cbn [fst]. rewrite Nat.eqb_refl.
  cbn [filter fst snd length]. congruence.
Qed.
Lemma own_count rt i evs : forall st : state, Forall (fun ev => fst (fst ev) = i) evs ->
  busy cl (runs rt st evs) + weigh (task_get cl i (tasks st)) = busy cl st + weigh (task_get cl i (tasks (runs rt st evs))).
Proof.
  unfold tasks_run. induction evs as [|ev evs IH]; intros st F; auto. inversion F as [|? ? E F']; subst. cbn [fold_left].
  pose proof (count_step rt st ev) as C. cbv zeta in C. specialize (IH (step rt st ev) F'). lia.
Qed.
Lemma busy_some (st : state) : 0 < busy cl st -> NoDup (keys (tasks st)) -> exists i, in_handler cl i st.
Proof.
  unfold busy, in_handler. intros L N. induction (tasks st) as [|[i t] l IH]; [cbn in L; lia|].
  fold (count ((i, t) :: l)) in L. rewrite count_cons in L. destruct (on_thread cl t) eqn:E.
  - exists i. rewrite task_get_cons, Nat.eqb_refl. destruct t; try discriminate. eauto.
  - unfold weigh in L. rewrite E in L. inversion N as [|? ? Ni N']; subst. destruct (IH L N') as (k & j & Ek). exists k, j.
    rewrite task_get_cons. destruct (Nat.eqb_spec k i) as [->|]; auto. exfalso. apply Ni. unfold keys.
    clear - Ek. unfold task_get in Ek. induction l as [|[a u] l IH]; cbn [mget] in Ek; [discriminate|]. cbn [map fst].
    destruct (Nat.eqb_spec i a) as [->|]; [left; auto|right; auto].
Qed.
Lemma keys_mset i t l : NoDup (keys l) -> NoDup (keys (mset Nat.eqb i t l)).
Proof.
  unfold keys. induction l as [|[j u] l IH]; intro N; cbn [mset map fst]; [constructor; [intros []|constructor]|].
  inversion N as [|? ? Ni N']; subst. destruct (Nat.eqb_spec i j) as [->|Nij]; cbn [map fst]; constructor; auto.
  intro I0. apply Ni. clear - I0 Nij. induction l as [|[k v] l IH]; cbn [mset map fst In] in *; [destruct I0 as [->|[]]; congruence|].
  destruct (Nat.eqb_spec i k) as [->|]; cbn [map fst In] in *; auto. destruct I0; auto.
Qed.
Lemma keys_step rt (st : state) ev : NoDup (keys (tasks st)) -> NoDup (keys (tasks (step rt st ev))).
Proof.
  intro N. destruct ev as [[i e] [w ho]]. cbn [tasks_step]. destruct (task_get cl i (tasks st)) as [rec|j|sent rest|sent|]; destruct e; auto; try (apply keys_mset; exact N).
  destruct (job_step ft cl handle w ho [i] (tshared st) j) as [s' r]. apply keys_mset; exact N.
Qed.
Lemma keys_run rt evs : forall st : state, NoDup (keys (tasks st)) -> NoDup (keys (tasks (runs rt st evs))).
Proof. unfold tasks_run. induction evs as [|ev evs IH]; intros st N; auto. cbn [fold_left]. apply IH. apply keys_step. exact N. Qed.

Lemma drain n rt (x : world * order) m : forall st : state, busy cl st = m -> m <= n -> NoDup (keys (tasks st)) ->
  exists evs, Forall (fun ev => snd (fst ev) = TRun /\ in_handler cl (fst (fst ev)) st) evs /\ threaded n rt st evs /\ busy cl (runs rt st evs) = 0.
Proof.
  induction m as [|m IH]; intros st E L N.
  - exists []. split; [constructor|]. split; [exact I|]. exact E.
  - destruct (busy_some st) as (i & j & Ej); [lia|exact N|]. set (evs1 := repeat (i, TRun, x) (S (weight cl j))).
    assert (F1 : Forall (fun ev => fst (fst ev) = i) evs1).
    { apply Forall_forall. intros ev I. apply repeat_spec in I. subst ev. reflexivity. }
    assert (W1 : weigh (task_get cl i (tasks st)) = 1) by (rewrite Ej; reflexivity).
    pose proof (run_finishes ft cl handle rt evs1 i st j Ej) as Fi. unfold evs1 in Fi. rewrite runs_repeat in Fi. fold evs1 in Fi.
    assert (W2 : weigh (task_get cl i (tasks (runs rt st evs1))) = 0).
    { unfold weigh. destruct (on_thread cl _) eqn:Eo; auto. exfalso. apply on_in in Eo. destruct Eo as [j' Eo]. apply Fi; [lia|]. exists j'. exact Eo. }
    pose proof (own_count rt i evs1 st F1) as C.
    destruct (IH (runs rt st evs1)) as (evs2 & F2 & T2 & E2); [lia|lia|apply keys_run; exact N|].
    exists (evs1 ++ evs2). split; [|split].
    + apply Forall_app. split.
      * apply Forall_forall. intros ev I. apply repeat_spec in I. subst ev. split; auto. exists j. exact Ej.
      * eapply Forall_impl; [|exact F2]. intros ev [A [j' B']]. split; auto.
        assert (Nk : fst (fst ev) <> i).
        { intro X. rewrite X in B'. unfold weigh in W2. rewrite B' in W2. discriminate. }
        exists j'. rewrite <- B'. clear - Nk F1. unfold tasks_run. revert st. induction evs1 as [|e1 evs1 IH]; intro st; auto.
        inversion F1 as [|? ? E F]; subst. cbn [fold_left]. rewrite <- IH by auto. destruct e1 as [[k e] y]. symmetry. apply tasks_step_other. exact Nk.
    + apply threaded_app; auto. eapply own_threaded; [|exact F1]. lia.
    + unfold tasks_run in *. rewrite fold_left_app. exact E2.
Qed.
Theorem goes_on n rt s0 evs (x : world * order) : threaded n rt (TasksState s0 []) evs ->
  exists more, Forall (fun ev => snd (fst ev) = TRun /\ in_handler cl (fst (fst ev)) (runs rt (TasksState s0 []) evs)) more /\
    threaded n rt (TasksState s0 []) (evs ++ more) /\ busy cl (runs rt (TasksState s0 []) (evs ++ more)) = 0.
Proof.
  intro T. destruct (drain n rt x _ (runs rt (TasksState s0 []) evs) eq_refl (at_most_start n rt s0 evs T)) as (more & F & T2 & E).
  { apply keys_run. constructor. }
  exists more. split; auto. split; [apply threaded_app; auto|]. unfold tasks_run in *. rewrite fold_left_app. exact E.
Qed.

(** ** All threads can be taken *)
Lemma fill n rt r x j (s0 : ST) : task_input ft cl rt [] (Arrive r) = TWorking j ->
  let evs := map (fun i => (i, TInput (Arrive r), x)) (seq 0 n) in
  threaded n rt (TasksState s0 []) evs /\ busy cl (runs rt (TasksState s0 []) evs) = n /\
  (forall i, i < n -> in_handler cl i (runs rt (TasksState s0 []) evs)) /\
  forall i, n <= i -> task_get cl i (tasks (runs rt (TasksState s0 []) evs)) = TReading [].
Proof.
  intros Ej. cbv zeta. assert (G : forall k m, k <= m -> threaded m rt (TasksState s0 []) (map (fun i => (i, TInput (Arrive r), x)) (seq 0 k)) /\
    busy cl (runs rt (TasksState s0 []) (map (fun i => (i, TInput (Arrive r), x)) (seq 0 k))) = k /\
    (forall i, i < k -> in_handler cl i (runs rt (TasksState s0 []) (map (fun i => (i, TInput (Arrive r), x)) (seq 0 k)))) /\
    forall i, k <= i -> task_get cl i (tasks (runs rt (TasksState s0 []) (map (fun i => (i, TInput (Arrive r), x)) (seq 0 k)))) = TReading []).
  2:{ apply G. lia. }
  induction k as [|k IH]; intros m L.
  - cbn. split; auto. split; auto. split; auto. intros i Hi. lia.
  - rewrite seq_S, map_app. cbn [map Nat.add]. destruct (IH m ltac:(lia)) as (T & Bk & Hi & Hr).
    set (evs := map (fun i => (i, TInput (Arrive r), x)) (seq 0 k)) in *. set (st := runs rt (TasksState s0 []) evs) in *.
    assert (Er : runs rt (TasksState s0 []) (evs ++ [(k, TInput (Arrive r), x)]) = step rt st (k, TInput (Arrive r), x)).
    { unfold st, tasks_run. rewrite fold_left_app. reflexivity. }
    rewrite Er. assert (Ek : task_get cl k (tasks (step rt st (k, TInput (Arrive r), x))) = TWorking j).
    { destruct x as [w ho]. cbn [tasks_step]. rewrite (Hr k) by lia. cbn [tasks]. rewrite task_get_set, Nat.eqb_refl. exact Ej. }
    split; [|split; [|split]].
    + apply threaded_app; auto. cbn [on_threads]. split; [|exact I]. right. fold st. lia.
    + pose proof (count_step rt st (k, TInput (Arrive r), x)) as C. cbv zeta in C. cbn [fst] in C. rewrite Ek, (Hr k) in C by lia. unfold weigh in C. cbn [on_thread] in C. lia.
    + intros i Li. destruct (Nat.eq_dec i k) as [->|Nk]; [exists j; exact Ek|].
      destruct (Hi i ltac:(lia)) as [j' E']. exists j'. rewrite tasks_step_other by auto. exact E'.
    + intros i Li. rewrite tasks_step_other by lia. apply Hr. lia.
Qed.
End Workers.
