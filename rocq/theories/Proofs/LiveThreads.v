(** Worker threads in executions that go on forever. *)
From Verif.Proofs Require Export LiveWitness WorkerWitness.
From Verif.Spec Require Import Common PathSpec RoutingSpec TextSpec RequestSpec ResponseSpec ServerSpec TaskSpec WorkerSpec LiveSpec.

Section Threads.
Context (ft : features) (cl : cookie_lib) {H ST : Type}
  (handle : H -> matched_request cl -> ST * response cl -> (ST * response cl) * outcome flow).
Context (rt : router H) (s0 : ST) (run : nat -> nat * task_event * (world * order)).
Notation after := (after ft cl handle rt s0 run).
Notation at_ i k := (task_get cl i (tasks (after k))).

Lemma crossing_point (P : nat -> Prop) (D : forall k, P k \/ ~ P k) d : forall k, P k -> ~ P (k + d) -> exists m, k <= m /\ P m /\ ~ P (S m).
Proof.
  induction d as [|d IH]; intros k A N; [exfalso; apply N; rewrite Nat.add_0_r; exact A|].
  destruct (D (S k)) as [Y|Y]; [|exists k; auto].
  destruct (IH (S k) Y) as (m & L & Pm & Nm); [replace (S k + d) with (k + S d) by lia; exact N|]. exists m. split; [lia|auto].
Qed.
Theorem threads_free n : 0 < n -> (forall k, on_threads ft cl handle n rt (TasksState s0 []) (upto run k)) ->
  (forall i, task_runs ft cl handle rt s0 run i) -> forall k, exists k', k <= k' /\ busy cl (after k') < n.
Proof.
  intros Ln T F k. pose proof (at_most_start ft cl handle n rt s0 (upto run k) (T k)) as Lk. fold (after k) in Lk.
  destruct (Nat.lt_ge_cases (busy cl (after k)) n) as [Lt|Ge]; [exists k; auto|].
  destruct (busy_some cl (after k)) as (i & j & Ej); [lia|apply keys_run; constructor|].
  destruct (working_ends ft cl handle rt s0 run i (F i) _ k j Ej (Nat.lt_succ_diag_r _)) as (k1 & L1 & _ & N1).
  destruct (crossing_point (fun m => on_thread cl (at_ i m) = true)) with (d := k1 - k) (k := k) as (m & Lm & Wm & Nm).
  - intro m. destruct (on_thread cl (at_ i m)); auto.
  - apply on_in. exists j. exact Ej.
  - replace (k + (k1 - k)) with k1 by lia. intro Y. apply on_in in Y as [j' Y]. exact (N1 j' Y).
  - exists (S m). split; [lia|]. pose proof (at_most_start ft cl handle n rt s0 (upto run m) (T m)) as Lb. fold (after m) in Lb.
    rewrite after_S in *. pose proof (count_step ft cl handle rt (after m) (run m)) as C. cbv zeta in C.
    destruct (run m) as [[a e] x]. cbn [fst] in C. destruct (Nat.eq_dec i a) as [<-|Na].
    + unfold weigh in C. rewrite Wm in C. destruct (on_thread cl (task_get cl i (tasks (tasks_step ft cl handle rt (after m) (i, e, x))))); [congruence|lia].
    + exfalso. apply Nm. rewrite tasks_step_other by auto. exact Wm.
Qed.
End Threads.

(** One thread serves two connections in turn. *)
Definition in_turn (k : nat) : nat * task_event * (world * order) :=
  match k with
  | 0 => (1, TInput (Arrive get_hi), ex_x)
  | 4 => (2, TInput (Arrive get_hi), ex_x)
  | _ => if Nat.leb k 3 then (1, TRun, ex_x) else (2, TRun, ex_x)
  end.
Lemma in_turn_late m : in_turn (8 + m) = (2, TRun, ex_x).
Proof. reflexivity. Qed.
Definition in_turn_after := after default_features demo_lib ex_handle ex_router 7 in_turn.
Lemma in_turn_fixed m : in_turn_after (8 + m) = in_turn_after 8.
Proof.
  induction m as [|m IH]; [reflexivity|]. replace (8 + S m) with (S (8 + m)) by lia.
  unfold in_turn_after in *. rewrite after_S, IH, in_turn_late. vm_compute. reflexivity.
Qed.
Lemma example_133_threads :
  (forall k, on_threads default_features demo_lib ex_handle 1 ex_router (TasksState 7 []) (upto in_turn k)) /\
  (forall i, task_runs default_features demo_lib ex_handle ex_router 7 in_turn i) /\
  busy demo_lib (in_turn_after 2) = 1 /\ busy demo_lib (in_turn_after 6) = 1 /\
  (exists out, task_get demo_lib 1 (tasks (in_turn_after 8)) = TSending [] out) /\
  (exists out, task_get demo_lib 2 (tasks (in_turn_after 8)) = TSending [] out).
Proof.
  assert (P : on_threads default_features demo_lib ex_handle 1 ex_router (TasksState 7 []) (upto in_turn 8)).
  { unfold upto, on_threads, has_thread. cbn [seq map in_turn Nat.leb].
    repeat (split; [first [left; vm_compute; reflexivity | right; vm_compute; auto]|]). exact I. }
  split; [|split].
  - intro k. destruct (Nat.le_gt_cases k 8) as [L|L].
    + assert (E : upto in_turn 8 = upto in_turn k ++ map in_turn (seq k (8 - k))).
      { unfold upto. rewrite <- map_app. f_equal. rewrite <- seq_app. f_equal. lia. }
      rewrite E in P. clear E. revert P. generalize (TasksState 7 [] : tasks_state demo_lib (H := nat)). generalize (upto in_turn k).
      intro l. induction l as [|ev l IH]; intros st Q; [exact I|]. cbn [app on_threads] in *. destruct Q. split; auto.
    + replace k with (8 + (k - 8)) by lia. generalize (k - 8) as m. intro m.
      induction m as [|m IH]; [exact P|]. replace (8 + S m) with (S (8 + m)) by lia. rewrite upto_S. apply threaded_app; auto.
      cbn [on_threads]. split; [|exact I]. right.
      change (tasks_run default_features demo_lib ex_handle ex_router (TasksState 7 []) (upto in_turn (8 + m))) with (in_turn_after (8 + m)).
      rewrite in_turn_fixed. vm_compute. auto.
  - intros i k j E. fold (in_turn_after k) in E. destruct (Nat.le_gt_cases 8 k) as [L|L].
    + replace k with (8 + (k - 8)) in E by lia. rewrite in_turn_fixed in E. exfalso.
      destruct i as [|[|[|i]]]; vm_compute in E; discriminate E.
    + assert (Hi : i = 1 /\ k <= 3 \/ i = 2).
      { destruct i as [|[|[|i]]]; auto; [exfalso|left; split; auto|exfalso].
        - do 8 (destruct k as [|k]; [vm_compute in E; discriminate E|]). lia.
        - do 4 (destruct k as [|k]; [lia|]). do 4 (destruct k as [|k]; [vm_compute in E; discriminate E|]). lia.
        - do 8 (destruct k as [|k]; [vm_compute in E; discriminate E|]). lia. }
      destruct Hi as [[-> L3]| ->].
      * exists 3, TRun, ex_x. auto.
      * exists 8, TRun, ex_x. split; [lia|auto].
  - split; [vm_compute; reflexivity|]. split; [vm_compute; reflexivity|]. split; eexists; vm_compute; reflexivity.
Qed.
