(** Executions that go on forever. *)
From Verif.Proofs Require Export TaskProofs.
From Verif.Spec Require Import Common PathSpec RoutingSpec TextSpec RequestSpec ResponseSpec ServerSpec TaskSpec LiveSpec.

Section Live.
Context (ft : features) (cl : cookie_lib) {H ST : Type}
  (handle : H -> matched_request cl -> ST * response cl -> (ST * response cl) * outcome flow).
Context (rt : router H) (s0 : ST) (run : nat -> nat * task_event * (world * order)).
Notation step := (tasks_step ft cl handle rt).
Notation after := (after ft cl handle rt s0 run).
Lemma upto_S k : upto run (S k) = upto run k ++ [run k].
Proof. unfold upto. rewrite seq_S, map_app. reflexivity. Qed.
Lemma after_S k : after (S k) = step (after k) (run k).
Proof. unfold LiveSpec.after. rewrite upto_S. unfold tasks_run. rewrite fold_left_app. reflexivity. Qed.
Notation at_ i k := (task_get cl i (tasks (after k))).

(** ** Working ends *)
Lemma begun_later i k : begun cl (at_ i k) -> forall k', k <= k' -> begun cl (at_ i k') /\
  forall j', at_ i k' = TWorking j' -> exists j, at_ i k = TWorking j /\ weight cl j' <= weight cl j.
Proof.
  intros Bg k' L. induction L as [|k' L IH].
  - split; auto. intros j' E. exists j'. auto.
  - destruct IH as [B1 W1]. rewrite after_S. destruct (step_begun ft cl handle rt (after k') (run k') i B1) as [B2 W2]. split; auto.
    intros j' E. destruct (W2 j' E) as (j1 & E1 & L1 & _). destruct (W1 j1 E1) as (j & Ej & Lj). exists j. split; auto. lia.
Qed.
Lemma working_ends i : task_runs ft cl handle rt s0 run i -> forall w k j, at_ i k = TWorking j -> weight cl j < w ->
  exists k', k <= k' /\ begun cl (at_ i k') /\ forall j', at_ i k' <> TWorking j'.
Proof.
  intros F. induction w as [|w IH]; intros k j E L; [lia|].
  assert (Bg : begun cl (at_ i k)) by (rewrite E; discriminate).
  destruct (F k j E) as (k1 & e & x & L1 & Er & ->). destruct (begun_later i k Bg (S k1) ltac:(lia)) as [B2 W2].
  destruct (at_ i (S k1)) as [rec|j2|sent rest|sent|] eqn:E2; try (exists (S k1); rewrite E2; split; [lia|]; split; [discriminate|discriminate]).
  - exfalso. eapply B2; eauto.
  - destruct (begun_later i k Bg k1 L1) as [B1 W1]. rewrite after_S in E2.
    destruct (step_begun ft cl handle rt (after k1) (run k1) i B1) as [_ X]. destruct (X j2 E2) as (j1 & E1 & _ & Lt).
    rewrite Er in Lt. specialize (Lt eq_refl). destruct (W1 j1 E1) as (j0 & E0 & L0). rewrite E in E0. injection E0 as <-.
    rewrite <- after_S in E2. destruct (IH (S k1) j2 E2 ltac:(lia)) as (k' & A & C & D). exists k'. split; [lia|]. auto.
Qed.

(** ** Sending ends *)
Lemma closed_stays i k sent : at_ i k = TClosed sent -> forall k', k <= k' -> at_ i k' = TClosed sent.
Proof.
  intros E k' L. induction L as [|k' L IH]; auto. rewrite after_S. destruct (run k') as [[n e] x]. destruct (Nat.eq_dec i n) as [<-|N].
  - destruct x as [w ho]. cbn [tasks_step]. rewrite IH. destruct e; exact IH.
  - rewrite tasks_step_other by auto. exact IH.
Qed.
Lemma crashed_stays i k : at_ i k = TCrashed -> forall k', k <= k' -> at_ i k' = TCrashed.
Proof.
  intros E k' L. induction L as [|k' L IH]; auto. rewrite after_S. destruct (run k') as [[n e] x]. destruct (Nat.eq_dec i n) as [<-|N].
  - destruct x as [w ho]. cbn [tasks_step]. rewrite IH. destruct e; exact IH.
  - rewrite tasks_step_other by auto. exact IH.
Qed.
(** One step of a task that sends. *)
Lemma sending_step i k sent rest : (forall e x, run k = (i, e, x) -> e <> TWriteError /\ e <> TAccept 0) ->
  at_ i k = TSending sent rest ->
  at_ i (S k) = TClosed (sent ++ rest) \/
  exists sent' rest', at_ i (S k) = TSending sent' rest' /\ sent' ++ rest' = sent ++ rest /\ length rest' <= length rest /\
    ((exists n x, run k = (i, TAccept (S n), x)) -> length rest' < length rest).
Proof.
  intros P E. rewrite after_S. destruct (run k) as [[n e] x]. destruct (Nat.eq_dec i n) as [<-|N].
  - destruct (P e x eq_refl) as [P1 P2]. destruct x as [w ho]. cbn [tasks_step]. rewrite E.
    destruct e as [e| |m|]; try (right; exists sent, rest; split; auto; split; auto; split; auto; intros (n' & x & Y); discriminate); [|congruence].
    cbn [tasks]. rewrite task_get_set, Nat.eqb_refl. destruct m as [|m]; [congruence|]. cbn [Nat.eqb orb].
    destruct (Nat.leb_spec (length rest) (S m)) as [Le|Gt].
    + left. rewrite firstn_all2 by exact Le. reflexivity.
    + right. exists (sent ++ firstn (S m) rest), (skipn (S m) rest). split; auto. split; [rewrite <- app_assoc, firstn_skipn; reflexivity|].
      rewrite skipn_length. split; [lia|]. intros _. lia.
  - right. exists sent, rest. rewrite tasks_step_other by auto. split; auto. split; auto. split; auto. intros (n' & x' & Y). congruence.
Qed.
Lemma sending_later i : peer_reads ft cl handle rt s0 run i -> forall k' k sent rest, at_ i k = TSending sent rest -> k <= k' ->
  at_ i k' = TClosed (sent ++ rest) \/
  exists sent' rest', at_ i k' = TSending sent' rest' /\ sent' ++ rest' = sent ++ rest /\ length rest' <= length rest.
Proof.
  intros [_ P] k' k sent rest E L. induction L as [|k' L IH].
  - right. exists sent, rest. auto.
  - destruct IH as [IH|(s1 & r1 & E1 & A1 & L1)].
    + left. eapply closed_stays; eauto.
    + destruct (sending_step i k' s1 r1 (P k') E1) as [C|(s2 & r2 & E2 & A2 & L2 & _)].
      * left. rewrite <- A1. exact C.
      * right. exists s2, r2. split; auto. split; [congruence|lia].
Qed.
Lemma sending_ends i : peer_reads ft cl handle rt s0 run i -> forall w k sent rest, at_ i k = TSending sent rest -> length rest < w ->
  exists k', k <= k' /\ at_ i k' = TClosed (sent ++ rest).
Proof.
  intros P. induction w as [|w IH]; intros k sent rest E L; [lia|].
  destruct (proj1 P k sent rest E) as (k1 & e & x & L1 & Er & (n & ->)).
  destruct (sending_later i P k1 k sent rest E L1) as [C|(s1 & r1 & E1 & A1 & Le1)]; [exists k1; auto|].
  destruct (sending_step i k1 s1 r1 (proj2 P k1) E1) as [C|(s2 & r2 & E2 & A2 & _ & Lt)].
  - exists (S k1). rewrite <- A1. split; [lia|exact C].
  - specialize (Lt (ex_intro _ n (ex_intro _ x Er))). destruct (IH (S k1) s2 r2 E2 ltac:(lia)) as (k' & A & C). exists k'.
    split; [lia|]. rewrite C. congruence.
Qed.

(** ** Every request is answered *)
Lemma begun_ends i k : task_runs ft cl handle rt s0 run i -> peer_reads ft cl handle rt s0 run i -> begun cl (at_ i k) ->
  exists k', k <= k' /\ ((exists out, forall m, k' <= m -> at_ i m = TClosed out) \/ forall m, k' <= m -> at_ i m = TCrashed).
Proof.
  intros F P Bg. assert (W : exists k1, k <= k1 /\ begun cl (at_ i k1) /\ forall j', at_ i k1 <> TWorking j').
  { destruct (at_ i k) as [rec|j|sent rest|sent|] eqn:E; try (exists k; rewrite E; split; [lia|]; split; discriminate).
    - exfalso. eapply Bg; eauto.
    - eapply working_ends; eauto. }
  destruct W as (k1 & L1 & B1 & N1). destruct (at_ i k1) as [rec|j|sent rest|sent|] eqn:E.
  - exfalso. eapply B1; eauto.
  - exfalso. eapply N1; eauto.
  - destruct (sending_ends i P _ k1 sent rest E (Nat.lt_succ_diag_r _)) as (k2 & L2 & C). exists k2. split; [lia|]. left.
    exists (sent ++ rest). intros m Lm. eapply closed_stays; eauto.
  - exists k1. split; auto. left. exists sent. intros m Lm. eapply closed_stays; eauto.
  - exists k1. split; auto. right. intros m Lm. eapply crashed_stays; eauto.
Qed.
End Live.

Section Answered.
Context (ft : features) (cl : cookie_lib) {H ST : Type}
  (handle : H -> matched_request cl -> ST * response cl -> (ST * response cl) * outcome flow).
Context (o : order) (app : list (oreg H)) (rt : router H).
Context (HB : (N.of_nat (length (flatten app)) <= USIZE_MAX)%N) (Eb : build o app = Done rt).
Theorem answered_in_the_end s0 (run : nat -> nat * task_event * (world * order)) i k :
  (forall k, snd (fst (run k)) <> TInput (Arrive [])) -> (forall k, clock (fst (snd (run k))) <> None) ->
  task_runs ft cl handle rt s0 run i -> peer_reads ft cl handle rt s0 run i ->
  let inp := input_of (inputs i (upto run k)) in
  ~ stream_waits ft (stream_of inp) (fin inp) ->
  exists k', k <= k' /\ exists p, p <> Waiting /\ p <> Working /\ forall m, k' <= m ->
    let inp := input_of (inputs i (upto run m)) in
    exists log, story ft cl handle (fun w ho => In (i, TRun, (w, ho)) (upto run m)) [i] app (stream_of inp) (fin inp) log p /\
    task_get cl i (tasks (after ft cl handle rt s0 run m)) =
      match p with Answering out => TClosed out | _ => TCrashed end.
Proof.
  intros R C F P inp Nw.
  assert (Rk : forall k, real_inputs (upto run k)).
  { intro m. apply Forall_forall. intros ev I. unfold upto in I. apply in_map_iff in I as (n & <- & _). apply R. }
  assert (Ck : forall k, Forall (fun ev => clock (fst (snd ev)) <> None) (upto run k)).
  { intro m. apply Forall_forall. intros ev I. unfold upto in I. apply in_map_iff in I as (n & <- & _). apply C. }
  assert (T : forall m, exists log, told ft cl handle app i (upto run m) log (task_get cl i (tasks (after ft cl handle rt s0 run m)))).
  { intro m. destruct (tasks_told ft cl handle o app rt HB Eb s0 (upto run m) (Rk m) (Ck m)) as (L & _ & K). eexists. exact (K i). }
  assert (Ws : forall m, writes_succeed i (upto run m)).
  { intros m e x I. unfold upto in I. apply in_map_iff in I as (n & E & _). eapply (proj2 P); eauto. }
  assert (Bg : begun cl (task_get cl i (tasks (after ft cl handle rt s0 run k)))).
  { intros rec E. destruct (T k) as [log Tk]. rewrite E in Tk. destruct Tk as [_ St]. inversion St. auto. }
  destruct (begun_ends ft cl handle rt s0 run i k F P Bg) as (k' & L & [[out E]|E]); exists k'; split; auto.
  - exists (Answering out). split; [discriminate|]. split; [discriminate|]. intros m Lm. destruct (T m) as [log Tm].
    pose proof (E m Lm) as Em. rewrite Em in Tm. cbn [told] in Tm. destruct Tm as (rest & St & Wr).
    specialize (Wr (Ws m)). subst rest. rewrite app_nil_r in St. exists log. auto.
  - exists Dead. split; [discriminate|]. split; [discriminate|]. intros m Lm. destruct (T m) as [log Tm].
    pose proof (E m Lm) as Em. rewrite Em in Tm. cbn [told] in Tm. exists log. auto.
Qed.
End Answered.
