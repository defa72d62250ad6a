(** Lemmas behind C127. *)
From Verif.Model Require Import RustStd Path Request Time Status Response Router Server Tasks.
From Verif.Spec Require Import Common PathSpec RoutingSpec TextSpec RequestSpec ResponseSpec ServerSpec TaskSpec AppSpec GuardSpec.
From Verif.Proofs Require Import Basics RouterProofs RequestProofs RequestExtra ServerProofs ConnProofs AppProofs TaskProofs WatchProofs.

Section Guard.
Context (ft : features) (cl : cookie_lib) {H ST : Type}
  (handle : H -> matched_request cl -> ST * response cl -> (ST * response cl) * outcome flow).

(** ** One connection *)
Lemma calls_of_applies m path (c : rreg H) : m <> MAll -> applies (url_variables ft) m path c ->
  exists vars, calls_of ft m path [c] = [(handler_in c, vars)].
Proof.
  intros Hm A. destruct (calls_of_one ft m path c Hm) as [E|E]; [|exact E]. exfalso.
  destruct (calls_of_spec ft m path [c] Hm) as (sel & S & F). rewrite E in F. inversion F; subst.
  inversion S; subst. contradiction.
Qed.
Lemma chain_guarded (exec : H -> varmap -> ST * response cl -> (ST * response cl) * outcome flow) pre g vars rest rest' :
  (forall x, snd (exec g vars x) <> Done FNext) -> forall x,
  run_chain exec (pre ++ (g, vars) :: rest) x = run_chain exec (pre ++ (g, vars) :: rest') x.
Proof.
  intro G. induction pre as [|[h v] pre IH]; intro x; cbn [app run_chain].
  - specialize (G x). destruct (exec g vars x) as [x' [[]|]]; auto. cbn [snd] in G. congruence.
  - destruct (exec h v x) as [x' [[]|]]; auto.
Qed.
Theorem guarded_serve o o' app app' rt rt' w ho pos s t l1 c l2 l2' :
  fits app -> fits app' -> build o app = Done rt -> build o' app' = Done rt' -> real_segments t ->
  flatten app = l1 ++ c :: l2 -> flatten app' = l1 ++ c :: l2' ->
  (forall rl hs cs body rq, carries ft cl (stream_of t) rl hs cs body -> request_is ft rq rl hs cs body -> turned_away ft handle c rq) ->
  serve ft cl handle w ho pos rt s t = serve ft cl handle w ho pos rt' s t.
Proof.
  intros F F' Eb Eb' R Ea Ea' G. unfold serve. pose proof (read_request_cases ft cl t R) as C.
  destruct (read_request ft cl t) as [[|rq]| | |]; try reflexivity.
  destruct C as (rl & hs & cs & body & Cs & Ri). destruct (G _ _ _ _ _ Cs Ri) as [A T].
  assert (Hm : rl_method (rq_line rq) <> MAll). { destruct Ri as (-> & _). eapply carries_method; eauto. }
  cbn [respond]. destruct (err_bad_request _); [reflexivity|].
  destruct (method_is_some (rl_method (rq_line rq))); [|reflexivity].
  destruct (build_run (fun h vars => handle h (MatchedRequest rq vars)) o app F) as (r1 & E1 & R1).
  destruct (build_run (fun h vars => handle h (MatchedRequest rq vars)) o' app' F') as (r2 & E2 & R2).
  rewrite Eb in E1; injection E1 as <-. rewrite Eb' in E2; injection E2 as <-.
  rewrite R1, R2 by exact Hm. rewrite Ea, Ea'. destruct (calls_of_applies _ _ c Hm A) as (vars & Ec).
  assert (Eq : forall l, calls_of ft (rl_method (rq_line rq)) (rl_path (rq_line rq)) (l1 ++ c :: l) =
     calls_of ft (rl_method (rq_line rq)) (rl_path (rq_line rq)) l1 ++ (handler_in c, vars) ::
     calls_of ft (rl_method (rq_line rq)) (rl_path (rq_line rq)) l).
  { intro l. clear - Ec. induction l1 as [|d l1 IH]; cbn [app].
    - rewrite calls_of_cons, Ec. reflexivity.
    - rewrite calls_of_cons, IH. rewrite (calls_of_cons ft _ _ d l1), app_assoc. reflexivity. }
  rewrite !Eq. rewrite (chain_guarded _ _ _ _ _ (calls_of ft (rl_method (rq_line rq)) (rl_path (rq_line rq)) l2')); [reflexivity|].
  intros [s1 r1]. apply T.
Qed.

(** ** All connections *)
Lemma selects_split {A} (P : A -> Prop) l1 : forall l2 sel, selects P (l1 ++ l2) sel ->
  exists s1 s2, sel = s1 ++ s2 /\ selects P l1 s1 /\ selects P l2 s2.
Proof.
  induction l1 as [|a l1 IH]; intros l2 sel S; cbn [app] in S.
  - exists [], sel. repeat split; auto. constructor.
  - inversion S as [|x l l' Px S1|x l l' Px S1]; subst; destruct (IH _ _ S1) as (s1 & s2 & -> & A1 & A2).
    + exists (a :: s1), s2. repeat split; auto. now constructor.
    + exists s1, s2. repeat split; auto. now constructor.
Qed.
Lemma invokes_handler wv path (c : rreg H) call : invokes wv path c call -> fst call = handler_in c.
Proof. destruct c; cbn; [intros [-> _]; reflexivity|intros ->; reflexivity]. Qed.

Context (c : rreg H) (l1 l2 : list (rreg H)).
(** What the theorem allows a call to be. *)
Definition fine (h : H) (rq : request cl) : Prop := handles_one_of (l1 ++ [c]) h \/ ~ turned_away ft handle c rq.
Definition fine_call (ab : ST * ST) : Prop :=
  exists h rq vars r, fine h rq /\ fst (fst (handle h (MatchedRequest rq vars) (fst ab, r))) = snd ab.
(** A call that was made and let the request pass. *)
Definition passes (rq : request cl) (call : H * varmap) : Prop :=
  exists s q, snd (handle (fst call) (MatchedRequest rq (snd call)) (s, q)) = Done FNext.
Definition all_fine (rq : request cl) (calls : list (H * varmap)) : Prop :=
  forall pre h vars post, calls = pre ++ (h, vars) :: post -> Forall (passes rq) pre -> fine h rq.
Lemma chosen_fine app rq calls : flatten app = l1 ++ c :: l2 -> chosen ft cl app rq calls -> all_fine rq calls.
Proof.
  intros Ea (sel & S & F) pre h vars post -> P. rewrite Ea in S.
  replace (l1 ++ c :: l2) with ((l1 ++ [c]) ++ l2) in S by (rewrite <- app_assoc; reflexivity).
  apply selects_split in S. destruct S as (s1 & s2 & -> & S1 & S2). apply Forall2_app_inv_l in F.
  destruct F as (k1 & k2 & F1 & F2 & E).
  destruct (Nat.lt_ge_cases (length pre) (length k1)) as [Lt|Ge].
  - left. assert (In (h, vars) k1) as I.
    { apply nth_error_In with (n := length pre). rewrite <- (nth_error_app1 k1 k2) by exact Lt. rewrite <- E.
      rewrite nth_error_app2, Nat.sub_diag by auto. reflexivity. }
    clear - F1 S1 I. revert S1. generalize (l1 ++ [c]) as l. intros l S1.
    pose proof (selects_In _ _ _ S1) as M. clear S1. induction F1 as [|d [h' v'] s1 k1 Iv F IH]; [destruct I|].
    destruct I as [E|I].
    + injection E as -> ->. exists d. split; [apply M; now left|]. exact (invokes_handler _ _ _ _ Iv).
    + apply IH; auto. intros x Ix. apply M. now right.
  - right. intros [A T]. apply selects_split in S1. destruct S1 as (a1 & a2 & -> & _ & S1).
    assert (a2 = [c]) as ->. { inversion S1 as [|x l l' Px S3|x l l' Px S3]; subst; [inversion S3; reflexivity|contradiction]. }
    assert (exists k v, In (k, v) k1 /\ k = handler_in c) as (k & v & Ik & Ek).
    { apply Forall2_app_inv_l in F1. destruct F1 as (b1 & b2 & _ & F1 & ->). inversion F1 as [|x [k v] l l' Iv F3]; subst.
      exists k, v. split; [apply in_or_app; right; now left|]. exact (invokes_handler _ _ _ _ Iv). }
    assert (In (k, v) pre) as Ip.
    { destruct (In_nth_error _ _ Ik) as (n & En). assert (n < length k1) by (apply nth_error_Some; congruence).
      apply nth_error_In with (n := n). rewrite <- (nth_error_app1 pre ((h, vars) :: post)) by lia. rewrite E.
      rewrite nth_error_app1 by lia. exact En. }
    rewrite Forall_forall in P. destruct (P _ Ip) as (s & q & Ep). cbn [fst snd] in Ep. subst k. exact (T v s q Ep).
Qed.
Lemma made_fine rq calls r log left r' : calls_made cl handle rq calls r log left r' -> all_fine rq calls ->
  Forall fine_call log /\ (forall h vars left', left = (h, vars) :: left' -> fine h rq).
Proof.
  intro M. induction M as [calls r|h vars rest r s s1 r1 log left r' E M IH|h vars rest r s s1 r1 E]; intro A.
  - split; [constructor|]. intros h vars left' ->. apply (A [] h vars left'); auto.
  - destruct IH as [I1 I2].
    { intros pre h' vars' post -> P. apply (A ((h, vars) :: pre) h' vars' post); auto. constructor; auto.
      exists s, r. cbn [fst snd]. rewrite E. reflexivity. }
    split; auto. constructor; auto. exists h, rq, vars, r. split; [apply (A [] h vars rest); auto|].
    cbn [fst snd]. rewrite E. reflexivity.
  - split; [|discriminate]. constructor; auto. exists h, rq, vars, r. split; [apply (A [] h vars rest); auto|].
    cbn [fst snd]. rewrite E. reflexivity.
Qed.
Lemma story_fine app seen pos stream e log p : flatten app = l1 ++ c :: l2 ->
  story ft cl handle seen pos app stream e log p -> Forall fine_call log.
Proof.
  intros Ea St. destruct St as [?|?|?|? ? ?|? ? ? ? ?|rq calls log left res Ad Ch M|rq calls log h vars left res s s1 res1 Ad Ch M E|
    rq calls log res out Ad Ch M|rq calls log res w ho Ad Ch M]; try constructor;
    try (apply (made_fine _ _ _ _ _ _ M); eapply chosen_fine; eauto).
  destruct (made_fine _ _ _ _ _ _ M (chosen_fine _ _ _ Ea Ch)) as [F N]. apply Forall_app. split; auto. constructor; auto.
  exists h, rq, vars, res. split; [eapply N; reflexivity|]. cbn [fst snd]. rewrite E. reflexivity.
Qed.
Theorem guarded_run o app rt (Inv : ST -> Prop) s0 evs :
  (N.of_nat (length (flatten app)) <= USIZE_MAX)%N -> build o app = Done rt ->
  real_inputs evs -> Forall (fun ev => clock (fst (snd ev)) <> None) evs -> flatten app = l1 ++ c :: l2 ->
  (forall h mr s r, handles_one_of (l1 ++ [c]) h \/ ~ turned_away ft handle c (mr_request mr) -> Inv s ->
     Inv (fst (fst (handle h mr (s, r))))) ->
  Inv s0 -> Inv (tshared (tasks_run ft cl handle rt (TasksState s0 []) evs)).
Proof.
  intros HB Eb R C Ea K I0. destruct (tasks_told ft cl handle o app rt HB Eb s0 evs R C) as (L & Lk & T).
  assert (A : Forall fine_call (map snd L)).
  { rewrite Forall_forall. intros ab Iab. apply in_map_iff in Iab. destruct Iab as ([i ab'] & <- & Ii).
    assert (Io : In ab' (calls_on i L)).
    { unfold calls_on. apply in_map_iff. exists (i, ab'). split; auto. apply filter_In. split; auto. cbn [fst]. apply Nat.eqb_refl. }
    revert Io. cbn [snd]. apply (proj1 (Forall_forall _ _)). specialize (T i). unfold told in T.
    destruct (task_get cl i _); [destruct T as [_ T]| | |destruct T as (rest & T & _)|]; eapply story_fine; eauto. }
  clear T. revert Lk I0 A. generalize (tshared (tasks_run ft cl handle rt (TasksState s0 []) evs)). revert s0.
  induction L as [|[i [a b]] L IH]; intros s0 s1 Lk I0 A; cbn [linked] in Lk; [subst; exact I0|].
  destruct Lk as [-> Lk]. cbn [map snd] in A. inversion A as [|x l (h & rq & vars & r & Fi & E) A']; subst.
  apply (IH b s1 Lk); auto. cbn [fst snd] in E. rewrite <- E. apply K; auto.
Qed.
End Guard.
