(** Requests that use the shared state in one handler at most are served as if one after the other. *)
From Verif.Proofs Require Export TaskProofs.
From Verif.Spec Require Import Common PathSpec RoutingSpec TextSpec RequestSpec ResponseSpec ServerSpec TaskSpec SerialSpec.

(** ** Leaving out calls that do not change the state *)
Section Thin.
Context {ST : Type}.
Inductive thin : list (ST * ST) -> list (ST * ST) -> Prop :=
| th_nil : thin [] []
| th_keep : forall p l k, thin l k -> thin (p :: l) (p :: k)
| th_drop : forall s l k, thin l k -> thin ((s, s) :: l) k.
Inductive thinned : history (ST := ST) -> history (ST := ST) -> Prop :=
| tn_nil : thinned [] []
| tn_keep : forall p l k, thinned l k -> thinned (p :: l) (p :: k)
| tn_drop : forall i s l k, thinned l k -> thinned ((i, (s, s)) :: l) k.

Lemma thin_app l1 k1 : thin l1 k1 -> forall l2 k2, thin l2 k2 -> thin (l1 ++ l2) (k1 ++ k2).
Proof. induction 1; intros; cbn [app]; try constructor; auto. Qed.
Lemma thinned_linked L L' : thinned L L' -> forall s s', linked s L s' -> linked s L' s'.
Proof.
  induction 1 as [|[i [a b]] l k T IH|i a l k T IH]; intros s s' E; cbn [linked] in *; auto.
  - destruct E as [-> E]. split; auto.
  - destruct E as [-> E]. auto.
Qed.
Lemma thinned_split L1 : forall L2 L', thinned (L1 ++ L2) L' ->
  exists L1' L2', L' = L1' ++ L2' /\ thinned L1 L1' /\ thinned L2 L2'.
Proof.
  induction L1 as [|p L1 IH]; intros L2 L' T; cbn [app] in T.
  - exists [], L'. split; auto. split; auto. constructor.
  - inversion T as [|? ? k T'|i s ? k T']; subst; destruct (IH _ _ T') as (A & C & -> & TA & TC).
    + exists (p :: A), C. split; auto. split; auto. constructor; auto.
    + exists A, C. split; auto. split; auto. constructor; auto.
Qed.
Lemma thinned_incl L L' : thinned L L' -> forall i, In i (map fst L') -> In i (map fst L).
Proof. induction 1; intros x I; cbn [map fst In] in *; intuition. Qed.

Lemma calls_on_cons i j p (L : history (ST := ST)) : calls_on i ((j, p) :: L) = if Nat.eqb j i then p :: calls_on i L else calls_on i L.
Proof. unfold calls_on. cbn [filter fst]. destruct (Nat.eqb j i); reflexivity. Qed.
Lemma calls_on_in i (L : history (ST := ST)) : In i (map fst L) -> calls_on i L <> [].
Proof.
  induction L as [|[j p] L IH]; [intros []|]. cbn [map fst In]. rewrite calls_on_cons. intros [->|I].
  - rewrite Nat.eqb_refl. discriminate.
  - destruct (Nat.eqb j i); [discriminate|auto].
Qed.
(** Thinning the calls of every connection thins the whole. *)
Lemma thin_all (L : history (ST := ST)) : forall P : nat -> list (ST * ST) -> Prop,
  (forall i, exists x, thin (calls_on i L) x /\ P i x) -> exists L', thinned L L' /\ forall i, P i (calls_on i L').
Proof.
  induction L as [|[j p] L IH]; intros P A.
  - exists []. split; [constructor|]. intro i. destruct (A i) as (x & T & Px). inversion T; subst. exact Px.
  - destruct (A j) as (x & T & Px). rewrite calls_on_cons, Nat.eqb_refl in T. inversion T as [|q l k T'|s l k T']; subst.
    + destruct (IH (fun i y => P i (if Nat.eqb j i then p :: y else y))) as (L' & TL & PL).
      { intro i. destruct (Nat.eqb_spec j i) as [<-|Nj]; [exists k; auto|].
        destruct (A i) as (y & Ty & Py). rewrite calls_on_cons in Ty. apply Nat.eqb_neq in Nj. rewrite Nj in Ty. exists y. auto. }
      exists ((j, p) :: L'). split; [constructor; auto|]. intro i. rewrite calls_on_cons. apply PL.
    + destruct (IH P) as (L' & TL & PL).
      { intro i. destruct (Nat.eqb_spec j i) as [<-|Nj]; [exists x; auto|].
        destruct (A i) as (y & Ty & Py). rewrite calls_on_cons in Ty. apply Nat.eqb_neq in Nj. rewrite Nj in Ty. exists y. auto. }
      exists L'. split; [constructor; auto|exact PL].
Qed.

(** What one turn or none spans. *)
Definition span (x : list (ST * ST)) (s s' : ST) : Prop := x = [(s, s')] \/ (x = [] /\ s' = s).
Definition same (p : ST * ST) : Prop := fst p = snd p.
Lemma same_thin l : Forall same l -> thin l [].
Proof. induction 1 as [|[a b] l E F IH]; [constructor|]. cbv [same fst snd] in E. subst b. constructor. exact IH. Qed.
Lemma linked_app i (l1 : list (ST * ST)) : forall l2 a b c, linked a (map (pair i) l1) b -> linked b (map (pair i) l2) c ->
  linked a (map (pair i) (l1 ++ l2)) c.
Proof.
  induction l1 as [|[x y] l1 IH]; intros l2 a b c E1 E2; cbn [map app linked] in *; [subst; exact E2|].
  destruct E1. split; auto. eapply IH; eauto.
Qed.
End Thin.

Section Serial.
Context (ft : features) (cl : cookie_lib) {H ST : Type}
  (handle : H -> matched_request cl -> ST * response cl -> (ST * response cl) * outcome flow).
Notation made := (calls_made cl handle).
Notation pure := (stateless cl handle).

(** Calls without use of the state can be made in any state. *)
Lemma made_pure rq calls r log left r' : made rq calls r log left r' -> Forall (pure rq) calls ->
  Forall same log /\ Forall (pure rq) left /\ forall i s, exists log', made rq calls r log' left r' /\ linked s (map (pair i) log') s.
Proof.
  induction 1 as [calls r|h vars rest r s s1 r1 log left r' E M IH|h vars rest r s s1 r1 E]; intro F.
  - split; [constructor|]. split; auto. intros i s. exists []. split; [constructor|reflexivity].
  - inversion F as [|? ? [f Hf] F']; subst. cbn [fst snd] in Hf. pose proof E as E0. rewrite Hf in E0. injection E0 as <- Er Eo.
    destruct (IH F') as (A & C & D). split; [constructor; [reflexivity|exact A]|]. split; auto.
    intros i t. destruct (D i t) as (log' & M' & L'). exists ((t, t) :: log'). split.
    + eapply cm_next; [|exact M']. rewrite Hf, Er, Eo. reflexivity.
    + cbn [map linked]. auto.
  - inversion F as [|? ? [f Hf] F']; subst. cbn [fst snd] in Hf. pose proof E as E0. rewrite Hf in E0. injection E0 as <- Er Eo.
    split; [constructor; [reflexivity|constructor]|]. split; [constructor|]. intros i t. exists [(t, t)]. split.
    + eapply cm_stop. rewrite Hf, Er, Eo. reflexivity.
    + cbn [map linked]. auto.
Qed.

(** The same with one call that uses the state, as an inductive property of lists of calls. *)
Inductive once (rq : request cl) : list (H * varmap) -> Prop :=
| on_pure : forall l, Forall (pure rq) l -> once rq l
| on_skip : forall c l, pure rq c -> once rq l -> once rq (c :: l)
| on_use : forall c l, Forall (pure rq) l -> once rq (c :: l).
Lemma one_once rq calls : one_stateful cl handle rq calls -> once rq calls.
Proof.
  intros (b & u & a & -> & Lu & Fb & Fa). induction Fb as [|c b Pc Fb IH]; cbn [app].
  - destruct u as [|c [|]]; cbn [app]; [apply on_pure|apply on_use|cbn in Lu; lia]; auto.
  - apply on_skip; auto.
Qed.

(** The calls of one request, with the calls of others in between or not. *)
Lemma made_once rq calls r log left r' : made rq calls r log left r' -> once rq calls ->
  exists x, length x <= 1 /\ thin log x /\ (Forall (pure rq) left \/ x = []) /\ once rq left /\
    forall i s s', span x s s' -> exists log', made rq calls r log' left r' /\ linked s (map (pair i) log') s'.
Proof.
  induction 1 as [calls r|h vars rest r s s1 r1 log left r' E M IH|h vars rest r s s1 r1 E]; intro O.
  - exists []. split; [cbn; lia|]. split; [constructor|]. split; [right; reflexivity|]. split; auto. intros i s s' [X|[_ ->]]; [discriminate|].
    exists []. split; [constructor|reflexivity].
  - assert (Skip : pure rq (h, vars) -> once rq rest -> exists x, length x <= 1 /\ thin ((s, s1) :: log) x /\ (Forall (pure rq) left \/ x = []) /\ once rq left /\
      forall i a b, span x a b -> exists log', made rq ((h, vars) :: rest) r log' left r' /\ linked a (map (pair i) log') b).
    { intros [f Hf] O'. cbn [fst snd] in Hf. pose proof E as E0. rewrite Hf in E0. injection E0 as <- Er Eo.
      destruct (IH O') as (x & Lx & Tx & Dx & Ol & Sx). exists x. split; auto. split; [constructor; auto|]. split; auto. split; auto.
      intros i a b Sp. destruct (Sx i a b Sp) as (log' & M' & L'). exists ((a, a) :: log'). split.
      - eapply cm_next; [|exact M']. rewrite Hf, Er, Eo. reflexivity.
      - cbn [map linked]. auto. }
    inversion O as [l F|c l Pc O'|c l F]; subst.
    + inversion F; subst. apply Skip; auto. apply on_pure; auto.
    + apply Skip; auto.
    + destruct (made_pure _ _ _ _ _ _ M F) as (A & C & D). exists [(s, s1)]. split; [cbn; lia|].
      split; [apply th_keep; apply same_thin; exact A|]. split; [left; exact C|]. split; [apply on_pure; exact C|].
      intros i a b [X|[X _]]; [|discriminate]. injection X as <- <-.
      destruct (D i s1) as (log' & M' & L'). exists ((s, s1) :: log'). split; [eapply cm_next; eauto|]. cbn [map linked]. auto.
  - assert (Skip : pure rq (h, vars) -> exists x, length x <= 1 /\ thin [(s, s1)] x /\ (Forall (pure rq) [] \/ x = []) /\ once rq [] /\
      forall i a b, span x a b -> exists log', made rq ((h, vars) :: rest) r log' [] r1 /\ linked a (map (pair i) log') b).
    { intros [f Hf]. cbn [fst snd] in Hf. pose proof E as E0. rewrite Hf in E0. injection E0 as <- Er Eo.
      exists []. split; [cbn; lia|]. split; [constructor; constructor|]. split; auto. split; [apply on_pure; constructor|].
      intros i a b [X|[_ ->]]; [discriminate|]. exists [(a, a)]. split; [|cbn [map linked]; auto].
      eapply cm_stop. rewrite Hf, Er, Eo. reflexivity. }
    inversion O as [l F|c l Pc O'|c l F]; subst.
    + inversion F; subst. auto.
    + auto.
    + exists [(s, s1)]. split; [cbn; lia|]. split; [constructor; constructor|]. split; [left; constructor|]. split; [apply on_pure; constructor|].
      intros i a b [X|[X _]]; [|discriminate]. injection X as <- <-. exists [(s, s1)]. split; [eapply cm_stop; eauto|]. cbn [map linked]. auto.
Qed.
Lemma made_panic rq calls r log h vars left r' s s1 r1 : made rq calls r log ((h, vars) :: left) r' -> once rq calls ->
  handle h (MatchedRequest rq vars) (s, r') = ((s1, r1), Panic) ->
  exists x, length x <= 1 /\ thin (log ++ [(s, s1)]) x /\
    forall i a b, span x a b -> exists log' t, made rq calls r log' ((h, vars) :: left) r' /\ linked a (map (pair i) log') t /\
      handle h (MatchedRequest rq vars) (t, r') = ((b, r1), Panic).
Proof.
  intros M O E. destruct (made_once _ _ _ _ _ _ M O) as (x & Lx & Tx & Dx & Ol & Sx).
  assert (Skip : pure rq (h, vars) -> exists x, length x <= 1 /\ thin (log ++ [(s, s1)]) x /\
    forall i a b, span x a b -> exists log' t, made rq calls r log' ((h, vars) :: left) r' /\ linked a (map (pair i) log') t /\
      handle h (MatchedRequest rq vars) (t, r') = ((b, r1), Panic)).
  { intros [f Hf]. cbn [fst snd] in Hf. pose proof E as E0. rewrite Hf in E0. injection E0 as <- Er Eo.
    exists x. split; auto. split.
    - rewrite <- (app_nil_r x). apply thin_app; auto. constructor. constructor.
    - intros i a b Sp. destruct (Sx i a b Sp) as (log' & M' & L'). exists log', b. split; auto. split; auto. rewrite Hf, Er, Eo. reflexivity. }
  destruct Dx as [F| ->]; [inversion F; subst; auto|].
  inversion Ol as [l F|c l Pc O'|c l F]; subst; [inversion F; subst; auto|auto|].
  exists [(s, s1)]. split; [cbn; lia|]. split.
  - change [(s, s1)] with ([] ++ [(s, s1)]) at 2. apply thin_app; auto. constructor. constructor.
  - intros i a b [X|[X _]]; [|discriminate]. injection X as <- <-.
    destruct (Sx i s s) as (log' & M' & L'); [right; auto|]. exists log', s. auto.
Qed.

(** Calls made one right after the other are the chain of handlers. *)
Lemma made_chain i rq calls r log left r' : made rq calls r log left r' -> forall s s', linked s (map (pair i) log) s' ->
  run_chain (fun h vars => handle h (MatchedRequest rq vars)) calls (s, r) =
  run_chain (fun h vars => handle h (MatchedRequest rq vars)) left (s', r').
Proof.
  induction 1 as [calls r|h vars rest r s s1 r1 log left r' E M IH|h vars rest r s s1 r1 E]; intros a b L; cbn [map linked] in L.
  - subst b. reflexivity.
  - destruct L as [<- L]. cbn [run_chain]. rewrite E. apply IH. exact L.
  - destruct L as [<- ->]. cbn [run_chain]. rewrite E. reflexivity.
Qed.
Lemma chain_handled app rq calls s x : chosen ft cl app rq calls ->
  run_chain (fun h vars => handle h (MatchedRequest rq vars)) calls (s, blank_response) = x -> handled ft cl handle app rq s x.
Proof. intros (sel & S & I) E. exists sel, calls. auto. Qed.

(** ** From histories to turns *)
Section Run.
Context (o : order) (app : list (oreg H)) (rt : router H).
Context (HB : (N.of_nat (length (flatten app)) <= USIZE_MAX)%N) (Eb : build o app = Done rt).
Notation runs := (tasks_run ft cl handle rt).

Definition answered (t : task cl (H := H)) : Prop := forall j received, t <> TWorking j /\ t <> TReading received.
Lemma answered_step st ev i : answered (task_get cl i (tasks st)) -> answered (task_get cl i (tasks (tasks_step ft cl handle rt st ev))).
Proof.
  intro A. split.
  - intro E. destruct (step_begun ft cl handle rt st ev i) as [_ X]; [intros rec; apply (A j rec)|].
    destruct (X _ E) as (j0 & E0 & _). destruct (A j0 received) as [N _]. auto.
  - destruct (step_begun ft cl handle rt st ev i) as [X _]; [intros rec; apply (A j rec)|]. apply X.
Qed.

Lemma answered_run evs : forall st i, answered (task_get cl i (tasks st)) -> answered (task_get cl i (tasks (runs st evs))).
Proof. unfold tasks_run. induction evs as [|e evs IH]; intros st i A; auto. cbn [fold_left]. apply IH. apply answered_step. exact A. Qed.

Definition explained s0 (evs : list (nat * task_event * (world * order))) (L : history) : Prop :=
  let st := runs (TasksState s0 []) evs in
  linked s0 L (tshared st) /\ forall i, task_ok ft cl handle app rt i evs (calls_on i L) (task_get cl i (tasks st)).
Lemma working_or_not (t : task cl (H := H)) : answered t \/ (exists received, t = TReading received) \/ (exists j, t = TWorking j).
Proof. destruct t; [right; left; eauto|right; right; eauto| | |]; left; split; discriminate. Qed.
Lemma history_in_time s0 evs : real_inputs evs -> Forall (fun ev => clock (fst (snd ev)) <> None) evs ->
  exists L, explained s0 evs L /\ forall evs1 evs2, evs = evs1 ++ evs2 -> exists L1 L2, L = L1 ++ L2 /\ explained s0 evs1 L1 /\
    forall i, In i (map fst L2) -> ~ answered (task_get cl i (tasks (runs (TasksState s0 []) evs1))).
Proof.
  induction evs as [|ev evs IH] using rev_ind; intros R C.
  - exists []. assert (E0 : explained s0 [] []) by (split; [reflexivity|]; intro i; cbn; auto). split; auto.
    intros evs1 evs2 E. symmetry in E. apply app_eq_nil in E as [-> ->]. exists [], []. split; auto.
  - pose proof R as R'. pose proof C as C'. apply Forall_app in R' as [R' _]. apply Forall_app in C' as [C' _].
    destruct (IH R' C') as (L & [HL K] & T).
    destruct (step_ok ft cl handle o app rt HB Eb s0 evs ev L _ R C HL K) as (L2 & W2 & HL2 & K2).
    assert (EX : explained s0 (evs ++ [ev]) (L ++ L2)).
    { unfold explained, tasks_run in *. rewrite fold_left_app. cbn [fold_left]. split; auto. }
    exists (L ++ L2). split; auto. intros evs1 evs2 E. destruct evs2 as [|ev' evs2 _] using rev_ind.
    + rewrite app_nil_r in E. subst evs1. exists (L ++ L2), []. rewrite app_nil_r. split; auto.
    + rewrite app_assoc in E. apply app_inj_tail in E as [E <-]. destruct (T evs1 evs2 E) as (A & D & EL & EA & ND).
      exists A, (D ++ L2). rewrite app_assoc, <- EL. split; auto. split; auto. intros i I. rewrite map_app in I.
      apply in_app_or in I as [I|I]; auto. intro An. destruct (W2 i I) as (j & Ej). rewrite E in Ej.
      unfold tasks_run in Ej. rewrite fold_left_app in Ej. apply (answered_run evs2) in An. destruct (An j []) as [N _]. auto.
Qed.

(** What is known of one task becomes what it does alone. *)
Lemma ok_alone evs i L k : real_inputs evs -> Forall (fun ev => clock (fst (snd ev)) <> None) evs ->
  simple_requests ft cl handle app evs -> task_ok ft cl handle app rt i evs L k ->
  exists x, thin L x /\ length x <= 1 /\
    forall L', calls_on i L' = x -> alone ft cl handle app i evs L' k.
Proof.
  intros R C Sr K. pose proof (ok_told ft cl handle app rt evs i L k R C K) as T.
  assert (Seen : forall out, sent_ok ft cl handle app rt i evs (input_of (inputs i evs)) L out -> exists w ho, In (i, TRun, (w, ho)) evs).
  { intros out (r & j & w & ho & s & s' & _ & _ & I & _). eauto. }
  assert (Sent : forall out, (exists w ho, In (i, TRun, (w, ho)) evs) ->
    story ft cl handle (fun w ho => In (i, TRun, (w, ho)) evs) [i] app (stream_of (input_of (inputs i evs))) (fin (input_of (inputs i evs))) L (Answering out) ->
    exists x, thin L x /\ length x <= 1 /\ forall L', calls_on i L' = x -> forall s s', turn i L' s s' -> exists w ho, In (i, TRun, (w, ho)) evs /\
      served ft cl handle w ho [i] app s (stream_of (input_of (inputs i evs))) (fin (input_of (inputs i evs))) s' (IoDone out)).
  { intros out (w0 & ho0 & I0) St. inversion St as [| | | |num reason out' Rf Ea| | |rq calls log res out' Ad Ch M Bd Ea|rq calls log res w ho Ad Ch M Bd Sn]; subst.
    - exists []. split; [constructor|]. split; [cbn; lia|]. intros L' EL s s' [X|[_ ->]]; [congruence|]. exists w0, ho0. split; auto.
      inversion Rf; subst; [eapply sv_bad|eapply sv_no_host|eapply sv_method]; eauto.
    - destruct (made_once _ _ _ _ _ _ M (one_once _ _ (Sr i rq calls Ad Ch))) as (x & Lx & Tx & _ & _ & Sx).
      exists x. split; auto. split; auto. intros L' EL s s' Tn. rewrite <- EL in Sx. destruct (Sx i s s' Tn) as (log' & M' & Lk).
      exists w0, ho0. split; auto. destruct Ad as (rl & hs & cs & body & A1 & A2 & A3 & A4).
      eapply sv_not_found; eauto. eapply chain_handled; eauto. rewrite (made_chain i _ _ _ _ _ _ M' _ _ Lk). reflexivity.
    - destruct (made_once _ _ _ _ _ _ M (one_once _ _ (Sr i rq calls Ad Ch))) as (x & Lx & Tx & _ & _ & Sx).
      exists x. split; auto. split; auto. intros L' EL s s' Tn. rewrite <- EL in Sx. destruct (Sx i s s' Tn) as (log' & M' & Lk).
      exists w, ho. split; auto. destruct Ad as (rl & hs & cs & body & A1 & A2 & A3 & A4).
      eapply sv_response; eauto. eapply chain_handled; eauto. rewrite (made_chain i _ _ _ _ _ _ M' _ _ Lk). reflexivity. }
  unfold alone. destruct k as [rec|j|sent rest|sent|]; cbn [told task_ok] in T, K.
  - destruct T as [-> St]. inversion St as [Sw| | | | | | | |]; subst. exists []. split; [constructor|]. split; [cbn; lia|]. auto.
  - inversion T as [| | |num reason Rf| |rq calls log left res Ad Ch M| | |]; subst.
    + exists []. split; [constructor|]. split; [cbn; lia|]. intros L' EL s s' _. left. split; eauto.
    + destruct (made_once _ _ _ _ _ _ M (one_once _ _ (Sr i rq calls Ad Ch))) as (x & Lx & Tx & _ & _ & Sx).
      exists x. split; auto. split; auto. intros L' EL s s' Tn. rewrite <- EL in Sx. destruct (Sx i s s' Tn) as (log' & M' & Lk).
      right. exists rq, calls, log', left, res. auto.
  - apply Sent; eauto.
  - destruct K as (rest & K & W). destruct (Sent (sent ++ rest)) as (x & Tx & Lx & X); [eauto| |].
    { destruct T as (rest' & T & W'). eapply (sent_story ft cl handle app rt); auto. apply inputs_real; auto. }
    exists x. split; auto. split; auto. intros L' EL s s' Tn. destruct (X L' EL s s' Tn) as (w & ho & I & Sv).
    exists rest, w, ho. auto.
  - inversion T as [|Bl|Sk| | | |rq calls log h vars left res s s1 res1 Ad Ch M Eh| |]; subst.
    + exists []. split; [constructor|]. split; [cbn; lia|]. intros L' EL s s' [X|[_ ->]] w ho; [congruence|]. apply sv_huge; auto.
    + exists []. split; [constructor|]. split; [cbn; lia|]. intros L' EL s s' [X|[_ ->]] w ho; [congruence|]. apply sv_dies; auto.
    + destruct (made_panic _ _ _ _ _ _ _ _ _ _ _ M (one_once _ _ (Sr i rq calls Ad Ch)) Eh) as (x & Lx & Tx & Sx).
      exists x. split; auto. split; auto. intros L' EL a b Tn w ho. rewrite <- EL in Sx. destruct (Sx i a b Tn) as (log' & t & M' & Lk & Et).
      destruct Ad as (rl & hs & cs & body & A1 & A2 & A3 & A4).
      eapply sv_handler_panics; eauto. eapply chain_handled; eauto. rewrite (made_chain i _ _ _ _ _ _ M' _ _ Lk).
      cbn [run_chain]. rewrite Et. reflexivity.
Qed.

Theorem serial s0 evs : real_inputs evs -> Forall (fun ev => clock (fst (snd ev)) <> None) evs ->
  simple_requests ft cl handle app evs ->
  exists L, linked s0 L (tshared (runs (TasksState s0 []) evs)) /\ in_time ft cl handle rt s0 evs L /\
    forall i, length (calls_on i L) <= 1 /\ alone ft cl handle app i evs L (task_get cl i (tasks (runs (TasksState s0 []) evs))).
Proof.
  intros R C Sr. destruct (history_in_time s0 evs R C) as (L & [HL K] & T).
  destruct (thin_all L (fun i x => length x <= 1 /\ forall L', calls_on i L' = x ->
    alone ft cl handle app i evs L' (task_get cl i (tasks (runs (TasksState s0 []) evs))))) as (L' & Tn & P).
  { intro i. destruct (ok_alone evs i _ _ R C Sr (K i)) as (x & A & D & F). exists x. auto. }
  exists L'. split; [eapply thinned_linked; eauto|]. split; [|intro i; destruct (P i) as [P1 P2]; auto].
  intros evs1 evs2 E st. destruct (T evs1 evs2 E) as (L1 & L2 & -> & [HL1 K1] & An).
  destruct (thinned_split _ _ _ Tn) as (A & D & -> & TA & TD). exists A, D. split; auto. split; [eapply thinned_linked; eauto|].
  split.
  - intros i I rec Er. apply (thinned_incl _ _ TA) in I. apply (calls_on_in i L1 I). specialize (K1 i). fold st in K1. rewrite Er in K1. cbn in K1.
    apply K1.
  - intros i I. apply (thinned_incl _ _ TD) in I. specialize (An i I). fold st in An.
    destruct (working_or_not (task_get cl i (tasks st))) as [X|X]; [contradiction|exact X].
Qed.
End Run.
End Serial.

(** ** Applications with one handler that uses the state *)
Section Registration.
Context (ft : features) (cl : cookie_lib) {H ST : Type}
  (handle : H -> matched_request cl -> ST * response cl -> (ST * response cl) * outcome flow).
Lemma selects_app {A} (P : A -> Prop) l1 : forall l2 l, selects P (l1 ++ l2) l ->
  exists k1 k2, l = k1 ++ k2 /\ selects P l1 k1 /\ selects P l2 k2.
Proof.
  induction l1 as [|x l1 IH]; intros l2 l S; cbn [app] in S; [exists [], l; split; auto; split; auto; constructor|].
  inversion S as [|? ? l' Px S'|? ? l' Nx S']; subst; destruct (IH _ _ S') as (k1 & k2 & -> & S1 & S2).
  - exists (x :: k1), k2. split; auto. split; auto. constructor; auto.
  - exists k1, k2. split; auto. split; auto. apply sel_no; auto.
Qed.
Lemma selects_in {A} (P : A -> Prop) l k : selects P l k -> forall x, In x k -> In x l.
Proof. induction 1; intros y I; cbn [In] in *; intuition. Qed.
Lemma selects_len {A} (P : A -> Prop) l k : selects P l k -> length k <= length l.
Proof. induction 1; cbn [length]; lia. Qed.
Lemma invoked_stateless b path rq sel calls : Forall2 (invokes (H := H) b path) sel calls ->
  (forall c, In c sel -> forall vars, stateless cl handle rq (reg_handler c, vars)) -> Forall (stateless cl handle rq) calls.
Proof.
  induction 1 as [|c [h vars] sel calls I F IH]; intro A; constructor.
  - destruct c as [v p h'|h']; cbn [invokes fst] in I.
    + destruct I as [-> _]. exact (A (RRoute v p h') (or_introl eq_refl) vars).
    + injection I as -> ->. exact (A (RAdd h') (or_introl eq_refl) []).
  - apply IH. intros c' I'. apply A. right. exact I'.
Qed.
Theorem one_registration app evs : one_stateful_registration cl handle app -> simple_requests ft cl handle app evs.
Proof.
  intros (b & u & a & E & Lu & A) i rq calls _ (sel & S & F). rewrite E in S.
  destruct (selects_app _ _ _ _ S) as (k1 & k' & -> & S1 & S'). destruct (selects_app _ _ _ _ S') as (k2 & k3 & -> & S2 & S3).
  apply Forall2_app_inv_l in F as (c1 & c' & F1 & F' & ->). apply Forall2_app_inv_l in F' as (c2 & c3 & F2 & F3 & ->).
  exists c1, c2, c3. split; auto. split; [assert (X : length k2 = length c2) by (clear - F2; induction F2; cbn [length]; congruence); pose proof (selects_len _ _ _ S2); lia|].
  split; eapply invoked_stateless; eauto; intros c I vars; apply A; apply in_or_app; [left|right]; eapply selects_in; eauto.
Qed.
End Registration.
