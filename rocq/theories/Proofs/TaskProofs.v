(** Tasks that run in parallel. *)
From Verif.Proofs Require Export ConnProofs.
From Verif.Model Require Export Tasks.
From Verif.Spec Require Import Common PathSpec RoutingSpec TextSpec RequestSpec ResponseSpec ServerSpec TaskSpec.
Local Arguments N.mul : simpl never.
Local Arguments N.add : simpl never.
Local Arguments N.sub : simpl never.

(** ** Events and histories *)
Lemma own_events_app {X} i (l l' : list (nat * task_event * X)) : own_events i (l ++ l') = own_events i l ++ own_events i l'.
Proof. apply filter_app. Qed.
Lemma inputs_app {X} i (l l' : list (nat * task_event * X)) : inputs i (l ++ l') = inputs i l ++ inputs i l'.
Proof. unfold inputs. rewrite own_events_app. apply flat_map_app'. Qed.
Lemma own_other {X} i j e (x : X) : j <> i -> own_events i [(j, e, x)] = [].
Proof. intro N. unfold own_events. cbn [filter]. unfold on_task. cbn [fst]. apply Nat.eqb_neq in N. rewrite N. reflexivity. Qed.
Lemma own_same {X} i e (x : X) : own_events i [(i, e, x)] = [(i, e, x)].
Proof. unfold own_events. cbn [filter]. unfold on_task. cbn [fst]. rewrite Nat.eqb_refl. reflexivity. Qed.
Lemma inputs_real {X} i (evs : list (nat * task_event * X)) : real_inputs evs -> real_segments (input_of (inputs i evs)).
Proof.
  unfold inputs, own_events. induction 1 as [|[[j e] x] l He F IH]; [constructor|]. cbn [filter]. unfold on_task at 1. cbn [fst].
  destruct (Nat.eqb j i); auto. cbn [flat_map fst snd]. cbn [snd fst] in He.
  destruct e as [e| | |]; auto. cbn [app input_of]. destruct e; [|constructor|constructor]. constructor; auto. congruence.
Qed.

Section Hist.
Context {ST : Type}.
Lemma linked_snoc (L : history) : forall s s' i (s1 : ST), linked s L s' -> linked s (L ++ [(i, (s', s1))]) s1.
Proof. induction L as [|[j [a b]] L IH]; intros s s' i s1 E; cbn [linked app] in *; [split; auto|]. destruct E. split; auto. Qed.
Lemma calls_on_snoc (L : history) i j (x : ST * ST) :
  calls_on i (L ++ [(j, x)]) = if Nat.eqb j i then calls_on i L ++ [x] else calls_on i L.
Proof.
  unfold calls_on. rewrite filter_app, map_app. cbn [filter fst]. destruct (Nat.eqb j i); cbn [map]; rewrite ?app_nil_r; reflexivity.
Qed.
End Hist.

Section Tasks.
Context (ft : features) (cl : cookie_lib) {H ST : Type}
  (handle : H -> matched_request cl -> ST * response cl -> (ST * response cl) * outcome flow).
Notation rr := (read_request ft cl).
Notation made := (calls_made cl handle).

Lemma made_next rq calls r log h vars left r' s s1 r1 : made rq calls r log ((h, vars) :: left) r' ->
  handle h (MatchedRequest rq vars) (s, r') = ((s1, r1), Done FNext) -> made rq calls r (log ++ [(s, s1)]) left r1.
Proof.
  remember ((h, vars) :: left) as l eqn:El. induction 1 as [calls r|h0 v0 rest r s0 s2 r2 log left' r' E M IH|]; intro E1; try discriminate.
  - subst calls. cbn [app]. eapply cm_next; [exact E1|]. constructor.
  - cbn [app]. eapply cm_next; eauto.
Qed.
Lemma made_stop rq calls r log h vars left r' s s1 r1 : made rq calls r log ((h, vars) :: left) r' ->
  handle h (MatchedRequest rq vars) (s, r') = ((s1, r1), Done FStop) -> made rq calls r (log ++ [(s, s1)]) [] r1.
Proof.
  remember ((h, vars) :: left) as l eqn:El. induction 1 as [calls r|h0 v0 rest r s0 s2 r2 log left' r' E M IH|]; intro E1; try discriminate.
  - subst calls. cbn [app]. eapply cm_stop; exact E1.
  - cbn [app]. eapply cm_next; eauto.
Qed.

Lemma read_method t rq : rr t = IoDone (RdRequest rq) -> rl_method (rq_line rq) <> MAll.
Proof.
  unfold read_request. destruct (read_head t) as [[hs rl rem tl|]| | |]; cbn [io_bind]; try discriminate.
  destruct (headers_parse ft hs) as [h|]; [|discriminate].
  destruct (request_line_parse ft rl) as [[rl'|]|] eqn:El; cbn [obind unwrap io_of_outcome io_bind]; try discriminate.
  apply line_not_all in El. unfold request_from_raw.
  assert (X : forall b, io_bind (io_of_outcome (request_parse ft cl rl' h b))
              (fun o => IoDone match o with Some r => RdRequest r | None => RdBad end) = IoDone (RdRequest rq) ->
              rl_method (rq_line rq) <> MAll).
  { intros b. unfold request_parse. destruct (cookies_on ft).
    - destruct (headers_get h _) as [v|]; [destruct (cookie_parse cl v)|]; cbn; try discriminate; intro E; injection E as <-; exact El.
    - cbn. intro E. injection E as <-. exact El. }
  destruct (0 <? content_length h)%N; [|apply X].
  destruct (N.of_nat (length rem) <? content_length h)%N; [|apply X].
  destruct (ISIZE_MAX <? _)%N; [discriminate|].
  destruct (read_exact_segs _ _ _) as [[x|]| | |]; cbn [io_bind]; try discriminate.
  destruct (ISIZE_MAX <? _)%N; [discriminate|]. apply X.
Qed.

(** ** The invariant *)
Section Inv.
Context (o : order) (app : list (oreg H)) (rt : router H).
Context (HB : (N.of_nat (length (flatten app)) <= USIZE_MAX)%N) (Eb : build o app = Done rt).

Definition wanted (rq : request cl) : list (H * varmap) :=
  calls_of ft (rl_method (rq_line rq)) (rl_path (rq_line rq)) (flatten app).
Definition passes (rq : request cl) : Prop :=
  err_bad_request (http_validate (rl_version (rq_line rq)) (rq_headers rq)) = false /\
  method_is_some (rl_method (rq_line rq)) = true.
Definition job_ok (r : read_result cl) (L : list (ST * ST)) (j : job cl (H := H)) : Prop :=
  match j with
  | Refuse code => job_of ft cl rt r = Done (Refuse code) /\ L = []
  | Dispatch rq k M ix res => r = RdRequest rq /\ passes rq /\
      exists S, k = length S /\ (S = [] \/ loop_inv S M ix) /\
        made rq (wanted rq) blank_response L (map (call_of ft) S) res
  end.
Definition sent_ok (i : nat) (evs : list (nat * task_event * (world * order))) (t : transport) (L : list (ST * ST)) (out : str) : Prop :=
  exists r j w ho s s', rr t = IoDone r /\ job_ok r L j /\ In (i, TRun, (w, ho)) evs /\
    job_step ft cl handle w ho [i] s j = (s', JSend out).
Definition task_ok (i : nat) (evs : list (nat * task_event * (world * order))) (L : list (ST * ST)) (k : task cl (H := H)) : Prop :=
  let t := input_of (inputs i evs) in
  match k with
  | TReading received => received = segs t /\ fin t = Stall /\ L = [] /\ rr t = IoBlocked
  | TWorking j => exists r, rr t = IoDone r /\ job_ok r L j
  | TSending sent rest => sent_ok i evs t L (sent ++ rest)
  | TClosed sent => exists rest, sent_ok i evs t L (sent ++ rest) /\ (writes_succeed i evs -> rest = [])
  | TCrashed =>
      (rr t = IoPanic /\ L = []) \/
      exists rq L1 h vars left res s s1 res1, rr t = IoDone (RdRequest rq) /\ passes rq /\
        made rq (wanted rq) blank_response L1 ((h, vars) :: left) res /\
        handle h (MatchedRequest rq vars) (s, res) = ((s1, res1), Panic) /\ L = L1 ++ [(s, s1)]
  end.

Lemma job_of_ok t r : rr t = IoDone r -> exists j, job_of ft cl rt r = Done j /\ job_ok r [] j.
Proof.
  intro E. destruct r as [|rq]; cbn [job_of]; [eexists; split; [reflexivity|split; auto]|].
  destruct (err_bad_request _) eqn:Eh.
  { eexists. split; [reflexivity|]. split; auto. cbn [job_of]. rewrite Eh. reflexivity. }
  destruct (method_is_some _) eqn:Em.
  2:{ eexists. split; [reflexivity|]. split; auto. cbn [job_of]. rewrite Eh, Em. reflexivity. }
  apply read_method in E.
  destruct (build_matches o app ft _ (rl_path (rq_line rq)) HB E) as (r & M & S & Er & Ems & El & HI & Ec).
  rewrite Eb in Er. injection Er as <-. rewrite Ems. cbn [omap]. eexists. split; [reflexivity|].
  cbn [job_ok]. split; auto. split; [split; auto|]. exists S. split; auto. split; auto.
  unfold wanted. rewrite <- Ec. constructor.
Qed.

(** What one step of a job does. *)
Lemma job_step_ok r L j w ho pos s s' x : clock w <> None -> job_ok r L j -> job_step ft cl handle w ho pos s j = (s', x) ->
  (exists out, x = JSend out /\ s' = s) \/
  (exists j', x = JMore j' /\ job_ok r (L ++ [(s, s')]) j') \/
  (x = JPanic /\ exists rq h vars left res res1, r = RdRequest rq /\ passes rq /\
     made rq (wanted rq) blank_response L ((h, vars) :: left) res /\
     handle h (MatchedRequest rq vars) (s, res) = ((s', res1), Panic)).
Proof.
  intros C J E. destruct j as [code|rq k M ix res].
  - cbn [job_step] in E. injection E as <- <-. left.
    destruct (default_headers_total w (set_status code (new_from_slice NOT_FOUND : response cl)) C) as (r' & Er).
    unfold error_send. rewrite Er. cbn. eexists; split; reflexivity.
  - destruct J as (-> & P & S & -> & Hi & M0). destruct S as [|x0 S].
    + cbn [length job_step] in E. injection E as <- <-. left.
      destruct (has_body res); cbn [negb].
      * eexists; split; reflexivity.
      * destruct (default_headers_total w (set_status StNotFound (new_from_slice NOT_FOUND : response cl)) C) as (r' & Er).
        unfold error_send. rewrite Er. cbn. eexists; split; reflexivity.
    + destruct Hi as [?|Hi]; [discriminate|]. destruct (loop_step x0 S M ix Hi) as (v & i & E1 & E2 & E3 & HI').
      cbn [length job_step] in E. rewrite E1, E2, E3 in E. right. cbn [map] in M0.
      change (call_of ft x0) with (closure (mp_data x0), if url_variables ft then mp_vars x0 else []) in M0.
      destruct (handle (closure (mp_data x0)) _ (s, res)) as [[s1 res1] [f|]] eqn:Eh; injection E as <- <-.
      * left. eexists. split; [reflexivity|]. cbn [job_ok]. split; auto. split; auto. destruct f; cbn [should_continue].
        -- exists []. split; auto. split; auto. cbn [map]. eapply made_stop; eauto.
        -- exists S. split; auto. split; auto. eapply made_next; eauto.
      * right. split; auto. exists rq, (closure (mp_data x0)), (if url_variables ft then mp_vars x0 else []), (map (call_of ft) S), res, res1.
        auto.
Qed.
Notation step := (tasks_step ft cl handle rt).
Notation runs := (tasks_run ft cl handle rt).
Lemma rr_more i (evs : list (nat * task_event * (world * order))) ev r : rr (input_of (inputs i evs)) = r -> r <> IoBlocked -> r <> IoFuel ->
  rr (input_of (inputs i (evs ++ [ev]))) = r.
Proof. intros <- N1 N2. rewrite inputs_app. apply rr_extend; auto. Qed.
Lemma writes_less i (evs : list (nat * task_event * (world * order))) ev : writes_succeed i (evs ++ [ev]) -> writes_succeed i evs.
Proof. intros W e x I. apply (W e x). apply in_or_app. auto. Qed.
Lemma sent_more i evs ev L out : sent_ok i evs (input_of (inputs i evs)) L out ->
  sent_ok i (evs ++ [ev]) (input_of (inputs i (evs ++ [ev]))) L out.
Proof.
  intros (r & j & w & ho & s & s' & E & J & I & Ej). exists r, j, w, ho, s, s'.
  split; [apply rr_more; auto; discriminate|]. split; auto. split; auto. apply in_or_app; auto.
Qed.
(** An event that does not change a task keeps what is known about it. *)
Lemma ok_more i evs ev L k : task_ok i evs L k ->
  (forall received, k = TReading received -> inputs i [ev] = []) -> task_ok i (evs ++ [ev]) L k.
Proof.
  intros K N. destruct k as [rec|j|sent rest|sent|]; cbn [task_ok] in *.
  - rewrite inputs_app, (N rec eq_refl), app_nil_r. exact K.
  - destruct K as (r & E & J). exists r. split; auto. apply rr_more; auto; discriminate.
  - apply sent_more; auto.
  - destruct K as (rest & K & W). exists rest. split; [apply sent_more; auto|]. intro W'. apply W. eapply writes_less; eauto.
  - destruct K as [[E ->]|(rq & L1 & h & vars & left & res & s & s1 & res1 & E & K)].
    + left. split; auto. apply rr_more; auto; discriminate.
    + right. exists rq, L1, h, vars, left, res, s, s1, res1. split; auto. apply rr_more; auto; discriminate.
Qed.
Lemma task_get_set i j c l : task_get cl i (mset Nat.eqb j c l) = if Nat.eqb i j then c else task_get cl (H := H) i l.
Proof.
  unfold task_get. destruct (Nat.eqb_spec i j) as [->|N].
  - rewrite (mget_mset_same Nat.eqb Nat.eqb_eq). reflexivity.
  - rewrite (mget_mset_other Nat.eqb Nat.eqb_eq) by auto. reflexivity.
Qed.

Definition all_ok s0 evs (st : tasks_state cl) : Prop :=
  exists L, linked s0 L (tshared st) /\ forall i, task_ok i evs (calls_on i L) (task_get cl i (tasks st)).
(** The same with a history that goes on from [L], by calls of tasks working in [st]. *)
Definition ok_from s0 L (st : tasks_state cl (H := H) (ST := ST)) evs (st' : tasks_state cl) : Prop :=
  exists L2, (forall i, In i (map fst L2) -> exists j, task_get cl i (tasks st) = TWorking j) /\
    linked s0 (L ++ L2) (tshared st') /\ forall i, task_ok i evs (calls_on i (L ++ L2)) (task_get cl i (tasks st')).

(** Updating task [j]. *)
Lemma put_ok s0 evs st j e x t L : linked s0 L (tshared st) ->
  (forall i, task_ok i evs (calls_on i L) (task_get cl i (tasks st))) ->
  task_ok j (evs ++ [(j, e, x)]) (calls_on j L) t ->
  ok_from s0 L st (evs ++ [(j, e, x)]) (TasksState (tshared st) (mset Nat.eqb j t (tasks st))).
Proof.
  intros HL K Kj. exists []. rewrite app_nil_r. split; [intros i []|]. split; auto. intro i. cbn [tasks]. rewrite task_get_set.
  destruct (Nat.eqb_spec i j) as [->|N]; auto. apply ok_more; auto.
  intros _ _. unfold inputs. rewrite own_other by auto. reflexivity.
Qed.
Lemma same_ok s0 evs st j e x L : linked s0 L (tshared st) ->
  (forall i, task_ok i evs (calls_on i L) (task_get cl i (tasks st))) ->
  task_ok j (evs ++ [(j, e, x)]) (calls_on j L) (task_get cl j (tasks st)) ->
  ok_from s0 L st (evs ++ [(j, e, x)]) st.
Proof.
  intros HL K Kj. exists []. rewrite app_nil_r. split; [intros i []|]. split; auto. intro i.
  destruct (Nat.eqb_spec i j) as [->|N]; auto. apply ok_more; auto.
  intros _ _. unfold inputs. rewrite own_other by auto. reflexivity.
Qed.

Lemma input_step evs i e x rec L : real_inputs evs -> e <> Arrive [] ->
  task_ok i evs L (TReading rec) -> task_ok i (evs ++ [(i, TInput e, x)]) L (task_input ft cl rt rec e).
Proof.
  intros R He (-> & Ef & -> & Eb0).
  assert (Ei : inputs i (evs ++ [(i, TInput e, x)]) = inputs i evs ++ [e]).
  { rewrite inputs_app. unfold inputs at 2. rewrite own_same. reflexivity. }
  unfold task_ok. rewrite Ei, (input_app _ [e] Ef). set (t' := Transport _ _).
  pose proof (inputs_real i evs R) as Rr.
  assert (Er : resume ft cl (segs (input_of (inputs i evs))) e = (segs t', rr t') /\ (fin t' = Stall \/ rr t' <> IoBlocked)).
  { unfold t'. destruct e as [sg| |]; cbn [resume input_of segs fin]; rewrite ?app_nil_r.
    - split; auto.
    - split; auto. right. apply read_request_ends; [exact Rr|discriminate].
    - split; auto. right. apply read_request_ends; [exact Rr|discriminate]. }
  assert (Rt : real_segments t').
  { unfold real_segments, t' in *. cbn [segs]. apply Forall_app. split; auto.
    destruct e as [sg| |]; [|constructor|constructor]. constructor; [congruence|constructor]. }
  destruct Er as [Er Es]. unfold task_input. rewrite Er. pose proof (read_request_fuel ft cl t' Rt) as Nf.
  destruct (rr t') as [r| | |] eqn:Et; [| | |congruence].
  - destruct (job_of_ok t' r Et) as (j & -> & J). exists r. auto.
  - left. auto.
  - split; auto. split; [destruct Es; congruence|]. auto.
Qed.

Lemma step_ok s0 evs ev L st : real_inputs (evs ++ [ev]) -> Forall (fun ev => clock (fst (snd ev)) <> None) (evs ++ [ev]) ->
  linked s0 L (tshared st) -> (forall i, task_ok i evs (calls_on i L) (task_get cl i (tasks st))) ->
  ok_from s0 L st (evs ++ [ev]) (step st ev).
Proof.
    intros R C HL K. apply Forall_app in R as [R Rl]. apply Forall_app in C as [C Cl].
    destruct ev as [[j e] [w ho]].
    inversion Cl as [|? ? Cw _]; subst. cbn [fst snd] in Cw. inversion Rl as [|? ? Re _]; subst. cbn [fst snd] in Re.
    assert (N : (forall received, task_get cl j (tasks st) = TReading received -> inputs j [(j, e, (w, ho))] = []) ->
                ok_from s0 L st (evs ++ [(j, e, (w, ho))]) st).
    { intro N. eapply same_ok; eauto. apply ok_more; auto. }
    assert (In0 : forall e', (forall x, e' <> TInput x) -> inputs j [(j, e', (w, ho))] = []).
    { intros e' Ne. unfold inputs. rewrite own_same. cbn [flat_map snd fst]. destruct e'; try reflexivity. exfalso. eapply Ne; reflexivity. }
    pose proof (K j) as Kj. cbn [tasks_step].
    destruct (task_get cl j (tasks st)) as [rec|jb|sent rest|sent|] eqn:Eg.
    + destruct e as [e| | |]; try (apply N; intros; apply In0; congruence).
      eapply put_ok; eauto. apply input_step; auto. congruence.
    + destruct e as [e| | |]; try (apply N; congruence).
      destruct (job_step ft cl handle w ho [j] (tshared st) jb) as [s' x] eqn:Ej.
      destruct Kj as (r & Er & J). destruct (job_step_ok r _ jb _ _ _ _ _ _ Cw J Ej) as [(out & -> & ->)|[(j' & -> & J')|(-> & rq & h & vars & left & res & res1 & -> & P & M & Eh)]].
      * eapply put_ok; eauto. exists r, jb, w, ho, (tshared st), (tshared st).
        split; [apply rr_more; auto; discriminate|]. split; auto. split; [apply in_or_app; right; left; auto|exact Ej].
      * exists [(j, (tshared st, s'))]. cbn [tshared tasks]. split; [intros i [<-|[]]; exists jb; exact Eg|]. split; [apply linked_snoc; auto|].
        intro i. rewrite task_get_set, calls_on_snoc. rewrite (Nat.eqb_sym j i). destruct (Nat.eqb_spec i j) as [->|Nij].
        -- exists r. split; auto. apply rr_more; auto; discriminate.
        -- apply ok_more; auto. intros _ _. unfold inputs. rewrite own_other by auto. reflexivity.
      * exists [(j, (tshared st, s'))]. cbn [tshared tasks]. split; [intros i [<-|[]]; exists jb; exact Eg|]. split; [apply linked_snoc; auto|].
        intro i. rewrite task_get_set, calls_on_snoc. rewrite (Nat.eqb_sym j i). destruct (Nat.eqb_spec i j) as [->|Nij].
        -- right. exists rq, (calls_on j L), h, vars, left, res, (tshared st), s', res1.
           split; [apply rr_more; auto; discriminate|]. auto.
        -- apply ok_more; auto. intros _ _. unfold inputs. rewrite own_other by auto. reflexivity.
    + destruct e as [e| |n|]; try (apply N; congruence).
      * eapply put_ok; eauto. destruct (Nat.eqb n 0 || Nat.leb (length rest) n) eqn:En.
        -- exists (skipn n rest). rewrite <- app_assoc, firstn_skipn. split; [apply sent_more; exact Kj|].
           intro W. apply orb_true_iff in En as [En|En].
           ++ apply Nat.eqb_eq in En. subst n. destruct (W (TAccept 0) (w, ho)) as [_ []]; auto. apply in_or_app; right; left; auto.
           ++ apply Nat.leb_le in En. apply skipn_all2. exact En.
        -- cbn [task_ok]. rewrite <- app_assoc, firstn_skipn. apply sent_more. exact Kj.
      * eapply put_ok; eauto. exists rest. split; [apply sent_more; exact Kj|].
        intro W. destruct (W TWriteError (w, ho)) as [[] _]; auto. apply in_or_app; right; left; auto.
    + destruct e; apply N; congruence.
    + destruct e; apply N; congruence.
Qed.
Theorem tasks_ok s0 evs : real_inputs evs -> Forall (fun ev => clock (fst (snd ev)) <> None) evs ->
  all_ok s0 evs (runs (TasksState s0 []) evs).
Proof.
  induction evs as [|ev evs IH] using rev_ind; intros R C.
  - exists []. split; [reflexivity|]. intro i. cbn. auto.
  - pose proof R as R'. pose proof C as C'. apply Forall_app in R' as [R' _]. apply Forall_app in C' as [C' _].
    destruct (IH R' C') as (L & HL & K). unfold tasks_run in *. rewrite fold_left_app. cbn [fold_left].
    destruct (step_ok s0 evs ev L _ R C HL K) as (L2 & _ & HL2 & K2). exists (L ++ L2). split; auto.
Qed.

(** ** Against the specification *)
Lemma wanted_chosen rq : rl_method (rq_line rq) <> MAll -> chosen ft cl app rq (wanted rq).
Proof. intro M. exact (calls_of_spec ft (rl_method (rq_line rq)) (rl_path (rq_line rq)) (flatten app) M). Qed.
Lemma passes_admitted t rq : real_segments t -> rr t = IoDone (RdRequest rq) -> passes rq ->
  admitted ft cl (stream_of t) rq.
Proof.
  intros R E [P1 P2]. pose proof (read_request_cases ft cl t R) as X. rewrite E in X.
  destruct X as (rl & hs & cs & body & Cs & Ri). pose proof Ri as (El & _ & _ & G & _). rewrite El in *.
  exists rl, hs, cs, body. split; auto. split; [|split; auto].
  - intro L. apply (host_check _ _ hs G) in L. congruence.
  - intro Y. rewrite Y in P2. discriminate.
Qed.
Lemma refuse_refused t r code : real_segments t -> rr t = IoDone r ->
  job_of ft cl rt r = Done (Refuse code) -> (code = StBadRequest /\ refused ft cl (stream_of t) (fin t) (B "400") (B "BAD REQUEST")) \/
    (code = StNotImplemented /\ refused ft cl (stream_of t) (fin t) (B "501") (B "NOT IMPLEMENTED")).
Proof.
  intros R E J. pose proof (read_request_cases ft cl t R) as X. rewrite E in X. destruct r as [|rq]; cbn [job_of] in J.
  - injection J as <-. left. split; auto. apply rf_bad. exact X.
  - destruct X as (rl & hs & cs & body & Cs & Ri). pose proof Ri as (El & _ & _ & G & _). rewrite El in *.
    destruct (err_bad_request _) eqn:Eh.
    + injection J as <-. left. split; auto. eapply rf_host; eauto. apply (host_check _ _ hs G). exact Eh.
    + destruct (method_is_some (rl_method rl)) eqn:Em.
      * destruct (run_matches _ _ _ _); discriminate.
      * injection J as <-. right. split; auto. eapply rf_method; eauto.
        -- intro L. apply (host_check _ _ hs G) in L. congruence.
        -- destruct (rl_method rl); auto; discriminate.
Qed.
Lemma sent_story i evs L out : let t := input_of (inputs i evs) in
  real_segments t -> Forall (fun ev => clock (fst (snd ev)) <> None) evs ->
  sent_ok i evs t L out -> story ft cl handle (fun w ho => In (i, TRun, (w, ho)) evs) [i] app (stream_of t) (fin t) L (Answering out).
Proof.
  intros t R C (r & j & w & ho & s & s' & E & J & I & Ej).
  assert (Cw : clock w <> None) by (rewrite Forall_forall in C; exact (C _ I)).
  destruct j as [code|rq k Ms ix res].
  - destruct J as [J ->]. cbn [job_step] in Ej. injection Ej as <- Ej.
    destruct (refuse_refused t r code R E J) as [[-> F]|[-> F]].
    + destruct (send_400 (cl := cl) ft w ho [i] Cw) as (out' & Eo & A). rewrite Eo in Ej. injection Ej as <-. eapply st_refused; eauto.
    + destruct (send_501 (cl := cl) ft w ho [i] Cw) as (out' & Eo & A). rewrite Eo in Ej. injection Ej as <-. eapply st_refused; eauto.
  - destruct J as (-> & P & S & -> & Hi & M0). pose proof (passes_admitted t rq R E P) as Ad.
    pose proof (wanted_chosen rq (read_method _ _ E)) as Ch.
    destruct S as [|x0 S].
    + cbn [length job_step] in Ej. injection Ej as <- Ej. cbn [map] in M0. unfold has_body in Ej.
      destruct (rs_body res) eqn:Bd; cbn [body_is_some negb] in Ej.
      * destruct (send_404 (cl := cl) ft w ho [i] Cw) as (out' & Eo & A). rewrite Eo in Ej. injection Ej as <-. eapply st_not_found; eauto.
      * injection Ej as <-. eapply (st_answer ft cl handle (fun w ho => In (i, TRun, (w, ho)) evs)); eauto. congruence.
      * injection Ej as <-. eapply (st_answer ft cl handle (fun w ho => In (i, TRun, (w, ho)) evs)); eauto. congruence.
    + destruct Hi as [?|Hi]; [discriminate|]. destruct (loop_step x0 S Ms ix Hi) as (v & n & E1 & E2 & E3 & HI').
      cbn [length job_step] in Ej. rewrite E1, E2, E3 in Ej.
      destruct (handle _ _ (s, res)) as [[s1 res1] [f|]]; discriminate.
Qed.
Lemma ok_told evs i L k : real_inputs evs -> Forall (fun ev => clock (fst (snd ev)) <> None) evs ->
  task_ok i evs L k -> told ft cl handle app i evs L k.
Proof.
  intros R C K.
  pose proof (inputs_real i evs R) as Rr. pose proof (read_request_cases ft cl _ Rr) as X.
  destruct k as [rec|j|sent rest|sent|]; cbn [told task_ok] in *.
  - destruct K as (-> & Ef & -> & E). split; auto. rewrite E in X. apply st_waits. exact X.
  - destruct K as (r & E & J). destruct j as [code|rq k Ms ix res].
    + destruct J as [J ->]. destruct (refuse_refused _ r code Rr E J) as [[-> F]|[-> F]]; eapply st_refusing; eauto.
    + destruct J as (-> & P & S & -> & Hi & M0). eapply st_working; eauto.
      * eapply passes_admitted; eauto.
      * apply wanted_chosen. eapply read_method; eauto.
  - apply sent_story; auto.
  - destruct K as (rest & K & W). exists rest. split; auto. apply sent_story; auto.
  - destruct K as [[E ->]|(rq & L1 & h & vars & left & res & s & s1 & res1 & E & P & M0 & Eh & ->)].
    + rewrite E in X. destruct X; [apply st_dies|apply st_huge]; auto.
    + eapply st_panics; eauto.
      * eapply passes_admitted; eauto.
      * apply wanted_chosen. eapply read_method; eauto.
Qed.
Theorem tasks_told s0 evs : real_inputs evs -> Forall (fun ev => clock (fst (snd ev)) <> None) evs ->
  exists L, linked s0 L (tshared (runs (TasksState s0 []) evs)) /\
    forall i, told ft cl handle app i evs (calls_on i L) (task_get cl i (tasks (runs (TasksState s0 []) evs))).
Proof.
  intros R C. destruct (tasks_ok s0 evs R C) as (L & HL & K). exists L. split; auto. intro i. apply ok_told; auto.
Qed.
End Inv.

(** ** Shared state *)
Lemma job_step_inv (I : ST -> Prop) w ho pos s j : keeps I handle -> I s -> I (fst (job_step ft cl handle w ho pos s j)).
Proof.
  intros K Is. destruct j as [code|rq [|k] M ix res]; cbn [job_step fst]; auto.
  destruct (nth_error M _) as [v|]; auto. destruct (nth_error ix _) as [n|]; auto. destruct (nth_error v n) as [mp|]; auto.
  pose proof (K (closure (mp_data mp)) (MatchedRequest rq (if url_variables ft then mp_vars mp else [])) s res Is) as K'.
  destruct (handle _ _ (s, res)) as [[s' res'] [f|]]; exact K'.
Qed.
Lemma step_inv (I : ST -> Prop) rt st ev : keeps I handle -> I (tshared st) -> I (tshared (tasks_step ft cl handle rt st ev)).
Proof.
  intros K Is. destruct ev as [[i e] [w ho]]. cbn [tasks_step].
  destruct (task_get cl i (tasks st)) as [rec|j|sent rest|sent|]; destruct e; auto.
  pose proof (job_step_inv I w ho [i] (tshared st) j K Is) as X.
  destruct (job_step ft cl handle w ho [i] (tshared st) j) as [s' r]. exact X.
Qed.
Theorem tasks_inv (I : ST -> Prop) rt evs : keeps I handle -> forall st, I (tshared st) -> I (tshared (tasks_run ft cl handle rt st evs)).
Proof.
  intro K. unfold tasks_run. induction evs as [|ev evs IH]; intros st Is; auto. cbn [fold_left]. apply IH. apply step_inv; auto.
Qed.
Lemma tasks_step_other rt st j e x i : i <> j -> task_get cl i (tasks (tasks_step ft cl handle rt st (j, e, x))) = task_get cl i (tasks st).
Proof.
  intro N. apply Nat.eqb_neq in N. destruct x as [w ho]. cbn [tasks_step].
  destruct (task_get cl j (tasks st)) as [rec|jb|sent rest|sent|]; destruct e; auto; cbn [tasks]; rewrite ?task_get_set, ?N; auto.
  destruct (job_step ft cl handle w ho [j] (tshared st) jb) as [s' r]. cbn [tasks]. rewrite task_get_set, N. reflexivity.
Qed.
Lemma tasks_step_own rt st st' i e x : task_get cl i (tasks st) = task_get cl i (tasks st') -> tshared st = tshared st' ->
  task_get cl i (tasks (tasks_step ft cl handle rt st (i, e, x))) = task_get cl i (tasks (tasks_step ft cl handle rt st' (i, e, x))).
Proof.
  intros Ec Es. destruct x as [w ho]. cbn [tasks_step]. rewrite <- Ec, <- Es.
  destruct (task_get cl i (tasks st)) as [rec|jb|sent rest|sent|] eqn:Eg; destruct e; cbn [tasks]; rewrite ?task_get_set, ?Nat.eqb_refl; try congruence.
  destruct (job_step ft cl handle w ho [i] (tshared st) jb) as [s' r]. cbn [tasks]. rewrite !task_get_set, Nat.eqb_refl. reflexivity.
Qed.
Theorem tasks_independent rt evs i : read_only handle -> forall st,
  task_get cl i (tasks (tasks_run ft cl handle rt st evs)) = task_get cl i (tasks (tasks_run ft cl handle rt st (own_events i evs))).
Proof.
  intros K st. assert (X : forall st', task_get cl i (tasks st) = task_get cl i (tasks st') -> tshared st = tshared st' ->
     task_get cl i (tasks (tasks_run ft cl handle rt st evs)) = task_get cl i (tasks (tasks_run ft cl handle rt st' (own_events i evs)))); [|apply X; auto].
  assert (S : forall st ev, tshared (tasks_step ft cl handle rt st ev) = tshared st).
  { intros st0 ev. apply (step_inv (fun s => s = tshared st0)); auto. apply read_only_keeps. exact K. }
  unfold tasks_run, own_events. revert st. induction evs as [|[[j e] x] evs IH]; intros st st' Ec Es; auto.
  cbn [fold_left filter]. unfold on_task at 1. cbn [fst]. destruct (Nat.eqb_spec j i) as [->|N].
  - cbn [fold_left]. apply IH; [apply tasks_step_own; auto|]. rewrite !S. exact Es.
  - apply IH; [rewrite tasks_step_other by auto; exact Ec|]. rewrite S. exact Es.
Qed.

(** ** Progress *)
Definition weight (j : job cl (H := H)) : nat := match j with Refuse _ => 0 | Dispatch _ k _ _ _ => k end.
Lemma job_step_weight w ho pos s j s' j' : job_step ft cl handle w ho pos s j = (s', JMore j') -> weight j' < weight j.
Proof.
  destruct j as [code|rq [|k] M ix res]; cbn [job_step weight].
  - destruct (error_send _ _ _ _ _); discriminate.
  - intro E. injection E as _ E. destruct (negb _); [destruct (error_send _ _ _ _ _)|]; discriminate.
  - destruct (nth_error M _) as [v|]; [|discriminate]. destruct (nth_error ix _) as [n|]; [|discriminate]. destruct (nth_error v n) as [mp|]; [|discriminate].
    destruct (handle _ _ (s, res)) as [[s1 res'] [f|]]; [|discriminate]. intro E. injection E as _ <-. cbn [weight].
    destruct (should_continue f); lia.
Qed.
Definition working (k : task cl (H := H)) : Prop := exists j, k = TWorking j.
Definition begun (k : task cl (H := H)) : Prop := forall rec, k <> TReading rec.
Lemma step_begun rt st ev i : begun (task_get cl i (tasks st)) ->
  begun (task_get cl i (tasks (tasks_step ft cl handle rt st ev))) /\
  forall j', task_get cl i (tasks (tasks_step ft cl handle rt st ev)) = TWorking j' ->
    exists j, task_get cl i (tasks st) = TWorking j /\ weight j' <= weight j /\
      (fst ev = (i, TRun) -> weight j' < weight j).
Proof.
  intro Bg. destruct ev as [[n e] x]. destruct (Nat.eqb_spec n i) as [->|N].
  2:{ rewrite tasks_step_other by auto. split; auto. intros j' E. exists j'. split; auto. split; auto. cbn [fst]. congruence. }
  destruct x as [w ho]. cbn [tasks_step]. destruct (task_get cl i (tasks st)) as [rec|jb|sent rest|sent|] eqn:Eg.
  - exfalso. eapply Bg; reflexivity.
  - assert (Same : e <> TRun -> begun (task_get cl i (tasks st)) /\ forall j', task_get cl i (tasks st) = TWorking j' ->
      exists j, TWorking jb = TWorking j /\ weight j' <= weight j /\ (fst (i, e, (w, ho)) = (i, TRun) -> weight j' < weight j)).
    { intro Ne. split; [rewrite Eg; auto|]. intros j' E. rewrite Eg in E. injection E as <-. exists jb. split; auto. split; auto. cbn [fst]. congruence. }
    destruct e; try (apply Same; discriminate). clear Same.
    destruct (job_step ft cl handle w ho [i] (tshared st) jb) as [s' r] eqn:Ej. cbn [tasks]. rewrite task_get_set, Nat.eqb_refl.
    destruct r as [j1|out|]; (split; [intros rec; discriminate|]); intros j' E; try discriminate. injection E as <-.
    apply job_step_weight in Ej. exists jb. split; auto. split; [lia|auto].
  - destruct e as [e| |n|]; cbn [tasks]; rewrite ?task_get_set, ?Nat.eqb_refl, ?Eg; (split; [intro rec; try discriminate|intros j' E; try discriminate]).
    + destruct (_ || _); discriminate.
    + destruct (_ || _); discriminate.
  - destruct e; cbn [tasks]; rewrite Eg; (split; [intro rec; discriminate|intros j' E; discriminate]).
  - destruct e; cbn [tasks]; rewrite Eg; (split; [intro rec; discriminate|intros j' E; discriminate]).
Qed.
Lemma run_finishes rt evs i : forall st j, task_get cl i (tasks st) = TWorking j -> weight j < runs_of i evs ->
  ~ working (task_get cl i (tasks (tasks_run ft cl handle rt st evs))).
Proof.
  assert (X : forall evs st, begun (task_get cl i (tasks st)) ->
    (forall j, task_get cl i (tasks st) = TWorking j -> weight j < runs_of i evs) ->
    ~ working (task_get cl i (tasks (tasks_run ft cl handle rt st evs)))).
  { clear evs. unfold tasks_run. induction evs as [|ev evs IH]; intros st Bg W.
    - intros [j E]. cbn [fold_left] in E. apply W in E. cbn in E. lia.
    - cbn [fold_left]. destruct (step_begun rt st ev i Bg) as [Bg' W']. apply IH; auto. intros j' E.
      destruct (W' j' E) as (j & Ej & Le & Lt). apply W in Ej. destruct ev as [[n e] x]. cbn [fst] in Lt.
      unfold runs_of, own_events in *. cbn [filter] in Ej. unfold on_task at 1 in Ej. cbn [fst] in Ej.
      destruct (Nat.eqb_spec n i) as [->|N]; [|lia]. cbn [filter snd fst] in Ej.
      destruct e; try lia. cbn [length] in Ej. specialize (Lt eq_refl). lia. }
  intros st j E Lt. apply X.
  - intros rec. congruence.
  - intros j' E'. congruence.
Qed.
Lemma made_left rq calls r log left r' : made rq calls r log left r' -> length left <= length calls.
Proof. induction 1; cbn [length] in *; lia. Qed.
Lemma calls_of_length m path (l : list (rreg H)) : length (calls_of ft m path l) <= length l.
Proof.
  induction l as [|c l IH]; [auto|]. change (calls_of ft m path (c :: l)) with (calls_of ft m path ([c] ++ l)).
  rewrite calls_of_app, app_length. cbn [length]. assert (length (calls_of ft m path [c]) <= 1); [|lia].
  destruct c as [v p h|h]; cbn; auto. destruct (path_parse p); cbn; auto. destruct (_ && _); cbn; auto.
Qed.
Theorem tasks_finish o app rt s0 evs1 evs2 i : (N.of_nat (length (flatten app)) <= USIZE_MAX)%N -> build o app = Done rt ->
  real_inputs evs1 -> Forall (fun ev => clock (fst (snd ev)) <> None) evs1 ->
  working (task_get cl i (tasks (tasks_run ft cl handle rt (TasksState s0 []) evs1))) ->
  length (flatten app) < runs_of i evs2 ->
  ~ working (task_get cl i (tasks (tasks_run ft cl handle rt (TasksState s0 []) (evs1 ++ evs2)))).
Proof.
  intros HB Eb R C [j E] Lt. destruct (tasks_ok o app rt HB Eb s0 evs1 R C) as (L & _ & K). specialize (K i). rewrite E in K.
  unfold tasks_run. rewrite fold_left_app. apply (run_finishes rt evs2 i _ j E).
  destruct K as (r & _ & J). destruct j as [code|rq k M ix res]; cbn [weight]; [lia|].
  destruct J as (-> & _ & S & -> & _ & M0). apply made_left in M0. rewrite map_length in M0.
  unfold wanted in M0. pose proof (calls_of_length (rl_method (rq_line rq)) (rl_path (rq_line rq)) (flatten app)). lia.
Qed.
(** What was sent and what is to be sent make up the answer at all times. *)
Lemma delivered_prefix rt evs i : forall (st : tasks_state cl (ST := ST)) sent rest, 
  task_get cl i (tasks st) = TSending sent rest \/ task_get cl i (tasks st) = TClosed sent ->
  exists sent' rest', sent' ++ rest' = sent ++ rest /\ (exists more, sent' = sent ++ more) /\
    (task_get cl i (tasks (tasks_run ft cl handle rt st evs)) = TSending sent' rest' \/
     task_get cl i (tasks (tasks_run ft cl handle rt st evs)) = TClosed sent').
Proof.
  unfold tasks_run. induction evs as [|[[n e] [w ho]] evs IH]; intros st sent rest E.
  - exists sent, rest. split; auto. split; [exists []; rewrite app_nil_r; auto|exact E].
  - cbn [fold_left]. destruct (Nat.eqb_spec n i) as [->|N].
    2:{ apply IH. rewrite tasks_step_other by auto. exact E. }
    cbn [tasks_step]. destruct E as [E|E]; rewrite E; [|apply IH; destruct e; auto].
    destruct e as [e| |k|]; try (apply IH; auto; fail).
    + edestruct (IH (TasksState (tshared st) (mset Nat.eqb i (if Nat.eqb k 0 || Nat.leb (length rest) k then TClosed (sent ++ firstn k rest) else TSending (sent ++ firstn k rest) (skipn k rest)) (tasks st))) (sent ++ firstn k rest) (skipn k rest)) as (s' & r' & A & (m & M) & C).
      { cbn [tasks]. rewrite task_get_set, Nat.eqb_refl. destruct (_ || _); auto. }
      exists s', r'. split; [rewrite A, <- app_assoc, firstn_skipn; reflexivity|].
      split; [exists (firstn k rest ++ m); rewrite M, <- app_assoc; reflexivity|exact C].
    + apply IH. cbn [tasks]. rewrite task_get_set, Nat.eqb_refl. auto.
Qed.
Lemma delivered rt evs i : forall st sent rest, task_get cl i (tasks st) = TSending sent rest ->
  writes_succeed i evs -> 0 < length rest <= room_of i evs ->
  task_get cl i (tasks (tasks_run ft cl handle rt st evs)) = TClosed (sent ++ rest).
Proof.
  unfold tasks_run. induction evs as [|[[n e] x] evs IH]; intros st sent rest E W Hr.
  - cbn in Hr. lia.
  - cbn [fold_left]. assert (W' : writes_succeed i evs) by (intros e' x' I'; apply (W e' x'); right; auto).
    unfold room_of, own_events in Hr. cbn [filter] in Hr. unfold on_task at 1 in Hr. cbn [fst] in Hr.
    destruct (Nat.eqb_spec n i) as [->|N].
    2:{ apply IH; auto. rewrite tasks_step_other by auto. exact E. }
    cbn [map list_sum fold_right snd fst] in Hr. fold (list_sum (map (fun ev : nat * task_event * (world * order) => match snd (fst ev) with TAccept n => n | _ => 0 end) (filter (on_task i) evs))) in Hr.
    assert (D : forall evs st s, task_get cl i (tasks st) = TClosed s -> task_get cl i (tasks (fold_left (tasks_step ft cl handle rt) evs st)) = TClosed s).
    { clear. induction evs as [|[[n e] [w ho]] evs IH]; intros st s E; auto. cbn [fold_left]. apply IH.
      destruct (Nat.eqb_spec n i) as [->|N]; [|rewrite tasks_step_other by auto; auto].
      cbn [tasks_step]. rewrite E. destruct e; exact E. }
    destruct (W e x) as [We W0]; [left; auto|]. destruct x as [w ho].
    destruct e as [e| |k|]; cbn [tasks_step]; rewrite E; try congruence.
    + apply IH; auto.
    + apply IH; auto.
    + assert (Nk : k <> 0) by congruence. apply Nat.eqb_neq in Nk. rewrite Nk. cbn [orb].
      destruct (Nat.leb (length rest) k) eqn:Ek.
      * apply D. cbn [tasks]. rewrite task_get_set, Nat.eqb_refl. apply Nat.leb_le in Ek. rewrite (firstn_all2 rest) by auto. reflexivity.
      * apply Nat.leb_gt in Ek. rewrite (IH _ (sent ++ firstn k rest) (skipn k rest)); auto.
        -- rewrite <- app_assoc, firstn_skipn. reflexivity.
        -- cbn [tasks]. rewrite task_get_set, Nat.eqb_refl. reflexivity.
        -- rewrite skipn_length. unfold room_of, own_events. lia.
Qed.

(** ** One task alone *)
Lemma settled rt i x n : forall st, (forall received, task_get cl i (tasks st) <> TReading received) -> (forall j, task_get cl i (tasks st) <> TWorking j) ->
  tasks_run ft cl handle rt st (repeat (i, TRun, x) n) = st.
Proof.
  unfold tasks_run. induction n as [|n IH]; intros st N1 N2; auto. cbn [repeat fold_left].
  assert (E : tasks_step ft cl handle rt st (i, TRun, x) = st); [|rewrite E; apply IH; auto].
  destruct x as [w ho]. cbn [tasks_step]. destruct (task_get cl i (tasks st)); auto. exfalso; eapply N2; reflexivity.
Qed.
Definition ends_as (c : conn_state) : task cl (H := H) :=
  match c with Running received => TReading received | Answered out => TSending [] out | Crashed => TCrashed end.
Lemma reading_alone rt i x n : forall st received, task_get cl i (tasks st) = TReading received ->
  tasks_run ft cl handle rt st (repeat (i, TRun, x) n) = st.
Proof.
  unfold tasks_run. induction n as [|n IH]; intros st rec E; auto. cbn [repeat fold_left].
  assert (E1 : tasks_step ft cl handle rt st (i, TRun, x) = st); [|rewrite E1; eapply IH; eauto].
  destruct x as [w ho]. cbn [tasks_step]. rewrite E. reflexivity.
Qed.
Lemma dispatch_alone rt i w ho rq M : forall k ix res st n, task_get cl i (tasks st) = TWorking (Dispatch rq k M ix res) -> k < n ->
  let st' := tasks_run ft cl handle rt st (repeat (i, TRun, (w, ho)) n) in
  let '((s', res'), r) := run_loop (fun h vars => handle h (MatchedRequest rq vars)) ft k M ix (tshared st, res) in
  tshared st' = s' /\
  task_get cl i (tasks st') = ends_as (match r with
    | Panic => Crashed
    | Done _ => match (if negb (has_body res') then error_send ft w ho [i] StNotFound (cl := cl) else Done (octane_send (get_data ft w ho [i] res'))) with
                | Done out => Answered out | Panic => Crashed end
    end).
Proof.
  unfold tasks_run. induction k as [|k IH]; intros ix res st n E Lt; (destruct n as [|n]; [lia|]); cbn [repeat fold_left run_loop].
  - set (st1 := tasks_step _ _ _ _ _ _). cbn zeta.
    assert (E1 : tshared st1 = tshared st /\ task_get cl i (tasks st1) = ends_as
       match (if negb (has_body res) then error_send ft w ho [i] StNotFound (cl := cl) else Done (octane_send (get_data ft w ho [i] res))) with
                | Done out => Answered out | Panic => Crashed end).
    { unfold st1. cbn [tasks_step]. rewrite E. cbn [job_step tshared tasks]. rewrite task_get_set, Nat.eqb_refl. split; auto.
      destruct (if negb (has_body res) then _ else _); reflexivity. }
    destruct E1 as [E1 E2]. pose proof (settled rt i (w, ho) n st1) as St. unfold tasks_run in St. rewrite St; auto.
    + rewrite E2. intros rec. destruct (if negb (has_body res) then _ else _); discriminate.
    + rewrite E2. intros rec. destruct (if negb (has_body res) then _ else _); discriminate.
  - cbv zeta. set (mi := find_min _ _ _ _).
    assert (Pan : forall s', tasks_step ft cl handle rt st (i, TRun, (w, ho)) = TasksState s' (mset Nat.eqb i TCrashed (tasks st)) ->
      let st' := fold_left (tasks_step ft cl handle rt) (repeat (i, TRun, (w, ho)) n) (tasks_step ft cl handle rt st (i, TRun, (w, ho))) in
      tshared st' = s' /\ task_get cl i (tasks st') = TCrashed).
    { intros s' E1. cbv zeta. rewrite E1. pose proof (settled rt i (w, ho) n (TasksState s' (mset Nat.eqb i TCrashed (tasks st)))) as St.
      unfold tasks_run in St. rewrite St; cbn [tasks tshared]; rewrite task_get_set, Nat.eqb_refl; auto; discriminate. }
    assert (St : tasks_step ft cl handle rt st (i, TRun, (w, ho)) =
      let '(s', r) := job_step ft cl handle w ho [i] (tshared st) (Dispatch rq (S k) M ix res) in
      TasksState s' (mset Nat.eqb i match r with JMore j' => TWorking j' | JSend out => TSending [] out | JPanic => TCrashed end (tasks st))).
    { cbn [tasks_step]. rewrite E. reflexivity. }
    cbn [job_step] in St. fold mi in St.
    destruct (nth_error M mi) as [v|]; [|apply Pan; exact St]. destruct (nth_error ix mi) as [m|]; [|apply Pan; exact St].
    destruct (nth_error v m) as [mp|]; [|apply Pan; exact St].
    destruct (handle _ _ (tshared st, res)) as [[s1 res1] [f|]]; [|apply Pan; exact St].
    set (st1 := tasks_step _ _ _ _ _ _) in *.
    assert (Es1 : tshared st1 = s1) by (rewrite St; reflexivity).
    assert (Et1 : task_get cl i (tasks st1) = TWorking (Dispatch rq (if should_continue f then k else 0) M (incr_at mi ix) res1)).
    { rewrite St. cbn [tasks]. rewrite task_get_set, Nat.eqb_refl. reflexivity. }
    destruct (should_continue f).
    + specialize (IH (incr_at mi ix) res1 st1 n Et1 ltac:(lia)). rewrite Es1 in IH. exact IH.
    + clear IH. rewrite <- Es1. destruct n as [|n]; [lia|]. cbn [repeat fold_left].
      set (st2 := tasks_step _ _ _ _ _ _). cbv zeta.
      assert (E2 : tshared st2 = tshared st1 /\ task_get cl i (tasks st2) = ends_as
         match (if negb (has_body res1) then error_send ft w ho [i] StNotFound (cl := cl) else Done (octane_send (get_data ft w ho [i] res1))) with
                  | Done out => Answered out | Panic => Crashed end).
      { unfold st2. cbn [tasks_step]. rewrite Et1. cbn [job_step tshared tasks]. rewrite task_get_set, Nat.eqb_refl. split; auto.
        destruct (if negb (has_body res1) then _ else _); reflexivity. }
      destruct E2 as [E2 E3]. pose proof (settled rt i (w, ho) n st2) as S2. unfold tasks_run in S2. rewrite S2; auto.
      * rewrite E3. intros rec. destruct (if negb (has_body res1) then _ else _); discriminate.
      * rewrite E3. intros rec. destruct (if negb (has_body res1) then _ else _); discriminate.
Qed.
Theorem task_alone rt i e w ho st received : task_get cl i (tasks st) = TReading received ->
  exists n0, forall n, n0 <= n ->
    let st1 := tasks_run ft cl handle rt st ((i, TInput e, (w, ho)) :: repeat (i, TRun, (w, ho)) n) in
    let st2 := server_step ft cl handle rt (ServerState (tshared st) [(i, Running received)]) (i, e, (w, ho)) in
    tshared st1 = shared st2 /\ task_get cl i (tasks st1) = ends_as (conn_get i (conns st2)).
Proof.
  intro E. unfold tasks_run. cbn [fold_left].
  assert (S2 : server_step ft cl handle rt (ServerState (tshared st) [(i, Running received)]) (i, e, (w, ho)) =
    let '(received', r) := resume ft cl received e in
    match r with
    | IoBlocked => ServerState (tshared st) (mset Nat.eqb i (Running received') [(i, Running received)])
    | IoPanic | IoFuel => ServerState (tshared st) (mset Nat.eqb i Crashed [(i, Running received)])
    | IoDone r => let '(s', o) := respond ft cl handle w ho [i] rt (tshared st) r in
              ServerState s' (mset Nat.eqb i match o with Done out => Answered out | Panic => Crashed end [(i, Running received)])
    end).
  { cbn [server_step conns shared]. unfold conn_get. cbn [mget]. rewrite Nat.eqb_refl. reflexivity. }
  rewrite S2. clear S2.
  set (st1 := tasks_step ft cl handle rt st (i, TInput e, (w, ho))).
  assert (Es : tshared st1 = tshared st) by (unfold st1; cbn [tasks_step]; rewrite E; reflexivity).
  assert (Et : task_get cl i (tasks st1) = task_input ft cl rt received e).
  { unfold st1. cbn [tasks_step]. rewrite E. cbn [tasks]. rewrite task_get_set, Nat.eqb_refl. reflexivity. }
  unfold task_input in Et. destruct (resume ft cl received e) as [rec' [r| | |]] eqn:Er; cbn [shared conns].
  - assert (Fin : forall s' c, respond ft cl handle w ho [i] rt (tshared st) r = (s', c) ->
       (exists n0, forall n, n0 <= n -> let st' := tasks_run ft cl handle rt st1 (repeat (i, TRun, (w, ho)) n) in
          tshared st' = s' /\ task_get cl i (tasks st') = ends_as match c with Done out => Answered out | Panic => Crashed end) ->
       exists n0, forall n, n0 <= n -> let st1' := fold_left (tasks_step ft cl handle rt) (repeat (i, TRun, (w, ho)) n) st1 in
         let st2 := let '(s', o) := respond ft cl handle w ho [i] rt (tshared st) r in
              ServerState s' (mset Nat.eqb i match o with Done out => Answered out | Panic => Crashed end [(i, Running received)]) in
         tshared st1' = shared st2 /\ task_get cl i (tasks st1') = ends_as (conn_get i (conns st2))).
    { intros s' c Ec (n0 & F). exists n0. intros n Hn. rewrite Ec. cbn [shared conns]. rewrite conn_get_set, Nat.eqb_refl. apply F. exact Hn. }
    assert (Ref : forall code, job_of ft cl rt r = Done (Refuse code) -> exists n0, forall n, n0 <= n ->
       let st' := tasks_run ft cl handle rt st1 (repeat (i, TRun, (w, ho)) n) in
       tshared st' = tshared st /\ task_get cl i (tasks st') = ends_as match error_send ft w ho [i] code (cl := cl) with Done out => Answered out | Panic => Crashed end).
    { intros code Ej. rewrite Ej in Et. exists 1. intros [|n] Hn; [lia|]. unfold tasks_run. cbn [repeat fold_left]. set (st2 := tasks_step _ _ _ _ _ _).
      assert (E2 : tshared st2 = tshared st /\ task_get cl i (tasks st2) = ends_as match error_send ft w ho [i] code (cl := cl) with Done out => Answered out | Panic => Crashed end).
      { unfold st2. cbn [tasks_step]. rewrite Et. cbn [job_step tshared tasks]. rewrite task_get_set, Nat.eqb_refl. split; auto.
        destruct (error_send _ _ _ _ _); reflexivity. }
      destruct E2 as [E2 E3]. pose proof (settled rt i (w, ho) n st2) as S2. unfold tasks_run in S2. cbv zeta. rewrite S2; auto.
      - rewrite E3. intros rec. destruct (error_send _ _ _ _ _); discriminate.
      - rewrite E3. intros rec. destruct (error_send _ _ _ _ _); discriminate. }
    destruct r as [|rq]; [eapply Fin; [reflexivity|apply Ref; reflexivity]|].
    cbn [job_of respond] in *. destruct (err_bad_request _); [eapply Fin; [reflexivity|apply Ref; reflexivity]|].
    destruct (method_is_some _); [|eapply Fin; [reflexivity|apply Ref; reflexivity]].
    clear Ref. unfold router_run in *. destruct (run_matches ft rt _ _) as [M|]; cbn [omap] in Et.
    + pose proof (dispatch_alone rt i w ho rq M (list_sum (map (@length _) M)) (repeat 0 (length M)) new_empty st1) as D. rewrite Es in D.
      destruct (run_loop _ ft _ M _ (tshared st, new_empty)) as [[s' res'] [u|]].
      * destruct (has_body res') eqn:Hb; cbn [negb] in *.
        -- eapply Fin; [reflexivity|]. exists (S (list_sum (map (@length _) M))). intros n Hn. specialize (D n Et ltac:(lia)). exact D.
        -- eapply Fin; [reflexivity|]. exists (S (list_sum (map (@length _) M))). intros n Hn. specialize (D n Et ltac:(lia)). exact D.
      * eapply Fin; [reflexivity|]. exists (S (list_sum (map (@length _) M))). intros n Hn. exact (D n Et ltac:(lia)).
    + eapply Fin; [reflexivity|]. exists 0. intros n _. cbv zeta. rewrite settled; [split; auto| |]; rewrite Et; discriminate.
  - exists 0. intros n _. cbv zeta. pose proof (settled rt i (w, ho) n st1) as S2. unfold tasks_run in S2. rewrite S2, Et, Es, conn_get_set, Nat.eqb_refl; auto; rewrite Et; discriminate.
  - exists 0. intros n _. cbv zeta. pose proof (reading_alone rt i (w, ho) n st1 _ Et) as S2. unfold tasks_run in S2. rewrite S2, Et, Es, conn_get_set, Nat.eqb_refl; auto.
  - exists 0. intros n _. cbv zeta. pose proof (settled rt i (w, ho) n st1) as S2. unfold tasks_run in S2. rewrite S2, Et, Es, conn_get_set, Nat.eqb_refl; auto; rewrite Et; discriminate.
Qed.
End Tasks.
