(** Lemmas behind Props/SwapProps.v: applications that can take each other's place. *)
From Verif.Spec Require Import Common PathSpec RouteSpec RoutingSpec TextSpec RequestSpec ResponseSpec ServerSpec TaskSpec AppSpec SwapSpec.
From Verif.Model Require Import RustStd Path Request Time Status Response Router Server Tasks Listen Whole.
From Verif.Proofs Require Export AppProofs MethodProofs TaskProofs.

Section Calls.
Context {H : Type}.
Notation same_calls_l := (Forall2 (same_call (H := H))).
Lemma same_sym (l l' : list (H * varmap)) : same_calls_l l l' -> same_calls_l l' l.
Proof. induction 1 as [|c c' l l' [E V]]; constructor; auto. split; [auto|intro n; symmetry; auto]. Qed.
Lemma same_trans (l l' l'' : list (H * varmap)) : same_calls_l l l' -> same_calls_l l' l'' -> same_calls_l l l''.
Proof.
  intro X. revert l''. induction X as [|c c' l l' [E V] X IH]; intros l'' Y; inversion Y as [|d d' k k' [E' V'] Z]; subst; constructor; auto.
  split; [congruence|intro n; rewrite V; auto].
Qed.
Lemma same_len (l l' : list (H * varmap)) : same_calls_l l l' -> length l = length l'.
Proof. induction 1; cbn [length]; auto. Qed.
Lemma selects_unique {A} (P : A -> Prop) l s s' : selects P l s -> selects P l s' -> s = s'.
Proof.
  intro X. revert s'. induction X as [|x l l' Px X IH|x l l' Px X IH]; intros s' Y; inversion Y; subst; auto; try contradiction.
  f_equal; auto.
Qed.
Lemma invokes_same wv path (c : rreg H) x y : invokes wv path c x -> invokes wv path c y -> same_call x y.
Proof.
  destruct c as [v p h|h]; cbn [invokes].
  - intros (E & pat & Pm & V) (E' & pat' & Pm' & V').
    assert (pat' = pat) as -> by (apply path_means_parse in Pm, Pm'; congruence).
    split; [congruence|]. intro n. destruct (mget seqb n (snd x)) as [a|] eqn:Ex.
    + apply V, V' in Ex. auto.
    + destruct (mget seqb n (snd y)) as [b|] eqn:Ey; auto. apply V', V in Ey. congruence.
  - intros -> ->. split; auto.
Qed.
Lemma calls_for_same wv m path (app : list (oreg H)) x y : calls_for wv m path app x -> calls_for wv m path app y -> same_calls_l x y.
Proof.
  intros (s & S & X) (s' & S' & Y). rewrite (selects_unique _ _ _ _ S' S) in Y. clear S S' s'. revert y Y.
  induction X as [|c x s xs I X IH]; intros y Y; inversion Y; subst; constructor; auto. eapply invokes_same; eauto.
Qed.
Lemma calls_of_for ft m path (app : list (oreg H)) : m <> MAll -> calls_for (url_variables ft) m path app (calls_of ft m path (flatten app)).
Proof. apply calls_of_spec. Qed.
Lemma inter_calls ft cl (app app' : list (oreg H)) m path : m <> MAll -> interchangeable ft cl app app' -> asked_for ft cl m path ->
  same_calls_l (calls_of ft m path (flatten app)) (calls_of ft m path (flatten app')).
Proof.
  intros Hm I A. destruct (I m path A) as (c & c' & C & C' & E).
  eapply same_trans; [eapply calls_for_same; [apply calls_of_for; auto|exact C]|].
  eapply same_trans; [exact E|]. eapply calls_for_same; [exact C'|apply calls_of_for; auto].
Qed.

(** Registrations with respelled paths. *)
Lemma respelled_applies wv m path (c c' : rreg H) : respelled c c' -> (applies wv m path c <-> applies wv m path c').
Proof.
  destruct c as [v p h|h], c' as [v' p' h'|h']; cbn [respelled applies]; try tauto. intros (-> & -> & E).
  split; intros (S & pat & P & R); (split; [auto|]; exists pat; split; [apply E; auto|auto]).
Qed.
Lemma respelled_invokes wv path (c c' : rreg H) x : respelled c c' -> invokes wv path c x -> invokes wv path c' x.
Proof.
  destruct c as [v p h|h], c' as [v' p' h'|h']; cbn [respelled invokes]; try tauto.
  - intros (-> & -> & E) (F & pat & P & R). split; auto. exists pat. split; [apply E; auto|auto].
  - intros ->. auto.
Qed.
Lemma respelled_selects wv m path (l l' sel : list (rreg H)) : Forall2 respelled l l' -> selects (applies wv m path) l sel ->
  exists sel', selects (applies wv m path) l' sel' /\ Forall2 respelled sel sel'.
Proof.
  intro F. revert sel. induction F as [|c c' l l' R F IH]; intros sel S; inversion S as [|x k k' Px S'|x k k' Px S']; subst.
  - exists []. split; constructor.
  - destruct (IH _ S') as (sel' & A & B'). exists (c' :: sel'). split; [apply sel_yes; auto|constructor; auto].
    apply (proj1 (respelled_applies wv m path c c' R)). exact Px.
  - destruct (IH _ S') as (sel' & A & B'). exists sel'. split; auto. apply sel_no; auto. intro P. apply Px. apply (proj2 (respelled_applies wv m path c c' R)). exact P.
Qed.
Theorem respelled_interchangeable ft cl (app app' : list (oreg H)) : Forall2 respelled (flatten app) (flatten app') -> interchangeable ft cl app app'.
Proof.
  intros F m path A.
  assert (Hm : m <> MAll) by (destruct A as (s & rl & hs & cs & body & C & _ & _ & -> & _); eapply carries_method; eauto).
  destruct (calls_of_for ft m path app Hm) as (sel & S & I). destruct (respelled_selects _ _ _ _ _ _ F S) as (sel' & S' & R).
  exists (calls_of ft m path (flatten app)), (calls_of ft m path (flatten app)). split; [exists sel; auto|]. split.
  - exists sel'. split; auto. clear - I R. revert sel' R. induction I; intros sel' R; inversion R; subst; constructor; auto.
    eapply respelled_invokes; eauto.
  - clear. induction (calls_of ft m path (flatten app)); constructor; auto. split; auto.
Qed.
End Calls.

(** ** Forward: programs of interchangeable applications look alike *)
Section Forward.
Context (ft : features) (cl : cookie_lib) {H ST : Type}
  (handle : H -> matched_request cl -> ST * response cl -> (ST * response cl) * outcome flow).
Context (o o' : order) (app app' : list (oreg H)) (rt rt' : router H).
Context (F : fits app) (F' : fits app') (E : build o app = Done rt) (E' : build o' app' = Done rt').
Context (I0 : interchangeable ft cl app app') (Lk : looks_up handle).

Definition job_alike (j j' : job cl (H := H)) : Prop :=
  match j, j' with
  | Refuse c, Refuse c' => c = c'
  | Dispatch rq k M ix res, Dispatch rq' k' M' ix' res' => rq = rq' /\ res = res' /\ k = k' /\
      (k = 0 \/ exists S S', k = length S /\ loop_inv S M ix /\ loop_inv S' M' ix' /\
         Forall2 same_call (map (call_of ft) S) (map (call_of ft) S'))
  | _, _ => False
  end.
Definition out_alike (x x' : job_result cl (H := H)) : Prop :=
  match x, x' with
  | JMore j, JMore j' => job_alike j j'
  | JSend out, JSend out' => out = out'
  | JPanic, JPanic => True
  | _, _ => False
  end.

Lemma job_of_alike t r : real_segments t -> read_request ft cl t = IoDone r ->
  exists j j', job_of ft cl rt r = Done j /\ job_of ft cl rt' r = Done j' /\ job_alike j j'.
Proof.
  intros R Er. pose proof (read_request_cases ft cl t R) as X. rewrite Er in X. destruct r as [|rq]; cbn [job_of].
  { do 2 eexists. repeat split. }
  destruct X as (rl & hs & cs & body & Ca & Ri). pose proof Ri as (El & _ & _ & G & _). rewrite El.
  destruct (err_bad_request _) eqn:Eh; [do 2 eexists; repeat split|].
  destruct (method_is_some (rl_method rl)) eqn:Em; [|do 2 eexists; repeat split].
  assert (A : asked_for ft cl (rl_method rl) (rl_path rl)).
  { exists (stream_of t), rl, hs, cs, body. split; auto. split; [|split; [destruct (rl_method rl); discriminate|split; auto]].
    intro L. apply (host_check _ _ hs G) in L. congruence. }
  assert (Hm : rl_method rl <> MAll) by (eapply carries_method; eauto).
  destruct (build_matches o app ft _ (rl_path rl) F Hm) as (r & M & S & Eb & Ems & Len & HI & Ec).
  destruct (build_matches o' app' ft _ (rl_path rl) F' Hm) as (r' & M' & S' & Eb' & Ems' & Len' & HI' & Ec').
  rewrite E in Eb. rewrite E' in Eb'. injection Eb as <-. injection Eb' as <-.
  pose proof (inter_calls ft cl app app' _ _ Hm I0 A) as Sc. rewrite <- Ec, <- Ec' in Sc.
  rewrite Ems, Ems'. cbn [omap]. do 2 eexists. split; [reflexivity|]. split; [reflexivity|]. cbn [job_alike].
  split; auto. split; auto. pose proof (same_len _ _ Sc) as Q. rewrite !map_length in Q. rewrite Len, Len'. split; [exact Q|].
  right. exists S, S'. repeat split; auto; try apply HI; try apply HI'.
Qed.

Lemma job_step_alike w ho pos s j j' : job_alike j j' ->
  fst (job_step ft cl handle w ho pos s j) = fst (job_step ft cl handle w ho pos s j') /\
  out_alike (snd (job_step ft cl handle w ho pos s j)) (snd (job_step ft cl handle w ho pos s j')).
Proof.
  destruct j as [c|rq k M ix res], j' as [c'|rq' k' M' ix' res']; cbn [job_alike]; try tauto.
  - intros <-. cbn [job_step fst snd]. split; auto. destruct (error_send _ _ _ _ _); cbn; auto.
  - intros (<- & <- & <- & [->|(S & S' & -> & HI & HI' & Sc)]).
    + cbn [job_step fst snd]. split; auto. destruct (if negb (has_body res) then _ else _); cbn; auto.
    + destruct S as [|x S].
      { cbn [length job_step fst snd]. split; auto. destruct (if negb (has_body res) then _ else _); cbn; auto. }
      destruct S' as [|x' S']; [inversion Sc|]. cbn [map] in Sc. inversion Sc as [|? ? ? ? [Eh Ev] Sc']; subst.
      destruct (loop_step x S M ix HI) as (v & i & E1 & E2 & E3 & HJ).
      destruct (loop_step x' S' M' ix' HI') as (v' & i' & E1' & E2' & E3' & HJ').
      cbn [length job_step]. rewrite E1, E2, E3, E1', E2', E3'. unfold call_of in Eh, Ev. cbn [fst snd] in Eh, Ev. rewrite <- Eh.
      rewrite (Lk _ rq _ _ (s, res) Ev).
      destruct (handle (closure (mp_data x)) _ (s, res)) as [[s1 res1] [f|]]; cbn [fst snd out_alike]; auto.
      split; auto. cbn [job_alike]. split; auto. split; auto. split; auto. destruct f; cbn [should_continue]; auto.
      right. exists S, S'. auto.
Qed.

Definition task_alike (t t' : task cl (H := H)) : Prop :=
  match t, t' with
  | TReading rec, TReading rec' => rec = rec' /\ Forall (fun s => s <> []) rec
  | TWorking j, TWorking j' => job_alike j j'
  | _, _ => tasks_alike t t'
  end.
Lemma task_alike_weak t t' : task_alike t t' -> tasks_alike t t'.
Proof. destruct t, t'; cbn; tauto. Qed.
Definition states_alike (st st' : tasks_state cl (H := H) (ST := ST)) : Prop :=
  tshared st = tshared st' /\ forall i, task_alike (task_get cl i (tasks st)) (task_get cl i (tasks st')).

Lemma input_alike rec e : Forall (fun s => s <> []) rec -> e <> Arrive [] -> task_alike (task_input ft cl rt rec e) (task_input ft cl rt' rec e).
Proof.
  intros Fr Ne. unfold task_input.
  assert (X : exists f, resume ft cl rec e = (segs f, read_request ft cl f) /\ real_segments f).
  { destruct e as [seg| |]; cbn [resume].
    - exists (Transport (rec ++ [seg]) Stall). split; auto. unfold real_segments. cbn [segs]. apply Forall_app. split; auto. constructor; auto. congruence.
    - exists (Transport rec Eof). split; auto.
    - exists (Transport rec Broken). split; auto. }
  destruct X as (f & -> & R). destruct (read_request ft cl f) as [r| | |] eqn:Er; try (cbn; auto; fail).
  destruct (job_of_alike f r R Er) as (j & j' & -> & -> & J). exact J.
Qed.
Lemma step_alike st st' i e x : e <> TInput (Arrive []) -> states_alike st st' ->
  states_alike (tasks_step ft cl handle rt st (i, e, x)) (tasks_step ft cl handle rt' st' (i, e, x)).
Proof.
  intros Ne (Es & Et). destruct x as [w ho]. cbn [tasks_step].
  assert (Put : forall s t t', task_alike t t' -> states_alike (TasksState s (mset Nat.eqb i t (tasks st))) (TasksState s (mset Nat.eqb i t' (tasks st')))).
  { intros s t t' A. split; auto. intro k. cbn [tasks]. rewrite !task_get_set. destruct (Nat.eqb k i); auto. }
  pose proof (Et i) as Ei. rewrite <- Es.
  destruct (task_get cl i (tasks st)) as [rec|j|sent rest|sent|], (task_get cl i (tasks st')) as [rec'|j'|sent' rest'|sent'|];
    cbn [task_alike tasks_alike] in Ei; try contradiction; destruct e as [e| |n|]; try (split; assumption).
  - destruct Ei as [<- Fr]. apply Put. apply input_alike; auto. congruence.
  - pose proof (job_step_alike w ho [i] (tshared st) j j' Ei) as [X Y].
    destruct (job_step ft cl handle w ho [i] (tshared st) j) as [s1 r1], (job_step ft cl handle w ho [i] (tshared st) j') as [s2 r2].
    cbn [fst snd] in X, Y. subst s2. apply Put. destruct r1, r2; cbn [out_alike] in Y; try contradiction; cbn; auto.
  - destruct Ei as [<- <-]. apply Put. destruct (_ || _)%bool; cbn; auto.
  - destruct Ei as [<- <-]. apply Put. cbn. auto.
Qed.

Definition progs_alike (st st' : program cl (H := H) (ST := ST)) : Prop :=
  pr_up st = pr_up st' /\ pr_plain st = pr_plain st' /\ pr_tls st = pr_tls st' /\ pr_links st = pr_links st' /\
  states_alike (pr_tasks st) (pr_tasks st').
Definition real_event (ev : prog_event) : Prop := forall i x, ev <> PrTask i (TInput (Arrive [])) x.
Lemma prog_step_alike st st' ev : real_event ev -> progs_alike st st' ->
  progs_alike (prog_step ft cl handle rt st ev) (prog_step ft cl handle rt' st' ev).
Proof.
  intros Rv (Eu & Ep & Etl & El & Es). destruct st as [u p t l k], st' as [u' p' t' l' k']. cbn [pr_up pr_plain pr_tls pr_links pr_tasks] in *.
  subst u' p' t' l'. unfold prog_step. cbn [pr_up pr_plain pr_tls pr_links pr_tasks].
  assert (Same : forall u p t l, progs_alike (Program u p t l k) (Program u p t l k')) by (intros; repeat split; auto; apply Es).
  destruct (negb u); [apply Same|]. destruct ev as [r|r|i ok|i e x|].
  - destruct p; try apply Same. destruct r as [i|]; [|apply Same]. unfold accept_plink, plink_get. cbn [pr_links pr_up pr_plain pr_tls pr_tasks].
    destruct (mget Nat.eqb i l); apply Same.
  - destruct t; try apply Same. destruct r as [i|]; [|apply Same]. unfold accept_plink, plink_get. cbn [pr_links pr_up pr_plain pr_tls pr_tasks].
    destruct (mget Nat.eqb i l); apply Same.
  - unfold plink_get. cbn [pr_links]. destruct (mget Nat.eqb i l) as [[]|]; apply Same.
  - unfold plink_get. cbn [pr_links]. destruct (mget Nat.eqb i l) as [[]|]; try apply Same.
    assert (Y : states_alike (tasks_step ft cl handle rt k (i, e, x)) (tasks_step ft cl handle rt' k' (i, e, x))).
    { apply step_alike; auto. intros ->. apply (Rv i x). reflexivity. }
    repeat split; auto; apply Y.
  - destruct p; apply Same.
Qed.
Theorem runs_alike evs : Forall real_event evs -> forall st st', progs_alike st st' ->
  progs_alike (prog_run ft cl handle rt st evs) (prog_run ft cl handle rt' st' evs).
Proof.
  unfold prog_run. induction 1 as [|ev evs Rv Fe IH]; intros st st' A; cbn [fold_left]; auto. apply IH. apply prog_step_alike; auto.
Qed.
End Forward.

Theorem interchangeable_programs ft cl (H ST : Type) (handle : H -> matched_request cl -> ST * response cl -> (ST * response cl) * outcome flow)
    o o' app app' (rt rt' : router H) tl f c os_tls os port s evs :
  fits app -> fits app' -> build o app = Done rt -> build o' app' = Done rt' ->
  interchangeable ft cl app app' -> looks_up handle ->
  (forall i x, ~ In (PrTask i (TInput (Arrive [])) x) evs) ->
  programs_alike (prog_run ft cl handle rt (prog_start cl tl f c os_tls os port s) evs)
                 (prog_run ft cl handle rt' (prog_start cl tl f c os_tls os port s) evs).
Proof.
  intros F F' E E' I Lk R.
  assert (Fe : Forall real_event evs) by (apply Forall_forall; intros ev Iv i x ->; eapply R; eauto).
  destruct (runs_alike ft cl handle o o' app app' rt rt' F F' E E' I Lk evs Fe
     (prog_start cl tl f c os_tls os port s) (prog_start cl tl f c os_tls os port s)) as (X1 & X2 & X3 & X4 & X5 & X6).
  { repeat split; auto. }
  repeat split; auto. intro i. eapply task_alike_weak; eauto.
Qed.

(** ** One connection, both ways *)
Section Serve.
Context (ft : features) (cl : cookie_lib) {H ST : Type}.
Lemma run_chain_same {W} (exec : H -> varmap -> W -> W * outcome flow) :
  (forall h v v' x, (forall n, mget seqb n v = mget seqb n v') -> exec h v x = exec h v' x) ->
  forall l l' x, Forall2 same_call l l' -> run_chain exec l x = run_chain exec l' x.
Proof.
  intros X l l' x E. revert x. induction E as [|[h v] [h' v'] l l' [Eh Ev] E IH]; intro x; auto. cbn [fst snd] in *. subst h'.
  cbn [run_chain]. rewrite (X h v v' x Ev). destruct (exec h v' x) as [w' [[]|]]; auto.
Qed.
Theorem interchangeable_served (handle : H -> matched_request cl -> ST * response cl -> (ST * response cl) * outcome flow)
    o o' app app' (rt rt' : router H) w ho pos s t :
  fits app -> fits app' -> build o app = Done rt -> build o' app' = Done rt' -> interchangeable ft cl app app' -> looks_up handle ->
  real_segments t -> serve ft cl handle w ho pos rt s t = serve ft cl handle w ho pos rt' s t.
Proof.
  intros F F' E E' I Lk R. unfold serve. pose proof (read_request_cases ft cl t R) as C.
  destruct (read_request ft cl t) as [[|rq]| | |]; auto.
  destruct C as (rl & hs & cs & body & Ca & Ri). pose proof Ri as (El & _ & _ & G & _). cbn [respond]. rewrite El.
  destruct (err_bad_request _) eqn:Eh; auto. destruct (method_is_some (rl_method rl)) eqn:Em; auto.
  assert (Hm : rl_method rl <> MAll) by (eapply carries_method; eauto).
  destruct (build_run (fun h vars => handle h (MatchedRequest rq vars)) o app F) as (r1 & E1 & R1).
  destruct (build_run (fun h vars => handle h (MatchedRequest rq vars)) o' app' F') as (r2 & E2 & R2).
  rewrite E in E1. rewrite E' in E2. injection E1 as <-. injection E2 as <-. rewrite R1, R2 by auto.
  rewrite (run_chain_same (fun h vars => handle h (MatchedRequest rq vars)) (fun h v v' x => Lk h rq v v' x)
    _ (calls_of ft (rl_method rl) (rl_path rl) (flatten app'))); auto.
  apply (inter_calls ft cl); auto. exists (stream_of t), rl, hs, cs, body. split; auto. split; [|split; [destruct (rl_method rl); discriminate|split; auto]].
  intro L. apply (host_check _ _ hs G) in L. congruence.
Qed.
End Serve.

Section Backward.
Context (ft : features) (cl : cookie_lib) {H : Type}.
(** Notes which handlers are called and with which value of the variable [name]. *)
Definition probe (name : str) (h : H) (mr : matched_request cl) (x : list (H * option str) * response cl)
  : (list (H * option str) * response cl) * outcome flow :=
  ((fst x ++ [(h, mget seqb name (mr_vars mr))], snd x), Done FNext).
Lemma probe_looks_up name : looks_up (probe name).
Proof. intros h rq v v' x E. unfold probe. cbn [mr_vars]. rewrite E. reflexivity. Qed.
Lemma probe_chain name rq l : forall s r, run_chain (fun h vars => probe name h (MatchedRequest rq vars)) l (s, r) =
  ((s ++ map (fun c => (fst c, mget seqb name (snd c))) l, r), Done tt).
Proof.
  induction l as [|[h v] l IH]; intros s r; cbn [run_chain map fst snd].
  - rewrite app_nil_r. reflexivity.
  - unfold probe at 1. cbn [fst snd mr_vars]. rewrite IH, <- app_assoc. reflexivity.
Qed.
Lemma probed o app rt w ho pos t name rl hs cs body : fits app -> build o app = Done rt -> real_segments t ->
  carries ft cl (stream_of t) rl hs cs body -> ~ lacks_host rl hs -> rl_method rl <> MNone ->
  fst (serve ft cl (probe name) w ho pos rt [] t) = map (fun c => (fst c, mget seqb name (snd c))) (calls_of ft (rl_method rl) (rl_path rl) (flatten app)).
Proof.
  intros F E R Ca NH NM. unfold serve. pose proof (read_request_cases ft cl t R) as X.
  destruct (read_request ft cl t) as [[|rq]| | |].
  - exfalso. eapply bad_not_carried; eauto.
  - destruct X as (rl' & hs' & cs' & got & Ca' & Ri). destruct (carries_fun _ _ _ _ _ _ _ _ _ _ _ Ca Ca') as (<- & <- & <-).
    pose proof Ri as (El & _ & _ & G & _). cbn [respond]. rewrite El.
    destruct (err_bad_request _) eqn:Eh; [exfalso; apply NH; apply (host_check _ _ hs G); exact Eh|].
    assert (method_is_some (rl_method rl) = true) as -> by (destruct (rl_method rl) eqn:Em; auto; congruence).
    destruct (build_run (fun h vars => probe name h (MatchedRequest rq vars)) o app F) as (r1 & E1 & R1).
    rewrite E in E1. injection E1 as <-. rewrite R1 by (eapply carries_method; eauto). rewrite probe_chain. cbn [List.app].
    destruct (negb _); reflexivity.
  - exfalso. destruct X as [X|X]; [eapply kills_not_carried; eauto|eapply borderline_not_carried; eauto].
  - exfalso. eapply waits_not_carried; eauto.
  - contradiction.
Qed.
Lemma probes_agree (l l' : list (H * varmap)) :
  (forall name, map (fun c => (fst c, mget seqb name (snd c))) l = map (fun c => (fst c, mget seqb name (snd c))) l') -> Forall2 same_call l l'.
Proof.
  revert l'. induction l as [|c l IH]; intros [|c' l'] X; try (specialize (X []); discriminate); constructor.
  - split.
    + specialize (X []). cbn [map] in X. injection X as X _ _. exact X.
    + intro n. specialize (X n). cbn [map] in X. injection X as _ X _. exact X.
  - apply IH. intro n. specialize (X n). cbn [map] in X. injection X as _ _ X. exact X.
Qed.
Theorem served_interchangeable o o' app app' (rt rt' : router H) w ho pos :
  fits app -> fits app' -> build o app = Done rt -> build o' app' = Done rt' ->
  (forall handle : H -> matched_request cl -> list (H * option str) * response cl -> (list (H * option str) * response cl) * outcome flow,
     looks_up handle -> forall s t, real_segments t ->
     fst (serve ft cl handle w ho pos rt s t) = fst (serve ft cl handle w ho pos rt' s t)) ->
  interchangeable ft cl app app'.
Proof.
  intros F F' E E' X m path (s & rl & hs & cs & body & Ca & NH & NM & -> & ->).
  assert (Hm : rl_method rl <> MAll) by (eapply carries_method; eauto).
  exists (calls_of ft (rl_method rl) (rl_path rl) (flatten app)), (calls_of ft (rl_method rl) (rl_path rl) (flatten app')).
  split; [apply calls_of_for; auto|]. split; [apply calls_of_for; auto|]. apply probes_agree. intro name.
  assert (Ns : s <> []).
  { intros ->. destruct Ca as (a & b & [Ha _] & _). destruct a; discriminate Ha. }
  set (t := Transport [s] Stall). assert (St : stream_of t = s) by (unfold stream_of; cbn; apply app_nil_r).
  assert (R : real_segments t) by (constructor; [auto|constructor]).
  rewrite <- St in Ca.
  rewrite <- (probed o app rt w ho pos t name rl hs cs body F E R Ca NH NM), <- (probed o' app' rt' w ho pos t name rl hs cs body F' E' R Ca NH NM).
  apply X; auto. apply probe_looks_up.
Qed.
End Backward.
