(** Lemmas behind Props/FeatureProps.v: whole programs that differ in features the application does not use. *)
From Verif.Spec Require Import Common PathSpec RouteSpec RoutingSpec TextSpec RequestSpec ResponseSpec ServerSpec TaskSpec AppSpec SwapSpec FeatureSpec.
From Verif.Model Require Import RustStd Path Request Time Status Response Router Server Tasks Listen Whole.
From Verif.Proofs Require Export FeatureProofs.

Section Both.
Context (ft ft' : features) (cl : cookie_lib) {H ST : Type}
  (handle : H -> matched_request cl -> ST * response cl -> (ST * response cl) * outcome flow).
Context (Lk : looks_up handle) (Use : uses_only_common ft ft' handle).
Context (o : order) (app : list (oreg H)) (rt : router H) (F : fits app) (E : build o app = Done rt).
Context (Cr : common_routes ft ft' app) (Ef : faithful ft = faithful ft') (Ec : cookies_on ft = cookies_on ft').

Definition fjob_alike (j j' : job cl (H := H)) : Prop :=
  match j, j' with
  | Refuse c, Refuse c' => c = c'
  | Dispatch rq k M ix res, Dispatch rq' k' M' ix' res' => same_request ft ft' rq rq' /\ res = res' /\ k = k' /\
      (k = 0 \/ exists S S', k = length S /\ loop_inv S M ix /\ loop_inv S' M' ix' /\
         Forall2 same_call (map (call_of ft) S) (map (call_of ft') S'))
  | _, _ => False
  end.
Definition fout_alike (x x' : job_result cl (H := H)) : Prop :=
  match x, x' with
  | JMore j, JMore j' => fjob_alike j j'
  | JSend out, JSend out' => out = out'
  | JPanic, JPanic => True
  | _, _ => False
  end.

Lemma fjob_of_alike t r : real_segments t -> read_request ft cl t = IoDone r ->
  exists r' j j', read_request ft' cl t = IoDone r' /\ job_of ft cl rt r = Done j /\ job_of ft' cl rt r' = Done j' /\ fjob_alike j j'.
Proof.
  intros R Er. pose proof (read_request_cases ft cl t R) as X. pose proof (read_same ft ft' cl t Ef Ec) as A. rewrite Er in X, A.
  destruct r as [|rq].
  { destruct (read_request ft' cl t) as [[|rq']| | |]; cbn [read_alike] in A; try contradiction; try discriminate.
    do 3 eexists. split; [reflexivity|]. cbn [job_of]. repeat split. }
  destruct (read_request ft' cl t) as [[|rq']| | |]; cbn [read_alike] in A; try contradiction; try discriminate.
  exists (RdRequest rq'). cbn [job_of]. pose proof A as (El & _ & G & _). rewrite <- El.
  assert (Ev : http_validate (rl_version (rq_line rq)) (rq_headers rq) = http_validate (rl_version (rq_line rq)) (rq_headers rq')).
  { unfold http_validate, http11_check, http10_check. rewrite !G. auto. }
  rewrite <- Ev. destruct (err_bad_request _); [do 2 eexists; repeat split|].
  destruct (method_is_some _); [|do 2 eexists; repeat split].
  destruct X as (rl & hs & cs & body & Ca & (El' & _)).
  assert (Hm : rl_method (rq_line rq) <> MAll) by (rewrite El'; eapply carries_method; eauto).
  destruct (build_matches o app ft _ (rl_path (rq_line rq)) F Hm) as (r & M & S & Eb & Ems & Len & HI & Es).
  destruct (build_matches o app ft' _ (rl_path (rq_line rq)) F Hm) as (r' & M' & S' & Eb' & Ems' & Len' & HI' & Es').
  rewrite E in Eb, Eb'. injection Eb as <-. injection Eb' as <-.
  pose proof (calls_common ft ft' app _ (rl_path (rq_line rq)) Hm Cr) as Sc. rewrite <- Es, <- Es' in Sc.
  rewrite Ems, Ems'. cbn [omap]. do 2 eexists. split; [reflexivity|]. split; [reflexivity|]. split; [reflexivity|]. cbn [fjob_alike].
  split; [exact A|]. split; auto. pose proof (same_len _ _ Sc) as Q. rewrite !map_length in Q. rewrite Len, Len'. split; [exact Q|].
  right. exists S, S'. repeat split; auto; try apply HI; try apply HI'.
Qed.

Lemma fjob_step_alike w ho pos s j j' : fjob_alike j j' ->
  fst (job_step ft cl handle w ho pos s j) = fst (job_step ft' cl handle w ho pos s j') /\
  fout_alike (snd (job_step ft cl handle w ho pos s j)) (snd (job_step ft' cl handle w ho pos s j')).
Proof.
  assert (Fin : forall res : response cl,
    fout_alike (compose cl (if negb (has_body res) then error_send ft w ho pos StNotFound (cl := cl) else Done (octane_send (get_data ft w ho pos res))))
               (compose cl (if negb (has_body res) then error_send ft' w ho pos StNotFound (cl := cl) else Done (octane_send (get_data ft' w ho pos res))))).
  { intro res. rewrite (error_common ft ft' cl), (data_common ft ft' cl w ho pos res) by (intro D; contradiction).
    destruct (if negb (has_body res) then _ else _); cbn; auto. }
  destruct j as [c|rq k M ix res], j' as [c'|rq' k' M' ix' res']; cbn [fjob_alike]; try tauto.
  - intros <-. cbn [job_step fst snd]. split; [reflexivity|]. rewrite (error_common ft ft' cl w ho pos c). destruct (error_send ft' w ho pos c); [reflexivity|exact I].
  - intros (Sr & <- & <- & [->|(S & S' & -> & HI & HI' & Sc)]).
    + cbn [job_step fst snd]. split; [auto|apply Fin].
    + destruct S as [|x S].
      { cbn [length job_step fst snd]. split; [auto|apply Fin]. }
      destruct S' as [|x' S']; [inversion Sc|]. cbn [map] in Sc. inversion Sc as [|? ? ? ? [Eh Ev] Sc']; subst.
      destruct (loop_step x S M ix HI) as (v & i & E1 & E2 & E3 & HJ).
      destruct (loop_step x' S' M' ix' HI') as (v' & i' & E1' & E2' & E3' & HJ').
      cbn [length job_step]. rewrite E1, E2, E3, E1', E2', E3'. unfold call_of in Eh, Ev. cbn [fst snd] in Eh, Ev. rewrite <- Eh.
      rewrite (Lk _ rq _ _ (s, res) Ev), (proj1 Use _ rq rq' _ (s, res) Sr).
      destruct (handle (closure (mp_data x)) _ (s, res)) as [[s1 res1] [f|]]; cbn [fst snd fout_alike]; auto.
      split; auto. cbn [fjob_alike]. split; [exact Sr|]. split; auto. split; auto. destruct f; cbn [should_continue]; auto.
      right. exists S, S'. auto.
Qed.

Definition ftask_alike (t t' : task cl (H := H)) : Prop :=
  match t, t' with
  | TReading rec, TReading rec' => rec = rec' /\ Forall (fun s => s <> []) rec
  | TWorking j, TWorking j' => fjob_alike j j'
  | _, _ => tasks_alike t t'
  end.
Lemma ftask_weak t t' : ftask_alike t t' -> tasks_alike t t'.
Proof. destruct t, t'; cbn; tauto. Qed.
Definition fstates_alike (st st' : tasks_state cl (H := H) (ST := ST)) : Prop :=
  tshared st = tshared st' /\ forall i, ftask_alike (task_get cl i (tasks st)) (task_get cl i (tasks st')).

Lemma finput_alike rec e : Forall (fun s => s <> []) rec -> e <> Arrive [] -> ftask_alike (task_input ft cl rt rec e) (task_input ft' cl rt rec e).
Proof.
  intros Fr Ne. unfold task_input.
  assert (X : exists f, resume ft cl rec e = (segs f, read_request ft cl f) /\ resume ft' cl rec e = (segs f, read_request ft' cl f) /\ real_segments f).
  { destruct e as [seg| |]; cbn [resume].
    - exists (Transport (rec ++ [seg]) Stall). split; auto. split; auto. unfold real_segments. cbn [segs]. apply Forall_app. split; auto. constructor; auto. congruence.
    - exists (Transport rec Eof). split; auto.
    - exists (Transport rec Broken). split; auto. }
  destruct X as (f & -> & -> & R). pose proof (read_same ft ft' cl f Ef Ec) as A.
  destruct (read_request ft cl f) as [r| | |] eqn:Er.
  { destruct (fjob_of_alike f r R Er) as (r' & j & j' & -> & -> & -> & J). exact J. }
  all: destruct (read_request ft' cl f) as [r'| | |]; cbn [read_alike] in A; try contradiction; cbn; auto.
Qed.
Lemma fstep_alike st st' i e x : e <> TInput (Arrive []) -> fstates_alike st st' ->
  fstates_alike (tasks_step ft cl handle rt st (i, e, x)) (tasks_step ft' cl handle rt st' (i, e, x)).
Proof.
  intros Ne (Es & Et). destruct x as [w ho]. cbn [tasks_step].
  assert (Put : forall s t t', ftask_alike t t' -> fstates_alike (TasksState s (mset Nat.eqb i t (tasks st))) (TasksState s (mset Nat.eqb i t' (tasks st')))).
  { intros s t t' A. split; auto. intro k. cbn [tasks]. rewrite !task_get_set. destruct (Nat.eqb k i); auto. }
  pose proof (Et i) as Ei. rewrite <- Es.
  destruct (task_get cl i (tasks st)) as [rec|j|sent rest|sent|], (task_get cl i (tasks st')) as [rec'|j'|sent' rest'|sent'|];
    cbn [ftask_alike tasks_alike] in Ei; try contradiction; destruct e as [e| |n|]; try (split; assumption).
  - destruct Ei as [<- Fr]. apply Put. apply finput_alike; auto. congruence.
  - pose proof (fjob_step_alike w ho [i] (tshared st) j j' Ei) as [X Y].
    destruct (job_step ft cl handle w ho [i] (tshared st) j) as [s1 r1], (job_step ft' cl handle w ho [i] (tshared st) j') as [s2 r2].
    cbn [fst snd] in X, Y. subst s2. apply Put. destruct r1, r2; cbn [fout_alike] in Y; try contradiction; cbn; auto.
  - destruct Ei as [<- <-]. apply Put. destruct (_ || _)%bool; cbn; auto.
  - destruct Ei as [<- <-]. apply Put. cbn. auto.
Qed.

Definition fprogs_alike (st st' : program cl (H := H) (ST := ST)) : Prop :=
  pr_up st = pr_up st' /\ pr_plain st = pr_plain st' /\ pr_tls st = pr_tls st' /\ pr_links st = pr_links st' /\
  fstates_alike (pr_tasks st) (pr_tasks st').
Lemma fprog_step_alike st st' ev : real_event ev -> fprogs_alike st st' ->
  fprogs_alike (prog_step ft cl handle rt st ev) (prog_step ft' cl handle rt st' ev).
Proof.
  intros Rv (Eu & Ep & Etl & El & Es). destruct st as [u p t l k], st' as [u' p' t' l' k']. cbn [pr_up pr_plain pr_tls pr_links pr_tasks] in *.
  subst u' p' t' l'. unfold prog_step. cbn [pr_up pr_plain pr_tls pr_links pr_tasks].
  assert (Same : forall u p t l, fprogs_alike (Program u p t l k) (Program u p t l k')) by (intros; repeat split; auto; apply Es).
  destruct (negb u); [apply Same|]. destruct ev as [r|r|i ok|i e x|].
  - destruct p; try apply Same. destruct r as [i|]; [|apply Same]. unfold accept_plink, plink_get. cbn [pr_links pr_up pr_plain pr_tls pr_tasks].
    destruct (mget Nat.eqb i l); apply Same.
  - destruct t; try apply Same. destruct r as [i|]; [|apply Same]. unfold accept_plink, plink_get. cbn [pr_links pr_up pr_plain pr_tls pr_tasks].
    destruct (mget Nat.eqb i l); apply Same.
  - unfold plink_get. cbn [pr_links]. destruct (mget Nat.eqb i l) as [[]|]; apply Same.
  - unfold plink_get. cbn [pr_links]. destruct (mget Nat.eqb i l) as [[]|]; try apply Same.
    assert (Y : fstates_alike (tasks_step ft cl handle rt k (i, e, x)) (tasks_step ft' cl handle rt k' (i, e, x))).
    { apply fstep_alike; auto. intros ->. apply (Rv i x). reflexivity. }
    repeat split; auto; apply Y.
  - destruct p; apply Same.
Qed.
Lemma fruns_alike evs : Forall real_event evs -> forall st st', fprogs_alike st st' ->
  fprogs_alike (prog_run ft cl handle rt st evs) (prog_run ft' cl handle rt st' evs).
Proof.
  unfold prog_run. induction 1 as [|ev evs Rv Fe IH]; intros st st' A; cbn [fold_left]; auto. apply IH. apply fprog_step_alike; auto.
Qed.
Theorem features_programs tl f c os_tls os port s evs :
  (forall i x, ~ In (PrTask i (TInput (Arrive [])) x) evs) ->
  programs_alike (prog_run ft cl handle rt (prog_start cl tl f c os_tls os port s) evs)
                 (prog_run ft' cl handle rt (prog_start cl tl f c os_tls os port s) evs).
Proof.
  intro R.
  assert (Fe : Forall real_event evs) by (apply Forall_forall; intros ev Iv i x ->; eapply R; eauto).
  destruct (fruns_alike evs Fe (prog_start cl tl f c os_tls os port s) (prog_start cl tl f c os_tls os port s)) as (X1 & X2 & X3 & X4 & X5 & X6).
  { repeat split; auto. }
  repeat split; auto. intro i. eapply ftask_weak; eauto.
Qed.
End Both.
