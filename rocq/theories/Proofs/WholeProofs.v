(** Lemmas behind C128 and C129. *)
From Verif.Model Require Import RustStd Path Request Time Status Response Router Server Tasks Listen Whole.
From Verif.Spec Require Import Common PathSpec RoutingSpec TextSpec RequestSpec ResponseSpec ServerSpec TaskSpec AppSpec ExchangeSpec ListenSpec WholeSpec.
From Verif.Proofs Require Import Basics TaskProofs ListenProofs ExchangeProofs.

Section Whole.
Context (ft : features) (cl : cookie_lib) {H ST : Type}
  (handle : H -> matched_request cl -> ST * response cl -> (ST * response cl) * outcome flow) (rt : router H).
Notation step := (prog_step ft cl handle rt).
Notation run := (prog_run ft cl handle rt).

(** What the tasks hear. *)
Definition hears (st : program cl (H := H) (ST := ST)) (ev : prog_event) : list (nat * task_event * (world * order)) :=
  match ev with
  | PrTask i e x => if pr_up st then match plink_get i st with Some LkOpen => [(i, e, x)] | _ => [] end else []
  | _ => []
  end.
Fixpoint heard (st : program cl (H := H) (ST := ST)) (evs : list prog_event) : list (nat * task_event * (world * order)) :=
  match evs with
  | [] => []
  | ev :: r => hears st ev ++ heard (step st ev) r
  end.
Lemma run_app st a b : run st (a ++ b) = run (run st a) b.
Proof. apply fold_left_app. Qed.
Lemma heard_app b : forall a st, heard st (a ++ b) = heard st a ++ heard (run st a) b.
Proof.
  induction a as [|ev a IH]; intro st; [reflexivity|]. cbn [app heard]. rewrite IH, app_assoc. reflexivity.
Qed.
Lemma step_tasks st ev : pr_tasks (step st ev) = tasks_run ft cl handle rt (pr_tasks st) (hears st ev).
Proof.
  unfold prog_step, hears, accept_plink. destruct (pr_up st); cbn [negb]; [|destruct ev; reflexivity].
  destruct ev as [r|r|i ok|i e x|].
  - destruct (pr_plain st); try reflexivity. destruct r; [|reflexivity]. destruct (plink_get conn st); reflexivity.
  - destruct (pr_tls st); try reflexivity. destruct r; [|reflexivity]. destruct (plink_get conn st); reflexivity.
  - destruct (plink_get i st) as [[]|]; reflexivity.
  - destruct (plink_get i st) as [[]|]; reflexivity.
  - destruct (pr_plain st); reflexivity.
Qed.
Lemma run_heard evs : forall st, pr_tasks (run st evs) = tasks_run ft cl handle rt (pr_tasks st) (heard st evs).
Proof.
  induction evs as [|ev evs IH]; intro st; [reflexivity|]. change (run st (ev :: evs)) with (run (step st ev) evs).
  rewrite IH, step_tasks. cbn [heard]. unfold tasks_run. rewrite fold_left_app. reflexivity.
Qed.
Lemma task_part_app a b : task_part (a ++ b) = task_part a ++ task_part b.
Proof. apply flat_map_app. Qed.
Lemma heard_incl evs : forall st, incl (heard st evs) (task_part evs).
Proof.
  induction evs as [|ev evs IH]; intros st x I; [destruct I|]. cbn [heard] in I. change (task_part (ev :: evs)) with (task_part ([ev] ++ evs)).
  rewrite task_part_app. apply in_app_or in I. apply in_or_app. destruct I as [I|I]; [left|right; eapply IH; eauto].
  destruct ev as [r|r|i ok|i e y|]; try destruct I. cbn [hears] in I. destruct (pr_up st); [|destruct I].
  destruct (plink_get i st) as [[]|]; try contradiction. destruct I as [<-|[]]. left. reflexivity.
Qed.
Lemma step_up_back st ev : pr_up (step st ev) = true -> pr_up st = true.
Proof. unfold prog_step. destruct (pr_up st) eqn:U; cbn [negb]; congruence. Qed.
Lemma run_up_back evs : forall st, pr_up (run st evs) = true -> pr_up st = true.
Proof. induction evs as [|ev evs IH]; intros st U; [exact U|]. apply (step_up_back st ev), IH, U. Qed.
Lemma run_up_app st a b : pr_up (run st (a ++ b)) = true -> pr_up (run st a) = true.
Proof. rewrite run_app. apply run_up_back. Qed.
Lemma plink_set i k (st : program cl (H := H) (ST := ST)) j : mget Nat.eqb j (mset Nat.eqb i k (pr_links st)) = if Nat.eqb i j then Some k else plink_get j st.
Proof.
  destruct (Nat.eqb_spec i j) as [->|N].
  - apply mget_mset_same. apply Nat.eqb_eq.
  - unfold plink_get. apply mget_mset_other; [apply Nat.eqb_eq|auto].
Qed.
Lemma plink_put u p t ts j k (st : program cl (H := H) (ST := ST)) i :
  plink_get i (Program (cl := cl) (H := H) (ST := ST) u p t (mset Nat.eqb j k (pr_links st)) ts) = if Nat.eqb j i then Some k else plink_get i st.
Proof. apply plink_set. Qed.
Lemma step_open st ev i : plink_get i st = Some LkOpen -> plink_get i (step st ev) = Some LkOpen.
Proof.
  intro E. unfold prog_step, accept_plink. destruct (pr_up st); cbn [negb]; [|exact E].
  destruct ev as [r|r|j ok|j e x|].
  - destruct (pr_plain st); try exact E. destruct r as [j|]; [|exact E]. destruct (plink_get j st) eqn:Ej; [exact E|].
    unfold plink_get at 1. cbn [pr_links]. rewrite plink_set. destruct (Nat.eqb_spec j i) as [->|]; [congruence|exact E].
  - destruct (pr_tls st); try exact E. destruct r as [j|]; [|exact E]. destruct (plink_get j st) eqn:Ej; [exact E|].
    unfold plink_get at 1. cbn [pr_links]. rewrite plink_set. destruct (Nat.eqb_spec j i) as [->|]; [congruence|exact E].
  - destruct (plink_get j st) as [[]|] eqn:Ej; try exact E.
    unfold plink_get at 1. cbn [pr_links]. rewrite plink_set. destruct (Nat.eqb_spec j i) as [->|]; [congruence|exact E].
  - destruct (plink_get j st) as [[]|]; exact E.
  - destruct (pr_plain st); exact E.
Qed.
Lemma run_open i evs : forall st, plink_get i st = Some LkOpen -> plink_get i (run st evs) = Some LkOpen.
Proof. induction evs as [|ev evs IH]; intros st E; [exact E|]. apply (IH (step st ev)), step_open, E. Qed.
Lemma own_app {X} i (a b : list (nat * task_event * X)) : own_events i (a ++ b) = own_events i a ++ own_events i b.
Proof. apply filter_app. Qed.
Lemma heard_own i evs : forall st, pr_up (run st evs) = true -> plink_get i st = Some LkOpen ->
  own_events i (heard st evs) = own_events i (task_part evs).
Proof.
  induction evs as [|ev evs IH]; intros st U' E; [reflexivity|]. cbn [heard]. change (task_part (ev :: evs)) with (task_part ([ev] ++ evs)).
  pose proof (run_up_back _ _ U') as U. rewrite task_part_app, !own_app. rewrite IH.
  - f_equal. destruct ev as [r|r|j ok|j e x|]; try reflexivity. cbn [hears task_part flat_map app]. rewrite U.
    destruct (Nat.eq_dec j i) as [->|Nj]; [rewrite E; reflexivity|].
    assert (O : own_events i [(j, e, x)] = []). { unfold own_events, on_task. cbn [filter fst]. apply Nat.eqb_neq in Nj. rewrite Nj. reflexivity. }
    rewrite O. destruct (plink_get j st) as [[]|]; auto.
  - exact U'.
  - apply step_open, E.
Qed.
Lemma heard_none i evs st : (forall e x, ~ In (PrTask i e x) evs) -> own_events i (heard st evs) = [].
Proof.
  intro N. destruct (own_events i (heard st evs)) as [|[[j e] x] l] eqn:E; [reflexivity|]. exfalso.
  assert (I : In (j, e, x) (own_events i (heard st evs))) by (rewrite E; now left).
  unfold own_events in I. apply filter_In in I. destruct I as [I O]. unfold on_task in O. cbn [fst] in O. apply Nat.eqb_eq in O. subst j.
  apply heard_incl in I. unfold task_part in I. apply in_flat_map in I. destruct I as (ev & I & J).
  destruct ev as [r|r|j ok|j e' x'|]; try contradiction. destruct J as [J|[]]. injection J as -> -> ->. apply (N e x). exact I.
Qed.
(** ** Opening *)
Lemma step_plain st ev : pr_plain st = LsAccepting -> ev <> PrPlain AcErr -> pr_plain (step st ev) = LsAccepting.
Proof.
  intros E N. unfold prog_step, accept_plink. destruct (pr_up st); cbn [negb]; [|(exact E || reflexivity)]. destruct ev as [r|r|j ok|j e x|].
  - rewrite E. destruct r as [j|]; [|congruence]. destruct (plink_get j st); [(exact E || reflexivity)|]. (exact E || reflexivity).
  - destruct (pr_tls st); try (exact E || reflexivity). destruct r as [j|]; [|(exact E || reflexivity)]. destruct (plink_get j st); (exact E || reflexivity).
  - destruct (plink_get j st) as [[]|]; (exact E || reflexivity).
  - destruct (plink_get j st) as [[]|]; (exact E || reflexivity).
  - rewrite E. (exact E || reflexivity).
Qed.
Lemma step_tls st ev : pr_tls st = LsAccepting -> ev <> PrTls AcErr -> pr_tls (step st ev) = LsAccepting.
Proof.
  intros E N. unfold prog_step, accept_plink. destruct (pr_up st); cbn [negb]; [|(exact E || reflexivity)]. destruct ev as [r|r|j ok|j e x|].
  - destruct (pr_plain st); try (exact E || reflexivity). destruct r as [j|]; [|(exact E || reflexivity)]. destruct (plink_get j st); (exact E || reflexivity).
  - rewrite E. destruct r as [j|]; [|congruence]. destruct (plink_get j st); (exact E || reflexivity).
  - destruct (plink_get j st) as [[]|]; (exact E || reflexivity).
  - destruct (plink_get j st) as [[]|]; (exact E || reflexivity).
  - destruct (pr_plain st); (exact E || reflexivity).
Qed.
Lemma run_plain evs : forall st, pr_plain st = LsAccepting -> ~ In (PrPlain AcErr) evs -> pr_plain (run st evs) = LsAccepting.
Proof.
  induction evs as [|ev evs IH]; intros st E N; [exact E|]. apply (IH (step st ev)); [|intro I; apply N; now right].
  apply step_plain; [exact E|]. intros ->. apply N. now left.
Qed.
Lemma run_tls evs : forall st, pr_tls st = LsAccepting -> ~ In (PrTls AcErr) evs -> pr_tls (run st evs) = LsAccepting.
Proof.
  induction evs as [|ev evs IH]; intros st E N; [exact E|]. apply (IH (step st ev)); [|intro I; apply N; now right].
  apply step_tls; [exact E|]. intros ->. apply N. now left.
Qed.
Lemma step_plain_back st ev : pr_plain (step st ev) = LsAccepting -> pr_plain st = LsAccepting /\ (pr_up st = true -> ev <> PrPlain AcErr).
Proof.
  unfold prog_step, accept_plink. destruct (pr_up st); cbn [negb]; [|intro E; split; [exact E|discriminate]]. destruct ev as [r|r|j ok|j e x|].
  - destruct (pr_plain st) eqn:E; try (intro X; rewrite E in X; discriminate). destruct r as [j|]; [|discriminate].
    intros _. split; [reflexivity|discriminate].
  - intro X. split; [|discriminate]. destruct (pr_tls st); try exact X. destruct r as [j|]; [|exact X]. destruct (plink_get j st); exact X.
  - intro X. split; [|discriminate]. destruct (plink_get j st) as [[]|]; exact X.
  - intro X. split; [|discriminate]. destruct (plink_get j st) as [[]|]; exact X.
  - intro X. split; [|discriminate]. destruct (pr_plain st) eqn:E; try exact X; reflexivity.
Qed.
Lemma step_tls_back st ev : pr_tls (step st ev) = LsAccepting -> pr_tls st = LsAccepting /\ (pr_up st = true -> ev <> PrTls AcErr).
Proof.
  unfold prog_step, accept_plink. destruct (pr_up st); cbn [negb]; [|intro E; split; [exact E|discriminate]]. destruct ev as [r|r|j ok|j e x|].
  - intro X. split; [|discriminate]. destruct (pr_plain st); try exact X. destruct r as [j|]; [|exact X]. destruct (plink_get j st); exact X.
  - destruct (pr_tls st) eqn:E; try (intro X; rewrite E in X; discriminate). destruct r as [j|]; [|discriminate].
    intros _. split; [reflexivity|discriminate].
  - intro X. split; [|discriminate]. destruct (plink_get j st) as [[]|]; exact X.
  - intro X. split; [|discriminate]. destruct (plink_get j st) as [[]|]; exact X.
  - intro X. split; [|discriminate]. destruct (pr_plain st); exact X.
Qed.
Lemma run_snoc st evs ev : run st (evs ++ [ev]) = step (run st evs) ev.
Proof. rewrite run_app. reflexivity. Qed.
Lemma accepting_back st evs : pr_up (run st evs) = true ->
  (pr_plain (run st evs) = LsAccepting -> pr_plain st = LsAccepting /\ ~ In (PrPlain AcErr) evs) /\
  (pr_tls (run st evs) = LsAccepting -> pr_tls st = LsAccepting /\ ~ In (PrTls AcErr) evs).
Proof.
  induction evs as [|ev evs IH] using rev_ind; intro U; [split; intro E; auto|]. rewrite run_snoc in U |- *. pose proof (step_up_back _ _ U) as U'.
  destruct (IH U') as [IP IT]. split; intro E.
  - destruct (step_plain_back _ _ E) as [E' N]. destruct (IP E') as [P I]. split; [exact P|]. intro J. apply in_app_or in J.
    destruct J as [J|[J|[]]]; [auto|]. apply (N U'). auto.
  - destruct (step_tls_back _ _ E) as [E' N]. destruct (IT E') as [P I]. split; [exact P|]. intro J. apply in_app_or in J.
    destruct J as [J|[J|[]]]; [auto|]. apply (N U'). auto.
Qed.
Lemma taken_app pl tls i a b : taken_on pl tls i a -> taken_on pl tls i (a ++ b).
Proof.
  intros [(P & x & y & -> & N)|(P & x & y & -> & N)]; [left|right]; (split; [exact P|]); exists x; eexists; (split; [|exact N]);
    rewrite <- app_assoc; reflexivity.
Qed.
Lemma opened_app pl tls i a b : opened pl tls i a -> opened pl tls i (a ++ b).
Proof.
  intros [(P & x & y & -> & N)|(P & x & y & z & -> & N)]; [left|right]; (split; [exact P|]).
  - exists x. eexists. split; [|exact N]. rewrite <- app_assoc. reflexivity.
  - exists x, y. eexists. split; [|exact N]. rewrite <- app_assoc. cbn [app]. rewrite <- app_assoc. reflexivity.
Qed.
(** The same event puts in a number at most once. *)
Lemma step_link st ev i : plink_get i (step st ev) = plink_get i st \/
  pr_up st = true /\ plink_get i st = None /\
    (ev = PrPlain (AcOk i) /\ pr_plain st = LsAccepting /\ plink_get i (step st ev) = Some LkOpen \/
     ev = PrTls (AcOk i) /\ pr_tls st = LsAccepting /\ plink_get i (step st ev) = Some LkHandshake) \/
  pr_up st = true /\ plink_get i st = Some LkHandshake /\
    exists ok, ev = PrHandshake i ok /\ plink_get i (step st ev) = Some (if ok then LkOpen else LkRefused).
Proof.
  unfold prog_step, accept_plink. destruct (pr_up st) eqn:U; cbn [negb]; [|left; reflexivity]. destruct ev as [r|r|j ok|j e x|].
  - destruct (pr_plain st) eqn:Ep; try (left; reflexivity). destruct r as [j|]; [|left; reflexivity].
    destruct (plink_get j st) eqn:Ej; [left; reflexivity|]. rewrite !plink_put.
    destruct (Nat.eqb_spec j i) as [->|]; [|left; reflexivity]. right. left. split; [reflexivity|]. split; [exact Ej|]. left. auto.
  - destruct (pr_tls st) eqn:Ep; try (left; reflexivity). destruct r as [j|]; [|left; reflexivity].
    destruct (plink_get j st) eqn:Ej; [left; reflexivity|]. rewrite !plink_put.
    destruct (Nat.eqb_spec j i) as [->|]; [|left; reflexivity]. right. left. split; [reflexivity|]. split; [exact Ej|]. right. auto.
  - destruct (plink_get j st) as [[]|] eqn:Ej; try (left; reflexivity). rewrite !plink_put.
    destruct (Nat.eqb_spec j i) as [->|]; [|left; reflexivity]. right. right. split; [reflexivity|]. split; [exact Ej|]. exists ok. auto.
  - destruct (plink_get j st) as [[]|]; left; reflexivity.
  - destruct (pr_plain st); left; reflexivity.
Qed.
Lemma snoc_split {X} (a b : list X) x (l : list X) y : l ++ [y] = a ++ x :: b -> (b = [] /\ a = l /\ x = y) \/ exists b', b = b' ++ [y] /\ l = a ++ x :: b'.
Proof.
  destruct b as [|z b'] using rev_ind; intro E.
  - left. apply app_inj_tail in E. destruct E as [-> ->]. auto.
  - right. exists b'. change (x :: b' ++ [z]) with ((x :: b') ++ [z]) in E. rewrite app_assoc in E. apply app_inj_tail in E. destruct E as [-> ->]. auto.
Qed.
(** The link of [i] in full. *)
Lemma link_exact i st evs : plink_get i st = None ->
  let taken := taken_on (pr_plain st = LsAccepting) (pr_tls st = LsAccepting) i in
  (pr_up (run st evs) = true -> plink_get i (run st evs) = None -> ~ taken evs) /\
  (plink_get i (run st evs) = Some LkHandshake -> pr_tls st = LsAccepting /\
     exists a b, evs = a ++ PrTls (AcOk i) :: b /\ ~ In (PrTls AcErr) a /\ ~ taken a /\ (pr_up (run st evs) = true -> ~ In (PrHandshake i false) b)) /\
  (plink_get i (run st evs) = Some LkOpen -> opened (pr_plain st = LsAccepting) (pr_tls st = LsAccepting) i evs) /\
  (plink_get i (run st evs) <> None -> taken evs).
Proof.
  intros A taken. induction evs as [|ev evs (I0 & I1 & I2 & I3)] using rev_ind.
  { cbn [prog_run fold_left]. rewrite A. repeat split; try discriminate; try congruence.
    intros _ _ [(P & a & b & E & _)|(P & a & b & E & _)]; destruct a; discriminate E. }
  rewrite run_snoc. pose proof (step_link (run st evs) ev i) as SL.
  assert (Tk : forall x, ev = x -> (x = PrPlain (AcOk i) /\ pr_plain (run st evs) = LsAccepting) \/ (x = PrTls (AcOk i) /\ pr_tls (run st evs) = LsAccepting) ->
    pr_up (run st evs) = true -> taken (evs ++ [ev])).
  { intros x -> D U. destruct (accepting_back st evs U) as [BP BT]. destruct D as [[-> P]|[-> P]].
    - destruct (BP P) as [Q N]. left. split; [exact Q|]. exists evs, []. auto.
    - destruct (BT P) as [Q N]. right. split; [exact Q|]. exists evs, []. auto. }
  destruct SL as [E|[(U & En & [(-> & P & E)|(-> & P & E)])|(U & En & ok & -> & E)]].
  - rewrite E. split; [|split; [|split]].
    + intros U N T. pose proof (step_up_back _ _ U) as U'. specialize (I0 U' N).
      assert (X : exists P : Prop, P) by (exists True; exact Logic.I). clear X.
      destruct T as [(P & a & b & Ea & Na)|(P & a & b & Ea & Na)].
      * apply snoc_split in Ea. destruct Ea as [(-> & -> & <-)|(b' & -> & ->)].
        -- assert (Ep : pr_plain (run st evs) = LsAccepting).
           { apply run_plain; auto. }
           revert E N. unfold prog_step. rewrite U'. cbn [negb]. rewrite Ep. unfold accept_plink. intros E N. rewrite N in E.
           unfold plink_get at 1 in E. cbn [pr_links] in E. rewrite plink_set, Nat.eqb_refl in E. congruence.
        -- apply I0. left. split; [exact P|]. exists a, b'. auto.
      * apply snoc_split in Ea. destruct Ea as [(-> & -> & <-)|(b' & -> & ->)].
        -- assert (Ep : pr_tls (run st evs) = LsAccepting).
           { apply run_tls; auto. }
           revert E N. unfold prog_step. rewrite U'. cbn [negb]. rewrite Ep. unfold accept_plink. intros E N. rewrite N in E.
           unfold plink_get at 1 in E. cbn [pr_links] in E. rewrite plink_set, Nat.eqb_refl in E. congruence.
        -- apply I0. right. split; [exact P|]. exists a, b'. auto.
    + intro N. destruct (I1 N) as (P & a & b & -> & Na & Nt & Nb). split; [exact P|]. exists a, (b ++ [ev]). split; [rewrite <- app_assoc; reflexivity|].
      split; [exact Na|]. split; [exact Nt|]. intros U J. pose proof (step_up_back _ _ U) as U'. apply in_app_or in J. destruct J as [J|[J|[]]]; [apply (Nb U'); exact J|].
      subst ev. revert E. unfold prog_step. rewrite U'. cbn [negb]. rewrite N. intro E. unfold plink_get at 1 in E. cbn [pr_links] in E.
      rewrite plink_set, Nat.eqb_refl in E. discriminate.
    + intro N. apply opened_app, I2, N.
    + intro N. apply taken_app, I3, N.
  - rewrite E. split; [discriminate|]. split; [discriminate|]. split; [|intros _; eapply Tk; eauto].
    intros _. destruct (accepting_back st evs U) as [BP _]. destruct (BP P) as [Q N]. left. split; [exact Q|]. exists evs, []. split; [reflexivity|].
    split; [exact N|]. apply I0; auto.
  - rewrite E. split; [discriminate|]. split; [|split; [discriminate|intros _; eapply Tk; eauto]].
    intros _. destruct (accepting_back st evs U) as [_ BT]. destruct (BT P) as [Q N]. split; [exact Q|]. exists evs, []. split; [reflexivity|].
    split; [exact N|]. split; [apply I0; auto|]. intros _ [].
  - rewrite E. split; [discriminate|]. destruct (I1 En) as (Q & a & b & -> & Na & Nt & Nb). split; [destruct ok; discriminate|].
    split; [|intros _; apply taken_app, I3; congruence].
    destruct ok; [|discriminate]. intros _. right. split; [exact Q|]. exists a, b, []. split; [rewrite <- app_assoc; reflexivity|]. auto.
Qed.
Lemma run_absent i evs st : plink_get i st = None -> ~ taken_on (pr_plain st = LsAccepting) (pr_tls st = LsAccepting) i evs -> plink_get i (run st evs) = None.
Proof.
  intros A N. destruct (link_exact i st evs A) as (_ & _ & _ & T). destruct (plink_get i (run st evs)) eqn:E; [|reflexivity].
  exfalso. apply N, T. discriminate.
Qed.
Lemma step_shaking st ev i : plink_get i st = Some LkHandshake -> ev <> PrHandshake i false ->
  plink_get i (step st ev) = Some LkHandshake \/ plink_get i (step st ev) = Some LkOpen.
Proof.
  intros E N. unfold prog_step, accept_plink. destruct (pr_up st); cbn [negb]; [|left; exact E]. destruct ev as [r|r|j ok|j e x|].
  - left. destruct (pr_plain st); try exact E. destruct r as [j|]; [|exact E]. destruct (plink_get j st) eqn:Ej; [exact E|].
    unfold plink_get at 1. cbn [pr_links]. rewrite plink_set. destruct (Nat.eqb_spec j i) as [->|]; [congruence|exact E].
  - left. destruct (pr_tls st); try exact E. destruct r as [j|]; [|exact E]. destruct (plink_get j st) eqn:Ej; [exact E|].
    unfold plink_get at 1. cbn [pr_links]. rewrite plink_set. destruct (Nat.eqb_spec j i) as [->|]; [congruence|exact E].
  - destruct (plink_get j st) as [[]|] eqn:Ej; try (left; exact E).
    unfold plink_get. cbn [pr_links]. rewrite plink_set. destruct (Nat.eqb_spec j i) as [->|]; [|left; exact E].
    right. destruct ok; [reflexivity|congruence].
  - left. destruct (plink_get j st) as [[]|]; exact E.
  - left. destruct (pr_plain st); exact E.
Qed.
Lemma run_shaking i evs : forall st, plink_get i st = Some LkHandshake -> ~ In (PrHandshake i false) evs ->
  plink_get i (run st evs) = Some LkHandshake \/ plink_get i (run st evs) = Some LkOpen.
Proof.
  induction evs as [|ev evs IH]; intros st E N; [left; exact E|].
  destruct (step_shaking st ev i E) as [E'|E'].
  - intros ->. apply N. now left.
  - apply (IH (step st ev) E'). intro I. apply N. now right.
  - right. apply (run_open i evs (step st ev) E').
Qed.
Lemma opened_iff (pl pl' tls tls' : Prop) i evs : (pl <-> pl') -> (tls <-> tls') -> opened pl tls i evs -> opened pl' tls' i evs.
Proof.
  intros Ep Et. assert (T : forall a, taken_on pl' tls' i a -> taken_on pl tls i a) by (intro a; unfold taken_on; tauto).
  intros [(P & a & b & E & N & Nt)|(P & a & b & c & E & N & Nt & Nb)]; [left|right]; (split; [tauto|]).
  - exists a, b. split; [exact E|]. split; [exact N|]. intro X. apply Nt, T, X.
  - exists a, b, c. split; [exact E|]. split; [exact N|]. split; [|exact Nb]. intro X. apply Nt, T, X.
Qed.
Lemma opened_open i st evs : pr_up (run st evs) = true -> plink_get i st = None ->
  opened (pr_plain st = LsAccepting) (pr_tls st = LsAccepting) i evs -> plink_get i (run st evs) = Some LkOpen.
Proof.
  intros U A [(P & a & b & -> & Ne & Un)|(T & a & b & c & -> & Ne & Un & Nf)].
  - rewrite run_app. change (run (run st a) (PrPlain (AcOk i) :: b)) with (run (step (run st a) (PrPlain (AcOk i))) b). apply run_open.
    unfold prog_step. rewrite (run_up_app _ _ _ U). cbn [negb].
    rewrite (run_plain a st P Ne). unfold accept_plink. rewrite (run_absent i a st A Un). rewrite plink_put, Nat.eqb_refl. reflexivity.
  - rewrite run_app.
    change (run (run st a) (PrTls (AcOk i) :: b ++ PrHandshake i true :: c)) with (run (step (run st a) (PrTls (AcOk i))) (b ++ PrHandshake i true :: c)).
    set (st1 := step (run st a) (PrTls (AcOk i))).
    assert (Ua : pr_up (run st a) = true) by (apply (run_up_app _ _ _ U)).
    assert (E1 : plink_get i st1 = Some LkHandshake).
    { unfold st1, prog_step. rewrite Ua. cbn [negb].
      rewrite (run_tls a st T Ne). unfold accept_plink. rewrite (run_absent i a st A Un). rewrite plink_put, Nat.eqb_refl. reflexivity. }
    rewrite run_app. change (run (run st1 b) (PrHandshake i true :: c)) with (run (step (run st1 b) (PrHandshake i true)) c). apply run_open.
    assert (Ub : pr_up (run st1 b) = true).
    { apply (run_up_app st1 b (PrHandshake i true :: c)). rewrite run_app in U. exact U. }
    destruct (run_shaking i b st1 E1 Nf) as [E|E]; [|apply step_open, E].
    unfold prog_step. rewrite Ub, E. cbn [negb]. unfold plink_get. cbn [pr_links]. rewrite plink_set, Nat.eqb_refl. reflexivity.
Qed.

Lemma plain_lost evs : forall st, pr_plain st = LsAccepting -> pr_plain (run st evs) <> LsAccepting -> In (PrPlain AcErr) evs.
Proof.
  induction evs as [|ev evs IH]; intros st E N; [contradiction|].
  assert (D : ev = PrPlain AcErr \/ ev <> PrPlain AcErr) by (destruct ev as [[j|]|r|j ok|j e x|]; (now left) || (right; discriminate)).
  destruct D as [->|D]; [now left|]. right. apply (IH (step st ev)); [apply step_plain; auto|exact N].
Qed.
Lemma not_ended st evs : pr_up st = true -> ~ ended (pr_plain st = LsAccepting) evs -> pr_up (run st evs) = true.
Proof.
  intro U. induction evs as [|ev evs IH] using rev_ind; intro N; [exact U|]. rewrite run_snoc.
  assert (U' : pr_up (run st evs) = true).
  { apply IH. intros (a & b & -> & F). apply N. exists a, (b ++ [ev]). split; [rewrite <- app_assoc; reflexivity|exact F]. }
  unfold prog_step, accept_plink. rewrite U'. cbn [negb]. destruct ev as [r|r|j ok|j e x|].
  - destruct (pr_plain (run st evs)); try exact U'. destruct r as [j|]; [|reflexivity]. destruct (plink_get j (run st evs)); [exact U'|reflexivity].
  - destruct (pr_tls (run st evs)); try exact U'. destruct r as [j|]; [|reflexivity]. destruct (plink_get j (run st evs)); [exact U'|reflexivity].
  - destruct (plink_get j (run st evs)) as [[]|]; try exact U'; reflexivity.
  - destruct (plink_get j (run st evs)) as [[]|]; try exact U'; reflexivity.
  - assert (G : pr_plain (run st evs) <> LsAccepting -> False).
    { intro F. apply N. exists evs, []. split; [reflexivity|]. intro P. eapply plain_lost; eauto. }
    destruct (pr_plain (run st evs)) eqn:Ep; [exfalso; apply G; discriminate|exact U'|exfalso; apply G; discriminate|exfalso; apply G; discriminate].
Qed.

(** ** The exchange *)
Definition same_own (i : nat) {X} (l l' : list (nat * task_event * X)) : Prop := own_events i l = own_events i l'.
Lemma writes_own {X} i (l l' : list (nat * task_event * X)) : same_own i l l' -> writes_succeed i l' -> writes_succeed i l.
Proof.
  intros E W e x I. apply (W e x). assert (J : In (i, e, x) (own_events i l')).
  { unfold same_own in E. rewrite <- E. apply filter_In. split; auto. unfold on_task. cbn [fst]. apply Nat.eqb_refl. }
  unfold own_events in J. apply filter_In in J. apply J.
Qed.
Lemma program_events tl f c os_tls os port (s0 : ST) evs0 evs1 evs2 evs3 i :
  opened (can_listen os) (tls_listener tl f c os_tls = LsAccepting) i evs0 -> (forall e x, ~ In (PrTask i e x) evs0) ->
  let after := evs1 ++ evs2 ++ evs3 in
  ~ ended (can_listen os) (evs0 ++ after) ->
  exists h1 h2 h3,
    pr_tasks (run (prog_start cl tl f c os_tls os port s0) (evs0 ++ after)) =
      tasks_run ft cl handle rt (TasksState s0 []) (h1 ++ h2 ++ h3) /\
    incl (h1 ++ h2 ++ h3) (task_part (evs0 ++ after)) /\
    same_own i h1 (task_part evs1) /\ same_own i h2 (task_part evs2) /\ same_own i h3 (task_part evs3) /\
    same_own i (h1 ++ h2 ++ h3) (task_part after).
Proof.
  intros Op N0 after NR.
  set (st0 := prog_start cl (H := H) tl f c os_tls os port s0) in *.
  assert (Up : pr_up (run st0 (evs0 ++ after)) = true).
  { apply not_ended; [reflexivity|]. intros (a & b & E & F). apply NR. exists a, b. split; [exact E|]. intro P. apply F.
    apply (proj1 (start_state tl f c os_tls os port s0)). exact P. }
  assert (Op' : plink_get i (run st0 evs0) = Some LkOpen).
  { apply opened_open; [apply (run_up_app _ _ _ Up)|reflexivity|]. apply (opened_iff (can_listen os) _ (tls_listener tl f c os_tls = LsAccepting)); [|reflexivity|exact Op].
    symmetry. apply (proj1 (start_state tl f c os_tls os port s0)). }
  set (h0 := heard st0 evs0). set (h1 := heard (run st0 evs0) evs1). set (h2 := heard (run st0 (evs0 ++ evs1)) evs2).
  set (h3 := heard (run st0 (evs0 ++ evs1 ++ evs2)) evs3).
  assert (Hh : heard st0 (evs0 ++ after) = (h0 ++ h1) ++ h2 ++ h3).
  { unfold after. rewrite !heard_app. unfold h0, h1, h2, h3. rewrite !run_app, <- !app_assoc. reflexivity. }
  assert (O0 : own_events i h0 = []) by (apply heard_none; exact N0).
  assert (Own : forall a b cc, after = a ++ b ++ cc -> own_events i (heard (run st0 (evs0 ++ a)) b) = own_events i (task_part b)).
  { intros a b cc E. apply heard_own.
    - apply (run_up_app _ (b) cc). rewrite <- run_app, <- app_assoc, <- E. exact Up.
    - rewrite run_app. apply run_open, Op'. }
  assert (O1 : own_events i h1 = own_events i (task_part evs1)).
  { unfold h1. rewrite <- (app_nil_r evs0). apply (Own [] evs1 (evs2 ++ evs3)). reflexivity. }
  assert (O2 : own_events i h2 = own_events i (task_part evs2)) by (apply (Own evs1 evs2 evs3); reflexivity).
  assert (O3 : own_events i h3 = own_events i (task_part evs3)).
  { apply (Own (evs1 ++ evs2) evs3 []). unfold after. rewrite app_nil_r, app_assoc. reflexivity. }
  assert (Oa : own_events i ((h0 ++ h1) ++ h2 ++ h3) = own_events i (task_part after)).
  { unfold after. rewrite !task_part_app, !own_app, O0, O1, O2, O3. reflexivity. }
  exists (h0 ++ h1), h2, h3. split; [rewrite run_heard, Hh; reflexivity|]. split; [rewrite <- Hh; apply heard_incl|].
  split; [unfold same_own; rewrite own_app, O0, O1; reflexivity|]. auto.
Qed.
Theorem program_exchange (ws : world -> Prop) o app tl f c os_tls os port s0 evs0 evs1 evs2 evs3 i m p ver hs body meth v path cs :
  (N.of_nat (length (flatten app)) <= USIZE_MAX)%N -> build o app = Done rt ->
  method_named m meth -> version_named ver v -> target_ok p -> path_means p path ->
  hs <> [] -> Forall (fun hd => good_header (faithful ft) hd /\ clean (header_text hd)) hs ->
  cookies_mean cl (cookies_on ft) hs cs -> ~ lacks_host (RequestLine meth path v) hs ->
  announced hs = N.of_nat (length body) -> (announced hs <= ISIZE_MAX)%N ->
  (forall rq, request_is ft rq (RequestLine meth path v) hs cs body -> well_behaved ft cl handle ws app rq) ->
  opened (can_listen os) (tls_listener tl f c os_tls = LsAccepting) i evs0 -> (forall e x, ~ In (PrTask i e x) evs0) ->
  let after := evs1 ++ evs2 ++ evs3 in
  ~ ended (can_listen os) (evs0 ++ after) ->
  real_inputs (task_part (evs0 ++ after)) ->
  Forall (fun ev => ws (fst (snd ev)) /\ clock (fst (snd ev)) <> None) (task_part (evs0 ++ after)) -> writes_succeed i (task_part after) ->
  stream_of (input_of (inputs i (task_part evs1))) = request_text m p ver hs body ->
  stream_of (input_of (inputs i (task_part after))) = request_text m p ver hs body ->
  length (flatten app) < runs_of i (task_part evs2) ->
  let final := pr_tasks (run (prog_start cl tl f c os_tls os port s0) (evs0 ++ after)) in
  exists L rq calls res out, linked s0 L (tshared final) /\
    request_is ft rq (RequestLine meth path v) hs cs body /\ chosen ft cl app rq calls /\
    calls_made cl handle rq calls blank_response (calls_on i L) [] res /\
    reads_answer ws out res /\
    (task_get cl i (tasks final) = TClosed out \/
     room_of i (task_part evs3) < length out /\ exists sent rest, sent ++ rest = out /\ task_get cl i (tasks final) = TSending sent rest).
Proof.
  intros HB Eb Hm Hv Ht Hp Hn Hg Hc NH An Ai Wb Op N0 after NR R Cw Ws S1 S Lt final.
  destruct (program_events tl f c os_tls os port s0 evs0 evs1 evs2 evs3 i Op N0 NR) as (h1 & h2 & h3 & Er & Inc & O1 & O2 & O3 & Oa).
  fold after in Er, Inc, Oa. unfold final. rewrite Er.
  pose proof (exchange ft cl handle ws o app rt s0 h1 h2 h3 i m p ver hs body meth v path cs HB Eb Hm Hv Ht Hp Hn Hg Hc NH An Ai Wb) as X.
  cbv zeta in X. specialize (X (incl_Forall Inc R) (incl_Forall Inc Cw) (writes_own i _ _ Oa Ws)).
  unfold same_own in *. unfold room_of in *. rewrite O3 in X. apply X.
  - unfold inputs. rewrite O1. exact S1.
  - unfold inputs. rewrite Oa. exact S.
  - unfold runs_of. rewrite O2. exact Lt.
Qed.
Theorem program_refused o app tl f c os_tls os port s0 evs0 evs1 evs2 evs3 i num reason :
  (N.of_nat (length (flatten app)) <= USIZE_MAX)%N -> build o app = Done rt ->
  opened (can_listen os) (tls_listener tl f c os_tls = LsAccepting) i evs0 -> (forall e x, ~ In (PrTask i e x) evs0) ->
  let after := evs1 ++ evs2 ++ evs3 in
  ~ ended (can_listen os) (evs0 ++ after) ->
  real_inputs (task_part (evs0 ++ after)) ->
  Forall (fun ev => clock (fst (snd ev)) <> None) (task_part (evs0 ++ after)) -> writes_succeed i (task_part after) ->
  ~ stream_waits ft (stream_of (input_of (inputs i (task_part evs1)))) (fin (input_of (inputs i (task_part evs1)))) ->
  refused ft cl (stream_of (input_of (inputs i (task_part after)))) (fin (input_of (inputs i (task_part after)))) num reason ->
  length (flatten app) < runs_of i (task_part evs2) ->
  let final := pr_tasks (run (prog_start cl tl f c os_tls os port s0) (evs0 ++ after)) in
  exists L out, linked s0 L (tshared final) /\ calls_on i L = [] /\ error_answer num reason out /\
    (task_get cl i (tasks final) = TClosed out \/
     room_of i (task_part evs3) < length out /\ exists sent rest, sent ++ rest = out /\ task_get cl i (tasks final) = TSending sent rest).
Proof.
  intros HB Eb Op N0 after NR R Cw Ws Nw Rf Lt final.
  destruct (program_events tl f c os_tls os port s0 evs0 evs1 evs2 evs3 i Op N0 NR) as (h1 & h2 & h3 & Er & Inc & O1 & O2 & O3 & Oa).
  fold after in Er, Inc, Oa. unfold final. rewrite Er.
  pose proof (refused_exchange ft cl handle o app rt s0 h1 h2 h3 i num reason HB Eb) as X.
  cbv zeta in X. specialize (X (incl_Forall Inc R) (incl_Forall Inc Cw) (writes_own i _ _ Oa Ws)).
  unfold same_own in *. unfold room_of in *. rewrite O3 in X. apply X.
  - unfold inputs. rewrite O1. exact Nw.
  - unfold inputs. rewrite Oa. exact Rf.
  - unfold runs_of. rewrite O2. exact Lt.
Qed.

(** ** The end of the program *)
Theorem all_over st evs : pr_plain st <> LsAccepting -> pr_tasks (run st (PrReturn :: evs)) = pr_tasks st.
Proof.
  intro N. change (run st (PrReturn :: evs)) with (run (step st PrReturn) evs).
  assert (A : pr_tasks (step st PrReturn) = pr_tasks st /\ pr_up (step st PrReturn) = false).
  { unfold prog_step. destruct (pr_up st) eqn:U; cbn [negb]; [|auto]. destruct (pr_plain st); try congruence; auto. }
  destruct A as [A U]. rewrite run_heard. replace (heard (step st PrReturn) evs) with (@nil (nat * task_event * (world * order))); [exact A|].
  revert U. clear A. generalize (step st PrReturn). induction evs as [|ev evs IH]; intros st' U; [reflexivity|]. cbn [heard].
  rewrite <- IH.
  - rewrite app_nil_r. destruct ev; try reflexivity. cbn [hears]. rewrite U. reflexivity.
  - unfold prog_step. rewrite U. exact U.
Qed.
(** A connection that was not accepted, or whose handshake did not succeed, is not served. *)
Theorem not_open i tl f c os_tls os port s0 evs :
  let st := run (prog_start cl tl f c os_tls os port s0) evs in
  plink_get i st <> Some LkOpen -> task_get cl i (tasks (pr_tasks st)) = TReading [].
Proof.
  intros st N. unfold st in *. clear st. rewrite run_heard.
  assert (E : own_events i (heard (prog_start cl tl f c os_tls os port s0) evs) = []).
  { generalize dependent (prog_start cl (H := H) tl f c os_tls os port s0). induction evs as [|ev evs IH]; intros st N; [reflexivity|].
    cbn [heard]. rewrite own_app, IH by exact N.
    rewrite app_nil_r. destruct ev as [r|r|j ok|j e x|]; try reflexivity. cbn [hears]. destruct (pr_up st); [|reflexivity].
    destruct (plink_get j st) as [[]|] eqn:Ej; try reflexivity. destruct (Nat.eq_dec j i) as [->|Nj].
    - exfalso. apply N. apply (run_open i evs (step st (PrTask i e x))). apply step_open, Ej.
    - apply own_other, Nj. }
  revert E. change (pr_tasks (prog_start cl (H := H) tl f c os_tls os port s0)) with (TasksState (cl := cl) (H := H) s0 []).
  assert (G : task_get cl i (tasks (TasksState (cl := cl) (H := H) s0 [])) = TReading []) by reflexivity. revert G.
  generalize (heard (prog_start cl tl f c os_tls os port s0) evs). generalize (TasksState (cl := cl) (H := H) s0 []).
  intros st l. revert st. induction l as [|[[j e] x] l IH]; intros st G E; [exact G|]. change ((j, e, x) :: l) with ([(j, e, x)] ++ l) in E.
  rewrite own_app in E. destruct (Nat.eq_dec j i) as [->|Nj]; [rewrite own_same in E; discriminate|]. rewrite own_other in E by exact Nj.
  change (tasks_run ft cl handle rt st ((j, e, x) :: l)) with (tasks_run ft cl handle rt (tasks_step ft cl handle rt st (j, e, x)) l).
  apply IH; [|exact E]. rewrite <- G. apply tasks_step_other. auto.
Qed.
Theorem served_opened i tl f c os_tls os port s0 evs :
  task_get cl i (tasks (pr_tasks (run (prog_start cl tl f c os_tls os port s0) evs))) <> TReading [] ->
  opened (can_listen os) (tls_listener tl f c os_tls = LsAccepting) i evs.
Proof.
  intro N. apply (opened_iff (pr_plain (prog_start cl (H := H) tl f c os_tls os port s0) = LsAccepting) _ (pr_tls (prog_start cl (H := H) tl f c os_tls os port s0) = LsAccepting)).
  - apply (proj1 (start_state tl f c os_tls os port s0)).
  - reflexivity.
  - apply link_exact; [reflexivity|]. destruct (plink_get i (run (prog_start cl tl f c os_tls os port s0) evs)) as [[]|] eqn:E; try reflexivity;
      exfalso; apply N, not_open; rewrite E; discriminate.
Qed.
End Whole.
