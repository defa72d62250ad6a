(** Lemmas behind C138: the whole program in executions that go on forever. *)
From Verif.Model Require Import RustStd Path Request Time Status Response Router Server Tasks Listen Whole.
From Verif.Spec Require Import Common PathSpec RoutingSpec TextSpec RequestSpec ResponseSpec ServerSpec TaskSpec AppSpec ExchangeSpec ListenSpec WholeSpec LiveSpec ForeverSpec.
From Verif.Proofs Require Import Basics TransportProofs RequestProofs ServerProofs ConnProofs TaskProofs ApiProofs ListenProofs ExchangeProofs WholeProofs LiveProofs.

Section Forever.
Context (ft : features) (cl : cookie_lib) {H ST : Type}
  (handle : H -> matched_request cl -> ST * response cl -> (ST * response cl) * outcome flow) (rt : router H).
Context (start : program cl (H := H) (ST := ST)) (run : nat -> prog_event) (i : nat).
Notation at_ k := (prog_run ft cl handle rt start (pupto run k)).

Lemma pupto_S k : pupto run (S k) = pupto run k ++ [run k].
Proof. unfold pupto. rewrite seq_S, map_app. reflexivity. Qed.

(** The same execution for the tasks alone: what they do not hear becomes an event without effect on another
    connection. *)
Definition some_world : world * order := (World (Some 0%N) (fun _ => FsNoOpen) (fun s => s) (fun s => s) DebugNew, insertion_order).
Definition quiet (ts : tasks_state cl (H := H) (ST := ST)) : nat * task_event * (world * order) :=
  (S i, match task_get cl (S i) (tasks ts) with TWorking _ => TAccept 1 | _ => TRun end, some_world).
Definition trun (k : nat) : nat * task_event * (world * order) :=
  match hears cl (at_ k) (run k) with ev :: _ => ev | [] => quiet (pr_tasks (at_ k)) end.
Lemma quiet_step ts : tasks_step ft cl handle rt ts (quiet ts) = ts.
Proof. unfold quiet, some_world. cbn [tasks_step]. destruct (task_get cl (S i) (tasks ts)); reflexivity. Qed.
Lemma hears_one st ev : hears cl (H := H) (ST := ST) st ev = [] \/ exists j e x, ev = PrTask j e x /\ hears cl st ev = [(j, e, x)].
Proof.
  destruct ev as [r|r|j ok|j e x|]; cbn [hears]; auto. destruct (pr_up st); auto. destruct (plink_get j st) as [[]|]; auto.
  right. exists j, e, x. auto.
Qed.
Lemma trun_after k : pr_tasks start = TasksState (tshared (pr_tasks start)) [] ->
  after ft cl handle rt (tshared (pr_tasks start)) trun k = pr_tasks (at_ k).
Proof.
  intro E0. induction k as [|k IH].
  - cbn. symmetry. exact E0.
  - rewrite after_S, IH, pupto_S, run_snoc, step_tasks. unfold trun.
    destruct (hears_one (at_ k) (run k)) as [->|(j & e & x & _ & ->)]; [apply quiet_step|reflexivity].
Qed.
Context (Heard : forall k e x, run k = PrTask i e x -> hears cl (at_ k) (run k) = [(i, e, x)]).
Lemma quiet_other ts : on_task i (quiet ts) = false.
Proof. unfold on_task, quiet. cbn [fst]. apply Nat.eqb_neq. lia. Qed.
Lemma trun_own k : own_events i (upto trun k) = own_events i (task_part (pupto run k)).
Proof.
  induction k as [|k IH]; auto. rewrite upto_S, pupto_S, task_part_app, !WholeProofs.own_app, IH. f_equal. unfold trun.
  destruct (hears_one (at_ k) (run k)) as [E|(j & e & x & E & F)].
  - rewrite E. unfold own_events at 1. cbn [filter]. rewrite quiet_other. destruct (run k) as [r|r|j ok|j e x|] eqn:Er; cbn [task_part flat_map app]; auto.
    unfold own_events. cbn [filter]. unfold on_task. cbn [fst]. destruct (Nat.eqb_spec j i) as [->|D]; auto.
    specialize (Heard k e x Er). rewrite Er in Heard. congruence.
  - rewrite F, E. reflexivity.
Qed.
Lemma own_in {X} (l l' : list (nat * task_event * X)) e x : own_events i l = own_events i l' -> In (i, e, x) l -> In (i, e, x) l'.
Proof.
  intros E I. assert (J : In (i, e, x) (own_events i l')).
  { rewrite <- E. apply filter_In. split; auto. unfold on_task. cbn [fst]. apply Nat.eqb_refl. }
  unfold own_events in J. apply filter_In in J. apply J.
Qed.
Lemma part_in (evs : list prog_event) e x : In (i, e, x) (task_part evs) <-> In (PrTask i e x) evs.
Proof.
  unfold task_part. rewrite in_flat_map. split.
  - intros ([r|r|j ok|j e' x'|] & I & J); cbn in J; try contradiction. destruct J as [J|[]]. injection J as -> -> ->. exact I.
  - intro I. exists (PrTask i e x). split; auto. now left.
Qed.
Lemma trun_own_event k e x : trun k = (i, e, x) -> run k = PrTask i e x.
Proof.
  unfold trun. destruct (hears_one (at_ k) (run k)) as [E|(j & e' & x' & E & F)].
  - rewrite E. unfold quiet. intro X. injection X as X _ _. lia.
  - rewrite F. intro X. injection X as -> -> ->. exact E.
Qed.
Lemma trun_real k : (forall k j x, run k <> PrTask j (TInput (Arrive [])) x) -> snd (fst (trun k)) <> TInput (Arrive []).
Proof.
  intros R. unfold trun. destruct (hears_one (at_ k) (run k)) as [E|(j & e' & x' & E & F)].
  - rewrite E. unfold quiet. cbn [fst snd]. destruct (task_get cl (S i) _); discriminate.
  - rewrite F. cbn [fst snd]. intros ->. exact (R k j x' E).
Qed.
Lemma trun_clock k : (forall k j e x, run k = PrTask j e x -> clock (fst x) <> None) -> clock (fst (snd (trun k))) <> None.
Proof.
  intros C. unfold trun. destruct (hears_one (at_ k) (run k)) as [E|(j & e' & x' & E & F)].
  - rewrite E. discriminate.
  - rewrite F. cbn [fst snd]. exact (C k j e' x' E).
Qed.
Lemma trun_fair : pr_tasks start = TasksState (tshared (pr_tasks start)) [] ->
  ptask_runs ft cl handle rt start run i -> task_runs ft cl handle rt (tshared (pr_tasks start)) trun i.
Proof.
  intros E0 F k j E. rewrite (trun_after k E0) in E. destruct (F k j E) as (k' & e & x & L & Er & ->).
  exists k', TRun, x. split; auto. split; auto. unfold trun. rewrite (Heard k' TRun x Er). reflexivity.
Qed.
Lemma trun_peer : pr_tasks start = TasksState (tshared (pr_tasks start)) [] ->
  ppeer_reads ft cl handle rt start run i -> peer_reads ft cl handle rt (tshared (pr_tasks start)) trun i.
Proof.
  intros E0 [F G]. split.
  - intros k sent rest E. rewrite (trun_after k E0) in E. destruct (F k sent rest E) as (k' & e & x & L & Er & n & ->).
    exists k', (TAccept (S n)), x. split; auto. split; [|eauto]. unfold trun. rewrite (Heard k' _ x Er). reflexivity.
  - intros k e x E. apply (G k e x). apply trun_own_event. exact E.
Qed.
End Forever.

Section Program.
Context (ft : features) (cl : cookie_lib) {H ST : Type}
  (handle : H -> matched_request cl -> ST * response cl -> (ST * response cl) * outcome flow).
Lemma story_seen (seen seen' : world -> order -> Prop) pos (app : list (oreg H)) stream e log p : (forall w ho, seen w ho -> seen' w ho) ->
  story ft cl handle seen pos app stream e log p -> story (ST := ST) ft cl handle seen' pos app stream e log p.
Proof.
  intros S St. inversion St; subst; [apply st_waits|apply st_huge|apply st_dies|eapply st_refusing|eapply st_refused|eapply st_working|
    eapply st_panics|eapply st_not_found|eapply st_answer]; eauto.
Qed.

Theorem program_in_the_end o app (rt : router H) tl f c os_tls os port (s0 : ST) (run : nat -> prog_event) i k :
  (N.of_nat (length (flatten app)) <= USIZE_MAX)%N -> build o app = Done rt ->
  let start := prog_start cl tl f c os_tls os port s0 in
  (forall k, ~ ended (can_listen os) (pupto run k)) ->
  (forall k j x, run k <> PrTask j (TInput (Arrive [])) x) -> (forall k j e x, run k = PrTask j e x -> clock (fst x) <> None) ->
  (forall k e x, run k = PrTask i e x -> opened (can_listen os) (tls_listener tl f c os_tls = LsAccepting) i (pupto run k)) ->
  ptask_runs ft cl handle rt start run i -> ppeer_reads ft cl handle rt start run i ->
  ~ stream_waits ft (stream_of (input_by run i k)) (fin (input_by run i k)) ->
  exists k', k <= k' /\ exists p, p <> Waiting /\ p <> Working /\ forall m, k' <= m ->
    exists log, story ft cl handle (fun w ho => In (PrTask i TRun (w, ho)) (pupto run m)) [i] app
                  (stream_of (input_by run i m)) (fin (input_by run i m)) log p /\
    task_at ft cl handle rt start run i m = match p with Answering out => TClosed out | _ => TCrashed end.
Proof.
  intros HB Eb start NE R C Op F P Nw.
  assert (Heard : forall k e x, run k = PrTask i e x -> hears cl (prog_run ft cl handle rt start (pupto run k)) (run k) = [(i, e, x)]).
  { intros n e x E. specialize (Op n e x E).
    assert (Up : pr_up (prog_run ft cl handle rt start (pupto run n)) = true).
    { apply not_ended; [reflexivity|]. intros (a & b & Ea & Fa). apply (NE n). exists a, b. split; [exact Ea|]. intro Pl. apply Fa.
      apply (proj1 (start_state tl f c os_tls os port s0)). exact Pl. }
    rewrite E. cbn [hears]. rewrite Up.
    rewrite (opened_open ft cl handle rt i start (pupto run n) Up eq_refl); auto.
    apply (opened_iff (can_listen os) _ (tls_listener tl f c os_tls = LsAccepting)); [|reflexivity|exact Op].
    symmetry. apply (proj1 (start_state tl f c os_tls os port s0)). }
  assert (E0 : pr_tasks start = TasksState (tshared (pr_tasks start)) []) by reflexivity.
  pose (tr := trun ft cl handle rt start run i).
  assert (Own : forall n, own_events i (upto tr n) = own_events i (task_part (pupto run n))) by (intro n; apply trun_own; exact Heard).
  assert (Inp : forall n, input_of (inputs i (upto tr n)) = input_by run i n).
  { intro n. unfold input_by, inputs. rewrite Own. reflexivity. }
  pose proof (answered_in_the_end ft cl handle o app rt HB Eb s0 tr i k (fun n => trun_real ft cl handle rt start run i n R)
    (fun n => trun_clock ft cl handle rt start run i n C) (trun_fair ft cl handle rt start run i Heard E0 F)
    (trun_peer ft cl handle rt start run i Heard E0 P)) as X. cbv zeta in X. rewrite Inp in X.
  destruct (X Nw) as (k' & Lk & p & N1 & N2 & A). exists k'. split; auto. exists p. split; auto. split; auto.
  intros m Lm. destruct (A m Lm) as (log & St & Tm). rewrite Inp in St. exists log. split.
  - eapply story_seen; [|exact St]. intros w ho I. apply part_in. eapply own_in; [apply Own|exact I].
  - unfold task_at. rewrite <- Tm. f_equal. f_equal. symmetry. exact (trun_after ft cl handle rt start run i m E0).
Qed.

(** A request written by a client has only one way to end, if its handlers behave. *)
Lemma story_exchange (ws : world -> Prop) (seen : world -> order -> Prop) pos app e log ph m p ver hs body meth v path cs :
  method_named m meth -> version_named ver v -> target_ok p -> path_means p path ->
  hs <> [] -> Forall (fun hd => good_header (faithful ft) hd /\ clean (header_text hd)) hs ->
  cookies_mean cl (cookies_on ft) hs cs -> ~ lacks_host (RequestLine meth path v) hs ->
  announced hs = N.of_nat (length body) -> (announced hs <= ISIZE_MAX)%N ->
  (forall rq, request_is ft rq (RequestLine meth path v) hs cs body -> well_behaved (ST := ST) ft cl handle ws app rq) ->
  (forall w ho, seen w ho -> ws w) ->
  story ft cl handle seen pos app (request_text m p ver hs body) e log ph -> ph <> Waiting -> ph <> Working ->
  exists rq calls res out, ph = Answering out /\ request_is ft rq (RequestLine meth path v) hs cs body /\ chosen ft cl app rq calls /\
    calls_made cl handle rq calls blank_response log [] res /\ reads_answer ws out res.
Proof.
  intros Hm Hv Ht Hp Hn Hg Hc NH An Ai Wb Sw St N1 N2.
  assert (Ca : carries ft cl (request_text m p ver hs body) (RequestLine meth path v) hs cs body) by (apply text_carried; auto).
  assert (Same : forall rq, admitted ft cl (request_text m p ver hs body) rq -> request_is ft rq (RequestLine meth path v) hs cs body).
  { intros rq (rl' & hs' & cs' & body' & Ca' & _ & _ & Ri).
    destruct (carries_fun _ _ _ _ _ _ _ _ _ _ _ Ca Ca') as (<- & <- & <-).
    assert (body' = body) as ->; auto. eapply carries_body; [exact Ca|exact Ca'| |exact An].
    destruct (text_head ft cl m p ver hs body meth v path cs Hm Hv Ht Hp Hn Hg Hc) as (a & Ha & _). eauto. }
  assert (Nr : forall num reason, ~ refused ft cl (request_text m p ver hs body) e num reason).
  { intros num reason Rf. inversion Rf as [X|rl' hs' cs' body' Ca' X|rl' hs' cs' body' Ca' X Y]; subst.
    + eapply bad_not_carried; eauto.
    + destruct (carries_fun _ _ _ _ _ _ _ _ _ _ _ Ca Ca') as (<- & <- & _). contradiction.
    + destruct (carries_fun _ _ _ _ _ _ _ _ _ _ _ Ca Ca') as (<- & _). cbn in Y. destruct Hm; discriminate. }
  inversion St as [|Bl|K|num reason Rf|num reason out' Rf Ea| |rq calls log' h vars left res s s1 res1 Ad Ch Cm Eh|rq calls log' res out' Ad Ch Cm Bn Ea|rq calls log' res w ho Ad Ch Cm Bn Sn]; subst; try congruence.
  - exfalso. eapply borderline_not_carried; eauto.
  - exfalso. eapply kills_not_carried; eauto.
  - exfalso. eapply Nr; eauto.
  - exfalso. assert (I : In (h, vars) calls) by (apply (made_incl _ _ _ _ _ _ _ _ Cm); now left).
    apply (proj1 (Wb rq (Same rq Ad) calls h vars s res Ch I)). rewrite Eh. reflexivity.
  - exists rq, calls, res, out'. split; auto. split; [apply Same; auto|]. split; auto. split; auto. split; [congruence|auto].
  - eexists rq, calls, res, _. split; [reflexivity|]. split; [apply Same; auto|]. split; [exact Ch|]. split; [exact Cm|].
    split; [|congruence]. intros _. apply presentable_reads; [eapply Sw; eauto|].
    eapply calls_presentable; [exact Cm| |apply blank_presentable]. intros h vars s r I. apply (Wb rq (Same rq Ad) calls h vars s r Ch I).
Qed.
Theorem program_serves (ws : world -> Prop) o app (rt : router H) tl f c os_tls os port (s0 : ST) (run : nat -> prog_event) i k
    m p ver hs body meth v path cs :
  (N.of_nat (length (flatten app)) <= USIZE_MAX)%N -> build o app = Done rt ->
  let start := prog_start cl tl f c os_tls os port s0 in
  (forall k, ~ ended (can_listen os) (pupto run k)) ->
  (forall k j x, run k <> PrTask j (TInput (Arrive [])) x) ->
  (forall k j e x, run k = PrTask j e x -> ws (fst x) /\ clock (fst x) <> None) ->
  (forall k e x, run k = PrTask i e x -> opened (can_listen os) (tls_listener tl f c os_tls = LsAccepting) i (pupto run k)) ->
  ptask_runs ft cl handle rt start run i -> ppeer_reads ft cl handle rt start run i ->
  method_named m meth -> version_named ver v -> target_ok p -> path_means p path ->
  hs <> [] -> Forall (fun hd => good_header (faithful ft) hd /\ clean (header_text hd)) hs ->
  cookies_mean cl (cookies_on ft) hs cs -> ~ lacks_host (RequestLine meth path v) hs ->
  announced hs = N.of_nat (length body) -> (announced hs <= ISIZE_MAX)%N ->
  (forall rq, request_is ft rq (RequestLine meth path v) hs cs body -> well_behaved ft cl handle ws app rq) ->
  (forall n, k <= n -> stream_of (input_by run i n) = request_text m p ver hs body) ->
  exists k' out, k <= k' /\ forall n, k' <= n ->
    task_at ft cl handle rt start run i n = TClosed out /\
    exists rq calls log res, request_is ft rq (RequestLine meth path v) hs cs body /\ chosen ft cl app rq calls /\
      calls_made cl handle rq calls blank_response log [] res /\ reads_answer ws out res.
Proof.
  intros HB Eb start NE R C Op F P Hm Hv Ht Hp Hn Hg Hc NH An Ai Wb S.
  assert (Ca : carries ft cl (request_text m p ver hs body) (RequestLine meth path v) hs cs body) by (apply text_carried; auto).
  assert (Nw : ~ stream_waits ft (stream_of (input_by run i k)) (fin (input_by run i k))).
  { rewrite (S k) by lia. intro X. eapply waits_not_carried; eauto. }
  destruct (program_in_the_end o app rt tl f c os_tls os port s0 run i k HB Eb NE R (fun n j e x E => proj2 (C n j e x E)) Op F P Nw)
    as (k' & Lk & ph & N1 & N2 & A).
  assert (Each : forall n, k' <= n -> exists rq calls log res out, ph = Answering out /\ request_is ft rq (RequestLine meth path v) hs cs body /\
    chosen ft cl app rq calls /\ calls_made cl handle rq calls blank_response log [] res /\ reads_answer ws out res /\
    task_at ft cl handle rt start run i n = TClosed out).
  { intros n Ln. destruct (A n Ln) as (log & St & Tm). rewrite (S n) in St by lia.
    assert (Sw : forall w ho, In (PrTask i TRun (w, ho)) (pupto run n) -> ws w).
    { intros w ho I. unfold pupto in I. apply in_map_iff in I as (q & E & _). apply (C q i TRun (w, ho) E). }
    destruct (story_exchange ws _ _ app _ log ph m p ver hs body meth v path cs Hm Hv Ht Hp Hn Hg Hc NH An Ai Wb Sw St N1 N2) as (rq & calls & res & out & -> & Ri & Ch & Cm & Ra).
    exists rq, calls, log, res, out. auto 10. }
  destruct (Each k') as (rq0 & calls0 & log0 & res0 & out & Eph & _); [lia|]. exists k', out. split; auto. intros n Ln.
  destruct (Each n Ln) as (rq & calls & log & res & out' & Eph' & Ri & Ch & Cm & Ra & T). rewrite Eph in Eph'. injection Eph' as <-.
  split; auto. exists rq, calls, log, res. auto.
Qed.
End Program.
