(** Lemmas behind Props/LimitProps.v: a limited number of connections. *)
From Verif.Model Require Import RustStd Path Request Time Status Response Router Server Tasks Listen Whole.
From Verif.Spec Require Import Common ListenSpec LimitSpec.
From Verif.Proofs Require Export Basics ListenProofs.

Section Limits.
Context (ft : features) (cl : cookie_lib) {H ST : Type}
  (handle : H -> matched_request cl -> ST * response cl -> (ST * response cl) * outcome flow) (rt : router H).
Context (tl : tls_lib) (f : tls_feature) (c : config) (os_tls os : os_results) (port : N) (s : ST).
Context (Up : can_listen os).
Notation run evs := (prog_run ft cl handle rt (prog_start cl tl f c os_tls os port s) evs).

Lemma run_app a b : run (a ++ b) = prog_run ft cl handle rt (run a) b.
Proof. unfold prog_run. apply fold_left_app. Qed.
Lemma start_accepts : plain_listener os port = LsAccepting.
Proof.
  exact (proj2 (proj1 (start_state tl f c os_tls os port s)) Up).
Qed.
Definition comers (k : nat) : list prog_event := map (fun i => PrPlain (AcOk i)) (seq 0 k).
Lemma after_comers k : exists st, run (comers k) = st /\ pr_up st = true /\ pr_plain st = LsAccepting /\
  pr_tasks st = TasksState s [] /\ forall i, plink_get i st = if Nat.ltb i k then Some LkOpen else None.
Proof.
  induction k as [|k IH].
  { eexists. split; [reflexivity|]. split; [reflexivity|]. split; [exact start_accepts|]. split; [reflexivity|]. intro i. reflexivity. }
  destruct IH as (st & E & U & P & T & L). unfold comers in *. rewrite seq_S, map_app, run_app, E. cbn [map Nat.add].
  eexists. split; [reflexivity|]. unfold prog_run. cbn [fold_left]. unfold prog_step. rewrite U. cbn [negb]. rewrite P.
  unfold accept_plink. rewrite (L k), Nat.ltb_irrefl. cbn [pr_up pr_plain pr_tasks plink_get pr_links].
  split; auto. split; auto. split; auto. intro i. unfold plink_get in *. cbn [pr_links].
  destruct (Nat.eqb_spec i k) as [->|N].
  - rewrite (mget_mset_same Nat.eqb) by (intros; apply Nat.eqb_eq). destruct (Nat.ltb_spec k (S k)); auto. lia.
  - rewrite (mget_mset_other Nat.eqb) by (auto; intros; apply Nat.eqb_eq). rewrite L.
    destruct (Nat.ltb_spec i k), (Nat.ltb_spec i (S k)); auto; lia.
Qed.
Lemma comers_held k n : held_at_least n (run (comers k)) <-> n <= k.
Proof.
  destruct (after_comers k) as (st & -> & U & P & T & L).
  assert (Hd : forall i, held st i <-> i < k).
  { intro i. unfold held. rewrite L, T. cbn [tasks task_get]. unfold task_get. cbn [mget].
    destruct (Nat.ltb_spec i k) as [X|X]; split; auto; try lia. intros [Y|[Y _]]; discriminate. }
  split.
  - intros (l & Nd & <- & X). rewrite <- (seq_length k 0). apply NoDup_incl_length; auto.
    intros i I0. apply in_seq. apply X, Hd in I0. lia.
  - intro Le. exists (seq 0 n). split; [apply seq_NoDup|]. split; [apply seq_length|]. intros i I0. apply in_seq in I0. apply Hd. lia.
Qed.
Lemma split_at {A} (a d x y : list A) : a ++ x = d ++ y -> length a = length d -> a = d /\ x = y.
Proof.
  revert d. induction a as [|e a IH]; intros [|e' d] E L; cbn [List.app length] in *; try discriminate; auto.
  injection E as <- E. injection L as L. destruct (IH d E L) as [-> ->]. auto.
Qed.
Lemma comers_prefix n a ev b : comers n = a ++ ev :: b -> exists k, k < n /\ a = comers k /\ ev = PrPlain (AcOk k).
Proof.
  unfold comers. intro E. exists (length a).
  assert (Lt : length a < n) by (apply (f_equal (@length _)) in E; rewrite map_length, seq_length, app_length in E; cbn [length] in E; lia).
  split; auto. replace n with (length a + S (n - S (length a))) in E by lia. rewrite seq_app, map_app in E. cbn [seq map Nat.add] in E.
  symmetry in E. apply split_at in E as [E X]; [|rewrite map_length, seq_length; auto]. split; auto. now injection X.
Qed.
Theorem silent_stop n : exists evs, silent evs /\ length evs = n + 2 /\ possible_run n (fun a => run a) evs /\
  forall more, pr_up (run (evs ++ more)) = false /\ pr_tasks (run (evs ++ more)) = TasksState s [].
Proof.
  exists (comers n ++ [PrPlain AcErr; PrReturn]). split; [|split; [|split]].
  - intros ev X. apply in_app_or in X as [X|[<-|[<-|[]]]]; auto. unfold comers in X. apply in_map_iff in X as (i & <- & _). exact I.
  - unfold comers. rewrite app_length, map_length, seq_length. reflexivity.
  - intros a ev b E.
    assert (D : (exists c, a ++ ev :: c = comers n) \/ (a = comers n /\ ev = PrPlain AcErr) \/ ev = PrReturn).
    { revert a E. generalize (comers n). intro q. induction q as [|x q IH]; intros a E.
      - destruct a as [|y [|z a]]; cbn [List.app] in E; inversion E; subst; auto. destruct a; discriminate.
      - destruct a as [|y a]; cbn [List.app] in E; [assert (x = ev) as <- by congruence|assert (x = y /\ q ++ [PrPlain AcErr; PrReturn] = a ++ ev :: b) as [<- E'] by (split; congruence); clear E; rename E' into E].
        + left. exists q. reflexivity.
        + destruct (IH a E) as [(c0 & <-)|[[-> ->]| ->]]; auto. left. exists c0. reflexivity. }
    destruct D as [(c0 & D)|[[-> ->]| ->]]; [| |exact I].
    + destruct (comers_prefix n a ev c0 (eq_sym D)) as (k & Lt & -> & ->). cbn [possible]. rewrite comers_held. split; [|lia].
      destruct (after_comers k) as (st & -> & _ & _ & _ & L). rewrite L, Nat.ltb_irrefl. auto.
    + cbn [possible]. apply comers_held. auto.
  - intro more. rewrite <- app_assoc, run_app. destruct (after_comers n) as (st & -> & U & P & T & _).
    assert (E : prog_step ft cl handle rt (prog_step ft cl handle rt st (PrPlain AcErr)) PrReturn =
                Program false LsFailed (pr_tls st) (pr_links st) (TasksState s [])).
    { unfold prog_step at 2. rewrite U. cbn [negb]. rewrite P. unfold prog_step. cbn [pr_up pr_plain pr_tls pr_links pr_tasks negb]. rewrite T. reflexivity. }
    cbn [List.app]. unfold prog_run. cbn [fold_left]. rewrite E. induction more as [|ev more IH]; cbn [fold_left]; auto.
Qed.
Theorem only_by_holding n evs : possible_run n (fun a => run a) evs ->
  pr_up (run evs) = true /\ pr_plain (run evs) = LsAccepting \/ exists a b, evs = a ++ b /\ held_at_least n (run a).
Proof.
  induction evs as [|ev evs IH] using rev_ind; intro P.
  { left. split; [reflexivity|exact start_accepts]. }
  destruct IH as [[U A]|(a & b & E & Hd)].
  - intros a e b E. apply (P a e (b ++ [ev])). rewrite E, <- app_assoc. reflexivity.
  - pose proof (P evs ev [] eq_refl) as Q. rewrite run_app. unfold prog_run at 1 3. cbn [fold_left]. unfold prog_step. rewrite U. cbn [negb].
    destruct ev as [[i|]|[i|]|i ok|i e x|]; cbn [possible] in Q.
    + left. rewrite A. unfold accept_plink. destruct (plink_get i _); auto.
    + right. exists evs, [PrPlain AcErr]. auto.
    + left. destruct (pr_tls _); auto. unfold accept_plink. destruct (plink_get i _); auto.
    + right. exists evs, [PrTls AcErr]. auto.
    + left. destruct (plink_get i _) as [[]|]; auto.
    + left. destruct (plink_get i _) as [[]|]; auto.
    + left. rewrite A. auto.
  - right. exists a, (b ++ [ev]). rewrite E, <- app_assoc. auto.
Qed.
End Limits.

(** Deciding these notions, for examples. *)
Section Decide.
Context {cl : cookie_lib} {H ST : Type}.
Definition heldb (st : program cl (H := H) (ST := ST)) (i : nat) : bool :=
  match plink_get i st with
  | Some LkHandshake => true
  | Some LkOpen => match task_get cl i (tasks (pr_tasks st)) with TClosed _ | TCrashed => false | _ => true end
  | _ => false
  end.
Lemma heldb_held st i : heldb st i = true <-> held st i.
Proof.
  unfold heldb, held. destruct (plink_get i st) as [[]|]; try (split; [discriminate|intros [X|[X _]]; discriminate]).
  - destruct (task_get cl i _); split; auto; try discriminate; intros [X|[_ X]]; try discriminate; try contradiction; auto.
  - tauto.
Qed.
Lemma held_count st n : NoDup (map fst (pr_links st)) -> length (filter (heldb st) (map fst (pr_links st))) < n -> ~ held_at_least n st.
Proof.
  intros Nd Lt (l & Nl & <- & X). apply (Nat.lt_irrefl (length l)). eapply Nat.le_lt_trans; [|exact Lt]. apply NoDup_incl_length; auto.
  intros i Il. apply X in Il. apply filter_In. split; [|apply heldb_held; auto].
  assert (exists k, plink_get i st = Some k) as (k & E) by (destruct Il as [E|[E _]]; eauto).
  unfold plink_get in E. clear - E. induction (pr_links st) as [|[j v] m IH]; cbn [mget map fst] in *; [discriminate|].
  destruct (Nat.eqb_spec i j); [left; auto|right; auto].
Qed.
Lemma possible_snoc n (run : list prog_event -> program cl (H := H) (ST := ST)) evs ev :
  possible_run n run evs -> possible n (run evs) ev -> possible_run n run (evs ++ [ev]).
Proof.
  intros P Q a e b E. destruct b as [|e' b] using rev_ind.
  - apply app_inj_tail in E as [-> ->]. exact Q.
  - clear IHb. change (a ++ e :: b ++ [e']) with (a ++ (e :: b) ++ [e']) in E. rewrite app_assoc in E. apply app_inj_tail in E as [E _]. eapply P; eauto.
Qed.
Lemma possible_nil n (run : list prog_event -> program cl (H := H) (ST := ST)) : possible_run n run [].
Proof. intros a e b E. destruct a; discriminate. Qed.
End Decide.
