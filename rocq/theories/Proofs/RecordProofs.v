(** Lemmas behind Props/RecordProps.v: with handlers that only record, the state and the answers do not depend
    on the schedule. *)
From Verif.Proofs Require Export TaskProofs.
From Verif.Proofs Require Import HistoryProofs.
From Verif.Spec Require Import Common PathSpec RoutingSpec TextSpec RequestSpec ResponseSpec ServerSpec TaskSpec RecordSpec.

Section Record.
Context (ft : features) (cl : cookie_lib) {H ST : Type}
  (handle : H -> matched_request cl -> ST * response cl -> (ST * response cl) * outcome flow).
Context (upd : H -> matched_request cl -> response cl -> ST -> ST)
        (dec : H -> matched_request cl -> response cl -> response cl * outcome flow)
        (Eh : forall h mr s r, handle h mr (s, r) = ((upd h mr r s, fst (dec h mr r)), snd (dec h mr r)))
        (Comm : forall h mr r h' mr' r' s, upd h mr r (upd h' mr' r' s) = upd h' mr' r' (upd h mr r s)).
Context (rt : router H).
Notation mps := (list (list (matchedpath (closures H)))).
Notation step := (tasks_step ft cl handle rt).
Notation runs := (tasks_run ft cl handle rt).
Notation event := (nat * task_event * (world * order))%type.

(** The next handler call, if any. *)
Definition pick (matches : mps) (indices : list nat) : option (H * varmap * nat) :=
  let minind := find_min 0 0 USIZE_MAX (combine matches indices) in
  match nth_error matches minind, nth_error indices minind with
  | Some v, Some i => match nth_error v i with
                      | Some mp => Some (closure (mp_data mp), if url_variables ft then mp_vars mp else [], minind)
                      | None => None
                      end
  | _, _ => None
  end.
(** All changes a job still makes. *)
Fixpoint rest_of (rq : request cl) (todo : nat) (matches : mps) (indices : list nat) (res : response cl) (s : ST) : ST :=
  match todo with
  | O => s
  | S todo' =>
      match pick matches indices with
      | None => s
      | Some (h, vars, k) =>
          let mr := MatchedRequest rq vars in
          match snd (dec h mr res) with
          | Done FNext => rest_of rq todo' matches (incr_at k indices) (fst (dec h mr res)) (upd h mr res s)
          | _ => upd h mr res s
          end
      end
  end.
(** What it ends with. *)
Fixpoint verdict_of (rq : request cl) (todo : nat) (matches : mps) (indices : list nat) (res : response cl)
  : option (source cl) :=
  let answer r := Some (if negb (has_body r) then FromError StNotFound else FromResponse r) in
  match todo with
  | O => answer res
  | S todo' =>
      match pick matches indices with
      | None => None
      | Some (h, vars, k) =>
          let mr := MatchedRequest rq vars in
          match snd (dec h mr res) with
          | Done FNext => verdict_of rq todo' matches (incr_at k indices) (fst (dec h mr res))
          | Done FStop => answer (fst (dec h mr res))
          | Panic => None
          end
      end
  end.
Definition pending (t : task cl (H := H)) (s : ST) : ST :=
  match t with TWorking (Dispatch rq todo m ix res) => rest_of rq todo m ix res s | _ => s end.
Definition verdict (t : task cl (H := H)) : option (source cl) :=
  match t with
  | TWorking (Dispatch rq todo m ix res) => verdict_of rq todo m ix res
  | TWorking (Refuse code) => Some (FromError code)
  | _ => None
  end.

Lemma rest_upd rq h mr r todo : forall m ix res s, rest_of rq todo m ix res (upd h mr r s) = upd h mr r (rest_of rq todo m ix res s).
Proof.
  induction todo as [|todo IH]; intros m ix res s; auto. cbn [rest_of]. destruct (pick m ix) as [[[h0 vars] k]|]; auto.
  cbn zeta. destruct (snd (dec _ _ _)) as [[|]|]; rewrite Comm; auto.
Qed.
Lemma rest_rest rq rq' todo : forall m ix res s todo' m' ix' res',
  rest_of rq todo m ix res (rest_of rq' todo' m' ix' res' s) = rest_of rq' todo' m' ix' res' (rest_of rq todo m ix res s).
Proof.
  induction todo as [|todo IH]; intros m ix res s todo' m' ix' res'; auto. cbn [rest_of].
  destruct (pick m ix) as [[[h0 vars] k]|]; auto. cbn zeta. destruct (snd (dec _ _ _)) as [[|]|]; rewrite <- rest_upd; auto.
Qed.
Lemma pending_upd t h mr r s : pending t (upd h mr r s) = upd h mr r (pending t s).
Proof. destruct t as [|[|]| | |]; cbn [pending]; auto. apply rest_upd. Qed.
Lemma pending_pending t t' s : pending t (pending t' s) = pending t' (pending t s).
Proof. destruct t as [|[|]| | |], t' as [|[|]| | |]; cbn [pending]; auto. apply rest_rest. Qed.

Definition after_job (r : job_result cl (H := H)) : task cl (H := H) :=
  match r with JMore j' => TWorking j' | JSend out => TSending [] out | JPanic => TCrashed end.
(** One step of a job does a part of what is pending. *)
Lemma job_part w ho pos s j :
  pending (after_job (snd (job_step ft cl handle w ho pos s j))) (fst (job_step ft cl handle w ho pos s j)) = pending (TWorking j) s.
Proof.
  destruct j as [code|rq todo m ix res].
  - cbn [job_step fst snd]. unfold compose. destruct (error_send _ _ _ _ _); reflexivity.
  - destruct todo as [|todo].
    + cbn [job_step fst snd]. unfold compose. destruct (if _ : bool then _ else _); reflexivity.
    + cbn [job_step pending rest_of]. unfold pick. cbn zeta.
      destruct (nth_error m _) as [v|]; [|reflexivity]. destruct (nth_error ix _) as [i|]; [|reflexivity].
      destruct (nth_error v i) as [mp|]; [|reflexivity]. rewrite Eh.
      destruct (snd (dec _ _ res)) as [[|]|]; cbn [fst snd after_job pending should_continue]; reflexivity.
Qed.
Lemma job_split w ho pos s j s' : fst (job_step ft cl handle w ho pos s j) = s' ->
  exists f : ST -> ST, s' = f s /\ (forall t x, pending t (f x) = f (pending t x)).
Proof.
  intros <-. destruct j as [code|rq todo m ix res].
  - exists (fun x => x). auto.
  - destruct todo as [|todo]; [exists (fun x => x); auto|]. cbn [job_step]. cbn zeta.
    destruct (nth_error m _) as [v|]; [|exists (fun x => x); auto]. destruct (nth_error ix _) as [i|]; [|exists (fun x => x); auto].
    destruct (nth_error v i) as [mp|]; [|exists (fun x => x); auto]. rewrite Eh.
    eexists (upd _ _ _). split; [|intros; apply pending_upd]. destruct (snd (dec _ _ res)) as [[|]|]; reflexivity.
Qed.

(** ** The state with everything pending done *)
Definition total (ids : list nat) (f : nat -> task cl (H := H)) (s : ST) : ST := fold_right (fun i x => pending (f i) x) s ids.
Lemma total_pending t ids f s : total ids f (pending t s) = pending t (total ids f s).
Proof. unfold total. induction ids as [|i ids IH]; auto. cbn [fold_right]. rewrite IH. apply pending_pending. Qed.
Lemma total_ext ids f g s : (forall i, In i ids -> f i = g i) -> total ids f s = total ids g s.
Proof. unfold total. induction ids as [|i ids IH]; intro E; auto. cbn [fold_right]. rewrite IH, E; auto; [now left|intros k I; apply E; now right]. Qed.
Lemma total_comm ids f (u : ST -> ST) s : (forall t x, pending t (u x) = u (pending t x)) -> total ids f (u s) = u (total ids f s).
Proof. intro C. unfold total. induction ids as [|i ids IH]; auto. cbn [fold_right]. rewrite IH. apply C. Qed.
Lemma total_split ids i f s : NoDup ids -> In i ids ->
  total ids f s = pending (f i) (total (remove Nat.eq_dec i ids) f s).
Proof.
  induction ids as [|k ids IH]; intros N I; [destruct I|]. inversion N as [|? ? Nk N']; subst. cbn [total fold_right remove].
  destruct (Nat.eq_dec i k) as [->|D].
  - rewrite notin_remove by auto. reflexivity.
  - destruct I as [->|I]; [congruence|]. cbn [fold_right]. change (fold_right _ s ids) with (total ids f s).
    rewrite IH by auto. change (fold_right _ s (remove Nat.eq_dec i ids)) with (total (remove Nat.eq_dec i ids) f s). apply pending_pending.
Qed.
Lemma total_change ids i f g s : NoDup ids -> In i ids -> (forall k, k <> i -> f k = g k) ->
  total ids f s = pending (f i) (total (remove Nat.eq_dec i ids) g s).
Proof.
  intros N I E. rewrite (total_split ids i f s N I). f_equal. apply total_ext. intros k Ik. apply E. intros ->.
  exact (remove_In Nat.eq_dec ids i Ik).
Qed.

(** The task of a connection when it has just been read. *)
Definition take (t : task cl (H := H)) (e : conn_event) : task cl (H := H) :=
  match t with TReading r => task_input ft cl rt r e | _ => t end.
Definition read_all (l : list conn_event) : task cl (H := H) := fold_left take l (TReading []).

Lemma inputs_snoc i (evs : list event) k e x : inputs i (evs ++ [(k, e, x)]) =
  inputs i evs ++ (if Nat.eqb k i then match e with TInput c => [c] | _ => [] end else []).
Proof.
  unfold inputs, own_events. rewrite filter_app, flat_map_app. cbn [filter on_task fst snd]. unfold on_task. cbn [fst].
  destruct (Nat.eqb k i); cbn [flat_map fst snd]; [rewrite app_nil_r|]; reflexivity.
Qed.
Lemma read_snoc l e : read_all (l ++ [e]) = take (read_all l) e.
Proof. unfold read_all. rewrite fold_left_app. reflexivity. Qed.
(** A task reads exactly as long as its input alone leaves it reading. *)
Definition as_read (t t0 : task cl (H := H)) : Prop :=
  match t with TReading r => t0 = TReading r | _ => forall r, t0 <> TReading r end.
(** What a task holds agrees with the verdict of its request. *)
Definition holds (i : nat) (evs : list event) (v : option (source cl)) (t : task cl (H := H)) : Prop :=
  match t with TWorking _ => verdict t = v | _ => ended ft cl i evs v t end.
Lemma ended_snoc i evs ev v (t : task cl (H := H)) : (forall sent, t <> TClosed sent) -> ended ft cl i evs v t -> ended ft cl i (evs ++ [ev]) v t.
Proof.
  intros N E. destruct t as [r|j|sent rest|sent|]; cbn [ended] in *; auto.
  - destruct E as (src & w & ho & E1 & E2 & E3). exists src, w, ho. split; [|split]; auto. apply in_or_app. auto.
  - destruct (N sent eq_refl).
Qed.
Lemma closed_snoc i evs ev v sent : ended ft cl i evs v (TClosed sent : task cl (H := H)) -> ended ft cl i (evs ++ [ev]) v (TClosed sent : task cl (H := H)).
Proof.
  intros (src & w & ho & rest & E1 & E2 & E3 & E4). exists src, w, ho, rest. split; [|split; [|split]]; auto.
  - apply in_or_app. auto.
  - intro W. apply E4. intros e x I. apply (W e x). apply in_or_app. auto.
Qed.
Lemma holds_snoc i evs ev v t : holds i evs v t -> holds i (evs ++ [ev]) v t.
Proof.
  intro E. destruct t as [r|j|sent rest|sent|]; cbn [holds] in *; auto.
  - apply ended_snoc; auto. discriminate.
  - apply closed_snoc; auto.
Qed.

Record good (ids : list nat) (s0 : ST) (evs : list event) (st : tasks_state cl (H := H) (ST := ST)) : Prop := {
  g_total : total ids (fun i => task_get cl i (tasks st)) (tshared st) = total ids (fun i => read_all (inputs i evs)) s0;
  g_read : forall i, as_read (task_get cl i (tasks st)) (read_all (inputs i evs));
  g_holds : forall i, holds i evs (verdict (read_all (inputs i evs))) (task_get cl i (tasks st)) }.

Lemma error_done w ho pos k : clock w <> None -> exists out, error_send ft w ho pos k (cl := cl) = Done out.
Proof.
  intro C. unfold error_send. unfold default_headers. cbn zeta.
  assert (T : exists t, time_now (clock w) = Done t) by (destruct (clock w) as [n|]; [apply now_total|congruence]).
  destruct T as [t Et]. rewrite Et. cbn [obind omap]. eauto.
Qed.
Lemma job_verdict i evs w ho s j : clock w <> None ->
  holds i (evs ++ [(i, TRun, (w, ho))]) (verdict (TWorking j)) (after_job (snd (job_step ft cl handle w ho [i] s j))).
Proof.
  intro C. assert (Iw : In (i, TRun, (w, ho)) (evs ++ [(i, TRun, (w, ho))])) by (apply in_or_app; right; now left).
  destruct j as [code|rq todo m ix res].
  - cbn [job_step snd]. destruct (error_done w ho [i] code C) as [out E]. rewrite E. cbn [compose after_job holds ended verdict].
    exists (FromError code), w, ho. auto.
  - destruct todo as [|todo].
    + cbn [job_step snd]. destruct (negb (has_body res)) eqn:Eb.
      * destruct (error_done w ho [i] StNotFound C) as [out E]. rewrite E. cbn [compose after_job holds ended verdict verdict_of].
        rewrite Eb. exists (FromError StNotFound), w, ho. auto.
      * cbn [compose after_job holds ended verdict verdict_of]. rewrite Eb. exists (FromResponse res), w, ho. split; [|split]; auto. reflexivity.
    + cbn [job_step verdict verdict_of]. unfold pick. cbn zeta.
      destruct (nth_error m _) as [v|]; [|reflexivity]. destruct (nth_error ix _) as [k|]; [|reflexivity].
      destruct (nth_error v k) as [mp|]; [|reflexivity]. rewrite Eh.
      destruct (snd (dec _ _ res)) as [[|]|]; cbn [fst snd after_job holds verdict should_continue verdict_of ended]; reflexivity.
Qed.

(** Events that change neither the input taken nor what is pending. *)
Lemma good_quiet ids s0 evs st i e w ho t : NoDup ids -> In i ids -> good ids s0 evs st ->
  read_all (inputs i (evs ++ [(i, e, (w, ho))])) = read_all (inputs i evs) ->
  pending t (tshared st) = pending (task_get cl i (tasks st)) (tshared st) ->
  (forall x, pending t x = x) -> (forall x, pending (task_get cl i (tasks st)) x = x) ->
  as_read t (read_all (inputs i evs)) -> holds i (evs ++ [(i, e, (w, ho))]) (verdict (read_all (inputs i evs))) t ->
  good ids s0 (evs ++ [(i, e, (w, ho))]) (TasksState (tshared st) (mset Nat.eqb i t (tasks st))).
Proof.
  intros N I G Er Ep P1 P2 Ar Hh. destruct G as [G1 G2 G3].
  assert (Eo : forall k, read_all (inputs k (evs ++ [(i, e, (w, ho))])) = read_all (inputs k evs)).
  { intro k. destruct (Nat.eqb_spec i k) as [<-|D]; auto. rewrite inputs_snoc. apply Nat.eqb_neq in D. rewrite D, app_nil_r. auto. }
  split.
  - cbn [tasks tshared]. rewrite (total_change ids i _ (fun k => task_get cl k (tasks st)) _ N I).
    2:{ intros k D. rewrite task_get_set. apply Nat.eqb_neq in D. rewrite D. reflexivity. }
    rewrite task_get_set, Nat.eqb_refl, P1. rewrite (total_split ids i _ _ N I), P2 in G1. rewrite G1. apply total_ext. auto.
  - intro k. cbn [tasks]. rewrite task_get_set, Eo. destruct (Nat.eqb_spec k i) as [->|D]; auto.
  - intro k. cbn [tasks]. rewrite task_get_set, Eo. destruct (Nat.eqb_spec k i) as [->|D]; auto. apply holds_snoc. auto.
Qed.
Lemma good_same ids s0 evs st i e w ho : good ids s0 evs st -> 
  read_all (inputs i (evs ++ [(i, e, (w, ho))])) = read_all (inputs i evs) -> good ids s0 (evs ++ [(i, e, (w, ho))]) st.
Proof.
  intros [G1 G2 G3] Er.
  assert (Eo : forall k, read_all (inputs k (evs ++ [(i, e, (w, ho))])) = read_all (inputs k evs)).
  { intro k. destruct (Nat.eqb_spec i k) as [<-|D]; auto. rewrite inputs_snoc. apply Nat.eqb_neq in D. rewrite D, app_nil_r. auto. }
  split.
  - rewrite G1. apply total_ext. auto.
  - intro k. rewrite Eo. auto.
  - intro k. rewrite Eo. apply holds_snoc. auto.
Qed.
Lemma taken_input r e : as_read (task_input ft cl rt r e) (task_input ft cl rt r e).
Proof. destruct (task_input ft cl rt r e); cbn [as_read]; auto; discriminate. Qed.
Lemma good_step ids s0 evs st i e w ho : NoDup ids -> In i ids -> clock w <> None -> good ids s0 evs st ->
  good ids s0 (evs ++ [(i, e, (w, ho))]) (step st (i, e, (w, ho))).
Proof.
  intros N I C G. pose proof G as [G1 G2 G3]. pose proof (G2 i) as R. pose proof (G3 i) as V. cbn [tasks_step].
  destruct (task_get cl i (tasks st)) as [rec|j|sent rest|sent|] eqn:Eg.
  - cbn [as_read] in R. destruct e as [c| |n|]; try (apply good_same; auto; rewrite inputs_snoc, Nat.eqb_refl, app_nil_r; reflexivity).
    assert (Ei : read_all (inputs i (evs ++ [(i, TInput c, (w, ho))])) = task_input ft cl rt rec c).
    { rewrite inputs_snoc, Nat.eqb_refl, read_snoc, R. reflexivity. }
    assert (Eo : forall k, k <> i -> read_all (inputs k (evs ++ [(i, TInput c, (w, ho))])) = read_all (inputs k evs)).
    { intros k D. rewrite inputs_snoc. apply Nat.neq_sym, Nat.eqb_neq in D. rewrite D, app_nil_r. auto. }
    split.
    + cbn [tasks tshared]. rewrite (total_change ids i _ (fun k => task_get cl k (tasks st)) _ N I).
      2:{ intros k D. rewrite task_get_set. apply Nat.eqb_neq in D. rewrite D. reflexivity. }
      rewrite task_get_set, Nat.eqb_refl. rewrite (total_change ids i (fun k => read_all (inputs k (evs ++ _))) (fun k => read_all (inputs k evs)) s0 N I Eo).
      rewrite Ei. f_equal. rewrite !(total_split ids i _ _ N I), Eg, R in G1. exact G1.
    + intro k. cbn [tasks]. rewrite task_get_set. destruct (Nat.eqb_spec k i) as [->|D].
      * rewrite Ei. apply taken_input.
      * rewrite Eo; auto.
    + intro k. cbn [tasks]. rewrite task_get_set. destruct (Nat.eqb_spec k i) as [->|D].
      * rewrite Ei. unfold task_input. destruct (resume _ _ _ _) as [r' rr]. destruct rr as [r0| | |]; cbn [holds ended verdict]; auto.
        destruct (job_of _ _ _ _); cbn [holds ended verdict]; auto.
      * rewrite Eo by auto. apply holds_snoc. auto.
  - cbn [as_read holds] in R, V.
    assert (Ei : read_all (inputs i (evs ++ [(i, e, (w, ho))])) = read_all (inputs i evs)).
    { rewrite inputs_snoc, Nat.eqb_refl. destruct e as [c| | |]; rewrite ?app_nil_r; auto. rewrite read_snoc. unfold take.
      destruct (read_all (inputs i evs)) eqn:Er; auto. destruct (R _ eq_refl). }
    assert (Eo : forall k, read_all (inputs k (evs ++ [(i, e, (w, ho))])) = read_all (inputs k evs)).
    { intro k. destruct (Nat.eqb_spec i k) as [<-|D]; auto. rewrite inputs_snoc. apply Nat.eqb_neq in D. rewrite D, app_nil_r. auto. }
    destruct e as [c| |n|]; try (apply good_same; auto; fail).
    pose proof (job_part w ho [i] (tshared st) j) as JP. pose proof (job_verdict i evs w ho (tshared st) j C) as JV.
    destruct (job_split w ho [i] (tshared st) j _ eq_refl) as (f & Ef & Cf).
    destruct (job_step ft cl handle w ho [i] (tshared st) j) as [s' r]. cbn [fst snd] in *.
    change (match r with JMore j' => TWorking j' | JSend out => TSending [] out | JPanic => TCrashed end) with (after_job r).
    split.
    + cbn [tasks tshared]. rewrite (total_change ids i _ (fun k => task_get cl k (tasks st)) _ N I).
      2:{ intros k D. rewrite task_get_set. apply Nat.eqb_neq in D. rewrite D. reflexivity. }
      rewrite task_get_set, Nat.eqb_refl. rewrite (total_ext ids _ _ s0 (fun k _ => Eo k)). rewrite <- G1.
      rewrite (total_split ids i _ _ N I), Eg, <- !total_pending, JP. reflexivity.
    + intro k. cbn [tasks]. rewrite task_get_set, Eo. destruct (Nat.eqb_spec k i) as [->|D]; auto.
      destruct r; cbn [after_job as_read]; exact R.
    + intro k. cbn [tasks]. rewrite task_get_set, Eo. destruct (Nat.eqb_spec k i) as [->|D]; [|apply holds_snoc; auto].
      rewrite <- V. exact JV.
  - cbn [as_read holds ended] in R, V.
    assert (Ei : read_all (inputs i (evs ++ [(i, e, (w, ho))])) = read_all (inputs i evs)).
    { rewrite inputs_snoc, Nat.eqb_refl. destruct e as [c| | |]; rewrite ?app_nil_r; auto. rewrite read_snoc. unfold take.
      destruct (read_all (inputs i evs)) eqn:Er; auto. destruct (R _ eq_refl). }
    destruct V as (src & w0 & ho0 & V1 & V2 & V3).
    assert (Ie : In (i, TRun, (w0, ho0)) (evs ++ [(i, e, (w, ho))])) by (apply in_or_app; auto).
    destruct e as [c| |n|]; try (apply good_same; auto; fail).
    + apply good_quiet; auto; rewrite ?Eg; auto.
      * destruct (_ || _); reflexivity.
      * destruct (_ || _); reflexivity.
      * destruct (_ || _); exact R.
      * destruct (Nat.eqb n 0 || Nat.leb (length rest) n) eqn:En; cbn [holds ended].
        -- exists src, w0, ho0, (skipn n rest). split; [|split; [|split]]; auto.
           ++ rewrite <- app_assoc, firstn_skipn. exact V3.
           ++ intro W. destruct (W (TAccept n) (w, ho)) as [_ Wn]; [apply in_or_app; right; now left|].
              apply skipn_all2. apply Bool.orb_true_iff in En. destruct En as [En|En].
              ** apply Nat.eqb_eq in En. subst n. congruence.
              ** apply Nat.leb_le in En. exact En.
        -- exists src, w0, ho0. split; [|split]; auto. rewrite <- app_assoc, firstn_skipn. exact V3.
    + apply good_quiet; auto; rewrite ?Eg; auto. cbn [holds ended]. exists src, w0, ho0, rest. split; [|split; [|split]]; auto.
      intro W. destruct (W TWriteError (w, ho)) as [X _]; [apply in_or_app; right; now left|congruence].
  - cbn [as_read] in R. apply good_same; auto. rewrite inputs_snoc, Nat.eqb_refl. destruct e as [c| | |]; rewrite ?app_nil_r; auto. rewrite read_snoc. unfold take.
    destruct (read_all (inputs i evs)) eqn:Er; auto. destruct (R _ eq_refl).
  - cbn [as_read] in R. apply good_same; auto. rewrite inputs_snoc, Nat.eqb_refl. destruct e as [c| | |]; rewrite ?app_nil_r; auto. rewrite read_snoc. unfold take.
    destruct (read_all (inputs i evs)) eqn:Er; auto. destruct (R _ eq_refl).
Qed.
Lemma good_run ids s0 evs : NoDup ids -> Forall (fun ev => clock (fst (snd ev)) <> None) evs ->
  (forall ev, In ev evs -> In (fst (fst ev)) ids) -> good ids s0 evs (runs (TasksState s0 []) evs).
Proof.
  intros N. induction evs as [|[[i e] [w ho]] evs IH] using rev_ind; intros C I.
  - split; intros; cbn; auto.
  - apply Forall_app in C. destruct C as [C1 C2]. inversion C2 as [|? ? C3]; subst. unfold tasks_run. rewrite fold_left_app. cbn [fold_left].
    apply good_step; auto.
    + apply (I (i, e, (w, ho))). apply in_or_app. right. now left.
    + apply IH; auto. intros ev Ie. apply I. apply in_or_app. auto.
Qed.
Lemma total_settled ids f s : (forall i j, f i <> TWorking j) -> total ids f s = s.
Proof.
  intro E. unfold total. induction ids as [|i ids IH]; auto. cbn [fold_right]. rewrite IH. specialize (E i). destruct (f i); auto. congruence.
Qed.
Theorem recorded_any_order (s0 : ST) evs evs' :
  Forall (fun ev => clock (fst (snd ev)) <> None) evs -> Forall (fun ev => clock (fst (snd ev)) <> None) evs' ->
  (forall i, inputs i evs = inputs i evs') ->
  let st := runs (TasksState s0 []) evs in let st' := runs (TasksState s0 []) evs' in
  settled cl st -> settled cl st' ->
  tshared st = tshared st' /\
  forall i, (forall r, task_get cl i (tasks st) = TReading r <-> task_get cl i (tasks st') = TReading r) /\
    exists v, ended ft cl i evs v (task_get cl i (tasks st)) /\ ended ft cl i evs' v (task_get cl i (tasks st')).
Proof.
  intros C C' Ein st st' S S'. set (ids := nodup Nat.eq_dec (map (fun ev => fst (fst ev)) (evs ++ evs'))).
  assert (N : NoDup ids) by apply NoDup_nodup.
  assert (Iids : forall ev, In ev (evs ++ evs') -> In (fst (fst ev)) ids).
  { intros ev Ie. apply nodup_In. apply (in_map (fun ev => fst (fst ev))). exact Ie. }
  destruct (good_run ids s0 evs N C (fun ev Ie => Iids ev (in_or_app _ _ _ (or_introl Ie)))) as [G1 G2 G3].
  destruct (good_run ids s0 evs' N C' (fun ev Ie => Iids ev (in_or_app _ _ _ (or_intror Ie)))) as [G1' G2' G3'].
  fold st in G1, G2, G3. fold st' in G1', G2', G3'. split.
  - rewrite (total_settled ids (fun i => task_get cl i (tasks st)) (tshared st) S) in G1.
    rewrite (total_settled ids (fun i => task_get cl i (tasks st')) (tshared st') S') in G1'.
    rewrite G1, G1'. apply total_ext. intros i _. rewrite Ein. reflexivity.
  - intro i. specialize (G2 i). specialize (G2' i). specialize (G3 i). specialize (G3' i). specialize (S i). specialize (S' i).
    rewrite <- Ein in G2', G3'. split.
    + intro r. destruct (task_get cl i (tasks st)), (task_get cl i (tasks st')); cbn [as_read] in G2, G2'; split; intro E; try discriminate E; try congruence;
        injection E as <-; try (exfalso; exact (G2 _ G2')); try (exfalso; exact (G2' _ G2)).
    + exists (verdict (read_all (inputs i evs))). split.
      * destruct (task_get cl i (tasks st)); cbn [holds ended] in *; auto.
      * destruct (task_get cl i (tasks st')); cbn [holds ended] in *; auto.
Qed.
End Record.

Theorem recorded_schedule ft cl (H ST : Type) (handle : H -> matched_request cl -> ST * response cl -> (ST * response cl) * outcome flow)
    (rt : router H) (s0 : ST) evs evs' : records cl handle ->
  Forall (fun ev => clock (fst (snd ev)) <> None) evs -> Forall (fun ev => clock (fst (snd ev)) <> None) evs' ->
  (forall i, inputs i evs = inputs i evs') ->
  let st := tasks_run ft cl handle rt (TasksState s0 []) evs in let st' := tasks_run ft cl handle rt (TasksState s0 []) evs' in
  settled cl st -> settled cl st' ->
  tshared st = tshared st' /\
  forall i, (forall r, task_get cl i (tasks st) = TReading r <-> task_get cl i (tasks st') = TReading r) /\
    exists v, ended ft cl i evs v (task_get cl i (tasks st)) /\ ended ft cl i evs' v (task_get cl i (tasks st')).
Proof. intros (upd & dec & Eh & Comm). eapply recorded_any_order; eauto. Qed.
