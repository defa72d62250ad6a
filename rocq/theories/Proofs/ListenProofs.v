(** The two listeners. *)
From Verif.Model Require Import Listen.
From Verif.Proofs Require Export ConnProofs ServerWitness.
From Verif.Spec Require Import Common PathSpec RoutingSpec TextSpec RequestSpec ResponseSpec ServerSpec ListenSpec.

Lemma lget_set i j (k : link) l : mget Nat.eqb i (mset Nat.eqb j k l) = if Nat.eqb i j then Some k else mget Nat.eqb i l.
Proof.
  destruct (Nat.eqb_spec i j) as [->|N].
  - apply (mget_mset_same Nat.eqb Nat.eqb_eq).
  - apply (mget_mset_other Nat.eqb Nat.eqb_eq). auto.
Qed.

Section Listen.
Context (ft : features) (cl : cookie_lib) {H ST : Type}
  (handle : H -> matched_request cl -> ST * response cl -> (ST * response cl) * outcome flow).
Notation step := (sys_step ft cl handle).
Notation run := (sys_run ft cl handle).
Implicit Types st : system (ST := ST).

Lemma accept_get i k st j : link_get j (accept_link i k st) =
  match link_get i st with None => if Nat.eqb j i then Some k else link_get j st | Some _ => link_get j st end.
Proof.
  unfold accept_link. destruct (link_get i st) eqn:E; auto. unfold link_get. cbn [sy_links]. apply lget_set.
Qed.
Lemma accept_rest i k st : sy_plain (accept_link i k st) = sy_plain st /\ sy_tls (accept_link i k st) = sy_tls st /\
  sy_server (accept_link i k st) = sy_server st.
Proof. unfold accept_link. destruct (link_get i st); auto. Qed.

(** ** Listeners *)
Lemma step_plain rt st ev : sy_plain (step rt st ev) = match ev with
  | SyPlain AcErr => match sy_plain st with LsAccepting => LsFailed | l => l end
  | _ => sy_plain st end.
Proof.
  destruct ev as [[i|]|[i|]|i ok|i e x]; cbn [sys_step].
  - destruct (sy_plain st) eqn:E; auto. rewrite (proj1 (accept_rest _ _ _)). exact E.
  - destruct (sy_plain st) eqn:E; auto.
  - destruct (sy_tls st) eqn:E; auto. apply accept_rest.
  - destruct (sy_tls st) eqn:E; auto.
  - destruct (link_get i st) as [[]|]; auto.
  - destruct (link_get i st) as [[]|]; auto.
Qed.
Lemma step_tls rt st ev : sy_tls (step rt st ev) = match ev with
  | SyTls AcErr => match sy_tls st with LsAccepting => LsFailed | l => l end
  | _ => sy_tls st end.
Proof.
  destruct ev as [[i|]|[i|]|i ok|i e x]; cbn [sys_step].
  - destruct (sy_plain st) eqn:E; auto. apply accept_rest.
  - destruct (sy_plain st) eqn:E; auto.
  - destruct (sy_tls st) eqn:E; auto. rewrite (proj1 (proj2 (accept_rest _ _ _))). exact E.
  - destruct (sy_tls st) eqn:E; auto.
  - destruct (link_get i st) as [[]|]; auto.
  - destruct (link_get i st) as [[]|]; auto.
Qed.
Theorem listeners rt evs : forall st,
  (sy_plain (run rt st evs) = LsAccepting <-> sy_plain st = LsAccepting /\ ~ In (SyPlain AcErr) evs) /\
  (sy_tls (run rt st evs) = LsAccepting <-> sy_tls st = LsAccepting /\ ~ In (SyTls AcErr) evs).
Proof.
  unfold sys_run. induction evs as [|ev evs IH]; intro st; cbn [fold_left].
  - cbn. tauto.
  - destruct (IH (step rt st ev)) as [-> ->]. rewrite step_plain, step_tls. cbn [In]. split; split.
    + intros [A C]. destruct ev as [[i|]|[i|]|i ok|i e x]; try (split; [exact A|intros [D|D]; [discriminate|auto]]).
      destruct (sy_plain st); discriminate.
    + intros [A C]. split; [|tauto]. destruct ev as [[i|]|[i|]|i ok|i e x]; auto. exfalso. apply C. auto.
    + intros [A C]. destruct ev as [[i|]|[i|]|i ok|i e x]; try (split; [exact A|intros [D|D]; [discriminate|auto]]).
      destruct (sy_tls st); discriminate.
    + intros [A C]. split; [|tauto]. destruct ev as [[i|]|[i|]|i ok|i e x]; auto. exfalso. apply C. auto.
Qed.

(** ** Links *)
Lemma step_link rt st ev j : link_get j (step rt st ev) = match ev with
  | SyPlain (AcOk i) => match sy_plain st, link_get i st with
                        | LsAccepting, None => if Nat.eqb j i then Some LkOpen else link_get j st
                        | _, _ => link_get j st end
  | SyTls (AcOk i) => match sy_tls st, link_get i st with
                      | LsAccepting, None => if Nat.eqb j i then Some LkHandshake else link_get j st
                      | _, _ => link_get j st end
  | SyHandshake i ok => match link_get i st with
                        | Some LkHandshake => if Nat.eqb j i then Some (if ok then LkOpen else LkRefused) else link_get j st
                        | _ => link_get j st end
  | _ => link_get j st
  end.
Proof.
  destruct ev as [[i|]|[i|]|i ok|i e x]; cbn [sys_step].
  - destruct (sy_plain st) eqn:E; auto. apply accept_get.
  - destruct (sy_plain st) eqn:E; auto.
  - destruct (sy_tls st) eqn:E; auto. apply accept_get.
  - destruct (sy_tls st) eqn:E; auto.
  - destruct (link_get i st) as [[]|] eqn:E; auto. unfold link_get. cbn [sy_links]. apply lget_set.
  - destruct (link_get i st) as [[]|] eqn:E; auto.
Qed.
Lemma step_server rt st ev : sy_server (step rt st ev) = match ev with
  | SyConn i e x => match link_get i st with Some LkOpen => server_step ft cl handle rt (sy_server st) (i, e, x) | _ => sy_server st end
  | _ => sy_server st
  end.
Proof.
  destruct ev as [[i|]|[i|]|i ok|i e x]; cbn [sys_step]; auto.
  - destruct (sy_plain st) eqn:E; auto. apply accept_rest.
  - destruct (sy_plain st) eqn:E; auto.
  - destruct (sy_tls st) eqn:E; auto. apply accept_rest.
  - destruct (sy_tls st) eqn:E; auto.
  - destruct (link_get i st) as [[]|]; auto.
  - destruct (link_get i st) as [[]|]; auto.
Qed.

(** Every connection accepted while the listener was still accepting has a link, and no other. *)
Definition accepted_plain rt st evs i : Prop := exists a b, evs = a ++ SyPlain (AcOk i) :: b /\ sy_plain (run rt st a) = LsAccepting.
Definition accepted_tls rt st evs i : Prop := exists a b, evs = a ++ SyTls (AcOk i) :: b /\ sy_tls (run rt st a) = LsAccepting.
Lemma run_app rt st a b : run rt st (a ++ b) = run rt (run rt st a) b.
Proof. apply fold_left_app. Qed.
Lemma link_kept rt evs i : forall st, link_get i st <> None -> link_get i (run rt st evs) <> None.
Proof.
  unfold sys_run. induction evs as [|ev evs IH]; intros st N; auto. cbn [fold_left]. apply IH. rewrite step_link.
  destruct ev as [[j|]|[j|]|j ok|j e x]; auto.
  - destruct (sy_plain st), (link_get j st); auto. destruct (Nat.eqb i j); auto. discriminate.
  - destruct (sy_tls st), (link_get j st); auto. destruct (Nat.eqb i j); auto. discriminate.
  - destruct (link_get j st) as [[]|]; auto. destruct (Nat.eqb i j); auto. discriminate.
Qed.
Theorem accepted_all rt evs i : forall st,
  link_get i (run rt st evs) <> None <->
  link_get i st <> None \/
  (exists a b, evs = a ++ SyPlain (AcOk i) :: b /\ sy_plain st = LsAccepting /\ ~ In (SyPlain AcErr) a) \/
  (exists a b, evs = a ++ SyTls (AcOk i) :: b /\ sy_tls st = LsAccepting /\ ~ In (SyTls AcErr) a).
Proof.
  intro st. split.
  - revert st. unfold sys_run. induction evs as [|ev evs IH]; intros st N; auto. cbn [fold_left] in N.
    destruct (IH _ N) as [L|[(a & b & -> & P & Q)|(a & b & -> & P & Q)]].
    + rewrite step_link in L. destruct ev as [[j|]|[j|]|j ok|j e x]; auto.
      * destruct (sy_plain st) eqn:Ep; auto. destruct (link_get j st) eqn:Ej; auto.
        destruct (Nat.eqb_spec i j) as [->|]; auto. right. left. exists [], evs. split; auto.
      * destruct (sy_tls st) eqn:Ep; auto. destruct (link_get j st) eqn:Ej; auto.
        destruct (Nat.eqb_spec i j) as [->|]; auto. right. right. exists [], evs. split; auto.
      * destruct (link_get j st) as [[]|] eqn:Ej; auto. destruct (Nat.eqb_spec i j) as [->|]; auto. left. congruence.
    + right. left. exists (ev :: a), b. split; auto. rewrite step_plain in P. cbn [In].
      destruct ev as [[j|]|[j|]|j ok|j e x]; try (split; [exact P|intros [X|X]; [discriminate|auto]]).
      destruct (sy_plain st); discriminate.
    + right. right. exists (ev :: a), b. split; auto. rewrite step_tls in P. cbn [In].
      destruct ev as [[j|]|[j|]|j ok|j e x]; try (split; [exact P|intros [X|X]; [discriminate|auto]]).
      destruct (sy_tls st); discriminate.
  - intros [L|[(a & b & -> & P & Q)|(a & b & -> & P & Q)]]; [apply link_kept; auto| |].
    + rewrite run_app. unfold sys_run at 1. cbn [fold_left]. apply link_kept. rewrite step_link.
      rewrite (proj2 (proj1 (listeners rt a st)) (conj P Q)).
      destruct (link_get i (run rt st a)) eqn:E; [congruence|]. rewrite Nat.eqb_refl. discriminate.
    + rewrite run_app. unfold sys_run at 1. cbn [fold_left]. apply link_kept. rewrite step_link.
      rewrite (proj2 (proj2 (listeners rt a st)) (conj P Q)).
      destruct (link_get i (run rt st a)) eqn:E; [congruence|]. rewrite Nat.eqb_refl. discriminate.
Qed.

(** ** The plain side on its own *)
Definition same_plain (tls_id : nat -> bool) (strong : Prop) st st' : Prop :=
  sy_plain st = sy_plain st' /\
  (forall i, tls_id i = false -> link_get i st = link_get i st' /\ link_get i st <> Some LkHandshake) /\
  (strong -> shared (sy_server st) = shared (sy_server st') /\
     forall i, tls_id i = false -> conn_get i (conns (sy_server st)) = conn_get i (conns (sy_server st'))).
Lemma server_shared rt s ev : read_only handle -> shared (server_step ft cl handle rt s ev) = shared s.
Proof.
  intro K. pose proof (shared_inv ft cl handle (fun x => x = shared s) rt [ev] (read_only_keeps cl handle _ K) s eq_refl) as A.
  exact A.
Qed.
Lemma server_own rt s s' i e x : conn_get i (conns s) = conn_get i (conns s') -> shared s = shared s' ->
  conn_get i (conns (server_step ft cl handle rt s (i, e, x))) = conn_get i (conns (server_step ft cl handle rt s' (i, e, x))).
Proof.
  intros Ec Es. destruct x as [w ho]. cbn [server_step]. rewrite <- Ec, <- Es.
  destruct (conn_get i (conns s)) as [rec|out|] eqn:Eg; try congruence.
  destruct (resume ft cl rec e) as [rec' [r| | |]]; cbn [conns]; try (rewrite !conn_get_set, Nat.eqb_refl; reflexivity).
  destruct (respond ft cl handle w ho [i] rt (shared s) r) as [s1 o]. cbn [conns]. rewrite !conn_get_set, Nat.eqb_refl. reflexivity.
Qed.
Lemma plain_same rt tls_id evs : separate tls_id evs -> forall st st', same_plain tls_id (read_only handle) st st' ->
  same_plain tls_id (read_only handle) (run rt st evs) (run rt st' (filter (plain_side tls_id) evs)).
Proof.
  unfold sys_run. induction evs as [|ev evs IH]; intros Sp st st' R; auto.
  assert (Sp' : separate tls_id evs) by (intro i; split; intro I; apply Sp; right; exact I).
  destruct R as (Rp & Rl & Rs). cbn [fold_left filter].
  assert (Alone : (forall i, tls_id i = false -> link_get i (step rt st ev) = link_get i st) ->
    sy_plain (step rt st ev) = sy_plain st ->
    (read_only handle -> shared (sy_server (step rt st ev)) = shared (sy_server st) /\
       forall i, tls_id i = false -> conn_get i (conns (sy_server (step rt st ev))) = conn_get i (conns (sy_server st))) ->
    same_plain tls_id (read_only handle) (step rt st ev) st').
  { intros A1 A2 A3. split; [congruence|]. split.
    - intros i Ti. rewrite A1 by auto. apply Rl; auto.
    - intro K. destruct (A3 K) as [B1 B2], (Rs K) as [B3 B4]. split; [congruence|]. intros i Ti. rewrite B2 by auto. auto. }
  destruct ev as [r|r|i ok|i e x]; cbn [plain_side].
  - cbn [fold_left]. apply IH; auto. split; [rewrite !step_plain, Rp; reflexivity|]. split.
    + intros j Tj. destruct (Rl j Tj) as [L1 L2]. rewrite !step_link. destruct r as [i|]; auto.
      assert (Ti : tls_id i = false) by (apply Sp; left; reflexivity). destruct (Rl i Ti) as [L3 L4].
      rewrite <- Rp, <- L3, <- L1. destruct (sy_plain st), (link_get i st); auto.
      destruct (Nat.eqb j i); split; auto; discriminate.
    + intro K. rewrite !step_server. destruct r; apply Rs; auto.
  - apply IH; auto. apply Alone.
    + intros j Tj. rewrite step_link. destruct r as [i|]; auto.
      assert (Ti : tls_id i = true) by (apply Sp; left; reflexivity).
      destruct (sy_tls st), (link_get i st); auto. destruct (Nat.eqb_spec j i); auto. congruence.
    + rewrite step_plain. reflexivity.
    + rewrite step_server. auto.
  - apply IH; auto. apply Alone.
    + intros j Tj. rewrite step_link. destruct (link_get i st) as [[]|] eqn:Ei; auto.
      destruct (Nat.eqb_spec j i) as [->|]; auto. destruct (Rl i Tj). congruence.
    + rewrite step_plain. reflexivity.
    + rewrite step_server. auto.
  - destruct (tls_id i) eqn:Ti; cbn [negb].
    + apply IH; auto. apply Alone.
      * intros j Tj. rewrite step_link. reflexivity.
      * rewrite step_plain. reflexivity.
      * intro K. rewrite step_server. destruct (link_get i st) as [[]|]; auto.
        rewrite server_shared by auto. split; auto. intros j Tj. apply step_other. congruence.
    + cbn [fold_left]. apply IH; auto. split; [rewrite !step_plain; exact Rp|]. split.
      * intros j Tj. rewrite !step_link. apply Rl. exact Tj.
      * intro K. rewrite !step_server. destruct (Rl i Ti) as [<- _]. destruct (Rs K) as [S1 S2].
        destruct (link_get i st) as [[]|]; auto. rewrite !server_shared by auto. split; auto.
        intros j Tj. destruct (Nat.eq_dec j i) as [->|Nj]; [apply server_own; auto|]. rewrite !step_other by auto. auto.
Qed.
Theorem plain_isolated rt tls_id evs tl f c os_tls tl' c' os_tls' os port s0 : separate tls_id evs ->
  let st := run rt (sys_start tl f c os_tls os port s0) evs in
  let st' := run rt (sys_start tl' TlsNone c' os_tls' os port s0) (filter (plain_side tls_id) evs) in
  sy_plain st = sy_plain st' /\ (forall i, tls_id i = false -> link_get i st = link_get i st') /\
  (read_only handle -> forall i, tls_id i = false -> conn_get i (conns (sy_server st)) = conn_get i (conns (sy_server st'))).
Proof.
  intros Sp st st'. destruct (plain_same rt tls_id evs Sp (sys_start tl f c os_tls os port s0) (sys_start tl' TlsNone c' os_tls' os port s0)) as (A & L & C).
  - split; [reflexivity|]. split; [|auto]. intros i _. split; [reflexivity|discriminate].
  - split; [exact A|]. split; [apply L|]. intros K i Ti. apply C; auto.
Qed.

(** ** Handshakes *)
Theorem gate rt evs i : forall st, link_get i st = None -> ~ In (SyPlain (AcOk i)) evs -> untouched i st ->
  ~ untouched i (run rt st evs) ->
  exists a b c, evs = a ++ SyTls (AcOk i) :: b ++ SyHandshake i true :: c /\
    untouched i (run rt st (a ++ SyTls (AcOk i) :: b)) /\
    link_get i (run rt st (a ++ SyTls (AcOk i) :: b)) = Some LkHandshake.
Proof.
  assert (P2 : forall evs st, link_get i st = Some LkRefused -> untouched i st -> untouched i (run rt st evs)).
  { unfold sys_run. clear evs. induction evs as [|ev evs IH]; intros st L U; auto. cbn [fold_left]. apply IH.
    - rewrite step_link. destruct ev as [[j|]|[j|]|j ok|j e x]; auto.
      + destruct (sy_plain st), (link_get j st) eqn:Ej; auto. destruct (Nat.eqb_spec i j) as [->|]; auto. congruence.
      + destruct (sy_tls st), (link_get j st) eqn:Ej; auto. destruct (Nat.eqb_spec i j) as [->|]; auto. congruence.
      + destruct (link_get j st) as [[]|] eqn:Ej; auto. destruct (Nat.eqb_spec i j) as [->|]; auto. congruence.
    - unfold untouched. rewrite step_server. destruct ev as [[j|]|[j|]|j ok|j e x]; auto.
      destruct (link_get j st) as [[]|] eqn:Ej; auto. rewrite step_other; auto. congruence. }
  assert (P1 : forall evs st, link_get i st = Some LkHandshake -> untouched i st -> ~ untouched i (run rt st evs) ->
    exists b c, evs = b ++ SyHandshake i true :: c /\ untouched i (run rt st b) /\ link_get i (run rt st b) = Some LkHandshake).
  { clear evs. induction evs as [|ev evs IH]; intros st L U N; [contradiction|].
    assert (D : ev = SyHandshake i true \/ ev = SyHandshake i false \/
                (link_get i (step rt st ev) = Some LkHandshake /\ untouched i (step rt st ev))).
    { destruct ev as [[j|]|[j|]|j ok|j e x]; [| | | |destruct (Nat.eq_dec j i) as [->|Nj]; [destruct ok; auto|]|];
        try (right; right; split; [rewrite step_link; auto|unfold untouched; rewrite step_server; auto]).
      - destruct (sy_plain st), (link_get j st) eqn:Ej; auto. destruct (Nat.eqb_spec i j) as [->|]; auto. congruence.
      - destruct (sy_tls st), (link_get j st) eqn:Ej; auto. destruct (Nat.eqb i j); auto.
      - destruct (link_get j st) as [[]|]; auto. destruct (Nat.eqb_spec i j); auto. congruence.
      - destruct (link_get j st) as [[]|] eqn:Ej; auto. rewrite step_other; auto. congruence. }
    destruct D as [->|[->|[L' U']]].
    - exists [], evs. repeat split; auto.
    - exfalso. apply N. unfold sys_run. cbn [fold_left]. apply P2.
      + rewrite step_link, L, Nat.eqb_refl. reflexivity.
      + unfold untouched. rewrite step_server. exact U.
    - destruct (IH _ L' U' N) as (b & c & -> & U2 & L2). exists (ev :: b), c. repeat split; auto. }
  induction evs as [|ev evs IH]; intros st L Np U N; [contradiction|].
  assert (Np' : ~ In (SyPlain (AcOk i)) evs) by (intro X; apply Np; right; exact X).
  assert (U' : untouched i (step rt st ev)).
  { unfold untouched. rewrite step_server. destruct ev as [[j|]|[j|]|j ok|j e x]; auto.
    destruct (link_get j st) as [[]|] eqn:Ej; auto. rewrite step_other; auto. congruence. }
  assert (D : ev = SyTls (AcOk i) /\ link_get i (step rt st ev) = Some LkHandshake \/ link_get i (step rt st ev) = None).
  { rewrite step_link. destruct ev as [[j|]|[j|]|j ok|j e x]; auto.
    - destruct (sy_plain st), (link_get j st); auto. destruct (Nat.eqb_spec i j) as [->|]; auto. exfalso. apply Np. left. reflexivity.
    - destruct (sy_tls st), (link_get j st); auto. destruct (Nat.eqb_spec i j) as [->|]; auto.
    - destruct (link_get j st) as [[]|] eqn:Ej; auto. destruct (Nat.eqb_spec i j) as [->|]; auto. congruence. }
  destruct D as [[-> L']|L'].
  - destruct (P1 evs _ L' U' N) as (b & c & -> & U2 & L2). exists [], b, c. repeat split; auto.
  - destruct (IH _ L' Np' U' N) as (a & b & c & -> & U2 & L2). exists (ev :: a), b, c. repeat split; auto.
Qed.
(** A failed handshake is as if the peer had said nothing. *)
Definition alike i st st' : Prop :=
  sy_plain st = sy_plain st' /\ sy_tls st = sy_tls st' /\ sy_server st = sy_server st' /\
  (forall j, j <> i -> link_get j st = link_get j st') /\ link_get i st = Some LkRefused /\ link_get i st' = Some LkHandshake.
Theorem refused_harmless rt evs i : forall st, link_get i st = Some LkHandshake ->
  let st1 := run rt st (SyHandshake i false :: evs) in let st2 := run rt st (others i evs) in
  sy_plain st1 = sy_plain st2 /\ sy_tls st1 = sy_tls st2 /\ sy_server st1 = sy_server st2 /\
  (forall j, j <> i -> link_get j st1 = link_get j st2) /\ link_get i st1 = Some LkRefused.
Proof.
  intros st L. assert (X : forall evs a b, alike i a b -> alike i (run rt a evs) (run rt b (others i evs))).
  { unfold sys_run, others. clear. induction evs as [|ev evs IH]; intros a b R; auto. pose proof R as (A1 & A2 & A3 & A4 & A5 & A6).
    cbn [fold_left filter]. destruct (of_conn i ev) eqn:O; cbn [negb].
    - apply IH. destruct ev as [r|r|j ok|j e x]; try discriminate; cbn [of_conn] in O; apply Nat.eqb_eq in O; subst j;
        cbn [sys_step]; rewrite A5; exact R.
    - cbn [fold_left]. apply IH. unfold alike. rewrite !step_plain, !step_tls, !step_server, <- A1, <- A2, <- A3.
      repeat split; auto.
      + destruct ev as [[j|]|[j|]|j ok|j e x]; auto. cbn [of_conn] in O. apply Nat.eqb_neq in O. rewrite (A4 j O). reflexivity.
      + intros k Nk. rewrite !step_link, <- A1, <- A2. destruct ev as [[j|]|[j|]|j ok|j e x]; auto.
        * destruct (Nat.eq_dec j i) as [->|Nj]; [rewrite A5, A6|rewrite <- (A4 j Nj)]; destruct (sy_plain a); auto.
          destruct (link_get j a); auto. destruct (Nat.eqb k j); auto.
        * destruct (Nat.eq_dec j i) as [->|Nj]; [rewrite A5, A6|rewrite <- (A4 j Nj)]; destruct (sy_tls a); auto.
          destruct (link_get j a); auto. destruct (Nat.eqb k j); auto.
        * cbn [of_conn] in O. apply Nat.eqb_neq in O. rewrite <- (A4 j O), <- (A4 k Nk). reflexivity.
      + rewrite step_link. destruct ev as [[j|]|[j|]|j ok|j e x]; auto.
        * destruct (sy_plain a), (link_get j a) eqn:Ej; auto. destruct (Nat.eqb_spec i j) as [->|]; auto. congruence.
        * destruct (sy_tls a), (link_get j a) eqn:Ej; auto. destruct (Nat.eqb_spec i j) as [->|]; auto. congruence.
        * destruct (link_get j a) as [[]|] eqn:Ej; auto. destruct (Nat.eqb_spec i j) as [->|]; auto. congruence.
      + rewrite step_link. destruct ev as [[j|]|[j|]|j ok|j e x]; auto.
        * destruct (sy_plain b), (link_get j b) eqn:Ej; auto. destruct (Nat.eqb_spec i j) as [->|]; auto. congruence.
        * destruct (sy_tls b), (link_get j b) eqn:Ej; auto. destruct (Nat.eqb i j); auto.
        * cbn [of_conn] in O. destruct (link_get j b) as [[]|] eqn:Ej; auto. rewrite Nat.eqb_sym, O. auto. }
  destruct (X evs (step rt st (SyHandshake i false)) st) as (B1 & B2 & B3 & B4 & B5 & _).
  - unfold alike. rewrite step_plain, step_tls, step_server. repeat split; auto.
    + intros j Nj. rewrite step_link, L. apply Nat.eqb_neq in Nj. rewrite Nj. reflexivity.
    + rewrite step_link, L, Nat.eqb_refl. reflexivity.
  - unfold sys_run in *. cbn [fold_left]. auto.
Qed.

(** ** What the connection tasks hear *)
Fixpoint heard rt st (evs : list sys_event) : list (nat * conn_event * (world * order)) :=
  match evs with
  | [] => []
  | ev :: r => match ev with
               | SyConn i e x => match link_get i st with Some LkOpen => [(i, e, x)] | _ => [] end
               | _ => []
               end ++ heard rt (step rt st ev) r
  end.
Lemma heard_run rt evs : forall st, sy_server (run rt st evs) = server_run ft cl handle rt (sy_server st) (heard rt st evs).
Proof.
  unfold sys_run, server_run. induction evs as [|ev evs IH]; intro st; auto. cbn [fold_left heard]. rewrite IH, fold_left_app.
  f_equal. rewrite step_server. destruct ev as [[j|]|[j|]|j ok|j e x]; auto. destruct (link_get j st) as [[]|]; auto.
Qed.
Lemma open_kept rt evs i : forall st, link_get i st = Some LkOpen -> link_get i (run rt st evs) = Some LkOpen.
Proof.
  unfold sys_run. induction evs as [|ev evs IH]; intros st L; auto. cbn [fold_left]. apply IH. rewrite step_link.
  destruct ev as [[j|]|[j|]|j ok|j e x]; auto.
  - destruct (sy_plain st), (link_get j st) eqn:E; auto. destruct (Nat.eqb_spec i j) as [->|]; auto.
  - destruct (sy_tls st), (link_get j st) eqn:E; auto. destruct (Nat.eqb_spec i j) as [->|]; auto. congruence.
  - destruct (link_get j st) as [[]|] eqn:E; auto. destruct (Nat.eqb_spec i j) as [->|]; auto. congruence.
Qed.
Lemma own_one i j e (x : world * order) : own i [(j, e, x)] = if Nat.eqb j i then [(j, e, x)] else [].
Proof. reflexivity. Qed.
Lemma heard_open rt evs i : forall st, link_get i st = Some LkOpen -> own i (heard rt st evs) = traffic i evs.
Proof.
  induction evs as [|ev evs IH]; intros st L; auto. cbn [heard]. rewrite own_app, IH by (apply (open_kept rt [ev] i st L)).
  destruct ev as [[j|]|[j|]|j ok|j e x]; auto. cbn [traffic]. destruct (Nat.eqb_spec j i) as [->|N].
  - rewrite L, own_one, Nat.eqb_refl. reflexivity.
  - destruct (link_get j st) as [[]|]; auto. rewrite own_one. apply Nat.eqb_neq in N. rewrite N. reflexivity.
Qed.
Lemma heard_sub rt evs i : forall st, traffic i evs = [] -> own i (heard rt st evs) = [].
Proof.
  induction evs as [|ev evs IH]; intros st L; auto. cbn [heard]. rewrite own_app.
  destruct ev as [[j|]|[j|]|j ok|j e x]; cbn [traffic] in L; try (apply IH; exact L).
  destruct (Nat.eqb j i) eqn:N; [discriminate|]. rewrite (IH _ L). destruct (link_get j st) as [[]|]; auto.
  rewrite own_one, N. reflexivity.
Qed.
Lemma heard_app rt a b : forall st, heard rt st (a ++ b) = heard rt st a ++ heard rt (run rt st a) b.
Proof.
  unfold sys_run. induction a as [|ev a IH]; intro st; auto. cbn [app heard fold_left]. rewrite IH, app_assoc. reflexivity.
Qed.
Lemma heard_closed rt evs i : forall st, link_get i (run rt st evs) <> Some LkOpen -> own i (heard rt st evs) = [].
Proof.
  induction evs as [|ev evs IH]; intros st L; auto. cbn [heard]. rewrite own_app. rewrite (IH (step rt st ev)) by exact L.
  destruct ev as [[j|]|[j|]|j ok|j e x]; auto. destruct (link_get j st) as [[]|] eqn:E; auto. rewrite own_one.
  destruct (Nat.eqb_spec j i) as [->|]; auto. exfalso. apply L. apply open_kept. exact E.
Qed.
Theorem all_heard rt st evs : exists l,
  sy_server (run rt st evs) = server_run ft cl handle rt (sy_server st) l /\
  (forall i a b, evs = a ++ b -> link_get i (run rt st a) = Some LkOpen -> traffic i a = [] -> own i l = traffic i b) /\
  (forall i, link_get i (run rt st evs) <> Some LkOpen -> own i l = []).
Proof.
  exists (heard rt st evs). split; [apply heard_run|]. split.
  - intros i a b -> L T. rewrite heard_app, own_app, (heard_sub rt a i st T). apply heard_open. exact L.
  - intro i. apply heard_closed.
Qed.
End Listen.

(** ** Setting up TLS *)
Lemma read_pem_some tl {A} (parse : str -> option A) path a :
  read_pem tl parse path = Some a <-> exists s, holds tl path s /\ parse s = Some a.
Proof.
  unfold read_pem, holds. destruct (tl_read tl path) as [| |s]; split; try discriminate; intro E.
  - destruct E as (s & X & _). discriminate.
  - destruct E as (s & X & _). discriminate.
  - eauto.
  - destruct E as (s' & X & E). injection X as <-. exact E.
Qed.
Theorem rustls_exact tl c :
  (forall certs k, rustls_acceptor tl c = Done (Some (certs, k)) <->
     exists kt ks ct, holds tl (ssl_key (cf_ssl c)) kt /\ tl_rsa_keys tl kt = Some (k :: ks) /\
       holds tl (ssl_cert (cf_ssl c)) ct /\ tl_certs tl ct = Some certs /\ tl_single_cert tl certs k = true) /\
  (rustls_acceptor tl c = Panic <-> exists kt, holds tl (ssl_key (cf_ssl c)) kt /\ tl_rsa_keys tl kt = Some []).
Proof.
  unfold rustls_acceptor, get_key, get_cert.
  pose proof (read_pem_some tl (tl_rsa_keys tl) (ssl_key (cf_ssl c))) as K.
  pose proof (read_pem_some tl (tl_certs tl) (ssl_cert (cf_ssl c))) as C.
  destruct (read_pem tl (tl_rsa_keys tl) _) as [[|k0 ks0]|].
  - split; [|split; auto; intros _; apply K; reflexivity]. intros certs k. split; [discriminate|].
    intros (kt & ks & ct & H1 & H2 & _). pose proof (proj2 (K _) (ex_intro _ kt (conj H1 H2))). discriminate.
  - split.
    + intros certs k. split.
      * intro E. destruct (read_pem tl (tl_certs tl) _) as [cs|]; [|discriminate].
        destruct (tl_single_cert tl cs k0) eqn:S; [|discriminate]. injection E as <- <-.
        destruct (proj1 (K _) eq_refl) as (kt & K1 & K2). destruct (proj1 (C _) eq_refl) as (ct & C1 & C2).
        exists kt, ks0, ct. auto.
      * intros (kt & ks & ct & H1 & H2 & H3 & H4 & H5). pose proof (proj2 (K _) (ex_intro _ kt (conj H1 H2))) as E. injection E as -> ->.
        rewrite (proj2 (C _) (ex_intro _ ct (conj H3 H4))), H5. reflexivity.
    + split; [destruct (read_pem tl (tl_certs tl) _) as [cs|]; [destruct (tl_single_cert _ _ _)|]; discriminate|].
      intros (kt & H1 & H2). pose proof (proj2 (K _) (ex_intro _ kt (conj H1 H2))). discriminate.
  - split.
    + intros certs k. split; [discriminate|]. intros (kt & ks & ct & H1 & H2 & _).
      pose proof (proj2 (K _) (ex_intro _ kt (conj H1 H2))). discriminate.
    + split; [discriminate|]. intros (kt & H1 & H2). pose proof (proj2 (K _) (ex_intro _ kt (conj H1 H2))). discriminate.
Qed.
Theorem openssl_exact tl c key cert : openssl_acceptor tl c = Some (key, cert) <->
  key = ssl_key (cf_ssl c) /\ cert = ssl_cert (cf_ssl c) /\
  tl_ossl_init tl = true /\ tl_ossl_key tl key = true /\ tl_ossl_chain tl cert = true.
Proof.
  unfold openssl_acceptor. split.
  - intro E. destruct (tl_ossl_init tl) eqn:E1; [|discriminate]. destruct (tl_ossl_key _ _) eqn:E2; [|discriminate].
    destruct (tl_ossl_chain _ _) eqn:E3; [|discriminate]. injection E as <- <-. auto.
  - intros (-> & -> & -> & -> & ->). reflexivity.
Qed.
Lemma socket_exact os port : snd (server_builder_new os port) = true <->
  os_socket os = true /\ os_nonblocking os = true /\ os_bind os = true /\ os_listen os = true /\ os_reuse os = true /\ os_from_std os = true.
Proof.
  destruct os as [[] [] [] [] [] []]; cbn; split; try tauto; try discriminate; intros (? & ? & ? & ? & ? & ?); discriminate.
Qed.
Theorem tls_listener_exact tl c os f :
  let ready := match f with
               | TlsNone => False
               | TlsRustls => exists a, rustls_acceptor tl c = Done (Some a)
               | TlsOpenssl => exists a, openssl_acceptor tl c = Some a
               end in
  let socket := os_socket os = true /\ os_nonblocking os = true /\ os_bind os = true /\ os_listen os = true /\
                os_reuse os = true /\ os_from_std os = true in
  (tls_listener tl f c os = LsAccepting <-> socket /\ ready) /\
  (tls_listener tl f c os = LsOff <-> f = TlsNone) /\
  (tls_listener tl f c os = LsPanicked <-> f = TlsRustls /\ socket /\ rustls_acceptor tl c = Panic).
Proof.
  intros ready socket. pose proof (socket_exact os (ssl_port (cf_ssl c))) as S. fold socket in S. clearbody socket.
  unfold tls_listener, tls_start. destruct (server_builder_new os (ssl_port (cf_ssl c))) as [evs ok]. cbn [snd] in S. destruct ok.
  - assert (So : socket) by (apply S; reflexivity). cbn [negb]. destruct f; cbn in ready; unfold ready.
    + split; [split; [discriminate|tauto]|]. split; [tauto|]. split; [discriminate|]. intros [E _]. discriminate.
    + destruct (openssl_acceptor tl c) as [a|].
      * split; [split; eauto|]. split; split; try discriminate. intros [E _]. discriminate.
      * split; [split; [discriminate|intros [_ [a E]]; discriminate]|]. split; split; try discriminate. intros [E _]. discriminate.
    + destruct (rustls_acceptor tl c) as [[a|]|].
      * split; [split; eauto|]. split; split; try discriminate. intros (_ & _ & E). discriminate.
      * split; [split; [discriminate|intros [_ [a E]]; discriminate]|]. split; split; try discriminate. intros (_ & _ & E). discriminate.
      * split; [split; [discriminate|intros [_ [a E]]; discriminate]|]. split; split; try discriminate; auto.
  - assert (So : ~ socket) by (intro X; apply S in X; discriminate). cbn [negb]. destruct f.
    + split; [split; [discriminate|tauto]|]. split; [tauto|]. split; [discriminate|]. tauto.
    + split; [split; [discriminate|tauto]|]. split; split; try discriminate; tauto.
    + split; [split; [discriminate|tauto]|]. split; split; try discriminate; tauto.
Qed.
Theorem tls_start_exact tl f c os : f <> TlsNone ->
  exists rest, fst (tls_start tl f c os) ++ rest = socket_steps (ssl_port (cf_ssl c)) /\
    (rest = [] <-> tls_listener tl f c os = LsAccepting) /\ (can_listen os -> rest = [] \/ rest = [EvAccepting]).
Proof.
  intro Nf. unfold tls_listener.
  assert (X : exists l, fst (tls_start tl f c os) = fst (server_builder_new os (ssl_port (cf_ssl c))) ++
                match l with LsAccepting => [EvAccepting] | _ => [] end /\ snd (tls_start tl f c os) = l /\
                (snd (server_builder_new os (ssl_port (cf_ssl c))) = false -> l <> LsAccepting)).
  { unfold tls_start. destruct f; [contradiction| |]; destruct (server_builder_new os (ssl_port (cf_ssl c))) as [evs ok];
      eexists; (split; [reflexivity|]); (split; [reflexivity|]); cbn [fst snd]; intros ->; discriminate. }
  destruct X as (l & -> & -> & Hl). generalize (ssl_port (cf_ssl c)), Hl. clear Hl. intros port Hl. unfold can_listen.
  destruct os as [[] [] [] [] [] []]; cbn [server_builder_new fst snd negb os_socket os_nonblocking os_bind os_listen os_reuse os_from_std] in *;
    try (exists (if match l with LsAccepting => true | _ => false end then [] else [EvAccepting]); destruct l; cbn;
         (split; [reflexivity|]); (split; [split; intro; congruence|auto]); fail);
    (destruct l; [|exfalso; apply Hl; reflexivity| |]);
    (eexists; split; [reflexivity|]; split; [split; intro X; discriminate X|]; intros (? & ? & ? & ? & ? & ?); discriminate).
Qed.
Theorem start_exact tls os port :
  (can_listen os -> octane_listen tls os port = (start_steps tls port, true)) /\
  (~ can_listen os -> snd (octane_listen tls os port) = false /\
     exists rest, rest <> [] /\ fst (octane_listen tls os port) ++ rest = start_steps tls port).
Proof.
  destruct os as [[] [] [] [] [] []]; (split; intro C; [destruct C as (C1 & C2 & C3 & C4 & C5 & C6); cbn in *; try discriminate; destruct tls; reflexivity|]);
    try (exfalso; apply C; repeat split; reflexivity); split; try reflexivity;
    unfold octane_listen, server_builder_new; cbn [os_socket os_nonblocking os_bind os_listen os_reuse os_from_std negb fst app];
    destruct tls; eexists; (split; [|reflexivity]); discriminate.
Qed.
Theorem start_state {ST} tl f c os_tls os port (s0 : ST) :
  let st := sys_start tl f c os_tls os port s0 in
  (sy_plain st = LsAccepting <-> can_listen os) /\ (sy_plain st = LsFailed <-> ~ can_listen os) /\
  (f = TlsNone -> sy_tls st = LsOff) /\
  (sy_tls st = LsAccepting <-> can_listen os_tls /\ match f with
                                                   | TlsNone => False
                                                   | TlsRustls => exists a, rustls_acceptor tl c = Done (Some a)
                                                   | TlsOpenssl => exists a, openssl_acceptor tl c = Some a
                                                   end) /\
  (forall i, link_get i st = None) /\ shared (sy_server st) = s0 /\ forall i, conn_get i (conns (sy_server st)) = Running [].
Proof.
  intro st. unfold st, sys_start. cbn [sy_plain sy_tls sy_server shared conns]. pose proof (socket_exact os port) as S. fold (can_listen os) in S.
  unfold plain_listener. destruct (snd (server_builder_new os port)).
  - assert (So : can_listen os) by (apply S; reflexivity). split; [tauto|]. split; [split; [discriminate|tauto]|].
    split; [intros ->; reflexivity|]. split; [exact (proj1 (tls_listener_exact tl c os_tls f))|]. auto.
  - assert (So : ~ can_listen os) by (intro X; apply S in X; discriminate). split; [split; [discriminate|tauto]|]. split; [tauto|].
    split; [intros ->; reflexivity|]. split; [exact (proj1 (tls_listener_exact tl c os_tls f))|]. auto.
Qed.
