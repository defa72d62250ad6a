(** Many connections, accepting, starting up. *)
From Verif.Proofs Require Export ServerProofs.
From Verif.Spec Require Import Common PathSpec RoutingSpec TextSpec RequestSpec ResponseSpec ServerSpec.
Local Arguments N.mul : simpl never.
Local Arguments N.add : simpl never.
Local Arguments N.sub : simpl never.

(** ** More input does not change what has been decided *)
Definition grow (more : list str) (e : ending) (t : transport) : transport := Transport (segs t ++ more) e.

Lemma tr_read_grow k l more e r t : tr_read k (Transport l Stall) = IoDone (r, t) ->
  tr_read k (Transport (l ++ more) e) = IoDone (r, grow more e t) /\ fin t = Stall /\ r <> None.
Proof.
  unfold tr_read, grow. cbn [segs fin]. destruct l as [|s l]; [discriminate|]. cbn [app].
  destruct (Nat.leb (length s) k); intro E; injection E as <- <-; repeat split; auto; discriminate.
Qed.
Lemma head_loop_grow more e fuel : forall data l r, head_loop fuel data (Transport l Stall) = r ->
  r <> IoBlocked -> r <> IoFuel -> forall fuel', fuel <= fuel' ->
  match r with
  | IoDone (HeadOk hs rl rem t) => fin t = Stall /\
      head_loop fuel' data (Transport (l ++ more) e) = IoDone (HeadOk hs rl rem (grow more e t))
  | _ => head_loop fuel' data (Transport (l ++ more) e) = r
  end.
Proof.
  induction fuel as [|fuel IH]; intros data l r E Nb Nf fuel' L; [subst r; cbn in Nf; congruence|].
  destruct fuel' as [|fuel']; [lia|]. cbn [head_loop] in *.
  destruct (tr_read BUF (Transport l Stall)) as [[o t]| | |] eqn:Er; cbn [io_bind] in E; try congruence.
  - destruct (tr_read_grow _ _ more e _ _ Er) as (-> & Ft & No). cbn [io_bind].
    destruct o as [chunk|]; [|congruence].
    destruct (Nat.eqb (length chunk) 0); [subst r; auto|].
    destruct (find_in_slice (data ++ chunk) CRLFCRLF) as [i|].
    + destruct (utf8_valid _); [|subst r; auto].
      destruct (parse_without_body _) as [[rl hd]|]; subst r; auto.
    + destruct t as [l' f]. cbn [fin] in Ft. subst f. apply (IH _ _ _ E Nb Nf). lia.
  - exfalso. unfold tr_read in Er. cbn [segs fin] in Er. destruct l; [discriminate|]. destruct (Nat.leb _ _); discriminate.
Qed.
Lemma read_head_grow more e l r : read_head (Transport l Stall) = r ->
  r <> IoBlocked -> r <> IoFuel ->
  match r with
  | IoDone (HeadOk hs rl rem t) => fin t = Stall /\
      read_head (Transport (l ++ more) e) = IoDone (HeadOk hs rl rem (grow more e t))
  | _ => read_head (Transport (l ++ more) e) = r
  end.
Proof.
  intros E Nb Nf. unfold read_head in *. cbn [segs] in *. apply (head_loop_grow more e _ _ _ _ E Nb Nf).
  unfold total_len. rewrite map_app, list_sum_app. apply le_n_S, Nat.le_add_r.
Qed.
Lemma read_exact_grow more e l : forall n r, read_exact_segs n l Stall = IoDone r ->
  read_exact_segs n (l ++ more) e = IoDone r.
Proof.
  induction l as [|s l IH]; intros n r E; [discriminate|]. cbn [read_exact_segs app] in *.
  destruct (is_nil s); auto. destruct (Nat.leb n (length s)); auto.
  destruct (read_exact_segs (n - length s) l Stall) as [o| | |] eqn:E'; cbn [io_bind] in E; try discriminate.
  rewrite (IH _ _ E'). exact E.
Qed.
Lemma read_exact_kinds l e : forall n, read_exact_segs n l e <> IoPanic /\ read_exact_segs n l e <> IoFuel.
Proof.
  induction l as [|s l IH]; intro n; cbn [read_exact_segs].
  - destruct e; split; discriminate.
  - destruct (is_nil s); [split; discriminate|]. destruct (Nat.leb n (length s)); [split; discriminate|].
    destruct (IH (n - length s)) as [H1 H2].
    destruct (read_exact_segs (n - length s) l e); cbn [io_bind]; split; congruence.
Qed.
Lemma from_raw_grow more e ft cl h rl rem t r : fin t = Stall -> request_from_raw ft cl h rl rem t = r ->
  r <> IoBlocked -> request_from_raw ft cl h rl rem (grow more e t) = r.
Proof.
  intros Ft E Nb. unfold request_from_raw in *. destruct (0 <? content_length h)%N; auto.
  destruct (N.of_nat (length rem) <? content_length h)%N; auto.
  destruct (ISIZE_MAX <? _)%N; auto. cbn [grow segs fin]. rewrite Ft in E.
  pose proof (read_exact_kinds (segs t) Stall (N.to_nat (content_length h - N.of_nat (length rem)))) as [K1 K2].
  destruct (read_exact_segs _ (segs t) Stall) as [o| | |] eqn:Er; cbn [io_bind] in E; try congruence.
  rewrite (read_exact_grow more e _ _ _ Er). exact E.
Qed.
Lemma read_request_grow more e ft cl l r : read_request ft cl (Transport l Stall) = r ->
  r <> IoBlocked -> r <> IoFuel -> read_request ft cl (Transport (l ++ more) e) = r.
Proof.
  intros E Nb Nf. unfold read_request in *.
  pose proof (read_head_grow more e l (read_head (Transport l Stall)) eq_refl) as G.
  destruct (read_head (Transport l Stall)) as [[hs rl rem t|]| | |]; cbn [io_bind] in E; try congruence.
  - destruct G as [Ft ->]; try discriminate. cbn [io_bind]. destruct (headers_parse ft hs) as [h|]; auto.
    destruct (obind (request_line_parse ft rl) unwrap) as [rl'|]; cbn [io_of_outcome io_bind] in *; auto.
    pose proof (from_raw_grow more e ft cl h rl' rem t _ Ft eq_refl) as F.
    destruct (request_from_raw ft cl h rl' rem t) as [o| | |]; cbn [io_bind] in E; try congruence;
      rewrite F by discriminate; exact E.
  - rewrite G by discriminate. exact E.
  - rewrite G by discriminate. exact E.
Qed.
Lemma read_request_ends ft cl l : real_segments (Transport l Stall) ->
  forall e, e <> Stall -> read_request ft cl (Transport l e) <> IoBlocked.
Proof.
  intros R e He E. unfold read_request in E.
  pose proof (find_str_spec CRLFCRLF (stream_of (Transport l e))) as F.
  assert (R' : real_segments (Transport l e)) by exact R.
  pose proof (read_head_spec (Transport l e) R') as Hs.
  destruct (read_head (Transport l e)) as [[hs rl rem t|]| | |]; cbn [io_bind] in E; try discriminate.
  - destruct Hs as (a & _ & _ & _ & Ft & _). cbn [fin] in Ft.
    destruct (headers_parse ft hs) as [h|]; [|discriminate].
    destruct (obind _ _) as [rl'|]; cbn [io_of_outcome io_bind] in E; [|discriminate].
    unfold request_from_raw in E.
    assert (X : forall o : outcome (option (request cl)), io_bind (io_of_outcome o)
              (fun o => IoDone match o with Some rq => RdRequest rq | None => RdBad end) <> IoBlocked)
      by (intros [?|]; discriminate).
    destruct (0 <? content_length h)%N; [|exact (X _ E)].
    destruct (N.of_nat (length rem) <? content_length h)%N; [|exact (X _ E)].
    destruct (ISIZE_MAX <? _)%N; [discriminate|].
    assert (Y : forall l n, read_exact_segs n l (fin t) <> IoBlocked).
    { clear - Ft He. rewrite Ft. induction l as [|s l IH]; intro n; cbn [read_exact_segs]; [destruct e; congruence|].
      destruct (is_nil s); [discriminate|]. destruct (Nat.leb n (length s)); [discriminate|].
      specialize (IH (n - length s)). destruct (read_exact_segs _ l e); cbn [io_bind]; congruence. }
    specialize (Y (segs t) (N.to_nat (content_length h - N.of_nat (length rem)))).
    destruct (read_exact_segs _ _ _) as [[x|]| | |]; cbn [io_bind] in E; try congruence; try discriminate;
      destruct (ISIZE_MAX <? content_length h)%N; try discriminate; exact (X _ E).
  - destruct Hs as [_ Hs]. cbn [fin] in Hs. congruence.
Qed.
Lemma read_request_fuel ft cl t : real_segments t -> read_request ft cl t <> IoFuel.
Proof.
  intros R E. unfold read_request in E. pose proof (read_head_spec t R) as Hs.
  destruct (read_head t) as [[hs rl rem tl|]| | |]; cbn [io_bind] in E; try discriminate; [|contradiction].
  destruct (headers_parse ft hs) as [h|]; [|discriminate].
  destruct (obind _ _) as [rl'|]; cbn [io_of_outcome io_bind] in E; [|discriminate].
  unfold request_from_raw in E.
  assert (X : forall o : outcome (option (request cl)), io_bind (io_of_outcome o)
            (fun o => IoDone match o with Some rq => RdRequest rq | None => RdBad end) <> IoFuel)
    by (intros [?|]; discriminate).
  destruct (0 <? content_length h)%N; [|exact (X _ E)].
  destruct (N.of_nat (length rem) <? content_length h)%N; [|exact (X _ E)].
  destruct (ISIZE_MAX <? _)%N; [discriminate|].
  pose proof (read_exact_kinds (segs tl) (fin tl) (N.to_nat (content_length h - N.of_nat (length rem)))) as [K1 K2].
  destruct (read_exact_segs _ _ _) as [[x|]| | |]; cbn [io_bind] in E; try congruence; try discriminate;
      destruct (ISIZE_MAX <? content_length h)%N; try discriminate; exact (X _ E).
Qed.

(** ** Events *)
Lemma own_app {X} i (l l' : list (nat * conn_event * X)) : own i (l ++ l') = own i l ++ own i l'.
Proof. apply filter_app. Qed.
Lemma input_app l l' : fin (input_of l) = Stall ->
  input_of (l ++ l') = Transport (segs (input_of l) ++ segs (input_of l')) (fin (input_of l')).
Proof.
  induction l as [|[s| |] l IH]; intro F; cbn [app input_of segs fin] in *.
  - destruct (input_of l'); reflexivity.
  - rewrite IH by auto. reflexivity.
  - discriminate.
  - discriminate.
Qed.
Lemma input_ended l l' : fin (input_of l) <> Stall -> input_of (l ++ l') = input_of l.
Proof.
  induction l as [|[s| |] l IH]; intro F; cbn [app input_of segs fin] in *; auto; [congruence|].
  rewrite IH by auto. reflexivity.
Qed.
Lemma input_real {X} i (evs : list (nat * conn_event * X)) : real_events evs -> real_segments (input_of (events_of i evs)).
Proof.
  unfold events_of, own. induction 1 as [|[[j e] x] l He F IH]; [constructor|]. cbn [filter]. unfold on_conn at 1. cbn [fst].
  destruct (Nat.eqb j i); auto. cbn [map fst snd input_of]. cbn [snd fst] in He.
  destruct e; [|constructor|constructor]. constructor; auto. congruence.
Qed.

Section Conns.
Context (ft : features) (cl : cookie_lib) {H ST : Type}
  (handle : H -> matched_request cl -> ST * response cl -> (ST * response cl) * outcome flow).
Notation step := (server_step ft cl handle).
Notation runs := (server_run ft cl handle).
Notation rr := (read_request ft cl).

Lemma conn_get_set i j c l : conn_get i (mset Nat.eqb j c l) = if Nat.eqb i j then c else conn_get i l.
Proof.
  unfold conn_get. destruct (Nat.eqb_spec i j) as [->|N].
  - rewrite (mget_mset_same Nat.eqb Nat.eqb_eq). reflexivity.
  - rewrite (mget_mset_other Nat.eqb Nat.eqb_eq) by auto. reflexivity.
Qed.
Lemma step_other rt st j e x i : i <> j -> conn_get i (conns (step rt st (j, e, x))) = conn_get i (conns st).
Proof.
  intro N. destruct x as [w ho]. cbn [server_step]. destruct (conn_get j (conns st)) as [rec|out|]; auto.
  destruct (resume ft cl rec e) as [rec' [r| | |]]; cbn [conns]; try (rewrite conn_get_set; apply Nat.eqb_neq in N; rewrite N; reflexivity).
  destruct (respond ft cl handle w ho [j] rt (shared st) r) as [s' o]. cbn [conns]. rewrite conn_get_set.
  apply Nat.eqb_neq in N. rewrite N. reflexivity.
Qed.

(** ** Shared state *)
Lemma run_loop_inv {W} (exec : H -> varmap -> W -> W * outcome flow) (P : W -> Prop) :
  (forall h vars w, P w -> P (fst (exec h vars w))) ->
  forall total ms idx w, P w -> P (fst (run_loop exec ft total ms idx w)).
Proof.
  intro K. induction total as [|total IH]; intros ms idx w Pw; cbn [run_loop]; auto.
  destruct (nth_error ms _) as [v|]; auto. destruct (nth_error idx _) as [k|]; auto.
  destruct (nth_error v k) as [mp|]; auto.
  pose proof (K (closure (mp_data mp)) (if url_variables ft then mp_vars mp else []) w Pw) as K'.
  destruct (exec _ _ w) as [w' [f|]]; cbn [fst] in *; auto. destruct (should_continue f); auto.
Qed.
Lemma router_run_inv {W} (exec : H -> varmap -> W -> W * outcome flow) (P : W -> Prop) rt m path w :
  (forall h vars w, P w -> P (fst (exec h vars w))) -> P w -> P (fst (router_run exec ft rt m path w)).
Proof.
  intros K Pw. unfold router_run. destruct (run_matches ft rt m path); auto. apply run_loop_inv; auto.
Qed.
Lemma respond_inv (I : ST -> Prop) w ho pos rt s r : keeps I handle -> I s -> I (fst (respond ft cl handle w ho pos rt s r)).
Proof.
  intros K Is. destruct r as [|rq]; cbn [respond]; auto.
  destruct (err_bad_request _); auto. destruct (method_is_some _); auto.
  pose proof (router_run_inv (fun h vars => handle h (MatchedRequest rq vars)) (fun x => I (fst x)) rt
                (rl_method (rq_line rq)) (rl_path (rq_line rq)) (s, new_empty)) as X.
  destruct (router_run _ _ _ _ _ _) as [[s' res] [u|]]; cbn [fst] in X.
  - assert (I s') by (apply X; auto; intros h vars [s1 r1] J; apply K; exact J). destruct (has_body res); auto.
  - apply X; auto. intros h vars [s1 r1] J. apply K. exact J.
Qed.
Theorem shared_inv (I : ST -> Prop) rt evs : keeps I handle -> forall st, I (shared st) -> I (shared (runs rt st evs)).
Proof.
  intro K. unfold server_run. induction evs as [|[[j e] [w ho]] evs IH]; intros st Is; auto. cbn [fold_left]. apply IH.
  cbn [server_step]. destruct (conn_get j (conns st)) as [rec|out|]; auto.
  destruct (resume ft cl rec e) as [rec' [r| | |]]; auto.
  pose proof (respond_inv I w ho [j] rt (shared st) r K Is) as X.
  destruct (respond ft cl handle w ho [j] rt (shared st) r) as [s' o]. exact X.
Qed.
(** What a connection's state says about its own input. *)
Definition conn_ok (I : ST -> Prop) (rt : router H) (i : nat) (evs : list (nat * conn_event * (world * order))) (c : conn_state) : Prop :=
  let t := input_of (events_of i evs) in
  match c with
  | Running rec => rec = segs t /\ fin t = Stall /\ (events_of i evs <> [] -> rr t = IoBlocked)
  | Answered out => exists e w ho s s', I s /\ In (i, e, (w, ho)) evs /\ serve ft cl handle w ho [i] rt s t = (s', IoDone out)
  | Crashed => exists e w ho s s', I s /\ In (i, e, (w, ho)) evs /\ serve ft cl handle w ho [i] rt s t = (s', IoPanic)
  end.

Lemma serve_rr w ho pos rt s t t' : rr t = rr t' -> serve ft cl handle w ho pos rt s t = serve ft cl handle w ho pos rt s t'.
Proof. intro E. unfold serve. rewrite E. reflexivity. Qed.
Lemma serve_decided w ho pos rt s t s' r : serve ft cl handle w ho pos rt s t = (s', r) ->
  r <> IoBlocked -> r <> IoFuel -> rr t <> IoBlocked /\ rr t <> IoFuel.
Proof. unfold serve. intros E N1 N2. split; intro X; rewrite X in E; injection E as _ <-; congruence. Qed.
Lemma rr_extend l l' : rr (input_of l) <> IoBlocked -> rr (input_of l) <> IoFuel -> rr (input_of (l ++ l')) = rr (input_of l).
Proof.
  intros Nb Nf. destruct (fin (input_of l)) eqn:Ef.
  - rewrite input_ended by congruence. reflexivity.
  - rewrite input_ended by congruence. reflexivity.
  - rewrite input_app by auto. destruct (input_of l) as [sg f]. cbn [segs fin] in *. subst f.
    apply read_request_grow; auto.
Qed.

Theorem each_served (I : ST -> Prop) rt s0 evs i : keeps I handle -> I s0 -> real_events evs ->
  conn_ok I rt i evs (conn_get i (conns (runs rt (ServerState s0 []) evs))).
Proof.
  intros K I0. induction evs as [|ev evs IH] using rev_ind; intro R.
  - cbn. repeat split; auto.
  - apply Forall_app in R as [R Rl]. specialize (IH R). unfold server_run in *. rewrite fold_left_app. cbn [fold_left].
    pose proof (shared_inv I rt evs K (ServerState s0 []) I0) as Ist. unfold server_run in Ist.
    set (st := fold_left (step rt) evs (ServerState s0 [])) in *. destruct ev as [[j e] [w ho]].
    unfold conn_ok in *. unfold events_of in *. rewrite own_app, map_app.
    destruct (Nat.eqb_spec j i) as [->|N].
    2:{ rewrite step_other by auto. assert (O : own i [(j, e, (w, ho))] = []).
        { unfold own. cbn [filter]. unfold on_conn. cbn [fst]. apply Nat.eqb_neq in N. rewrite N. reflexivity. }
        rewrite O. cbn [map]. rewrite app_nil_r.
        destruct (conn_get i (conns st)); auto;
        destruct IH as (e1 & w1 & ho1 & s & s' & Is & In1 & E); exists e1, w1, ho1, s, s'; split; auto; split; auto; apply in_or_app; auto. }
    replace (map _ (own i [(i, e, (w, ho))])) with [e].
    2:{ unfold own. cbn [filter]. unfold on_conn. cbn [fst]. rewrite Nat.eqb_refl. reflexivity. }
    fold (events_of i evs) in *. cbn [server_step].
    destruct (conn_get i (conns st)) as [rec|out|] eqn:Eg.
    + destruct IH as (-> & Ef & Eb). rewrite (input_app _ [e] Ef).
      set (t' := Transport _ _).
      assert (Er : resume ft cl (segs (input_of (events_of i evs))) e = (segs t', rr t') /\ (fin t' = Stall \/ rr t' <> IoBlocked)).
      { pose proof (input_real i evs R) as Rr. unfold t'. destruct e as [sg| |]; cbn [resume input_of segs fin]; rewrite ?app_nil_r.
        - split; auto.
        - split; auto. right. apply read_request_ends; [exact Rr|discriminate].
        - split; auto. right. apply read_request_ends; [exact Rr|discriminate]. }
      assert (Rt : real_segments t').
      { pose proof (input_real i evs R) as Rr. unfold real_segments, t' in *. cbn [segs]. apply Forall_app. split; auto.
        inversion Rl as [|? ? He _]; subst. cbn [fst snd] in He. clear - He.
        destruct e as [sg| |]; [|constructor|constructor]. constructor; [congruence|constructor]. }
      destruct Er as [Er Es]. rewrite Er. pose proof (read_request_fuel ft cl t' Rt) as Nf.
      assert (Il : In (i, e, (w, ho)) (evs ++ [(i, e, (w, ho))])) by (apply in_or_app; right; left; auto).
      destruct (rr t') as [r| | |] eqn:Et; [| | |congruence].
      * destruct (respond ft cl handle w ho [i] rt (shared st) r) as [s' o] eqn:Eo. cbn [conns].
        rewrite conn_get_set, Nat.eqb_refl.
        assert (Sv : serve ft cl handle w ho [i] rt (shared st) t' = (s', io_of_outcome o))
          by (unfold serve; rewrite Et, Eo; reflexivity).
        destruct o as [out|]; cbn [io_of_outcome] in Sv; exists e, w, ho, (shared st), s'; auto.
      * cbn [conns]. rewrite conn_get_set, Nat.eqb_refl. exists e, w, ho, s0, s0. split; auto. split; auto. unfold serve. rewrite Et. auto.
      * cbn [conns]. rewrite conn_get_set, Nat.eqb_refl. split; auto. split; [destruct Es; congruence|auto].
    + rewrite Eg. destruct IH as (e1 & w1 & ho1 & s & s' & Is & In1 & E). exists e1, w1, ho1, s, s'. split; auto. split; [apply in_or_app; auto|].
      destruct (serve_decided _ _ _ _ _ _ _ _ E) as [D1 D2]; try discriminate. rewrite <- E. apply serve_rr. apply rr_extend; auto.
    + rewrite Eg. destruct IH as (e1 & w1 & ho1 & s & s' & Is & In1 & E). exists e1, w1, ho1, s, s'. split; auto. split; [apply in_or_app; auto|].
      destruct (serve_decided _ _ _ _ _ _ _ _ E) as [D1 D2]; try discriminate. rewrite <- E. apply serve_rr. apply rr_extend; auto.
Qed.

Lemma read_only_keeps s0 : read_only handle -> keeps (fun s => s = s0) handle.
Proof. intros K h mr s r ->. apply K. Qed.
Theorem independent rt evs i : read_only handle -> forall st,
  conn_get i (conns (runs rt st evs)) = conn_get i (conns (runs rt st (own i evs))).
Proof.
  intros K st. assert (X : forall st', conn_get i (conns st) = conn_get i (conns st') -> shared st = shared st' ->
     conn_get i (conns (runs rt st evs)) = conn_get i (conns (runs rt st' (own i evs)))); [|apply X; auto].
  unfold server_run, own. revert st. induction evs as [|[[j e] [w ho]] evs IH]; intros st st' Ec Es; auto.
  cbn [fold_left filter]. unfold on_conn at 1. cbn [fst]. destruct (Nat.eqb_spec j i) as [->|N].
  - cbn [fold_left]. apply IH.
    + cbn [server_step]. rewrite <- Ec, <- Es. destruct (conn_get i (conns st)) as [rec|out|] eqn:Eg; try congruence.
      destruct (resume ft cl rec e) as [rec' [r| | |]]; cbn [conns]; try (rewrite !conn_get_set, Nat.eqb_refl; reflexivity).
      destruct (respond ft cl handle w ho [i] rt (shared st) r) as [s' o]. cbn [conns]. rewrite !conn_get_set, Nat.eqb_refl. reflexivity.
    + pose proof (shared_inv (fun s => s = shared st) rt [(i, e, (w, ho))] (read_only_keeps _ K) st eq_refl) as A.
      pose proof (shared_inv (fun s => s = shared st') rt [(i, e, (w, ho))] (read_only_keeps _ K) st' eq_refl) as A'.
      unfold server_run in A, A'. cbn [fold_left] in A, A'. congruence.
  - apply IH.
    + rewrite step_other by auto. exact Ec.
    + pose proof (shared_inv (fun s => s = shared st) rt [(j, e, (w, ho))] (read_only_keeps _ K) st eq_refl) as A.
      unfold server_run in A. cbn [fold_left] in A. congruence.
Qed.
End Conns.

(** ** Accepting and starting *)
Lemma accept_all l : accept_loop (map AcOk l) = (l, false).
Proof. induction l as [|c l IH]; cbn; [|rewrite IH]; reflexivity. Qed.
Lemma accept_stops l rest : accept_loop (map AcOk l ++ AcErr :: rest) = (l, true).
Proof. induction l as [|c l IH]; cbn; [|rewrite IH]; reflexivity. Qed.

Lemma startup_shape tls os port : exists pre post, fst (octane_listen tls os port) = pre ++ EvCallback :: post /\
  ~ In EvCallback pre /\ ~ In EvCallback post /\ (forall p, ~ In (EvBound p) pre).
Proof.
  unfold octane_listen. destruct (server_builder_new os port) as [evs ok] eqn:E. cbn [fst].
  exists (if tls then [EvSslTask] else []), (evs ++ if ok then [EvAccepting] else []).
  split; [destruct tls; reflexivity|]. split; [destruct tls; cbn; intuition discriminate|].
  split; [|destruct tls; cbn; intuition discriminate].
  unfold server_builder_new in E.
  destruct (os_socket os), (os_nonblocking os), (os_bind os), (os_listen os), (os_reuse os); cbn [negb] in E;
    injection E as <- <-; try destruct (os_from_std os); cbn; intuition discriminate.
Qed.

(** ** Unbounded heads *)
Lemma buffered n : exists t, real_segments t /\ n <= length (stream_of t) /\ read_head t = IoBlocked.
Proof.
  exists (Transport (repeat [x61] n) Stall). assert (S : stream_of (Transport (repeat [x61] n) Stall) = repeat x61 n).
  { unfold stream_of. cbn [segs]. induction n; cbn; congruence. }
  split; [|split].
  - unfold real_segments. cbn [segs]. apply Forall_forall. intros x Hx. apply repeat_spec in Hx. subst. discriminate.
  - rewrite S, repeat_length. auto.
  - rewrite read_head_none; [reflexivity| |].
    + unfold real_segments. cbn [segs]. apply Forall_forall. intros x Hx. apply repeat_spec in Hx. subst. discriminate.
    + rewrite S. intros (i & a & b & E & _). assert (I : In x0d (repeat x61 n)).
      { rewrite E. apply in_or_app. right. left. reflexivity. }
      apply repeat_spec in I. discriminate.
Qed.
Definition big_header (n : nat) : header := Header (B "Host") (repeat x61 n).
Lemma big_good n : good_header true (big_header n) /\ clean (header_text (big_header n)).
Proof.
  assert (F : Forall (fun b => ~ rejected_ctl b) (repeat x61 n)).
  { apply Forall_forall. intros x Hx. apply repeat_spec in Hx. subst. intros [X|X]; vm_compute in X; discriminate. }
  split.
  - apply strict_good.
    + split; [discriminate|]. split; [cbn; intuition discriminate|]. intros _.
      repeat constructor; unfold tchar; vm_compute; intuition discriminate.
    + split; [|auto]. cbn [big_header h_value]. intros b r E. destruct n; [discriminate|]. injection E as <- _.
      intros [X|X]; discriminate.
    + cbn [big_header h_value]. clear F. induction n; auto.
  - unfold header_text. cbn [big_header h_name h_value]. rewrite !clean_app. split; [clean_lit|split; [clean_lit|]].
    split; intro I; apply repeat_spec in I; discriminate.
Qed.
