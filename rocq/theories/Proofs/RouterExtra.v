(** Lemmas behind Props/RouterProps.v. *)
From Verif.Proofs Require Export RouterProofs.
From Verif.Spec Require Import Common PathSpec RouteSpec RoutingSpec.

Local Arguments method_eqb : simpl never.

Section Extra.
Context {H W : Type} (exec : H -> varmap -> W -> W * outcome flow).

Definition fits (l : list (oreg H)) : Prop := (N.of_nat (length (flatten l)) <= USIZE_MAX)%N.

Lemma mount_inline o1 o2 l1 sub l2 ft m path w r r' :
  fits (l1 ++ OMount sub :: l2) -> m <> MAll ->
  build o1 (l1 ++ OMount sub :: l2) = Done r ->
  build o2 (l1 ++ map inline sub ++ l2) = Done r' ->
  router_run exec ft r m path w = router_run exec ft r' m path w.
Proof.
  intros HB Hm E E'.
  assert (F : flatten (l1 ++ OMount sub :: l2) = flatten (l1 ++ map inline sub ++ l2)).
  { rewrite !flatten_app, flatten_inline. reflexivity. }
  refine (same_calls exec o1 o2 _ _ ft m path w r r' HB _ Hm E E' _).
  - unfold fits in HB. rewrite F in HB. exact HB.
  - rewrite F. reflexivity.
Qed.

Lemma calls_of_bad ft m path v p (h : H) : path_parse p = None -> calls_of ft m path [RRoute v p h] = [].
Proof. intro E. unfold calls_of. simpl. rewrite E. reflexivity. Qed.

Lemma fits_drop l1 c l2 : fits (l1 ++ c :: l2) -> fits (l1 ++ l2).
Proof.
  unfold fits. rewrite !flatten_app. simpl. rewrite !app_length. lia.
Qed.
Lemma reject_noop o1 o2 l1 v p h l2 ft m path w r r' :
  fits (l1 ++ ORoute v p h :: l2) -> m <> MAll -> path_parse p = None ->
  build o1 (l1 ++ ORoute v p h :: l2) = Done r -> build o2 (l1 ++ l2) = Done r' ->
  router_run exec ft r m path w = router_run exec ft r' m path w.
Proof.
  intros HB Hm Hp E E'. refine (same_calls exec o1 o2 _ _ ft m path w r r' HB _ Hm E E' _).
  - apply (fits_drop _ _ _ HB).
  - rewrite !flatten_app. change (flatten (ORoute v p h :: l2)) with ([RRoute v p h] ++ flatten l2).
    rewrite !calls_of_app, calls_of_bad; auto.
Qed.
Lemma reject_noop_sub o1 o2 l1 s1 v p h s2 l2 ft m path w r r' :
  fits (l1 ++ OMount (s1 ++ RRoute v p h :: s2) :: l2) -> m <> MAll -> path_parse p = None ->
  build o1 (l1 ++ OMount (s1 ++ RRoute v p h :: s2) :: l2) = Done r ->
  build o2 (l1 ++ OMount (s1 ++ s2) :: l2) = Done r' ->
  router_run exec ft r m path w = router_run exec ft r' m path w.
Proof.
  intros HB Hm Hp E E'. refine (same_calls exec o1 o2 _ _ ft m path w r r' HB _ Hm E E' _).
  - unfold fits in HB. rewrite flatten_app in *. simpl in *. rewrite !app_length in *. simpl in *.
    unfold nlen. rewrite !app_length. lia.
  - rewrite !flatten_app. simpl. rewrite !calls_of_app.
    change (RRoute v p h :: s2) with ([RRoute v p h] ++ s2).
    rewrite calls_of_app, calls_of_bad; auto.
Qed.
Lemma reject_result v (r : router H) p h r' :
  router_route v r p h = Done (r', RErr) <->
  path_parse p = None /\ exists x, router_route v r p h = Done x /\ fst x = r'.
Proof.
  unfold router_route, inject_method. destruct (path_parse p) as [pat|].
  - split; [|intros [E _]; discriminate].
    destruct (node_insert _ _ _); simpl; [|discriminate].
    destruct (add_usize _ _); simpl; discriminate.
  - split.
    + intro E. split; auto. eexists. split; [exact E|]. reflexivity.
    + intros (_ & x & E & <-). injection E as <-. reflexivity.
Qed.

Lemma add_result (r : router H) h r' res : router_add r h = Done (r', res) -> res = ROk.
Proof. unfold router_add. destruct (add_usize _ _); cbn [obind]; [congruence|discriminate]. Qed.
Lemma add_done (r : router H) h : (route_counter r < USIZE_MAX)%N -> exists x, router_add r h = Done x.
Proof.
  intro L. unfold router_add, add_usize. destruct (N.leb_spec (route_counter r + 1) USIZE_MAX); [|lia]. eexists. reflexivity.
Qed.

Lemma other_method o1 o2 l1 v p h l2 ft m path w r r' :
  fits (l1 ++ ORoute v p h :: l2) -> m <> MAll -> ~ serves v m ->
  build o1 (l1 ++ ORoute v p h :: l2) = Done r -> build o2 (l1 ++ l2) = Done r' ->
  router_run exec ft r m path w = router_run exec ft r' m path w.
Proof.
  intros HB Hm Hp E E'. refine (same_calls exec o1 o2 _ _ ft m path w r r' HB _ Hm E E' _).
  - apply (fits_drop _ _ _ HB).
  - rewrite !flatten_app. change (flatten (ORoute v p h :: l2)) with ([RRoute v p h] ++ flatten l2).
    rewrite !calls_of_app. f_equal.
    assert (X : calls_of ft m path [RRoute v p h] = []); [|rewrite X; reflexivity].
    unfold calls_of. simpl. destruct (path_parse p); auto.
    destruct (method_eqb m (verb_method v) || method_eqb MAll (verb_method v)) eqn:Eb; auto.
    apply serves_b in Eb; auto. contradiction.
Qed.
Lemma verb_all_every_method o ft l1 p (h : H) l2 m path : forall pat r,
  fits (l1 ++ ORoute VAll p h :: l2) -> m <> MAll -> path_means p pat ->
  route_matches (url_variables ft) pat path ->
  build o (l1 ++ ORoute VAll p h :: l2) = Done r ->
  exists pre vars post, forall w, router_run exec ft r m path w = run_chain exec (pre ++ (h, vars) :: post) w.
Proof.
  intros pat r HB Hm Hp Hmt E.
  destruct (build_run exec o _ HB) as (r1 & E1 & R). rewrite E in E1. injection E1 as <-.
  apply path_means_parse in Hp.
  exists (calls_of ft m path (flatten l1)), (vars_of ft path pat), (calls_of ft m path (flatten l2)).
  intro w. rewrite R by auto. rewrite flatten_app.
  change (flatten (ORoute VAll p h :: l2)) with ([RRoute VAll p h] ++ flatten l2).
  rewrite !calls_of_app. f_equal. f_equal.
  unfold calls_of at 1. simpl. rewrite Hp.
  replace (method_eqb m MAll || method_eqb MAll MAll) with true by (destruct m; reflexivity).
  rewrite (proj2 (match_b_spec ft path pat (parse_nonempty _ _ Hp)) Hmt). reflexivity.
Qed.

(** [c] is applicable and its handler always stops. *)
Definition handler_of (c : rreg H) : H := match c with RRoute _ _ h => h | RAdd h => h end.
Lemma stop_cuts o1 o2 l1 c l2 l2' ft m path w r r' :
  fits (l1 ++ inline c :: l2) -> fits (l1 ++ inline c :: l2') -> m <> MAll ->
  applies (url_variables ft) m path c ->
  (forall vars w, snd (exec (handler_of c) vars w) = Done FStop) ->
  build o1 (l1 ++ inline c :: l2) = Done r -> build o2 (l1 ++ inline c :: l2') = Done r' ->
  router_run exec ft r m path w = router_run exec ft r' m path w.
Proof.
  intros HB HB' Hm Ha Hs E E'.
  destruct (build_run exec o1 _ HB) as (r1 & E1 & R1). rewrite E in E1. injection E1 as <-.
  destruct (build_run exec o2 _ HB') as (r2 & E2 & R2). rewrite E' in E2. injection E2 as <-.
  rewrite R1, R2 by auto. rewrite !flatten_app.
  assert (F : forall l, flatten (inline c :: l) = [c] ++ flatten l) by (intro l; destruct c; reflexivity).
  rewrite !F, !calls_of_app.
  assert (Hc : exists vars, calls_of ft m path [c] = [(handler_of c, vars)]).
  { destruct (calls_of_spec ft m path [c] Hm) as (sel & S1 & S2).
    assert (Hsel : sel = [c]).
    { inversion S1 as [|? ? ? ? S3|? ? ? Hn S3]; subst; [inversion S3; auto|contradiction]. }
    subst sel. remember (calls_of ft m path [c]) as cs eqn:Ecs. clear Ecs. inversion S2 as [|? [h0 v0] ? ? Hi S3]; subst. inversion S3; subst.
    destruct c as [v p h|h]; simpl in Hi.
    - destruct Hi as (<- & _). eexists; reflexivity.
    - injection Hi as -> ->. eexists; reflexivity. }
  destruct Hc as (vars & ->). simpl. apply run_chain_app_stop. auto.
Qed.
Lemma all_next o ft l m path w :
  fits l -> m <> MAll -> (forall h vars w, snd (exec h vars w) = Done FNext) ->
  exists r sel calls, build o l = Done r /\
    selects (applies (url_variables ft) m path) (flatten l) sel /\
    Forall2 (invokes (url_variables ft) path) sel calls /\
    router_run exec ft r m path w =
      (fold_left (fun w c => fst (exec (fst c) (snd c) w)) calls w, Done tt).
Proof.
  intros HB Hm Hn. destruct (dispatch_correct exec o ft l m path w HB Hm) as (r & sel & calls & E & S1 & S2 & R).
  exists r, sel, calls. rewrite R. rewrite run_chain_all_next by auto. auto.
Qed.
Lemma no_panic o ft l m path w :
  fits l -> m <> MAll -> (forall h vars w, snd (exec h vars w) <> Panic) ->
  exists r, build o l = Done r /\ snd (router_run exec ft r m path w) = Done tt.
Proof.
  intros HB Hm Hn. destruct (dispatch_correct exec o ft l m path w HB Hm) as (r & sel & calls & E & S1 & S2 & R).
  exists r. split; auto. rewrite R. apply run_chain_no_panic; auto.
Qed.
Lemma own_variables o ft l m path w :
  fits l -> m <> MAll ->
  exists r calls, build o l = Done r /\
    router_run exec ft r m path w = run_chain exec calls w /\
    forall call, In call calls ->
      (exists v p pat, In (RRoute v p (fst call)) (flatten l) /\ path_means p pat /\
         route_matches (url_variables ft) pat path /\
         forall name val, mget seqb name (snd call) = Some val <->
                          (url_variables ft = true /\ binds pat path name val))
      \/ (In (RAdd (fst call)) (flatten l) /\ snd call = []).
Proof.
  intros HB Hm. destruct (dispatch_correct exec o ft l m path w HB Hm) as (r & sel & calls & E & S1 & S2 & R).
  exists r, calls. split; auto. split; auto. intros call Hc.
  assert (G : exists c, In c sel /\ invokes (url_variables ft) path c call).
  { clear - S2 Hc. induction S2; [contradiction|]. destruct Hc as [<-|Hc].
    - eexists; split; [left; reflexivity|auto].
    - destruct (IHS2 Hc) as (c & H1 & H2). exists c. split; [right; auto|auto]. }
  destruct G as (c & Hin & Hi). destruct (selects_In _ _ _ S1 c Hin) as [Hin2 Ha].
  destruct c as [v p h|h]; simpl in *.
  - left. destruct Hi as (-> & pat & Hp & Hv). destruct Ha as (_ & pat' & Hp' & Hmt).
    assert (pat' = pat) as ->.
    { apply path_means_parse in Hp. apply path_means_parse in Hp'. congruence. }
    exists v, p, pat. auto.
  - right. subst call. auto.
Qed.
Lemma serves_dec v m : m <> MAll -> {serves v m} + {~ serves v m}.
Proof. destruct v, m; simpl; intro; auto; right; congruence. Qed.
End Extra.

(** A concrete application used in the examples: handlers are numbers, the state is the list of
    calls made, handler 9 stops. *)
Definition tr_exec (h : nat) (vars : varmap) (w : list (nat * varmap))
  : list (nat * varmap) * outcome flow :=
  (w ++ [(h, vars)], Done (if Nat.eqb h 9 then FStop else FNext)).
Definition tr_app : list (oreg nat) :=
  [ORoute VGet (B "/u/:id") 1; OAdd 2; ORoute VGet (B "/../x") 8;
   OMount [RAdd 3; RRoute VPost (B "/u/:id") 4; RRoute VAll (B "/:a/:b") 5];
   ORoute VGet (B "u/7") 6; OAdd 9; OAdd 7].
