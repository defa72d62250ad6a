(** Lemmas behind Props/FeatureProps.v: features that an application does not use. *)
From Verif.Spec Require Import Common PathSpec RouteSpec RoutingSpec TextSpec RequestSpec ResponseSpec ServerSpec AppSpec ArriveSpec SwapSpec FeatureSpec.
From Verif.Model Require Import RustStd Path Request Time Status Response Router Server.
From Verif.Proofs Require Export SwapProofs ArriveProofs.

Lemma line_lax s' s line rl : (s' = true -> s = true) -> line_means s line rl -> line_means s' line rl.
Proof.
  intros L (m & p & first & ver & rest & A & A' & A'' & S & Q). exists m, p, first, ver, rest. do 3 (split; [auto|]). split; [auto|exact Q].
Qed.
Lemma block_lax s' s t hs : (s' = true -> s = true) -> header_block s t hs -> header_block s' t hs.
Proof.
  intros L (lines & P & F). exists lines. split; auto. clear P. induction F as [|l hd ls hs' [U (Vn & Vv & W)] F IH]; constructor; auto.
  split; auto. split; [|split; auto].
  - destruct Vn as (A & A' & A''). repeat split; auto.
  - destruct Vv as (A & A'). split; auto.
Qed.

Section Two.
Context (ft ft' : features) (cl : cookie_lib) {H ST : Type}.
Notation same_request := (same_request ft ft' (cl := cl)).

Definition cookies_there (cs : list (ck cl)) : list (ck cl) := if Bool.eqb (cookies_on ft) (cookies_on ft') then cs else [].
Lemma head_common a rl hs cs : no_stricter ft ft' -> common_request ft ft' hs -> head_means ft cl a rl hs cs ->
  head_means ft' cl a rl hs (cookies_there cs).
Proof.
  intros N C (V & rlt & hst & P & L & Bk & Cm). split; auto. exists rlt, hst. split; auto.
  split; [eapply line_lax; eauto|]. split; [eapply block_lax; eauto|]. unfold cookies_mean, cookies_there in *.
  destruct (cookies_on ft) eqn:E, (cookies_on ft') eqn:E'; cbn [Bool.eqb]; auto.
  rewrite C; auto. congruence.
Qed.
Lemma carries_common s rl hs cs body : no_stricter ft ft' -> common_request ft ft' hs ->
  carries ft cl s rl hs cs body -> carries ft' cl s rl hs (cookies_there cs) body.
Proof. intros N C (a & b & Ha & Hm & L & Li & Ch). exists a, b. split; auto. split; [eapply head_common; eauto|]. auto. Qed.

Lemma read_common t rl hs cs body : real_segments t -> no_stricter ft ft' -> common_request ft ft' hs ->
  carries ft cl (stream_of t) rl hs cs body ->
  exists rq rq', read_request ft cl t = IoDone (RdRequest rq) /\ read_request ft' cl t = IoDone (RdRequest rq') /\
    same_request rq rq' /\ rq_line rq = rl /\ (forall k, headers_get (rq_headers rq) k = folded k hs).
Proof.
  intros R N C (a & b & Ha & Hm & L & Li & _).
  destruct (arrival t a b R Ha) as (early & rest & Al & _). pose proof (head_common _ _ _ _ N C Hm) as Hm'.
  destruct (arrival_body ft cl t a b rl hs cs early R Ha Hm L Li Al) as (h & E & G & Gr).
  destruct (arrival_body ft' cl t a b rl hs _ early R Ha Hm' L Li Al) as (h' & E' & G' & Gr').
  do 2 eexists. split; [exact E|]. split; [exact E'|]. cbn. split; [|split; auto].
  split; [auto|]. split; [auto|]. split; [intro k; cbn; rewrite G, G'; auto|].
  split; [intros X X'; cbn; rewrite Gr, Gr'; auto|].
  intro X. cbn. unfold cookies_there. rewrite X, Bool.eqb_reflx. auto.
Qed.

Lemma matches_common pat path : Forall (fun seg : str => hd_error seg <> Some x3a) pat ->
  forall wv wv', route_matches wv pat path -> route_matches wv' pat path.
Proof.
  intros F wv wv' M.
  assert (E : pat = path /\ Forall (fun seg : str => hd_error seg <> Some x3a) pat).
  { split; auto. destruct wv; cbn [route_matches] in M.
    - induction M as [|p q ps qs S M IH]; auto. inversion F; subst. rewrite IH by auto. f_equal. destruct S as [(n & ->)|]; auto. now cbn in *.
    - induction M as [|p q ps qs [_ ->] M IH]; auto. inversion F; subst. rewrite IH by auto. auto. }
  destruct E as [<- _]. clear M. destruct wv'; cbn [route_matches]; (induction F as [|x l Fx F IH]; constructor; [|exact IH]); [right; auto|split; auto].
Qed.
Lemma binds_none pat path n v : Forall (fun seg : str => hd_error seg <> Some x3a) pat -> ~ binds pat path n v.
Proof. intros F (i & E & _). rewrite Forall_forall in F. apply nth_error_In in E. apply F in E. apply E. reflexivity. Qed.

Lemma calls_common (app : list (oreg H)) m path : m <> MAll -> common_routes ft ft' app ->
  Forall2 (same_call (H := H)) (calls_of ft m path (flatten app)) (calls_of ft' m path (flatten app)).
Proof.
  intros Hm C. destruct (Bool.bool_dec (url_variables ft) (url_variables ft')) as [E|E].
  { pose proof (calls_of_for ft m path app Hm) as X. pose proof (calls_of_for ft' m path app Hm) as Y. rewrite <- E in Y.
    eapply calls_for_same; eauto. }
  specialize (C E). eapply calls_for_same; [|apply calls_of_for; auto].
  destruct (calls_of_for ft m path app Hm) as (sel & S & I0). exists sel. revert S I0.
  generalize (calls_of ft m path (flatten app)). revert sel. induction (flatten app) as [|c l IH]; intros sel calls S F.
  { inversion S; subst. inversion F; subst. split; constructor. }
  assert (C' : forall v p h pat, In (RRoute v p h) l -> path_means p pat -> Forall (fun seg => hd_error seg <> Some x3a) pat)
    by (intros; eapply C; [right|]; eauto).
  assert (Ap : forall wv wv', applies wv m path c -> applies wv' m path c).
  { intros wv wv'. destruct c as [v p h|h]; cbn [applies]; auto. intros (Se & pat & P & M). split; auto. exists pat. split; auto.
    eapply matches_common; eauto. eapply C; [left|]; eauto. }
  inversion S as [|x k k' Px S'|x k k' Px S']; subst.
  - inversion F as [|? y ? ys I1 F']; subst. destruct (IH C' _ _ S' F') as [U V].
    split; [apply sel_yes; [eapply Ap; eauto|auto]|]. constructor; auto.
    destruct c as [v p h|h]; cbn [invokes] in *; auto. destruct I1 as (Eh & pat & P & V'). split; auto. exists pat. split; auto.
    assert (Q : Forall (fun seg : str => hd_error seg <> Some x3a) pat) by (eapply C; [left|]; eauto).
    intros n z. rewrite V'. split; intros [_ X]; destruct (binds_none pat path n z Q X).
  - destruct (IH C' _ _ S' F) as [U V]. split; [|exact V]. apply sel_no; [|exact U]. intro P. apply Px. eapply Ap; exact P.
Qed.

Context (handle : H -> matched_request cl -> ST * response cl -> (ST * response cl) * outcome flow).
Context (Lk : looks_up handle) (Use : uses_only_common ft ft' handle).
Lemma chain_common rq rq' : same_request rq rq' -> forall l l' x, Forall2 (same_call (H := H)) l l' ->
  run_chain (fun h vars => handle h (MatchedRequest rq vars)) l x = run_chain (fun h vars => handle h (MatchedRequest rq' vars)) l' x.
Proof.
  intros Sr l l' x F. revert x. induction F as [|[h v] [h' v'] l l' [Eh Ev] F IH]; intro x; cbn [run_chain]; auto.
  cbn [fst snd] in Eh, Ev. subst h'. rewrite (Lk h rq v v' x Ev), (proj1 Use h rq rq' v' x Sr).
  destruct (handle h (MatchedRequest rq' v') x) as [x' [[]|]]; auto.
Qed.
Lemma chain_no_cookies rq l : cookies_on ft <> cookies_on ft' -> forall x, rs_cookies (snd x) = [] ->
  rs_cookies (snd (fst (run_chain (fun h vars => handle h (MatchedRequest rq vars)) l x))) = [].
Proof.
  intro D. induction l as [|[h v] l IH]; intros x Ex; cbn [run_chain]; auto.
  pose proof (proj2 Use D h (MatchedRequest rq v) x Ex) as E.
  destruct (handle h (MatchedRequest rq v) x) as [x' [[]|]]; auto.
Qed.
Lemma data_common w ho pos (r : response cl) : (cookies_on ft <> cookies_on ft' -> rs_cookies r = []) ->
  get_data ft w ho pos r = get_data ft' w ho pos r.
Proof.
  intro C. unfold get_data, headers_block. destruct (Bool.bool_dec (cookies_on ft) (cookies_on ft')) as [E|E]; [rewrite E; auto|].
  rewrite (C E). destruct (cookies_on ft), (cookies_on ft'); reflexivity.
Qed.
Lemma error_common w ho pos k : error_send ft w ho pos k (cl := cl) = error_send ft' w ho pos k (cl := cl).
Proof.
  unfold error_send. unfold default_headers.
  destruct (time_now (clock w)) as [now|]; cbn [obind omap]; auto. f_equal. f_equal. apply data_common. intros _. reflexivity.
Qed.
Lemma respond_common o app (rt : router H) w ho pos s rq rq' : fits app -> build o app = Done rt -> common_routes ft ft' app ->
  rl_method (rq_line rq) <> MAll -> same_request rq rq' ->
  respond ft cl handle w ho pos rt s (RdRequest rq) = respond ft' cl handle w ho pos rt s (RdRequest rq').
Proof.
  intros Fi E C Hm Sr. pose proof Sr as (El & _ & G & _). cbn [respond]. rewrite <- El.
  assert (Ev : http_validate (rl_version (rq_line rq)) (rq_headers rq) = http_validate (rl_version (rq_line rq)) (rq_headers rq')).
  { unfold http_validate, http11_check, http10_check. rewrite !G. auto. }
  rewrite <- Ev. rewrite (error_common w ho pos StBadRequest), (error_common w ho pos StNotImplemented), (error_common w ho pos StNotFound).
  destruct (err_bad_request _); auto. destruct (method_is_some _); auto.
  destruct (build_run (fun h vars => handle h (MatchedRequest rq vars)) o app Fi) as (r & Eb & Run).
  destruct (build_run (fun h vars => handle h (MatchedRequest rq' vars)) o app Fi) as (r' & Eb' & Run').
  rewrite E in Eb, Eb'. injection Eb as <-. injection Eb' as <-. rewrite (Run ft), (Run' ft') by auto.
  pose proof (chain_common rq rq' Sr _ _ (s, new_empty) (calls_common app (rl_method (rq_line rq)) (rl_path (rq_line rq)) Hm C)) as Ec.
  pose proof (fun D => chain_no_cookies rq (calls_of ft (rl_method (rq_line rq)) (rl_path (rq_line rq)) (flatten app)) D (s, new_empty) eq_refl) as Nc.
  rewrite <- Ec. destruct (run_chain _ _ _) as [[s' res] [[]|]]; auto. cbn [fst snd] in Nc.
  rewrite (data_common w ho pos res Nc). auto.
Qed.
Theorem features_served o app (rt : router H) w ho pos s t rl hs cs body :
  fits app -> build o app = Done rt -> common_routes ft ft' app -> no_stricter ft ft' -> common_request ft ft' hs ->
  real_segments t -> carries ft cl (stream_of t) rl hs cs body ->
  serve ft cl handle w ho pos rt s t = serve ft' cl handle w ho pos rt s t.
Proof.
  intros Fi E C N Cr R Ca. destruct (read_common t rl hs cs body R N Cr Ca) as (rq & rq' & E1 & E2 & Sr & El & _).
  unfold serve. rewrite E1, E2.
  assert (Hm : rl_method (rq_line rq) <> MAll) by (rewrite El; eapply carries_method; eauto).
  rewrite (respond_common o app rt w ho pos s rq rq' Fi E C Hm Sr). reflexivity.
Qed.

(** Any connection, when the two programs are equally strict and both look at cookies or neither. *)
Lemma header_parse_same line : faithful ft = faithful ft' -> header_parse ft line = header_parse ft' line.
Proof. intro E. unfold header_parse. rewrite E. auto. Qed.
Lemma loop_same toks : faithful ft = faithful ft' -> forall a a', parsed a = parsed a' ->
  (raw_headers_on ft = true -> raw_headers_on ft' = true -> raw a = raw a') ->
  match headers_loop ft a toks, headers_loop ft' a' toks with
  | Some h, Some h' => parsed h = parsed h' /\ (raw_headers_on ft = true -> raw_headers_on ft' = true -> raw h = raw h')
  | None, None => True
  | _, _ => False
  end.
Proof.
  intro E. induction toks as [|tok toks IH]; intros a a' P Rw; cbn [headers_loop]; auto.
  destruct (utf8_valid tok); auto. rewrite (header_parse_same tok E). destruct (header_parse ft' tok) as [p|]; auto.
  apply IH; cbn [parsed raw]; [rewrite P; auto|]. intros X X'. rewrite X, X'. f_equal; auto.
Qed.
Lemma line_same l : faithful ft = faithful ft' -> request_line_parse ft l = request_line_parse ft' l.
Proof. intro E. unfold request_line_parse. rewrite E. auto. Qed.
Definition read_alike (x x' : io (read_result cl)) : Prop :=
  match x, x' with
  | IoDone (RdRequest rq), IoDone (RdRequest rq') => same_request rq rq'
  | IoDone _, IoDone _ => x = x'
  | IoPanic, IoPanic | IoBlocked, IoBlocked | IoFuel, IoFuel => True
  | _, _ => False
  end.
Lemma parse_same rl h h' body : cookies_on ft = cookies_on ft' -> parsed h = parsed h' ->
  (raw_headers_on ft = true -> raw_headers_on ft' = true -> raw h = raw h') ->
  read_alike (io_bind (io_of_outcome (request_parse ft cl rl h body)) (fun o => IoDone match o with Some rq => RdRequest rq | None => RdBad end))
             (io_bind (io_of_outcome (request_parse ft' cl rl h' body)) (fun o => IoDone match o with Some rq => RdRequest rq | None => RdBad end)).
Proof.
  intros E P Rw. unfold request_parse. rewrite E.
  assert (G : forall k, headers_get h k = headers_get h' k) by (intro k; unfold headers_get; rewrite P; auto).
  rewrite (G (B "cookie")).
  assert (Q : forall cs, same_request (Request rl h body cs) (Request rl h' body cs)) by (intro cs; repeat split; auto).
  destruct (cookies_on ft'); [destruct (headers_get h' (B "cookie")) as [v|]; [destruct (cookie_parse cl v) as [cs|]|]|]; cbn [obind io_of_outcome io_bind read_alike]; auto.
Qed.
Lemma read_same t : faithful ft = faithful ft' -> cookies_on ft = cookies_on ft' ->
  read_alike (read_request ft cl t) (read_request ft' cl t).
Proof.
  intros Ef Ec. unfold read_request. destruct (read_head t) as [[hs rlt rem later|]| | |]; cbn [io_bind read_alike]; auto.
  unfold headers_parse. destruct (spliterator_collect _ _) as [toks|]; [|exact I].
  pose proof (loop_same toks Ef (Headers [] []) (Headers [] []) eq_refl (fun _ _ => eq_refl)) as L.
  destruct (headers_loop ft _ toks) as [h|], (headers_loop ft' _ toks) as [h'|]; try contradiction; [|exact I].
  destruct L as [P Rw]. rewrite (line_same rlt Ef). destruct (request_line_parse ft' rlt) as [[rl|]|]; cbn [obind unwrap io_of_outcome io_bind]; try exact I.
  unfold request_from_raw. cbn zeta. assert (Cl : content_length h = content_length h') by (unfold content_length, headers_get; rewrite P; auto).
  rewrite Cl. destruct (0 <? content_length h')%N; [|apply parse_same; auto].
  destruct (_ <? content_length h')%N; [|apply parse_same; auto].
  destruct (ISIZE_MAX <? _)%N; [exact I|].
  destruct (read_exact_segs _ _ _) as [[temp|]| | |]; cbn [io_bind]; try exact I.
  destruct (ISIZE_MAX <? _)%N; [exact I|]. apply parse_same; auto.
Qed.
Theorem features_any o app (rt : router H) w ho pos s t :
  fits app -> build o app = Done rt -> common_routes ft ft' app -> faithful ft = faithful ft' -> cookies_on ft = cookies_on ft' ->
  real_segments t -> serve ft cl handle w ho pos rt s t = serve ft' cl handle w ho pos rt s t.
Proof.
  intros Fi E C Ef Ec R. pose proof (read_same t Ef Ec) as A. pose proof (read_request_cases ft cl t R) as X. unfold serve.
  destruct (read_request ft cl t) as [[|rq]| | |], (read_request ft' cl t) as [[|rq']| | |]; cbn [read_alike] in A; try contradiction; try discriminate; auto.
  - cbn [respond]. rewrite error_common. auto.
  - destruct X as (rl & hs & cs & body & Ca & (El & _)).
    assert (Hm : rl_method (rq_line rq) <> MAll) by (rewrite El; eapply carries_method; eauto).
    rewrite (respond_common o app rt w ho pos s rq rq' Fi E C Hm A). reflexivity.
Qed.
End Two.
Lemma laxer_carries ft ft' cl s rl hs cs body : no_stricter ft ft' -> common_request ft ft' hs -> carries ft cl s rl hs cs body ->
  exists cs', carries ft' cl s rl hs cs' body /\ (cookies_on ft = cookies_on ft' -> cs' = cs).
Proof.
  intros N C Ca. exists (cookies_there ft ft' cl cs). split; [apply carries_common; auto|].
  intro E. unfold cookies_there. rewrite E, Bool.eqb_reflx. auto.
Qed.
