(** Lemmas behind Props/MethodProps.v: requests nothing applies to, requests that differ in the method only,
    and handlers of mounted routers. *)
From Verif.Spec Require Import Common PathSpec RouteSpec RoutingSpec TextSpec RequestSpec ResponseSpec ServerSpec AppSpec MethodSpec.
From Verif.Model Require Import RustStd Path Request Time Status Response Router Server.
From Verif.Proofs Require Export AppProofs ConformProofs ExchangeProofs WatchProofs.

Section Sel.
Context {A : Type}.
Lemma selects_none (P : A -> Prop) l : Forall (fun c => ~ P c) l -> selects P l [].
Proof. induction 1; constructor; auto. Qed.
End Sel.

Lemma calls_of_yes {H : Type} ft m path (c : rreg H) : m <> MAll -> applies (url_variables ft) m path c ->
  calls_of ft m path [c] =
  match c with
  | RRoute _ p h => match path_parse p with Some pat => [(h, vars_of ft path pat)] | None => [] end
  | RAdd h => [(h, [])]
  end.
Proof.
  intros Hm A. destruct c as [v p h|h]; [|reflexivity]. destruct A as (Sv & pat & Pm & Rm). apply path_means_parse in Pm.
  unfold calls_of. cbn [flat_map]. rewrite Pm. rewrite (proj2 (serves_b v m Hm) Sv).
  rewrite (proj2 (match_b_spec ft path pat (parse_nonempty _ _ Pm)) Rm). reflexivity.
Qed.
Lemma calls_alike {H : Type} ft m m' path (l : list (rreg H)) : m <> MAll -> m' <> MAll ->
  Forall (fun c => applies (url_variables ft) m path c <-> applies (url_variables ft) m' path c) l ->
  calls_of ft m path l = calls_of ft m' path l.
Proof.
  intros Hm Hm' F. induction F as [|c l X F IH]; auto. rewrite (calls_of_cons _ m _ c l), (calls_of_cons _ m' _ c l), IH. f_equal.
  destruct (selects_some ft m path [c] Hm) as (sel & S). inversion S as [|x k k' Px S1|x k k' Px S1]; subst.
  - rewrite !calls_of_yes; tauto.
  - rewrite !calls_of_not; tauto.
Qed.

Section Serve.
Context (ft : features) (cl : cookie_lib) {H ST : Type}
  (handle : H -> matched_request cl -> ST * response cl -> (ST * response cl) * outcome flow).

Lemma router_idle {W : Type} (exec : H -> varmap -> W -> W * outcome flow) o app rt m path w :
  fits app -> build o app = Done rt -> m <> MAll ->
  nothing_for (url_variables ft) m path app -> router_run exec ft rt m path w = (w, Done tt).
Proof.
  intros F E Hm Nf. destruct (build_run exec o app F) as (r & E' & R). rewrite E in E'. injection E' as <-.
  rewrite R by auto. rewrite (calls_of_selected ft m path _ [] Hm (selects_none _ _ Nf)). reflexivity.
Qed.

Theorem nothing_applies o app rt w ho pos s t rl hs cs body :
  fits app -> build o app = Done rt -> clock w <> None -> real_segments t ->
  carries ft cl (stream_of t) rl hs cs body -> ~ lacks_host rl hs -> rl_method rl <> MNone ->
  nothing_for (url_variables ft) (rl_method rl) (rl_path rl) app ->
  exists out, serve ft cl handle w ho pos rt s t = (s, IoDone out) /\ error_answer (B "404") (B "NOT FOUND") out.
Proof.
  intros F E C R Ca NH NM Nf. unfold serve. pose proof (read_request_cases ft cl t R) as X.
  destruct (read_request ft cl t) as [[|rq]| | |].
  - exfalso. eapply bad_not_carried; eauto.
  - destruct X as (rl' & hs' & cs' & got & Ca' & Ri). destruct (carries_fun _ _ _ _ _ _ _ _ _ _ _ Ca Ca') as (<- & <- & <-).
    pose proof Ri as (El & _ & _ & G & _). cbn [respond]. rewrite El.
    destruct (err_bad_request _) eqn:Eh; [exfalso; apply NH; apply (host_check _ _ hs G); exact Eh|].
    assert (method_is_some (rl_method rl) = true) as -> by (destruct (rl_method rl) eqn:Em; auto; congruence).
    rewrite (router_idle _ o app rt _ _ _ F E (carries_method _ _ _ _ _ _ _ Ca) Nf). cbn [has_body rs_body new_empty body_is_some negb].
    destruct (send_404 (cl := cl) ft w ho pos C) as (out & -> & A). exists out. split; auto.
  - exfalso. destruct X as [X|X]; [eapply kills_not_carried; eauto|eapply borderline_not_carried; eauto].
  - exfalso. eapply waits_not_carried; eauto.
  - contradiction.
Qed.

Lemma line_method m p v hs cs a : head_means ft cl a (RequestLine m p v) hs cs -> m <> MAll.
Proof.
  intros (_ & rlt & hst & _ & Hl & _). apply request_line_iff in Hl. unfold request_line_parse in Hl.
  destruct (nth_error _ 0) as [m0|]; [|discriminate]. destruct (nth_error _ 1); [|discriminate].
  destruct (path_parse _); [|discriminate]. destruct (nth_error _ 2); [|discriminate].
  destruct (split_at _ _) as [[? ?]|]; [|discriminate]. cbn [obind] in Hl. destruct (_ && _); [discriminate|].
  injection Hl as <- _ _. unfold parse_method. repeat (destruct (seqb m0 _); [discriminate|]). discriminate.
Qed.

Lemma run_chain_ext {W : Type} (exec exec' : H -> varmap -> W -> W * outcome flow) :
  (forall h vars w, exec h vars w = exec' h vars w) -> forall l w, run_chain exec l w = run_chain exec' l w.
Proof.
  intros X l. induction l as [|[h vars] l IH]; intro w; auto. cbn [run_chain]. rewrite X.
  destruct (exec' h vars w) as [w' [[|]|]]; auto.
Qed.

Theorem only_method_differs o app rt w ho pos s t t' a a' b m m' p v hs cs :
  fits app -> build o app = Done rt -> real_segments t -> real_segments t' ->
  head_at (stream_of t) a b -> head_at (stream_of t') a' b ->
  head_means ft cl a (RequestLine m p v) hs cs -> head_means ft cl a' (RequestLine m' p v) hs cs ->
  announced hs = N.of_nat (length b) -> (announced hs <= ISIZE_MAX)%N ->
  m <> MNone -> m' <> MNone -> ignores_method handle -> alike_for (url_variables ft) m m' p app ->
  serve ft cl handle w ho pos rt s t = serve ft cl handle w ho pos rt s t'.
Proof.
  intros F E R R' Ha Ha' Hm Hm' An Ai Nm Nm' Ig Al. unfold serve.
  rewrite (value_read ft cl t a b _ hs cs R Ha Hm An Ai), (value_read ft cl t' a' b _ hs cs R' Ha' Hm' An Ai).
  cbn [respond rq_line rq_headers rl_version rl_method rl_path].
  destruct (err_bad_request _); auto.
  assert (method_is_some m = true) as -> by (destruct m; auto; congruence).
  assert (method_is_some m' = true) as -> by (destruct m'; auto; congruence).
  match goal with |- context [router_run ?e ft rt m p ?x] => set (ex := e); set (x0 := x) end.
  match goal with |- context [router_run ?e ft rt m' p x0] => set (ex' := e) end.
  assert (Q : router_run ex ft rt m p x0 = router_run ex' ft rt m' p x0).
  { pose proof (line_method _ _ _ _ _ _ Hm) as Lm. pose proof (line_method _ _ _ _ _ _ Hm') as Lm'.
    destruct (build_run ex o app F) as (r & E1 & R1). rewrite E in E1. injection E1 as <-.
    destruct (build_run ex' o app F) as (r & E1 & R1'). rewrite E in E1. injection E1 as <-.
    rewrite R1, R1' by auto. rewrite (calls_alike ft m m' p (flatten app) Lm Lm' Al). apply run_chain_ext. intros h vars y. unfold ex, ex'. apply Ig. }
  rewrite Q. reflexivity.
Qed.

(** ** Mounted routers *)
Lemma mounted_runs {W : Type} (exec : H -> varmap -> W -> W * outcome flow) o l1 s1 h s2 l2 rt m path :
  fits (l1 ++ OMount (s1 ++ RAdd h :: s2) :: l2) -> m <> MAll ->
  build o (l1 ++ OMount (s1 ++ RAdd h :: s2) :: l2) = Done rt ->
  exists pre post, forall w, router_run exec ft rt m path w = run_chain exec (pre ++ (h, []) :: post) w.
Proof.
  intros F Hm E. destruct (build_run exec o _ F) as (r & E' & R). rewrite E in E'. injection E' as <-.
  exists (calls_of ft m path (flatten l1 ++ s1)), (calls_of ft m path (s2 ++ flatten l2)). intro w. rewrite R by auto.
  rewrite flatten_app. change (flatten (OMount (s1 ++ RAdd h :: s2) :: l2)) with ((s1 ++ [RAdd h] ++ s2) ++ flatten l2).
  rewrite !calls_of_app, <- !app_assoc. reflexivity.
Qed.

Lemma mount_selection wv m path l1 (sub : list (rreg H)) l2 sel :
  Forall (fun c => ~ applies wv m path c) sub -> selects (applies wv m path) (flatten (l1 ++ l2)) sel ->
  selects (applies wv m path) (flatten (l1 ++ OMount sub :: l2)) sel.
Proof.
  intros N S. rewrite flatten_app in *. change (flatten (OMount sub :: l2)) with (sub ++ flatten l2).
  revert sel S. induction (flatten l1) as [|x l IH]; intros sel S.
  - cbn [app] in *. induction N; [exact S|]. cbn [app]. apply sel_no; auto.
  - cbn [app] in *. inversion S; subst; [apply sel_yes|apply sel_no]; auto.
Qed.

Theorem mounted_elsewhere o o' l1 sub l2 rt rt' w ho pos s t :
  fits (l1 ++ OMount sub :: l2) -> build o (l1 ++ OMount sub :: l2) = Done rt -> build o' (l1 ++ l2) = Done rt' ->
  real_segments t ->
  (forall rl hs cs body, carries ft cl (stream_of t) rl hs cs body ->
     Forall (fun c => ~ applies (url_variables ft) (rl_method rl) (rl_path rl) c) sub) ->
  serve ft cl handle w ho pos rt s t = serve ft cl handle w ho pos rt' s t.
Proof.
  intros F E E' R X. apply (serve_selection ft cl handle o o' (l1 ++ OMount sub :: l2) (l1 ++ l2) rt rt' w ho pos s t F); auto.
  - unfold fits in *. rewrite flatten_app in *. change (flatten (OMount sub :: l2)) with (sub ++ flatten l2) in F.
    rewrite !app_length in *. lia.
  - intros rl hs cs body Ca.
    destruct (selects_some ft (rl_method rl) (rl_path rl) (flatten (l1 ++ l2)) (carries_method _ _ _ _ _ _ _ Ca)) as (sel & S).
    exists sel. split; auto. apply mount_selection; eauto.
Qed.
Theorem mounted_routes_only o o' l1 sub l2 prefix rt rt' w ho pos s t :
  fits (l1 ++ OMount sub :: l2) -> build o (l1 ++ OMount sub :: l2) = Done rt -> build o' (l1 ++ l2) = Done rt' ->
  real_segments t -> (forall h, ~ In (RAdd h) sub) -> routes_below (url_variables ft) prefix sub ->
  (forall rl hs cs body, carries ft cl (stream_of t) rl hs cs body -> ~ below prefix (rl_path rl)) ->
  serve ft cl handle w ho pos rt s t = serve ft cl handle w ho pos rt' s t.
Proof.
  intros F E E' R Na Rb X. apply (mounted_elsewhere o o' l1 sub l2); auto.
  intros rl hs cs body Ca. apply Forall_forall. intros c Ic. destruct c as [v p h|h]; [|exfalso; eapply Na; eauto].
  intros (_ & pat & Pm & Rm). eapply X; eauto.
Qed.
End Serve.
