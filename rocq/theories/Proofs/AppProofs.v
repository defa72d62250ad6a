(** Lemmas behind Props/AppProps.v. *)
From Coq Require Import Permutation.
From Verif.Model Require Import RustStd Path Request Time Status Response Router Server Config Listen.
From Verif.Spec Require Import Common PathSpec RoutingSpec TextSpec RequestSpec ResponseSpec ServerSpec AppSpec.
From Verif.Proofs Require Import Basics PathProofs RouterProofs RouterExtra RequestProofs ServerProofs ConnProofs.

(** ** Only the selected registrations matter *)
Section Selection.
Context {H : Type}.
Lemma calls_of_cons ft m path (c : rreg H) l : calls_of ft m path (c :: l) = calls_of ft m path [c] ++ calls_of ft m path l.
Proof. apply (calls_of_app ft m path [c] l). Qed.
Lemma calls_of_not ft m path (c : rreg H) : m <> MAll -> ~ applies (url_variables ft) m path c -> calls_of ft m path [c] = [].
Proof.
  intros Hm N. destruct (calls_of_spec ft m path [c] Hm) as (sel & S & F).
  inversion S as [|x l l' P S1|x l l' P S1]; subst; [contradiction|]. inversion S1; subst. inversion F. auto.
Qed.
Lemma calls_of_selected ft m path (l sel : list (rreg H)) : m <> MAll ->
  selects (applies (url_variables ft) m path) l sel -> calls_of ft m path l = calls_of ft m path sel.
Proof.
  intros Hm S. induction S as [|x l l' P S IH|x l l' P S IH]; auto.
  - rewrite (calls_of_cons _ _ _ x l), (calls_of_cons _ _ _ x l'), IH. reflexivity.
  - rewrite calls_of_cons, calls_of_not, IH; auto.
Qed.

Lemma selects_drop {A} (P : A -> Prop) l1 x l2 sel : ~ P x ->
  selects P (l1 ++ x :: l2) sel -> selects P (l1 ++ l2) sel.
Proof.
  intro N. revert sel. induction l1 as [|y l1 IH]; intros sel S; cbn [app] in *.
  - inversion S; subst; [contradiction|auto].
  - inversion S; subst; [apply sel_yes|apply sel_no]; auto.
Qed.
Lemma selects_insert {A} (P : A -> Prop) l1 x l2 sel : ~ P x ->
  selects P (l1 ++ l2) sel -> selects P (l1 ++ x :: l2) sel.
Proof.
  intro N. revert sel. induction l1 as [|y l1 IH]; intros sel S; cbn [app] in *.
  - apply sel_no; auto.
  - inversion S; subst; [apply sel_yes|apply sel_no]; auto.
Qed.
Lemma selects_app {A} (P : A -> Prop) l l' m m' : selects P l m -> selects P l' m' -> selects P (l ++ l') (m ++ m').
Proof. intros S S'. induction S; cbn [app]; auto; [apply sel_yes|apply sel_no]; auto. Qed.
Lemma selects_some ft m path (l : list (rreg H)) : m <> MAll -> exists sel, selects (applies (url_variables ft) m path) l sel.
Proof. intro Hm. destruct (calls_of_spec ft m path l Hm) as (sel & S & _). eauto. Qed.
Lemma flatten_inline1 (c : rreg H) : flatten1 (inline c) = [c].
Proof. destruct c; reflexivity. Qed.
Lemma unrelated_selection ft m path l1 (c : rreg H) l2 : m <> MAll -> ~ applies (url_variables ft) m path c ->
  same_selection (url_variables ft) m path (l1 ++ inline c :: l2) (l1 ++ l2).
Proof.
  intros Hm N. destruct (selects_some ft m path (flatten (l1 ++ l2)) Hm) as (sel & S). exists sel. split; auto.
  rewrite flatten_app in *. unfold flatten at 2. cbn [flat_map]. rewrite flatten_inline1. apply selects_insert; auto.
Qed.
Lemma swapped_selection ft m path l1 (c d : rreg H) l2 : m <> MAll ->
  ~ (applies (url_variables ft) m path c /\ applies (url_variables ft) m path d) ->
  same_selection (url_variables ft) m path (l1 ++ inline c :: inline d :: l2) (l1 ++ inline d :: inline c :: l2).
Proof.
  intros Hm N. unfold same_selection. rewrite !flatten_app. unfold flatten at 2 4. cbn [flat_map]. rewrite !flatten_inline1. fold (flatten l2).
  destruct (selects_some ft m path (flatten l1) Hm) as (s1 & S1). destruct (selects_some ft m path (flatten l2) Hm) as (s2 & S2).
  destruct (selects_some ft m path [c] Hm) as (sc & Sc). destruct (selects_some ft m path [d] Hm) as (sd & Sd).
  exists (s1 ++ sc ++ sd ++ s2). split.
  - repeat apply selects_app; auto.
  - assert (X : sc ++ sd = sd ++ sc).
    { inversion Sc as [|x l l' P S|x l l' P S]; inversion Sd as [|y k k' Q T|y k k' Q T]; subst; try (inversion S; inversion T; subst); auto; tauto. }
    rewrite (app_assoc sc), X, <- app_assoc. repeat apply selects_app; auto.
Qed.
End Selection.

Section Runs.
Context {H W : Type} (exec : H -> varmap -> W -> W * outcome flow).
Theorem selection_decides o o' app app' r r' ft m path w :
  fits app -> fits app' -> m <> MAll -> build o app = Done r -> build o' app' = Done r' ->
  same_selection (url_variables ft) m path app app' ->
  router_run exec ft r m path w = router_run exec ft r' m path w.
Proof.
  intros F F' Hm E E' (sel & S & S'). apply (same_calls exec o o' app app'); auto.
  rewrite (calls_of_selected ft m path _ sel Hm S), (calls_of_selected ft m path _ sel Hm S'). reflexivity.
Qed.
End Runs.

Section Serve.
Context (ft : features) (cl : cookie_lib) {H ST : Type}.
Notation handler := (H -> matched_request cl -> ST * response cl -> (ST * response cl) * outcome flow).

Lemma respond_ext (handle handle' : handler) w ho pos rt rt' s rq :
  (rl_method (rq_line rq) <> MNone ->
   router_run (fun h vars => handle h (MatchedRequest rq vars)) ft rt (rl_method (rq_line rq)) (rl_path (rq_line rq)) (s, new_empty)
   = router_run (fun h vars => handle' h (MatchedRequest rq vars)) ft rt' (rl_method (rq_line rq)) (rl_path (rq_line rq)) (s, new_empty)) ->
  respond ft cl handle w ho pos rt s (RdRequest rq) = respond ft cl handle' w ho pos rt' s (RdRequest rq).
Proof.
  intro X. cbn [respond]. destruct (err_bad_request _); auto.
  destruct (method_is_some (rl_method (rq_line rq))) eqn:E; auto.
  rewrite X by (intro Y; rewrite Y in E; discriminate). reflexivity.
Qed.

Lemma serve_ext (handle handle' : handler) w ho pos rt rt' s t : real_segments t ->
  (forall rq rl hs cs body, carries ft cl (stream_of t) rl hs cs body -> request_is ft rq rl hs cs body ->
   router_run (fun h vars => handle h (MatchedRequest rq vars)) ft rt (rl_method rl) (rl_path rl) (s, new_empty)
   = router_run (fun h vars => handle' h (MatchedRequest rq vars)) ft rt' (rl_method rl) (rl_path rl) (s, new_empty)) ->
  serve ft cl handle w ho pos rt s t = serve ft cl handle' w ho pos rt' s t.
Proof.
  intros R X. unfold serve. pose proof (read_request_cases ft cl t R) as C.
  destruct (read_request ft cl t) as [[|rq]| | |]; auto.
  destruct C as (rl & hs & cs & body & Cs & Ri). rewrite (respond_ext handle handle' w ho pos rt rt' s rq); auto.
  intros _. pose proof (X rq rl hs cs body Cs Ri) as Y. destruct Ri as (-> & _). exact Y.
Qed.

Theorem serve_selection (handle : handler) o o' app app' rt rt' w ho pos s t :
  fits app -> fits app' -> build o app = Done rt -> build o' app' = Done rt' -> real_segments t ->
  (forall rl hs cs body, carries ft cl (stream_of t) rl hs cs body ->
     same_selection (url_variables ft) (rl_method rl) (rl_path rl) app app') ->
  serve ft cl handle w ho pos rt s t = serve ft cl handle w ho pos rt' s t.
Proof.
  intros F F' E E' R X. apply serve_ext; auto. intros rq rl hs cs body C Ri.
  eapply (selection_decides _ o o' app app'); eauto. eapply carries_method; eauto.
Qed.

Theorem unrelated_added (handle : handler) o o' l1 c l2 rt rt' w ho pos s t :
  fits (l1 ++ inline c :: l2) -> build o (l1 ++ inline c :: l2) = Done rt -> build o' (l1 ++ l2) = Done rt' ->
  real_segments t ->
  (forall rl hs cs body, carries ft cl (stream_of t) rl hs cs body ->
     ~ applies (url_variables ft) (rl_method rl) (rl_path rl) c) ->
  serve ft cl handle w ho pos rt s t = serve ft cl handle w ho pos rt' s t.
Proof.
  intros F E E' R X. apply (serve_selection handle o o' (l1 ++ inline c :: l2) (l1 ++ l2) rt rt' w ho pos s t F); auto.
  - clear - F. unfold fits in *. rewrite flatten_app, app_length in *. unfold flatten at 2 in F. cbn [flat_map] in F.
    rewrite app_length in F. fold (flatten l2) in F. lia.
  - intros rl hs cs body C. apply unrelated_selection; eauto. eapply carries_method; eauto.
Qed.
Theorem unrelated_swapped (handle : handler) o o' l1 c d l2 rt rt' w ho pos s t :
  fits (l1 ++ inline c :: inline d :: l2) -> build o (l1 ++ inline c :: inline d :: l2) = Done rt ->
  build o' (l1 ++ inline d :: inline c :: l2) = Done rt' -> real_segments t ->
  (forall rl hs cs body, carries ft cl (stream_of t) rl hs cs body ->
     ~ (applies (url_variables ft) (rl_method rl) (rl_path rl) c /\ applies (url_variables ft) (rl_method rl) (rl_path rl) d)) ->
  serve ft cl handle w ho pos rt s t = serve ft cl handle w ho pos rt' s t.
Proof.
  intros F E E' R X. apply (serve_selection handle o o' (l1 ++ inline c :: inline d :: l2) (l1 ++ inline d :: inline c :: l2) rt rt' w ho pos s t F); auto.
  - clear - F. unfold fits in *. rewrite flatten_app, app_length in *. unfold flatten at 2. unfold flatten at 2 in F. cbn [flat_map] in *.
    rewrite !flatten_inline1, !app_length in *. cbn [length] in *. lia.
  - intros rl hs cs body C. apply swapped_selection; eauto. eapply carries_method; eauto.
Qed.

(** ** Variables *)
Lemma binds_in pat path name val : binds pat path name val -> In val path.
Proof. intros (i & _ & E & _). eapply nth_error_In; eauto. Qed.
Lemma run_chain_ext {W} (exec exec' : H -> varmap -> W -> W * outcome flow) calls :
  Forall (fun c => forall w, exec (fst c) (snd c) w = exec' (fst c) (snd c) w) calls ->
  forall w, run_chain exec calls w = run_chain exec' calls w.
Proof.
  induction 1 as [|[h v] l E F IH]; intro w; auto. cbn [run_chain fst snd] in *. rewrite E.
  destruct (exec' h v w) as [w' [[]|]]; auto.
Qed.
Theorem variables_safe (handle handle' : handler) o app rt w ho pos s t :
  fits app -> build o app = Done rt -> real_segments t ->
  (forall h mr x, safe_variables mr -> handle h mr x = handle' h mr x) ->
  serve ft cl handle w ho pos rt s t = serve ft cl handle' w ho pos rt s t.
Proof.
  intros F E R A. apply serve_ext; auto. intros rq rl hs cs body C Ri.
  pose proof (carries_method _ _ _ _ _ _ _ C) as Hm.
  destruct (build_run (fun h vars => handle h (MatchedRequest rq vars)) o app F) as (r1 & E1 & X1).
  destruct (build_run (fun h vars => handle' h (MatchedRequest rq vars)) o app F) as (r2 & E2 & X2).
  rewrite E in E1, E2. injection E1 as <-. injection E2 as <-. rewrite X1, X2 by auto.
  apply run_chain_ext.
  destruct (calls_of_spec ft (rl_method rl) (rl_path rl) (flatten app) Hm) as (sel & S & I).
  assert (P : Forall (fun c => normal c /\ no_slash c) (rl_path rl)).
  { destruct C as (a & b & _ & (_ & rlt & hst & _ & L & _) & _).
    destruct L as (m & p & first & ver & rest & _ & _ & _ & _ & Hp & _).
    apply path_means_parse in Hp. eapply parse_safe; eauto. }
  destruct Ri as (El & _).
  clear - I P El A. induction I as [|c call sel calls I _ IH]; constructor; auto.
  intro x. apply A. intros name val G. cbn [mr_vars mr_request] in *. rewrite El.
  destruct c as [v p h|h]; cbn [invokes] in I.
  - destruct I as (_ & pat & _ & V). apply V in G as [_ G]. apply binds_in in G. split; auto.
    rewrite Forall_forall in P. auto.
  - subst call. discriminate.
Qed.
End Serve.

(** ** The order of hash maps *)
Lemma reordered_refl_sent {cl} ft w ho ho' pos pos' (r : response cl) :
  reordered (octane_send (get_data ft w ho pos r)) (octane_send (get_data ft w ho' pos' r)).
Proof.
  unfold octane_send, get_data, headers_block, status_line. cbn [fst snd].
  exists (B "HTTP" ++ B "/" ++ rs_version r ++ [SP] ++ show_Z (status_into_i32 (rs_status r)) ++ [SP] ++ reason_phrase w r).
  exists (ord_fn ho pos _ (rs_headers r)), (ord_fn ho' pos' _ (rs_headers r)).
  exists ((if cookies_on ft then join CRLF (map (cookie_serialise cl) (rs_cookies r)) else []) ++ CRLF ++ copy_bytes (get_reader (rs_body r))).
  split; [eapply Permutation_trans; [apply ord_perm|apply Permutation_sym, ord_perm]|].
  change field_line with header_line. rewrite <- !app_assoc. split; reflexivity.
Qed.
Lemma error_send_order {cl} ft w ho ho' pos pos' k :
  match error_send ft w ho pos k (cl := cl), error_send ft w ho' pos' k (cl := cl) with
  | Done a, Done b => reordered a b
  | Panic, Panic => True
  | _, _ => False
  end.
Proof.
  unfold error_send. destruct (default_headers w _); cbn [omap obind]; auto. apply reordered_refl_sent.
Qed.

Section Order.
Context (ft : features) (cl : cookie_lib) {H ST : Type}
  (handle : H -> matched_request cl -> ST * response cl -> (ST * response cl) * outcome flow).

Lemma respond_order o o' app rt rt' w ho ho' pos pos' s rr :
  fits app -> build o app = Done rt -> build o' app = Done rt' ->
  (forall rq, rr = RdRequest rq -> rl_method (rq_line rq) <> MAll) ->
  fst (respond ft cl handle w ho pos rt s rr) = fst (respond ft cl handle w ho' pos' rt' s rr) /\
  match snd (respond ft cl handle w ho pos rt s rr), snd (respond ft cl handle w ho' pos' rt' s rr) with
  | Done a, Done b => reordered a b
  | Panic, Panic => True
  | _, _ => False
  end.
Proof.
  intros F E E' Hm. destruct rr as [|rq]; cbn [respond].
  - cbn [fst snd]. split; auto. apply error_send_order.
  - destruct (err_bad_request _).
    + cbn [fst snd]. split; auto. apply error_send_order.
    + destruct (method_is_some _).
      * rewrite (same_calls (fun h vars => handle h (MatchedRequest rq vars)) o o' app app ft _ (rl_path (rq_line rq)) (s, new_empty) rt rt' F F (Hm rq eq_refl) E E' eq_refl).
        destruct (router_run _ _ _ _ _ _) as [[s' res] [[]|]].
        -- destruct (negb (has_body res)); cbn [fst snd]; split; auto; [apply error_send_order|apply reordered_refl_sent].
        -- cbn [fst snd]. auto.
      * cbn [fst snd]. split; auto. apply error_send_order.
Qed.

Lemma read_method t rq : read_request ft cl t = IoDone (RdRequest rq) -> rl_method (rq_line rq) <> MAll.
Proof.
  unfold read_request. destruct (read_head t) as [[rh rl0 br rd|]| | |]; cbn [io_bind]; try discriminate.
  destruct (headers_parse ft rh) as [h|]; try discriminate.
  destruct (request_line_parse ft rl0) as [[rl|]|] eqn:El; cbn [obind unwrap io_of_outcome io_bind]; try discriminate.
  pose proof (line_not_all ft rl0 rl El) as Hm.
  assert (P : forall b, match io_of_outcome (request_parse ft cl rl h b) with IoDone (Some rq) => rq_line rq = rl | _ => True end).
  { intro b. unfold request_parse. destruct (cookies_on ft); [|reflexivity].
    destruct (headers_get h _); [|reflexivity]. destruct (cookie_parse cl s); [reflexivity|exact I]. }
  assert (Q : match request_from_raw ft cl h rl br rd with IoDone (Some rq) => rq_line rq = rl | _ => True end).
  { unfold request_from_raw. destruct (0 <? content_length h)%N; [|apply P].
    destruct (N.of_nat (length br) <? content_length h)%N; [|apply P].
    destruct (ISIZE_MAX <? _)%N; auto. destruct (read_exact_segs _ _ _) as [[temp|]| | |]; cbn [io_bind]; auto.
    destruct (ISIZE_MAX <? _)%N; auto. apply P. }
  destruct (request_from_raw ft cl h rl br rd) as [[rq'|]| | |]; cbn [io_bind]; try discriminate.
  intro E. injection E as <-. rewrite Q. exact Hm.
Qed.

Theorem serve_order o o' app rt rt' w ho ho' pos pos' s t :
  fits app -> build o app = Done rt -> build o' app = Done rt' ->
  fst (serve ft cl handle w ho pos rt s t) = fst (serve ft cl handle w ho' pos' rt' s t) /\
  same_but_order (snd (serve ft cl handle w ho pos rt s t)) (snd (serve ft cl handle w ho' pos' rt' s t)).
Proof.
  intros F E E'. unfold serve. pose proof (read_method t) as M.
  destruct (read_request ft cl t) as [rr| | |]; [|cbn; auto|cbn; auto|cbn; auto].
  assert (Hm : forall rq, rr = RdRequest rq -> rl_method (rq_line rq) <> MAll) by (intros rq ->; auto).
  destruct (respond_order o o' app rt rt' w ho ho' pos pos' s rr F E E' Hm) as [A X].
  destruct (respond ft cl handle w ho pos rt s rr) as [s1 r1], (respond ft cl handle w ho' pos' rt' s rr) as [s2 r2].
  cbn [fst snd] in *. split; auto. destruct r1, r2; cbn; auto; contradiction.
Qed.

Definition same_state (st st' : server_state (ST := ST)) : Prop :=
  shared st = shared st' /\ forall i, conn_same_but_order (conn_get i (conns st)) (conn_get i (conns st')).
Lemma conn_same_refl c : (forall out, c <> Answered out) -> conn_same_but_order c c.
Proof. intro N. destruct c; cbn; auto. exfalso. eapply N. reflexivity. Qed.

Lemma step_order o o' app rt rt' st st' ev ev' :
  fits app -> build o app = Done rt -> build o' app = Done rt' ->
  same_event ev ev' -> same_state st st' ->
  same_state (server_step ft cl handle rt st ev) (server_step ft cl handle rt' st' ev').
Proof.
  intros F E E' (Ev & Ew) (Es & Ec). destruct ev as [[i e] [w ho]], ev' as [[i' e'] [w' ho']].
  cbn [fst snd] in Ev, Ew. injection Ev as <- <-. subst w'. cbn [server_step]. pose proof (Ec i) as Ci.
  destruct (conn_get i (conns st)) as [rec|out|] eqn:Gi, (conn_get i (conns st')) as [rec'|out'|] eqn:Gi'; cbn in Ci; try discriminate; try (split; assumption).
  injection Ci as <-. rewrite <- Es.
  assert (G : forall c c' s1, conn_same_but_order c c' ->
     same_state (ServerState s1 (mset Nat.eqb i c (conns st))) (ServerState s1 (mset Nat.eqb i c' (conns st')))).
  { intros c c' s1 X. split; auto. intro j. cbn [conns]. rewrite !conn_get_set. destruct (Nat.eqb j i); auto. }
  assert (M : forall rec2 rr, resume ft cl rec e = (rec2, IoDone rr) -> forall rq, rr = RdRequest rq -> rl_method (rq_line rq) <> MAll).
  { intros rec2 rr X rq ->. destruct e; cbn [resume] in X; injection X as _ X; eapply read_method; eauto. }
  destruct (resume ft cl rec e) as [rec2 [rr| | |]]; try (apply G; reflexivity).
  destruct (respond_order o o' app rt rt' w ho ho' [i] [i] (shared st) rr F E E' (M _ _ eq_refl)) as [A X].
  destruct (respond ft cl handle w ho [i] rt (shared st) rr) as [s1 r1], (respond ft cl handle w ho' [i] rt' (shared st) rr) as [s2 r2].
  cbn [fst snd] in *. subst s2. apply G. destruct r1, r2; cbn; auto; contradiction.
Qed.
Theorem server_order o o' app rt rt' s evs evs' i :
  fits app -> build o app = Done rt -> build o' app = Done rt' -> Forall2 same_event evs evs' ->
  shared (server_run ft cl handle rt (ServerState s []) evs) = shared (server_run ft cl handle rt' (ServerState s []) evs') /\
  conn_same_but_order (conn_get i (conns (server_run ft cl handle rt (ServerState s []) evs)))
                      (conn_get i (conns (server_run ft cl handle rt' (ServerState s []) evs'))).
Proof.
  intros F E E' X.
  assert (G : forall st st', same_state st st' -> same_state (server_run ft cl handle rt st evs) (server_run ft cl handle rt' st' evs')).
  { unfold server_run. induction X as [|ev ev' evs evs' Hx X IH]; intros st st' S; auto. cbn [fold_left]. apply IH.
    eapply step_order; eauto. }
  destruct (G (ServerState s []) (ServerState s [])) as [A C]; [|split; [exact A|apply C]].
  split; auto. intro j. reflexivity.
Qed.
End Order.

(** ** Safe joins *)
Theorem variable_below base bsegs val : path_parse base = Some bsegs -> normal val -> no_slash val ->
  path_parse (base ++ B "/" ++ val) = Some (bsegs ++ [val]).
Proof.
  intros E N S. apply (parse_concat base val bsegs [val]); auto.
  unfold path_parse. destruct (segments_of_split val) as (_ & F & _).
  assert (Sg : segments_of [val] val) by (split; [discriminate|split; [repeat constructor; auto|reflexivity]]).
  rewrite <- (segments_of_unique [val] val Sg). rewrite parse_loop_normal by auto. reflexivity.
Qed.

(** ** Error pages *)
Lemma page_400 {cl} ft w ho pos : clock w <> None ->
  exists out hs, error_send ft w ho pos StBadRequest (cl := cl) = Done out /\
    wire_reads out (B "1.1") (B "400") (B "BAD REQUEST") hs NOT_FOUND.
Proof.
  intro C. destruct (error_send_page (cl := cl) ft w ho pos StBadRequest (B "400") (B "BAD REQUEST") C) as (out & E & _ & hs & W); [|clean_lit|eauto].
  intros r E. unfold reason_phrase. rewrite E. split; reflexivity.
Qed.
Lemma page_501 {cl} ft w ho pos : clock w <> None ->
  exists out hs, error_send ft w ho pos StNotImplemented (cl := cl) = Done out /\
    wire_reads out (B "1.1") (B "501") (B "NOT IMPLEMENTED") hs NOT_FOUND.
Proof.
  intro C. destruct (error_send_page (cl := cl) ft w ho pos StNotImplemented (B "501") (B "NOT IMPLEMENTED") C) as (out & E & _ & hs & W); [|clean_lit|eauto].
  intros r E. unfold reason_phrase. rewrite E. split; reflexivity.
Qed.
Lemma page_404 {cl} ft w ho pos : clock w <> None ->
  exists out hs, error_send ft w ho pos StNotFound (cl := cl) = Done out /\
    wire_reads out (B "1.1") (B "404") (B "NOT FOUND") hs NOT_FOUND.
Proof.
  intro C. destruct (error_send_page (cl := cl) ft w ho pos StNotFound (B "404") (B "NOT FOUND") C) as (out & E & _ & hs & W); [|clean_lit|eauto].
  intros r E. unfold reason_phrase. rewrite E. split; reflexivity.
Qed.
Lemma page_says : occurs (B "404 NOT FOUND") NOT_FOUND /\ ~ occurs (B "400") NOT_FOUND /\ ~ occurs (B "501") NOT_FOUND.
Proof.
  split; [|split].
  - pose proof (find_str_spec (B "404 NOT FOUND") NOT_FOUND) as X. destruct (find_str _ _) as [i|] eqn:E; [exists i; apply X|].
    vm_compute in E. discriminate.
  - apply find_str_None. vm_compute. reflexivity.
  - apply find_str_None. vm_compute. reflexivity.
Qed.

Section Pages.
Context (ft : features) (cl : cookie_lib) {H ST : Type}
  (handle : H -> matched_request cl -> ST * response cl -> (ST * response cl) * outcome flow).
Lemma bad_read t : real_segments t -> stream_bad (stream_of t) (fin t) -> read_request ft cl t = IoDone RdBad.
Proof.
  intros R Bd. pose proof (read_request_cases ft cl t R) as C.
  destruct (read_request ft cl t) as [[|rq]| | |]; auto; exfalso.
  - destruct C as (rl & hs & cs & body & Cs & _). eapply bad_not_carried; eauto.
  - destruct C as [C|(_ & a & b & rlt & hst & rl & hs & C1 & C2 & C3 & C4)]; [eapply bad_not_kills; eauto|].
    destruct Bd as [[N _]|(a' & b' & Ha & Hb)]; [apply N; eapply head_at_occurs; eauto|].
    destruct (head_at_fun _ _ _ _ _ Ha C1) as [<- <-]. destruct Hb as [Hb|Hb]; [congruence|].
    apply Hb. destruct C3 as [-> _]. exists (length rlt), rlt, hst. auto.
  - eapply bad_not_waits; eauto.
  - exact C.
Qed.
Theorem page_of_bad rt w ho pos s t : clock w <> None -> real_segments t -> stream_bad (stream_of t) (fin t) ->
  exists out hs page, serve ft cl handle w ho pos rt s t = (s, IoDone out) /\
    wire_reads out (B "1.1") (B "400") (B "BAD REQUEST") hs page /\
    occurs (B "404 NOT FOUND") page /\ ~ occurs (B "400") page.
Proof.
  intros C R Bd. destruct (page_400 (cl := cl) ft w ho pos C) as (out & hs & E & W).
  exists out, hs, NOT_FOUND. pose proof page_says. split; [|tauto].
  unfold serve. rewrite bad_read by auto. cbn [respond]. rewrite E. reflexivity.
Qed.

Theorem page_of_501 rt w ho pos s t rl hs cs body : clock w <> None -> real_segments t ->
  carries ft cl (stream_of t) rl hs cs body -> ~ lacks_host rl hs -> rl_method rl = MNone ->
  exists out hs page, serve ft cl handle w ho pos rt s t = (s, IoDone out) /\
    wire_reads out (B "1.1") (B "501") (B "NOT IMPLEMENTED") hs page /\
    occurs (B "404 NOT FOUND") page /\ ~ occurs (B "501") page.
Proof.
  intros C R Cs NH Mn. destruct (page_501 (cl := cl) ft w ho pos C) as (out & hs' & E & W).
  exists out, hs', NOT_FOUND. pose proof page_says. split; [|tauto].
  pose proof (read_request_cases ft cl t R) as X. unfold serve.
  destruct (read_request ft cl t) as [[|rq]| | |].
  - exfalso. eapply bad_not_carried; eauto.
  - destruct X as (rl' & hs2 & cs' & body' & Cs' & El & _ & _ & G & _).
    destruct (carries_fun _ _ _ _ _ _ _ _ _ _ _ Cs Cs') as (<- & <- & <-). cbn [respond]. rewrite El.
    assert (Eh : err_bad_request (http_validate (rl_version rl) (rq_headers rq)) = false).
    { destruct (err_bad_request _) eqn:Eb; auto. exfalso. apply NH. apply (host_check _ _ hs G) in Eb. exact Eb. }
    rewrite Eh, Mn. cbn [method_is_some]. rewrite E. reflexivity.
  - exfalso. destruct X as [X|X]; [eapply kills_not_carried; eauto|].
    destruct X as (_ & a & b & rlt & hst & rl' & hs2 & X1 & X2 & X3 & X4 & X5 & X6 & X7).
    destruct Cs as (a' & b' & Ha' & (V' & rlt' & hst' & Hp' & L' & Hb' & Hc) & An & _).
    destruct (head_at_fun _ _ _ _ _ X1 Ha') as [<- <-]. destruct (head_parts_fun _ _ _ _ _ X3 Hp') as [<- <-].
    rewrite (header_block_fun _ _ _ _ X5 Hb') in *. lia.
  - exfalso. eapply waits_not_carried; eauto.
  - contradiction.
Qed.

(** ** Responses without a body *)
Lemma run_chain_inv {W} (exec : H -> varmap -> W -> W * outcome flow) (P : W -> Prop) :
  (forall h vars w, P w -> P (fst (exec h vars w)) /\ snd (exec h vars w) <> Panic) ->
  forall calls w, P w -> P (fst (run_chain exec calls w)) /\ snd (run_chain exec calls w) = Done tt.
Proof.
  intro K. induction calls as [|[h vars] calls IH]; intros w Pw; cbn [run_chain]; auto.
  destruct (K h vars w Pw) as [K1 K2]. destruct (exec h vars w) as [w' [[]|]]; cbn [fst snd] in *; auto. congruence.
Qed.
Theorem bodiless_discarded o o0 app rt rt0 w ho pos s t :
  fits app -> build o app = Done rt -> build o0 [] = Done rt0 ->
  (forall h mr s r, rs_body r = BodyNone ->
     rs_body (snd (fst (handle h mr (s, r)))) = BodyNone /\ snd (handle h mr (s, r)) <> Panic) ->
  snd (serve ft cl handle w ho pos rt s t) = snd (serve ft cl handle w ho pos rt0 s t).
Proof.
  intros F E E0 K. unfold serve. pose proof (read_method ft cl t) as M.
  destruct (read_request ft cl t) as [[|rq]| | |]; auto. specialize (M rq eq_refl). cbn [respond].
  destruct (err_bad_request _); auto. destruct (method_is_some _); auto.
  set (exec := fun h vars => handle h (MatchedRequest rq vars)).
  destruct (build_run exec o app F) as (r1 & E1 & X1). rewrite E in E1. injection E1 as <-.
  assert (F0 : @fits H []) by (unfold fits; cbn; unfold USIZE_MAX; lia).
  destruct (build_run exec o0 [] F0) as (r2 & E2 & X2). rewrite E0 in E2. injection E2 as <-.
  rewrite X1, X2 by auto. cbn [flatten flat_map calls_of run_chain].
  destruct (run_chain_inv exec (fun x => rs_body (snd x) = BodyNone)) with (calls := calls_of ft (rl_method (rq_line rq)) (rl_path (rq_line rq)) (flatten app)) (w := (s, @new_empty cl)) as [A1 A2]; auto.
  { intros h vars [s1 r1] Hb. apply K. exact Hb. }
  destruct (run_chain exec _ _) as [[s1 res] f]. cbn [fst snd] in *. subst f. unfold has_body. rewrite A1. reflexivity.
Qed.

(** ** Waiting for a body *)
Theorem silent_wait rt w ho pos s t a b rlt hst rl hs : real_segments t -> fin t = Stall ->
  head_at (stream_of t) a b -> utf8_valid a = true -> head_parts a rlt hst ->
  line_means (faithful ft) rlt rl -> header_block (faithful ft) hst hs ->
  (N.of_nat (length b) < announced hs <= ISIZE_MAX)%N ->
  serve ft cl handle w ho pos rt s t = (s, IoBlocked).
Proof.
  intros R Ef Ha V Hp L Hb An. unfold serve.
  assert (W : stream_waits ft (stream_of t) (fin t)).
  { split; auto. right. exists a, b, rlt, hst, rl, hs. repeat (split; auto); lia. }
  pose proof (read_request_cases ft cl t R) as C.
  destruct (read_request ft cl t) as [[|rq]| | |]; auto; exfalso.
  - eapply bad_not_waits; eauto.
  - destruct C as (rl' & hs' & cs & body & Cs & _). eapply waits_not_carried; eauto.
  - destruct C as [C|(_ & a' & b' & rlt' & hst' & rl' & hs' & C1 & C2 & C3 & C4 & C5 & C6)]; [eapply kills_not_waits; eauto|].
    destruct (head_at_fun _ _ _ _ _ Ha C1) as [<- <-]. destruct (head_parts_fun _ _ _ _ _ Hp C3) as [<- <-].
    rewrite (header_block_fun _ _ _ _ C5 Hb) in *. lia.
  - exact C.
Qed.
End Pages.

(** ** Settings *)
Theorem only_ssl_matters (ST : Type) tl f c c' os_tls os port (s0 : ST) : cf_ssl c = cf_ssl c' ->
  sys_start tl f c os_tls os port s0 = sys_start tl f c' os_tls os port s0 /\
  tls_start tl f c os_tls = tls_start tl f c' os_tls.
Proof. destruct c as [k sl n], c' as [k' sl' n']. cbn [cf_ssl]. intros <-. split; reflexivity. Qed.
