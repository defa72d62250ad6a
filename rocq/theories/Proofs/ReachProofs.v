(** Lemmas behind Props/ReachProps.v: which paths requests can have. *)
From Verif.Model Require Import RustStd Path Request Time Status Response Router Server.
From Verif.Spec Require Import Common PathSpec RoutingSpec TextSpec RequestSpec ResponseSpec ServerSpec AppSpec SwapSpec ReachSpec.
From Verif.Proofs Require Import SwapProofs QueryExtra OrderProofs StatusMime ConformWitness.

(** ** Paths of requests are sendable *)
Lemma in_join sep (l : list str) x : In x l -> exists a b, join sep l = a ++ x ++ b.
Proof.
  induction l as [|y l IH]; intros I; [destruct I|]. destruct l as [|z l].
  - destruct I as [->|[]]. exists [], []. cbn [join]. rewrite app_nil_r. reflexivity.
  - change (join sep (y :: z :: l)) with (y ++ sep ++ join sep (z :: l)). destruct I as [->|I].
    + exists [], (sep ++ join sep (z :: l)). reflexivity.
    + destruct (IH I) as (a & b & ->). exists (y ++ sep ++ a), b. rewrite <- !app_assoc. reflexivity.
Qed.
Lemma occurs_inside p a x b : occurs p x -> occurs p (a ++ x ++ b).
Proof.
  intros (i & c & d & -> & L). exists (length (a ++ c)), (a ++ c), (d ++ b). split; auto. rewrite <- !app_assoc. reflexivity.
Qed.
Lemma piece_text c s x : (bN c < 0x80)%N -> utf8_valid s = true -> In x (split_char c s) ->
  utf8_valid x = true /\ (occurs [x0d; x0a] x -> occurs [x0d; x0a] s) /\ (forall b, In b x -> In b s).
Proof.
  intros Hc V I. split.
  - pose proof (pieces_valid c s Hc V) as F. rewrite Forall_forall in F. auto.
  - destruct (in_join [c] _ x I) as (a & b & E). rewrite join_split_char in E. subst s. split.
    + apply occurs_inside.
    + intros y Iy. rewrite !in_app_iff. auto.
Qed.
Lemma path_sendable a rlt hst strict rl : utf8_valid a = true -> head_parts a rlt hst -> line_means strict rlt rl ->
  Forall sendable (rl_path rl).
Proof.
  intros V (-> & NO) (m & p & first & ver & rest & Pi & _ & _ & _ & Pm & _).
  assert (Vl : utf8_valid rlt = true).
  { change (rlt ++ CRLF ++ hst) with (rlt ++ [x0d] ++ ([x0a] ++ hst)) in V. apply utf8_parts in V as [V _]; [auto|reflexivity]. }
  pose proof Pi as (_ & F & _). rewrite Forall_forall in F.
  apply pieces1_unique in Pi. assert (Ip : In p (split_char x20 rlt)) by (rewrite <- Pi; right; left; auto).
  assert (Np : ~ In x20 p) by (rewrite <- occurs1; apply F; right; left; auto).
  destruct (piece_text x20 rlt p eq_refl Vl Ip) as (Vp & Op & _).
  apply path_means_parse in Pm. pose proof (parse_safe _ _ Pm) as S. rewrite Forall_forall in S.
  apply Forall_forall. intros seg I. destruct (S seg I) as [N1 N2]. split; auto. split; auto.
  destruct (parse_loop_from _ _ _ Pm seg I) as [[]|J].
  destruct (piece_text SLASH p seg eq_refl Vp J) as (Vs & Os & Bs). split; auto. split; [auto|]. intro O. apply NO. auto.
Qed.
Lemma asked_sendable ft cl m path : asked_for ft cl m path -> (exists name, method_named name m) /\ Forall sendable path.
Proof.
  intros (s & rl & hs & cs & body & Ca & _ & Nm & -> & ->). destruct Ca as (a & b & _ & (V & rlt & hst & Hp & Hl & _) & _).
  split; [|eapply path_sendable; eauto].
  destruct Hl as (mt & p & first & ver & rest & _ & _ & _ & _ & _ & [Mn|[Mn _]] & _); [eauto|congruence].
Qed.

(** ** and every such path is the path of a request *)
Lemma display_text path : Forall line_text path -> utf8_valid (path_display path) = true /\ ~ In x20 (path_display path) /\
  ~ occurs [x0d; x0a] (path_display path).
Proof.
  induction 1 as [|seg l (V & Sp & O) F (IV & IS & IO)].
  - split; [reflexivity|]. split; [intros []|]. intros (i & a & b & E & _). destruct a; discriminate.
  - change (path_display (seg :: l)) with ((seg ++ [x2f]) ++ path_display l). rewrite <- app_assoc. split; [|split].
    + rewrite utf8_app by auto. rewrite utf8_app by reflexivity. exact IV.
    + rewrite !in_app_iff. intros [I|[[I|[]]|I]]; auto. discriminate.
    + intros (i & a & b & E & L). clear L i. revert a b E.
      assert (X : forall s, ~ occurs [x0d; x0a] s -> forall a b, s ++ [x2f] ++ path_display l <> a ++ [x0d; x0a] ++ b).
      { induction s as [|c s IH]; intros O' a b E.
        - destruct a as [|y a]; [discriminate|]. injection E as _ E. apply IO. exists (length a), a, b. auto.
        - destruct a as [|y a].
          + cbn [List.app] in E. injection E as -> E. destruct s as [|d s]; [discriminate|]. injection E as -> _.
            apply O'. exists 0, [], s. auto.
          + injection E as -> E. apply (IH) in E; auto. intros (i & a' & b' & -> & L). apply O'.
            exists (S i), (y :: a'), b'. split; [reflexivity|cbn; auto]. }
      intros a b E. exact (X seg O a b E).
Qed.
Lemma host_head line : ~ occurs [x0d; x0a] line -> head_at (line ++ CRLF ++ B "Host: x" ++ CRLFCRLF) (line ++ CRLF ++ B "Host: x") [].
Proof.
  intros NO. split; [rewrite app_nil_r, <- !app_assoc; reflexivity|]. split.
  - exists (line ++ CRLF ++ B "Host: x"), []. split; auto. rewrite app_nil_r, <- !app_assoc. reflexivity.
  - intros j O. assert (L : length line <= j).
    { destruct (crlf_first line (B "Host: x" ++ CRLFCRLF) NO) as [_ M]. apply M.
      destruct O as (a & b & E & L). exists a, (CRLF ++ b). split; auto. }
    apply occurs_unshift in O; auto. rewrite app_length. change (length (CRLF ++ B "Host: x")) with 9.
    destruct (j - length line) as [|[|[|[|[|[|[|[|[|k]]]]]]]]] eqn:Ek; try lia; exfalso;
      pose proof (occurs_at_nth _ _ _ 2 O ltac:(vm_compute; lia)) as X2; pose proof (occurs_at_nth _ _ _ 0 O ltac:(vm_compute; lia)) as X0;
      vm_compute in X2, X0; discriminate.
Qed.
Definition asking (mt : str) (path : list str) : str :=
  (mt ++ [x20] ++ path_display path ++ [x20] ++ B "HTTP/1.1") ++ CRLF ++ B "Host: x" ++ CRLFCRLF.
Definition the_host : list header := [Header (B "Host") (B "x")].
Lemma crlf_spaced (x y : str) : ~ occurs [x0d; x0a] x -> ~ occurs [x0d; x0a] y -> ~ occurs [x0d; x0a] (x ++ [x20] ++ y).
Proof.
  intros Nx Ny (i & a & b & E & _). revert a E. induction x as [|c x IH]; intros a E.
  - destruct a as [|z a]; [discriminate|]. injection E as _ E. apply Ny. exists (length a), a, b. auto.
  - destruct a as [|z a].
    + cbn [List.app] in E. injection E as -> E. destruct x as [|d x]; [discriminate|]. injection E as -> _. apply Nx. exists 0, [], x. auto.
    + injection E as -> E. apply IH in E; auto. intros (j & a' & b' & -> & L). apply Nx. exists (S j), (z :: a'), b'. split; [reflexivity|cbn; auto].
Qed.
Lemma asking_carries ft cl mt m path : method_named mt m -> Forall sendable path ->
  carries ft cl (asking mt path) (RequestLine m path Http11) the_host [] [].
Proof.
  intros Hm F. assert (Ft : Forall line_text path) by (eapply Forall_impl; [|exact F]; intros ? X; apply X).
  assert (Fs : Forall (fun c => normal c /\ no_slash c) path) by (eapply Forall_impl; [|exact F]; intros ? X; split; apply X).
  destruct (display_text _ Ft) as (V & Sp & O). destruct (method_text _ _ Hm) as (Mc & Ms & Mu).
  set (line := mt ++ [x20] ++ path_display path ++ [x20] ++ B "HTTP/1.1").
  assert (NO : ~ occurs [x0d; x0a] line).
  { unfold line. apply crlf_spaced; [apply (clean_no_crlf mt); auto|]. apply crlf_spaced; auto. apply no_lf_no_crlf. cbn. intuition discriminate. }
  exists (line ++ CRLF ++ B "Host: x"), []. split; [apply host_head; auto|]. split; [|split; [vm_compute; discriminate|split; [vm_compute; discriminate|left; reflexivity]]].
  split.
  - unfold line. rewrite <- !app_assoc. rewrite utf8_app by auto. rewrite utf8_app by reflexivity. rewrite utf8_app by auto. reflexivity.
  - exists line, (B "Host: x"). split; [split; auto|]. split; [|split].
    + exists mt, (path_display path), (B "HTTP/"), (B "1.1"), []. split; [|split; [reflexivity|split; [|split; [auto|]]]].
      * split; [discriminate|]. split; [|unfold line; reflexivity].
        repeat constructor; rewrite occurs1; auto. cbn. intuition discriminate.
      * intros b r E. injection E as <- _. reflexivity.
      * split; [apply path_means_parse, parse_display; auto|]. split; left; [exact Hm|constructor].
    + assert (G : header_block (faithful ft) (join CRLF (map header_text the_host)) the_host).
      { apply serialised_block; [discriminate|]. constructor; [|constructor].
        assert (G' : good_header true (Header (B "Host") (B "x")) /\ clean (header_text (Header (B "Host") (B "x")))) by good_hd.
        destruct G' as [((Na & Nb & Nc) & (Va & Vb) & U & O') _]. split; [split; [auto|split; [auto|intros _; apply Nc; reflexivity]]|].
        split; [split; [auto|intros _; apply Vb; reflexivity]|]. auto. }
      exact G.
    + unfold cookies_mean. destruct (cookies_on ft); reflexivity.
Qed.
Lemma host_there m path v : ~ lacks_host (RequestLine m path v) the_host.
Proof. intros [_ X]. apply (X (Header (B "Host") (B "x"))); [left; reflexivity|]. apply same_fold_lower. reflexivity. Qed.
Theorem asked_exact ft cl m path : asked_for ft cl m path <-> (exists name, method_named name m) /\ Forall sendable path.
Proof.
  split; [apply asked_sendable|]. intros [(mt & Hm) F].
  exists (asking mt path), (RequestLine m path Http11), the_host, [], []. split; [apply asking_carries; auto|].
  split; [apply host_there|]. split; [intro E; cbn in E; subst; inversion Hm|auto].
Qed.

(** ** Patterns *)
Lemma seg_path pat : Forall (fun c => normal c /\ no_slash c) pat -> forall wv, reachable wv pat ->
  exists path, route_matches wv pat path /\ Forall sendable path.
Proof.
  intros F wv R. induction R as [|seg l Rs R IH].
  - exists []. split; [destruct wv; constructor|constructor].
  - inversion F as [|? ? [N1 N2] Fl]; subst. destruct (IH Fl) as (path & M & S). destruct Rs as [[Vr ->]|[Nv T]].
    + exists (B "x" :: path). split.
      * constructor; [left; exact Vr|exact M].
      * constructor; auto. repeat split; try discriminate; try (intro I; cbn in I; intuition discriminate).
        apply no_lf_no_crlf. cbn. intuition discriminate.
    + exists (seg :: path). split.
      * destruct wv; constructor; auto; [right; reflexivity|]. split; auto. intro E. apply Nv. destruct seg as [|c seg]; [discriminate|].
        injection E as ->. exists seg. reflexivity.
      * constructor; auto. split; auto.
Qed.
Lemma path_seg wv pat path : route_matches wv pat path -> Forall sendable path -> reachable wv pat.
Proof.
  intros M F. unfold route_matches in M. destruct wv.
  - induction M as [|p s pat path Ms M IH]; [constructor|]. inversion F as [|? ? S Fl]; subst. constructor; [|apply IH; auto].
    destruct Ms as [V|<-]; [left; split; auto|].
    assert (D : variable p \/ ~ variable p).
    { destruct p as [|c p]; [right; intros (n & E); discriminate|]. destruct (Byte.byte_eq_dec c x3a) as [->|N]; [left; exists p; auto|].
      right. intros (n & E). injection E as -> _. auto. }
    destruct D; [left; auto|right; split; auto; apply S].
  - induction M as [|p s pat path Ms M IH]; [constructor|]. inversion F as [|? ? S Fl]; subst. constructor; [|apply IH; auto].
    destruct Ms as [V <-]. right. split; [|apply S]. intros (n & ->). apply V. reflexivity.
Qed.
Lemma serves_some v : exists mt m, method_named mt m /\ serves v m.
Proof.
  destruct v; [exists (B "HEAD"), MHead|exists (B "PUT"), MPut|exists (B "GET"), MGet|exists (B "DELETE"), MDelete|exists (B "POST"), MPost|
    exists (B "PATCH"), MPatch|exists (B "GET"), MGet]; split; constructor.
Qed.
Theorem reached_exact ft cl (H : Type) v p (h : H) pat : path_means p pat ->
  ((exists m path, asked_for ft cl m path /\ applies (url_variables ft) m path (RRoute v p h)) <-> reachable (url_variables ft) pat).
Proof.
  intros Hp. pose proof Hp as Hp'. apply path_means_parse in Hp. split.
  - intros (m & path & A & (_ & pat' & Hp2 & M)). apply path_means_parse in Hp2. rewrite Hp in Hp2. injection Hp2 as <-.
    apply asked_exact in A as [_ F]. eapply path_seg; eauto.
  - intros R. destruct (seg_path pat (parse_safe _ _ Hp) _ R) as (path & M & F). destruct (serves_some v) as (mt & m & Hm & Sv).
    exists m, path. split; [apply asked_exact; eauto|]. split; auto. exists pat. auto.
Qed.

(** ** Being called *)
Lemma notes_chain {cl H} rq l : forall s r, run_chain (fun (h : H) vars => notes h (MatchedRequest rq vars)) l (s, r) = ((s ++ l, r : response cl), Done tt).
Proof.
  induction l as [|[h v] l IH]; intros s r; cbn [run_chain].
  - rewrite app_nil_r. reflexivity.
  - unfold notes at 1. cbn [fst snd mr_vars]. rewrite IH, <- app_assoc. reflexivity.
Qed.
Lemma noted ft cl (H : Type) o (app : list (oreg H)) rt w ho pos t rl hs cs body : fits app -> build o app = Done rt -> real_segments t ->
  carries ft cl (stream_of t) rl hs cs body -> ~ lacks_host rl hs -> rl_method rl <> MNone ->
  fst (serve ft cl notes w ho pos rt [] t) = calls_of ft (rl_method rl) (rl_path rl) (flatten app).
Proof.
  intros F E R Ca NH NM. unfold serve. pose proof (read_request_cases ft cl t R) as X.
  destruct (read_request ft cl t) as [[|rq]| | |].
  - exfalso. eapply bad_not_carried; eauto.
  - destruct X as (rl' & hs' & cs' & got & Ca' & Ri). destruct (carries_fun _ _ _ _ _ _ _ _ _ _ _ Ca Ca') as (<- & <- & <-).
    pose proof Ri as (El & _ & _ & G & _). cbn [respond]. rewrite El.
    destruct (err_bad_request _) eqn:Eh; [exfalso; apply NH; apply (host_check _ _ hs G); exact Eh|].
    assert (method_is_some (rl_method rl) = true) as -> by (destruct (rl_method rl) eqn:Em; auto; congruence).
    destruct (build_run (fun h vars => notes h (MatchedRequest rq vars)) o app F) as (r1 & E1 & R1).
    rewrite E in E1. injection E1 as <-. rewrite R1 by (eapply carries_method; eauto). rewrite notes_chain. cbn [List.app].
    destruct (negb _); reflexivity.
  - exfalso. destruct X as [X|X]; [eapply kills_not_carried; eauto|eapply borderline_not_carried; eauto].
  - exfalso. eapply waits_not_carried; eauto.
  - contradiction.
Qed.
Lemma selected_in {A} (P : A -> Prop) l sel x : selects P l sel -> In x l -> P x -> In x sel.
Proof. induction 1; intros I Px; [destruct I|destruct I as [->|I]; [left|right]; auto|destruct I as [->|I]; [contradiction|auto]]. Qed.
Lemma invoked_in {H : Type} wv path (sel : list (rreg H)) calls c : Forall2 (invokes wv path) sel calls -> In c sel -> exists call, In call calls /\ invokes wv path c call.
Proof.
  induction 1 as [|x y l l' Hxy F IH]; intros []; [subst; eexists; split; [left; reflexivity|auto]|].
  destruct IH as (call & I & V); auto. exists call. split; [right|]; auto.
Qed.
Theorem reached_called ft cl (H : Type) o (app : list (oreg H)) rt v p h pat path m : fits app -> build o app = Done rt ->
  In (RRoute v p h) (flatten app) -> path_means p pat -> route_matches (url_variables ft) pat path -> Forall sendable path ->
  serves v m -> (exists name, method_named name m) ->
  exists t, real_segments t /\ forall w ho pos, exists vars, In (h, vars) (fst (serve ft cl notes w ho pos rt [] t)) /\
    forall name val, mget seqb name vars = Some val <-> (url_variables ft = true /\ binds pat path name val).
Proof.
  intros Ft E I Hp M F Sv (mt & Hm). exists (Transport [asking mt path] Stall).
  assert (R : real_segments (Transport [asking mt path] Stall)).
  { constructor; [|constructor]. unfold asking. destruct Hm; discriminate. }
  assert (Ca : carries ft cl (stream_of (Transport [asking mt path] Stall)) (RequestLine m path Http11) the_host [] []).
  { unfold stream_of. cbn [segs concat]. rewrite app_nil_r. apply asking_carries; auto. }
  split; auto. intros w ho pos.
  rewrite (noted ft cl H o app rt w ho pos _ _ _ _ _ Ft E R Ca (host_there m path Http11)) by (cbn; intros ->; inversion Hm).
  cbn [rl_method rl_path]. assert (Ma : m <> MAll) by (intros ->; inversion Hm).
  destruct (calls_of_for ft m path app Ma) as (sel & S & F2).
  assert (Is : In (RRoute v p h) sel) by (eapply selected_in; eauto; split; auto; exists pat; auto).
  destruct (invoked_in _ _ _ _ _ F2 Is) as ([h' vars] & Ic & (Eh & pat' & Hp' & Bi)). cbn [fst snd] in Eh, Bi. subst h'.
  apply path_means_parse in Hp. apply path_means_parse in Hp'. rewrite Hp in Hp'. injection Hp' as <-. exists vars. auto.
Qed.
Theorem never_called ft cl (H ST : Type) (handle : H -> matched_request cl -> ST * response cl -> (ST * response cl) * outcome flow)
  o o' l1 v p h l2 (rt rt' : router H) pat w ho pos s t :
  fits (l1 ++ ORoute v p h :: l2) -> build o (l1 ++ ORoute v p h :: l2) = Done rt -> build o' (l1 ++ l2) = Done rt' ->
  path_means p pat -> ~ reachable (url_variables ft) pat -> real_segments t ->
  serve ft cl handle w ho pos rt s t = serve ft cl handle w ho pos rt' s t.
Proof.
  intros Fi E E' Hp NR R. apply (unrelated_added ft cl handle o o' l1 (RRoute v p h) l2); auto.
  intros rl hs cs body Ca (_ & pat' & Hp' & M). apply NR. apply path_means_parse in Hp. apply path_means_parse in Hp'.
  rewrite Hp in Hp'. injection Hp' as <-. destruct Ca as (a & b & _ & (V & rlt & hst & Hh & Hl & _) & _).
  eapply path_seg; [exact M|]. eapply path_sendable; eauto.
Qed.

(** ** A route that is accepted and never reached *)
Lemma spaced_unreachable wv : ~ reachable wv [B "a b"].
Proof. intros F. inversion F as [|? ? [[(n & X) _]|[_ (_ & X & _)]] _]; [discriminate|]. apply X. cbn. auto. Qed.
Theorem accepted_unreachable : exists p pat, utf8_valid p = true /\ path_means p pat /\
  (forall (H : Type) (h : H) v, exists r, router_route v router_new p h = Done (r, ROk)) /\
  forall ft cl (H ST : Type) (handle : H -> matched_request cl -> ST * response cl -> (ST * response cl) * outcome flow)
    o v h (rt : router H) w ho pos s t, build o [ORoute v p h] = Done rt -> real_segments t ->
  serve ft cl handle w ho pos rt s t = serve ft cl handle w ho pos router_new s t.
Proof.
  exists (B "/a b"), [B "a b"]. split; [reflexivity|]. split; [apply path_means_parse; reflexivity|]. split.
  - intros H h v. destruct v; eexists; reflexivity.
  - intros ft cl H ST handle o v h rt w ho pos s t E R.
    apply (never_called ft cl H ST handle o o [] v (B "/a b") h [] rt router_new [B "a b"]); auto.
    + unfold fits. cbn. vm_compute. discriminate.
    + apply path_means_parse. reflexivity.
    + apply spaced_unreachable.
Qed.
