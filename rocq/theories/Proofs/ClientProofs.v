(** Proofs for Props/ClientProps.v. *)
From Verif.Model Require Import RustStd Path Request Time Status Response Router Server Memory.
From Verif.Spec Require Import Common PathSpec TextSpec RequestSpec ResponseSpec ServerSpec ClientSpec.
From Verif.Proofs Require Import Basics TextProofs TransportProofs RequestProofs ReadProofs ResponseProofs ResponseExtra ServerProofs.
From Coq Require Import Permutation.

(** ** Response::default *)
Section Default.
Context {cl : cookie_lib}.
Lemma ord_nil ho pos (A : Type) : ord_fn ho pos A [] = [].
Proof. apply Permutation_nil, Permutation_sym, ord_perm. Qed.
Lemma default_wire ft w ho pos :
  octane_send (get_data ft w ho pos (response_default (cl := cl))) = B "HTTP/1.1 200 OK" ++ CRLFCRLF.
Proof.
  unfold octane_send, get_data, headers_block, response_default, new_from_slice, res_new. cbn [rs_headers rs_cookies fst snd map join rs_body].
  rewrite ord_nil. destruct (cookies_on ft); vm_compute; reflexivity.
Qed.
Lemma default_sends w b : res_send w b (response_default (cl := cl)) = res_send w b new_empty.
Proof. reflexivity. Qed.
Lemma default_length w r : default_headers w (response_default (cl := cl)) = Done r ->
  res_get (B "Content-Length") r = Some (B "0") /\ rs_body r = BodySized 0 (RCursor []).
Proof.
  unfold default_headers. cbn [rs_content_len response_default new_from_slice res_new rs_headers rs_charset length].
  destruct (time_now (clock w)) as [[d|]|]; cbn [obind]; [| |discriminate]; intro E; injection E as <-; split; reflexivity.
Qed.
End Default.

(** ** File names *)
Lemma quoted_app q t q' t' : quoted_text q t -> quoted_text q' t' -> quoted_text (q ++ q') (t ++ t').
Proof. induction 1; intros; cbn [app]; auto; constructor; auto. Qed.
Lemma quoted_fun q t t' : quoted_text q t -> quoted_text q t' -> t = t'.
Proof.
  intro Q. revert t'. induction Q; intros t' Q'; inversion Q'; subst; auto; try congruence; f_equal; auto.
Qed.
Lemma debug_printable sq b : printable b -> quoted_text (debug_byte sq b) [b].
Proof.
  intros [L U]. destruct sq, b; try (exfalso; vm_compute in L, U; congruence);
    (apply QuotedPair; apply QuotedEnd) || (apply QuotedChar; [discriminate|discriminate|apply QuotedEnd]).
Qed.
Lemma debug_text sq s : Forall printable s -> quoted_text (flat_map (debug_byte sq) s) s.
Proof.
  induction 1 as [|b s P F IH]; [constructor|]. cbn [flat_map]. change (b :: s) with ([b] ++ s).
  apply quoted_app; auto. apply debug_printable. auto.
Qed.
Section Names.
Context {cl : cookie_lib}.
Lemma disposition_of w f (r : response cl) : res_get (B "Content-Disposition") (attachment_with_filename w f r) =
  Some (B "attachment; filename = " ++ debug_str (dbg_sq w) f).
Proof.
  unfold attachment_with_filename, res_get, res_set, with_headers. cbn [rs_headers].
  rewrite (mget_mset_other seqb seqb_eq), (mget_mset_same seqb seqb_eq) by discriminate. reflexivity.
Qed.
Theorem name_read w f (r : response cl) : Forall printable f -> exists v,
  res_get (B "Content-Disposition") (attachment_with_filename w f r) = Some (B "attachment; filename = " ++ v) /\
  quoted_string v f /\ forall f', quoted_string v f' -> f' = f.
Proof.
  intro P. exists (debug_str (dbg_sq w) f). split; [apply disposition_of|].
  assert (Q : quoted_string (debug_str (dbg_sq w) f) f) by (eexists; split; [reflexivity|apply debug_text; auto]).
  split; [exact Q|]. intros f' (q & E & Q'). destruct Q as (q0 & E0 & Q0). rewrite E in E0.
  apply app_inv_head, app_inv_tail in E0. subst q0. eapply quoted_fun; eauto.
Qed.
Theorem tab_misread w a b (r : response cl) : Forall printable a -> Forall printable b -> exists v,
  res_get (B "Content-Disposition") (attachment_with_filename w (a ++ [x09] ++ b) r) = Some (B "attachment; filename = " ++ v) /\
  quoted_string v (a ++ B "t" ++ b) /\ forall f', quoted_string v f' -> f' = a ++ B "t" ++ b.
Proof.
  intros Pa Pb. exists (debug_str (dbg_sq w) (a ++ [x09] ++ b)). split; [apply disposition_of|].
  assert (Q : quoted_string (debug_str (dbg_sq w) (a ++ [x09] ++ b)) (a ++ B "t" ++ b)).
  { eexists. split; [reflexivity|]. rewrite !flat_map_app. apply quoted_app; [apply debug_text; auto|].
    apply quoted_app; [|apply debug_text; auto]. destruct (dbg_sq w); apply QuotedPair, QuotedEnd. }
  split; [exact Q|]. intros f' (q & E & Q'). destruct Q as (q0 & E0 & Q0). rewrite E in E0.
  apply app_inv_head, app_inv_tail in E0. subst q0. eapply quoted_fun; eauto.
Qed.
(** For which names this works. *)
Definition shown (sq : debug_style) (b : byte) : str :=
  if ((32 <=? bN b) && (bN b <=? 126))%N then [b] else match debug_byte sq b with x5c :: r => r | q => q end.
Lemma shown_read sq b : (bN b < 128)%N -> quoted_text (debug_byte sq b) (shown sq b).
Proof.
  intro L. destruct sq, b; try (exfalso; vm_compute in L; congruence); vm_compute;
    repeat (apply QuotedEnd || apply QuotedPair || (apply QuotedChar; [discriminate|discriminate|])).
Qed.
Lemma shown_same sq b : (bN b < 128)%N -> shown sq b = [b] -> printable b.
Proof.
  intros L E. unfold shown in E. destruct ((32 <=? bN b) && (bN b <=? 126))%N eqn:P.
  { apply andb_prop in P as [P Q]. apply N.leb_le in P, Q. split; auto. }
  exfalso. destruct sq, b; try (vm_compute in L; congruence); try discriminate P; discriminate E.
Qed.
Lemma shown_some sq b : shown sq b <> [].
Proof. unfold shown. destruct ((32 <=? bN b) && (bN b <=? 126))%N; [discriminate|]. destruct sq, b; discriminate. Qed.
Lemma shown_all sq f : flat_map (shown sq) f = f -> Forall (fun b => shown sq b = [b]) f.
Proof.
  assert (L : forall f, length f <= length (flat_map (shown sq) f)).
  { induction f0 as [|b f0 IH]; cbn [flat_map length]; auto. rewrite app_length. pose proof (shown_some sq b).
    destruct (shown sq b); [contradiction|cbn [length]; lia]. }
  induction f as [|b f IH]; intro E; constructor; cbn [flat_map] in E; pose proof (shown_some sq b) as N; specialize (L f);
    (destruct (shown sq b) as [|c r]; [contradiction|]); cbn [List.app] in E; injection E as -> E;
    (assert (r = []) as -> by (apply (f_equal (@length byte)) in E; rewrite app_length in E; destruct r; auto; cbn [length] in E; lia)); auto.
Qed.
Theorem name_read_exact w f (r : response cl) : Forall (fun b => (bN b < 128)%N) f -> exists v,
  res_get (B "Content-Disposition") (attachment_with_filename w f r) = Some (B "attachment; filename = " ++ v) /\
  (quoted_string v f <-> Forall printable f).
Proof.
  intro A. exists (debug_str (dbg_sq w) f). split; [apply disposition_of|]. split.
  - intros (q & E & Q). apply app_inv_head, app_inv_tail in E. subst q.
    assert (Q' : quoted_text (flat_map (debug_byte (dbg_sq w)) f) (flat_map (shown (dbg_sq w)) f)).
    { clear Q. induction A as [|b f L A IH]; [constructor|]. cbn [flat_map]. apply quoted_app; auto. apply shown_read. auto. }
    pose proof (quoted_fun _ _ _ Q' Q) as E. apply shown_all in E. rewrite Forall_forall in *. intros b X. eapply shown_same; eauto.
  - intro P. eexists. split; [reflexivity|apply debug_text; auto].
Qed.
(** Escapes form a prefix code. *)
Fixpoint is_pre (a b : str) : bool :=
  match a, b with
  | [], _ => true
  | x :: a', y :: b' => beqb x y && is_pre a' b'
  | _, [] => false
  end.
Lemma is_pre_app a b c d : a ++ c = b ++ d -> is_pre a b = true \/ is_pre b a = true.
Proof.
  revert b. induction a as [|x a IH]; intros [|y b] E; auto. cbn [app] in E. injection E as <- E.
  cbn [is_pre]. destruct (IH b E) as [X|X]; rewrite X, ?andb_true_r, beqb_refl; auto.
Qed.
Lemma escapes_prefix_free sq a b : is_pre (debug_byte sq a) (debug_byte sq b) = true -> a = b.
Proof.
  intro E. pose (all := map (fun n => byte_of_N (N.of_nat n)) (seq 0 256)).
  assert (A : forall c, In c all) by (intro c; apply in_map_iff; exists (N.to_nat (bN c)); destruct c; (split; [reflexivity|apply in_seq; vm_compute; lia])).
  assert (X : forallb (fun a => forallb (fun b => implb (is_pre (debug_byte sq a) (debug_byte sq b)) (beqb a b)) all) all = true)
    by (destruct sq; vm_compute; reflexivity).
  rewrite forallb_forall in X. specialize (X a (A a)). rewrite forallb_forall in X. specialize (X b (A b)).
  rewrite E in X. cbn [implb] in X. apply beqb_eq in X. exact X.
Qed.
Lemma debug_inj sq s : forall t, flat_map (debug_byte sq) s = flat_map (debug_byte sq) t -> s = t.
Proof.
  assert (NE : forall b, debug_byte sq b <> []) by (intro b; destruct sq, b; discriminate).
  induction s as [|a s IH]; intros [|b t] E; cbn [flat_map] in E; auto.
  - symmetry in E. apply app_eq_nil in E as [E _]. destruct (NE b E).
  - apply app_eq_nil in E as [E _]. destruct (NE a E).
  - assert (a = b) as <- by (destruct (is_pre_app _ _ _ _ E) as [X|X]; apply escapes_prefix_free in X; auto).
    apply app_inv_head in E. f_equal. auto.
Qed.
Theorem names_distinct w w' f f' (r r' : response cl) : Forall (fun b => (bN b < 128)%N) (f ++ f') -> dbg_sq w = dbg_sq w' ->
  res_get (B "Content-Disposition") (attachment_with_filename w f r) =
  res_get (B "Content-Disposition") (attachment_with_filename w' f' r') -> f = f'.
Proof.
  intros _ D. rewrite !disposition_of, <- D. intro E. injection E as E. apply app_inv_tail in E. eapply debug_inj; eauto.
Qed.
End Names.

(** ** Memory *)
Section Memory.
Context (ft : features) (cl : cookie_lib).
Theorem counted_same t : fst (read_request_counted ft cl t) = read_request ft cl t.
Proof.
  unfold read_request_counted, read_request. destruct (read_head t) as [[hs rl rem rd|]| | |]; auto. cbn [io_bind].
  destruct (headers_parse ft hs) as [h|]; auto.
  destruct (obind (request_line_parse ft rl) unwrap) as [l|]; auto. cbn [io_of_outcome io_bind].
  unfold from_raw_counted, request_from_raw. cbn zeta.
  destruct (0 <? content_length h)%N; auto. destruct (N.of_nat (length rem) <? content_length h)%N; auto.
  destruct (ISIZE_MAX <? content_length h - N.of_nat (length rem))%N; auto.
  destruct (read_exact_segs _ _ _) as [[temp|]| | |]; auto. cbn [io_bind].
  destruct (ISIZE_MAX <? content_length h)%N; auto.
Qed.
Theorem no_head_reserves_nothing t : real_segments t -> ~ occurs CRLFCRLF (stream_of t) -> snd (read_request_counted ft cl t) = 0%N.
Proof.
  intros R Hn. unfold read_request_counted. rewrite (read_head_none t R Hn). destruct (fin t); reflexivity.
Qed.
Theorem reserved_bound t a b rl hs cs : real_segments t -> head_at (stream_of t) a b -> head_means ft cl a rl hs cs ->
  (snd (read_request_counted ft cl t) <= 2 * announced hs)%N.
Proof.
  intros R Ha (V & rlt & hst & Hp & Hl & Hb & Hc).
  destruct (read_head_ok t a b rlt hst R Ha V Hp) as (rem & tl & E & Er & Ef & R' & Lr).
  destruct (block_parse ft hst hs Hb) as (h & Eh & G & Gr). apply request_line_iff in Hl.
  unfold read_request_counted. rewrite E, Eh, Hl. cbn [obind unwrap]. unfold from_raw_counted. cbn zeta.
  rewrite (content_length_spec h hs G).
  destruct (0 <? announced hs)%N; [|cbn [snd]; lia]. destruct (N.of_nat (length rem) <? announced hs)%N; [|cbn [snd]; lia].
  destruct (ISIZE_MAX <? announced hs - N.of_nat (length rem))%N; [cbn [snd]; lia|].
  destruct (read_exact_segs _ _ _) as [[temp|]| | |]; try (cbn [snd]; lia).
  destruct (ISIZE_MAX <? announced hs)%N; cbn [snd]; lia.
Qed.
(** The head alone makes the server reserve everything it announces. *)
Theorem reserved_at_once t a rl hs cs : real_segments t -> fin t = Stall -> head_at (stream_of t) a [] -> head_means ft cl a rl hs cs ->
  (0 < announced hs <= ISIZE_MAX)%N -> read_request_counted ft cl t = (IoBlocked, announced hs).
Proof.
  intros R Fi Ha (V & rlt & hst & Hp & Hl & Hb & Hc) An.
  destruct (read_head_ok t a [] rlt hst R Ha V Hp) as (rem & tl & E & Er & Ef & R' & Lr).
  destruct (block_parse ft hst hs Hb) as (h & Eh & G & Gr). apply request_line_iff in Hl.
  apply app_eq_nil in Er as [-> Er].
  unfold read_request_counted. rewrite E, Eh, Hl. cbn [obind unwrap]. unfold from_raw_counted. cbn zeta.
  rewrite (content_length_spec h hs G). cbn [length]. change (N.of_nat 0) with 0%N. rewrite N.sub_0_r.
  destruct (N.ltb_spec 0 (announced hs)); [|lia]. destruct (N.ltb_spec ISIZE_MAX (announced hs)); [lia|].
  assert (segs tl = []) as ->.
  { destruct (segs tl) as [|s l] eqn:Es; auto. exfalso. unfold real_segments in R'. rewrite Es in R'. inversion R'; subst.
    unfold stream_of in Er. rewrite Es in Er. cbn [concat] in Er. apply app_eq_nil in Er as [Er _]. auto. }
  rewrite Ef, Fi. reflexivity.
Qed.
End Memory.

(** ** What handlers see *)
Section Run.
Context {H W : Type} (exec exec' : H -> varmap -> W -> W * outcome flow).
Hypothesis Ext : forall h v w, exec h v w = exec' h v w.
Lemma run_loop_same ft total : forall matches indices w,
  run_loop exec ft total matches indices w = run_loop exec' ft total matches indices w.
Proof.
  induction total as [|n IH]; intros; auto. cbn [run_loop].
  destruct (nth_error matches _) as [v|]; auto. destruct (nth_error indices _) as [i|]; auto.
  destruct (nth_error v i) as [mp|]; auto. rewrite Ext. destruct (exec' _ _ _) as [w' [f|]]; auto.
  destruct (should_continue f); auto.
Qed.
Lemma router_run_same ft r m path w : router_run exec ft r m path w = router_run exec' ft r m path w.
Proof. unfold router_run. destruct (run_matches ft r m path); auto. apply run_loop_same. Qed.
End Run.

Section Seen.
Context (ft : features) (cl : cookie_lib) {H ST : Type}
  (handle : H -> matched_request cl -> ST * response cl -> (ST * response cl) * outcome flow).

Lemma host_decides v h : err_bad_request (http_validate v h) = true <-> v = Http11 /\ headers_get h (B "host") = None.
Proof.
  destruct v; cbn [http_validate].
  - unfold http11_check. destruct (headers_get h (B "host")), (headers_get h (B "connection")) as [c|]; try destruct (seqb c (B "keep-alive"));
      try destruct (seqb c (B "close")); cbn [err_bad_request]; intuition discriminate.
  - unfold http10_check. destruct (headers_get h (B "connection")) as [c|]; try destruct (seqb c (B "keep-alive"));
      try destruct (headers_get h (B "keep-alive")); try destruct (seqb c (B "close")); cbn [err_bad_request]; intuition discriminate.
  - cbn [err_bad_request]. intuition discriminate.
  - cbn [err_bad_request]. intuition discriminate.
  - cbn [err_bad_request]. intuition discriminate.
Qed.
Lemma folded_none k hs : folded k hs = None <-> forall hd, In hd hs -> to_ascii_lowercase (h_name hd) <> k.
Proof.
  unfold folded. split.
  - intros E hd I Eq. destruct (filter (RequestSpec.named k) hs) as [|x l] eqn:F; [|discriminate].
    assert (X : In hd (filter (RequestSpec.named k) hs)) by (apply filter_In; split; auto; unfold RequestSpec.named; rewrite Eq; apply seqb_refl).
    rewrite F in X. destruct X.
  - intro N. destruct (filter (RequestSpec.named k) hs) as [|x l] eqn:F; auto. exfalso.
    assert (X : In x (filter (RequestSpec.named k) hs)) by (rewrite F; left; auto). apply filter_In in X as [I X].
    apply (N x I). unfold RequestSpec.named in X. apply seqb_eq in X. auto.
Qed.
Lemma lacks_folded rl hs : lacks_host rl hs <-> rl_version rl = Http11 /\ folded (B "host") hs = None.
Proof.
  unfold lacks_host. rewrite folded_none. split; intros [V N]; (split; [exact V|]); intros hd I X; apply (N hd I).
  - apply same_fold_lower. exact X.
  - apply same_fold_lower in X. exact X.
Qed.
Theorem only_looked_up (K : str -> Prop) t t' a a' b rl hs hs' cs rt w ho pos s : real_segments t -> real_segments t' ->
  head_at (stream_of t) a b -> head_at (stream_of t') a' b ->
  head_means ft cl a rl hs cs -> head_means ft cl a' rl hs' cs ->
  announced hs = N.of_nat (length b) -> announced hs' = N.of_nat (length b) -> (announced hs <= ISIZE_MAX)%N ->
  (lacks_host rl hs <-> lacks_host rl hs') -> (forall k, K k -> folded k hs = folded k hs') -> looks_up K handle ->
  serve ft cl handle w ho pos rt s t = serve ft cl handle w ho pos rt s t'.
Proof.
  intros R R' Ha Ha' Hm Hm' An An' Ai Lh Fo Lk.
  destruct (read_request_ok ft cl t a b rl hs cs R Ha Hm) as (h & body & E & G & _ & Bc); [lia|lia|].
  destruct (read_request_ok ft cl t' a' b rl hs' cs R' Ha' Hm') as (h' & body' & E' & G' & _ & Bc'); [lia|lia|].
  assert (EB : forall hs0 x, announced hs0 = N.of_nat (length b) -> body_choice (N.to_nat (announced hs0)) b x -> x = b).
  { intros hs0 x En Bx. rewrite En, Nnat.Nat2N.id in Bx. destruct Bx as [->|(_ & k & L & ->)]; [apply firstn_all|apply firstn_all2; lia]. }
  apply EB in Bc; auto. apply EB in Bc'; auto. subst body body'.
  unfold serve. rewrite E, E'. cbn [respond rq_line rq_headers].
  assert (EE : err_bad_request (http_validate (rl_version rl) h) = err_bad_request (http_validate (rl_version rl) h')).
  { apply eq_true_iff_eq. rewrite !host_decides, G, G', <- !lacks_folded. exact Lh. }
  rewrite EE. destruct (err_bad_request (http_validate (rl_version rl) h')); auto. destruct (method_is_some (rl_method rl)); auto.
  rewrite (router_run_same (fun h0 vars => handle h0 (MatchedRequest (Request rl h b cs) vars))
             (fun h0 vars => handle h0 (MatchedRequest (Request rl h' b cs) vars))); [reflexivity|].
  intros h0 v x. apply Lk. do 4 (split; [reflexivity|]). intros k Kk. cbn [mr_request rq_headers]. rewrite G, G'. auto.

Qed.

Lemma reordered_folded l l' : reordered l l' -> forall k, folded k l = folded k l'.
Proof.
  intros Rd k. unfold folded. assert (E : filter (RequestSpec.named k) l = filter (RequestSpec.named k) l').
  { induction Rd as [|h l l' Rd IH|g h l N|l l' l'' R1 IH1 R2 IH2]; auto.
    - cbn [filter]. rewrite IH. auto.
    - cbn [filter]. destruct (RequestSpec.named k g) eqn:Eg, (RequestSpec.named k h) eqn:Eh; auto. exfalso.
      unfold RequestSpec.named in Eg, Eh. apply seqb_eq in Eg, Eh. apply N, same_fold_lower. congruence.
    - congruence. }
  rewrite E. reflexivity.
Qed.
Lemma cookies_folded on hs hs' cs cs' : folded (B "cookie") hs = folded (B "cookie") hs' ->
  cookies_mean cl on hs cs -> cookies_mean cl on hs' cs' -> cs = cs'.
Proof.
  intros F C C'. assert (X : cookies_mean cl on hs' cs) by (revert C; unfold cookies_mean; rewrite F; auto).
  exact (cookies_mean_fun _ _ _ _ _ X C').
Qed.
Lemma means_cookies a rl hs cs : head_means ft cl a rl hs cs -> cookies_mean cl (cookies_on ft) hs cs.
Proof. intros (_ & ? & ? & _ & _ & _ & C). exact C. Qed.

Theorem order_irrelevant t t' a a' b rl hs hs' cs cs' rt w ho pos s : real_segments t -> real_segments t' ->
  head_at (stream_of t) a b -> head_at (stream_of t') a' b ->
  head_means ft cl a rl hs cs -> head_means ft cl a' rl hs' cs' ->
  announced hs = N.of_nat (length b) -> (announced hs <= ISIZE_MAX)%N ->
  reordered hs hs' -> looks_up (fun _ => True) handle ->
  serve ft cl handle w ho pos rt s t = serve ft cl handle w ho pos rt s t'.
Proof.
  intros R R' Ha Ha' Hm Hm' An Ai Rd Lk. pose proof (reordered_folded hs hs' Rd) as F.
  assert (cs = cs') as <- by (eapply cookies_folded; [apply F| |]; eapply means_cookies; eauto).
  assert (EA : announced hs' = announced hs) by (unfold announced; rewrite F; auto).
  apply (only_looked_up (fun _ => True) t t' a a' b rl hs hs' cs); auto; try congruence.
  rewrite !lacks_folded, F. tauto.
Qed.
Theorem extra_irrelevant (K : str -> Prop) t t' a a' b rl l1 l2 hd cs cs' rt w ho pos s : real_segments t -> real_segments t' ->
  head_at (stream_of t) a b -> head_at (stream_of t') a' b ->
  head_means ft cl a rl (l1 ++ l2) cs -> head_means ft cl a' rl (l1 ++ hd :: l2) cs' ->
  announced (l1 ++ l2) = N.of_nat (length b) -> (announced (l1 ++ l2) <= ISIZE_MAX)%N ->
  (forall k, K k \/ In k [B "Host"; B "Content-Length"; B "Cookie"] -> ~ same_fold (h_name hd) k) ->
  looks_up K handle ->
  serve ft cl handle w ho pos rt s t = serve ft cl handle w ho pos rt s t'.
Proof.
  intros R R' Ha Ha' Hm Hm' An Ai NK Lk.
  assert (Lw : to_ascii_lowercase (to_ascii_lowercase (h_name hd)) = to_ascii_lowercase (h_name hd)).
  { unfold to_ascii_lowercase. rewrite map_map. apply map_ext. intro c. destruct c; reflexivity. }
  assert (NI : ~ In (to_ascii_lowercase (h_name hd)) [B "host"; B "content-length"; B "cookie"]).
  { intros [X|[X|[X|[]]]]; [apply (NK (B "Host"))|apply (NK (B "Content-Length"))|apply (NK (B "Cookie"))]; try (cbn; tauto);
      apply same_fold_lower; symmetry; exact X. }
  assert (NK' : ~ K (to_ascii_lowercase (h_name hd))).
  { intro X. apply (NK _ (or_introl X)). apply same_fold_lower. symmetry. exact Lw. }
  assert (F : forall k, k <> to_ascii_lowercase (h_name hd) -> folded k (l1 ++ l2) = folded k (l1 ++ hd :: l2)).
  { intros k Nk. unfold folded. rewrite !filter_app. cbn [filter].
    assert (RequestSpec.named k hd = false) as -> by (unfold RequestSpec.named; apply Bool.not_true_iff_false; rewrite seqb_eq; congruence). reflexivity. }
  assert (NI' : forall k, In k [B "host"; B "content-length"; B "cookie"] -> k <> to_ascii_lowercase (h_name hd)) by (intros k I ->; auto).
  assert (cs = cs') as <- by (eapply cookies_folded; [apply F, NI'; cbn; auto| |]; eapply means_cookies; eauto).
  assert (EA : announced (l1 ++ hd :: l2) = announced (l1 ++ l2)).
  { unfold announced. rewrite <- F by (apply NI'; cbn; auto). auto. }
  apply (only_looked_up K t t' a a' b rl (l1 ++ l2) (l1 ++ hd :: l2) cs); auto; try congruence.
  - rewrite !lacks_folded, F by (apply NI'; cbn; auto). tauto.
  - intros k Kk. apply F. intros ->. auto.
Qed.
End Seen.
