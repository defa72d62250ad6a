(** Lemmas behind Props/CopyProps.v. *)
From Coq Require Import Permutation.
From Verif.Model Require Import RustStd Path Request Query Time Status Response Router Server.
From Verif.Spec Require Import Common PathSpec RoutingSpec TextSpec QuerySpec FormSpec RequestSpec ResponseSpec ServerSpec AppSpec SwapSpec ApiSpec ReachSpec CopySpec.
From Verif.Proofs Require Import QueryProofs ServerProofs InjectProofs ReachProofs ApiProofs FormProofs ConformWitness.

(** ** Heads of lines without line ends *)
Lemma lines_first_at l : Forall one_line l -> l <> [] -> Forall (fun x => exists c r, x = c :: r /\ c <> CR) (tl l) -> forall rest,
  first_at CRLFCRLF (join CRLF l ++ CRLFCRLF ++ rest) (length (join CRLF l)).
Proof.
  induction l as [|x l IH]; intros C Hn T rest; [congruence|].
  split; [exists (join CRLF (x :: l)), rest; auto|].
  intros j Hj. inversion C as [|? ? Cx Cl]; subst.
  assert (O2 : occurs_at CRLF (join CRLF (x :: l) ++ CRLFCRLF ++ rest) j).
  { destruct Hj as (a & b & E & L). exists a, (CRLF ++ b). split; auto. }
  destruct l as [|y l].
  - cbn [join] in *. destruct (crlf_first x (CRLF ++ rest) Cx) as [_ M]. apply M. exact O2.
  - change (join CRLF (x :: y :: l)) with (x ++ CRLF ++ join CRLF (y :: l)) in *. rewrite <- !app_assoc in Hj, O2.
    assert (L : length x <= j) by (destruct (crlf_first x (join CRLF (y :: l) ++ CRLFCRLF ++ rest) Cx) as [_ M]; apply M; exact O2).
    cbn [tl] in T. inversion T as [|? ? (c & r & Ey & Nc) Tl]; subst.
    pose proof (occurs_at_nth _ _ _ 0 Hj ltac:(cbn; lia)) as N0. pose proof (occurs_at_nth _ _ _ 2 Hj ltac:(cbn; lia)) as N2.
    change (nth_error CRLFCRLF 0) with (Some CR) in N0. change (nth_error CRLFCRLF 2) with (Some CR) in N2. rewrite Nat.add_0_r in N0.
    rewrite !app_length. change (length CRLF) with 2.
    destruct (Nat.eq_dec j (length x)) as [->|].
    + exfalso. rewrite nth_error_app2 in N2 by lia. replace (length x + 2 - length x) with 2 in N2 by lia.
      assert (Y : Some c = Some CR) by (rewrite <- N2; destruct l; reflexivity). congruence.
    + destruct (Nat.eq_dec j (S (length x))) as [->|].
      * exfalso. rewrite nth_error_app2 in N0 by lia. replace (S (length x) - length x) with 1 in N0 by lia. discriminate N0.
      * destruct (IH Cl ltac:(discriminate) Tl rest) as [_ F].
        assert (O : occurs_at CRLFCRLF (join CRLF ((c :: r) :: l) ++ CRLFCRLF ++ rest) (j - (length x + 2))).
        { rewrite (app_assoc x CRLF) in Hj. apply occurs_unshift in Hj; [|rewrite app_length; cbn [length CRLF]; change (length CRLF) with 2; lia].
          rewrite app_length in Hj. exact Hj. }
        specialize (F _ O). lia.
Qed.
Lemma clean_one s : clean s -> one_line s.
Proof. apply clean_no_crlf. Qed.
Lemma crlf_split (a s : str) i : occurs_at CRLF (a ++ s) i -> clean a -> length a <= i.
Proof.
  intros O [Nr Nl]. destruct (Nat.lt_ge_cases i (length a)) as [L|]; auto. exfalso.
  pose proof (occurs_at_nth _ _ _ 0 O ltac:(cbn; lia)) as X. rewrite Nat.add_0_r in X. change (nth_error CRLF 0) with (Some CR) in X.
  rewrite nth_error_app1 in X by auto. apply nth_error_In in X. auto.
Qed.
Lemma one_app a s : clean a -> one_line s -> one_line (a ++ s).
Proof.
  intros C O (i & X). pose proof (crlf_split _ _ _ X C) as L. apply occurs_unshift in X; auto. apply O. exists (i - length a). exact X.
Qed.
Lemma one_app_r s b : one_line s -> clean b -> one_line (s ++ b).
Proof.
  intros O [Nr Nl] (i & a & c & E & _). revert a E. induction s as [|d s IH]; intros a E.
  - cbn [List.app] in E. apply Nr. rewrite E. apply in_or_app. right. left. reflexivity.
  - destruct a as [|e a].
    + cbn [List.app] in E. injection E as -> E. destruct s as [|d s].
      * cbn [List.app] in E. apply Nl. rewrite E. left. reflexivity.
      * injection E as -> _. apply O. exists 0, [], s. auto.
    + injection E as -> E. apply IH in E; auto. intros (j & a' & b' & -> & L). apply O. exists (S j), (e :: a'), b'. split; [reflexivity|cbn; auto].
Qed.
Lemma one_mid a t b : clean a -> one_line t -> clean b -> one_line (a ++ t ++ b).
Proof. intros. apply one_app; auto. apply one_app_r; auto. Qed.

Section Resp.
Context {cl : cookie_lib}.
Implicit Type r : response cl.
Definition lines_ok r : Prop :=
  Forall (fun kv => clean (fst kv) /\ ~ In x3a (fst kv) /\ one_line (snd kv)) (rs_headers r).
Lemma hlines_one (l hs : list (str * str)) : Permutation l hs ->
  Forall (fun kv => clean (fst kv) /\ ~ In x3a (fst kv) /\ one_line (snd kv)) hs ->
  Forall one_line (map hline l) /\ Forall (fun x => exists c z, x = c :: z /\ c <> CR) (map hline l) /\ Forall2 header_line_is (map hline l) l.
Proof.
  intros P F. assert (F' : Forall (fun kv => clean (fst kv) /\ ~ In x3a (fst kv) /\ one_line (snd kv)) l).
  { rewrite Forall_forall in *. intros x Hx. apply F. eapply Permutation_in; eauto. }
  clear F P. induction F' as [|kv l (C1 & N & C2) F IH]; [repeat split; constructor|].
  destruct IH as (I1 & I2 & I3). split; [|split]; cbn [map]; constructor; auto.
  - unfold hline. apply one_app; auto. apply one_app; auto. clean_lit.
  - unfold hline. destruct (fst kv) as [|c k]; [exists x3a; eexists; split; [reflexivity|discriminate]|].
    exists c. eexists. split; [reflexivity|]. intros ->. apply (proj1 C1). left. reflexivity.
  - split; auto.
Qed.
Theorem lines_round_trip ft w ho pos r body : cookies_on ft = false \/ rs_cookies r = [] -> lines_ok r -> given_body (rs_body r) body ->
  clean (rs_version r) -> ~ In SP (rs_version r) -> clean (reason_phrase w r) ->
  exists hs, Permutation hs (rs_headers r) /\
    wire_reads (octane_send (get_data ft w ho pos r)) (rs_version r) (show_Z (status_into_i32 (rs_status r)))
      (reason_phrase w r) hs body.
Proof.
  intros Hc Hh Hb V Vs R. exists (ord_fn ho pos _ (rs_headers r)). split; [apply ord_perm|].
  destruct (hlines_one _ _ (ord_perm ho pos _ (rs_headers r)) Hh) as (I1 & I2 & I3).
  rewrite send_plain by auto. rewrite (given_copy _ _ Hb).
  assert (F1 : Forall one_line (status_text w r :: map hline (ord_fn ho pos _ (rs_headers r)))).
  { constructor; auto. apply clean_one, status_text_clean; auto. }
  eexists _, _. split; [|split; [|split; [|split]]]; [| | | |exact I3].
  - split; [reflexivity|]. apply (lines_first_at (status_text w r :: _)); auto. discriminate.
  - split; [discriminate|]. split; [|reflexivity]. exact F1.
  - auto.
  - apply show_Z_clean.
Qed.

(** ** Calls *)
Ltac lit_ok := first [clean_lit | let I := fresh in intro I; cbn in I; intuition discriminate].
Lemma mset_one k v (m : strmap) : clean k -> ~ In x3a k -> one_line v ->
  Forall (fun kv => clean (fst kv) /\ ~ In x3a (fst kv) /\ one_line (snd kv)) m ->
  Forall (fun kv => clean (fst kv) /\ ~ In x3a (fst kv) /\ one_line (snd kv)) (mset seqb k v m).
Proof.
  intros C1 N C2 F. rewrite Forall_forall in *. intros [k' v'] H.
  apply (mset_In_inv seqb seqb_eq) in H as [[-> ->]|H]; auto.
Qed.
Lemma default_one w r r' : lines_ok r -> default_headers w r = Done r' -> lines_ok r'.
Proof.
  unfold lines_ok. intros H E. apply default_headers_spec in E as (_ & _ & _ & _ & _ & _ & now & _ & ->). cbv zeta.
  set (m1 := match rs_content_len r with Some x => mset seqb CLEN (show_N x) (rs_headers r) | None => rs_headers r end).
  assert (H1 : Forall (fun kv : str * str => clean (fst kv) /\ ~ In x3a (fst kv) /\ one_line (snd kv)) m1).
  { unfold m1. destruct (rs_content_len r); auto. apply mset_one; auto; try lit_ok. apply clean_one, show_N_clean. }
  clearbody m1. set (m2 := match now with Some d => mset seqb (B "Date") (time_format d) m1 | None => m1 end).
  assert (H2 : Forall (fun kv : str * str => clean (fst kv) /\ ~ In x3a (fst kv) /\ one_line (snd kv)) m2).
  { unfold m2. destruct now; auto. apply mset_one; auto; try lit_ok. apply clean_one, time_format_clean. }
  clearbody m2. destruct (mget seqb CTYPE (rs_headers r)); auto. apply mset_one; auto; try lit_ok. apply clean_one, default_type_clean.
Qed.
Definition one_line_args (o : rop cl) : Prop :=
  match o with
  | OpSet k v => clean k /\ ~ In x3a k /\ one_line v
  | OpWithType t => one_line t
  | OpRedirect l => one_line l
  | _ => True
  end.
Lemma op_one w o r r' : one_line_args o -> lines_ok r -> apply_op w o r = Done r' -> lines_ok r'.
Proof.
  intros Q H E. destruct o; cbn [apply_op one_line_args] in *;
    try (injection E as <-; exact H).
  - injection E as <-. apply mset_one; tauto.
  - unfold res_send in E. eapply default_one; [|exact E]. exact H.
  - eapply default_one; eauto.
  - injection E as <-. apply mset_one; auto; lit_ok.
  - apply send_file_inv in E as [[-> _]|(len & c & _ & ->)]; auto. apply mset_one; auto; try lit_ok. apply clean_one, mime_clean.
  - injection E as <-. apply mset_one; auto; try lit_ok. apply clean_one; lit_ok.
  - injection E as <-. unfold lines_ok, attachment_with_filename, res_set. cbn [rs_headers with_headers].
    apply mset_one; try lit_ok; [apply clean_one, mime_clean|]. apply mset_one; auto; try lit_ok.
    apply clean_one, clean_app. split; [clean_lit|apply debug_str_clean].
  - injection E as <-. apply mset_one; auto; lit_ok.
Qed.

(** ** What comes from requests *)
Lemma join_one sep (l : list str) : clean sep -> sep <> [] -> Forall one_line l -> one_line (join sep l).
Proof.
  intros C Ne. induction 1 as [|x l O F IH]; [intros (i & a & b & E & _); destruct a; discriminate|].
  destruct l as [|y l]; [exact O|]. change (join sep (x :: y :: l)) with (x ++ sep ++ join sep (y :: l)).
  set (s := join sep (y :: l)) in *. clearbody s. clear F. intros (i & a & b & E & _).
  destruct sep as [|c sep]; [congruence|]. assert (C' : c <> LF /\ c <> CR) by (split; intros ->; [apply (proj2 C)|apply (proj1 C)]; left; auto).
  assert (One : one_line ((c :: sep) ++ s)) by (apply one_app; auto). cbn [List.app] in One, E. set (z := sep ++ s) in *. clearbody z.
  revert a E. clear - O One C'. induction x as [|d x IH]; intros a E.
  - apply One. exists (length a), a, b. auto.
  - destruct a as [|e a].
    + cbn [List.app] in E. injection E as -> E. destruct x as [|d x].
      * injection E as -> _. destruct C'; auto.
      * injection E as -> _. apply O. exists 0, [], x. auto.
    + injection E as -> E. apply IH in E; auto. intros (j & a' & b' & -> & L). apply O. exists (S j), (e :: a'), b'. split; [reflexivity|cbn; auto].
Qed.
Lemma piece_one sep s l x : pieces_of sep s l -> In x l -> ~ occurs sep x.
Proof. intros (_ & F & _) I. rewrite Forall_forall in F. auto. Qed.
Lemma sub_one a x b : one_line (a ++ x ++ b) -> one_line x.
Proof. intros O X. apply O. apply occurs_inside. exact X. Qed.
Lemma block_values strict s hs : header_block strict s hs -> Forall (fun hd => one_line (h_value hd)) hs.
Proof.
  intros (lines & (_ & F & _) & F2). induction F2 as [|l hd lines hs (_ & _ & _ & ws & _ & E) F2 IH]; [constructor|].
  inversion F as [|? ? Hl Fl]; subst. constructor; auto. intro X. apply Hl.
  replace (h_name hd ++ [x3a] ++ ws ++ h_value hd) with ((h_name hd ++ [x3a] ++ ws) ++ h_value hd ++ []) by (rewrite app_nil_r, <- !app_assoc; reflexivity).
  apply occurs_inside. exact X.
Qed.
Lemma folded_one k hs v : Forall (fun hd => one_line (h_value hd)) hs -> folded k hs = Some v -> one_line v.
Proof.
  intros F E. unfold folded in E. assert (Fv : Forall one_line (map h_value (filter (RequestSpec.named k) hs))).
  { apply Forall_forall. intros x I. apply in_map_iff in I as (hd & <- & I). apply filter_In in I as [I _]. rewrite Forall_forall in F. auto. }
  destruct (map h_value (filter (RequestSpec.named k) hs)) as [|v0 vs]; [discriminate|]. injection E as <-. apply (join_one (B ", ") (v0 :: vs)); auto; [clean_lit|discriminate].
Qed.
Theorem request_texts ft s (rq : request cl) rl hs cs body (H : Type) (c : rreg H) h vars t :
  carries ft cl s rl hs cs body -> request_is ft rq rl hs cs body ->
  invokes (url_variables ft) (rl_path rl) c (h, vars) -> from_request rq vars t -> one_line t.
Proof.
  intros (a & b & _ & (V & rlt & hst & Hp & Hl & Hb & _) & _) (Er & _ & _ & G & _) Iv Fr.
  pose proof (path_sendable _ _ _ _ _ V Hp Hl) as Sd.
  assert (Seg : forall seg, In seg (rl_path rl) -> one_line seg).
  { intros seg I. rewrite Forall_forall in Sd. destruct (Sd seg I) as (_ & _ & _ & _ & O). exact O. }
  destruct Fr as [seg I| |name val I|name val I].
  - apply Seg. rewrite <- Er. exact I.
  - rewrite Er. apply display_text. eapply Forall_impl; [|exact Sd]. intros ? X. apply X.
  - destruct c as [v p h'|h']; cbn [invokes fst snd] in Iv.
    + destruct Iv as (_ & pat & _ & Iv). apply Iv in I as (_ & i & _ & I & _). apply Seg. eapply nth_error_In; eauto.
    + injection Iv as _ ->. discriminate.
  - rewrite G in I. eapply folded_one; [|exact I]. eapply block_values; eauto.
Qed.
Theorem copied_exact ft s (rq : request cl) rl hs cs body (H : Type) (c : rreg H) h vars (l : list (world * rop cl)) r w ho pos :
  carries ft cl s rl hs cs body -> request_is ft rq rl hs cs body -> invokes (url_variables ft) (rl_path rl) c (h, vars) ->
  Forall (fun wo => copies rq vars (snd wo) /\ no_file (fst wo) (snd wo)) l -> apply_ops l blank_response = Done r -> clean (reason_phrase w r) ->
  exists hs' body', Permutation hs' (rs_headers r) /\
    wire_reads (octane_send (get_data ft w ho pos r)) (rs_version r) (show_Z (status_into_i32 (rs_status r)))
      (reason_phrase w r) hs' body'.
Proof.
  intros Ca Ri Iv F E R.
  assert (T : forall t, copied rq vars t -> one_line t).
  { intros t [C|(a & x & b & -> & Ca' & Cb & Fr)]; [apply clean_one, C|]. apply one_mid; auto. eapply request_texts; eauto. }
  assert (Lk : lines_ok r).
  { apply (ops_invariant lines_ok (fun wo => copies rq vars (snd wo) /\ no_file (fst wo) (snd wo))) with (l := l) (r := blank_response); auto; [|constructor].
    intros w0 o r0 r1 [Q _] L0 E0. eapply op_one; [|exact L0|exact E0]. destruct o; cbn [copies one_line_args snd] in *; auto. destruct Q as (Q1 & Q2 & Q3). auto. }
  assert (Hv : clean (rs_version r) /\ ~ In SP (rs_version r)).
  { eapply ops_version; [|exact E]. split; [clean_lit|intro I; cbn in I; intuition discriminate]. }
  assert (Hc : rs_cookies r = []).
  { apply (ops_invariant (fun x => rs_cookies x = []) (fun wo => copies rq vars (snd wo) /\ no_file (fst wo) (snd wo))) with (l := l) (r := blank_response); auto.
    intros w0 o r0 r1 [Q _] H0 E1. rewrite <- H0. eapply op_cookies; [|exact E1]. intros c0 ->. exact Q. }
  assert (Hb : exists b, given_body (rs_body r) b).
  { apply (ops_invariant (fun x => exists b, given_body (rs_body x) b) (fun wo => copies rq vars (snd wo) /\ no_file (fst wo) (snd wo))) with (l := l) (r := blank_response); auto.
    - intros w0 o r0 r1 [_ Q] H0 E1. eapply op_given; [exact Q|exact H0|exact E1].
    - exists []. reflexivity. }
  destruct Hb as [b Hb]. destruct (lines_round_trip ft w ho pos r b (or_intror Hc) Lk Hb (proj1 Hv) (proj2 Hv) R) as (hs' & P & W). eauto.
Qed.
End Resp.

(** ** Requests *)
Lemma ask_carries ft cl tg path : utf8_valid tg = true -> ~ In x20 tg -> one_line tg -> path_means tg path ->
  carries ft cl (asks_for tg) (RequestLine MGet path Http11) the_host [] [].
Proof.
  intros V Sp O Pm. set (line := B "GET" ++ [x20] ++ tg ++ [x20] ++ B "HTTP/1.1").
  assert (NO : ~ occurs [x0d; x0a] line).
  { unfold line. apply crlf_spaced; [apply no_lf_no_crlf; cbn; intuition discriminate|]. apply crlf_spaced; auto. apply no_lf_no_crlf. cbn. intuition discriminate. }
  assert (Ea : asks_for tg = line ++ CRLF ++ B "Host: x" ++ CRLFCRLF).
  { unfold asks_for, line. rewrite <- !app_assoc. reflexivity. }
  rewrite Ea. exists (line ++ CRLF ++ B "Host: x"), []. split; [apply host_head; auto|]. split; [|split; [vm_compute; discriminate|split; [vm_compute; discriminate|left; reflexivity]]].
  split.
  - unfold line. rewrite <- !app_assoc. rewrite utf8_app by reflexivity. rewrite utf8_app by reflexivity. rewrite utf8_app by auto. reflexivity.
  - exists line, (B "Host: x"). split; [split; auto|]. split; [|split].
    + exists (B "GET"), tg, (B "HTTP/"), (B "1.1"), []. split; [|split; [reflexivity|split; [|split; [auto|]]]].
      * split; [discriminate|]. split; [|unfold line; reflexivity].
        repeat constructor; rewrite occurs1; auto; cbn; intuition discriminate.
      * intros b r E. injection E as <- _. reflexivity.
      * split; [exact Pm|]. split; left; constructor.
    + assert (G : header_block (faithful ft) (join CRLF (map header_text the_host)) the_host).
      { apply serialised_block; [discriminate|]. constructor; [|constructor].
        assert (G' : good_header true (Header (B "Host") (B "x")) /\ clean (header_text (Header (B "Host") (B "x")))) by good_hd.
        destruct G' as [((Na & Nb & Nc) & (Va & Vb) & U & O') _]. split; [split; [auto|split; [auto|intros _; apply Nc; reflexivity]]|].
        split; [split; [auto|intros _; apply Vb; reflexivity]|]. auto. }
      exact G.
    + unfold cookies_mean. destruct (cookies_on ft); reflexivity.
Qed.
Lemma one_segment seg : normal seg -> no_slash seg -> path_means (x2f :: seg) [seg].
Proof.
  intros N Ns. exists [[]; seg]. split.
  - split; [discriminate|]. split; [|reflexivity]. constructor; [intros []|constructor; auto].
  - split; [|constructor; auto]. apply Relation_Operators.rt_step. exact (rs_empty [] [seg]).
Qed.

(** ** The answer of the redirecting handler *)
Lemma sent_blank cl w : clock w <> None -> exists r : response cl, apply_op w (OpSend (B "moved")) blank_response = Done r /\ headers_ok r /\
  rs_cookies r = [] /\ rs_version r = B "1.1" /\ rs_body r = BodySized 5 (RCursor (B "moved")).
Proof.
  intro C. assert (exists r, apply_op w (OpSend (B "moved")) (blank_response (cl := cl)) = Done r) as (r & E).
  { cbn [apply_op]. unfold res_send, default_headers. destruct (clock w) as [now|]; [|congruence]. destruct (time_now_total now) as (d & ->). eexists. reflexivity. }
  exists r. split; auto. split; [eapply op_ok; [| |exact E]; [exact I|constructor]|].
  cbn [apply_op] in E. unfold res_send in E. apply default_headers_spec in E as (E1 & E2 & E3 & E4 & E5 & E6 & _).
  rewrite E6. rewrite E4. split; [reflexivity|]. split; [reflexivity|]. rewrite E1. reflexivity.
Qed.
Lemma moved_serve ft cl find w0 o (app : list (oreg unit)) rt w ho pos t rl hs cs body c vars v : clock w0 <> None ->
  fits app -> build o app = Done rt -> clock w <> None -> real_segments t ->
  carries ft cl (stream_of t) rl hs cs body -> ~ lacks_host rl hs -> rl_method rl <> MNone ->
  flatten app = [c] -> applies (url_variables ft) (rl_method rl) (rl_path rl) c ->
  (forall call, invokes (url_variables ft) (rl_path rl) c call -> vars (snd call)) ->
  (forall (rq : request cl) vs, rl_path (rq_line rq) = rl_path rl -> vars vs -> find (MatchedRequest rq vs) = Done (Some v)) ->
  exists r : response cl, apply_op w0 (OpSend (B "moved")) blank_response = Done r /\
    serve ft cl (moves_to w0 find) w ho pos rt tt t =
      (tt, IoDone (octane_send (get_data ft w ho pos (res_set (B "Location") v (set_status StFound r))))).
Proof.
  intros C0 F E C R Ca NH NM Fl Ap Iv Fi. destruct (sent_blank cl w0 C0) as (r & Er & _ & _ & _ & Eb). exists r. split; auto.
  pose proof (carried_reaches ft cl (moves_to w0 find) o app rt w ho pos tt t rl hs cs body F E C R Ca NH NM)
    as (rq & b' & s' & res & rr & Ri & (sel & calls & Sl & Fc & Rc) & Es & Em).
  destruct (serve ft cl (moves_to w0 find) w ho pos rt tt t) as [sx ox] eqn:Eserve. cbn [fst snd] in Es, Em. subst sx.
  rewrite (proj1 Ri) in Sl, Fc. rewrite Fl in Sl.
  inversion Sl as [|x l l' Px S1|x l l' Px S1]; subst; [|contradiction]. inversion S1; subst.
  inversion Fc as [|? call ? ? Hc Fn]; subst. inversion Fn; subst.
  destruct call as [[] vs]. cbn [run_chain] in Rc. unfold moves_to in Rc at 1.
  rewrite (Fi rq vs) in Rc; [|rewrite (proj1 Ri); reflexivity|exact (Iv _ Hc)].
  cbn [snd apply_ops] in Rc. rewrite Er in Rc. cbn [obind apply_op] in Rc. injection Rc as <- <- <-.
  cbn [rs_body] in Em. f_equal. apply Em. change (rs_body r <> BodyNone). rewrite Eb. discriminate.
Qed.

(** ** Parameters *)
Lemma pct_safe s b : In b (pct s) -> b <> x20 /\ b <> x2f /\ b <> x0d /\ b <> x0a.
Proof.
  assert (G : forall n, (n < 16)%N -> hex_digit n <> x20 /\ hex_digit n <> x2f /\ hex_digit n <> x0d /\ hex_digit n <> x0a).
  { intros n L. destruct (QueryProofs.hex_digit_value n L) as [V A].
    repeat split; intro E; rewrite E in V; unfold hex_value in V; change (bN x20) with 32%N in V; change (bN x2f) with 47%N in V;
      change (bN x0d) with 13%N in V; change (bN x0a) with 10%N in V; lia. }
  intro I. unfold pct in I. apply in_flat_map in I. destruct I as (c & _ & I). pose proof (bN_lt c) as L. unfold pct_byte in I. cbn [In] in I.
  destruct I as [<-|[<-|[<-|[]]]].
  - repeat split; discriminate.
  - apply G. apply N.div_lt_upper_bound; lia.
  - apply G. apply N.mod_lt; lia.
Qed.
Definition to_param (v : str) : str := B "go?a=1&to=" ++ pct v ++ B "&z=1".
Lemma to_param_text v : utf8_valid (to_param v) = true /\ ~ In x20 (to_param v) /\ clean (to_param v) /\ ~ In x2f (to_param v).
Proof.
  assert (Lit : forall b s, existsb (beqb b) s = false -> ~ In b s).
  { intros b s E I. assert (X : existsb (beqb b) s = true) by (apply existsb_exists; exists b; split; [exact I|apply beqb_eq; reflexivity]). congruence. }
  assert (G : forall b, (forall s, ~ In b (pct s)) -> existsb (beqb b) (B "go?a=1&to=") = false -> existsb (beqb b) (B "&z=1") = false -> ~ In b (to_param v)).
  { intros b N E1 E2 I. unfold to_param in I. rewrite !in_app_iff in I. destruct I as [I|[I|I]]; [revert I; apply Lit; auto|eapply N; eauto|revert I; apply Lit; auto]. }
  split; [|split; [|split; [split|]]].
  - unfold to_param. rewrite utf8_app by reflexivity. rewrite utf8_app; [reflexivity|]. apply QueryExtra.ascii_valid. apply Forall_forall. intros b I. apply (pct_bytes v b I).
  - apply G; try reflexivity. intros s I. apply pct_safe in I. tauto.
  - apply G; try reflexivity. intros s I. apply pct_safe in I. tauto.
  - apply G; try reflexivity. intros s I. apply pct_safe in I. tauto.
  - apply G; try reflexivity. intros s I. apply pct_safe in I. tauto.
Qed.
Lemma not_to strict item n w : item = n ++ [x3d] ++ w -> ~ In x3d n -> unescape_hex n = Done n -> n <> B "to" -> forall v, ~ assigns strict (B "to") item v.
Proof.
  intros E Nn U Ne v [_ [(n' & w' & E' & N' & _ & D & _)|(N' & _)]].
  - assert (n = n').
    { rewrite E in E'. clear E U Ne D. revert n' N' E'. induction n as [|c n IH]; intros [|c' n'] N' E'; auto.
      - injection E' as <- _. exfalso. apply N'. left. reflexivity.
      - injection E' as -> _. exfalso. apply Nn. left. reflexivity.
      - injection E' as -> E'. f_equal. apply IH; auto; intro I; [apply Nn|apply N']; right; auto. }
    subst n'. apply unescape_hex_spec in D. rewrite U in D. injection D as ->. auto.
  - apply N'. rewrite E. apply in_or_app. right. left. reflexivity.
Qed.
Lemma query_to cl ft (rq : request cl) v : rl_path (rq_line rq) = [to_param v] -> Forall (fun b => (bN b < 0x80)%N) v ->
  in_query ft (MatchedRequest rq []) = Done (Some v).
Proof.
  intros E A. destruct (pct_form v A) as [Fe _].
  assert (Ft : form_item (B "to", v) (B "to=" ++ pct v)).
  { exists (B "to"), (pct v). cbn [fst snd]. split; [reflexivity|]. split; [|split; [exact Fe|split; [cbn; intuition discriminate|discriminate]]].
    split; [reflexivity|]. split; [reflexivity|]. split; [|split; cbn; intuition discriminate]. vm_compute. repeat (apply esc_copy; [discriminate|]). constructor. }
  destruct (form_request cl ft rq [] (B "go") (B "a=1") (B "z=1") [(B "to", v)] [B "to=" ++ pct v]) as (m & Em & G).
  - rewrite E. unfold to_param. cbn [List.app join]. f_equal.
  - repeat constructor; cbn; intuition discriminate.
  - constructor; [exact Ft|constructor].
  - unfold in_query. cbn [mr_request]. rewrite Em. cbn [omap]. f_equal. rewrite G; [reflexivity| |].
    + apply not_to with (n := B "go?a") (w := B "1"); [reflexivity|cbn; intuition discriminate|reflexivity|discriminate].
    + apply not_to with (n := B "z") (w := B "1/"); [reflexivity|cbn; intuition discriminate|reflexivity|discriminate].
Qed.
Lemma found_phrase cl w (r : response cl) : rs_status r = StFound -> reason_phrase w r = B "FOUND".
Proof. intros E. unfold reason_phrase. rewrite E. reflexivity. Qed.
Theorem query_injects ft cl u n x w0 : clean u -> clean n -> ~ In x3a n -> clean x ->
  Forall (fun b => (bN b < 0x80)%N) (u ++ n ++ x) -> clock w0 <> None ->
  let p := B "/go?a=1&to=" ++ pct (u ++ CRLF ++ n ++ B ": " ++ x) ++ B "&z=1" in
  target_ok p /\
  forall o rt w ho pos t, build o [OAdd tt] = Done rt -> clock w <> None -> real_segments t -> stream_of t = asks_for p ->
  exists out hs, serve ft cl (moves_to w0 (in_query ft)) w ho pos rt tt t = (tt, IoDone out) /\
    wire_reads out (B "1.1") (B "302") (B "FOUND") hs (B "moved") /\ In (B "Location", u) hs /\ In (n, x) hs.
Proof.
  intros Cu Cn Nn Cx A C0 p. set (v := u ++ CRLF ++ n ++ B ": " ++ x) in *.
  assert (Av : Forall (fun b => (bN b < 0x80)%N) v).
  { unfold v. rewrite !Forall_app in *. destruct A as (A1 & A2 & A3). split; auto. split; [repeat constructor|]. split; auto. split; [repeat constructor|auto]. }
  change p with (x2f :: to_param v). destruct (to_param_text v) as (V & Sp & Cl & Sl).
  assert (V' : utf8_valid (x2f :: to_param v) = true) by (change (x2f :: to_param v) with ([x2f] ++ to_param v); rewrite utf8_app by reflexivity; exact V).
  assert (Sp' : ~ In x20 (x2f :: to_param v)) by (intros [I|I]; [discriminate|auto]).
  assert (Cl' : clean (x2f :: to_param v)) by (split; intros [I|I]; try discriminate; [apply (proj1 Cl)|apply (proj2 Cl)]; auto).
  split; [repeat split; auto; apply Cl'|]. intros o rt w ho pos t E C R Es.
  assert (Pm : path_means (x2f :: to_param v) [to_param v]) by (apply one_segment; [repeat split; discriminate|exact Sl]).
  pose proof (ask_carries ft cl _ _ V' Sp' (clean_one _ Cl') Pm) as Ca. rewrite <- Es in Ca.
  destruct (moved_serve ft cl (in_query ft) w0 o [OAdd tt] rt w ho pos t (RequestLine MGet [to_param v] Http11) the_host [] [] (RAdd tt) (fun vs => vs = []) v C0) with (2 := E) (5 := Ca) as (r & Er & Sr); auto.
  - vm_compute. discriminate.
  - apply host_there.
  - discriminate.
  - exact I.
  - intros call Ic. cbn [invokes] in Ic. rewrite Ic. reflexivity.
  - intros rq vs Ep ->. apply query_to; auto.
  - destruct (sent_blank cl w0 C0) as (r' & Er' & Hk & Ck & Vk & Bk). rewrite Er in Er'. injection Er' as <-.
    assert (Ph : reason_phrase w (set_status StFound r) = B "FOUND") by (apply found_phrase; reflexivity).
    destruct (line_injected (B "Location") u n x ft w ho pos (set_status StFound r) (B "moved")) as (hs & W & I1 & I2 & _); auto.
    + right. exact Ck.
    + change (given_body (rs_body r) (B "moved")). rewrite Bk. reflexivity.
    + change (clean (rs_version r)). rewrite Vk. clean_lit.
    + change (~ In SP (rs_version r)). rewrite Vk. cbn. intuition discriminate.
    + rewrite Ph. clean_lit.
    + clean_lit.
    + cbn. intuition discriminate.
    + eexists _, hs. split; [exact Sr|]. split; [|split; auto]. rewrite Ph in W. change (rs_version (set_status StFound r)) with (rs_version r) in W.
      rewrite Vk in W. exact W.
Qed.

(** ** Lenient clients *)
Lemma lf_pieces ls s : Forall (fun l => ~ In x0a l) ls -> pieces_of [x0a] (flat_map (fun l => l ++ [x0a]) ls ++ s) (ls ++ split_char x0a s).
Proof.
  intros F. pose proof (proj2 (pieces1_unique x0a s _) eq_refl) as P. induction F as [|l ls N F IH]; [exact P|].
  destruct IH as (Ne & Fp & J). split; [discriminate|]. split; [constructor; [rewrite occurs1; exact N|exact Fp]|].
  cbn [flat_map]. rewrite <- app_assoc. rewrite <- J. cbn [List.app]. destruct (ls ++ split_char x0a s) as [|y ys] eqn:Ey; [exfalso; apply Ne; reflexivity|].
  change (join [x0a] (l :: y :: ys)) with (l ++ [x0a] ++ join [x0a] (y :: ys)). rewrite <- app_assoc. reflexivity.
Qed.
Lemma join_terminated (l : list str) : l <> [] -> join CRLF l ++ CRLF = flat_map (fun x => x ++ CRLF) l.
Proof.
  induction l as [|x l IH]; [congruence|]. intros _. destruct l as [|y l]; [cbn; rewrite app_nil_r; reflexivity|].
  change (join CRLF (x :: y :: l)) with (x ++ CRLF ++ join CRLF (y :: l)). cbn [flat_map] in *. rewrite <- !app_assoc. f_equal. f_equal.
  rewrite IH by discriminate. rewrite <- app_assoc. reflexivity.
Qed.
Section Lenient.
Context (k u n x : str).
Let v : str := u ++ [x0a] ++ n ++ [x3a] ++ x.
Lemma lenient_lines (L : list (str * str)) s : clean k -> clean u -> clean n ->
  Forall (fun kv => kv = (k, v) \/ (clean (fst kv) /\ clean (snd kv))) L -> In (k, v) L ->
  exists ls s', flat_map (fun kv => hline kv ++ CRLF) L ++ s = flat_map (fun l => l ++ [x0a]) ls ++ (n ++ [x3a] ++ x ++ [x0d]) ++ [x0a] ++ s' /\
    Forall (fun l => ~ In x0a l /\ l <> [] /\ l <> [x0d]) ls.
Proof.
  intros Ck Cu Cn. induction 1 as [|kv L Hk F IH]; intros I; [destruct I|]. cbn [flat_map].
  assert (D : kv = (k, v) \/ kv <> (k, v)).
  { destruct kv as [k' v'], (list_eq_dec Byte.byte_eq_dec k' k) as [E1|N1], (list_eq_dec Byte.byte_eq_dec v' v) as [E2|N2]; try (right; congruence). left. congruence. }
  destruct D as [->|G].
  - exists [k ++ B ": " ++ u], (flat_map (fun kv => hline kv ++ CRLF) L ++ s). split.
    + unfold hline. cbn [fst snd flat_map]. unfold v. rewrite app_nil_r, <- !app_assoc. reflexivity.
    + constructor; [|constructor]. split; [|split].
      * rewrite !in_app_iff. intros [I'|[I'|I']]; [exact (proj2 Ck I')|cbn in I'; intuition discriminate|exact (proj2 Cu I')].
      * clear. destruct k; discriminate.
      * clear. destruct k as [|b [|b' k']]; discriminate.
  - assert (C : clean (fst kv) /\ clean (snd kv)) by (destruct Hk as [Hk|Hk]; [contradiction|exact Hk]).
    destruct IH as (ls & s' & E & Fl); [destruct I as [I|I]; [contradiction|exact I]|].
    exists ((hline kv ++ [x0d]) :: ls), s'. split; [cbn [flat_map]; rewrite <- !app_assoc; rewrite <- !app_assoc in E; rewrite E; reflexivity|].
    constructor; auto. destruct C as [[_ C1] [_ C2]]. unfold hline. split; [|split].
    + rewrite !in_app_iff. intros [[I'|[I'|I']]|I']; [auto|cbn in I'; intuition discriminate|auto|cbn in I'; intuition discriminate].
    + destruct (fst kv); discriminate.
    + destruct (fst kv) as [|b [|b' k']]; discriminate.
Qed.
End Lenient.
Theorem variable_injects ft cl u n x w0 : url_variables ft = true -> Forall (fun s => clean s /\ line_text s /\ ~ In x2f s) [u; n; x] -> ~ In x3a n -> clock w0 <> None ->
  let p := B "/" ++ u ++ [x0a] ++ n ++ B ":" ++ x in
  forall o rt w ho pos t, build o [ORoute VGet (B "/:to") tt] = Done rt -> clock w <> None -> real_segments t -> stream_of t = asks_for p ->
  exists out, serve ft cl (moves_to w0 in_variables) w ho pos rt tt t = (tt, IoDone out) /\ lenient_header out n x.
Proof.
  intros Uv F Nn C0 p o rt w ho pos t E C R Es.
  apply Forall_inv_tail in F as F1. apply Forall_inv_tail in F1 as F2. apply Forall_inv in F. apply Forall_inv in F1. apply Forall_inv in F2.
  destruct F as (Cu & (Vu & Su & _) & Lu), F1 as (Cn & (Vn & Sn & _) & Ln), F2 as (Cx & (Vx & Sx & _) & Lx).
  set (v := u ++ [x0a] ++ n ++ [x3a] ++ x). change p with (x2f :: v) in *.
  assert (Vv : utf8_valid (x2f :: v) = true).
  { change (x2f :: v) with ([x2f] ++ v). unfold v. repeat (rewrite utf8_app; [|first [reflexivity|assumption]]). assumption. }
  assert (Nv : forall b, b <> x2f -> b <> x0a -> b <> x3a -> ~ In b u -> ~ In b n -> ~ In b x -> ~ In b (x2f :: v)).
  { intros b B1 B2 B3 B4 B5 B6. unfold v. cbn [In]. rewrite !in_app_iff. cbn [In]. intuition congruence. }
  assert (Ov : one_line (x2f :: v)).
  { intros (i & a & b & Ea & _). assert (I : In x0d (x2f :: v)) by (rewrite Ea; apply in_or_app; right; left; reflexivity).
    revert I. apply Nv; try discriminate; [apply Cu|apply Cn|apply Cx]. }
  assert (Pm : path_means (x2f :: v) [v]).
  { apply one_segment.
    - unfold v. assert (I3 : In x3a v) by (unfold v; rewrite !in_app_iff; cbn; auto 8).
      split; [|split]; intro Ev; fold v in Ev; rewrite Ev in I3; cbn in I3; intuition discriminate.
    - unfold no_slash, v. rewrite !in_app_iff. cbn [In]. intuition discriminate. }
  pose proof (ask_carries ft cl _ _ Vv (Nv x20 ltac:(discriminate) ltac:(discriminate) ltac:(discriminate) Su Sn Sx) Ov Pm) as Ca. rewrite <- Es in Ca.
  assert (Pt : path_means (B "/:to") [B ":to"]) by (apply (one_segment (B ":to")); [repeat split; discriminate|intro I; cbn in I; intuition discriminate]).
  destruct (moved_serve ft cl in_variables w0 o [ORoute VGet (B "/:to") tt] rt w ho pos t (RequestLine MGet [v] Http11) the_host [] [] (RRoute VGet (B "/:to") tt)
    (fun vs => mget seqb (B "to") vs = Some v) v C0) with (2 := E) (5 := Ca) as (r & Er & Sr); auto.
  - vm_compute. discriminate.
  - apply host_there.
  - discriminate.
  - cbn [applies rl_method rl_path]. split; [reflexivity|]. exists [B ":to"]. split; [exact Pt|]. rewrite Uv. constructor; [left; eexists; reflexivity|constructor].
  - intros call Ic. cbn [invokes rl_path] in Ic. destruct Ic as (_ & pat & Pp & Ic). apply path_means_parse in Pp. apply path_means_parse in Pt.
    rewrite Pt in Pp. injection Pp as <-. apply Ic. split; [exact Uv|]. exists 0. split; [reflexivity|]. split; [reflexivity|].
    intros [|[|j]] Lj; [lia| |]; discriminate.
  - intros rq vs _ Ev. unfold in_variables. cbn [mr_vars]. rewrite Ev. reflexivity.
  - destruct (sent_blank cl w0 C0) as (r' & Er' & Hk & Ck & Vk & Bk). rewrite Er in Er'. injection Er' as <-.
    eexists. split; [exact Sr|]. set (r2 := res_set (B "Location") v (set_status StFound r)). 
    assert (Hc : cookies_on ft = false \/ rs_cookies r2 = []) by (right; exact Ck).
    rewrite (send_plain ft w ho pos r2 Hc). set (L := ord_fn ho pos _ (rs_headers r2)).
    assert (PL : Permutation L (rs_headers r2)) by apply ord_perm.
    set (bd := copy_bytes (get_reader (rs_body r2))).
    assert (St : clean (status_text w r2)).
    { apply status_text_clean; [change (clean (rs_version r)); rewrite Vk; clean_lit|]. rewrite found_phrase by reflexivity. clean_lit. }
    destruct (lenient_lines (B "Location") u n x L (CRLF ++ bd)) as (ls & s' & El & Fl); auto.
    + clean_lit.
    + apply Forall_forall. intros [k' v'] I. apply (Permutation_in _ PL) in I. apply (mset_In_inv seqb seqb_eq) in I as [[-> ->]|I]; [left; reflexivity|right].
      unfold headers_ok in Hk. rewrite Forall_forall in Hk. destruct (Hk _ I) as (K1 & _ & K2). auto.
    + apply (Permutation_in _ (Permutation_sym PL)). apply mset_here.
    + exists ((status_text w r2 ++ [x0d]) :: ls), (split_char x0a s'). split; [|split; auto].
      * replace (join CRLF (status_text w r2 :: map hline L) ++ CRLFCRLF ++ bd) with
          (flat_map (fun l => l ++ [x0a]) (((status_text w r2 ++ [x0d]) :: ls) ++ [n ++ [x3a] ++ x ++ [x0d]]) ++ s').
        { replace (((status_text w r2 ++ [x0d]) :: ls) ++ (n ++ [x3a] ++ x ++ [x0d]) :: split_char x0a s') with
            ((((status_text w r2 ++ [x0d]) :: ls) ++ [n ++ [x3a] ++ x ++ [x0d]]) ++ split_char x0a s') by (rewrite <- app_assoc; reflexivity).
          apply lf_pieces. apply Forall_app. split; [constructor|constructor; [|constructor]].
          - rewrite in_app_iff. intros [I|I]; [exact (proj2 St I)|cbn in I; intuition discriminate].
          - eapply Forall_impl; [|exact Fl]. intros ? X. apply X.
          - rewrite !in_app_iff. destruct Cn as [_ Cn], Cx as [_ Cx]. cbn [In]. intuition discriminate. }
        transitivity ((status_text w r2 ++ CRLF) ++ flat_map (fun kv => hline kv ++ CRLF) L ++ CRLF ++ bd).
        { rewrite El. rewrite flat_map_app. cbn [flat_map]. rewrite app_nil_r, <- !app_assoc. reflexivity. }
        change CRLFCRLF with (CRLF ++ CRLF). rewrite <- (app_assoc CRLF CRLF bd), (app_assoc (join CRLF _) CRLF).
        rewrite join_terminated by discriminate. cbn [flat_map]. rewrite <- !app_assoc. f_equal. f_equal. f_equal.
        clear. induction L as [|kv L IH]; [reflexivity|]. cbn [map flat_map]. rewrite IH. reflexivity.
      * constructor; [|eapply Forall_impl; [|exact Fl]; intros ? X; apply X]. unfold status_text. split; discriminate.
Qed.
