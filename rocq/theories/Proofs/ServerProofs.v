(** Serving one connection. *)
From Verif.Proofs Require TimeProofs.
From Verif.Proofs Require Export ResponseExtra StatusMime RequestExtra RouterExtra.
From Verif.Model Require Export Server.
From Verif.Spec Require Import Common PathSpec RoutingSpec TextSpec RequestSpec ResponseSpec ServerSpec.
From Coq Require Import Permutation.
Local Arguments N.mul : simpl never.
Local Arguments N.add : simpl never.
Local Arguments N.sub : simpl never.

(** ** Error answers *)
Lemma time_now_total n : exists d, time_now (Some n) = Done d.
Proof.
  unfold time_now. destruct (Z.leb_spec (Z.of_N n) I64_MAX) as [L|L]; [|eauto].
  destruct (TimeProofs.no_panic (Z.of_N n)) as (t & E); [lia|]. rewrite E. eexists. reflexivity.
Qed.
Lemma default_headers_total {cl} w (r : response cl) : clock w <> None -> exists r', default_headers w r = Done r'.
Proof.
  intro C. destruct (clock w) as [n|] eqn:E; [|congruence]. unfold default_headers. rewrite E.
  destruct (time_now_total n) as (d & ->). cbn [obind]. eauto.
Qed.

Lemma error_send_page {cl} ft w ho pos kind num reason : clock w <> None ->
  (forall r : response cl, rs_status r = kind -> show_Z (status_into_i32 (rs_status r)) = num /\ reason_phrase w r = reason) ->
  clean reason ->
  exists out, error_send ft w ho pos kind (cl := cl) = Done out /\ error_answer num reason out /\
    exists hs, wire_reads out (B "1.1") num reason hs NOT_FOUND.
Proof.
  intros C K Cr. unfold error_send.
  destruct (default_headers_total w (set_status kind (@new_from_slice cl NOT_FOUND)) C) as (r' & E).
  rewrite E. cbn [omap obind]. eexists. split; [reflexivity|].
  set (r := res_set (B "Content-Type") (B "text/html") r').
  assert (A : apply_ops [(w, OpStatus kind); (w, OpDefaultHeaders); (w, OpSet (B "Content-Type") (B "text/html"))]
                (@new_from_slice cl NOT_FOUND) = Done r).
  { cbn [apply_ops apply_op obind]. rewrite E. reflexivity. }
  pose proof (default_headers_spec _ _ _ E) as (Eb & Es & Ec & Ev & _ & Ek & _).
  assert (R : headers_ok r).
  { eapply (ops_ok _ (@new_from_slice cl NOT_FOUND)); [|constructor|exact A]. repeat constructor; try (intro I; cbn in I; intuition discriminate). }
  destruct (K r) as [Kn Kr]; [unfold r; cbn [res_set with_headers rs_status]; rewrite Es; reflexivity|].
  destruct (round_trip ft w ho pos r NOT_FOUND) as (hs & P & W); auto.
  - right. unfold r. cbn [res_set with_headers rs_cookies]. rewrite Ek. reflexivity.
  - unfold r. cbn [res_set with_headers rs_body]. rewrite Eb. reflexivity.
  - unfold r. cbn [res_set with_headers rs_version]. rewrite Ev. clean_lit.
  - unfold r. cbn [res_set with_headers rs_version]. rewrite Ev. intro I; cbn in I; intuition discriminate.
  - rewrite Kr. auto.
  - rewrite Kn, Kr in W. assert (V : rs_version r = B "1.1") by (unfold r; cbn [res_set with_headers rs_version]; rewrite Ev; reflexivity).
    rewrite V in W.
    assert (G : forall k v, res_get k r = Some v -> In (k, v) hs).
    { intros k v Hg. apply (Permutation_in _ (Permutation_sym P)). apply (mget_In seqb seqb_eq). exact Hg. }
    split; [|exists hs; exact W].
    exists hs, NOT_FOUND, (show_N (N.of_nat (length NOT_FOUND))). split; [exact W|]. split; [|split; [|split]].
    + apply (Permutation_NoDup (Permutation_map fst (Permutation_sym P))).
      eapply ops_keys; [|exact A]. constructor.
    + apply G. unfold r, res_get, res_set. cbn [with_headers rs_headers].
      rewrite (mget_mset_other seqb seqb_eq) by discriminate.
      destruct (default_get _ _ _ CLEN E) as (_ & L & _). exact (L eq_refl).
    + apply show_N_decimal.
    + apply G. unfold r, res_get, res_set. cbn [with_headers rs_headers]. apply (mget_mset_same seqb seqb_eq).
Qed.
Lemma error_send_ok {cl} ft w ho pos kind num reason : clock w <> None ->
  (forall r : response cl, rs_status r = kind -> show_Z (status_into_i32 (rs_status r)) = num /\ reason_phrase w r = reason) ->
  clean reason ->
  exists out, error_send ft w ho pos kind (cl := cl) = Done out /\ error_answer num reason out.
Proof. intros C K R. destruct (error_send_page (cl := cl) ft w ho pos kind num reason C K R) as (out & E & A & _). eauto. Qed.
Lemma send_400 {cl} ft w ho pos : clock w <> None ->
  exists out, error_send ft w ho pos StBadRequest (cl := cl) = Done out /\ error_answer (B "400") (B "BAD REQUEST") out.
Proof. intro C. apply error_send_ok; auto; [|clean_lit]. intros r E. unfold reason_phrase. rewrite E. split; reflexivity. Qed.
Lemma send_501 {cl} ft w ho pos : clock w <> None ->
  exists out, error_send ft w ho pos StNotImplemented (cl := cl) = Done out /\ error_answer (B "501") (B "NOT IMPLEMENTED") out.
Proof. intro C. apply error_send_ok; auto; [|clean_lit]. intros r E. unfold reason_phrase. rewrite E. split; reflexivity. Qed.
Lemma send_404 {cl} ft w ho pos : clock w <> None ->
  exists out, error_send ft w ho pos StNotFound (cl := cl) = Done out /\ error_answer (B "404") (B "NOT FOUND") out.
Proof. intro C. apply error_send_ok; auto; [|clean_lit]. intros r E. unfold reason_phrase. rewrite E. split; reflexivity. Qed.

(** ** Reading *)
Lemma read_request_cases ft cl t : real_segments t ->
  match read_request ft cl t with
  | IoDone RdBad => stream_bad (stream_of t) (fin t)
  | IoDone (RdRequest rq) => exists rl hs cs body,
      carries ft cl (stream_of t) rl hs cs body /\ request_is ft rq rl hs cs body
  | IoPanic => stream_kills ft cl (stream_of t) (fin t) \/ borderline ft (stream_of t) (fin t)
  | IoBlocked => stream_waits ft (stream_of t) (fin t)
  | IoFuel => False
  end.
Proof.
  intros R. pose proof (proj1 (read_request_panics ft cl t R)) as RP.
  pose proof (find_str_spec CRLFCRLF (stream_of t)) as F.
  destruct (find_str CRLFCRLF (stream_of t)) as [i|].
  - destruct (head_at_exists (stream_of t)) as (a & b & Ha); [exists i; apply F|].
    destruct (utf8_valid a) eqn:V.
    + destruct (find_str CRLF a) as [j|] eqn:Ej.
      * apply find_str_Some in Ej. destruct (head_parts_exists a) as (rlt & hst & Hp); [exists j; apply Ej|].
        pose proof (read_request_head ft cl t a b rlt hst R Ha V Hp) as Hh.
        destruct (read_request ft cl t) as [[|rq]| | |] eqn:E; try contradiction.
        -- destruct Hh as (rl & hs & cs & H1 & H2 & H3 & H4 & H5).
           assert (Hm : head_means ft cl a rl hs cs) by (split; auto; exists rlt, hst; auto).
           destruct (read_request_ok ft cl t a b rl hs cs R Ha Hm H4 H5) as (h & body & E' & G & Gr & Bc).
           rewrite E in E'. injection E' as ->. exists rl, hs, cs, body.
           split; [exists a, b; auto 7|]. repeat split; auto.
        -- apply RP. reflexivity.
        -- destruct Hh as (Hs & rl & hs & H1 & H2 & H3 & H4). split; auto. right. exists a, b, rlt, hst, rl, hs. auto 9.
      * apply find_str_None in Ej. rewrite (read_request_bad ft cl t a b R Ha (or_intror Ej)).
        right. exists a, b. split; auto. right. auto.
    + rewrite (read_request_bad ft cl t a b R Ha (or_introl V)). right. exists a, b. split; auto. left. auto.
  - rewrite (read_request_none ft cl t R F) in *. destruct (fin t) eqn:Ef.
    + left. auto.
    + left. left. auto.
    + split; auto.
Qed.

Lemma carries_method ft cl s rl hs cs body : carries ft cl s rl hs cs body -> rl_method rl <> MAll.
Proof.
  intros (a & b & _ & (_ & rlt & hst & _ & L & _) & _).
  apply request_line_iff in L. eapply line_not_all; eauto.
Qed.

Section Serve.
Context (ft : features) (cl : cookie_lib) {H ST : Type}
  (handle : H -> matched_request cl -> ST * response cl -> (ST * response cl) * outcome flow).

Theorem serve_served o app rt w ho pos s t s' r :
  (N.of_nat (length (flatten app)) <= USIZE_MAX)%N -> build o app = Done rt ->
  clock w <> None -> real_segments t ->
  serve ft cl handle w ho pos rt s t = (s', r) ->
  served ft cl handle w ho pos app s (stream_of t) (fin t) s' r.
Proof.
  intros HB Eb C R E. unfold serve in E. pose proof (read_request_cases ft cl t R) as X.
  destruct (read_request ft cl t) as [[|rq]| | |]; [| | | |contradiction].
  - cbn [respond] in E. destruct (send_400 (cl := cl) ft w ho pos C) as (out & Eo & A).
    rewrite Eo in E. injection E as <- <-. apply sv_bad; auto.
  - destruct X as (rl & hs & cs & body & Cs & Ri). pose proof Ri as (El & _ & _ & G & _).
    cbn [respond] in E. rewrite El in E.
    destruct (err_bad_request (http_validate (rl_version rl) (rq_headers rq))) eqn:Eh.
    + apply (host_check _ _ hs G) in Eh. destruct (send_400 (cl := cl) ft w ho pos C) as (out & Eo & A).
      rewrite Eo in E. injection E as <- <-. eapply sv_no_host; eauto.
    + assert (NH : ~ lacks_host rl hs).
      { intro L. apply (host_check _ _ hs G) in L. congruence. }
      destruct (method_is_some (rl_method rl)) eqn:Em.
      * assert (Mn : rl_method rl <> MNone) by (intro Y; rewrite Y in Em; discriminate).
        destruct (dispatch_correct (fun h vars => handle h (MatchedRequest rq vars)) o ft app (rl_method rl) (rl_path rl)
                    (s, new_empty) HB (carries_method _ _ _ _ _ _ _ Cs)) as (rt' & sel & calls & Eb' & S & I & Er).
        rewrite Eb in Eb'. injection Eb' as <-. rewrite Er in E.
        assert (Hd : handled ft cl handle app rq s (run_chain (fun h vars => handle h (MatchedRequest rq vars)) calls (s, new_empty))).
        { unfold handled. rewrite El. exists sel, calls. auto. }
        destruct (run_chain _ calls _) as [[s1 res] [[]|]].
        -- unfold has_body in E. destruct (rs_body res) eqn:Bd; cbn [body_is_some negb] in E.
           ++ destruct (send_404 (cl := cl) ft w ho pos C) as (out & Eo & A). rewrite Eo in E. injection E as <- <-.
              eapply sv_not_found; eauto.
           ++ injection E as <- <-. eapply sv_response; eauto. congruence.
           ++ injection E as <- <-. eapply sv_response; eauto. congruence.
        -- injection E as <- <-. eapply sv_handler_panics; eauto.
      * assert (Mn : rl_method rl = MNone) by (destruct (rl_method rl); auto; discriminate).
        destruct (send_501 (cl := cl) ft w ho pos C) as (out & Eo & A). rewrite Eo in E. injection E as <- <-.
        eapply sv_method; eauto.
  - injection E as <- <-. destruct X; [apply sv_dies|apply sv_huge]; auto.
  - injection E as <- <-. apply sv_waits. auto.
Qed.
End Serve.

(** ** Requests as text *)
Lemma utf8_join l : Forall (fun x => utf8_valid x = true) l -> utf8_valid (join CRLF l) = true.
Proof.
  induction 1 as [|x l Hx F IH]; auto. destruct l as [|y l]; auto.
  change (join CRLF (x :: y :: l)) with (x ++ CRLF ++ join CRLF (y :: l)).
  rewrite utf8_app by auto. rewrite utf8_app by reflexivity. exact IH.
Qed.
Lemma method_text m meth : method_named m meth -> clean m /\ ~ In x20 m /\ utf8_valid m = true.
Proof. intros []; (split; [clean_lit|split; [intro I; cbn in I; intuition discriminate|reflexivity]]). Qed.
Lemma version_text ver v : version_named ver v -> clean ver /\ ~ In x20 ver /\ utf8_valid ver = true.
Proof. intros []; (split; [clean_lit|split; [intro I; cbn in I; intuition discriminate|reflexivity]]). Qed.

Lemma text_head ft cl m p ver hs body meth v path cs :
  method_named m meth -> version_named ver v -> target_ok p -> path_means p path ->
  hs <> [] -> Forall (fun hd => good_header (faithful ft) hd /\ clean (header_text hd)) hs ->
  cookies_mean cl (cookies_on ft) hs cs ->
  exists a, head_at (request_text m p ver hs body) a body /\ head_means ft cl a (RequestLine meth path v) hs cs.
Proof.
  intros Hm Hv (Pc & Ps & Pu) Hp Hn Hg Hc.
  destruct (method_text _ _ Hm) as (Mc & Ms & Mu). destruct (version_text _ _ Hv) as (Vc & Vs & Vu).
  set (line := m ++ [x20] ++ p ++ [x20] ++ B "HTTP/" ++ ver).
  assert (Lc : clean line).
  { unfold line. rewrite !clean_app. repeat match goal with |- _ /\ _ => split end; auto; clean_lit. }
  assert (Hl : Forall clean (map header_text hs)).
  { clear - Hg. induction Hg as [|h l [G C] F IH]; constructor; auto. }
  assert (Hx : Forall (fun x => x <> []) (map header_text hs)).
  { clear - Hg. induction Hg as [|h l [((N & _) & _) C] F IH]; constructor; auto.
    unfold header_text. intro E. apply app_eq_nil in E as [E _]. apply N. auto. }
  assert (Hu : Forall (fun x => utf8_valid x = true) (map header_text hs)).
  { clear - Hg. induction Hg as [|h l [(_ & _ & U & _) C] F IH]; constructor; auto. }
  assert (Lu : utf8_valid line = true).
  { unfold line. rewrite utf8_app by auto. rewrite utf8_app by reflexivity. rewrite utf8_app by auto.
    rewrite utf8_app by reflexivity. rewrite utf8_app by reflexivity. exact Vu. }
  exists (join CRLF (line :: map header_text hs)).
  assert (J : join CRLF (line :: map header_text hs) = line ++ CRLF ++ join CRLF (map header_text hs)).
  { destruct hs; [congruence|]. reflexivity. }
  split.
  - replace (request_text m p ver hs body) with (join CRLF (line :: map header_text hs) ++ CRLFCRLF ++ body).
    + apply lines_head; [constructor; auto|discriminate|exact Hx].
    + rewrite J. unfold request_text, line. rewrite <- !app_assoc. reflexivity.
  - split; [apply utf8_join; constructor; auto|].
    exists line, (join CRLF (map header_text hs)). split; [split; [exact J|apply clean_no_crlf; auto]|].
    split; [|split; [|exact Hc]].
    + exists m, p, (B "HTTP/"), ver, []. split; [|split; [reflexivity|split; [|split; [auto|]]]].
      * split; [discriminate|]. split; [|reflexivity].
        assert (X : forall s, ~ In x20 s -> ~ occurs [x20] s) by (intros s N O; apply occurs1 in O; auto).
        repeat constructor; apply X; auto. rewrite in_app_iff. intros [I|I]; [cbn in I; intuition discriminate|auto].
      * intros b r E. clear - Hv E. destruct Hv; injection E as <- _; reflexivity.
      * split; [exact Hp|]. split; left; auto.
    + apply serialised_block; auto. clear - Hg. induction Hg as [|h l [G C] F IH]; constructor; auto.
Qed.

Section EndToEnd.
Context (ft : features) (cl : cookie_lib) {H ST : Type}
  (handle : H -> matched_request cl -> ST * response cl -> (ST * response cl) * outcome flow).

Lemma respond_request o app rt w ho pos s rq rl hs cs body :
  (N.of_nat (length (flatten app)) <= USIZE_MAX)%N -> build o app = Done rt ->
  request_is ft rq rl hs cs body -> ~ lacks_host rl hs -> rl_method rl <> MNone -> rl_method rl <> MAll ->
  exists s' res r, handled ft cl handle app rq s ((s', res), r) /\
    (r = Panic -> respond ft cl handle w ho pos rt s (RdRequest rq) = (s', Panic)) /\
    (r = Done tt -> rs_body res <> BodyNone ->
       respond ft cl handle w ho pos rt s (RdRequest rq) = (s', Done (octane_send (get_data ft w ho pos res)))) /\
    (r = Done tt -> rs_body res = BodyNone -> clock w <> None ->
       exists out, respond ft cl handle w ho pos rt s (RdRequest rq) = (s', Done out) /\
                   error_answer (B "404") (B "NOT FOUND") out).
Proof.
  intros HB Eb (El & _ & _ & G & _) NH Mn Ma. cbn [respond]. rewrite El.
  assert (Eh : err_bad_request (http_validate (rl_version rl) (rq_headers rq)) = false).
  { destruct (err_bad_request _) eqn:E; auto. exfalso. apply NH. apply (host_check _ _ hs G) in E. exact E. }
  rewrite Eh. assert (Em : method_is_some (rl_method rl) = true) by (destruct (rl_method rl); auto; congruence). rewrite Em.
  destruct (dispatch_correct (fun h vars => handle h (MatchedRequest rq vars)) o ft app (rl_method rl) (rl_path rl)
              (s, new_empty) HB Ma) as (rt' & sel & calls & Eb' & S & I & Er).
  rewrite Eb in Eb'. injection Eb' as <-. rewrite Er.
  destruct (run_chain (fun h vars => handle h (MatchedRequest rq vars)) calls (s, new_empty)) as [[s' res] r] eqn:Ec.
  exists s', res, r. split; [unfold handled; rewrite El; exists sel, calls; auto|].
  destruct r as [[]|].
  - split; [discriminate|]. unfold has_body. split.
    + intros _ Hb. destruct (rs_body res); [congruence|reflexivity|reflexivity].
    + intros _ -> C. cbn [body_is_some negb]. destruct (send_404 (cl := cl) ft w ho pos C) as (out & -> & A). eauto.
  - split; [auto|]. split; discriminate.
Qed.

Theorem end_to_end o app rt w ho pos s t m p ver hs body meth v path cs :
  (N.of_nat (length (flatten app)) <= USIZE_MAX)%N -> build o app = Done rt ->
  method_named m meth -> version_named ver v -> target_ok p -> path_means p path ->
  hs <> [] -> Forall (fun hd => good_header (faithful ft) hd /\ clean (header_text hd)) hs ->
  cookies_mean cl (cookies_on ft) hs cs -> ~ lacks_host (RequestLine meth path v) hs ->
  announced hs = N.of_nat (length body) -> (announced hs <= ISIZE_MAX)%N ->
  real_segments t -> stream_of t = request_text m p ver hs body ->
  exists rq s' res r, request_is ft rq (RequestLine meth path v) hs cs body /\
    handled ft cl handle app rq s ((s', res), r) /\
    (r = Panic -> serve ft cl handle w ho pos rt s t = (s', IoPanic)) /\
    (r = Done tt -> rs_body res <> BodyNone ->
       serve ft cl handle w ho pos rt s t = (s', IoDone (octane_send (get_data ft w ho pos res)))) /\
    (r = Done tt -> rs_body res = BodyNone -> clock w <> None ->
       exists out, serve ft cl handle w ho pos rt s t = (s', IoDone out) /\
                   error_answer (B "404") (B "NOT FOUND") out).
Proof.
  intros HB Eb Hm Hv Ht Hp Hn Hg Hc NH An Ai R Es.
  destruct (text_head ft cl m p ver hs body meth v path cs Hm Hv Ht Hp Hn Hg Hc) as (a & Ha & Hh).
  rewrite <- Es in Ha.
  destruct (read_request_ok ft cl t a body _ hs cs R Ha Hh) as (h & b & Er & G & Gr & Bc); [lia|lia|].
  assert (b = body) as ->.
  { destruct Bc as [->|(_ & k & Hk & ->)]; apply firstn_all2; lia. }
  set (rq := Request (RequestLine meth path v) h body cs).
  assert (Ri : request_is ft rq (RequestLine meth path v) hs cs body) by (repeat split; auto).
  assert (Mn : meth <> MNone) by (destruct Hm; discriminate).
  assert (Ma : meth <> MAll) by (destruct Hm; discriminate).
  destruct (respond_request o app rt w ho pos s rq _ hs cs body HB Eb Ri NH Mn Ma) as (s' & res & r & Hd & H1 & H2 & H3).
  exists rq, s', res, r. split; [exact Ri|]. split; [exact Hd|]. unfold serve. rewrite Er. fold rq.
  split; [|split].
  - intro E. rewrite (H1 E). reflexivity.
  - intros E Bn. rewrite (H2 E Bn). reflexivity.
  - intros E Bn C. destruct (H3 E Bn C) as (out & -> & A). exists out. auto.
Qed.

(** ** Truncated heads *)
Theorem truncated rt w ho pos s t : clock w <> None -> real_segments t ->
  ~ occurs CRLFCRLF (stream_of t) -> fin t = Eof ->
  exists out, serve ft cl handle w ho pos rt s t = (s, IoDone out) /\ error_answer (B "400") (B "BAD REQUEST") out.
Proof.
  intros C R Hn Hf. unfold serve. rewrite (read_request_none ft cl t R Hn), Hf. cbn [respond].
  destruct (send_400 (cl := cl) ft w ho pos C) as (out & -> & A). exists out. auto.
Qed.
Theorem cut_head rt w ho pos s t full a b n : clock w <> None -> real_segments t ->
  head_at full a b -> n < length a + 4 -> stream_of t = firstn n full -> fin t = Eof ->
  exists out, serve ft cl handle w ho pos rt s t = (s, IoDone out) /\ error_answer (B "400") (B "BAD REQUEST") out.
Proof.
  intros C R [_ Hf] L E. apply truncated; auto. rewrite E. intros (i & x & y & Ex & Lx).
  assert (O : occurs_at CRLFCRLF full i).
  { exists x, (y ++ skipn n full). split; auto. rewrite <- (firstn_skipn n full) at 1. rewrite Ex.
    rewrite <- !app_assoc. reflexivity. }
  apply Hf in O. assert (X : length (firstn n full) = length x + 4 + length y).
  { rewrite Ex, !app_length. change (length CRLFCRLF) with 4. lia. }
  rewrite firstn_length in X. lia.
Qed.
(** An error answer needs a clock. *)
Theorem no_clock rt w ho pos s t : clock w = None -> real_segments t ->
  ~ occurs CRLFCRLF (stream_of t) -> fin t = Eof ->
  serve ft cl handle w ho pos rt s t = (s, IoPanic).
Proof.
  intros C R Hn Hf. unfold serve. rewrite (read_request_none ft cl t R Hn), Hf. cbn [respond].
  unfold error_send, default_headers. rewrite C. reflexivity.
Qed.
End EndToEnd.

(** ** The kinds of streams exclude each other *)
Lemma bad_not_carried ft cl s e rl hs cs body : stream_bad s e -> ~ carries ft cl s rl hs cs body.
Proof.
  intros [[N _]|(a & b & Ha & Hb)] (a' & b' & Ha' & (V & rlt & hst & [Hp _] & _) & _).
  - apply N. eapply head_at_occurs; eauto.
  - destruct (head_at_fun _ _ _ _ _ Ha Ha') as [<- <-]. destruct Hb as [Hb|Hb]; [congruence|].
    apply Hb. subst a. exists (length rlt), rlt, hst. auto.
Qed.
Lemma kills_not_carried ft cl s e rl hs cs body : stream_kills ft cl s e -> ~ carries ft cl s rl hs cs body.
Proof.
  intros [[N _]|(a & b & rlt & hst & Ha & V & Hp & K)] (a' & b' & Ha' & (V' & rlt' & hst' & Hp' & L & Hb & Hc) & An' & An).
  - apply N. eapply head_at_occurs; eauto.
  - destruct (head_at_fun _ _ _ _ _ Ha Ha') as [<- <-]. destruct (head_parts_fun _ _ _ _ _ Hp Hp') as [<- <-].
    destruct K as [K|[K|(hs' & K1 & K2)]]; [eapply K; eauto|eapply K; eauto|].
    rewrite (header_block_fun _ _ _ _ K1 Hb) in *. destruct An as [Ai _].
    destruct K2 as [[K2 _]|[[_ [K2|K2]]|K2]]; [lia|eapply K2; eauto|lia|lia].
Qed.
Lemma waits_not_carried ft cl s e rl hs cs body : stream_waits ft s e -> ~ carries ft cl s rl hs cs body.
Proof.
  intros [_ [N|(a & b & rlt & hst & rl' & hs' & Ha & V & Hp & L & Hb & An)]] (a' & b' & Ha' & (V' & rlt' & hst' & Hp' & L' & Hb' & Hc) & An' & _).
  - apply N. eapply head_at_occurs; eauto.
  - destruct (head_at_fun _ _ _ _ _ Ha Ha') as [<- <-]. destruct (head_parts_fun _ _ _ _ _ Hp Hp') as [<- <-].
    rewrite (header_block_fun _ _ _ _ Hb Hb') in *. lia.
Qed.
Lemma bad_not_kills ft cl s e : stream_bad s e -> ~ stream_kills ft cl s e.
Proof.
  intros [[N ->]|(a & b & Ha & Hb)] [[N' E]|(a' & b' & rlt & hst & Ha' & V & [Hp _] & _)]; try discriminate.
  - apply N. eapply head_at_occurs; eauto.
  - apply N'. eapply head_at_occurs; eauto.
  - destruct (head_at_fun _ _ _ _ _ Ha Ha') as [<- <-]. destruct Hb as [Hb|Hb]; [congruence|].
    apply Hb. subst a. exists (length rlt), rlt, hst. auto.
Qed.
Lemma bad_not_waits ft s e : stream_bad s e -> ~ stream_waits ft s e.
Proof.
  intros [[N ->]|(a & b & Ha & Hb)] [E [N'|(a' & b' & rlt & hst & rl & hs & Ha' & V & [Hp _] & _)]]; try discriminate.
  - apply N'. eapply head_at_occurs; eauto.
  - destruct (head_at_fun _ _ _ _ _ Ha Ha') as [<- <-]. destruct Hb as [Hb|Hb]; [congruence|].
    apply Hb. subst a. exists (length rlt), rlt, hst. auto.
Qed.
Lemma kills_not_waits ft cl s e : stream_kills ft cl s e -> ~ stream_waits ft s e.
Proof.
  intros [[N ->]|(a & b & rlt & hst & Ha & V & Hp & K)] [E [N'|(a' & b' & rlt' & hst' & rl & hs & Ha' & V' & Hp' & L & Hb & An)]];
    try discriminate.
  - apply N'. eapply head_at_occurs; eauto.
  - destruct (head_at_fun _ _ _ _ _ Ha Ha') as [<- <-]. destruct (head_parts_fun _ _ _ _ _ Hp Hp') as [<- <-].
    destruct K as [K|[K|(hs' & K1 & K2)]]; [eapply K; eauto|eapply K; eauto|].
    rewrite (header_block_fun _ _ _ _ K1 Hb) in *. destruct K2 as [[_ K2]|[[K2 _]|K2]]; [tauto|lia|lia].
Qed.
Lemma carries_fun ft cl s rl hs cs body rl' hs' cs' body' :
  carries ft cl s rl hs cs body -> carries ft cl s rl' hs' cs' body' -> rl = rl' /\ hs = hs' /\ cs = cs'.
Proof.
  intros (a & b & Ha & (V & rlt & hst & Hp & L & Hb & Hc) & An & _)
         (a' & b' & Ha' & (V' & rlt' & hst' & Hp' & L' & Hb' & Hc') & An' & _).
  destruct (head_at_fun _ _ _ _ _ Ha Ha') as [<- <-]. destruct (head_parts_fun _ _ _ _ _ Hp Hp') as [<- <-].
  pose proof (header_block_fun _ _ _ _ Hb Hb') as ->. split; [eapply line_means_fun; eauto|]. split; auto.
  eapply cookies_mean_fun; eauto.
Qed.
