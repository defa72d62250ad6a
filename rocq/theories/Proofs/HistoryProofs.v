(** Responses determined by the history of calls. *)
From Verif.Proofs Require Export ResponseExtra TimeProofs.
From Verif.Spec Require Import Common TextSpec RequestSpec ResponseSpec HistorySpec.
From Coq Require Import Permutation.

Section Hist.
Context {cl : cookie_lib}.
Implicit Types r : response cl.
Local Notation step := (@apply_ops cl).

(** A part of the response only changed by the calls that set it. *)
Lemma last_part {V X} (sets : world * rop cl -> V -> Prop) (part : response cl -> X) (val : V -> X) :
  (forall w o r r', apply_op w o r = Done r' ->
     (forall v, sets (w, o) v -> part r' = val v) /\ ((forall v, ~ sets (w, o) v) -> part r' = part r)) ->
  forall l r r' o, step l r = Done r' -> last_in sets l o ->
  part r' = match o with Some v => val v | None => part r end.
Proof.
  intro H.
  assert (K : forall l r r', step l r = Done r' -> (forall a v, In a l -> ~ sets a v) -> part r' = part r).
  { induction l as [|[w o] l IH]; intros r r' E N; [injection E as <-; auto|].
    cbn [apply_ops] in E. apply obind_Done in E as (r1 & E1 & E).
    rewrite (IH r1 r' E) by (intros a v Hi; apply N; right; auto).
    apply (H _ _ _ _ E1). intros v. apply N. left. auto. }
  intros l r r' [v|] E L; [|eapply K; eauto; exact L].
  destruct L as (pre & [w o] & post & -> & S & N). rewrite apply_ops_app in E. apply obind_Done in E as (r1 & _ & E).
  cbn [apply_ops] in E. apply obind_Done in E as (r2 & E2 & E).
  rewrite (K post r2 r' E N). apply (H _ _ _ _ E2). exact S.
Qed.

Ltac op_cases E := let o := fresh in
  match type of E with apply_op _ ?x _ = _ => destruct x end;
  cbn [apply_op] in E; unfold res_send in E;
  try (injection E as <-).
Ltac dflt E := apply default_headers_spec in E as (?Eb & ?Es & ?El & ?Ev & ?Ec & ?Ek & ?now & ?Et & ?Eh);
  cbn [rs_body rs_status rs_content_len rs_version rs_charset rs_cookies] in *.
Ltac sfile E := apply send_file_inv in E as [[?Er ?Hf]|(?len & ?c & ?Ef & ?Er)]; [subst|subst].
Ltac parts := unfold with_type, attachment, attachment_with_filename, redirect, res_set, with_headers, set_status,
    set_http_version, add_cookie, set_charset; cbn [rs_body rs_status rs_content_len rs_version rs_charset rs_cookies];
  split; [intros ? ?; try contradiction; try congruence|intro; try reflexivity; try congruence].

Lemma op_status w o r r' : apply_op w o r = Done r' ->
  (forall v, sets_status (w, o) v -> rs_status r' = v) /\ ((forall v, ~ sets_status (w, o) v) -> rs_status r' = rs_status r).
Proof.
  intro E. unfold sets_status. op_cases E; cbn [snd]; try (dflt E); try (sfile E); parts.
Qed.
Lemma op_vers w o r r' : apply_op w o r = Done r' ->
  (forall v, sets_version (w, o) v -> rs_version r' = version_to_string v) /\
  ((forall v, ~ sets_version (w, o) v) -> rs_version r' = rs_version r).
Proof.
  intro E. unfold sets_version. op_cases E; cbn [snd]; try (dflt E); try (sfile E); parts; exfalso; eapply H; reflexivity.
Qed.
Lemma op_chars w o r r' : apply_op w o r = Done r' ->
  (forall v, sets_charset (w, o) v -> rs_charset r' = Some v) /\
  ((forall v, ~ sets_charset (w, o) v) -> rs_charset r' = rs_charset r).
Proof.
  intro E. unfold sets_charset. op_cases E; cbn [snd]; try (dflt E); try (sfile E); parts; exfalso; eapply H; reflexivity.
Qed.
Lemma op_body w o r r' : apply_op w o r = Done r' ->
  (forall v, gives_body (w, o) v -> (rs_body r', rs_content_len r') = (BodySized (fst v) (snd v), Some (fst v))) /\
  ((forall v, ~ gives_body (w, o) v) -> (rs_body r', rs_content_len r') = (rs_body r, rs_content_len r)).
Proof.
  intro E. unfold gives_body. op_cases E; cbn [snd fst]; try (dflt E); try (sfile E); parts.
  - subst v. rewrite Eb, El. reflexivity.
  - exfalso. eapply H; reflexivity.
  - destruct H as (len & c & Ef & _). exfalso. eapply Hf; eauto.
  - destruct H as (len' & c' & Ef' & ->). rewrite Ef in Ef'. injection Ef' as <- <-. reflexivity.
  - exfalso. eapply H. eauto.
Qed.
Lemma op_header k w o r r' : ordinary k -> apply_op w o r = Done r' ->
  (forall v, gives_header k (w, o) v -> res_get k r' = Some v) /\
  ((forall v, ~ gives_header k (w, o) v) -> res_get k r' = res_get k r).
Proof.
  intros Ho E.
  assert (NT : k <> B "Content-Type") by (intros ->; apply Ho; cbn; auto).
  assert (Go : forall k' v m, k <> k' -> mget seqb k (@mset str str seqb k' v m) = mget seqb k m)
    by (intros; apply (mget_mset_other seqb seqb_eq); auto).
  assert (Gs : forall v m, mget seqb k (@mset str str seqb k v m) = Some v)
    by (intros; apply (mget_mset_same seqb seqb_eq)).
  unfold gives_header, res_get. op_cases E; cbn [snd fst]; try (sfile E); cbn [rs_headers];
    try (apply default_get with (k := k) in E as (_ & _ & G); split; [contradiction|intros _; apply G; exact Ho]);
    try (split; [contradiction|intros _; reflexivity]);
    try (split; [contradiction|intros _; apply Go; exact NT]).
  - unfold res_set, with_headers. cbn [rs_headers]. split; [intros v' [-> ->]; apply Gs|].
    intro N. apply Go. intros ->. apply (N v). auto.
  - unfold attachment, res_set, with_headers. cbn [rs_headers]. split; [intros v [-> ->]; apply (mget_mset_same seqb seqb_eq)|].
    intro N. apply Go. intros ->. eapply N; eauto.
  - unfold attachment_with_filename, res_set, with_headers. cbn [rs_headers]. rewrite Go by auto.
    split; [intros v [-> ->]; apply (mget_mset_same seqb seqb_eq)|].
    intro N. apply Go. intros ->. eapply N; eauto.
  - unfold redirect, res_set, with_headers. cbn [rs_headers]. split; [intros v [-> ->]; apply (mget_mset_same seqb seqb_eq)|].
    intro N. apply Go. intros ->. eapply N; eauto.
Qed.
Lemma default_date w r r' : default_headers w r = Done r' ->
  exists now, time_now (clock w) = Done now /\
  mget seqb (B "Date") (rs_headers r') = match now with Some t => Some (time_format t) | None => mget seqb (B "Date") (rs_headers r) end.
Proof.
  intro E. apply default_headers_spec in E as (_ & _ & _ & _ & _ & _ & now & Et & Eh). exists now. split; auto.
  rewrite Eh. cbv zeta.
  assert (Go : forall k v m, B "Date" <> k -> mget seqb (B "Date") (@mset str str seqb k v m) = mget seqb (B "Date") m)
    by (intros; apply (mget_mset_other seqb seqb_eq); auto).
  destruct (mget seqb CTYPE (rs_headers r)); [|rewrite Go by discriminate];
  (destruct now; [apply (mget_mset_same seqb seqb_eq)|]; (destruct (rs_content_len r); [rewrite Go by discriminate|]; auto)).
Qed.
Lemma op_date w o r r' : apply_op w o r = Done r' ->
  (forall v, gives_date (w, o) v -> res_get (B "Date") r' = Some v) /\
  ((forall v, ~ gives_date (w, o) v) -> res_get (B "Date") r' = res_get (B "Date") r).
Proof.
  intro E.
  assert (Go : forall k v m, B "Date" <> k -> mget seqb (B "Date") (@mset str str seqb k v m) = mget seqb (B "Date") m)
    by (intros; apply (mget_mset_other seqb seqb_eq); auto).
  unfold gives_date, res_get. op_cases E; cbn [snd fst]; try (sfile E); cbn [rs_headers];
    try (split; [contradiction|intros _; reflexivity]);
    try (split; [contradiction|intros _; unfold with_type, attachment, attachment_with_filename, redirect, res_set, with_headers, set_status;
                               cbn [rs_headers]; repeat rewrite Go by discriminate; reflexivity]);
    try (apply default_date in E as (now & Et & G); cbn [rs_headers] in G; rewrite Et; split;
         [intros v (t & X & ->); injection X as ->; exact G
         |intro N; destruct now as [t|]; [exfalso; eapply N; eauto|exact G]]).
  unfold res_set, with_headers. cbn [rs_headers]. split; [intros v' [-> ->]; apply (mget_mset_same seqb seqb_eq)|].
  intro N. apply Go. intro Ek. apply (N v). auto.
Qed.
Lemma cookies_made l : forall r r', step l r = Done r' -> rs_cookies r' = rs_cookies r ++ cookies_given l.
Proof.
  induction l as [|[w o] l IH]; intros r r' E; [injection E as <-; rewrite app_nil_r; auto|].
  cbn [apply_ops] in E. apply obind_Done in E as (r1 & E1 & E). rewrite (IH _ _ E).
  unfold cookies_given. cbn [flat_map snd]. rewrite app_assoc. f_equal.
  assert (D : (exists c, o = OpCookie c) \/ forall c, o <> OpCookie c)
    by (destruct o; try (right; discriminate); left; eauto).
  destruct D as [[c ->]|D].
  - cbn in E1. injection E1 as <-. reflexivity.
  - rewrite (op_cookies _ _ _ _ D E1). destruct o; try (symmetry; apply app_nil_r). exfalso. eapply D; eauto.
Qed.
Theorem history_made l r r' : step l r = Done r' -> made_by r l r'.
Proof.
  intro E. constructor.
  - intros o L. exact (last_part sets_status rs_status (fun s => s) op_status l r r' o E L).
  - intros o L. exact (last_part sets_version rs_version version_to_string op_vers l r r' o E L).
  - intros o L. exact (last_part sets_charset rs_charset Some op_chars l r r' o E L).
  - intros o L.
    pose proof (last_part gives_body (fun r => (rs_body r, rs_content_len r))
      (fun v => (BodySized (fst v) (snd v), Some (fst v))) op_body l r r' o E L) as P. cbv beta in P.
    destruct o as [[n rd]|]; cbn [fst snd] in P; injection P as -> ->; auto.
  - intros k o Ho L. exact (last_part (gives_header k) (res_get k) Some (fun w o r r' => op_header k w o r r' Ho) l r r' o E L).
  - intros o L. exact (last_part gives_date (res_get (B "Date")) Some op_date l r r' o E L).
  - intros [t|] L.
    + eapply ctype_chosen; eauto.
    + intros t Ht. eapply ctype_kept; eauto.
  - apply cookies_made. exact E.
Qed.

(** Content-Length *)
Lemma op_no_length w o r r' : apply_op w o r = Done r' -> ~ writes_length (w, o) -> res_get CLEN r' = res_get CLEN r.
Proof.
  intros E N. eapply op_untouched; [|exact E]. unfold writes_length in N. destruct o; cbn in *; auto; try tauto;
    try (intros X; vm_compute in X; discriminate).
  intros [X|[X|[]]]; vm_compute in X; discriminate.
Qed.
Theorem length_header pre w o post r r' n rd : step (pre ++ (w, o) :: post) r = Done r' ->
  fills_in o = true -> (forall c, In c post -> ~ writes_length c) ->
  last_in gives_body (pre ++ [(w, o)]) (Some (n, rd)) \/
  (last_in gives_body (pre ++ [(w, o)]) None /\ rs_content_len r = Some n) ->
  exists s, res_get CLEN r' = Some s /\ decimal n s.
Proof.
  intros E Fo N L. exists (show_N n). split; [|apply show_N_decimal].
  replace (pre ++ (w, o) :: post) with ((pre ++ [(w, o)]) ++ post) in E by (rewrite <- app_assoc; reflexivity).
  rewrite apply_ops_app in E. apply obind_Done in E as (r1 & E1 & E2).
  assert (K : res_get CLEN r' = res_get CLEN r1).
  { clear - N E2. revert r1 E2. induction post as [|[w o] post IH]; intros r1 E; [injection E as <-; auto|].
    cbn [apply_ops] in E. apply obind_Done in E as (r2 & E1 & E).
    rewrite (IH ltac:(intros; apply N; right; auto) _ E). eapply op_no_length; eauto. apply N. left. auto. }
  rewrite K. clear K E2 N.
  pose proof (history_made _ _ _ E1) as M. pose proof (made_body _ _ _ M) as MB.
  assert (C1 : rs_content_len r1 = Some n).
  { destruct L as [L|[L C]]; apply MB in L as [_ ->]; auto. }
  rewrite apply_ops_app in E1. apply obind_Done in E1 as (r0 & _ & E1). cbn [apply_ops] in E1.
  apply obind_Done in E1 as (r1' & E1 & X). injection X as ->.
  destruct o; try discriminate; cbn [apply_op] in E1.
  - unfold res_send in E1. pose proof (default_get _ _ _ CLEN E1) as (_ & G & _).
    apply default_headers_spec in E1 as (_ & _ & El & _). cbn [rs_content_len] in *.
    unfold res_get. rewrite (G eq_refl). rewrite El in C1. injection C1 as ->. reflexivity.
  - pose proof (default_get _ _ _ CLEN E1) as (_ & G & _).
    apply default_headers_spec in E1 as (_ & _ & El & _).
    unfold res_get. rewrite (G eq_refl). rewrite El in C1. rewrite C1. reflexivity.
Qed.

(** No panic *)
Lemma now_total n : exists d, time_now (Some n) = Done d.
Proof.
  unfold time_now. destruct (Z.leb_spec (Z.of_N n) I64_MAX) as [L|L]; [|eauto].
  destruct (now_spec n) as (t & E & _); [lia|]. rewrite E. cbn. eauto.
Qed.
Lemma default_done w r : (exists r', default_headers w r = Done r') <-> clock w <> None.
Proof.
  unfold default_headers. destruct (clock w) as [n|] eqn:C.
  - destruct (now_total n) as (d & ->). cbn [obind]. split; [discriminate|eauto].
  - cbn. split; [intros (r' & X); discriminate|congruence].
Qed.
Lemma file_done w p r : (exists x, send_file w p r = Done x) <->
  ((exists len content, fs w p = FsFile len content) -> std_file_name p <> None).
Proof.
  unfold send_file, send_file_result, handle_file. destruct (fs w p) as [| | |len c] eqn:Ef; cbn [obind omap fst snd];
    try (split; [intros _ (? & ? & ?); discriminate|eauto]).
  destruct (std_file_name p) eqn:En; cbn [unwrap obind omap fst snd].
  - split; [discriminate|eauto].
  - split; [intros (x & X); discriminate|intro H; exfalso; apply H; eauto].
Qed.
Lemma op_done w o r : (exists r', apply_op w o r = Done r') <-> safe (w, o).
Proof.
  destruct o; unfold safe; cbn [apply_op snd fst]; try (split; eauto; fail).
  - apply default_done.
  - apply default_done.
  - rewrite <- (file_done w path r). split.
    + intros (r' & E). destruct (send_file w path r); [eauto|discriminate].
    + intros (x & ->). cbn. eauto.
Qed.
Theorem history_safe l r : (exists r', step l r = Done r') <-> Forall safe l.
Proof.
  revert r. induction l as [|[w o] l IH]; intro r; [split; [constructor|intros _; exists r; reflexivity]|]. cbn [apply_ops]. split.
  - intros (r' & E). apply obind_Done in E as (r1 & E1 & E). constructor; [apply (proj1 (op_done w o r)); eauto|].
    apply (proj1 (IH r1)). eauto.
  - intro F. inversion F as [|? ? S1 S2]; subst. apply (op_done w o r) in S1 as (r1 & ->). cbn [obind].
    apply IH. auto.
Qed.

(** Filling in twice is filling in once. *)
Lemma mset_mset_same k v m : mset seqb k v (@mset str str seqb k v m) = mset seqb k v m.
Proof.
  induction m as [|[k' v'] m IH]; cbn [mset]; [rewrite (proj2 (seqb_eq k k) eq_refl); auto|].
  destruct (seqb k k') eqn:E; cbn [mset]; rewrite E; congruence.
Qed.
Lemma mset_present k v m : mget seqb k m = Some v -> mset seqb k v m = (m : list (str * str)).
Proof.
  induction m as [|[k' v'] m IH]; cbn [mset mget]; [discriminate|].
  destruct (seqb k k') eqn:E; intro H.
  - injection H as ->. apply seqb_eq in E. subst k'. reflexivity.
  - rewrite IH; auto.
Qed.
Theorem default_idempotent w r r' : default_headers w r = Done r' -> default_headers w r' = Done r'.
Proof.
  intro E. pose proof (default_get _ _ _ CLEN E) as (_ & GL & _). pose proof (default_get _ _ _ CTYPE E) as (GT & _).
  pose proof (default_date _ _ _ E) as (now & Et & GD).
  apply default_headers_spec in E as (_ & _ & El & _).
  specialize (GL eq_refl). specialize (GT eq_refl).
  unfold default_headers. rewrite Et. cbn [obind]. rewrite El.
  assert (H1 : match rs_content_len r with
               | Some x => mset seqb (B "Content-Length") (show_N x) (rs_headers r')
               | None => rs_headers r' end = rs_headers r').
  { destruct (rs_content_len r); auto. apply mset_present. exact GL. }
  rewrite H1.
  assert (H2 : match now with
               | Some date => mset seqb (B "Date") (time_format date) (rs_headers r')
               | None => rs_headers r' end = rs_headers r').
  { destruct now; auto. apply mset_present. exact GD. }
  rewrite H2. change (B "Content-Type") with CTYPE.
  destruct (mget seqb CTYPE (rs_headers r')) as [t|] eqn:G.
  - destruct r'. reflexivity.
  - rewrite GT in G. destruct (mget seqb CTYPE (rs_headers r)); discriminate.
Qed.

(** C69 *)
Theorem send_file_outcome w p r r' ok : send_file w p r = Done (r', ok) ->
  match fs w p with
  | FsFile len content =>
      ok = true /\ rs_body r' = BodySized len (RFile content) /\ rs_content_len r' = Some len /\
      res_get CTYPE r' = Some (mime_type w (unwrap_or (std_extension p) [])) /\
      (forall k, k <> CTYPE -> res_get k r' = res_get k r) /\
      rs_status r' = rs_status r /\ rs_version r' = rs_version r /\ rs_charset r' = rs_charset r /\
      rs_cookies r' = rs_cookies r
  | _ => ok = false /\ r' = r
  end.
Proof.
  unfold send_file, send_file_result, handle_file. destruct (fs w p) as [| | |len c]; cbn [obind omap fst snd]; intro H;
    try (injection H as <- <-; auto; fail).
  destruct (std_file_name p); cbn [unwrap obind omap fst snd] in H; [|discriminate]. injection H as <- <-.
  repeat (split; [reflexivity|]). unfold res_get. cbn [rs_headers fh_extension].
  split; [apply (mget_mset_same seqb seqb_eq)|]. split; [|auto].
  intros k N. apply (mget_mset_other seqb seqb_eq). auto.
Qed.

(** C94 *)
Theorem send_file_message w p r r' e io : send_file_result w p r = Done (r', e) ->
  match fs w p with
  | FsNoOpen => r' = r /\ option_map (file_error_show io) e = Some (B "File Handling error, File not found")
  | FsNotFile => r' = r /\ option_map (file_error_show io) e = Some (B "File Handling error, Not a file")
  | FsNoMeta => r' = r /\ option_map (file_error_show io) e = Some io
  | FsFile len content => e = None /\ send_file w p r = Done (r', true)
  end.
Proof.
  unfold send_file. destruct (send_file_result w p r) as [[r1 e1]|] eqn:E; [|discriminate].
  intro H. injection H as -> ->. revert E. unfold send_file_result, handle_file.
  destruct (fs w p); cbn [obind omap fst snd].
  - intro H; injection H as <- <-. split; reflexivity.
  - intro H; injection H as <- <-. split; reflexivity.
  - intro H; injection H as <- <-. split; reflexivity.
  - destruct (std_file_name p); cbn [unwrap obind]; [|discriminate]. intro H; injection H as <- <-.
    split; reflexivity.
Qed.

(** C70 *)
Theorem cookies_in_order (l : list (world * rop cl)) r : apply_ops l new_empty = Done r ->
  rs_cookies r = flat_map (fun c => match snd c with OpCookie k => [k] | _ => [] end) l.
Proof. intro E. apply history_made in E. apply (made_cookies _ _ _ E). Qed.
Theorem cookie_lines ft w ho pos r : cookies_on ft = true -> rs_cookies r <> [] ->
  headers_ok r -> clean (rs_version r) -> clean (reason_phrase w r) ->
  Forall (fun c => clean (ck_show cl c)) (rs_cookies r) ->
  exists hls hs, Permutation hs (rs_headers r) /\ Forall2 header_line_is hls hs /\
    pieces_of CRLF (fst (get_data ft w ho pos r))
      ((B "HTTP/" ++ rs_version r ++ [SP] ++ show_Z (status_into_i32 (rs_status r)) ++ [SP] ++ reason_phrase w r) ::
       hls ++ map (fun c => B "Set-Cookie: " ++ ck_show cl c) (rs_cookies r) ++ [[]]).
Proof.
  intros Hon Hc Hh V R Ck. destruct (hlines_ok _ _ (ord_perm ho pos _ (rs_headers r)) Hh) as (I1 & I2 & I3).
  exists (map hline (ord_fn ho pos _ (rs_headers r))), (ord_fn ho pos _ (rs_headers r)).
  split; [apply ord_perm|]. split; auto. rewrite send_cookies by auto.
  assert (Q : map (fun c => B "Set-Cookie: " ++ ck_show cl c) (rs_cookies r) = map (cookie_serialise cl) (rs_cookies r)).
  { apply map_ext. intro c. reflexivity. }
  rewrite Q. change (B "HTTP/" ++ rs_version r ++ [SP] ++ show_Z (status_into_i32 (rs_status r)) ++ [SP] ++ reason_phrase w r)
    with (status_text w r).
  set (ls := map hline _ ++ map (cookie_serialise cl) (rs_cookies r)).
  replace (join CRLF (status_text w r :: ls) ++ CRLF) with (join CRLF (status_text w r :: ls ++ [[]])).
  - rewrite app_assoc. fold ls. apply lines_pieces; [|discriminate]. constructor; [apply status_text_clean; auto|].
    unfold ls. rewrite !Forall_app. split; [split; auto|].
    + apply Forall_forall. intros x Hx. apply in_map_iff in Hx as (c & <- & Hx).
      rewrite Forall_forall in Ck. unfold cookie_serialise. rewrite !clean_app.
      repeat split; try (apply Ck; auto); intro X; cbn in X; intuition discriminate.
    + repeat constructor; intros [].
  - rewrite !join_ends, flat_map_app. cbn [flat_map]. rewrite !app_nil_r, <- app_assoc. reflexivity.
Qed.

(** C125 *)
Lemma ended_lines l : l <> [] -> flat_map (fun x => x ++ CRLF) l = join CRLF l ++ CRLF.
Proof.
  destruct l as [|x l]; [congruence|]. intros _. rewrite join_ends. cbn [flat_map]. rewrite <- !app_assoc. f_equal.
  induction l as [|y l IH]; [reflexivity|]. cbn [flat_map]. rewrite <- !app_assoc. do 2 f_equal. exact IH.
Qed.
Theorem body_read_as_headers ft w ho pos r hs' rest : cookies_on ft = true -> rs_cookies r <> [] ->
  headers_ok r -> clean (rs_version r) -> ~ In SP (rs_version r) -> clean (reason_phrase w r) ->
  Forall (fun c => clean (ck_show cl c)) (rs_cookies r) ->
  Forall (fun kv => clean (fst kv) /\ ~ In x3a (fst kv) /\ clean (snd kv)) hs' ->
  given_body (rs_body r) (flat_map (fun kv => fst kv ++ B ": " ++ snd kv ++ CRLF) hs' ++ CRLF ++ rest) ->
  exists hs, Permutation hs (rs_headers r) /\
    wire_reads (octane_send (get_data ft w ho pos r)) (rs_version r) (show_Z (status_into_i32 (rs_status r)))
      (reason_phrase w r) (hs ++ map (fun c => (B "Set-Cookie", ck_show cl c)) (rs_cookies r) ++ hs') rest.
Proof.
  intros Hon Hc Hh V Vs R Ck Hs' Hb. exists (ord_fn ho pos _ (rs_headers r)). split; [apply ord_perm|].
  set (all := ord_fn ho pos _ (rs_headers r) ++ map (fun c => (B "Set-Cookie", ck_show cl c)) (rs_cookies r) ++ hs').
  assert (Fa : Forall (fun kv => clean (fst kv) /\ ~ In x3a (fst kv) /\ clean (snd kv)) all).
  { unfold all. rewrite !Forall_app. split; [|split; [|exact Hs']].
    - unfold headers_ok in Hh. rewrite Forall_forall in *. intros kv I. apply Hh. eapply Permutation_in; [apply ord_perm|exact I].
    - apply Forall_forall. intros kv I. apply in_map_iff in I as (c & <- & I). rewrite Forall_forall in Ck. cbn [fst snd].
      repeat split; try apply (Ck c I); intro X; cbn in X; intuition discriminate. }
  destruct (hlines_ok _ _ (Permutation_refl all) Fa) as (I1 & I2 & I3).
  assert (Es : octane_send (get_data ft w ho pos r) = join CRLF (status_text w r :: map hline all) ++ CRLFCRLF ++ rest).
  { unfold octane_send. change (snd (get_data ft w ho pos r)) with (get_reader (rs_body r)). rewrite (given_copy _ _ Hb), send_cookies by auto.
    assert (Ec : map (cookie_serialise cl) (rs_cookies r) = map hline (map (fun c => (B "Set-Cookie", ck_show cl c)) (rs_cookies r))).
    { rewrite map_map. apply map_ext. intro c. reflexivity. }
    assert (Eh : flat_map (fun kv => fst kv ++ B ": " ++ snd kv ++ CRLF) hs' = flat_map (fun x => x ++ CRLF) (map hline hs')).
    { clear. induction hs' as [|kv l IH]; [reflexivity|]. cbn [flat_map map]. rewrite <- IH. unfold hline. rewrite <- !app_assoc. reflexivity. }
    rewrite Ec, Eh. unfold all. rewrite !map_app. unfold CRLFCRLF.
    set (A := map hline (ord_fn ho pos _ (rs_headers r))). set (C := map hline (map _ (rs_cookies r))).
    transitivity (flat_map (fun x => x ++ CRLF) (status_text w r :: A ++ C ++ map hline hs') ++ CRLF ++ rest).
    - rewrite <- (ended_lines (status_text w r :: A ++ C)) by discriminate. cbn [flat_map]. rewrite !flat_map_app, <- !app_assoc. reflexivity.
    - rewrite ended_lines by discriminate. rewrite <- !app_assoc. reflexivity. }
  rewrite Es. eexists _, _. split; [|split; [|split; [|split]]]; [| | | |exact I3].
  - apply (lines_head (status_text w r :: _)); [|discriminate|exact I2]. constructor; auto. apply status_text_clean; auto.
  - apply (lines_pieces (status_text w r :: _)); [|discriminate]. constructor; auto. apply status_text_clean; auto.
  - auto.
  - apply show_Z_clean.
Qed.
Theorem only_headers_set ft w ho pos r body v n p hs b : no_cookies ft r -> headers_ok r -> given_body (rs_body r) body ->
  clean (rs_version r) -> ~ In SP (rs_version r) -> clean (reason_phrase w r) ->
  wire_reads (octane_send (get_data ft w ho pos r)) v n p hs b -> Permutation hs (rs_headers r) /\ b = body.
Proof.
  intros Hc Hh Hb V Vs R W. destruct (round_trip ft w ho pos r body Hc Hh Hb V Vs R) as (hs' & P & W').
  destruct (wire_reads_fun _ _ _ _ _ _ _ _ _ _ _ W W') as (_ & _ & _ & -> & ->). auto.
Qed.
End Hist.
