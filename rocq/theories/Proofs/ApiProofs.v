(** Proofs for Props/ApiProps.v. *)
From Verif.Model Require Import RustStd Path Request Time Status Response Router Server Query Tasks.
From Verif.Spec Require Import Common PathSpec RoutingSpec TextSpec RequestSpec ResponseSpec ServerSpec QuerySpec TaskSpec ApiSpec.
From Verif.Proofs Require Import ServerProofs ConnProofs TaskProofs HistoryProofs ResponseExtra QueryExtra QueryProofs AppProofs.

(** ** headers_sent *)
Section Sent.
Context {cl : cookie_lib}.
Implicit Types r : response cl.

Lemma sent_set (k v : str) (m : list (str * str)) : negb (is_nil (mset seqb k v m)) = true.
Proof. destruct m as [|[k' v'] m]; [reflexivity|]. cbn [mset]. destruct (seqb k k'); reflexivity. Qed.
Lemma sent_step w o r r' : apply_op w o r = Done r' ->
  (headers_sent r' = true <-> headers_sent r = true \/ puts_header w o).
Proof.
  unfold headers_sent.
  assert (D : forall r0, default_headers w r0 = Done r' -> negb (is_nil (rs_headers r')) = true).
  { intros r0 E. apply default_headers_spec in E as (_ & _ & _ & _ & _ & _ & now & _ & ->). cbv zeta.
    destruct (mget seqb CTYPE (rs_headers r0)) eqn:Em; [|apply sent_set].
    destruct now; [apply sent_set|]. destruct (rs_content_len r0); [apply sent_set|].
    destruct (rs_headers r0); [discriminate|reflexivity]. }
  intro E. destruct o; cbn [apply_op puts_header] in *;
    try (injection E as <-; unfold with_type, attachment, attachment_with_filename, redirect, res_set, with_headers;
         cbn [rs_headers]; rewrite ?sent_set; tauto).
  - rewrite (D _ E). tauto.
  - rewrite (D _ E). tauto.
  - apply send_file_inv in E as [[-> N]|(len & c & F & ->)].
    + split; [auto|]. intros [H|(len & c & F)]; auto. exfalso. eapply N; eauto.
    + cbn [rs_headers]. rewrite sent_set. split; eauto.
Qed.
Theorem sent_exact l r : apply_ops l new_empty = Done r ->
  (headers_sent r = true <-> exists w o, In (w, o) l /\ puts_header w o).
Proof.
  assert (G : forall l r0, apply_ops l r0 = Done r ->
    (headers_sent r = true <-> headers_sent r0 = true \/ exists w o, In (w, o) l /\ puts_header w o)).
  { clear l. induction l as [|[w o] l IH]; intros r0 E; cbn [apply_ops] in E.
    - injection E as ->. split; auto. intros [H|(w & o & [] & _)]. exact H.
    - destruct (apply_op w o r0) as [r1|] eqn:E1; [|discriminate]. cbn [obind] in E.
      rewrite (IH r1 E), (sent_step _ _ _ _ E1). split.
      + intros [[H|H]|(w' & o' & I' & H)]; auto; right; [exists w, o|exists w', o']; cbn [In]; auto.
      + intros [H|(w' & o' & [I'|I'] & H)]; auto; [injection I' as -> ->; auto|]. right. exists w', o'. auto. }
  intro E. rewrite (G l new_empty E). split; auto. intros [H|H]; auto. discriminate.
Qed.
Theorem sent_after_send l1 l2 w b r : apply_ops (l1 ++ (w, OpSend b) :: l2) new_empty = Done r -> headers_sent r = true.
Proof. intro E. apply (sent_exact _ _ E). exists w, (OpSend b). split; [apply in_or_app; right; left; auto|exact Logic.I]. Qed.
End Sent.

(** ** get_extended_query *)
Section Ext.
Context {cl : cookie_lib}.

Lemma display_valid (p : list str) : Forall (fun s => utf8_valid s = true) p -> utf8_valid (path_display p) = true.
Proof.
  induction 1 as [|s p V _ IH]; [reflexivity|]. change (path_display (s :: p)) with ((s ++ [x2f]) ++ path_display p).
  rewrite <- app_assoc. rewrite utf8_app by auto. rewrite utf8_step; [exact IH|constructor; reflexivity].
Qed.
Theorem get_extended_items ft (r : request cl) dir p first mid lst :
  rl_path (rq_line r) = dir ++ [p ++ [x3f] ++ join [x26] (first :: mid ++ [lst])] ->
  Forall (fun s => utf8_valid s = true) (rl_path (rq_line r)) ->
  Forall (fun s => ~ In x26 s) (p :: first :: lst :: dir ++ mid) ->
  exists m evs, get_extended_query ft r = Done m /\
    Forall2 (ext_means (faithful ft)) ((path_display dir ++ p ++ [x3f] ++ first) :: mid ++ [lst ++ [x2f]]) evs /\
    forall k, ext_result k (somes evs) (mget seqb k m).
Proof.
  intros E V F. unfold get_extended_query.
  destruct (ext_lookup ft (path_display (rl_path (rq_line r))) (display_valid _ V)) as (m & Em & X).
  rewrite E in X. destruct (X _ (query_pieces dir p first mid lst F)) as (evs & F2 & R). exists m, evs. auto.
Qed.

Lemma one_piece q : ~ In x26 q -> pieces_of [x26] q [q].
Proof. intro N. split; [discriminate|]. split; [constructor; [rewrite occurs1; exact N|constructor]|reflexivity]. Qed.
Lemma one_item ft q e : utf8_valid q = true -> ~ In x26 q -> ext_means (faithful ft) q (Some e) ->
  exists m, parse_extended_query ft q = Done m /\ forall k, ext_result k [e] (mget seqb k m).
Proof.
  intros V N M. destruct (ext_lookup ft q V) as (m & E & X). exists m. split; auto.
  destruct (X [q] (one_piece q N)) as (evs & F & R). inversion F as [|? ev ? evs' M' F']; subst. inversion F'; subst.
  rewrite (ext_means_fun _ _ _ _ M' M) in R. exact R.
Qed.
Lemma not_bracketed n : (forall n', n <> n' ++ [x5d]) -> forall k x, ~ bracketed n k x.
Proof. intros N k x [E _]. apply (N (k ++ [x5b] ++ x)). rewrite E, <- !app_assoc. reflexivity. Qed.
Lemma plain_item ft n k w v : n <> [] -> ~ In x3d n -> ~ In x26 n -> ~ In x26 w -> (forall n', n <> n' ++ [x5d]) ->
  utf8_valid (n ++ [x3d] ++ w) = true -> decoded n k -> decoded w v ->
  exists m, parse_extended_query ft (n ++ [x3d] ++ w) = Done m /\
    forall k', mget seqb k' m = if seqb k' k then Some (QStr v) else None.
Proof.
  intros Hn He Ha Hw Hb V Dk Dv. destruct (one_item ft (n ++ [x3d] ++ w) (EPlain k v)) as (m & E & R); auto.
  - intro I0. apply in_app_or in I0 as [I0|[I0|I0]]; auto. discriminate.
  - apply em_plain; auto. apply not_bracketed. exact Hb.
  - exists m. split; auto. intro k'. specialize (R k'). unfold ext_result, plains, brackets in R. cbn [flat_map] in R.
    destruct (seqb k' k); cbn in R; exact R.
Qed.
Theorem get_extended_misses ft (r : request cl) p k v :
  plain_text p -> plain_text k -> ~ In x5d k -> plain_text v -> rl_path (rq_line r) = [p ++ [x3f] ++ k ++ [x3d] ++ v] ->
  exists m, get_extended_query ft r = Done m /\ mget seqb k m = None /\
            mget seqb (p ++ [x3f] ++ k) m = Some (QStr (v ++ [x2f])).
Proof.
  intros (Vp & Pp & Ap & Ep) (Vk & Pk & Ak & Ek) Bk (Vv & Pv & Av & Ev) Hr. unfold get_extended_query. rewrite Hr.
  assert (D : path_display [p ++ [x3f] ++ k ++ [x3d] ++ v] = (p ++ [x3f] ++ k) ++ [x3d] ++ v ++ [x2f]).
  { cbn. rewrite <- !app_assoc. cbn. rewrite <- !app_assoc. reflexivity. }
  rewrite D.
  assert (Nn : forall c, (In c (p ++ [x3f] ++ k) -> In c p \/ c = x3f \/ In c k)).
  { intros c H. apply in_app_or in H as [H|[H|H]]; auto. }
  assert (Vn : utf8_valid (p ++ [x3f] ++ k) = true).
  { rewrite utf8_app by auto. rewrite utf8_step; [auto|constructor; reflexivity]. }
  assert (Vs : utf8_valid (v ++ [x2f]) = true) by (rewrite utf8_app by auto; reflexivity).
  destruct (plain_item ft (p ++ [x3f] ++ k) (p ++ [x3f] ++ k) (v ++ [x2f]) (v ++ [x2f])) as (m & E & R).
  - destruct p; discriminate.
  - intro H. apply Nn in H as [H|[H|H]]; auto; discriminate.
  - intro H. apply Nn in H as [H|[H|H]]; auto; discriminate.
  - intro H. apply in_app_or in H as [H|[H|[]]]; auto; discriminate.
  - intros n' H. destruct (exists_last (l := p ++ [x3f] ++ k)) as (l' & a & Hl); [destruct p; discriminate|].
    rewrite Hl in H. apply app_inj_tail in H as [_ ->].
    destruct k as [|c k]; [apply app_inj_tail in Hl as [_ Hl]; discriminate|].
    destruct (exists_last (l := c :: k)) as (l2 & a2 & Hk); [discriminate|]. apply Bk. rewrite Hk in *.
    rewrite !app_assoc in Hl. apply app_inj_tail in Hl as [_ ->]. apply in_or_app. right. left. reflexivity.
  - rewrite utf8_app by auto. rewrite utf8_step; [auto|constructor; reflexivity].
  - apply unescape_hex_spec. apply unescape_plain; auto. intro H. apply Nn in H as [H|[H|H]]; auto; discriminate.
  - apply unescape_hex_spec. apply unescape_plain; auto. intro H. apply in_app_or in H as [H|[H|[]]]; auto; discriminate.
  - exists m. split; auto. rewrite !R, seqb_refl. split; auto.
    destruct (seqb_spec k (p ++ [x3f] ++ k)) as [X|]; auto.
    apply (f_equal (@length byte)) in X. rewrite !app_length in X. simpl in X. lia.
Qed.

(** Escapes in names. *)
Lemma pct_bytes s b : In b (pct s) -> b = x25 \/ exists n, (n < 16)%N /\ b = hex_digit n.
Proof.
  intro H. apply in_flat_map in H as (c & _ & [H|[H|[H|[]]]]); auto; right.
  - exists (bN c / 16)%N. split; auto. apply N.div_lt_upper_bound; [lia|]. pose proof (bN_lt c). lia.
  - exists (bN c mod 16)%N. split; auto. apply N.mod_lt. lia.
Qed.
Lemma pct_byte_ok s b : In b (pct s) -> (bN b < 128)%N /\ b <> x3d /\ b <> x26 /\ b <> x5d /\ b <> x5b.
Proof.
  intro H. apply pct_bytes in H as [->|(n & Hn & ->)]; [repeat split; discriminate|].
  assert (X : (n = 0 \/ n = 1 \/ n = 2 \/ n = 3 \/ n = 4 \/ n = 5 \/ n = 6 \/ n = 7 \/ n = 8 \/ n = 9 \/ n = 10 \/ n = 11 \/
    n = 12 \/ n = 13 \/ n = 14 \/ n = 15)%N) by lia.
  repeat (destruct X as [->|X]; [repeat split; vm_compute; discriminate|]). subst. repeat split; vm_compute; discriminate.
Qed.
Lemma ascii_valid s : Forall (fun b => (bN b < 128)%N) s -> forall t, utf8_valid (s ++ t) = utf8_valid t.
Proof.
  induction 1 as [|b s Hb _ IH]; intro t; auto. change ((b :: s) ++ t) with ([b] ++ (s ++ t)).
  rewrite utf8_step; [apply IH|constructor; exact Hb].
Qed.
Lemma in_brackets_not_decoded ft k v : k <> [] -> Forall (fun b => (bN b < 128)%N) k -> plain_text v ->
  (exists m, parse_extended_query ft (pct k ++ [x3d] ++ v) = Done m /\ mget seqb k m = Some (QStr v)) /\
  (exists m, parse_extended_query ft (pct k ++ [x5b; x5d; x3d] ++ v) = Done m /\ mget seqb k m = None /\
     mget seqb (pct k) m = Some (QArr [v])).
Proof.
  intros Hk Fk (Vv & Pv & Av & Ev).
  assert (Fp : Forall (fun b => (bN b < 128)%N) (pct k)).
  { apply Forall_forall. intros b H. apply pct_byte_ok in H. tauto. }
  assert (Hp : pct k <> []) by (destruct k; [congruence|discriminate]).
  assert (Dv : decoded v v) by (apply unescape_hex_spec, unescape_plain; auto).
  assert (Ne : k <> pct k).
  { intro E. apply (f_equal (@length byte)) in E. unfold pct in E. 
    assert (L : length (flat_map pct_byte k) = 3 * length k) by (clear; induction k as [|c k IH]; auto; cbn [flat_map]; rewrite app_length, IH; cbn [pct_byte length]; lia).
    rewrite L in E. destruct k; [congruence|cbn in E; lia]. }
  split.
  - destruct (plain_item ft (pct k) k v v) as (m & E & R); auto.
    + intro H. apply pct_byte_ok in H. tauto.
    + intro H. apply pct_byte_ok in H. tauto.
    + intros n' H. assert (I0 : In x5d (pct k)) by (rewrite H; apply in_or_app; right; left; reflexivity).
      apply pct_byte_ok in I0. tauto.
    + rewrite ascii_valid by auto. rewrite ascii_valid; [auto|repeat constructor].
    + apply unescape_hex_spec. apply pct_ascii. auto.
    + exists m. split; auto. rewrite R, seqb_refl. reflexivity.
  - destruct (one_item ft (pct k ++ [x5b; x5d; x3d] ++ v) (EArr (pct k) v)) as (m & E & R).
    + rewrite ascii_valid by auto. rewrite ascii_valid; [auto|repeat constructor].
    + intro H. apply in_app_or in H as [H|H]; [apply pct_byte_ok in H; tauto|].
      apply in_app_or in H as [H|H]; auto. repeat destruct H as [H|H]; try discriminate; auto.
    + replace (pct k ++ [x5b; x5d; x3d] ++ v) with ((pct k ++ [x5b; x5d]) ++ [x3d] ++ v) by (rewrite <- app_assoc; reflexivity).
      apply em_arr; auto.
      * intro H. apply in_app_or in H as [H|H]; [apply pct_byte_ok in H; tauto|]. repeat destruct H as [H|H]; try discriminate; auto.
      * split; [reflexivity|intros []].
    + exists m. split; auto. split.
      * specialize (R k). unfold ext_result, plains, brackets in R. cbn [flat_map] in R.
        destruct (seqb_spec k (pct k)); [congruence|]. exact R.
      * specialize (R (pct k)). unfold ext_result, plains, brackets, arrs in R. cbn [flat_map] in R.
        rewrite seqb_refl in R. exact R.
Qed.
End Ext.
Lemma one_accessor q :
  match qv_str q, qv_arr q, qv_obj q with
  | Some s, None, None => q = QStr s
  | None, Some l, None => q = QArr l
  | None, None, Some m => q = QObj m
  | _, _, _ => False
  end.
Proof. destruct q; reflexivity. Qed.

(** ** Requests that reach the handlers *)
Section Reach.
Context (ft : features) (cl : cookie_lib) {H ST : Type}
  (handle : H -> matched_request cl -> ST * response cl -> (ST * response cl) * outcome flow).

Theorem carried_reaches o app rt w ho pos s t rl hs cs body :
  (N.of_nat (length (flatten app)) <= USIZE_MAX)%N -> build o app = Done rt -> clock w <> None -> real_segments t ->
  carries ft cl (stream_of t) rl hs cs body -> ~ lacks_host rl hs -> rl_method rl <> MNone ->
  reaches_handlers ft cl handle w ho pos app s rl hs cs (serve ft cl handle w ho pos rt s t).
Proof.
  intros HB Eb C R Cs NH Mn. pose proof (read_request_cases ft cl t R) as X. unfold serve.
  destruct (read_request ft cl t) as [[|rq]| | |].
  - exfalso. eapply bad_not_carried; eauto.
  - destruct X as (rl' & hs2 & cs' & body' & Cs' & Ri).
    destruct (carries_fun _ _ _ _ _ _ _ _ _ _ _ Cs Cs') as (<- & <- & <-).
    destruct (respond_request ft cl handle o app rt w ho pos s rq rl hs cs body' HB Eb Ri NH Mn (carries_method _ _ _ _ _ _ _ Cs))
      as (s' & res & r & Hd & H1 & H2 & H3).
    exists rq, body', s', res, r. split; [exact Ri|]. split; [exact Hd|]. destruct r as [[]|].
    + destruct (rs_body res) eqn:Bd.
      * destruct (H3 eq_refl eq_refl C) as (out & -> & _). split; [reflexivity|congruence].
      * rewrite H2 by (auto; discriminate). split; reflexivity.
      * rewrite H2 by (auto; discriminate). split; reflexivity.
    + rewrite H1 by auto. split; reflexivity.
  - exfalso. destruct X as [X|X]; [eapply kills_not_carried; eauto|].
    destruct X as (_ & a & b & rlt & hst & rl' & hs2 & X1 & X2 & X3 & X4 & X5 & X6 & X7).
    destruct Cs as (a' & b' & Ha' & (V' & rlt' & hst' & Hp' & L' & Hb' & Hc) & An & _).
    destruct (head_at_fun _ _ _ _ _ X1 Ha') as [<- <-]. destruct (head_parts_fun _ _ _ _ _ X3 Hp') as [<- <-].
    rewrite (header_block_fun _ _ _ _ X5 Hb') in *. lia.
  - exfalso. eapply waits_not_carried; eauto.
  - contradiction.
Qed.
Theorem any_version o app rt w ho pos s t rl hs cs body :
  (N.of_nat (length (flatten app)) <= USIZE_MAX)%N -> build o app = Done rt -> clock w <> None -> real_segments t ->
  carries ft cl (stream_of t) rl hs cs body -> rl_version rl <> Http11 -> rl_method rl <> MNone ->
  reaches_handlers ft cl handle w ho pos app s rl hs cs (serve ft cl handle w ho pos rt s t).
Proof. intros HB Eb C R Cs V Mn. eapply carried_reaches; eauto. intros [E _]. auto. Qed.
Theorem many_hosts o app rt w ho pos s t rl hs cs body h1 h2 :
  (N.of_nat (length (flatten app)) <= USIZE_MAX)%N -> build o app = Done rt -> clock w <> None -> real_segments t ->
  carries ft cl (stream_of t) rl hs cs body -> (exists l1 l2 l3, hs = l1 ++ h1 :: l2 ++ h2 :: l3) ->
  same_fold (h_name h1) (B "host") -> same_fold (h_name h2) (B "host") -> rl_method rl <> MNone ->
  reaches_handlers ft cl handle w ho pos app s rl hs cs (serve ft cl handle w ho pos rt s t).
Proof.
  intros HB Eb C R Cs (l1 & l2 & l3 & ->) H1 _ Mn. eapply carried_reaches; eauto.
  intros [_ N]. apply (N h1); auto. apply in_or_app. right. left. reflexivity.
Qed.
Theorem head_sends_body o app rt w ho pos s t rl hs cs body :
  (N.of_nat (length (flatten app)) <= USIZE_MAX)%N -> build o app = Done rt -> clock w <> None -> real_segments t ->
  carries ft cl (stream_of t) rl hs cs body -> ~ lacks_host rl hs -> rl_method rl = MHead ->
  exists rq got s' res r, request_is ft rq rl hs cs got /\ handled ft cl handle app rq s ((s', res), r) /\
  (r = Done tt -> rs_body res <> BodyNone -> forall b, given_body (rs_body res) b ->
   exists head, serve ft cl handle w ho pos rt s t = (s', IoDone (head ++ b))).
Proof.
  intros HB Eb C R Cs NH Mn.
  destruct (carried_reaches o app rt w ho pos s t rl hs cs body HB Eb C R Cs NH) as (rq & got & s' & res & r & Q & Hd & Es & X); [congruence|].
  exists rq, got, s', res, r. split; auto. split; auto. intros -> NB b G. specialize (X NB).
  exists (fst (get_data ft w ho pos res)). rewrite (surjective_pairing (serve _ _ _ _ _ _ _ _ _)), Es, X.
  unfold octane_send. cbn [get_data snd fst]. rewrite (given_copy _ _ G). reflexivity.
Qed.

(** ** Fair schedules *)
Local Notation run := (tasks_run ft cl handle).
Lemma octane_send_nonempty w ho pos (r : response cl) : octane_send (get_data ft w ho pos r) <> [].
Proof. discriminate. Qed.
Lemma error_send_nonempty w ho pos k out : error_send ft w ho pos k (cl := cl) = Done out -> out <> [].
Proof.
  unfold error_send. destruct (default_headers _ _); [|discriminate]. cbn [omap]. intro E. injection E as <-. discriminate.
Qed.
Lemma job_sends w ho pos s j s' out : job_step ft cl handle w ho pos s j = (s', JSend out) -> out <> [].
Proof.
  destruct j as [code|rq [|k] M ix res]; cbn [job_step].
  - intro E. injection E as _ E. destruct (error_send _ _ _ _ _) eqn:Es; [|discriminate]. injection E as <-.
    eapply error_send_nonempty; eauto.
  - intro E. injection E as _ E. destruct (negb _).
    + destruct (error_send _ _ _ _ _) eqn:Es; [|discriminate]. injection E as <-. eapply error_send_nonempty; eauto.
    + injection E as <-. apply octane_send_nonempty.
  - destruct (nth_error M _) as [v|]; [|discriminate]. destruct (nth_error ix _) as [n|]; [|discriminate].
    destruct (nth_error v n) as [mp|]; [|discriminate]. destruct (handle _ _ (s, res)) as [[s1 res'] [f|]]; discriminate.
Qed.
Definition sends_more (st : tasks_state cl (H := H) (ST := ST)) : Prop :=
  forall i sent rest, task_get cl i (tasks st) = TSending sent rest -> rest <> [].
Lemma sends_more_step rt st ev : sends_more st -> sends_more (tasks_step ft cl handle rt st ev).
Proof.
  intros P i sent rest. destruct ev as [[n e] [w ho]]. destruct (Nat.eqb_spec n i) as [->|N].
  2:{ rewrite tasks_step_other by auto. apply P. }
  cbn [tasks_step]. destruct (task_get cl i (tasks st)) as [rec|jb|sent0 rest0|sent0|] eqn:Eg; destruct e;
    try (rewrite Eg; discriminate); try (rewrite Eg; intro E; injection E as -> ->; eapply P; eauto; fail); cbn [tasks].
  - rewrite task_get_set, Nat.eqb_refl. unfold task_input. destruct (resume _ _ _ _) as [rec' [r| | |]]; try discriminate.
    destruct (job_of _ _ _ _); discriminate.
  - destruct (job_step _ _ _ _ _ _ _ _) as [s' x] eqn:Ej. cbn [tasks]. rewrite task_get_set, Nat.eqb_refl.
    destruct x; try discriminate. intro E. injection E as <- <-. eapply job_sends; eauto.
  - rewrite task_get_set, Nat.eqb_refl. destruct (Nat.eqb_spec n 0); cbn [orb]; [discriminate|].
    destruct (Nat.leb_spec (length rest0) n); [discriminate|]. intro E. injection E as <- <-.
    intro Z. apply (f_equal (@length byte)) in Z. rewrite skipn_length in Z. cbn in Z. lia.
  - rewrite task_get_set, Nat.eqb_refl. discriminate.
Qed.
Lemma sends_more_run rt evs : forall st, sends_more st -> sends_more (run rt st evs).
Proof. unfold tasks_run. induction evs as [|ev evs IH]; intros st P; auto. cbn [fold_left]. apply IH, sends_more_step, P. Qed.
Lemma begun_run rt evs i : forall st, begun cl (task_get cl i (tasks st)) ->
  begun cl (task_get cl i (tasks (run rt st evs))) /\
  (~ working cl (task_get cl i (tasks st)) -> ~ working cl (task_get cl i (tasks (run rt st evs)))).
Proof.
  unfold tasks_run. induction evs as [|ev evs IH]; intros st Bg; auto. cbn [fold_left].
  destruct (step_begun ft cl handle rt st ev i Bg) as [Bg' W]. destruct (IH _ Bg') as [B1 W1]. split; auto.
  intro Nw. apply W1. intros [j' E]. destruct (W j' E) as (j & Ej & _). apply Nw. exists j. exact Ej.
Qed.

Lemma tasks_run_app rt st l l' : run rt st (l ++ l') = run rt (run rt st l) l'.
Proof. apply fold_left_app. Qed.
Theorem answered_log o app rt s0 evs1 evs2 evs3 i log :
  (N.of_nat (length (flatten app)) <= USIZE_MAX)%N -> build o app = Done rt ->
  let evs := evs1 ++ evs2 ++ evs3 in
  real_inputs evs -> Forall (fun ev => clock (fst (snd ev)) <> None) evs -> writes_succeed i evs ->
  ~ stream_waits ft (stream_of (input_of (inputs i evs1))) (fin (input_of (inputs i evs1))) ->
  length (flatten app) < runs_of i evs2 ->
  told ft cl handle app i evs log (task_get cl i (tasks (run rt (TasksState s0 []) evs))) ->
  exists p, story ft cl handle (fun w ho => In (i, TRun, (w, ho)) evs) [i] app
      (stream_of (input_of (inputs i evs))) (fin (input_of (inputs i evs))) log p /\
    match task_get cl i (tasks (run rt (TasksState s0 []) evs)) with
    | TClosed out => p = Answering out
    | TCrashed => p = Dead
    | TSending sent rest => p = Answering (sent ++ rest) /\ room_of i evs3 < length (sent ++ rest)
    | TReading _ | TWorking _ => False
    end.
Proof.
  intros HB Eb evs R C Ws Nw Lt K. set (st0 := TasksState s0 []).
  assert (C1 : real_inputs evs1 /\ Forall (fun ev : nat * task_event * (world * order) => clock (fst (snd ev)) <> None) evs1).
  { split; [apply Forall_app in R as [R _]; exact R|apply Forall_app in C as [C _]; exact C]. }
  destruct C1 as [R1 C1].
  assert (Bg1 : begun cl (task_get cl i (tasks (run rt st0 evs1)))).
  { intros rec E. destruct (tasks_told ft cl handle o app rt HB Eb s0 evs1 R1 C1) as (L & _ & K1). specialize (K1 i).
    fold st0 in K1. rewrite E in K1. destruct K1 as (_ & K1). inversion K1; subst. auto. }
  destruct (begun_run rt evs2 i _ Bg1) as [Bg2 W2].
  assert (Nw2 : ~ working cl (task_get cl i (tasks (run rt st0 (evs1 ++ evs2))))).
  { destruct (task_get cl i (tasks (run rt st0 evs1))) as [rec|j|sent rest|sent|] eqn:E1.
    - exfalso. eapply Bg1; reflexivity.
    - apply (tasks_finish ft cl handle o app rt s0 evs1 evs2 i HB Eb R1 C1); auto. exists j. exact E1.
    - rewrite tasks_run_app. apply W2. intros [j E]. discriminate.
    - rewrite tasks_run_app. apply W2. intros [j E]. discriminate.
    - rewrite tasks_run_app. apply W2. intros [j E]. discriminate. }
  rewrite <- tasks_run_app in Bg2. destruct (begun_run rt evs3 i _ Bg2) as [Bg3 W3]. rewrite <- tasks_run_app, <- app_assoc in *.
  fold evs in Bg3, W3 |- *. specialize (W3 Nw2).
  fold st0 in K. unfold told in K. cbv zeta in K.
  destruct (task_get cl i (tasks (run rt st0 evs))) as [rec|j|sent rest|sent|] eqn:E3.
  - exfalso. eapply Bg3; reflexivity.
  - exfalso. apply W3. exists j. reflexivity.
  - eexists. split; [exact K|]. split; [reflexivity|].
    destruct (Nat.lt_ge_cases (room_of i evs3) (length (sent ++ rest))) as [X|X]; auto. exfalso.
    assert (E : exists sent' rest', task_get cl i (tasks (run rt st0 (evs1 ++ evs2))) = TSending sent' rest' /\ sent' ++ rest' = sent ++ rest).
    { clear - E3 Bg2 Nw2. unfold evs in E3. rewrite app_assoc, tasks_run_app in E3.
      revert E3 Bg2 Nw2. generalize (run rt st0 (evs1 ++ evs2)). clear. induction evs3 as [|[[n e] [w ho]] l IH]; intros st E Bg Nw.
      - exists sent, rest. auto.
      - change (run rt st (((n, e), (w, ho)) :: l)) with (run rt (tasks_step ft cl handle rt st ((n, e), (w, ho))) l) in E.
        destruct (step_begun ft cl handle rt st ((n, e), (w, ho)) i Bg) as [Bg' W].
        destruct (IH _ E Bg') as (sent' & rest' & E' & Q).
        { intros [j Ej]. destruct (W j Ej) as (j0 & Ej0 & _). apply Nw. exists j0. exact Ej0. }
        clear IH E W. destruct (Nat.eqb_spec n i) as [->|N].
        2:{ rewrite tasks_step_other in E' by auto. eauto. }
        cbn [tasks_step] in E'. destruct (task_get cl i (tasks st)) as [rec|jb|sent0 rest0|sent0|] eqn:Eg.
        + exfalso. eapply Bg; reflexivity.
        + exfalso. apply Nw. exists jb. reflexivity.
        + exists sent0, rest0. split; auto. destruct e; cbn [tasks] in E'; rewrite ?task_get_set, ?Nat.eqb_refl in E'.
          * rewrite Eg in E'. injection E' as -> ->. exact Q.
          * rewrite Eg in E'. injection E' as -> ->. exact Q.
          * destruct (_ || _); [discriminate|]. injection E' as <- <-. rewrite <- Q, <- app_assoc, firstn_skipn. reflexivity.
          * discriminate.
        + exfalso. destruct e; rewrite Eg in E'; discriminate.
        + exfalso. destruct e; rewrite Eg in E'; discriminate. }
    destruct E as (sent' & rest' & E & Q).
    assert (Z : task_get cl i (tasks (run rt st0 evs)) = TClosed (sent' ++ rest')).
    { unfold evs. rewrite app_assoc, tasks_run_app. apply delivered; auto.
      - intros e x I0. apply (Ws e x). unfold evs. apply in_or_app. right. apply in_or_app. right. exact I0.
      - split.
        + assert (rest' <> []).
          { eapply (sends_more_run rt (evs1 ++ evs2) st0); [|exact E]. intros k a b0. discriminate. }
          destruct rest'; [congruence|cbn; lia].
        + rewrite <- Q, app_length in X. lia. }
    rewrite Z in E3. discriminate.
  - destruct K as (rest & K & Z). rewrite (Z Ws), app_nil_r in K. eexists. split; [exact K|reflexivity].
  - eexists. split; [exact K|reflexivity].
Qed.
Theorem answered_when_fair o app rt s0 evs1 evs2 evs3 i :
  (N.of_nat (length (flatten app)) <= USIZE_MAX)%N -> build o app = Done rt ->
  let evs := evs1 ++ evs2 ++ evs3 in
  real_inputs evs -> Forall (fun ev => clock (fst (snd ev)) <> None) evs -> writes_succeed i evs ->
  ~ stream_waits ft (stream_of (input_of (inputs i evs1))) (fin (input_of (inputs i evs1))) ->
  length (flatten app) < runs_of i evs2 ->
  exists L p, linked s0 L (tshared (run rt (TasksState s0 []) evs)) /\
    story ft cl handle (fun w ho => In (i, TRun, (w, ho)) evs) [i] app
      (stream_of (input_of (inputs i evs))) (fin (input_of (inputs i evs))) (calls_on i L) p /\
    match task_get cl i (tasks (run rt (TasksState s0 []) evs)) with
    | TClosed out => p = Answering out
    | TCrashed => p = Dead
    | TSending sent rest => p = Answering (sent ++ rest) /\ room_of i evs3 < length (sent ++ rest)
    | TReading _ | TWorking _ => False
    end.
Proof.
  intros HB Eb evs R C Ws Nw Lt. destruct (tasks_told ft cl handle o app rt HB Eb s0 evs R C) as (L & Lk & Ka).
  destruct (answered_log o app rt s0 evs1 evs2 evs3 i (calls_on i L) HB Eb R C Ws Nw Lt (Ka i)) as (p & S & M).
  exists L, p. auto.
Qed.
(** Without a panicking handler the request is not lost. *)
Lemma made_incl rq calls r log left r' : calls_made cl handle rq calls r log left r' -> incl left calls.
Proof.
  induction 1 as [|h vars rest r s s1 r1 log left r' E M IH|h vars rest r s s1 r1 E]; intros x I; auto.
  - right. auto.
  - destruct I.
Qed.
Theorem no_crash o app rt s0 evs i rl hs cs body :
  (N.of_nat (length (flatten app)) <= USIZE_MAX)%N -> build o app = Done rt ->
  real_inputs evs -> Forall (fun ev => clock (fst (snd ev)) <> None) evs ->
  (forall rq calls h vars x, admitted ft cl (stream_of (input_of (inputs i evs))) rq -> chosen ft cl app rq calls ->
     In (h, vars) calls -> snd (handle h (MatchedRequest rq vars) x) <> Panic) ->
  carries ft cl (stream_of (input_of (inputs i evs))) rl hs cs body ->
  task_get cl i (tasks (run rt (TasksState s0 []) evs)) <> TCrashed.
Proof.
  intros HB Eb R C Np Cs E. destruct (tasks_told ft cl handle o app rt HB Eb s0 evs R C) as (L & _ & K). specialize (K i).
  rewrite E in K. unfold told in K. inversion K as [|X|X| | | |rq calls log h vars left res s s1 res1 A Ch M Hh| |]; subst.
  - destruct X as (_ & a & b & rlt & hst & rl' & hs2 & X1 & X2 & X3 & X4 & X5 & X6 & X7).
    destruct Cs as (a' & b' & Ha' & (V' & rlt' & hst' & Hp' & L' & Hb' & Hc) & An & _).
    destruct (head_at_fun _ _ _ _ _ X1 Ha') as [<- <-]. destruct (head_parts_fun _ _ _ _ _ X3 Hp') as [<- <-].
    rewrite (header_block_fun _ _ _ _ X5 Hb') in *. lia.
  - eapply kills_not_carried; eauto.
  - apply (Np rq calls h vars (s, res) A Ch); [|rewrite Hh; reflexivity]. apply (made_incl _ _ _ _ _ _ M). now left.
Qed.

(** ** Silent clients *)
Theorem waits_for_ever rt evs i received : forall st : tasks_state cl (ST := ST), task_get cl i (tasks st) = TReading received -> inputs i evs = [] ->
  task_get cl i (tasks (run rt st evs)) = TReading received.
Proof.
  unfold tasks_run. induction evs as [|[[n e] [w ho]] evs IH]; intros st E I0; auto. cbn [fold_left].
  change (((n, e), (w, ho)) :: evs) with ([((n, e), (w, ho))] ++ evs) in I0. rewrite inputs_app in I0.
  apply app_eq_nil in I0 as [I1 I2]. apply IH; auto. destruct (Nat.eqb_spec n i) as [->|N].
  - unfold inputs in I1. rewrite own_same in I1. cbn in I1. cbn [tasks_step]. rewrite E. destruct e; auto. discriminate.
  - rewrite tasks_step_other; auto.
Qed.
End Reach.
