(** Request lines, headers, Keep-Alive. *)
From Verif.Model Require Export Request.
From Verif.Proofs Require Export Basics TextProofs Utf8 TrimProofs.
From Verif.Proofs Require Import PathProofs RouterProofs.
From Verif.Spec Require Import PathSpec RoutingSpec TextSpec RequestSpec.
Local Arguments N.mul : simpl never.
Local Arguments N.add : simpl never.

(** ** Character classes *)
Lemma tchar_b b : existsb (fun x => N.eqb (bN b) (bN x)) TOKEN_CHARS = true <-> tchar b.
Proof.
  split.
  - intro H. destruct b; vm_compute in H; try discriminate; clear H;
      unfold tchar;
      first [ left; split; vm_compute; discriminate
            | right; left; split; vm_compute; discriminate
            | right; right; left; split; vm_compute; discriminate
            | right; right; right; simpl; tauto ].
  - intros [H|[H|[H|H]]].
    1-3: destruct b; try reflexivity; exfalso; unfold bN, Byte.to_N in H; lia.
    simpl in H. repeat destruct H as [<-|H]; try reflexivity. destruct H.
Qed.
Lemma token_high c : (0x80 <= c)%N -> is_token_char c = false.
Proof.
  intro H. unfold is_token_char. apply not_true_is_false. intro X.
  apply existsb_exists in X as (b & Hb & E). apply N.eqb_eq in E. subst c.
  assert (T : tchar b). { apply tchar_b. apply existsb_exists. exists b. split; auto. apply N.eqb_refl. }
  destruct T as [T|[T|[T|T]]]; try lia.
  simpl in T. repeat destruct T as [<-|T]; try (vm_compute in H; congruence).
Qed.
Lemma ctl_high c : (0x80 <= c)%N -> is_ctl c = false.
Proof. intro H. unfold is_ctl. apply orb_false_iff. split; [apply N.ltb_ge|apply N.eqb_neq]; lia. Qed.
Lemma ctl_b b : is_ctl (bN b) = true <-> rejected_ctl b.
Proof.
  unfold is_ctl, rejected_ctl. rewrite orb_true_iff, N.ltb_lt, N.eqb_eq. reflexivity.
Qed.
Lemma tokens_spec n : utf8_valid n = true -> (forallb is_token_char (chars n) = true <-> Forall tchar n).
Proof.
  intro V. rewrite scan_forall by (auto using token_high).
  rewrite forallb_forall, Forall_forall. split; intros H b Hb; apply tchar_b; apply H; auto.
Qed.
Lemma ctls_spec v : utf8_valid v = true ->
  (existsb is_ctl (chars v) = false <-> Forall (fun b => ~ rejected_ctl b) v).
Proof.
  intro V. rewrite scan_exists by (auto using ctl_high).
  rewrite Forall_forall. split.
  - intros H b Hb R. apply ctl_b in R.
    assert (existsb (fun b => is_ctl (bN b)) v = true) by (apply existsb_exists; eauto). congruence.
  - intro H. apply not_true_is_false. intro X. apply existsb_exists in X as (b & Hb & E).
    apply (H b Hb). apply ctl_b. auto.
Qed.

(** ** Header lines *)
Definition blank_b (c : byte) : bool := beqb c SP || beqb c HT.
Lemma blank_b_spec c : blank_b c = true <-> blank c.
Proof.
  unfold blank_b, blank. rewrite orb_true_iff. unfold SP, HT.
  destruct (beqb_spec c x20), (beqb_spec c x09); intuition congruence.
Qed.
Lemma trim_blank s : exists ws, Forall blank ws /\ s = ws ++ trim_start_matches blank_b s /\
  forall b r, trim_start_matches blank_b s = b :: r -> ~ blank b.
Proof.
  induction s as [|x s IH]; simpl.
  - exists []. repeat split; auto. discriminate.
  - destruct (blank_b x) eqn:E.
    + destruct IH as (ws & H1 & H2 & H3). exists (x :: ws). split; [|split].
      * constructor; auto. apply blank_b_spec; auto.
      * simpl. congruence.
      * exact H3.
    + exists []. repeat split; auto. intros b r X. injection X as <- <-. intro Hb.
      apply blank_b_spec in Hb. congruence.
Qed.
Lemma trim_blank_app ws v : Forall blank ws -> (forall b r, v = b :: r -> ~ blank b) ->
  trim_start_matches blank_b (ws ++ v) = v.
Proof.
  intros H Hv. induction H as [|x ws Hx H IH]; simpl.
  - destruct v as [|b r]; auto. simpl. destruct (blank_b b) eqn:E; auto.
    exfalso. apply blank_b_spec in E. eapply Hv; eauto.
  - apply blank_b_spec in Hx. rewrite Hx. exact IH.
Qed.
Lemma splitn2_some c s n v : splitn2 c s = (n, Some v) <-> s = n ++ c :: v /\ ~ In c n.
Proof.
  unfold splitn2. split.
  - destruct (find_char c s) as [i|] eqn:E; [|discriminate]. intro H. injection H as <- <-.
    apply find_char_Some in E as (E1 & E2 & _). auto.
  - intros [-> Hn]. rewrite find_char_app by auto.
    rewrite firstn_app, Nat.sub_diag, firstn_all, firstn_O, app_nil_r. f_equal. f_equal.
    rewrite skipn_app, skipn_all2 by lia. replace (S (length n) - length n) with 1 by lia. reflexivity.
Qed.

Lemma header_parse_spec ft line n v : utf8_valid line = true ->
  (header_parse ft line = Some (Header n v) <-> header_means (faithful ft) line n v).
Proof.
  intro V. unfold header_parse. fold blank_b.
  change (fun c : byte => beqb c SP || beqb c HT) with blank_b.
  assert (VV : forall name w, line = name ++ x3a :: w -> utf8_valid name = true /\ utf8_valid w = true).
  { intros name w ->. destruct (utf8_cut name (x3a :: w) V) as [V1 V2]; [reflexivity|]. split; auto. }
  assert (VW : forall ws x, Forall blank ws -> utf8_valid (ws ++ x) = true -> utf8_valid x = true).
  { intros ws x F. induction F as [|b ws Hb F IH]; auto. intro U. apply IH.
    simpl in U. destruct Hb as [->| ->]; exact U. }
  split.
  - destruct (splitn2 COLON line) as [name [w|]] eqn:E.
    + apply splitn2_some in E as [E Hc]. destruct (VV _ _ E) as [V1 V2].
      destruct name as [|x name]; [discriminate|]. cbn [is_nil].
      destruct (trim_blank w) as (ws & W1 & W2 & W3).
      set (val := trim_start_matches blank_b w) in *.
      assert (V3 : utf8_valid val = true). { apply (VW ws); auto. rewrite <- W2. auto. }
      destruct (faithful ft && negb (forallb is_token_char (chars (x :: name)))) eqn:C1; [discriminate|].
      destruct (faithful ft && existsb is_ctl (chars val)) eqn:C2; [discriminate|].
      intro H. injection H as <- <-. repeat split.
      * discriminate.
      * exact Hc.
      * intro Hf. apply tokens_spec; auto. rewrite Hf in C1. simpl in C1.
        apply negb_false_iff in C1. exact C1.
      * exact W3.
      * intro Hf. apply ctls_spec; auto. rewrite Hf in C2. exact C2.
      * exists ws. split; auto. rewrite E at 1. simpl. f_equal. f_equal. rewrite <- W2. reflexivity.
    + intro H. exfalso. destruct (is_nil name); [discriminate|].
      destruct (faithful ft && negb (forallb is_token_char (chars name))); discriminate.
  - intros ((N1 & N2 & N3) & (W3 & C) & ws & W1 & E).
    assert (E2 : splitn2 COLON line = (n, Some (ws ++ v))) by (apply splitn2_some; split; auto).
    rewrite E2. destruct (VV n (ws ++ v) E) as [V1 V2].
    destruct n as [|x n]; [congruence|]. cbn [is_nil].
    rewrite trim_blank_app by auto.
    assert (V3 : utf8_valid v = true) by (apply (VW ws); auto).
    destruct (faithful ft) eqn:Hf; cbn [andb]; auto.
    specialize (N3 eq_refl). specialize (C eq_refl).
    apply tokens_spec in N3; auto. rewrite N3. cbn [negb].
    apply ctls_spec in C; auto. rewrite C. reflexivity.
Qed.

(** ** Header blocks *)
Lemma headers_loop_spec ft lines : forall acc,
  match headers_loop ft acc lines with
  | Some h => exists hs,
      Forall2 (fun l hd => utf8_valid l = true /\ header_means (faithful ft) l (h_name hd) (h_value hd)) lines hs /\
      parsed h = fold_left add_header hs (parsed acc) /\
      raw h = if raw_headers_on ft then raw acc ++ hs else raw acc
  | None => ~ exists hs,
      Forall2 (fun l hd => utf8_valid l = true /\ header_means (faithful ft) l (h_name hd) (h_value hd)) lines hs
  end.
Proof.
  induction lines as [|l lines IH]; intros acc; simpl.
  - exists []. split; [constructor|]. split; auto. destruct (raw_headers_on ft); auto. rewrite app_nil_r. auto.
  - destruct (utf8_valid l) eqn:V.
    + destruct (header_parse ft l) as [[n v]|] eqn:E.
      * apply header_parse_spec in E; auto.
        match goal with |- context [headers_loop ft ?a lines] => specialize (IH a) end.
        destruct (headers_loop ft _ lines) as [h|].
        -- destruct IH as (hs & F & P & R). exists (Header n v :: hs). split; [|split].
           ++ constructor; auto.
           ++ simpl in *. exact P.
           ++ simpl in R. rewrite R. destruct (raw_headers_on ft); auto. rewrite <- app_assoc. reflexivity.
        -- intros (hs & F). inversion F; subst. apply IH. eauto.
      * intros (hs & F). inversion F as [|? [n v] ? ? [_ HL]]; subst. simpl in HL.
        apply header_parse_spec in HL; auto. congruence.
    + intros (hs & F). inversion F as [|? ? ? ? [X _]]; subst. congruence.
Qed.

Lemma mget_add m p k : mget seqb k (add_header m p) =
  if seqb (to_ascii_lowercase (h_name p)) k
  then Some (match mget seqb k m with Some v => v ++ B ", " ++ h_value p | None => h_value p end)
  else mget seqb k m.
Proof.
  unfold add_header. destruct (seqb_spec (to_ascii_lowercase (h_name p)) k) as [E|N].
  - rewrite E. destruct (mget seqb k m); rewrite (mget_mset seqb seqb_eq), seqb_refl; reflexivity.
  - destruct (mget seqb (to_ascii_lowercase (h_name p)) m);
    rewrite (mget_mset seqb seqb_eq);
    destruct (seqb_spec k (to_ascii_lowercase (h_name p))); congruence.
Qed.

Lemma join_cons_assoc sep v vs : vs <> [] -> join sep (v :: vs) = v ++ sep ++ join sep vs.
Proof. destruct vs; [congruence|]. reflexivity. Qed.
Lemma fold_add hs : forall m k, mget seqb k (fold_left add_header hs m) =
  match mget seqb k m, map h_value (filter (named k) hs) with
  | None, [] => None
  | None, vs => Some (join (B ", ") vs)
  | Some v, [] => Some v
  | Some v, vs => Some (v ++ B ", " ++ join (B ", ") vs)
  end.
Proof.
  induction hs as [|p hs IH]; intros m k; simpl.
  - destruct (mget seqb k m); auto.
  - rewrite IH, mget_add.
    assert (E : named k p = seqb (to_ascii_lowercase (h_name p)) k) by reflexivity.
    rewrite <- E. clear E. destruct (named k p) eqn:E; auto.
    cbn [map]. destruct (mget seqb k m) as [v|]; destruct (map h_value (filter (named k) hs)) as [|u us]; auto.
    change (join (B ", ") (h_value p :: u :: us)) with (h_value p ++ B ", " ++ join (B ", ") (u :: us)).
    rewrite <- !app_assoc. reflexivity.
Qed.

Lemma headers_parse_spec ft s :
  match headers_parse ft s with
  | Some h => exists hs, header_block (faithful ft) s hs /\
      (forall k, headers_get h k = folded k hs) /\ (raw_headers_on ft = true -> raw h = hs)
  | None => ~ exists hs, header_block (faithful ft) s hs
  end.
Proof.
  unfold headers_parse. destruct (collect_pieces CRLF s) as (lines & E & Hp); [discriminate|].
  unfold collect_all in E. rewrite E.
  pose proof (headers_loop_spec ft lines (Headers [] [])) as H.
  destruct (headers_loop ft (Headers [] []) lines) as [h|].
  - destruct H as (hs & F & P & R). exists hs. split; [|split].
    + exists lines. auto.
    + intro k. unfold headers_get. rewrite P. simpl. rewrite fold_add. simpl. unfold folded.
      destruct (map h_value (filter (named k) hs)); auto.
    + intro X. rewrite X in R. exact R.
  - intros (hs & lines' & Hp' & F). rewrite (pieces_unique s lines lines' Hp Hp') in *. apply H. eauto.
Qed.

Lemma header_means_fun strict line n v n' v' :
  header_means strict line n v -> header_means strict line n' v' -> n = n' /\ v = v'.
Proof.
  intros ((_ & N2 & _) & (W & _) & ws & B1 & E) ((_ & N2' & _) & (W' & _) & ws' & B1' & E').
  assert (S1 : splitn2 COLON line = (n, Some (ws ++ v))) by (apply splitn2_some; auto).
  assert (S2 : splitn2 COLON line = (n', Some (ws' ++ v'))) by (apply splitn2_some; auto).
  rewrite S1 in S2. injection S2 as -> E2. split; auto.
  rewrite <- (trim_blank_app ws v), <- (trim_blank_app ws' v') by auto. congruence.
Qed.
Lemma header_block_fun strict s hs hs' : header_block strict s hs -> header_block strict s hs' -> hs = hs'.
Proof.
  intros (l & P & F) (l' & P' & F'). rewrite (pieces_unique _ _ _ P P') in *. clear - F F'.
  revert hs' F'. induction F as [|x [n v] l hs [_ Hx] F IH]; intros hs' F'; inversion F' as [|? [n' v'] ? ? [_ Hx']]; subst; auto.
  simpl in *. destruct (header_means_fun _ _ _ _ _ _ Hx Hx') as [-> ->]. f_equal. auto.
Qed.
Lemma block_parse ft s hs : header_block (faithful ft) s hs ->
  exists h, headers_parse ft s = Some h /\ (forall k, headers_get h k = folded k hs) /\
            (raw_headers_on ft = true -> raw h = hs).
Proof.
  intro H. pose proof (headers_parse_spec ft s) as X. destruct (headers_parse ft s) as [h|].
  - destruct X as (hs' & H' & G & R). rewrite (header_block_fun _ _ _ _ H H'). eauto.
  - exfalso. apply X. eauto.
Qed.
Lemma parse_block ft s h : headers_parse ft s = Some h -> exists hs, header_block (faithful ft) s hs /\
  (forall k, headers_get h k = folded k hs) /\ (raw_headers_on ft = true -> raw h = hs).
Proof. intro H. pose proof (headers_parse_spec ft s) as X. rewrite H in X. exact X. Qed.
Lemma accept_block ft s : (exists h, headers_parse ft s = Some h) <-> exists hs, header_block (faithful ft) s hs.
Proof.
  split.
  - intros (h & H). apply parse_block in H as (hs & H & _). eauto.
  - intros (hs & H). apply block_parse in H as (h & H & _). eauto.
Qed.

(** Serialised header lists. *)
Lemma serialised_block strict hs : hs <> [] -> Forall (good_header strict) hs ->
  header_block strict (join CRLF (map header_text hs)) hs.
Proof.
  intros Hn F. exists (map header_text hs). split.
  - split; [destruct hs; [congruence|discriminate]|]. split; auto.
    apply Forall_map. eapply Forall_impl; [|exact F]. intros hd (_ & _ & _ & H). exact H.
  - clear Hn. induction F as [|hd hs (H1 & H2 & H3 & H4) F IH]; simpl; constructor; auto.
    split; auto. split; auto. split; auto. exists [x20]. split; [repeat constructor|]. reflexivity.
Qed.
Lemma no_lf_no_crlf s : ~ In x0a s -> ~ occurs CRLF s.
Proof.
  intros H (i & a & b & -> & _). apply H. apply in_or_app. right. right. left. reflexivity.
Qed.
Lemma no_cr_no_crlf s : ~ In x0d s -> ~ occurs CRLF s.
Proof.
  intros H (i & a & b & -> & _). apply H. apply in_or_app. right. left. reflexivity.
Qed.

(** In strict mode, names and values have no CR or LF by themselves. *)
Lemma strict_no_crlf hd : valid_name true (h_name hd) -> valid_value true (h_value hd) ->
  ~ occurs CRLF (header_text hd).
Proof.
  intros (_ & _ & T) (_ & C). apply no_lf_no_crlf. intro H.
  unfold header_text in H. apply in_app_or in H as [H|H].
  - specialize (T eq_refl). rewrite Forall_forall in T. apply T in H.
    destruct H as [H|[H|[H|H]]]; try (vm_compute in H; destruct H; congruence).
    simpl in H. repeat destruct H as [H|H]; try discriminate. destruct H.
  - destruct H as [H|[H|H]]; try discriminate.
    specialize (C eq_refl). rewrite Forall_forall in C. apply C in H. apply H. left. reflexivity.
Qed.

(** ** Request lines *)
Lemma pieces1_unique c s l : pieces_of [c] s l <-> l = split_char c s.
Proof.
  split.
  - intros (N & F & <-). symmetry. apply split_char_join; auto.
    rewrite Forall_forall in F. intros p H X. apply (F p H). apply occurs1. exact X.
  - intros ->. repeat split.
    + apply split_char_nonempty.
    + apply Forall_forall. intros p H X. apply occurs1 in X. eapply split_char_no_sep; eauto.
    + apply join_split_char.
Qed.

Lemma parse_method_spec s : method_of s (parse_method s).
Proof.
  unfold parse_method.
  repeat (match goal with |- context [if seqb s ?x then _ else _] =>
    destruct (seqb_spec s x) as [->|?]; [left; constructor|] end).
  right. split; auto. intros m' H. inversion H; congruence.
Qed.
Lemma method_of_fun s m m' : method_of s m -> method_of s m' -> m = m'.
Proof.
  intros [H|[-> H]] [H'|[-> H']]; auto; try (exfalso; eapply H'; eauto; fail); try (exfalso; eapply H; eauto; fail).
  inversion H; subst; inversion H'; auto.
Qed.
Lemma parse_version_spec s : version_of s (parse_version s).
Proof.
  unfold parse_version.
  repeat (match goal with |- context [if seqb s ?x then _ else _] =>
    destruct (seqb_spec s x) as [->|?]; [left; constructor|] end).
  right. split; auto. intros m' H. inversion H; congruence.
Qed.
Lemma version_of_fun s m m' : version_of s m -> version_of s m' -> m = m'.
Proof.
  intros [H|[-> H]] [H'|[-> H']]; auto; try (exfalso; eapply H'; eauto; fail); try (exfalso; eapply H; eauto; fail).
  inversion H; subst; inversion H'; auto.
Qed.

Lemma split_at_spec v n :
  match split_at v n with
  | Done (a, b) => v = a ++ b /\ length a = n /\ (forall x r, b = x :: r -> is_continuation x = false)
  | Panic => length v < n \/ exists x, nth_error v n = Some x /\ is_continuation x = true
  end.
Proof.
  unfold split_at, is_char_boundary. destruct (nth_error v n) as [x|] eqn:E.
  - assert (n < length v) by (apply nth_error_Some; congruence).
    destruct (is_continuation x) eqn:C; simpl; [right; eauto|].
    split; [symmetry; apply firstn_skipn|]. split; [apply firstn_length_le; lia|].
    intros y r S. assert (nth_error (firstn n v ++ skipn n v) n = Some y) as X.
    { rewrite S, nth_error_app2; rewrite firstn_length_le by lia; [rewrite Nat.sub_diag; auto|lia]. }
    rewrite firstn_skipn in X. congruence.
  - apply nth_error_None in E. destruct (Nat.eqb_spec n (length v)) as [->|N]; [|left; lia].
    rewrite firstn_all, skipn_all, app_nil_r. repeat split; auto. discriminate.
Qed.

Lemma request_line_spec ft line :
  match request_line_parse ft line with
  | Done (Some rl) => line_means (faithful ft) line rl /\ ~ line_kills line
  | Done None => (forall rl, ~ line_means (faithful ft) line rl) /\ ~ line_kills line
  | Panic => line_kills line /\ forall rl, ~ line_means (faithful ft) line rl
  end.
Proof.
  unfold request_line_parse.
  assert (U : forall l, pieces_of [x20] line l -> l = split_char SP line).
  { intros l Hl. apply pieces1_unique in Hl. exact Hl. }
  assert (P : pieces_of [x20] line (split_char SP line)) by (apply pieces1_unique; auto).
  remember (split_char SP line) as toks eqn:Et.
  assert (K : forall m p rest, toks = m :: p :: rest ->
      (line_kills line <-> ((forall path, ~ path_means p path) \/
        exists v rest', rest = v :: rest' /\
         (length v < 5 \/ exists b, nth_error v 5 = Some b /\ is_continuation b = true)))).
  { intros m p rest ->. split.
    - intros (m' & p' & rest' & Hp & Hk). apply U in Hp. injection Hp as -> -> ->. exact Hk.
    - intro Hk. exists m, p, rest. auto. }
  assert (M : forall rl, line_means (faithful ft) line rl -> exists m p first ver rest,
     toks = m :: p :: (first ++ ver) :: rest /\ length first = 5 /\
     (forall b r, ver = b :: r -> is_continuation b = false) /\
     (faithful ft = true -> first = B "HTTP/" /\ rest = []) /\
     path_parse p = Some (rl_path rl)).
  { intros rl (m & p & first & ver & rest & Hp & H1 & H2 & H3 & H4 & _).
    exists m, p, first, ver, rest. apply U in Hp. apply path_means_parse in H4. auto. }
  assert (K2 : line_kills line -> exists m p rest, toks = m :: p :: rest).
  { intros (m & p & rest & Hp & _). exists m, p, rest. symmetry. auto. }
  destruct toks as [|m [|p rest]]; cbn [nth_error].
  - destruct P as (P & _). congruence.
  - split.
    + intros rl H. apply M in H as (? & ? & ? & ? & ? & H & _). discriminate.
    + intro H. apply K2 in H as (? & ? & ? & H). discriminate.
  - specialize (K m p rest eq_refl).
    destruct (path_parse p) as [path|] eqn:Ep.
    + assert (NP : ~ forall path, ~ path_means p path).
      { intro X. apply (X path). apply path_means_parse. exact Ep. }
      destruct rest as [|v rest]; cbn [nth_error].
      * split.
        -- intros rl H. apply M in H as (? & ? & ? & ? & ? & H & _). discriminate.
        -- intro H. apply K in H as [H|(v & r & H & _)]; [auto|discriminate].
      * pose proof (split_at_spec v 5) as S. destruct (split_at v 5) as [[first ver]|]; simpl.
        -- destruct S as (-> & L & C).
           assert (NK : ~ line_kills line).
           { intro H. apply K in H as [H|(v & r & H & H')]; [auto|]. injection H as <- <-.
             destruct H' as [H'|(x & H' & Cx)].
             - rewrite app_length in H'. lia.
             - rewrite nth_error_app2 in H' by lia. rewrite L, Nat.sub_diag in H'.
               destruct ver as [|y ver]; [discriminate|]. injection H' as ->. rewrite (C x ver eq_refl) in Cx. discriminate. }
           destruct (faithful ft && _) eqn:F.
           ++ apply andb_prop in F as [Ff F]. split; auto. intros rl H.
              apply M in H as (m' & p' & f' & v' & r' & E & L' & C' & H & _).
              injection E as <- <- E <-. destruct (H Ff) as [-> ->].
              apply app_length_inj in E as [-> ->]; [|lia].
              apply orb_true_iff in F as [F|F]; [|discriminate].
              apply negb_true_iff in F. rewrite seqb_refl in F. discriminate.
           ++ split; auto. exists m, p, first, ver, rest. cbn. do 3 (split; [assumption|]). split; [|split; [|split]].
              ** intro Ff. rewrite Ff in F. simpl in F. apply orb_false_iff in F as [F1 F2].
                 apply negb_false_iff in F1. apply seqb_eq in F1. split; auto.
                 destruct rest; auto; discriminate.
              ** apply path_means_parse. exact Ep.
              ** apply parse_method_spec.
              ** apply parse_version_spec.
        -- split.
           ++ apply K. right. exists v, rest. auto.
           ++ intros rl H. apply M in H as (m' & p' & f' & v' & r' & E & L' & C' & _).
              injection E as <- <- -> <-. destruct S as [S|(x & S & Cx)].
              ** rewrite app_length in S. lia.
              ** rewrite nth_error_app2 in S by lia. rewrite L', Nat.sub_diag in S.
                 destruct v' as [|y v']; [discriminate|]. injection S as ->. rewrite (C' x v' eq_refl) in Cx. discriminate.
    + split.
      * apply K. left. intros path H. apply path_means_parse in H. congruence.
      * intros rl H. apply M in H as (m' & p' & f' & v' & r' & E & _ & _ & _ & H).
        injection E as <- <- _. congruence.
Qed.

Lemma line_means_fun strict line rl rl' : line_means strict line rl -> line_means strict line rl' -> rl = rl'.
Proof.
  intros (m & p & f & v & r & P & L & C & S & Hp & Hm & Hv) (m' & p' & f' & v' & r' & P' & L' & C' & S' & Hp' & Hm' & Hv').
  apply pieces1_unique in P. apply pieces1_unique in P'. rewrite <- P in P'.
  injection P' as -> -> E ->. symmetry in E. apply app_length_inj in E as [-> ->]; [|lia].
  apply path_means_parse in Hp, Hp'.
  destruct rl as [a b c], rl' as [a' b' c']; simpl in *.
  f_equal; [eapply method_of_fun; eauto|congruence|eapply version_of_fun; eauto].
Qed.
Lemma request_line_iff ft line rl : request_line_parse ft line = Done (Some rl) <-> line_means (faithful ft) line rl.
Proof.
  pose proof (request_line_spec ft line) as H. split.
  - intro E. rewrite E in H. apply H.
  - intro M. destruct (request_line_parse ft line) as [[rl'|]|].
    + rewrite (line_means_fun _ _ _ _ M (proj1 H)). auto.
    + exfalso. eapply (proj1 H); eauto.
    + exfalso. eapply (proj2 H); eauto.
Qed.
Lemma request_line_panic ft line : request_line_parse ft line = Panic <-> line_kills line.
Proof.
  pose proof (request_line_spec ft line) as H. split.
  - intro E. rewrite E in H. apply H.
  - intro M. destruct (request_line_parse ft line) as [[rl'|]|]; auto; exfalso; apply (proj2 H); auto.
Qed.
Lemma method_of_not_all s m : method_of s m -> m <> MAll.
Proof. intros [H|[-> _]]; [inversion H|]; discriminate. Qed.
Lemma line_not_all ft line rl : request_line_parse ft line = Done (Some rl) -> rl_method rl <> MAll.
Proof.
  intro E. apply request_line_iff in E as (m & p & f & v & r & _ & _ & _ & _ & _ & H & _).
  eapply method_of_not_all; eauto.
Qed.

(** In strict mode, on text: the statement of C25. *)
Lemma strict_line ft line rl : faithful ft = true -> utf8_valid line = true ->
  (request_line_parse ft line = Done (Some rl) <->
   exists m p ver, pieces_of [x20] line [m; p; B "HTTP/" ++ ver] /\
     path_means p (rl_path rl) /\ method_of m (rl_method rl) /\ version_of ver (rl_version rl)).
Proof.
  intros F V. rewrite request_line_iff, F. split.
  - intros (m & p & f & v & r & P & L & C & S & Hp & Hm & Hv). destruct (S eq_refl) as [-> ->].
    exists m, p, v. auto.
  - intros (m & p & v & P & Hp & Hm & Hv). exists m, p, (B "HTTP/"), v, [].
    split; [assumption|]. split; [reflexivity|]. split; [|auto].
    intros b r ->.
    destruct P as (_ & _ & J).
    assert (E : line = (m ++ [x20] ++ p ++ [x20] ++ B "HTTP") ++ x2f :: b :: r).
    { rewrite <- J. simpl. rewrite <- !app_assoc. simpl. rewrite <- !app_assoc. reflexivity. }
    rewrite E in V. apply utf8_cut in V as [_ V]; [|reflexivity].
    change (x2f :: b :: r) with ([x2f] ++ (b :: r)) in V. rewrite utf8_app in V by reflexivity.
    apply valid_starts_char in V. exact V.
Qed.

(** ** Keep-Alive *)
Lemma item_sets_trim key v item : key = B "timeout" \/ key = B "max" ->
  (item_sets key v item <-> exists ds, trim item = key ++ [x3d] ++ ds /\ parse_uint U64_MAX ds = Some v).
Proof.
  intro K. split.
  - intros (l & ds & r & -> & L & R & H). exists ds. split; [|apply parse_uint_iff, H].
    replace (l ++ key ++ [x3d] ++ ds ++ r) with (l ++ ((key ++ [x3d]) ++ ds) ++ r) by (rewrite <- !app_assoc; reflexivity).
    rewrite (trim_number U64_MAX l (key ++ [x3d]) r v ds L R H); [rewrite <- app_assoc; reflexivity|].
    destruct K as [->| ->]; reflexivity.
  - intros (ds & E & P). destruct (trim_split item) as (l & r & L & R & Ei). exists l, ds, r.
    rewrite E in Ei. split; [rewrite Ei, <- !app_assoc; reflexivity|]. split; [exact L|]. split; [exact R|].
    apply parse_uint_iff, P.
Qed.
Lemma ka_item_spec ret tok :
  (forall v, item_sets (B "timeout") v tok -> keepalive_item ret tok = KeepAlive (Some v) (ka_max ret)) /\
  (forall v, item_sets (B "max") v tok -> keepalive_item ret tok = KeepAlive (ka_timeout ret) (Some v)) /\
  ((forall v, ~ item_sets (B "timeout") v tok) -> ka_timeout (keepalive_item ret tok) = ka_timeout ret) /\
  ((forall v, ~ item_sets (B "max") v tok) -> ka_max (keepalive_item ret tok) = ka_max ret).
Proof.
  unfold keepalive_item.
  assert (T : forall key v, key = B "timeout" \/ key = B "max" -> item_sets key v tok ->
     exists ds, trim tok = key ++ [x3d] ++ ds /\ parse_uint U64_MAX ds = Some v) by (intros; apply item_sets_trim; auto).
  assert (T' : forall key v, key = B "timeout" \/ key = B "max" ->
     (exists ds, trim tok = key ++ [x3d] ++ ds /\ parse_uint U64_MAX ds = Some v) -> item_sets key v tok)
    by (intros; apply item_sets_trim; auto).
  assert (X : forall key ds, ~ In x3d key -> trim tok = key ++ [x3d] ++ ds ->
     find_char x3d (trim tok) = Some (length key) /\ firstn (length key) (trim tok) = key /\
     skipn 1 (skipn (length key) (trim tok)) = ds).
  { intros key ds Hk ->. split; [apply find_char_app; auto|].
    rewrite firstn_app, Nat.sub_diag, firstn_all, firstn_O, app_nil_r. split; auto.
    rewrite skipn_app, skipn_all, Nat.sub_diag. reflexivity. }
  repeat split.
  - intros v Hs. apply T in Hs as (ds & E & Pv); [|auto]. destruct (X (B "timeout") ds) as (X1 & X2 & X3); auto.
    { simpl. intuition discriminate. }
    rewrite X1, X2, X3, Pv. reflexivity.
  - intros v Hs. apply T in Hs as (ds & E & Pv); [|auto]. destruct (X (B "max") ds) as (X1 & X2 & X3); auto.
    { simpl. intuition discriminate. }
    rewrite X1, X2, X3, Pv. reflexivity.
  - intro H. destruct (find_char x3d (trim tok)) as [i|] eqn:E; auto.
    destruct (parse_uint U64_MAX (skipn 1 (skipn i (trim tok)))) as [v|] eqn:Pv; auto.
    destruct (seqb_spec (firstn i (trim tok)) (B "timeout")) as [Et|N].
    + exfalso. apply (H v), T'; [auto|]. exists (skipn 1 (skipn i (trim tok))). split; auto.
      apply find_char_Some in E as (E & _). rewrite E at 1. rewrite Et. f_equal. cbn [app]. f_equal.
      rewrite skipn_skipn'. f_equal. lia.
    + destruct (seqb (firstn i (trim tok)) (B "max")); auto.
  - intro H. destruct (find_char x3d (trim tok)) as [i|] eqn:E; auto.
    destruct (parse_uint U64_MAX (skipn 1 (skipn i (trim tok)))) as [v|] eqn:Pv; auto.
    destruct (seqb (firstn i (trim tok)) (B "timeout")); auto.
    destruct (seqb_spec (firstn i (trim tok)) (B "max")) as [Et|N]; auto.
    exfalso. apply (H v), T'; [auto|]. exists (skipn 1 (skipn i (trim tok))). split; auto.
    apply find_char_Some in E as (E & _). rewrite E at 1. rewrite Et. f_equal. cbn [app]. f_equal.
    rewrite skipn_skipn'. f_equal. lia.
Qed.
Lemma item_sets_dec key tok : key = B "timeout" \/ key = B "max" ->
  (forall v, ~ item_sets key v tok) \/ exists v, item_sets key v tok.
Proof.
  intro K. pose proof (fun v => item_sets_trim key v tok K) as T. destruct (starts_with (key ++ [x3d]) (trim tok)) eqn:E.
  - apply starts_with_spec' in E as (ds & E).
    destruct (parse_uint U64_MAX ds) as [v|] eqn:P.
    + right. exists v. apply T. exists ds. rewrite E, <- app_assoc. auto.
    + left. intros v Hs. apply T in Hs as (ds' & E' & P'). rewrite E, <- app_assoc in E'. apply app_inv_head in E'.
      injection E' as <-. congruence.
  - left. intros v Hs. apply T in Hs as (ds & E' & _).
    assert (starts_with (key ++ [x3d]) (trim tok) = true).
    { apply starts_with_spec'. exists ds. rewrite E', <- app_assoc. reflexivity. }
    congruence.
Qed.
Lemma last_setting_app1 key items item o :
  last_setting key items o ->
  ((forall v, ~ item_sets key v item) -> last_setting key (items ++ [item]) o) /\
  (forall v, item_sets key v item -> last_setting key (items ++ [item]) (Some v)).
Proof.
  intro H. split.
  - intro Hn. destruct o as [v|]; simpl in *.
    + destruct H as (pre & it & post & -> & Hi & Hp). exists pre, it, (post ++ [item]).
      split; [rewrite <- app_assoc; reflexivity|]. split; auto.
      intros it' v' Hin. apply in_app_or in Hin as [Hin|[<-|[]]]; auto.
    + intros it v Hin. apply in_app_or in Hin as [Hin|[<-|[]]]; auto.
  - intros v Hv. exists items, item, []. repeat split; auto.
Qed.
Lemma ka_fold items :
  last_setting (B "timeout") items (ka_timeout (fold_left keepalive_item items (KeepAlive None None))) /\
  last_setting (B "max") items (ka_max (fold_left keepalive_item items (KeepAlive None None))).
Proof.
  induction items as [|it items IH] using rev_ind.
  - simpl. split; intros it v [].
  - rewrite fold_left_app. simpl. destruct IH as [H1 H2].
    destruct (ka_item_spec (fold_left keepalive_item items (KeepAlive None None)) it) as (S1 & S2 & S3 & S4).
    split.
    + destruct (item_sets_dec (B "timeout") it (or_introl eq_refl)) as [N|(v & Hv)].
      * rewrite (S3 N). apply last_setting_app1; auto.
      * rewrite (S1 v Hv). simpl. eapply last_setting_app1; eauto.
    + destruct (item_sets_dec (B "max") it (or_intror eq_refl)) as [N|(v & Hv)].
      * rewrite (S4 N). apply last_setting_app1; auto.
      * rewrite (S2 v Hv). simpl. eapply last_setting_app1; eauto.
Qed.
Lemma keepalive_spec s : forall items, pieces_of [x2c] s items ->
  last_setting (B "timeout") items (ka_timeout (keepalive_parse s)) /\
  last_setting (B "max") items (ka_max (keepalive_parse s)).
Proof.
  intros items H. apply pieces1_unique in H as ->. apply ka_fold.
Qed.
