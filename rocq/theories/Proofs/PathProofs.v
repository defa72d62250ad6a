(** Path parsing, printing, prefix operations, pattern matching. *)
From Coq Require Import Relations.
From Verif.Proofs Require Export Basics.
From Verif.Spec Require Import PathSpec.

(** ** Segments of a string *)

Lemma segments_of_split s : segments_of (split_char SLASH s) s.
Proof.
  split; [apply split_char_nonempty|]. split.
  - apply Forall_forall. intros p Hp. apply (split_char_no_sep SLASH s p Hp).
  - apply (join_split_char SLASH).
Qed.
Lemma segments_of_unique segs s : segments_of segs s -> segs = split_char SLASH s.
Proof.
  intros (H1 & H2 & H3). subst s. symmetry. apply split_char_join; auto.
  intros p Hp. rewrite Forall_forall in H2. apply H2; auto.
Qed.

(** ** Parsing *)

Definition ok_seg (c : str) : Prop := normal c.
Lemma seg_cases c : c = [] \/ c = dot \/ c = dotdot \/ normal c.
Proof.
  destruct (seqb_spec c []); auto. destruct (seqb_spec c dot); auto.
  destruct (seqb_spec c dotdot); auto. right; right; right. repeat split; auto.
Qed.
Lemma parse_loop_empty chunks rest : parse_loop chunks ([] :: rest) = parse_loop chunks rest.
Proof. reflexivity. Qed.
Lemma parse_loop_dot chunks rest : parse_loop chunks (dot :: rest) = parse_loop chunks rest.
Proof. reflexivity. Qed.
Lemma parse_loop_dotdot chunks rest :
  parse_loop chunks (dotdot :: rest) =
  if is_nil chunks then None else parse_loop (removelast chunks) rest.
Proof. reflexivity. Qed.
Lemma parse_loop_normal chunks c rest :
  normal c -> parse_loop chunks (c :: rest) = parse_loop (chunks ++ [c]) rest.
Proof.
  intros (H1 & H2 & H3). simpl.
  rewrite (proj2 (is_nil_false c) H1).
  rewrite (proj2 (seqb_neq c DOT)) by exact H2.
  rewrite (proj2 (seqb_neq c DOTDOT)) by exact H3. reflexivity.
Qed.
Lemma parse_loop_normals chunks l rest :
  Forall normal l -> parse_loop chunks (l ++ rest) = parse_loop (chunks ++ l) rest.
Proof.
  revert chunks; induction l as [|c l IH]; intros chunks H.
  - rewrite app_nil_r; reflexivity.
  - inversion H; subst. change ((c :: l) ++ rest) with (c :: (l ++ rest)).
    rewrite parse_loop_normal by auto. rewrite IH by auto. rewrite <- app_assoc. reflexivity.
Qed.

Lemma parse_loop_step chunks l l' : resolve_step l l' -> parse_loop chunks l = parse_loop chunks l'.
Proof.
  intro H. destruct H as [l r|l r|l x r Hx].
  1-2: revert chunks; induction l as [|c l IH]; intro chunks; [reflexivity|].
  3: revert chunks; induction l as [|c l IH]; intro chunks.
  - simpl. destruct (is_nil c || seqb c DOT); auto.
    destruct (seqb c DOTDOT); auto. destruct (is_nil chunks); auto.
  - simpl. destruct (is_nil c || seqb c DOT); auto.
    destruct (seqb c DOTDOT); auto. destruct (is_nil chunks); auto.
  - change ([] ++ x :: dotdot :: r) with (x :: dotdot :: r).
    rewrite parse_loop_normal, parse_loop_dotdot by auto.
    rewrite removelast_app1. destruct chunks; reflexivity.
  - simpl. destruct (is_nil c || seqb c DOT); auto.
    destruct (seqb c DOTDOT); auto. destruct (is_nil chunks); auto.
Qed.

Lemma removelast_split {A} (l : list A) : l <> [] -> exists x, l = removelast l ++ [x].
Proof.
  intro H. destruct (exists_last H) as (l' & x & ->). exists x. rewrite removelast_app1. reflexivity.
Qed.

Lemma parse_loop_resolves toks : forall chunks r,
  Forall normal chunks -> parse_loop chunks toks = Some r ->
  clos_refl_trans _ resolve_step (chunks ++ toks) r /\ Forall normal r.
Proof.
  induction toks as [|c toks IH]; intros chunks r HN H.
  - injection H as <-. rewrite app_nil_r. split; [apply rt_refl|auto].
  - destruct (seg_cases c) as [->|[->|[->|Hc]]].
    + rewrite parse_loop_empty in H. destruct (IH _ _ HN H) as [H1 H2].
      split; auto. eapply rt_trans; [apply rt_step, rs_empty|exact H1].
    + rewrite parse_loop_dot in H. destruct (IH _ _ HN H) as [H1 H2].
      split; auto. eapply rt_trans; [apply rt_step, rs_dot|exact H1].
    + rewrite parse_loop_dotdot in H. destruct (is_nil chunks) eqn:E; [discriminate|].
      apply is_nil_false in E. destruct (removelast_split chunks E) as (x & Hx).
      rewrite Hx in HN. apply Forall_app in HN as [HN1 HN2].
      assert (Nx : normal x) by (inversion HN2; auto). clear HN2.
      destruct (IH _ _ HN1 H) as [H1 H2]. split; auto.
      rewrite Hx. rewrite <- app_assoc. simpl.
      eapply rt_trans; [apply rt_step, rs_cancel; auto|exact H1].
    + rewrite parse_loop_normal in H by auto.
      assert (HN' : Forall normal (chunks ++ [c])) by (apply Forall_app; auto).
      destruct (IH _ _ HN' H) as [H1 H2]. split; auto.
      rewrite <- app_assoc in H1. exact H1.
Qed.

Lemma parse_segments s segs r :
  segments_of segs s -> (path_parse s = Some r <-> resolves segs r).
Proof.
  intro Hs. apply segments_of_unique in Hs. subst segs. unfold path_parse. split.
  - intro H. apply (parse_loop_resolves _ [] r); auto.
  - intros [H1 H2].
    assert (E : parse_loop [] (split_char SLASH s) = parse_loop [] r).
    { clear H2. induction H1; try congruence. apply parse_loop_step; auto. }
    rewrite E. rewrite <- (app_nil_r r) at 1. rewrite parse_loop_normals by auto. reflexivity.
Qed.

Lemma parse_reject s segs :
  segments_of segs s -> (path_parse s = None <-> forall r, ~ resolves segs r).
Proof.
  intro Hs. split.
  - intros H r Hr. apply (parse_segments s segs r Hs) in Hr. congruence.
  - intro H. destruct (path_parse s) as [r|] eqn:E; auto.
    exfalso. apply (H r). apply (parse_segments s segs r Hs). exact E.
Qed.

(** depth characterisation *)
Lemma normal_b_spec c : normal_b c = true <-> normal c.
Proof.
  split.
  - intro H. repeat split; intros ->; discriminate.
  - intros (H1 & H2 & H3).
    destruct c as [|a [|b [|d c]]]; try congruence; try (destruct a; auto; congruence).
    destruct a; auto; destruct b; auto; try congruence.
    destruct a; auto; destruct b; auto.
Qed.
Lemma dotdot_b_spec c : dotdot_b c = true <-> c = dotdot.
Proof.
  split; [|intros ->; reflexivity].
  destruct c as [|a [|b [|d c]]]; simpl; try discriminate.
  - destruct a; discriminate.
  - destruct a; try discriminate; destruct b; try discriminate; reflexivity.
  - destruct a; try discriminate; destruct b; discriminate.
Qed.

Lemma count_cons f c l : count f (c :: l) = (if f c then 1 else 0) + count f l.
Proof. unfold count; simpl. destruct (f c); reflexivity. Qed.

Lemma parse_loop_climbs toks : forall chunks,
  parse_loop chunks toks = None <->
  exists k, length chunks + count normal_b (firstn k toks) < count dotdot_b (firstn k toks).
Proof.
  induction toks as [|c toks IH]; intro chunks.
  - simpl. split; [discriminate|]. intros (k & H). destruct k; simpl in H; unfold count in H; simpl in H; lia.
  - assert (Hpeel : forall n d, n = (if normal_b c then 1 else 0) -> d = (if dotdot_b c then 1 else 0) ->
       ((exists k, length chunks + count normal_b (firstn k (c :: toks)) < count dotdot_b (firstn k (c :: toks)))
        <-> exists k, length chunks + (n + count normal_b (firstn k toks)) < d + count dotdot_b (firstn k toks))).
    { intros n d Hn Hd. split.
      - intros ([|k] & H); [unfold count in H; simpl in H; lia|].
        simpl firstn in H. rewrite !count_cons in H. exists k. lia.
      - intros (k & H). exists (S k). simpl firstn. rewrite !count_cons. lia. }
    destruct (seg_cases c) as [->|[->|[->|Hc]]].
    + rewrite parse_loop_empty, IH. rewrite (Hpeel 0 0); reflexivity.
    + rewrite parse_loop_dot, IH. rewrite (Hpeel 0 0); reflexivity.
    + rewrite parse_loop_dotdot. rewrite (Hpeel 0 1); [|reflexivity|reflexivity].
      destruct (is_nil chunks) eqn:E.
      * apply is_nil_true in E; subst. split; auto. intros _. exists 0. unfold count; simpl; lia.
      * apply is_nil_false in E. destruct (removelast_split chunks E) as (x & Hx).
        rewrite IH.
        assert (L : length chunks = S (length (removelast chunks))).
        { rewrite Hx at 1. rewrite app_length; simpl; lia. }
        split; intros (k & H); exists k; lia.
    + rewrite parse_loop_normal, IH by auto.
      rewrite (Hpeel 1 0).
      * rewrite app_length; simpl. split; intros (k & H); exists k; lia.
      * rewrite (proj2 (normal_b_spec c) Hc); reflexivity.
      * destruct (dotdot_b c) eqn:E; auto. apply dotdot_b_spec in E; subst.
        destruct Hc as (_ & _ & Hc); congruence.
Qed.
Lemma parse_none_climbs s segs :
  segments_of segs s -> (path_parse s = None <-> climbs segs).
Proof.
  intro Hs. apply segments_of_unique in Hs; subst. unfold path_parse.
  rewrite parse_loop_climbs. reflexivity.
Qed.

(** ** Safe segments *)
Lemma parse_loop_from chunks toks r :
  parse_loop chunks toks = Some r -> forall c, In c r -> In c chunks \/ In c toks.
Proof.
  revert chunks; induction toks as [|t toks IH]; intros chunks H c Hc.
  - injection H as <-; auto.
  - destruct (seg_cases t) as [->|[->|[->|Ht]]].
    + rewrite parse_loop_empty in H. destruct (IH _ H c Hc); simpl; auto.
    + rewrite parse_loop_dot in H. destruct (IH _ H c Hc); simpl; auto.
    + rewrite parse_loop_dotdot in H. destruct (is_nil chunks) eqn:E; [discriminate|].
      destruct (IH _ H c Hc) as [H1|H1]; simpl; auto.
      apply is_nil_false in E. destruct (removelast_split chunks E) as (x & Hx).
      left. rewrite Hx. apply in_or_app; auto.
    + rewrite parse_loop_normal in H by auto. destruct (IH _ H c Hc) as [H1|H1]; simpl; auto.
      apply in_app_or in H1 as [H1|[->|[]]]; auto.
Qed.
Lemma parse_safe s r : path_parse s = Some r -> Forall (fun c => normal c /\ no_slash c) r.
Proof.
  intro H. pose proof (proj1 (parse_segments s _ r (segments_of_split s)) H) as [_ HN].
  apply Forall_forall. intros c Hc. split.
  - rewrite Forall_forall in HN; auto.
  - destruct (parse_loop_from _ _ _ H c Hc) as [[]|H1].
    apply (split_char_no_sep SLASH s c H1).
Qed.

(** ** Round trip *)
Lemma split_display p :
  Forall no_slash p -> split_char SLASH (path_display p) = p ++ [[]].
Proof.
  induction p as [|c p IH]; intro H; [reflexivity|].
  inversion H; subst. unfold path_display; simpl. fold (path_display p).
  rewrite <- app_assoc. change ([SLASH] ++ path_display p) with (SLASH :: path_display p).
  rewrite split_char_app_sep, split_char_no_sep_id by auto. rewrite IH by auto. reflexivity.
Qed.
Lemma parse_display r :
  Forall (fun c => normal c /\ no_slash c) r -> path_parse (path_display r) = Some r.
Proof.
  intro H. unfold path_parse. rewrite split_display.
  - rewrite parse_loop_normals; [reflexivity|]. eapply Forall_impl; [|exact H]. intros c Hc; apply Hc.
  - eapply Forall_impl; [|exact H]. intros c Hc; apply Hc.
Qed.
Lemma parse_display_parsed s r : path_parse s = Some r -> path_parse (path_display r) = Some r.
Proof. intro H. apply parse_display. eapply parse_safe; eauto. Qed.

(** ** Slashes *)
Lemma parse_loop_app chunks a b :
  parse_loop chunks (a ++ b) =
  match parse_loop chunks a with Some c => parse_loop c b | None => None end.
Proof.
  revert chunks; induction a as [|t a IH]; intro chunks; [reflexivity|].
  simpl. destruct (is_nil t || seqb t DOT); auto.
  destruct (seqb t DOTDOT); auto. destruct (is_nil chunks); auto.
Qed.
Lemma parse_slash a b :
  path_parse (a ++ SLASH :: b) =
  match path_parse a with Some c => parse_loop c (split_char SLASH b) | None => None end.
Proof. unfold path_parse. rewrite split_char_app_sep. apply parse_loop_app. Qed.
Lemma parse_loop_base chunks toks r :
  parse_loop [] toks = Some r -> parse_loop chunks toks = Some (chunks ++ r).
Proof.
  assert (G : forall base c r, parse_loop c toks = Some r ->
               parse_loop (base ++ c) toks = Some (base ++ r)).
  { clear. intro base. induction toks as [|t toks IH]; intros c r H.
    - injection H as <-; reflexivity.
    - destruct (seg_cases t) as [->|[->|[->|Ht]]].
      + rewrite parse_loop_empty in *. auto.
      + rewrite parse_loop_dot in *. auto.
      + rewrite parse_loop_dotdot in *. destruct (is_nil c) eqn:E; [discriminate|].
        apply is_nil_false in E.
        assert (E2 : is_nil (base ++ c) = false).
        { apply is_nil_false. destruct base; simpl; congruence. }
        rewrite E2. rewrite removelast_app by auto. auto.
      + rewrite parse_loop_normal in * by auto. rewrite <- app_assoc. auto. }
  intro H. specialize (G chunks [] r H). rewrite app_nil_r in G. exact G.
Qed.
Lemma parse_concat a b p q :
  path_parse a = Some p -> path_parse b = Some q -> path_parse (a ++ SLASH :: b) = Some (p ++ q).
Proof. intros Ha Hb. rewrite parse_slash, Ha. apply parse_loop_base. exact Hb. Qed.
Lemma parse_leading_slash a : path_parse (SLASH :: a) = path_parse a.
Proof. apply (parse_slash [] a). Qed.
Lemma parse_trailing_slash a : path_parse (a ++ [SLASH]) = path_parse a.
Proof. rewrite parse_slash. simpl. destruct (path_parse a); reflexivity. Qed.
Lemma parse_double_slash a b : path_parse (a ++ SLASH :: SLASH :: b) = path_parse (a ++ SLASH :: b).
Proof.
  rewrite !parse_slash. destruct (path_parse a); auto.
Qed.

(** ** Equality of paths, prefixes *)
Lemma path_eqb_eq a b : path_eqb a b = true <-> a = b.
Proof.
  revert b; induction a as [|x a IH]; intros [|y b]; simpl; split; intro H;
    try reflexivity; try discriminate.
  - apply andb_prop in H as [H1 H2]. apply seqb_eq in H1; apply IH in H2; congruence.
  - injection H as -> ->. rewrite seqb_refl. apply IH. reflexivity.
Qed.
Lemma subtract_spec self other rest :
  path_subtract self other = Some rest <-> self = other ++ rest.
Proof.
  unfold path_subtract. split.
  - destruct (Nat.ltb (length self) (length other)) eqn:E; [discriminate|].
    apply Nat.ltb_ge in E.
    destruct (path_eqb (firstn (length other) self) other) eqn:E2; simpl; [|discriminate].
    intro H. injection H as <-. apply path_eqb_eq in E2. rewrite <- E2 at 1.
    symmetry. apply firstn_skipn.
  - intros ->. rewrite app_length.
    replace (Nat.ltb (length other + length rest) (length other)) with false
      by (symmetry; apply Nat.ltb_ge; lia).
    rewrite firstn_app, Nat.sub_diag, firstn_all, firstn_O, app_nil_r.
    rewrite (proj2 (path_eqb_eq other other)) by reflexivity. simpl.
    rewrite skipn_app, Nat.sub_diag, skipn_all. reflexivity.
Qed.
Lemma subtract_none self other : path_subtract self other = None <-> ~ prefix_of other self.
Proof.
  split.
  - intros H [rest Hr]. apply subtract_spec in Hr. congruence.
  - intro H. destruct (path_subtract self other) as [r|] eqn:E; auto.
    exfalso. apply H. exists r. apply subtract_spec; auto.
Qed.
Lemma starts_with_spec self other :
  check_starts_with self other = true <-> prefix_of self other \/ prefix_of other self.
Proof.
  revert other; induction self as [|a self IH]; intros [|b other]; simpl.
  - split; auto. intros _. left; exists []; reflexivity.
  - split; auto. intros _. left. exists (b :: other); reflexivity.
  - split; auto. intros _. right. exists (a :: self); reflexivity.
  - destruct (seqb_spec a b) as [->|Hab].
    + rewrite IH. split; intros [[r Hr]|[r Hr]].
      * left; exists r; simpl; congruence.
      * right; exists r; simpl; congruence.
      * left; exists r; simpl in Hr; congruence.
      * right; exists r; simpl in Hr; congruence.
    + split; [discriminate|]. intros [[r Hr]|[r Hr]]; simpl in Hr; congruence.
Qed.

(** ** Patterns *)

Definition nonempty (c : str) : Prop := c <> [].

Lemma colon_cases (a : str) : a <> [] ->
  (exists n, a = x3a :: n /\ first_is_colon a = Done true) \/
  (hd_error a <> Some x3a /\ first_is_colon a = Done false).
Proof.
  destruct a as [|b a]; [congruence|intros _].
  unfold first_is_colon, COLON. destruct (beqb_spec b x3a) as [->|H].
  - left. exists a; auto.
  - right. split; [simpl; congruence|reflexivity].
Qed.

Lemma binds_cons a pat b path name val :
  binds (a :: pat) (b :: path) name val <->
  binds pat path name val \/
  (a = x3a :: name /\ b = val /\ forall j, nth_error pat j <> Some (x3a :: name)).
Proof.
  split.
  - intros ([|i] & H1 & H2 & H3).
    + right. simpl in H1, H2. split; [congruence|]. split; [congruence|].
      intros j. specialize (H3 (S j)). simpl in H3. apply H3. lia.
    + left. exists i. split; auto. split; auto. intros j Hj. apply (H3 (S j)). lia.
  - intros [(i & H1 & H2 & H3)|(H1 & H2 & H3)].
    + exists (S i). split; auto. split; auto. intros [|j] Hj; [lia|]. simpl. apply H3. lia.
    + subst. exists 0. split; auto. split; auto. intros [|j] Hj; [lia|]. simpl. apply H3.
Qed.
Lemma binds_fun pat path name v v' : binds pat path name v -> binds pat path name v' -> v = v'.
Proof.
  intros (i & H1 & H2 & H3) (j & J1 & J2 & J3).
  assert (i = j); [|subst; congruence].
  destruct (Nat.lt_trichotomy i j) as [H|[H|H]]; auto.
  - exfalso. apply (H3 j H J1).
  - exfalso. apply (J3 i H H1).
Qed.

Lemma check_matches_loop_spec pat : forall path vars,
  Forall nonempty pat -> length pat = length path ->
  (exists vars', check_matches_loop vars pat path = Done (Some vars') /\
     Forall2 seg_matches pat path /\
     forall name val, mget seqb name vars' = Some val <->
        binds pat path name val \/
        (mget seqb name vars = Some val /\ forall j, nth_error pat j <> Some (x3a :: name)))
  \/ (check_matches_loop vars pat path = Done None /\ ~ Forall2 seg_matches pat path).
Proof.
  induction pat as [|a pat IH]; intros [|b path] vars HN HL; try discriminate.
  - left. exists vars. split; auto. split; [constructor|]. intros name val. split.
    + intro H. right. split; auto. intros [|j]; discriminate.
    + intros [(i & H & _)|[H _]]; auto. destruct i; discriminate.
  - inversion HN as [|? ? Ha HN']; subst. simpl in HL. injection HL as HL.
    simpl check_matches_loop.
    destruct (colon_cases a Ha) as [(n & -> & Hc)|(Hnc & Hc)]; rewrite Hc; cbn [obind].
    + destruct (IH path (mset seqb (skipn 1 (x3a :: n)) b vars) HN' HL)
        as [(vars' & H1 & H2 & H3)|[H1 H2]].
      * left. exists vars'. split; auto. split.
        { constructor; auto. left. exists n; reflexivity. }
        intros name val. rewrite H3, binds_cons. simpl skipn.
        rewrite (mget_mset seqb seqb_eq). destruct (seqb_spec name n) as [->|Hn].
        -- split.
           ++ intros [H|[H H']]; [left; left; auto|].
              left. right. split; auto. split; [congruence|auto].
           ++ intros [[H|(E & E2 & H')]|[H H']]; auto.
              ** right. split; [congruence|auto].
              ** exfalso. apply (H' 0). reflexivity.
        -- split.
           ++ intros [H|[H H']]; [left; left; auto|]. right. split; auto.
              intros [|j]; simpl; [congruence|apply H'].
           ++ intros [[H|(E & E2 & H')]|[H H']]; auto.
              ** congruence.
              ** right. split; auto. intro j. apply (H' (S j)).
      * right. split; auto. intro HF. inversion HF; auto.
    + destruct (seqb_spec a b) as [->|Hab].
      * destruct (IH path vars HN' HL) as [(vars' & H1 & H2 & H3)|[H1 H2]].
        -- left. exists vars'. split; auto. split.
           { constructor; auto. right; reflexivity. }
           intros name val. rewrite H3, binds_cons. split.
           ++ intros [H|[H H']]; [left; left; auto|]. right. split; auto.
              intros [|j]; simpl; [|apply H']. intro E. injection E as ->. apply Hnc. reflexivity.
           ++ intros [[H|(E & E2 & H')]|[H H']]; auto.
              ** subst b. exfalso. apply Hnc; reflexivity.
              ** right. split; auto. intro j. apply (H' (S j)).
        -- right. split; auto. intro HF. inversion HF; auto.
      * right. split; auto. intro HF. inversion HF as [|? ? ? ? Hm]; subst.
        destruct Hm as [(n & ->)|Hm]; [apply Hnc; reflexivity|contradiction].
Qed.

Lemma check_matches_spec pat path :
  Forall nonempty pat ->
  (exists vars, check_matches pat path = Done (Some vars) /\ pattern_matches pat path /\
     forall name val, mget seqb name vars = Some val <-> binds pat path name val)
  \/ (check_matches pat path = Done None /\ ~ pattern_matches pat path).
Proof.
  intro HN. unfold check_matches.
  destruct (Nat.eqb_spec (length pat) (length path)) as [E|E]; simpl.
  - destruct (check_matches_loop_spec pat path [] HN E) as [(vars & H1 & H2 & H3)|[H1 H2]].
    + left. exists vars. split; auto. split; auto. intros name val. rewrite H3. simpl.
      split; [intros [H|[H _]]; [auto|discriminate]|auto].
    + right; auto.
  - right. split; auto. intro H. apply E. eapply Forall2_len; eauto.
Qed.

Lemma safe_nonempty r : Forall (fun c => normal c /\ no_slash c) r -> Forall nonempty r.
Proof. apply Forall_impl. intros c [(H & _) _]. exact H. Qed.
Lemma parse_nonempty s r : path_parse s = Some r -> Forall nonempty r.
Proof. intro H. apply safe_nonempty. eapply parse_safe; eauto. Qed.
