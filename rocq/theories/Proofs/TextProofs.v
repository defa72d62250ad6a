(** Searching and splitting byte strings. *)
From Verif.Model Require Export Request.
From Verif.Proofs Require Export Basics.
From Verif.Spec Require Import TextSpec.

Lemma starts_with_spec' p s : starts_with p s = true <-> exists b, s = p ++ b.
Proof.
  revert s; induction p as [|x p IH]; intros s; simpl.
  - split; auto. intros _; exists s; auto.
  - destruct s as [|y s].
    + split; [discriminate|]. intros (b & E); discriminate.
    + destruct (beqb_spec x y) as [->|N]; simpl.
      * rewrite IH. split; intros (b & E); exists b; congruence.
      * split; [discriminate|]. intros (b & E). congruence.
Qed.
Lemma occurs_at_0 p s : occurs_at p s 0 <-> starts_with p s = true.
Proof.
  rewrite starts_with_spec'. split.
  - intros ([|x a] & b & E & L); [|discriminate]. exists b; auto.
  - intros (b & E). exists [], b. auto.
Qed.
Lemma occurs_at_S p x s i : occurs_at p (x :: s) (S i) <-> occurs_at p s i.
Proof.
  split.
  - intros ([|y a] & b & E & L); [discriminate|]. injection E as -> ->. exists a, b. auto.
  - intros (a & b & -> & <-). exists (x :: a), b. auto.
Qed.
Lemma occurs_at_firstn p s i : occurs_at p s i -> s = firstn i s ++ p ++ skipn (i + length p) s.
Proof.
  intros (a & b & -> & <-). rewrite firstn_app, Nat.sub_diag, firstn_all, firstn_O, app_nil_r.
  f_equal. rewrite skipn_app. rewrite skipn_all2 by lia.
  replace (length a + length p - length a) with (length p) by lia.
  rewrite skipn_app, Nat.sub_diag, skipn_all. reflexivity.
Qed.
Lemma occurs_at_le p s i : occurs_at p s i -> i + length p <= length s.
Proof. intros (a & b & -> & <-). rewrite !app_length. lia. Qed.
Lemma first_at_unique p s i j : first_at p s i -> first_at p s j -> i = j.
Proof. intros [H1 H2] [H3 H4]. specialize (H2 j H3). specialize (H4 i H1). lia. Qed.

Lemma find_str_spec p s :
  match find_str p s with Some i => first_at p s i | None => ~ occurs p s end.
Proof.
  induction s as [|x s IH].
  - simpl. destruct (starts_with p []) eqn:E.
    + split; [apply occurs_at_0; auto|intros; lia].
    + intros ([|i] & H).
      * rewrite occurs_at_0 in H. congruence.
      * apply occurs_at_le in H. simpl in H. lia.
  - simpl. destruct (starts_with p (x :: s)) eqn:E.
    + split; [apply occurs_at_0; auto|intros; lia].
    + destruct (find_str p s) as [i|].
      * destruct IH as [H1 H2]. split; [apply occurs_at_S; auto|].
        intros [|j] Hj.
        -- rewrite occurs_at_0 in Hj. congruence.
        -- rewrite occurs_at_S in Hj. specialize (H2 j Hj). lia.
      * intros ([|j] & Hj).
        -- rewrite occurs_at_0 in Hj. congruence.
        -- rewrite occurs_at_S in Hj. apply IH. exists j; auto.
Qed.

Lemma slice_matches_at_spec n : forall h i,
  slice_matches_at h n i = starts_with n (skipn i h).
Proof.
  induction n as [|x n IH]; intros h i; simpl; auto.
  destruct (nth_error h i) as [y|] eqn:E.
  - assert (S : skipn i h = y :: skipn (S i) h).
    { clear - E. revert i E; induction h as [|z h IH]; intros [|i] E; simpl in *; try discriminate; try congruence.
      apply (IH i E). }
    rewrite S. rewrite beqb_sym. destruct (beqb x y); auto. simpl. rewrite IH. reflexivity.
  - apply nth_error_None in E. rewrite skipn_all2 by auto. reflexivity.
Qed.
Lemma occurs_at_skipn p s i : i <= length s -> (occurs_at p s i <-> starts_with p (skipn i s) = true).
Proof.
  intro Hi. rewrite starts_with_spec'. split.
  - intro H. pose proof (occurs_at_firstn _ _ _ H) as E. exists (skipn (i + length p) s).
    rewrite <- (firstn_skipn i s) in E at 1. apply app_inv_head in E. exact E.
  - intros (b & E). exists (firstn i s), b. split; [|apply firstn_length_le; auto].
    rewrite <- E. symmetry. apply firstn_skipn.
Qed.
Lemma find_from_spec h n count : forall i,
  i + count = S (length h - length n) -> length n <= length h ->
  (forall j, j < i -> ~ occurs_at n h j) ->
  match find_from h n i count with Some k => first_at n h k | None => ~ occurs n h end.
Proof.
  induction count as [|c IH]; intros i Hi Hn Hj; simpl.
  - intros (j & H). pose proof (occurs_at_le _ _ _ H). apply (Hj j); auto. lia.
  - rewrite slice_matches_at_spec. destruct (starts_with n (skipn i h)) eqn:E.
    + split; [apply occurs_at_skipn; auto; lia|].
      intros j H. destruct (Nat.lt_ge_cases j i); auto. exfalso. apply (Hj j); auto.
    + apply IH; auto; [lia|]. intros j Hlt.
      destruct (Nat.eq_dec j i) as [->|]; [|apply Hj; lia].
      rewrite occurs_at_skipn by lia. congruence.
Qed.
Lemma find_in_slice_spec h n :
  match find_in_slice h n with Some i => first_at n h i | None => ~ occurs n h end.
Proof.
  unfold find_in_slice. destruct (Nat.ltb_spec (length h) (length n)).
  - intros (j & Hj). apply occurs_at_le in Hj. lia.
  - apply find_from_spec; auto; try lia; intros; lia.
Qed.
Lemma find_agree h n : find_in_slice h n = find_str n h.
Proof.
  pose proof (find_in_slice_spec h n) as H1. pose proof (find_str_spec n h) as H2.
  destruct (find_in_slice h n) as [i|], (find_str n h) as [j|]; auto.
  - f_equal. eapply first_at_unique; eauto.
  - exfalso. apply H2. exists i. apply H1.
  - exfalso. apply H1. exists j. apply H2.
Qed.
Lemma find_str_Some p s i : find_str p s = Some i <-> first_at p s i.
Proof.
  pose proof (find_str_spec p s) as H. split.
  - intro E. rewrite E in H. auto.
  - intro F. destruct (find_str p s) as [j|].
    + f_equal. eapply first_at_unique; eauto.
    + exfalso. apply H. exists i. apply F.
Qed.
Lemma find_str_None p s : find_str p s = None <-> ~ occurs p s.
Proof.
  pose proof (find_str_spec p s) as H. split.
  - intro E. rewrite E in H. auto.
  - intro F. destruct (find_str p s) as [j|]; auto. exfalso. apply F. exists j. apply H.
Qed.

Lemma find_char_str c s : find_char c s = find_str [c] s.
Proof.
  induction s as [|x s IH]; simpl; auto. rewrite beqb_sym, andb_true_r, IH. reflexivity.
Qed.
Lemma occurs1 c s : occurs [c] s <-> In c s.
Proof.
  split.
  - intros (i & a & b & -> & _). apply in_or_app. right. left. auto.
  - intro H. apply in_split in H as (a & b & ->). exists (length a), a, b. auto.
Qed.
Lemma find_char_Some c s i :
  find_char c s = Some i <-> s = firstn i s ++ c :: skipn (S i) s /\ ~ In c (firstn i s) /\ i < length s.
Proof.
  rewrite find_char_str, find_str_Some. split.
  - intros [H1 H2]. pose proof (occurs_at_le _ _ _ H1) as L. simpl in L. split; [|split].
    + pose proof (occurs_at_firstn _ _ _ H1) as E. simpl in E.
      replace (i + 1) with (S i) in E by lia. exact E.
    + intro Hin. apply in_split in Hin as (a & b & E).
      assert (occurs_at [c] s (length a)) as Ho.
      { exists a, (b ++ skipn i s). split; auto. rewrite <- (firstn_skipn i s) at 1. rewrite E, <- app_assoc. reflexivity. }
      apply H2 in Ho. assert (length (firstn i s) = i) by (apply firstn_length_le; lia).
      rewrite E, app_length in H. simpl in H. lia.
    + lia.
  - intros (E & Hni & L). split.
    + exists (firstn i s), (skipn (S i) s). split; auto. apply firstn_length_le. lia.
    + intros j (a & b & E2 & <-). destruct (Nat.lt_ge_cases (length a) i); auto.
      exfalso. apply Hni. rewrite E2. rewrite firstn_app.
      apply in_or_app. right. destruct (i - length a) eqn:X; [lia|]. left. reflexivity.
Qed.
Lemma find_char_None c s : find_char c s = None <-> ~ In c s.
Proof. rewrite find_char_str, find_str_None, occurs1. reflexivity. Qed.
Lemma find_char_app c a b : ~ In c a -> find_char c (a ++ c :: b) = Some (length a).
Proof.
  intro H. apply find_char_Some. split; [|split].
  - rewrite firstn_app, Nat.sub_diag, firstn_all, firstn_O, app_nil_r.
    f_equal. rewrite skipn_app. rewrite skipn_all2 by lia.
    replace (S (length a) - length a) with 1 by lia. reflexivity.
  - rewrite firstn_app, Nat.sub_diag, firstn_all, firstn_O, app_nil_r. auto.
  - rewrite app_length. simpl. lia.
Qed.

(** ** The splitting iterator *)

Definition collect_all (seq s : str) : option (list str) :=
  spliterator_collect (2 + length s) (spliterator_new s seq).

Lemma first_at_prefix_no_occ p s i : first_at p s i -> p <> [] -> ~ occurs p (firstn i s).
Proof.
  intros [H1 H2] Hp (j & a & b & E & <-).
  pose proof (occurs_at_le _ _ _ H1) as L.
  assert (occurs_at p s (length a)) as Ho.
  { exists a, (b ++ skipn i s). split; auto. rewrite <- (firstn_skipn i s) at 1.
    rewrite E, <- !app_assoc. reflexivity. }
  apply H2 in Ho. assert (X : length (firstn i s) = i) by (apply firstn_length_le; lia).
  rewrite E, !app_length in X. destruct p; [congruence|]. simpl in X. lia.
Qed.

Lemma skipn_skipn' {A} a : forall b (s : list A), skipn b (skipn a s) = skipn (a + b) s.
Proof.
  induction a as [|a IH]; intros b s; simpl; auto.
  destruct s; simpl; auto. apply skipn_nil.
Qed.
Lemma collect_step f t : spliterator_collect (S f) t =
  match spliterator_next t with
  | (None, _) => Some []
  | (Some x, t') => match spliterator_collect f t' with Some l => Some (x :: l) | None => None end
  end.
Proof. reflexivity. Qed.
Lemma collect_spec seq : seq <> [] -> forall fuel s,
  length s < fuel -> exists l, spliterator_collect (S fuel) (Spliterator s false seq) = Some l /\ pieces_of seq s l.
Proof.
  intros Hseq. induction fuel as [|fuel IH]; intros s Hl; [lia|].
  rewrite collect_step. unfold spliterator_next. cbn [sp_finished sp_string sp_seq].
  pose proof (find_in_slice_spec s seq) as H.
  destruct (find_in_slice s seq) as [i|].
  - pose proof (occurs_at_le _ _ _ (proj1 H)) as L.
    assert (Ls : 0 < length seq) by (destruct seq; [congruence|simpl; lia]).
    rewrite skipn_skipn'.
    destruct (IH (skipn (i + length seq) s)) as (l & El & Hp1 & Hp2 & Hp3).
    + rewrite skipn_length. lia.
    + rewrite El. eexists. split; [reflexivity|]. split; [discriminate|]. split.
      * constructor; auto. apply first_at_prefix_no_occ; auto.
      * destruct l as [|p l]; [congruence|].
        change (join seq (firstn i s :: p :: l)) with (firstn i s ++ seq ++ join seq (p :: l)).
        rewrite Hp3. symmetry. apply occurs_at_firstn. apply H.
  - rewrite collect_step. unfold spliterator_next. cbn [sp_finished].
    eexists. split; [reflexivity|]. split; [discriminate|]. split; auto.
Qed.
Lemma collect_pieces seq s : seq <> [] -> exists l, collect_all seq s = Some l /\ pieces_of seq s l.
Proof. intro H. apply collect_spec; auto. Qed.

(** The fuel never matters. *)
Lemma collect_mono fuel : forall t l, spliterator_collect fuel t = Some l ->
  forall fuel', fuel <= fuel' -> spliterator_collect fuel' t = Some l.
Proof.
  induction fuel as [|fuel IH]; intros t l H fuel' Hle; [discriminate|].
  destruct fuel' as [|fuel']; [lia|]. simpl in *.
  destruct (spliterator_next t) as [[x|] t']; auto.
  destruct (spliterator_collect fuel t') as [l'|] eqn:E; [|discriminate].
  rewrite (IH t' l' E fuel') by lia. exact H.
Qed.

(** Splitting at a separator of two different bytes is unique. *)
Lemma sep2_first x y p rest : x <> y -> ~ occurs [x; y] p -> first_at [x; y] (p ++ [x; y] ++ rest) (length p).
Proof.
  intros Hxy Hn. split; [exists p, rest; auto|].
  intros j (a & b & E & <-). destruct (Nat.lt_ge_cases (length a) (length p)) as [Hlt|]; auto.
  exfalso. apply Hn. clear Hn.
  revert a E Hlt. induction p as [|z p IH]; intros a E Hlt; [simpl in Hlt; lia|].
  destruct a as [|w a].
  - simpl in E. injection E as -> E. destruct p as [|w p].
    + simpl in E. injection E as E _. congruence.
    + simpl in E. injection E as -> E. exists 0, [], p. auto.
  - simpl in E. injection E as -> E. simpl in Hlt.
    destruct (IH a E) as (i & Hi); [lia|].
    exists (S i). rewrite occurs_at_S. exact Hi.
Qed.
Lemma pieces2_unique x y s l1 l2 : x <> y -> pieces_of [x; y] s l1 -> pieces_of [x; y] s l2 -> l1 = l2.
Proof.
  intro Hxy.
  revert s l2; induction l1 as [|p1 l1 IH]; intros s l2 (N1 & F1 & J1) (N2 & F2 & J2); [congruence|].
  destruct l2 as [|p2 l2]; [congruence|].
  inversion F1 as [|? ? P1 F1']; inversion F2 as [|? ? P2 F2']; subst.
  destruct l1 as [|q1 l1], l2 as [|q2 l2].
  - simpl in J2. congruence.
  - exfalso. change (join [x; y] [p1]) with p1 in J2. apply P1. rewrite <- J2.
    exists (length p2), p2, (join [x; y] (q2 :: l2)). auto.
  - exfalso. change (join [x; y] [p2]) with p2 in J2. apply P2. rewrite J2.
    exists (length p1), p1, (join [x; y] (q1 :: l1)). auto.
  - change (p2 ++ [x; y] ++ join [x; y] (q2 :: l2) = p1 ++ [x; y] ++ join [x; y] (q1 :: l1)) in J2.
    assert (L : length p1 = length p2).
    { pose proof (sep2_first x y p1 (join [x; y] (q1 :: l1)) Hxy P1) as X1.
      pose proof (sep2_first x y p2 (join [x; y] (q2 :: l2)) Hxy P2) as X2.
      rewrite J2 in X2. eapply first_at_unique; eauto. }
    apply app_length_inj in J2 as [-> J2]; auto. injection J2 as J2.
    f_equal. apply (IH (join [x; y] (q1 :: l1))); split; try discriminate; split; auto.
Qed.
Lemma crlf_first p rest : ~ occurs CRLF p -> first_at CRLF (p ++ CRLF ++ rest) (length p).
Proof. apply sep2_first. discriminate. Qed.
Lemma pieces_unique s l1 l2 : pieces_of CRLF s l1 -> pieces_of CRLF s l2 -> l1 = l2.
Proof. apply pieces2_unique. discriminate. Qed.

(** [str::split] with a string pattern *)
Lemma split_str_pieces p : p <> [] -> forall fuel s, length s < fuel -> pieces_of p s (split_str_fuel fuel p s).
Proof.
  intro Hp. induction fuel as [|fuel IH]; intros s L; [lia|].
  simpl. pose proof (find_str_spec p s) as F. destruct (find_str p s) as [i|].
  - pose proof (occurs_at_le _ _ _ (proj1 F)) as Li.
    assert (Lp : 0 < length p) by (destruct p; [congruence|simpl; lia]).
    destruct (IH (skipn (i + length p) s)) as (H1 & H2 & H3); [rewrite skipn_length; lia|].
    split; [discriminate|]. split.
    + constructor; auto. apply first_at_prefix_no_occ; auto.
    + remember (split_str_fuel fuel p (skipn (i + length p) s)) as l eqn:El.
      destruct l as [|q l]; [congruence|].
      change (join p (firstn i s :: q :: l)) with (firstn i s ++ p ++ join p (q :: l)).
      rewrite H3. symmetry. apply occurs_at_firstn. apply F.
  - split; [discriminate|]. split; auto.
Qed.
Lemma split_str_spec p s : p <> [] -> pieces_of p s (split_str p s).
Proof. intro H. apply split_str_pieces; auto. Qed.
