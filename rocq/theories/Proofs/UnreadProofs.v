(** Lemmas behind Props/UnreadProps.v: what the server leaves unread. *)
From Verif.Spec Require Import Common PathSpec TextSpec RequestSpec ServerSpec ArriveSpec.
From Verif.Model Require Import RustStd Path Request Server Unread.
From Verif.Proofs Require Export ArriveProofs.

Lemma head_left_same fuel : forall data t, fst (head_loop_left fuel data t) = head_loop fuel data t.
Proof.
  induction fuel as [|fuel IH]; intros data t; [reflexivity|]. cbn [head_loop head_loop_left].
  destruct (tr_read BUF t) as [[[chunk|] t']| | |]; cbn [io_bind fst]; auto.
  destruct (Nat.eqb (length chunk) 0); auto. cbn zeta. destruct (find_in_slice _ _) as [i|]; auto.
  destruct (utf8_valid _); auto. destruct (parse_without_body _) as [[rl heads]|]; auto.
Qed.
Lemma exact_left_same e l : forall n, fst (read_exact_left n l e) = read_exact_segs n l e.
Proof.
  induction l as [|s l IH]; intro n; [reflexivity|]. cbn [read_exact_left read_exact_segs].
  destruct (is_nil s); auto. destruct (Nat.leb n (length s)); auto.
  rewrite <- IH. destruct (read_exact_left (n - length s) l e); reflexivity.
Qed.
Lemma from_raw_left_same ft cl h rl rem t : fst (from_raw_left ft cl h rl rem t) = request_from_raw ft cl h rl rem t.
Proof.
  unfold from_raw_left, request_from_raw. cbn zeta. destruct (0 <? content_length h)%N; auto.
  destruct (N.of_nat (length rem) <? content_length h)%N; auto. destruct (ISIZE_MAX <? _)%N; auto.
  rewrite <- exact_left_same. destruct (read_exact_left _ _ _); reflexivity.
Qed.
Theorem left_same ft cl t : fst (read_request_left ft cl t) = read_request ft cl t.
Proof.
  unfold read_request_left, read_request, read_head. rewrite <- (head_left_same _ [] t). unfold read_head_left.
  destruct (head_loop_left _ [] t) as [[[hs rl rem later|]| | |] lo]; cbn [fst io_bind]; auto.
  destruct (headers_parse ft hs) as [h|]; auto.
  destruct (obind (request_line_parse ft rl) unwrap) as [l|]; auto. cbn [io_of_outcome io_bind].
  rewrite <- from_raw_left_same. destruct (from_raw_left _ _ _ _ _ _); reflexivity.
Qed.
Lemma head_left_later fuel : forall data t hs rl rem later lo, head_loop_left fuel data t = (IoDone (HeadOk hs rl rem later), lo) -> lo = later.
Proof.
  induction fuel as [|fuel IH]; intros data t hs rl rem later lo; [discriminate|]. cbn [head_loop_left].
  destruct (tr_read BUF t) as [[[chunk|] t']| | |]; try discriminate.
  destruct (Nat.eqb (length chunk) 0); [discriminate|]. cbn zeta. destruct (find_in_slice _ _) as [i|]; [|apply IH].
  destruct (utf8_valid _); [|discriminate]. destruct (parse_without_body _) as [[x y]|]; [|discriminate]. intro E. congruence.
Qed.

(** After a complete head, good or bad. *)
Lemma head_left_rest fuel : forall data t a b, real_segments t -> ~ occurs CRLFCRLF data ->
  head_at (data ++ stream_of t) a b -> total_len (segs t) < fuel ->
  exists r lo before last later early, head_loop_left fuel data t = (IoDone r, lo) /\
    read_as 512 (segs t) (before ++ last :: later) /\ ~ occurs CRLFCRLF (data ++ concat before) /\
    head_at (data ++ concat before ++ last) a early /\ b = early ++ stream_of lo /\ real_segments lo.
Proof.
  induction fuel as [|fuel IH]; intros data t a b R Nd Ha L; [lia|]. cbn [head_loop_left].
  pose proof (tr_read_spec t R) as T.
  assert (Ne : segs t <> []).
  { intro Z. apply Nd. unfold stream_of in Ha. rewrite Z in Ha. cbn [concat] in Ha. rewrite app_nil_r in Ha. eapply head_at_occurs; eauto. }
  destruct (tr_read BUF t) as [[[chunk|] t']| | |] eqn:Et; try (exfalso; apply Ne; apply T); try contradiction.
  destruct (Nat.eqb_spec (length chunk) 0) as [Z|NZ].
  { destruct chunk; [|discriminate]. exfalso. apply Ne. apply T. }
  assert (Nc : chunk <> []) by (intros ->; apply NZ; reflexivity).
  assert (T' : stream_of t = chunk ++ stream_of t' /\ fin t' = fin t /\ real_segments t' /\
    length chunk <= BUF /\ total_len (segs t) = length chunk + total_len (segs t')) by (destruct chunk; [congruence|exact T]).
  destruct T' as (E & _ & R' & _ & Lt). cbn zeta. rewrite E, app_assoc in Ha.
  pose proof (find_in_slice_spec (data ++ chunk) CRLFCRLF) as F.
  destruct (find_in_slice (data ++ chunk) CRLFCRLF) as [i|].
  - assert (H1 : head_at (data ++ chunk) (firstn i (data ++ chunk)) (skipn (i + 4) (data ++ chunk))).
    { pose proof (occurs_at_le _ _ _ (proj1 F)) as Li. split.
      - apply (occurs_at_firstn CRLFCRLF (data ++ chunk) i). apply F.
      - rewrite firstn_length_le by lia. exact F. }
    assert (H2 : head_at ((data ++ chunk) ++ stream_of t') (firstn i (data ++ chunk)) (skipn (i + 4) (data ++ chunk) ++ stream_of t')).
    { destruct H1 as [H1 H1']. split; [rewrite H1 at 1; rewrite <- !app_assoc; reflexivity|]. apply first_at_app. exact H1'. }
    destruct (head_at_fun _ _ _ _ _ Ha H2) as [-> ->].
    destruct (read_as_total 512 (segs t')) as (r & Hr); [lia|].
    assert (Fin : exists r0, (if utf8_valid (firstn i (data ++ chunk)) then
        match parse_without_body (firstn i (data ++ chunk)) with
        | Some (rl, heads) => (IoDone (HeadOk heads rl (skipn (i + 4) (data ++ chunk)) t'), t')
        | None => (IoDone HeadBad, t') end else (IoDone HeadBad, t')) = (IoDone r0, t')).
    { destruct (utf8_valid _); [|eauto]. destruct (parse_without_body _) as [[x y]|]; eauto. }
    destruct Fin as (r0 & E0). exists r0, t', [], chunk, r, (skipn (i + 4) (data ++ chunk)).
    split; [exact E0|]. cbn [concat List.app]. rewrite app_nil_r. split; [eapply tr_read_as; eauto|]. auto.
  - assert (Lf : total_len (segs t') < fuel) by (destruct chunk; [congruence|cbn [length] in Lt; lia]).
    destruct (IH _ _ _ _ R' F Ha Lf) as (r & lo & before & last & later & early & E1 & E2 & E3 & E4 & E5 & E6).
    exists r, lo, (chunk :: before), last, later, early. cbn [concat List.app]. rewrite <- !app_assoc in *.
    split; [exact E1|]. split; [eapply tr_read_as; eauto|]. auto.
Qed.
Lemma head_left t a b early : real_segments t -> head_at (stream_of t) a b -> along t early ->
  exists r lo, read_head_left t = (IoDone r, lo) /\ b = early ++ stream_of lo /\ real_segments lo.
Proof.
  intros R Ha Al. destruct (head_left_rest (S (total_len (segs t))) [] t a b R nothing_yet Ha) as (r & lo & before & last & later & early' & E1 & E2 & E3 & E4 & E5 & E6); [lia|].
  assert (early' = early) as -> by (apply (along_fun t); auto; exists before, last, later, a; auto).
  exists r, lo. auto.
Qed.
Lemma exact_left e l : forall n, 0 < n -> Forall (fun s : str => s <> []) l -> concat (snd (read_exact_left n l e)) = skipn n (concat l).
Proof.
  induction l as [|s l IH]; intros n P F; cbn [read_exact_left concat]; [destruct n; reflexivity|].
  inversion F as [|? ? Ns F']; subst. destruct s as [|c s]; [congruence|]. cbn [is_nil].
  rewrite skipn_app. destruct (Nat.leb_spec n (length (c :: s))) as [L|L].
  - cbn [concat]. f_equal. replace (n - length (c :: s)) with 0 by lia. reflexivity.
  - rewrite (skipn_all2 (c :: s)) by lia. cbn [List.app]. rewrite <- IH; auto; [|lia].
    destruct (read_exact_left _ _ _); reflexivity.
Qed.

Lemma read_as_both n l r : read_as n l r -> forall l' r', read_as n l' r' -> read_as n (l ++ l') (r ++ r').
Proof.
  induction 1 as [|s l r L X IH|s1 s2 l r L N X IH]; intros l' r' Y; cbn [List.app]; auto; [apply ra_fits|apply ra_piece]; auto.
  apply (IH l' r' Y).
Qed.
Section Left.
Context (ft : features) (cl : cookie_lib).
Theorem left_nothing t : real_segments t -> ~ occurs CRLFCRLF (stream_of t) -> snd (read_request_left ft cl t) = [].
Proof.
  intros R Nh. unfold read_request_left, read_head_left.
  assert (X : forall fuel data t, real_segments t -> ~ occurs CRLFCRLF (data ++ stream_of t) -> total_len (segs t) < fuel ->
    segs (snd (head_loop_left fuel data t)) = [] /\ forall hs rl rem later, fst (head_loop_left fuel data t) <> IoDone (HeadOk hs rl rem later)).
  { clear. induction fuel as [|fuel IH]; intros data t R N L; [lia|]. cbn [head_loop_left]. pose proof (tr_read_spec t R) as T.
    destruct (tr_read BUF t) as [[[chunk|] t']| | |] eqn:Et; cbn [fst snd]; try contradiction; [| |split; [apply T|discriminate]].
    2:{ destruct T as [T1 T2]. split; [|discriminate]. unfold tr_read in Et. rewrite T1, T2 in Et. injection Et as <-. exact T1. }
    destruct (Nat.eqb_spec (length chunk) 0) as [Z|NZ].
    { destruct chunk; [|discriminate]. destruct T as (T1 & _ & ->). split; [exact T1|discriminate]. }
    assert (T' : stream_of t = chunk ++ stream_of t' /\ fin t' = fin t /\ real_segments t' /\
      length chunk <= BUF /\ total_len (segs t) = length chunk + total_len (segs t')) by (destruct chunk; [cbn [length] in NZ; lia|exact T]).
    destruct T' as (E & _ & R' & _ & Lt). rewrite E, app_assoc in N. cbn zeta.
    pose proof (find_in_slice_spec (data ++ chunk) CRLFCRLF) as F. destruct (find_in_slice (data ++ chunk) CRLFCRLF) as [i|].
    - exfalso. apply N. apply occurs_grow. exists i. apply F.
    - apply IH; auto. lia. }
  destruct (X (S (total_len (segs t))) [] t R Nh) as [E1 E2]; [lia|].
  destruct (head_loop_left _ [] t) as [[[hs rl rem later|]| | |] lo]; cbn [fst snd] in *; try (rewrite E1; reflexivity).
  destruct (E2 _ _ _ _ eq_refl).
Qed.
Theorem left_refused t a b early : real_segments t -> head_at (stream_of t) a b -> along t early ->
  (head_bad a \/ exists rlt hst, utf8_valid a = true /\ head_parts a rlt hst /\
     ((forall hs, ~ header_block (faithful ft) hst hs) \/ (forall rl, ~ line_means (faithful ft) rlt rl))) ->
  b = early ++ snd (read_request_left ft cl t).
Proof.
  intros R Ha Al Bad. destruct (head_left t a b early R Ha Al) as (r & lo & E & Eb & Rl). unfold read_request_left. rewrite E.
  assert (Er : read_head t = IoDone r) by (unfold read_head; rewrite <- head_left_same; unfold read_head_left in E; rewrite E; reflexivity).
  destruct Bad as [Bad|(rlt & hst & V & Hp & Bad)].
  - rewrite (read_head_bad t a b R Ha Bad) in Er. injection Er as <-. exact Eb.
  - destruct (read_head_ok t a b rlt hst R Ha V Hp) as (rem & later & E' & Er' & _). rewrite E' in Er. injection Er as <-.
    destruct (headers_parse ft hst) as [h|] eqn:Eh; [|exact Eb].
    destruct Bad as [Bad|Bad].
    { exfalso. destruct (parse_block ft hst h Eh) as (hs & Hb & _). exact (Bad hs Hb). }
    destruct (request_line_parse ft rlt) as [[rl|]|] eqn:El; cbn [obind unwrap]; try exact Eb.
    exfalso. apply (Bad rl). apply request_line_iff. exact El.
Qed.
Theorem left_request t a b early rlt hst rl hs : real_segments t -> head_at (stream_of t) a b -> along t early ->
  utf8_valid a = true -> head_parts a rlt hst -> line_means (faithful ft) rlt rl -> header_block (faithful ft) hst hs ->
  (announced hs <= ISIZE_MAX)%N ->
  snd (read_request_left ft cl t) = skipn (Nat.max (N.to_nat (announced hs)) (length early)) b.
Proof.
  intros R Ha Al V Hp Hl Hb Li. destruct (head_left t a b early R Ha Al) as (r & lo & E & Eb & Rl). unfold read_request_left. rewrite E.
  assert (Er : read_head t = IoDone r) by (unfold read_head; rewrite <- head_left_same; unfold read_head_left in E; rewrite E; reflexivity).
  destruct (read_head_ok t a b rlt hst R Ha V Hp) as (rem & later & E' & Er' & _). rewrite E' in Er. injection Er as <-.
  assert (rem = early) as -> by (apply (along_fun t); auto; eapply read_head_along; eauto).
  pose proof (head_left_later _ _ _ _ _ _ _ _ E) as ->.
  destruct (block_parse ft hst hs Hb) as (h & Eh & G & _). apply request_line_iff in Hl. rewrite Eh, Hl. cbn [obind unwrap].
  rewrite (surjective_pairing (from_raw_left _ _ _ _ _ _)). cbn [snd]. unfold from_raw_left. cbn zeta. rewrite (content_length_spec h hs G). set (n := announced hs) in *. rewrite Eb. unfold stream_of.
  assert (Sk : forall k, length early <= k -> skipn k (early ++ concat (segs later)) = skipn (k - length early) (concat (segs later))).
  { intros k L. rewrite skipn_app, (skipn_all2 early) by lia. reflexivity. }
  rewrite Sk by lia.
  destruct (N.ltb_spec 0 n) as [P|P]; [|replace (Nat.max _ _ - _) with 0 by lia; reflexivity].
  destruct (N.ltb_spec (N.of_nat (length early)) n) as [Q|Q]; [|replace (Nat.max _ _ - _) with 0 by lia; reflexivity].
  destruct (N.ltb_spec ISIZE_MAX (n - N.of_nat (length early))) as [Z|Z]; [lia|].
  rewrite (surjective_pairing (read_exact_left _ _ _)). cbn [snd]. rewrite exact_left; [f_equal; lia|lia|exact Rl].
Qed.
Theorem left_carried t a b early rl hs cs : real_segments t -> head_at (stream_of t) a b -> along t early ->
  head_means ft cl a rl hs cs -> (announced hs <= ISIZE_MAX)%N ->
  snd (read_request_left ft cl t) = skipn (Nat.max (N.to_nat (announced hs)) (length early)) b.
Proof. intros R Ha Al (V & rlt & hst & Hp & Hl & Hb & _) Li. eapply left_request; eauto. Qed.
Theorem left_exact t a b rl hs cs : real_segments t -> head_at (stream_of t) a b -> head_means ft cl a rl hs cs ->
  N.of_nat (length b) = announced hs -> (announced hs <= ISIZE_MAX)%N -> snd (read_request_left ft cl t) = [].
Proof.
  intros R Ha Hm Ln Li. destruct (arrival t a b R Ha) as (early & rest & Al & _).
  rewrite (left_carried t a b early rl hs cs R Ha Al Hm Li). apply skipn_all2. lia.
Qed.
(** What is sent after a request, in a segment of its own, is left unread. *)
Theorem left_behind t x a b rl hs cs : real_segments t -> x <> [] -> head_at (stream_of t) a b -> head_means ft cl a rl hs cs ->
  N.of_nat (length b) = announced hs -> (announced hs <= ISIZE_MAX)%N ->
  (exists rq, read_request_left ft cl (Transport (segs t ++ [x]) (fin t)) = (IoDone (RdRequest rq), x) /\ rq_line rq = rl /\ rq_body rq = b).
Proof.
  intros R Nx Ha Hm Ln Li. set (t' := Transport (segs t ++ [x]) (fin t)).
  assert (R' : real_segments t') by (apply Forall_app; split; [exact R|constructor; auto]).
  assert (Es : stream_of t' = stream_of t ++ x) by (unfold t', stream_of; cbn [segs]; rewrite concat_app; cbn [concat]; rewrite app_nil_r; reflexivity).
  assert (Ha' : head_at (stream_of t') a (b ++ x)).
  { rewrite Es. destruct Ha as [E F]. split; [rewrite E at 1; rewrite <- !app_assoc; reflexivity|apply first_at_app; exact F]. }
  destruct (arrival t a b R Ha) as (early & rest & Al & Eb & Le & _).
  assert (Al' : along t' early).
  { destruct Al as (p & l & q & a0 & Hr & N0 & H0). destruct (read_as_total 512 [x]) as (qx & Hx); [lia|].
    exists p, l, (q ++ qx), a0. split; [|split; auto]. cbn [segs t']. change (p ++ l :: q ++ qx) with (p ++ (l :: q) ++ qx). rewrite app_assoc.
    apply read_as_both; auto. }
  destruct (arrival_body ft cl t' a (b ++ x) rl hs cs early R' Ha' Hm) as (h & E & G & _); auto.
  { rewrite app_length. lia. }
  eexists. split; [|split].
  - pose proof (left_same ft cl t') as X. pose proof (left_carried t' a (b ++ x) early rl hs cs R' Ha' Al' Hm Li) as Y.
    destruct (read_request_left ft cl t') as [u v]. cbn [fst snd] in X, Y. rewrite X, E, Y. f_equal.
    assert (length early <= length b) by (rewrite Eb, app_length; lia).
    replace (Nat.max _ _) with (length b) by lia. rewrite skipn_app, skipn_all, Nat.sub_diag. reflexivity.
  - reflexivity.
  - cbn [rq_body]. unfold body_taken. destruct (N.eqb_spec (announced hs) 0) as [Z|Z].
    { destruct b; auto. cbn [length] in Ln. lia. }
    destruct (N.leb_spec (announced hs) (N.of_nat (length early))) as [L|L].
    + rewrite Eb in Ln |- *. rewrite app_length in Ln. assert (rest = []) as -> by (destruct rest; auto; cbn [length] in Ln; lia).
      symmetry. apply app_nil_r.
    + replace (N.to_nat (announced hs)) with (length b) by lia. rewrite firstn_app, firstn_all, Nat.sub_diag. apply app_nil_r.
Qed.
End Left.
