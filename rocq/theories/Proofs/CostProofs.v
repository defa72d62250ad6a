(** Lemmas behind C104. *)
From Verif.Model Require Import RustStd Request Cost.
From Verif.Spec Require Import Common TextSpec RequestSpec.
From Verif.Proofs Require Import Basics.

Lemma slice_counted_fst h n : forall i, fst (slice_counted h n i) = slice_matches_at h n i.
Proof.
  induction n as [|x n IH]; intro i; auto. cbn [slice_counted slice_matches_at]. destruct (nth_error h i) as [y|]; auto.
  destruct (beqb y x); auto. rewrite <- IH. destruct (slice_counted h n (S i)). reflexivity.
Qed.
Lemma slice_counted_snd h n : forall i, snd (slice_counted h n i) <= length n.
Proof.
  induction n as [|x n IH]; intro i; auto. cbn [slice_counted length]. destruct (nth_error h i) as [y|]; [|cbn; lia].
  destruct (beqb y x); [|cbn; lia]. specialize (IH (S i)). destruct (slice_counted h n (S i)). cbn [snd] in *. lia.
Qed.
Lemma find_from_counted_fst h n c : forall i, fst (find_from_counted h n i c) = find_from h n i c.
Proof.
  induction c as [|c IH]; intro i; auto. cbn [find_from_counted find_from]. rewrite <- slice_counted_fst.
  destruct (slice_counted h n i) as [[] k]; auto. cbn [fst]. rewrite <- IH. destruct (find_from_counted h n (S i) c). reflexivity.
Qed.
Lemma find_from_counted_snd h n c : forall i, snd (find_from_counted h n i c) <= c * length n.
Proof.
  induction c as [|c IH]; intro i; auto. cbn [find_from_counted].
  pose proof (slice_counted_snd h n i) as X. destruct (slice_counted h n i) as [[] k]; cbn [snd] in *; [lia|].
  specialize (IH (S i)). destruct (find_from_counted h n (S i) c). cbn [snd] in *. lia.
Qed.
Lemma find_counted_fst h n : fst (find_in_slice_counted h n) = find_in_slice h n.
Proof. unfold find_in_slice_counted, find_in_slice. destruct (Nat.ltb _ _); auto. apply find_from_counted_fst. Qed.
Lemma find_counted_snd h n : n <> [] -> snd (find_in_slice_counted h n) <= length n * length h.
Proof.
  intro N. unfold find_in_slice_counted. destruct (Nat.ltb_spec (length h) (length n)) as [L|L]; [cbn; lia|].
  pose proof (find_from_counted_snd h n (S (length h - length n)) 0) as X.
  destruct n as [|x n]; [congruence|]. cbn [length] in *.
  assert (S (length h - S (length n)) <= length h) by lia.
  rewrite Nat.mul_comm. etransitivity; [exact X|]. apply Nat.mul_le_mono_r. lia.
Qed.

Theorem head_loop_counted_fst fuel : forall data t, fst (head_loop_counted fuel data t) = head_loop fuel data t.
Proof.
  induction fuel as [|fuel IH]; intros data t; auto. cbn [head_loop_counted head_loop].
  destruct (tr_read BUF t) as [[[chunk|] t']| | |]; auto. cbn [io_bind].
  destruct (Nat.eqb (length chunk) 0); auto. rewrite <- find_counted_fst.
  destruct (find_in_slice_counted (data ++ chunk) CRLFCRLF) as [[i|] c]; cbn [fst].
  - destruct (utf8_valid _); auto.
  - rewrite <- IH. destruct (head_loop_counted fuel (data ++ chunk) t'). reflexivity.
Qed.
Theorem read_head_counted_fst t : fst (read_head_counted t) = read_head t.
Proof. apply head_loop_counted_fst. Qed.

(** ** Upper bound *)
Lemma total_len_cons s l : total_len (s :: l) = length s + total_len l.
Proof. reflexivity. Qed.
Lemma tr_read_len k t chunk t' : tr_read k t = IoDone (Some chunk, t') ->
  length chunk + total_len (segs t') = total_len (segs t).
Proof.
  unfold tr_read. destruct t as [sg e]. cbn [segs fin]. destruct sg as [|s rest].
  - destruct e; intro E; try discriminate. injection E as <- <-. reflexivity.
  - destruct (Nat.leb_spec (length s) k) as [L|L]; intro E; injection E as <- <-; cbn [segs]; rewrite !total_len_cons; auto.
    rewrite skipn_length, firstn_length. lia.
Qed.
Lemma head_loop_counted_snd fuel : forall data t,
  snd (head_loop_counted fuel data t) <= 4 * total_len (segs t) * (length data + total_len (segs t)).
Proof.
  induction fuel as [|fuel IH]; intros data t; [cbn; lia|]. cbn [head_loop_counted].
  destruct (tr_read BUF t) as [[[chunk|] t']| | |] eqn:E; try (cbn [snd]; lia).
  destruct (Nat.eqb_spec (length chunk) 0) as [L|L]; [cbn [snd]; lia|].
  pose proof (tr_read_len _ _ _ _ E) as Hl.
  assert (X : snd (find_in_slice_counted (data ++ chunk) CRLFCRLF) <= 4 * length (data ++ chunk)).
  { apply (find_counted_snd (data ++ chunk) CRLFCRLF). discriminate. }
  destruct (find_in_slice_counted (data ++ chunk) CRLFCRLF) as [[i|] c]; cbn [snd] in *; rewrite app_length in X.
  - nia.
  - specialize (IH (data ++ chunk) t'). destruct (head_loop_counted fuel (data ++ chunk) t') as [r c']. cbn [snd] in *.
    rewrite app_length in IH. nia.
Qed.
Lemma total_len_stream t : total_len (segs t) = length (stream_of t).
Proof. unfold stream_of. induction (segs t) as [|s l IH]; auto. cbn [concat]. rewrite app_length, total_len_cons. lia. Qed.
Theorem quadratic_bound t : snd (read_head_counted t) <= 4 * length (stream_of t) * length (stream_of t).
Proof.
  unfold read_head_counted. pose proof (head_loop_counted_snd (S (total_len (segs t))) [] t) as X.
  rewrite total_len_stream in *. exact X.
Qed.

(** ** In terms of reads *)
Definition reads_of (l : list str) : nat := list_sum (map (fun s => (length s + 511) / 512) l).
Lemma tr_read_reads' k t chunk t' : k <> 0 -> tr_read k t = IoDone (Some chunk, t') -> length chunk <> 0 ->
  S (list_sum (map (fun s => (length s + (k - 1)) / k) (segs t'))) <= list_sum (map (fun s => (length s + (k - 1)) / k) (segs t)).
Proof.
  intro K. unfold tr_read. destruct t as [sg e]. cbn [segs fin]. destruct sg as [|s rest].
  - destruct e; intro E; try discriminate. injection E as <- <-. cbn [length]. lia.
  - unfold list_sum. destruct (Nat.leb_spec (length s) k) as [L|L]; intro E; injection E as <- <-; intro Nz; cbn [segs map fold_right].
    + assert (1 <= (length s + (k - 1)) / k) by (apply Nat.div_le_lower_bound; lia). lia.
    + rewrite skipn_length. replace (length s + (k - 1)) with ((length s - k + (k - 1)) + 1 * k) by lia.
      rewrite Nat.div_add by lia. lia.
Qed.
Lemma tr_read_reads t chunk t' : tr_read BUF t = IoDone (Some chunk, t') -> length chunk <> 0 -> S (reads_of (segs t')) <= reads_of (segs t).
Proof. apply tr_read_reads'. discriminate. Qed.
Lemma head_loop_reads fuel : forall data t,
  snd (head_loop_counted fuel data t) <= 4 * (reads_of (segs t) * (length data + total_len (segs t))).
Proof.
  induction fuel as [|fuel IH]; intros data t; [cbn; lia|]. cbn [head_loop_counted].
  destruct (tr_read BUF t) as [[[chunk|] t']| | |] eqn:E; try (cbn [snd]; lia).
  destruct (Nat.eqb_spec (length chunk) 0) as [L|L]; [cbn [snd]; lia|].
  pose proof (tr_read_len _ _ _ _ E) as Hl. pose proof (tr_read_reads _ _ _ E L) as Hr.
  assert (X : snd (find_in_slice_counted (data ++ chunk) CRLFCRLF) <= 4 * length (data ++ chunk)).
  { apply (find_counted_snd (data ++ chunk) CRLFCRLF). discriminate. }
  assert (M : S (reads_of (segs t')) * (length data + total_len (segs t)) <= reads_of (segs t) * (length data + total_len (segs t))).
  { apply Nat.mul_le_mono_r, Hr. }
  destruct (find_in_slice_counted (data ++ chunk) CRLFCRLF) as [[i|] c]; cbn [snd] in *; rewrite app_length in X.
  - lia.
  - specialize (IH (data ++ chunk) t'). destruct (head_loop_counted fuel (data ++ chunk) t') as [r c']. cbn [snd] in *.
    rewrite app_length in IH. rewrite <- Nat.add_assoc, Hl in IH. lia.
Qed.
Theorem reads_bound t : snd (read_head_counted t) <= 4 * (list_sum (map (fun s => (length s + 511) / 512) (segs t)) * length (stream_of t)).
Proof.
  unfold read_head_counted. pose proof (head_loop_reads (S (total_len (segs t))) [] t) as X.
  rewrite total_len_stream in *. exact X.
Qed.

(** ** Byte by byte *)
Lemma slice_a n i : i < n -> slice_counted (repeat x61 n) CRLFCRLF i = (false, 1).
Proof.
  intro L. cbn [CRLFCRLF CRLF app slice_counted]. unfold CRLFCRLF, CRLF. cbn [app slice_counted].
  rewrite nth_error_repeat by auto. reflexivity.
Qed.
Lemma find_from_a n c : forall i, i + c <= n -> find_from_counted (repeat x61 n) CRLFCRLF i c = (None, c).
Proof.
  induction c as [|c IH]; intros i L; auto. cbn [find_from_counted]. rewrite slice_a by lia. rewrite IH by lia. reflexivity.
Qed.
Lemma find_a n : find_in_slice_counted (repeat x61 n) CRLFCRLF = (None, n - 3).
Proof.
  unfold find_in_slice_counted. rewrite repeat_length. change (length CRLFCRLF) with 4.
  destruct (Nat.ltb_spec n 4) as [L|L]; [f_equal; lia|]. rewrite find_from_a by lia. f_equal. lia.
Qed.
Definition drip (n : nat) : transport := Transport (repeat [x61] n) Stall.
Fixpoint tri (k n : nat) : nat := match n with O => 0 | S n' => (S k - 3) + tri (S k) n' end.
Lemma drip_loop n : forall fuel k, n < fuel ->
  head_loop_counted fuel (repeat x61 k) (drip n) = (IoBlocked, tri k n).
Proof.
  induction n as [|n IH]; intros fuel k L; (destruct fuel as [|fuel]; [lia|]); auto.
  assert (T : tr_read BUF (drip (S n)) = IoDone (Some [x61], drip n)) by reflexivity.
  cbn [head_loop_counted]. rewrite T. cbn [length Nat.eqb].
  replace (repeat x61 k ++ [x61]) with (repeat x61 (S k)) by (change [x61] with (repeat x61 1); rewrite <- repeat_app; f_equal; lia).
  rewrite find_a. rewrite IH by lia. reflexivity.
Qed.
Lemma tri_large n : forall k, n * n <= 2 * tri k n + 6 * n.
Proof.
  assert (G : forall k, n * n + 2 * n * k <= 2 * tri k n + 6 * n).
  { induction n as [|n IH]; intro k; [lia|]. cbn [tri]. specialize (IH (S k)). nia. }
  intro k. specialize (G k). nia.
Qed.
Theorem not_linear a b : exists t, real_segments t /\ a * length (stream_of t) + b < snd (read_head_counted t).
Proof.
  set (n := 2 * a + 2 * b + 8). exists (drip n).
  assert (S1 : segs (drip n) = repeat [x61] n) by reflexivity.
  assert (L : length (stream_of (drip n)) = n).
  { rewrite <- total_len_stream, S1. clear. induction n as [|m IH]; auto. cbn [repeat]. rewrite total_len_cons, IH. reflexivity. }
  split.
  - unfold real_segments. rewrite S1. apply Forall_forall. intros x I. apply repeat_spec in I. subst x. discriminate.
  - rewrite L. unfold read_head_counted. rewrite total_len_stream, L.
    pose proof (drip_loop n (S n) 0) as D. cbn [repeat] in D. rewrite D by lia. cbn [snd].
    pose proof (tri_large n 0) as T. unfold n in *. nia.
Qed.
