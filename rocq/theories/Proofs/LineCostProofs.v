(** Proofs for C152. *)
From Coq Require Import Lia.
From Verif.Model Require Import RustStd Path Request LineCost.
From Verif.Proofs Require Import Basics.

(** ** The counting functions compute the same *)
Lemma parse_loop_fst toks : forall chunks, fst (parse_loop_counted chunks toks) = parse_loop chunks toks.
Proof.
  induction toks as [|c toks IH]; intro chunks; [reflexivity|]. cbn [parse_loop_counted parse_loop].
  destruct (is_nil c || seqb c DOT); [apply IH|]. destruct (seqb c DOTDOT); [|apply IH].
  destruct (is_nil chunks); [reflexivity|apply IH].
Qed.
Lemma path_counted_fst p : fst (path_parse_counted p) = path_parse p.
Proof. apply parse_loop_fst. Qed.
Lemma token_fst toks k : fst (token_counted toks k) = nth_error toks k.
Proof. unfold token_counted. destruct (nth_error toks k); reflexivity. Qed.
Theorem line_counted_fst ft line : fst (request_line_counted ft line) = request_line_parse ft line.
Proof.
  unfold request_line_counted, request_line_parse. cbn zeta. rewrite !token_fst.
  destruct (nth_error (split_char SP line) 0) as [m|]; [|reflexivity].
  destruct (nth_error (split_char SP line) 1) as [p|]; [|reflexivity]. rewrite path_counted_fst.
  destruct (path_parse p) as [path|]; [|reflexivity].
  destruct (nth_error (split_char SP line) 2) as [v|]; [|reflexivity].
  destruct (split_at v 5) as [[first ver]|]; [|reflexivity]. cbn [obind].
  destruct (faithful ft && _); reflexivity.
Qed.
Theorem same_functions : forall ft line p,
  fst (request_line_counted ft line) = request_line_parse ft line /\ fst (path_parse_counted p) = path_parse p.
Proof. intros. split; [apply line_counted_fst|apply path_counted_fst]. Qed.

(** ** Bounds *)
Lemma bytes_compared_le a b : bytes_compared a b <= length b.
Proof. revert b. induction a as [|x a IH]; intros [|y b]; cbn [bytes_compared length]; try lia. destruct (beqb x y); [|lia]. specialize (IH b). lia. Qed.
Lemma comparing_le a b : comparing a b <= S (length b).
Proof. unfold comparing. pose proof (bytes_compared_le a b). destruct (Nat.eqb (length a) (length b)); lia. Qed.
Lemma matching_le s l : matching s l <= list_sum (map (fun x => S (length x)) l).
Proof.
  induction l as [|x l IH]; [cbn; lia|]. cbn [matching map list_sum fold_right]. pose proof (comparing_le s x).
  change (fold_right plus 0 (map (fun x => S (length x)) l)) with (list_sum (map (fun x => S (length x)) l)).
  destruct (seqb s x); lia.
Qed.
Lemma split_sum c s : list_sum (map (fun x => S (length x)) (split_char c s)) = S (length s).
Proof.
  induction s as [|x s IH]; [reflexivity|]. cbn [split_char]. destruct (beqb x c).
  - cbn [map list_sum fold_right length]. unfold list_sum in IH. rewrite IH. lia.
  - destruct (split_char c s) as [|p ps]; [cbn in IH; lia|]. cbn [map list_sum fold_right length] in *. lia.
Qed.
Lemma comparing_short a b : length a <> length b -> comparing a b = 1.
Proof. intro D. unfold comparing. apply Nat.eqb_neq in D. rewrite D. reflexivity. Qed.
Lemma chunk_work c : c <> [] -> S (length c) + 1 + comparing c DOT + comparing c DOTDOT + length c + 1 <= 4 * S (length c).
Proof.
  intro N0. destruct c as [|x [|y [|z c]]]; [congruence| | |].
  - pose proof (comparing_le [x] DOT). rewrite (comparing_short [x] DOTDOT) by discriminate. cbn [length DOT] in *. lia.
  - pose proof (comparing_le [x; y] DOTDOT). rewrite (comparing_short [x; y] DOT) by discriminate. cbn [length DOTDOT] in *. lia.
  - rewrite (comparing_short _ DOT), (comparing_short _ DOTDOT) by discriminate. cbn [length]. lia.
Qed.
Lemma parse_loop_work toks : forall chunks,
  snd (parse_loop_counted chunks toks) <= 4 * list_sum (map (fun x => S (length x)) toks).
Proof.
  induction toks as [|c toks IH]; intro chunks; [cbn; lia|]. cbn [parse_loop_counted map].
  change (list_sum (S (length c) :: map (fun x => S (length x)) toks)) with
    (S (length c) + list_sum (map (fun x => S (length x)) toks)).
  destruct c as [|x c]; [cbn [is_nil orb snd length]; specialize (IH chunks); lia|].
  pose proof (chunk_work (x :: c) ltac:(discriminate)) as W. cbn [is_nil orb]. unfold str in *.
  set (k := x :: c) in *. clearbody k.
  destruct (seqb k DOT); [cbn [snd]; specialize (IH chunks); lia|].
  destruct (seqb k DOTDOT).
  - destruct (is_nil chunks); cbn [snd]; [lia|]. specialize (IH (removelast chunks)). lia.
  - cbn [snd]. specialize (IH (chunks ++ [k])). lia.
Qed.
Theorem path_work : forall p, snd (path_parse_counted p) <= 4 * length p + 4.
Proof. intro p. unfold path_parse_counted. pose proof (parse_loop_work (split_char SLASH p) []) as W. rewrite split_sum in W.
  eapply Nat.le_trans; [exact W|]. lia.
Qed.
Lemma first_tokens toks : let c k := snd (token_counted toks k) in
  c 0 + c 1 + c 2 + c 3 <= list_sum (map (fun x => S (length x)) toks) + 4 /\
  forall k t, nth_error toks k = Some t -> S (length t) <= list_sum (map (fun x => S (length x)) toks).
Proof.
  split.
  - cbn zeta. unfold token_counted, list_sum.
    destruct toks as [|a [|b [|c [|d toks]]]]; cbn [nth_error snd map fold_right]; lia.
  - induction toks as [|a toks IH]; intros [|k] t E; cbn [nth_error] in E; try discriminate; cbn [map list_sum fold_right].
    + injection E as ->. lia.
    + specialize (IH k t E). unfold list_sum in IH. lia.
Qed.
Theorem line_work : forall ft line, snd (request_line_counted ft line) <= 5 * length line + 85.
Proof.
  intros ft line. unfold request_line_counted. cbn zeta. destruct (first_tokens (split_char SP line)) as [S1 S2].
  rewrite split_sum in S1, S2. cbn zeta in S1. set (toks := split_char SP line) in *. rewrite !token_fst.
  destruct (nth_error toks 0) as [m|]; cbn [snd]; [|lia].
  destruct (nth_error toks 1) as [p|] eqn:E1; cbn [snd]; [|lia]. pose proof (path_work p) as P. specialize (S2 1 p E1).
  destruct (fst (path_parse_counted p)) as [path|]; cbn [snd]; [|lia].
  destruct (nth_error toks 2) as [v|]; cbn [snd]; [|lia].
  destruct (split_at v 5) as [[first ver]|]; cbn [snd]; [|lia].
  pose proof (matching_le ver version_literals) as V. pose proof (matching_le m method_literals) as M.
  change (list_sum (map (fun x => S (length x)) version_literals)) with 16 in V.
  change (list_sum (map (fun x => S (length x)) method_literals)) with 53 in M.
  pose proof (comparing_le first (B "HTTP/")) as H. change (length (B "HTTP/")) with 5 in H.
  match goal with |- context [if faithful ft then comparing first (B "HTTP/") + ?x else 0] =>
    assert (C : (if faithful ft then comparing first (B "HTTP/") + x else 0) <= 6 + snd (token_counted toks 3))
      by (destruct (faithful ft); [destruct (negb (seqb first (B "HTTP/"))); lia|lia]);
    revert C; generalize (if faithful ft then comparing first (B "HTTP/") + x else 0) as chk; intros chk C end.
  destruct (faithful ft && _); cbn [snd]; lia.
Qed.
