(** Proofs for C151. *)
From Coq Require Import Lia.
From Verif.Model Require Import RustStd Request Cost SplitCost.
From Verif.Spec Require Import Common TextSpec RequestSpec.
From Verif.Proofs Require Import Basics TextProofs CostProofs.

Lemma next_counted_fst t : fst (spliterator_next_counted t) = spliterator_next t.
Proof.
  unfold spliterator_next_counted, spliterator_next. destruct (sp_finished t); [reflexivity|]. cbn [fst].
  rewrite find_counted_fst. reflexivity.
Qed.
Lemma collect_counted_fst fuel : forall t, fst (spliterator_collect_counted fuel t) = spliterator_collect fuel t.
Proof.
  induction fuel as [|fuel IH]; intro t; [reflexivity|]. cbn [spliterator_collect_counted spliterator_collect].
  rewrite next_counted_fst. destruct (spliterator_next t) as [[p|] t']; [|reflexivity]. cbn [fst]. rewrite IH. reflexivity.
Qed.
Lemma found_counted h n c : forall i j, fst (find_from_counted h n i c) = Some j ->
  i <= j < i + c /\ snd (find_from_counted h n i c) <= length n * S (j - i).
Proof.
  induction c as [|c IH]; intros i j; cbn [find_from_counted]; [discriminate|].
  pose proof (slice_counted_snd h n i) as X. destruct (slice_counted h n i) as [[] k]; cbn [fst snd] in *.
  - intro E. injection E as <-. split; [lia|]. rewrite Nat.sub_diag. lia.
  - specialize (IH (S i) j). destruct (find_from_counted h n (S i) c) as [r c']. cbn [fst snd] in *. intro E.
    destruct (IH E) as [L W]. split; [lia|]. replace (j - i) with (S (j - S i)) by lia. lia.
Qed.
Lemma found_work h n j : n <> [] -> fst (find_in_slice_counted h n) = Some j ->
  j + length n <= length h /\ snd (find_in_slice_counted h n) <= length n * S j.
Proof.
  intro N. unfold find_in_slice_counted. destruct (Nat.ltb_spec (length h) (length n)) as [L|L]; [discriminate|].
  intro E. apply found_counted in E as [B W]. rewrite Nat.sub_0_r in W. split; [lia|exact W].
Qed.
Lemma collect_work fuel : forall t, sp_seq t <> [] ->
  snd (spliterator_collect_counted fuel t) <= (if sp_finished t then 0 else length (sp_seq t) * length (sp_string t)).
Proof.
  induction fuel as [|fuel IH]; intros t N; [cbn [spliterator_collect_counted snd]; lia|]. cbn [spliterator_collect_counted].
  unfold spliterator_next_counted. destruct t as [s [] q]; cbn [sp_finished sp_string sp_seq fst snd] in *; [lia|].
  destruct (fst (find_in_slice_counted s q)) as [j|] eqn:E.
  - cbn [fst snd]. destruct (found_work s q j N E) as [L W].
    specialize (IH (Spliterator (skipn (length q) (skipn j s)) false q) N).
    cbn [sp_finished sp_string sp_seq] in IH. rewrite !skipn_length in IH.
    assert (1 <= length q) by (destruct q; [congruence|cbn [length]; lia]).
    assert (X : length q * (S j + (length s - j - length q)) <= length q * length s) by (apply Nat.mul_le_mono_l; lia).
    rewrite Nat.mul_add_distr_l in X. lia.
  - cbn [fst snd]. pose proof (find_counted_snd s q N) as W.
    specialize (IH (Spliterator s true q) N). cbn [sp_finished] in IH. lia.
Qed.
Theorem split_work s q fuel : q <> [] -> snd (spliterator_collect_counted fuel (spliterator_new s q)) <= length q * length s.
Proof. intro N. exact (collect_work fuel (spliterator_new s q) N). Qed.
Theorem split_same fuel t :
  fst (spliterator_collect_counted fuel t) = spliterator_collect fuel t /\ fst (spliterator_next_counted t) = spliterator_next t.
Proof. split; [apply collect_counted_fst|apply next_counted_fst]. Qed.
