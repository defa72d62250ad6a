(** Proofs for Props/StdPathProps.v. *)
From Verif.Model Require Import RustStd Path StdPath.
From Verif.Spec Require Import PathSpec FsSpec.
From Verif.Proofs Require Import Basics PathProofs.

Lemma located_split cwd s d : located cwd s d <-> d = fold_left step_to (split_char SLASH s) (if absolute s then [] else cwd).
Proof.
  split.
  - intros (segs & S & ->). rewrite (segments_of_unique _ _ S). reflexivity.
  - intros ->. exists (split_char SLASH s). split; [apply segments_of_split|reflexivity].
Qed.
Lemma step_empty d : step_to d [] = d.
Proof. reflexivity. Qed.
Lemma step_normal d x : normal x -> step_to d x = d ++ [x].
Proof.
  intros (N1 & N2 & N3). destruct x as [|a [|b [|c r]]]; try contradiction; unfold step_to.
  - destruct a; try reflexivity. destruct N2. reflexivity.
  - destruct a; try reflexivity. destruct b; try reflexivity. destruct N3. reflexivity.
  - destruct a; try reflexivity. destruct b; reflexivity.
Qed.
Lemma steps_normal p : Forall normal p -> forall d, fold_left step_to p d = d ++ p.
Proof.
  induction 1 as [|x p Hx _ IH]; intro d; cbn [fold_left]; [rewrite app_nil_r; reflexivity|].
  rewrite IH, step_normal by auto. rewrite <- app_assoc. reflexivity.
Qed.
Definition safe (c : str) : Prop := normal c /\ no_slash c.
Lemma safe_normal p : Forall safe p -> Forall normal p.
Proof. apply Forall_impl. intros c [H _]. exact H. Qed.
Lemma safe_split p : Forall safe p -> p <> [] -> split_char SLASH (join [SLASH] p) = p.
Proof. intros H N. apply split_char_join; auto. intros c Hc. rewrite Forall_forall in H. apply (H c Hc). Qed.
Lemma to_std_display p : to_std_pathbuf p = path_display p.
Proof.
  unfold to_std_pathbuf, path_display. assert (G : forall s, fold_left (fun s c => s ++ c ++ [x2f]) p s = s ++ flat_map (fun c => c ++ [SLASH]) p).
  { induction p as [|c p IH]; intro s; cbn [fold_left flat_map]; [rewrite app_nil_r; reflexivity|]. rewrite IH, <- app_assoc. reflexivity. }
  apply G.
Qed.
Lemma not_absolute c r : safe c -> absolute (c ++ r) = false.
Proof. intros [(N & _) S]. destruct c as [|b c]; [contradiction|]. destruct b; try reflexivity. destruct S. left. reflexivity. Qed.
Lemma push_relative buf s : absolute s = false ->
  std_push buf s = match rev buf with [] => s | c :: _ => if beqb c x2f then buf ++ s else buf ++ [x2f] ++ s end.
Proof. destruct s as [|b s]; [reflexivity|]. destruct b; try reflexivity. discriminate. Qed.
Lemma last_split (buf : str) : buf = [] \/ exists b c, buf = b ++ [c] /\ rev buf = c :: rev b.
Proof.
  destruct buf as [|x buf]; [auto|right]. destruct (exists_last (l := x :: buf)) as (b & c & E); [discriminate|].
  exists b, c. rewrite E, rev_app_distr. auto.
Qed.
Lemma safe_end c : safe c -> exists b x, c = b ++ [x] /\ x <> x2f.
Proof.
  intros [(N & _) S]. destruct (exists_last N) as (b & x & ->). exists b, x. split; auto. intros ->. apply S. apply in_or_app. right. left. reflexivity.
Qed.
Lemma push_safe buf c : safe c -> (buf = [] -> std_push buf c = c) /\ (forall d x, buf = d ++ [x] -> x <> x2f -> std_push buf c = buf ++ [x2f] ++ c).
Proof.
  intro S. assert (A : absolute c = false) by (rewrite <- (app_nil_r c); apply not_absolute; auto). rewrite (push_relative buf c A). split.
  - intros ->. reflexivity.
  - intros d x -> X. rewrite rev_app_distr. cbn [rev app]. destruct (beqb x x2f) eqn:E; [apply beqb_eq in E; contradiction|reflexivity].
Qed.
Lemma join_snoc p c : p <> [] -> join [SLASH] (p ++ [c]) = join [SLASH] p ++ [SLASH] ++ c.
Proof.
  induction p as [|a p IH]; [contradiction|]. intros _. destruct p as [|b p]; [reflexivity|].
  change ((a :: b :: p) ++ [c]) with (a :: (b :: p) ++ [c]). change (join [SLASH] (a :: (b :: p) ++ [c])) with (a ++ [SLASH] ++ join [SLASH] ((b :: p) ++ [c])).
  rewrite IH by discriminate. change (join [SLASH] (a :: b :: p)) with (a ++ [SLASH] ++ join [SLASH] (b :: p)). rewrite <- !app_assoc. reflexivity.
Qed.
Lemma std_from_join p : Forall safe p -> std_from p = join [SLASH] p /\ (p <> [] -> exists d x, std_from p = d ++ [x] /\ x <> x2f).
Proof.
  induction p as [|c p IH] using rev_ind; [intros _; split; [reflexivity|contradiction]|]. intro H. apply Forall_app in H as [H Hc].
  apply Forall_cons_iff in Hc as [Hc _]. destruct (IH H) as [E L]. unfold std_from. rewrite fold_left_app. cbn [fold_left]. fold (std_from p).
  destruct (safe_end c Hc) as (b & x & Ec & X). destruct p as [|a p].
  - rewrite (proj1 (push_safe (std_from []) c Hc) eq_refl). split; [reflexivity|]. exists b, x. auto.
  - destruct L as (d & y & Ed & Y); [discriminate|]. rewrite (proj2 (push_safe _ c Hc) d y Ed Y). split.
    + rewrite join_snoc, E by discriminate. reflexivity.
    + intros _. exists (std_from (a :: p) ++ [x2f] ++ b), x. split; auto. rewrite Ec, <- !app_assoc. reflexivity.
Qed.
(** The segments of a pushed path *)
Lemma push_located cwd base s p : absolute s = false -> (forall d, fold_left step_to (split_char SLASH s) d = d ++ p) ->
  forall d', located cwd (std_push base s) d' <-> exists d, located cwd base d /\ d' = d ++ p.
Proof.
  intros A F d'. rewrite located_split. rewrite (push_relative base s A). destruct (last_split base) as [-> |(b & c & E & Er)].
  - cbn [rev]. rewrite A, F. split.
    + intros ->. exists cwd. split; auto. apply located_split. reflexivity.
    + intros (d & Hd & ->). apply located_split in Hd. rewrite Hd. reflexivity.
  - assert (Ab : forall r, absolute (base ++ r) = absolute base) by (intro r; rewrite E; destruct b; reflexivity).
    assert (G : fold_left step_to (split_char SLASH (if beqb c x2f then base ++ s else base ++ [x2f] ++ s)) (if absolute base then [] else cwd) =
                fold_left step_to (split_char SLASH base) (if absolute base then [] else cwd) ++ p).
    { destruct (beqb c x2f) eqn:Ec.
      - apply beqb_eq in Ec. subst c. rewrite E, <- app_assoc. cbn [app]. rewrite !(split_char_app_sep SLASH b), !fold_left_app, F. reflexivity.
      - change (base ++ [x2f] ++ s) with (base ++ SLASH :: s). rewrite (split_char_app_sep SLASH base s), fold_left_app, F. reflexivity. }
    rewrite Er. replace (absolute (if beqb c x2f then base ++ s else base ++ [x2f] ++ s)) with (absolute base) by (destruct (beqb c x2f); rewrite Ab; reflexivity).
    rewrite G. split.
    + intros ->. eexists. split; [apply located_split; reflexivity|reflexivity].
    + intros (d & Hd & ->). apply located_split in Hd. rewrite Hd. reflexivity.
Qed.
Lemma to_std_steps p : Forall safe p -> absolute (to_std_pathbuf p) = false /\ forall d, fold_left step_to (split_char SLASH (to_std_pathbuf p)) d = d ++ p.
Proof.
  intro H. rewrite to_std_display. split.
  - destruct H as [|c p Hc _]; [reflexivity|]. unfold path_display. cbn [flat_map]. rewrite <- app_assoc. apply not_absolute. auto.
  - intro d. rewrite split_display by (eapply Forall_impl; [|exact H]; intros c [_ X]; exact X).
    rewrite fold_left_app. cbn [fold_left]. rewrite step_empty. apply steps_normal. apply safe_normal. auto.
Qed.
Lemma std_from_steps p : Forall safe p -> absolute (std_from p) = false /\ forall d, fold_left step_to (split_char SLASH (std_from p)) d = d ++ p.
Proof.
  intro H. rewrite (proj1 (std_from_join p H)). destruct p as [|c p].
  - split; [reflexivity|]. intro d. cbn. rewrite app_nil_r. reflexivity.
  - split.
    + apply Forall_cons_iff in H as [Hc _]. destruct p as [|e p]; cbn [join]; [rewrite <- (app_nil_r c)|]; apply not_absolute; auto.
    + intro d. rewrite safe_split by (auto; discriminate). apply steps_normal. apply safe_normal. auto.
Qed.
Theorem below_base s p cwd base d' : path_parse s = Some p ->
  (located cwd (std_push base (to_std_pathbuf p)) d' <-> exists d, located cwd base d /\ d' = d ++ p) /\
  (located cwd (std_push base (std_from p)) d' <-> exists d, located cwd base d /\ d' = d ++ p).
Proof.
  intro H. apply parse_safe in H. destruct (to_std_steps p H) as [A1 F1], (std_from_steps p H) as [A2 F2].
  split; apply push_located; auto.
Qed.
Lemma located_steps cwd s p : absolute s = false -> (forall d, fold_left step_to (split_char SLASH s) d = d ++ p) -> forall d, located cwd s d <-> d = cwd ++ p.
Proof. intros A F d. rewrite located_split, A, F. reflexivity. Qed.
Theorem finds_from s p tree cwd k : path_parse s = Some p -> p <> [] ->
  (finds tree cwd (std_from p) k <-> tree (cwd ++ p) = Some k).
Proof.
  intros H N. apply parse_safe in H. destruct (std_from_steps p H) as [A F]. destruct (std_from_join p H) as [E L]. split.
  - intros (_ & d & Hd & T & _). apply (located_steps cwd _ p A F) in Hd. subst d. exact T.
  - intro T. split; [destruct (L N) as (d & x & -> & _); destruct d; discriminate|]. exists (cwd ++ p). split; [apply (located_steps cwd _ p A F); auto|].
    split; auto. intros _. destruct (exists_last N) as (l & x & ->). exists l, x. split.
    + rewrite E. rewrite <- (safe_split (l ++ [x]) H N) at 1. apply segments_of_split.
    + apply Forall_app in H as [_ H]. apply Forall_cons_iff in H as [[H _] _]. exact H.
Qed.
Theorem finds_to_std s p tree cwd k : path_parse s = Some p -> p <> [] ->
  (finds tree cwd (to_std_pathbuf p) k <-> k = KDir /\ tree (cwd ++ p) = Some KDir).
Proof.
  intros H N. apply parse_safe in H. destruct (to_std_steps p H) as [A F]. split.
  - intros (_ & d & Hd & T & M). apply (located_steps cwd _ p A F) in Hd. subst d. destruct k; [|auto]. exfalso.
    destruct (M eq_refl) as (l & x & S & (X & _)). apply segments_of_unique in S. rewrite to_std_display, split_display in S.
    + apply app_inj_tail in S. destruct S as [_ S]. auto.
    + eapply Forall_impl; [|exact H]; intros c [_ Y]; exact Y.
  - intros [-> T]. split; [|exists (cwd ++ p); split; [apply (located_steps cwd _ p A F); auto|split; auto; discriminate]].
    rewrite to_std_display. destruct p as [|c p]; [contradiction|]. unfold path_display. cbn [flat_map]. destruct c; discriminate.
Qed.
Theorem file_not_found s p tree cwd : path_parse s = Some p -> p <> [] -> tree (cwd ++ p) = Some KFile ->
  ~ finds tree cwd (to_std_pathbuf p) KFile /\ finds tree cwd (std_from p) KFile.
Proof.
  intros H N T. split; [|apply (finds_from s p tree cwd KFile H N); auto].
  intro X. apply (finds_to_std s p tree cwd KFile H N) in X. destruct X as [X _]. discriminate.
Qed.
