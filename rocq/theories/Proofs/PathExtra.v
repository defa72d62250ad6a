(** Remaining lemmas behind Props/PathProps.v. *)
From Verif.Proofs Require Export TrieProofs.
From Verif.Spec Require Import Common PathSpec RouteSpec.

Lemma resolution s segs : segments_of segs s ->
  (forall r, path_parse s = Some r <-> resolves segs r) /\
  (path_parse s = None <-> forall r, ~ resolves segs r).
Proof. intro H. split; [intro r; apply parse_segments; auto|apply parse_reject; auto]. Qed.
Lemma segments_exist_unique s : exists segs, segments_of segs s /\
  forall segs', segments_of segs' s -> segs' = segs.
Proof.
  exists (split_char SLASH s). split; [apply segments_of_split|]. intros; apply segments_of_unique; auto.
Qed.
Lemma C02_case :
  segments_of [B "a"; B ".."; B ".."; B "b"] (B "a/../../b") /\ path_parse (B "a/../../b") = None /\
  path_parse (B "a/../b") = Some [B "b"].
Proof.
  split; [|split; reflexivity]. split; [discriminate|]. split; [|reflexivity].
  repeat constructor; intro H; simpl in H; repeat (destruct H as [H|H]; [discriminate H|]); exact H.
Qed.

Lemma display_injective s1 s2 r1 r2 :
  path_parse s1 = Some r1 -> path_parse s2 = Some r2 ->
  path_display r1 = path_display r2 -> r1 = r2.
Proof.
  intros H1 H2 E. apply parse_display_parsed in H1. apply parse_display_parsed in H2.
  rewrite E in H1. congruence.
Qed.
Lemma slash_insensitive a b :
  path_parse (B "/" ++ a) = path_parse a /\
  path_parse (a ++ B "/") = path_parse a /\
  path_parse (a ++ B "//" ++ b) = path_parse (a ++ B "/" ++ b).
Proof.
  split; [apply parse_leading_slash|]. split; [apply parse_trailing_slash|apply parse_double_slash].
Qed.
Lemma concat_laws (p q r : pathbuf) :
  path_subtract (path_concat p q) p = Some q /\
  path_concat (path_concat p q) r = path_concat p (path_concat q r) /\
  path_concat p [] = p /\ path_concat [] p = p /\
  path_concat_owned p q = path_concat p q /\
  (forall i, nth_error (path_concat p q) i =
             if Nat.ltb i (length p) then nth_error p i else nth_error q (i - length p)).
Proof.
  unfold path_concat, path_concat_owned. split; [apply subtract_spec; auto|].
  split; [symmetry; apply app_assoc|]. split; [apply app_nil_r|]. split; auto. split; auto.
  intro i. destruct (Nat.ltb_spec i (length p)).
  - apply nth_error_app1; auto.
  - apply nth_error_app2; auto.
Qed.
Lemma starts_with_refuted : exists self other,
  path_parse (B "/a") = Some self /\ path_parse (B "/a/b") = Some other /\
  check_starts_with self other = true /\ ~ prefix_of other self.
Proof.
  exists [B "a"], [B "a"; B "b"]. repeat split. intros [rest H]. discriminate.
Qed.
Lemma matching_parsed s pat path : path_parse s = Some pat ->
  (exists vars, check_matches pat path = Done (Some vars) /\ pattern_matches pat path /\
     forall name val, mget seqb name vars = Some val <-> binds pat path name val)
  \/ (check_matches pat path = Done None /\ ~ pattern_matches pat path).
Proof. intro H. apply check_matches_spec. eapply parse_nonempty; eauto. Qed.
Lemma novars_spec pat path : check_matches_novars pat path = Some tt <-> pat = path.
Proof.
  unfold check_matches_novars. rewrite <- path_eqb_eq. destruct (path_eqb pat path); simpl; split; congruence.
Qed.
Lemma rebuild_correct {T} o pos (log : list (pathdata T)) n :
  Forall seg_ok log -> node_from_iter log = Done n ->
  exists l n', node_into_list o pos n = Done l /\ node_from_iter l = Done n' /\
    forall ft path, exists res, node_get ft n' path = Done res /\
      lookup_result (url_variables ft) log path res.
Proof.
  intros H E. apply (merge_correct o pos [] log node_new n); auto. 
Qed.

(** Two concrete iteration orders for the examples. *)
Definition insertion_order : order :=
  Order (fun _ _ l => l) (fun _ _ l => Permutation_refl l).
Definition reverse_order : order :=
  Order (fun _ _ l => rev l) (fun _ _ l => Permutation_sym (Permutation_rev l)).

Lemma C08_case : exists n,
  node_from_iter [PathData [B "a"; B ":x"] 1; PathData [B "a"; B "b"] 2; PathData [B ":y"; B "b"] 3;
                  PathData [B "a"] 4] = Done n /\
  node_get default_features n [B "a"; B "b"] =
    Done [MatchedPath [] 2; MatchedPath [(B "x", B "b")] 1; MatchedPath [(B "y", B "a")] 3].
Proof. eexists. split; reflexivity. Qed.
Lemma C09_case : exists n,
  node_from_iter [PathData [B "a"; B ":x"] 1; PathData [] 2; PathData [B "a"; B ":y"] 3] = Done n /\
  node_iter_list insertion_order [] n =
    Done [PathData [B "a"; B ":x"] 1; PathData [B "a"; B ":y"] 3; PathData [] 2] /\
  node_into_list reverse_order [] n =
    Done [PathData [] 2; PathData [B "a"; B ":y"] 3; PathData [B "a"; B ":x"] 1].
Proof. eexists. split; [|split]; reflexivity. Qed.
Lemma C10_case : exists n1 n2 l2 n,
  node_from_iter [PathData [B "a"] 1] = Done n1 /\
  node_from_iter [PathData [B ":x"] 2; PathData [B "b"] 3] = Done n2 /\
  node_into_list reverse_order [] n2 = Done l2 /\ node_extend n1 l2 = Done n /\
  node_get default_features n [B "a"] = Done [MatchedPath [] 1; MatchedPath [(B "x", B "a")] 2].
Proof. do 4 eexists. do 4 (split; [reflexivity|]). reflexivity. Qed.
