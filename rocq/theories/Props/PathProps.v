(** C01-C10: paths, patterns and the route table. *)
From Coq Require Import Permutation.
From Verif.Model Require Import RustStd Path.
From Verif.Spec Require Import Common PathSpec RouteSpec.
From Verif.Proofs Require Import PathProofs TrieProofs PathExtra.

(** C01 *)
Theorem C01_safe_segments : forall s r,
  path_parse s = Some r -> Forall (fun c => normal c /\ no_slash c) r.
Proof. exact parse_safe. Qed.
Print Assumptions C01_safe_segments.
Example C01_example : path_parse (B "/a/./b//../c/") = Some [B "a"; B "c"].
Proof. reflexivity. Qed.

(** C02 *)
Theorem C02_resolution : forall s segs, segments_of segs s ->
  (forall r, path_parse s = Some r <-> resolves segs r) /\
  (path_parse s = None <-> forall r, ~ resolves segs r).
Proof. exact resolution. Qed.
Print Assumptions C02_resolution.
Theorem C02_rejects_climbing : forall s segs, segments_of segs s ->
  (path_parse s = None <-> climbs segs).
Proof. exact parse_none_climbs. Qed.
Print Assumptions C02_rejects_climbing.
Theorem C02_segments_exist : forall s, exists segs, segments_of segs s /\
  forall segs', segments_of segs' s -> segs' = segs.
Proof. exact segments_exist_unique. Qed.
Print Assumptions C02_segments_exist.
Example C02_example :
  segments_of [B "a"; B ".."; B ".."; B "b"] (B "a/../../b") /\ path_parse (B "a/../../b") = None /\
  path_parse (B "a/../b") = Some [B "b"].
Proof. exact C02_case. Qed.

(** C03 *)
Theorem C03_roundtrip : forall s r,
  path_parse s = Some r -> path_parse (path_display r) = Some r.
Proof. exact parse_display_parsed. Qed.
Print Assumptions C03_roundtrip.
Theorem C03_injective : forall s1 s2 r1 r2,
  path_parse s1 = Some r1 -> path_parse s2 = Some r2 ->
  path_display r1 = path_display r2 -> r1 = r2.
Proof. exact display_injective. Qed.
Print Assumptions C03_injective.
Example C03_example : path_display [B "a"; B "b"] = B "a/b/".
Proof. reflexivity. Qed.

(** C04 *)
Theorem C04_slashes : forall a b,
  path_parse (B "/" ++ a) = path_parse a /\
  path_parse (a ++ B "/") = path_parse a /\
  path_parse (a ++ B "//" ++ b) = path_parse (a ++ B "/" ++ b).
Proof. exact slash_insensitive. Qed.
Print Assumptions C04_slashes.
Theorem C04_compositional : forall a b p q,
  path_parse a = Some p -> path_parse b = Some q -> path_parse (a ++ B "/" ++ b) = Some (p ++ q).
Proof. exact parse_concat. Qed.
Print Assumptions C04_compositional.
Example C04_example : path_parse (B "a/x/..") = Some [B "a"] /\ path_parse (B "/b/") = Some [B "b"] /\
  path_parse (B "a/x/..//b/") = Some [B "a"; B "b"].
Proof. repeat split. Qed.

(** C05 *)
Theorem C05_subtract : forall self other rest,
  path_subtract self other = Some rest <-> self = other ++ rest.
Proof. exact subtract_spec. Qed.
Print Assumptions C05_subtract.
Theorem C05_subtract_none : forall self other,
  path_subtract self other = None <-> ~ prefix_of other self.
Proof. exact subtract_none. Qed.
Print Assumptions C05_subtract_none.
Theorem C05_concat : forall p q r : pathbuf,
  path_subtract (path_concat p q) p = Some q /\
  path_concat (path_concat p q) r = path_concat p (path_concat q r) /\
  path_concat p [] = p /\ path_concat [] p = p /\
  path_concat_owned p q = path_concat p q /\
  (forall i, nth_error (path_concat p q) i =
             if Nat.ltb i (length p) then nth_error p i else nth_error q (i - length p)).
Proof. exact concat_laws. Qed.
Print Assumptions C05_concat.
Example C05_example :
  path_subtract [B "a"; B "b"; B "c"] [B "a"] = Some [B "b"; B "c"] /\
  path_subtract [B "a"] [B "a"; B "b"] = None /\ path_subtract [B "a"; B "b"] [B "b"] = None.
Proof. repeat split. Qed.

(** C06: the property is false of the code ... *)
Theorem C06_prefix_test_refuted : exists self other,
  path_parse (B "/a") = Some self /\ path_parse (B "/a/b") = Some other /\
  check_starts_with self other = true /\ ~ prefix_of other self.
Proof. exact starts_with_refuted. Qed.
Print Assumptions C06_prefix_test_refuted.
(** ... what it computes instead. *)
Theorem C06_prefix_test_partial : forall self other,
  check_starts_with self other = true <-> prefix_of self other \/ prefix_of other self.
Proof. exact starts_with_spec. Qed.
Print Assumptions C06_prefix_test_partial.
Example C06_example : check_starts_with [B "a"; B "b"] [B "a"] = true /\ check_starts_with [B "a"] [B "b"] = false.
Proof. repeat split. Qed.

(** C07 *)
Theorem C07_matching : forall s pat path, path_parse s = Some pat ->
  (exists vars, check_matches pat path = Done (Some vars) /\ pattern_matches pat path /\
     forall name val, mget seqb name vars = Some val <-> binds pat path name val)
  \/ (check_matches pat path = Done None /\ ~ pattern_matches pat path).
Proof. exact matching_parsed. Qed.
Print Assumptions C07_matching.
Theorem C07_matching_novars : forall pat path,
  check_matches_novars pat path = Some tt <-> pat = path.
Proof. exact novars_spec. Qed.
Print Assumptions C07_matching_novars.
Example C07_example :
  path_parse (B "/u/:id/:id") = Some [B "u"; B ":id"; B ":id"] /\
  check_matches [B "u"; B ":id"; B ":id"] [B "u"; B "1"; B "2"] = Done (Some [(B "id", B "2")]) /\
  check_matches [B "u"; B ":id"; B ":id"] [B "v"; B "1"; B "2"] = Done None.
Proof. repeat split. Qed.

(** C08 *)
Theorem C08_lookup : forall (T : Type) ft (log : list (pathdata T)) path,
  Forall (fun d => Forall (fun seg => seg <> []) (orig_path d)) log ->
  exists n res, node_from_iter log = Done n /\ node_get ft n path = Done res /\
                lookup_result (url_variables ft) log path res.
Proof. exact (fun T => @lookup_correct T). Qed.
Print Assumptions C08_lookup.
Theorem C08_parsed_hypothesis : forall s r, path_parse s = Some r -> Forall (fun seg => seg <> []) r.
Proof. exact parse_nonempty. Qed.
Print Assumptions C08_parsed_hypothesis.
Example C08_example : exists n,
  node_from_iter [PathData [B "a"; B ":x"] 1; PathData [B "a"; B "b"] 2; PathData [B ":y"; B "b"] 3;
                  PathData [B "a"] 4] = Done n /\
  node_get default_features n [B "a"; B "b"] =
    Done [MatchedPath [] 2; MatchedPath [(B "x", B "b")] 1; MatchedPath [(B "y", B "a")] 3].
Proof. exact C08_case. Qed.

(** C09 *)
Theorem C09_iteration : forall (T : Type) o pos (log : list (pathdata T)) n,
  Forall (fun d => Forall (fun seg => seg <> []) (orig_path d)) log -> node_from_iter log = Done n ->
  (exists l s', next_calls (iter_loop_body o) (node_iter_new o pos n) l s' /\ Permutation l log /\
                next_call (iter_loop_body o) s' None s' /\ node_iter_list o pos n = Done l) /\
  (exists l s', next_calls (owned_loop_body o) (owned_iter_new o pos n) l s' /\ Permutation l log /\
                next_call (owned_loop_body o) s' None s' /\ node_into_list o pos n = Done l).
Proof. exact (fun T => @iteration_correct T). Qed.
Print Assumptions C09_iteration.
Example C09_example : exists n,
  node_from_iter [PathData [B "a"; B ":x"] 1; PathData [] 2; PathData [B "a"; B ":y"] 3] = Done n /\
  node_iter_list insertion_order [] n =
    Done [PathData [B "a"; B ":x"] 1; PathData [B "a"; B ":y"] 3; PathData [] 2] /\
  node_into_list reverse_order [] n =
    Done [PathData [] 2; PathData [B "a"; B ":y"] 3; PathData [B "a"; B ":x"] 1].
Proof. exact C09_case. Qed.

(** C10 *)
Theorem C10_merge : forall (T : Type) o pos (log1 log2 : list (pathdata T)) n1 n2,
  Forall (fun d => Forall (fun seg => seg <> []) (orig_path d)) log1 ->
  Forall (fun d => Forall (fun seg => seg <> []) (orig_path d)) log2 ->
  node_from_iter log1 = Done n1 -> node_from_iter log2 = Done n2 ->
  exists l2 n, node_into_list o pos n2 = Done l2 /\ node_extend n1 l2 = Done n /\
    forall ft path, exists res, node_get ft n path = Done res /\
      lookup_result (url_variables ft) (log1 ++ log2) path res.
Proof. exact (fun T => @merge_correct T). Qed.
Print Assumptions C10_merge.
Theorem C10_rebuild : forall (T : Type) o pos (log : list (pathdata T)) n,
  Forall (fun d => Forall (fun seg => seg <> []) (orig_path d)) log ->
  node_from_iter log = Done n ->
  exists l n', node_into_list o pos n = Done l /\ node_from_iter l = Done n' /\
    forall ft path, exists res, node_get ft n' path = Done res /\
      lookup_result (url_variables ft) log path res.
Proof. exact (fun T => @rebuild_correct T). Qed.
Print Assumptions C10_rebuild.
Example C10_example : exists n1 n2 l2 n,
  node_from_iter [PathData [B "a"] 1] = Done n1 /\
  node_from_iter [PathData [B ":x"] 2; PathData [B "b"] 3] = Done n2 /\
  node_into_list reverse_order [] n2 = Done l2 /\ node_extend n1 l2 = Done n /\
  node_get default_features n [B "a"] = Done [MatchedPath [] 1; MatchedPath [(B "x", B "a")] 2].
Proof. exact C10_case. Qed.
