(** C120, C121: the work of choosing the handlers of a request and of reading its headers. *)
From Verif.Model Require Import RustStd Path Request Router Cost RouteCost.
From Verif.Spec Require Import Common PathSpec RoutingSpec TextSpec RequestSpec WorkSpec.
From Verif.Proofs Require Import PathExtra WorkProofs FoldCost.

(** C120.  A request enters trie nodes, recurses and compares segments only as far as registered patterns agree
    with its path, and looks at three vectors for each handler that applies; *)
Theorem C120_work_is_shared_segments :
  forall (H W : Type) (exec : H -> varmap -> W -> W * outcome flow) o ft (l : list (oreg H)) m path w r,
  (N.of_nat (length (flatten l)) <= USIZE_MAX)%N -> m <> MAll -> build o l = Done r ->
  exists shares sel, Forall2 (adds (url_variables ft) m path) (flatten l) shares /\
    selects (applies (url_variables ft) m path) (flatten l) sel /\
    let k := snd (router_run_counted exec ft r m path w) in
    nodes_entered k <= 2 + list_sum shares /\ recursion_depth k <= 1 + list_max shares /\
    segments_compared k <= list_sum shares /\ vectors_examined k <= 3 * length sel.
Proof. exact (fun H W exec => @dispatch_work H W exec). Qed.
Print Assumptions C120_work_is_shared_segments.
(** so there is a bound that no request exceeds, given by the registrations alone. *)
Theorem C120_bounded_by_registrations :
  forall (H W : Type) (exec : H -> varmap -> W -> W * outcome flow) o ft (l : list (oreg H)) m path w r,
  (N.of_nat (length (flatten l)) <= USIZE_MAX)%N -> m <> MAll -> build o l = Done r ->
  exists sizes, Forall2 pattern_size (flatten l) sizes /\
    let k := snd (router_run_counted exec ft r m path w) in
    nodes_entered k + segments_compared k + vectors_examined k <= 2 + 2 * list_sum sizes + 3 * length (flatten l) /\
    recursion_depth k <= 1 + Nat.min (length path) (list_max sizes).
Proof. exact (fun H W exec => @bounded_work H W exec). Qed.
Print Assumptions C120_bounded_by_registrations.
(** The counting functions compute what the dispatcher of the other theorems computes. *)
Theorem C120_counts_the_dispatcher :
  forall (H W : Type) (exec : H -> varmap -> W -> W * outcome flow) ft (r : router H) m path w,
  fst (router_run_counted exec ft r m path w) = router_run exec ft r m path w.
Proof. exact (fun H W exec => @run_counted_fst H W exec). Qed.
Print Assumptions C120_counts_the_dispatcher.
Example C120_example : exists r,
  build PathExtra.insertion_order
    [ORoute VGet (B "/a/:x/c") 1; ORoute VAll (B "/a/b/:y") 2; ORoute VGet (B "/a/b/d") 3; OAdd 4;
     ORoute VPost (B "/a/b/c") 5; OMount [RRoute VGet (B "/a/../..") 6; RRoute VGet (B "/a/:z/c") 7]] = Done r /\
  (let k path := snd (router_run_counted (fun h _ (w : list nat) => (w ++ [h], Done FNext)) default_features r MGet path []) in
   k [B "a"; B "b"; B "c"] = Work 9 4 9 12 /\ k (repeat (B "z") 50) = Work 2 1 0 3) /\
  Forall2 (adds true MGet [B "a"; B "b"; B "c"])
    (flatten [ORoute VGet (B "/a/:x/c") 1; ORoute VAll (B "/a/b/:y") 2; ORoute VGet (B "/a/b/d") 3; OAdd 4;
              ORoute VPost (B "/a/b/c") 5; OMount [RRoute VGet (B "/a/../..") 6; RRoute VGet (B "/a/:z/c") 7]])
    [3; 3; 2; 0; 0; 0; 3].
Proof. exact work_example. Qed.

(** C121 is false: no linear function of the size of a header block bounds the bytes copied while it is read, even
    for well-formed blocks that are accepted (each repetition of a name copies all its earlier values); *)
Theorem C121_refuted : forall ft a b, exists s hs,
  header_block (faithful ft) s hs /\ headers_parse ft s <> None /\
  a * length s + b < snd (headers_parse_counted ft s).
Proof. exact fold_not_linear. Qed.
Print Assumptions C121_refuted.
(** a quadratic one does, for every block. *)
Theorem C121_quadratic_partial : forall ft s, 2 * snd (headers_parse_counted ft s) <= length s * length s.
Proof. exact fold_quadratic. Qed.
Print Assumptions C121_quadratic_partial.
(** Exactly: each line of an accepted block copies the value that its name has after it. *)
Theorem C121_exact_partial : forall ft s hs, header_block (faithful ft) s hs -> snd (headers_parse_counted ft s) = written [] hs.
Proof. exact fold_exact. Qed.
Print Assumptions C121_exact_partial.
(** As long as no name occurs more than [k] times the work is linear: with distinct names at most one byte more is
    copied than the block has. *)
Theorem C121_few_repeats_partial : forall ft s hs k,
  header_block (faithful ft) s hs -> (forall n, length (filter (named n) hs) <= k) ->
  snd (headers_parse_counted ft s) <= k * S (length s).
Proof. exact fold_few. Qed.
Print Assumptions C121_few_repeats_partial.
Example C121_few_repeats_example :
  let s := join CRLF [B "A: bc"; B "x:"; B "a:d"; B "y: efg"] in
  let hs := [Header (B "A") (B "bc"); Header (B "x") []; Header (B "a") (B "d"); Header (B "y") (B "efg")] in
  header_block (faithful default_features) s hs /\ (forall n, length (filter (named n) hs) <= 2) /\
  snd (headers_parse_counted default_features s) = 10 /\ length s = 22.
Proof. exact few_example. Qed.
(** The counting functions compute what the reader of the other theorems computes. *)
Theorem C121_counts_the_reader : forall ft s, fst (headers_parse_counted ft s) = headers_parse ft s.
Proof. exact parse_counted_fst. Qed.
Print Assumptions C121_counts_the_reader.
Example C121_example :
  snd (headers_parse_counted default_features (join CRLF [B "A: bc"; B "x:"; B "a:d"; B "a: e"])) = 2 + 0 + 5 + 8 /\
  snd (headers_parse_counted default_features (join CRLF (repeat (B "a:") 51))) = 2550.
Proof. split; vm_compute; reflexivity. Qed.
