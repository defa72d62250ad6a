(** The work of choosing the handlers of a request: the functions of Model/Path.v and Model/Router.v for
    src/path.rs:70-87, 234-273 and src/router.rs:259-316, counting trie nodes entered (src/path.rs:235), the
    depth of the recursion (src/path.rs:244, 250), pairs of segments compared (src/path.rs:79) and vectors
    looked at for the next handler (src/router.rs:300).  One [HashMap] access or comparison of two strings
    counts as part of its step; sorting (src/router.rs:265, 271) is not counted. *)
From Verif.Model Require Export RustStd Path Request Router.

(** What has been counted: src/path.rs:235, 244-250, 79 and src/router.rs:300 *)
Record work := Work { nodes_entered : nat; recursion_depth : nat; segments_compared : nat; vectors_examined : nat }.
(** nothing done yet (src/router.rs:259) *)
Definition no_work : work := Work 0 0 0 0.
(** one piece of work after another (src/path.rs:242-253): counts add up, the depth is the larger one *)
Definition also (a b : work) : work :=
  Work (nodes_entered a + nodes_entered b) (Nat.max (recursion_depth a) (recursion_depth b))
       (segments_compared a + segments_compared b) (vectors_examined a + vectors_examined b).
(** a call of [dfs] (src/path.rs:234-235) around the work of the calls it makes *)
Definition entering (a : work) : work :=
  Work (S (nodes_entered a)) (S (recursion_depth a)) (segments_compared a) (vectors_examined a).

(** src/path.rs:234-255 [dfs] *)
Fixpoint dfs_counted {T} (ft : features) (chunks : list str) (n : pathnode T)
  : outcome (list (pathdata T)) * work :=
  match n with
  | Leaf _ => (Panic, entering no_work)
  | Node cur =>
      match chunks with
      | [] =>
          (match mget chunk_eqb End_ cur with
           | Some (Leaf l) => Done l
           | Some (Node _) => Panic
           | None => Done []
           end, entering no_work)
      | c :: rest =>
          let '(ret, k) := match mget chunk_eqb (Chunk c) cur with
                           | Some v => dfs_counted ft rest v
                           | None => (Done [], no_work)
                           end in
          match ret with
          | Panic => (Panic, entering k)
          | Done found =>
              if url_variables ft then
                match mget chunk_eqb CatchAll cur with
                | Some v =>
                    let '(ret', k') := dfs_counted ft rest v in
                    (obind ret' (fun found' => Done (found ++ found')), entering (also k k'))
                | None => (Done found, entering k)
                end
              else (Done found, entering k)
          end
      end
  end.

(** src/path.rs:79-86 the loop of [check_matches]: pairs of segments looked at *)
Fixpoint check_matches_loop_counted (vars : varmap) (self other : pathbuf) : outcome (option varmap) * nat :=
  match self, other with
  | a :: self', b :: other' =>
      match first_is_colon a with
      | Panic => (Panic, 1)
      | Done colon =>
          if colon then let '(r, k) := check_matches_loop_counted (mset seqb (skipn 1 a) b vars) self' other' in (r, S k)
          else if seqb a b then let '(r, k) := check_matches_loop_counted vars self' other' in (r, S k)
          else (Done None, 1)
      end
  | _, _ => (Done (Some vars), 0)
  end.
(** src/path.rs:70-87 [check_matches] (feature url_variables) *)
Definition check_matches_counted (self other : pathbuf) : outcome (option varmap) * nat :=
  if negb (Nat.eqb (length self) (length other)) then (Done None, 0)
  else check_matches_loop_counted [] self other.

(** src/path.rs:259-272 the closure of [map], over all entries found *)
Fixpoint matched_counted {T} (ft : features) (path : pathbuf) (l : list (pathdata T))
  : outcome (list (matchedpath T)) * nat :=
  match l with
  | [] => (Done [], 0)
  | d :: l' =>
      let '(r, k) := if url_variables ft then
                       let '(o, k) := check_matches_counted (orig_path d) path in
                       (obind o (fun v => obind (unwrap v) (fun vars => Done (MatchedPath vars (data d)))), k)
                     else (Done (MatchedPath [] (data d)), 0) in
      match r with
      | Panic => (Panic, k)
      | Done m => let '(rs, k') := matched_counted ft path l' in (obind rs (fun ms => Done (m :: ms)), k + k')
      end
  end.
(** src/path.rs:257-273 [PathNode::get] *)
Definition node_get_counted {T} (ft : features) (n : pathnode T) (path : pathbuf)
  : outcome (list (matchedpath T)) * work :=
  match dfs_counted ft path n with
  | (Panic, k) => (Panic, k)
  | (Done found, k) => let '(r, c) := matched_counted ft path found in (r, also k (Work 0 0 c 0))
  end.

Section Counted.
Context {H : Type}.
(** src/router.rs:263-273 the routes of one method *)
Definition table_matches_counted (ft : features) (r : router H) (m : method) (path : pathbuf)
  : outcome (list (list (matchedpath (closures H)))) * work :=
  match mget method_eqb m (paths r) with
  | Some functions =>
      let '(routes, k) := node_get_counted ft functions path in (omap (fun l => [sort_by_index l]) routes, k)
  | None => (Done [], no_work)
  end.
(** src/router.rs:262-284 the vector [matches] *)
Definition run_matches_counted (ft : features) (r : router H) (m : method) (path : pathbuf)
  : outcome (list (list (matchedpath (closures H)))) * work :=
  match table_matches_counted ft r m path with
  | (Panic, k) => (Panic, k)
  | (Done a, k) =>
      let '(b, k') := table_matches_counted ft r MAll path in
      (obind b (fun b => Done (a ++ b ++ [map (fun c => MatchedPath [] c) (middlewares r)])), also k k')
  end.
(** src/router.rs:298-305 the search for the smallest next index looks at every vector. *)
Fixpoint find_min_counted (n minind : nat) (minval : N)
    (l : list (list (matchedpath (closures H)) * nat)) : nat * nat :=
  match l with
  | [] => (minind, 0)
  | (v, i) :: rest =>
      let '(r, k) := match nth_error v i with
                     | Some x => if (index (mp_data x) <? minval)%N
                                 then find_min_counted (S n) n (index (mp_data x)) rest
                                 else find_min_counted (S n) minind minval rest
                     | None => find_min_counted (S n) minind minval rest
                     end in
      (r, S k)
  end.
(** What calling a closure does, as in Model/Router.v (src/router.rs:310) *)
Context {W : Type} (exec : H -> varmap -> W -> W * outcome flow).
(** src/router.rs:297-315 the loop *)
Fixpoint run_loop_counted (ft : features) (total : nat) (matches : list (list (matchedpath (closures H))))
    (indices : list nat) (w : W) : (W * outcome unit) * nat :=
  match total with
  | O => ((w, Done tt), 0)
  | S total' =>
      let '(minind, k) := find_min_counted 0 0 USIZE_MAX (combine matches indices) in
      match nth_error matches minind, nth_error indices minind with
      | Some v, Some i =>
          match nth_error v i with
          | Some mp =>
              match exec (closure (mp_data mp)) (if url_variables ft then mp_vars mp else []) w with
              | (w', Panic) => ((w', Panic), k)
              | (w', Done f) =>
                  if should_continue f
                  then let '(r, k') := run_loop_counted ft total' matches (incr_at minind indices) w' in (r, k + k')
                  else ((w', Done tt), k)
              end
          | None => ((w, Panic), k)
          end
      | _, _ => ((w, Panic), k)
      end
  end.
(** src/router.rs:259-316 [Router::run] *)
Definition router_run_counted (ft : features) (r : router H) (m : method) (path : pathbuf) (w : W)
  : (W * outcome unit) * work :=
  match run_matches_counted ft r m path with
  | (Panic, k) => ((w, Panic), k)
  | (Done matches, k) =>
      let '(res, v) := run_loop_counted ft (list_sum (map (@length _) matches)) matches
                                        (repeat 0%nat (length matches)) w in
      (res, also k (Work 0 0 0 v))
  end.
End Counted.
