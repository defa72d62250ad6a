(** Model of src/path.rs: PathBuf, route patterns, the route trie [PathNode] and its iterators. *)
From Verif.Model Require Export RustStd.
From Coq Require Export Sorting.Permutation.

(** src/path.rs:12-15 [PathBuf]; only the [chunks] field. *)
Definition pathbuf := list str.

(** src/path.rs:46 *)
Definition SLASH : byte := x2f.
(** src/path.rs:80, 213 *)
Definition COLON : byte := x3a.
(** src/path.rs:47 *)
Definition DOT : str := [x2e].
(** src/path.rs:50 *)
Definition DOTDOT : str := [x2e; x2e].

(** src/path.rs:17-25 [Display for PathBuf]; also the string built by [to_std_pathbuf], 36-42. *)
Definition path_display (p : pathbuf) : str := flat_map (fun c => c ++ [SLASH]) p.

(** src/path.rs:44-59 [PathBuf::parse].  [None] is [Err(InvalidPathError)].  [chunks] is the Vec
    (push at the end, pop from the end). *)
Definition is_nil {A} (l : list A) : bool := match l with [] => true | _ => false end.

(** src/path.rs:46-57 the loop *)
Fixpoint parse_loop (chunks : list str) (toks : list str) : option (list str) :=
  match toks with
  | [] => Some chunks
  | chunk :: rest =>
      if is_nil chunk || seqb chunk DOT then parse_loop chunks rest
      else if seqb chunk DOTDOT then
        (if is_nil chunks then None else parse_loop (removelast chunks) rest)
      else parse_loop (chunks ++ [chunk]) rest
  end.
(** src/path.rs:44-59 [parse] *)
Definition path_parse (path : str) : option pathbuf := parse_loop [] (split_char SLASH path).

(** src/path.rs:61-68 [check_starts_with]: loop over [zip], early [return false]. *)
Fixpoint check_starts_with (self other : pathbuf) : bool :=
  match self, other with
  | a :: self', b :: other' => if seqb a b then check_starts_with self' other' else false
  | _, _ => true
  end.

(** [a.as_bytes()[0] == b':'] : panics on an empty chunk. (src/path.rs:80, 213) *)
Definition first_is_colon (a : str) : outcome bool :=
  match a with [] => Panic | b :: _ => Done (beqb b COLON) end.

(** [HashMap<&str, &str>], src/path.rs:74, 154 *)
Definition varmap := list (str * str).

(** src/path.rs:79-86 the loop of [check_matches] (feature url_variables). *)
Fixpoint check_matches_loop (vars : varmap) (self other : pathbuf) : outcome (option varmap) :=
  match self, other with
  | a :: self', b :: other' =>
      obind (first_is_colon a) (fun colon =>
        if colon then check_matches_loop (mset seqb (skipn 1 a) b vars) self' other'
        else if seqb a b then check_matches_loop vars self' other'
        else Done None)
  | _, _ => Done (Some vars)
  end.
(** src/path.rs:70-87 [check_matches] (feature url_variables). *)
Definition check_matches (self other : pathbuf) : outcome (option varmap) :=
  if negb (Nat.eqb (length self) (length other)) then Done None
  else check_matches_loop [] self other.

(** [Iterator::ne] negated: element-wise equality of two sequences. (src/path.rs:91, 101) *)
Fixpoint path_eqb (a b : pathbuf) : bool :=
  match a, b with
  | [], [] => true
  | x :: a', y :: b' => seqb x y && path_eqb a' b'
  | _, _ => false
  end.

(** src/path.rs:89-95 [check_matches] without url_variables. *)
Definition check_matches_novars (self other : pathbuf) : option unit :=
  if negb (path_eqb self other) then None else Some tt.

(** src/path.rs:97-107 [subtract] *)
Definition path_subtract (self other : pathbuf) : option pathbuf :=
  if Nat.ltb (length self) (length other) then None
  else if negb (path_eqb (firstn (length other) self) other) then None
  else Some (skipn (length other) self).

(** src/path.rs:109-118 [concat_owned], 119-128 [concat] *)
Definition path_concat_owned (self other : pathbuf) : pathbuf := self ++ other.
(** src/path.rs:119-128 [concat] *)
Definition path_concat (self other : pathbuf) : pathbuf := self ++ other.

(** ** The route trie *)

(** src/path.rs:145-149 [PathData] *)
Record pathdata (T : Type) := PathData { orig_path : pathbuf; data : T }.
Arguments PathData {T}.
Arguments orig_path {T}.
Arguments data {T}.

(** src/path.rs:151-156 [MatchedPath] *)
Record matchedpath (T : Type) := MatchedPath { mp_vars : varmap; mp_data : T }.
Arguments MatchedPath {T}.
Arguments mp_vars {T}.
Arguments mp_data {T}.

(** src/path.rs:158-163 [PathChunk] *)
Inductive pathchunk := Chunk (s : str) | CatchAll | End_.
(** src/path.rs:158 derived [PartialEq] *)
Definition chunk_eqb (a b : pathchunk) : bool :=
  match a, b with
  | Chunk x, Chunk y => seqb x y
  | CatchAll, CatchAll => true
  | End_, End_ => true
  | _, _ => false
  end.

(** src/path.rs:165-169 [PathNode] *)
Inductive pathnode (T : Type) :=
| Node (m : list (pathchunk * pathnode T))
| Leaf (l : list (pathdata T)).
Arguments Node {T}.
Arguments Leaf {T}.

(** src/path.rs:204-206 [PathNode::new] *)
Definition node_new {T} : pathnode T := Node [].

(** src/path.rs:208-232 [PathNode::insert].  The loop moving [cur] down becomes recursion on the
    remaining chunks that rebuilds the spine; [unwrap_node_mut]/[unwrap_leaf_mut] (172-202) panic
    on the wrong variant. *)
Fixpoint insert_at {T} (chunks : list str) (pd : pathdata T) (cur : pathnode T)
  : outcome (pathnode T) :=
  match cur with
  | Leaf _ => Panic
  | Node m =>
      match chunks with
      | [] =>
          match mget chunk_eqb End_ m with
          | None => Done (Node (mset chunk_eqb End_ (Leaf [pd]) m))
          | Some (Leaf l) => Done (Node (mset chunk_eqb End_ (Leaf (l ++ [pd])) m))
          | Some (Node _) => Panic
          end
      | chunk :: rest =>
          obind (first_is_colon chunk) (fun colon =>
            let key := if colon then CatchAll else Chunk chunk in
            let child := match mget chunk_eqb key m with
                         | Some c => c
                         | None => node_new
                         end in
            obind (insert_at rest pd child) (fun child' =>
              Done (Node (mset chunk_eqb key child' m))))
      end
  end.
(** src/path.rs:208-232 [insert] *)
Definition node_insert {T} (n : pathnode T) (path : pathbuf) (d : T) : outcome (pathnode T) :=
  insert_at path (PathData path d) n.

(** src/path.rs:234-255 [dfs] *)
Fixpoint dfs {T} (ft : features) (chunks : list str) (n : pathnode T)
  : outcome (list (pathdata T)) :=
  match n with
  | Leaf _ => Panic
  | Node cur =>
      match chunks with
      | [] =>
          match mget chunk_eqb End_ cur with
          | Some (Leaf l) => Done l
          | Some (Node _) => Panic
          | None => Done []
          end
      | c :: rest =>
          obind (match mget chunk_eqb (Chunk c) cur with
                 | Some v => dfs ft rest v
                 | None => Done []
                 end) (fun ret =>
          if url_variables ft then
            match mget chunk_eqb CatchAll cur with
            | Some v => obind (dfs ft rest v) (fun found => Done (ret ++ found))
            | None => Done ret
            end
          else Done ret)
      end
  end.

(** Sequencing of panicking computations over a list ([Iterator::map] with a closure that may
    panic, then [collect]). (src/path.rs:259-272, src/router.rs:238-241, src/cookie.rs:73-78) *)
Fixpoint omapM {A C} (f : A -> outcome C) (l : list A) : outcome (list C) :=
  match l with
  | [] => Done []
  | x :: xs => obind (f x) (fun y => obind (omapM f xs) (fun ys => Done (y :: ys)))
  end.

(** src/path.rs:257-273 [PathNode::get] *)
Definition node_get {T} (ft : features) (n : pathnode T) (path : pathbuf)
  : outcome (list (matchedpath T)) :=
  obind (dfs ft path n) (fun matched =>
    omapM (fun d : pathdata T =>
             if url_variables ft then
               obind (check_matches (orig_path d) path) (fun o =>
                 obind (unwrap o) (fun vars => Done (MatchedPath vars (data d))))
             else Done (MatchedPath [] (data d))) matched).

(** ** Hash iteration order

    Rust's [HashMap] iterates in an order that depends on a per-map random seed.  [ord_fn i l] is
    the order in which iteration number [i] visits the entries [l]: an arbitrary permutation,
    chosen afresh for every [i]. (src/path.rs:313, 333, 366, 389, src/router.rs:237,
    src/responder.rs:499-501) *)
Record order := Order {
  ord_fn : list nat -> forall A : Type, list A -> list A;
  ord_perm : forall i (A : Type) (l : list A), Permutation (ord_fn i A l) l
}.

(** ** Iterators *)

(** One pass through the body of the [loop] in [next]. (src/path.rs:295-325, 351-378) *)
Inductive loop_result (S A : Type) :=
| Yield (a : A) (s : S)
| Exhausted (s : S)
| Continue (s : S).
Arguments Yield {S A}.
Arguments Exhausted {S A}.
Arguments Continue {S A}.

(** src/path.rs:276-280 [PathNodeIterator].  [it_stack]: innermost frame first (the Vec's last
    element); a frame is the list of values still to be visited.  [it_pos]/[it_count] only
    identify the hash-map iterations for the order oracle. *)
Record node_iter (T : Type) := NodeIter {
  it_stack : list (list (pathnode T));
  it_curvec : option (list (pathdata T));
  it_curind : nat;
  it_pos : list nat;
  it_count : nat
}.
Arguments NodeIter {T}.
Arguments it_stack {T}.
Arguments it_curvec {T}.
Arguments it_curind {T}.
Arguments it_pos {T}.
Arguments it_count {T}.

(** src/path.rs:313, 333 [HashMap::values] *)
Definition hash_values {T} (o : order) (i : list nat) (m : list (pathchunk * pathnode T))
  : list (pathnode T) := map snd (ord_fn o i _ m).

(** src/path.rs:293-326 the body of [PathNodeIterator::next]'s loop. *)
Definition iter_loop_body {T} (o : order) (s : node_iter T)
  : loop_result (node_iter T) (pathdata T) :=
  let item := match it_curvec s with
              | Some v => nth_error v (it_curind s)
              | None => None
              end in
  match item with
  | Some ret => Yield ret (NodeIter (it_stack s) (it_curvec s) (S (it_curind s)) (it_pos s) (it_count s))
  | None =>
      match it_stack s with
      | [] => Exhausted (NodeIter [] None 0 (it_pos s) (it_count s))
      | frame :: below =>
          match frame with
          | v :: frame' =>
              match v with
              | Node n => Continue (NodeIter (hash_values o (it_pos s ++ [it_count s]) n :: frame' :: below)
                                             None 0 (it_pos s) (S (it_count s)))
              | Leaf l => Continue (NodeIter (frame' :: below) (Some l) 0 (it_pos s) (it_count s))
              end
          | [] => Continue (NodeIter below None 0 (it_pos s) (it_count s))
          end
      end
  end.

(** src/path.rs:330-343 [PathNode::iter] *)
Definition node_iter_new {T} (o : order) (pos : list nat) (n : pathnode T) : node_iter T :=
  match n with
  | Node m => NodeIter [hash_values o (pos ++ [0%nat]) m] None 0 pos 1
  | Leaf l => NodeIter [] (Some l) 0 pos 1
  end.

(** src/path.rs:282-288 [OwnedPathNodeIterator] *)
Record owned_iter (T : Type) := OwnedIter {
  ow_stack : list (list (pathnode T));
  ow_curvec : option (list (pathdata T));
  ow_pos : list nat;
  ow_count : nat
}.
Arguments OwnedIter {T}.
Arguments ow_stack {T}.
Arguments ow_curvec {T}.
Arguments ow_pos {T}.
Arguments ow_count {T}.

(** [Vec::pop] (src/path.rs:354) *)
Definition vec_pop {A} (l : list A) : option (A * list A) :=
  match rev l with
  | [] => None
  | x :: r => Some (x, rev r)
  end.

(** src/path.rs:349-379 the body of [OwnedPathNodeIterator::next]'s loop. *)
Definition owned_loop_body {T} (o : order) (s : owned_iter T)
  : loop_result (owned_iter T) (pathdata T) :=
  let item := match ow_curvec s with
              | Some v => vec_pop v
              | None => None
              end in
  match item with
  | Some (ret, v') => Yield ret (OwnedIter (ow_stack s) (Some v') (ow_pos s) (ow_count s))
  | None =>
      match ow_stack s with
      | [] => Exhausted (OwnedIter [] None (ow_pos s) (ow_count s))
      | frame :: below =>
          match frame with
          | v :: frame' =>
              match v with
              | Node n => Continue (OwnedIter (hash_values o (ow_pos s ++ [ow_count s]) n :: frame' :: below)
                                              None (ow_pos s) (S (ow_count s)))
              | Leaf l => Continue (OwnedIter (frame' :: below) (Some l) (ow_pos s) (ow_count s))
              end
          | [] => Continue (OwnedIter below None (ow_pos s) (ow_count s))
          end
      end
  end.

(** src/path.rs:382-398 [IntoIterator for PathNode] *)
Definition owned_iter_new {T} (o : order) (pos : list nat) (n : pathnode T) : owned_iter T :=
  match n with
  | Node m => OwnedIter [hash_values o (pos ++ [0%nat]) m] None pos 1
  | Leaf l => OwnedIter [] (Some l) pos 1
  end.

(** [next]: repeat the loop body until it returns.  [None] = fuel exhausted (the Rust loop has no
    fuel; the theorems show that the fuel given below is always enough). *)
Section Next.
  Context {S A : Type} (body : S -> loop_result S A).
  (** src/path.rs:295-325, 351-378 the [loop] *)
  Fixpoint next_fuel (fuel : nat) (s : S) : option (option A * S) :=
    match fuel with
    | O => None
    | Datatypes.S f =>
        match body s with
        | Yield a s' => Some (Some a, s')
        | Exhausted s' => Some (None, s')
        | Continue s' => next_fuel f s'
        end
    end.
  (** [for x in iter]: all items until exhaustion, one unit of fuel per pass of the loop.
      (src/path.rs:402, 411, src/router.rs:238-245) *)
  Fixpoint drain_fuel (fuel : nat) (s : S) : option (list A * S) :=
    match fuel with
    | O => None
    | Datatypes.S f =>
        match body s with
        | Yield a s' => match drain_fuel f s' with
                        | Some (l, s'') => Some (a :: l, s'')
                        | None => None
                        end
        | Exhausted s' => Some ([], s')
        | Continue s' => drain_fuel f s'
        end
    end.
End Next.

(** Number of loop passes needed to visit a node (used only as fuel). (For src/path.rs:295-325,
    351-378) *)
Fixpoint weight {T} (n : pathnode T) : nat :=
  match n with
  | Leaf l => 1 + length l
  | Node m => 2 + fold_right (fun kv acc => weight (snd kv) + acc) 0 m
  end.

(** All entries of a trie as produced by [into_iter]. (src/path.rs:382-398) *)
Definition node_into_list {T} (o : order) (pos : list nat) (n : pathnode T)
  : outcome (list (pathdata T)) :=
  match drain_fuel (owned_loop_body o) (S (weight n)) (owned_iter_new o pos n) with
  | Some (l, _) => Done l
  | None => Panic
  end.
(** All entries as produced by [iter]. (src/path.rs:329-344) *)
Definition node_iter_list {T} (o : order) (pos : list nat) (n : pathnode T)
  : outcome (list (pathdata T)) :=
  match drain_fuel (iter_loop_body o) (S (weight n)) (node_iter_new o pos n) with
  | Some (l, _) => Done l
  | None => Panic
  end.

(** src/path.rs:400-406 [Extend] *)
Fixpoint node_extend {T} (n : pathnode T) (l : list (pathdata T)) : outcome (pathnode T) :=
  match l with
  | [] => Done n
  | d :: r => obind (node_insert n (orig_path d) (data d)) (fun n' => node_extend n' r)
  end.
(** src/path.rs:408-416 [FromIterator] *)
Definition node_from_iter {T} (l : list (pathdata T)) : outcome (pathnode T) :=
  node_extend node_new l.

(** src/path.rs:440-442 [is_ctl] *)
Definition is_ctl (c : char) : bool := ((c <? 0x1f) || (c =? 0x7f))%N.
