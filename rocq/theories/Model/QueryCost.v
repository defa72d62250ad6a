(** The work of reading queries: the functions of Model/Query.v for src/query.rs:3-37, 119-140, 197-258, counting
    the calls of [next] and [peek] and the characters pushed while decoding, the bytes looked at while searching,
    the bytes copied, and for each operation on a hash map one step and the bytes of the key (hashing it).
    Collisions and the growth of vectors and maps are not counted. *)
From Verif.Model Require Export RustStd Path Request Query.

(** src/query.rs:3-37, 119-140, 197-258: a result and the steps made for it; [n] further steps *)
Definition tick {A} (n : nat) (x : A * nat) : A * nat := (fst x, n + snd x).
(** src/query.rs:131, 206: a computation that uses the result of another one, which may panic *)
Definition cbind {A C} (x : outcome A * nat) (f : A -> outcome C * nat) : outcome C * nat :=
  match fst x with
  | Done a => tick (snd x) (f a)
  | Panic => (Panic, snd x)
  end.

(** ** Percent decoding *)

(** src/query.rs:7-35 the [while let] loop: one step for each [next], each [peek] and each [push] *)
Fixpoint unescape_loop_counted (fuel : nat) (ret : list char) (p : dpeek char)
  : option (outcome (list char)) * nat :=
  match fuel with
  | O => (None, 0)
  | S fuel' =>
      match dp_next 0%N p with
      | (None, _) => (Some (Done ret), 1)
      | (Some val, p1) =>
          if negb (N.eqb val 37) then tick 2 (unescape_loop_counted fuel' (ret ++ [val]) p1)
          else
            match dp_peek (dp_set_unpeek p1) with
            | Panic => (Some Panic, 2)
            | Done (None, p2) => tick 3 (unescape_loop_counted fuel' (ret ++ [37%N]) p2)
            | Done (Some c1, p2) =>
                match dp_peek p2 with
                | Panic => (Some Panic, 3)
                | Done (None, p3) => tick 4 (unescape_loop_counted fuel' (ret ++ [37%N]) p3)
                | Done (Some c2, p3) =>
                    match from_hex c1, from_hex c2 with
                    | Some h1, Some h2 =>
                        let p4 := snd (dp_next 0%N p3) in
                        let p5 := snd (dp_next 0%N p4) in
                        tick 6 (unescape_loop_counted fuel' (ret ++ [(h1 * 16 + h2)%N]) p5)
                    | _, _ => tick 4 (unescape_loop_counted fuel' (ret ++ [37%N]) p3)
                    end
                end
            end
      end
  end.
(** src/query.rs:3-37 [unescape_hex] *)
Definition unescape_counted (s : str) : outcome str * nat :=
  let cs := chars s in
  let x := unescape_loop_counted (S (length cs)) [] (dp_new 0%N cs) in
  (omap of_chars (match fst x with Some o => o | None => Panic end), snd x).

(** ** Queries *)

(** [str::find] (src/query.rs:126, 204) and [position] (src/query.rs:214): one step for each byte looked at *)
Fixpoint find_counted (c : byte) (s : str) : option nat * nat :=
  match s with
  | [] => (None, 0)
  | x :: xs => if beqb x c then (Some 0, 1)
               else let r := find_counted c xs in (option_map S (fst r), S (snd r))
  end.
(** src/query.rs:122-138, 200-256 the loops over the items: splitting looks at every byte of the item and at
    the separator or the end *)
Fixpoint items_counted {A} (f : A -> str -> outcome A * nat) (acc : A) (l : list str) : outcome A * nat :=
  match l with
  | [] => (Done acc, 0)
  | x :: xs => tick (S (length x)) (cbind (f acc x) (fun acc' => items_counted f acc' xs))
  end.
(** src/query.rs:131, 134, 250, 254: [HashMap::insert] *)
Definition insert_counted {V} (k : str) (v : V) (m : list (str * V)) : outcome (list (str * V)) * nat :=
  (Done (mset seqb k v m), S (length k)).

(** src/query.rs:123-137 one pass of the loop in [parse_query] *)
Definition query_item_counted (ft : features) (ret : strmap) (tok : str) : outcome strmap * nat :=
  if faithful ft && is_nil tok then (Done ret, 0)
  else let r := find_counted EQUALS tok in
       tick (snd r)
       match fst r with
       | Some v =>
           let name := firstn v tok in
           let val := skipn v tok in
           if faithful ft && is_nil name then (Done ret, 0)
           else cbind (unescape_counted name) (fun k =>
                cbind (unescape_counted (skipn 1 val)) (fun x =>
                insert_counted k x ret))
       | None => cbind (unescape_counted tok) (fun k => insert_counted k [] ret)
       end.
(** src/query.rs:119-140 [parse_query] *)
Definition parse_query_counted (ft : features) (query : str) : outcome strmap * nat :=
  items_counted (query_item_counted ft) [] (split_char AMP query).

(** src/query.rs:201-256 one pass of the loop in [parse_extended_query].  Making [outside] and [inside] copies
    and checks their bytes (lines 216-225); then come [get] (227, 238), [clone] and [insert] (228, 239) if there
    was nothing, [get_mut] (230, 241), and [push] or [insert] (232, 243). *)
Definition ext_item_counted (ft : features) (ret : qmap) (tok : str) : outcome qmap * nat :=
  if faithful ft && is_nil tok then (Done ret, 0)
  else let r := find_counted EQUALS tok in
       tick (snd r)
       match fst r with
       | Some v =>
           let name := firstn v tok in
           let val := skipn v tok in
           cbind (unescape_counted (skipn 1 val)) (fun unescaped_val =>
           if is_nil name then (Done ret, 0)
           else
             let plain := cbind (unescape_counted name) (fun k => insert_counted k (QStr unescaped_val) ret) in
             let bytelen := length name in
             tick 1
             match nth_error name (bytelen - 1) with
             | None => (Panic, 0)
             | Some last =>
                 if beqb last x5d then
                   let b := find_counted x5b (rev name) in
                   tick (snd b)
                   match fst b with
                   | Some i =>
                       let ind := bytelen - i - 1 in
                       let outside := firstn ind name in
                       let inside := firstn (bytelen - 1 - (ind + 1)) (skipn (ind + 1) name) in
                       tick (2 * length outside)
                       (if negb (utf8_valid outside) then (Done ret, 0)
                        else tick (2 * length inside)
                        (if negb (utf8_valid inside) then (Done ret, 0)
                         else
                           let empty := if is_nil inside then QArr [] else QObj [] in
                           let ret1 := match mget seqb outside ret with
                                       | None => (mset seqb outside empty ret, length outside + S (length outside))
                                       | Some _ => (ret, 0)
                                       end in
                           tick (S (length outside) + snd ret1 + S (length outside))
                           (if is_nil inside then
                              match mget seqb outside (fst ret1) with
                              | Some (QArr l) => (Done (mset seqb outside (QArr (l ++ [unescaped_val])) (fst ret1)), 1)
                              | _ => (Done (fst ret1), 0)
                              end
                            else
                              match mget seqb outside (fst ret1) with
                              | Some (QObj m) =>
                                  (Done (mset seqb outside (QObj (mset seqb inside unescaped_val m)) (fst ret1)), S (length inside))
                              | _ => (Done (fst ret1), 0)
                              end)))
                   | None => plain
                   end
                 else plain
             end)
       | None => cbind (unescape_counted tok) (fun k => insert_counted k (QStr []) ret)
       end.
(** src/query.rs:197-258 [parse_extended_query] *)
Definition parse_extended_query_counted (ft : features) (query : str) : outcome qmap * nat :=
  items_counted (ext_item_counted ft) [] (split_char AMP query).

(** src/request.rs:338-340 [Request::get_query]: printing the path copies it *)
Definition get_query_counted {cl} (ft : features) (r : request cl) : outcome strmap * nat :=
  let q := path_display (rl_path (rq_line r)) in tick (length q) (parse_query_counted ft q).
(** src/request.rs:345-347 [Request::get_extended_query] *)
Definition get_extended_query_counted {cl} (ft : features) (r : request cl) : outcome qmap * nat :=
  let q := path_display (rl_path (rq_line r)) in tick (length q) (parse_extended_query_counted ft q).
