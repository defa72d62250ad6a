(** Model of src/query.rs. *)
From Verif.Model Require Export RustStd Path Request.

(** ** DoublePeek *)

(** src/query.rs:39-47 [DoublePeek].  [dp_iter]: the items the wrapped iterator has still to give
    (a finite or exhausted iterator); [dp_cache0]/[dp_cache1]: the two slots of [cache]. *)
Record dpeek (T : Type) := DPeek {
  dp_iter : list T;
  dp_cache0 : T;
  dp_cache1 : T;
  dp_stored : nat;
  dp_unpeek : bool
}.
Arguments DPeek {T}.
Arguments dp_iter {T}.
Arguments dp_cache0 {T}.
Arguments dp_cache1 {T}.
Arguments dp_stored {T}.
Arguments dp_unpeek {T}.

Section DoublePeek.
  Context {T : Type} (dflt : T).   (* [T::default()] *)

  (** src/query.rs:53-61 [new] *)
  Definition dp_new (it : list T) : dpeek T := DPeek it dflt dflt 0 false.

  (** src/query.rs:63-81 [peek]; writing [cache[stored]] panics when [stored > 1]. *)
  Definition dp_peek (s : dpeek T) : outcome (option T * dpeek T) :=
    if dp_unpeek s && Nat.ltb 0 (dp_stored s) then
      Done (Some (dp_cache0 s),
            DPeek (dp_iter s) (dp_cache0 s) (dp_cache1 s) (dp_stored s) false)
    else
      let s1 := DPeek (dp_iter s) (dp_cache0 s) (dp_cache1 s) (dp_stored s) false in
      if Nat.eqb (dp_stored s1) 2 then Done (None, s1)
      else match dp_iter s1 with
           | [] => Done (None, s1)
           | v :: it' =>
               match dp_stored s1 with
               | 0 => Done (Some v, DPeek it' v (dp_cache1 s1) 1 false)
               | 1 => Done (Some v, DPeek it' (dp_cache0 s1) v 2 false)
               | _ => Panic
               end
           end.

  (** src/query.rs:89-99 [Iterator::next] *)
  Definition dp_next (s : dpeek T) : option T * dpeek T :=
    if Nat.eqb (dp_stored s) 1 then
      (Some (dp_cache0 s), DPeek (dp_iter s) dflt (dp_cache1 s) 0 (dp_unpeek s))
    else if Nat.eqb (dp_stored s) 2 then
      (Some (dp_cache0 s), DPeek (dp_iter s) (dp_cache1 s) dflt 1 (dp_unpeek s))
    else match dp_iter s with
         | [] => (None, s)
         | v :: it' => (Some v, DPeek it' (dp_cache0 s) (dp_cache1 s) (dp_stored s) (dp_unpeek s))
         end.

  (** src/query.rs:11 [peekable.unpeek = true] *)
  Definition dp_set_unpeek (s : dpeek T) : dpeek T :=
    DPeek (dp_iter s) (dp_cache0 s) (dp_cache1 s) (dp_stored s) true.
End DoublePeek.

(** ** Percent decoding *)

(** src/query.rs:102-117 [from_hex]; [chr as u8] keeps the low 8 bits. *)
Definition from_hex (chr : char) : option N :=
  (if 102 <? chr then None
   else
     let c := chr mod 256 in
     if (48 <=? c) && (c <=? 57) then Some (c - 48)
     else if (65 <=? c) && (c <=? 70) then Some (c - 65 + 10)
     else if (97 <=? c) && (c <=? 102) then Some (c - 97 + 10)
     else None)%N.

(** src/query.rs:7-35 the [while let] loop; [ret] is the output so far as characters.  The u8
    expression [h1 * 16 + h2] is at most 255 (both digits are at most 15), so it cannot
    overflow.  Fuel: one unit per pass, [None] = exhausted (excluded by the theorems). *)
Fixpoint unescape_loop (fuel : nat) (ret : list char) (p : dpeek char)
  : option (outcome (list char)) :=
  match fuel with
  | O => None
  | S fuel' =>
      match dp_next 0%N p with
      | (None, _) => Some (Done ret)
      | (Some val, p1) =>
          if negb (N.eqb val 37) then unescape_loop fuel' (ret ++ [val]) p1
          else
            match dp_peek (dp_set_unpeek p1) with
            | Panic => Some Panic
            | Done (None, p2) => unescape_loop fuel' (ret ++ [37%N]) p2
            | Done (Some c1, p2) =>
                match dp_peek p2 with
                | Panic => Some Panic
                | Done (None, p3) => unescape_loop fuel' (ret ++ [37%N]) p3
                | Done (Some c2, p3) =>
                    match from_hex c1, from_hex c2 with
                    | Some h1, Some h2 =>
                        let p4 := snd (dp_next 0%N p3) in
                        let p5 := snd (dp_next 0%N p4) in
                        unescape_loop fuel' (ret ++ [(h1 * 16 + h2)%N]) p5
                    | _, _ => unescape_loop fuel' (ret ++ [37%N]) p3
                    end
                end
            end
      end
  end.
(** src/query.rs:3-37 [unescape_hex], on characters *)
Definition unescape_chars (cs : list char) : outcome (list char) :=
  match unescape_loop (S (length cs)) [] (dp_new 0%N cs) with
  | Some o => o
  | None => Panic
  end.
(** src/query.rs:3-37 [unescape_hex], on the UTF-8 bytes *)
Definition unescape_hex (s : str) : outcome str := omap of_chars (unescape_chars (chars s)).

(** ** Queries (src/query.rs:120, 198) *)

Definition AMP : byte := x26.
(** src/query.rs:126, 204 *)
Definition EQUALS : byte := x3d.

(** [HashMap<String, String>], src/query.rs:121 *)
Definition strmap := list (str * str).

(** src/query.rs:123-137 one pass of the loop in [parse_query] *)
Definition parse_query_item (ft : features) (ret : strmap) (tok : str) : outcome strmap :=
  if faithful ft && is_nil tok then Done ret
  else match find_char EQUALS tok with
       | Some v =>
           let name := firstn v tok in
           let val := skipn v tok in
           if faithful ft && is_nil name then Done ret
           else obind (unescape_hex name) (fun k =>
                obind (unescape_hex (skipn 1 val)) (fun x =>
                Done (mset seqb k x ret)))
       | None => obind (unescape_hex tok) (fun k => Done (mset seqb k [] ret))
       end.
(** The loops of src/query.rs:122-138, 200-256: a fold whose body may panic *)
Fixpoint ofoldl {A C} (f : A -> C -> outcome A) (acc : A) (l : list C) : outcome A :=
  match l with
  | [] => Done acc
  | x :: xs => obind (f acc x) (fun acc' => ofoldl f acc' xs)
  end.
(** src/query.rs:119-140 [parse_query] *)
Definition parse_query (ft : features) (query : str) : outcome strmap :=
  ofoldl (parse_query_item ft) [] (split_char AMP query).

(** src/request.rs:338-340 [Request::get_query] *)
Definition get_query {cl} (ft : features) (r : request cl) : outcome strmap :=
  parse_query ft (path_display (rl_path (rq_line r))).

(** src/query.rs:159-166 [QueryValue] *)
Inductive query_value := QStr (s : str) | QArr (l : list str) | QObj (m : strmap).
(** [HashMap<String, QueryValue>], src/query.rs:199 *)
Definition qmap := list (str * query_value).

(** [bytes.iter().rev().position(|&v| v == b'[')] (src/query.rs:214) *)
Definition rposition (c : byte) (s : str) : option nat := find_char c (rev s).

(** src/query.rs:201-256 one pass of the loop in [parse_extended_query].  [bytes[bytelen - 1]] is
    in bounds since the name is not empty at that point. *)
Definition parse_ext_item (ft : features) (ret : qmap) (tok : str) : outcome qmap :=
  if faithful ft && is_nil tok then Done ret
  else match find_char EQUALS tok with
       | Some v =>
           let name := firstn v tok in
           let val := skipn v tok in
           obind (unescape_hex (skipn 1 val)) (fun unescaped_val =>
           if is_nil name then Done ret
           else
             let plain := obind (unescape_hex name) (fun k =>
                            Done (mset seqb k (QStr unescaped_val) ret)) in
             let bytelen := length name in
             match nth_error name (bytelen - 1) with
             | None => Panic
             | Some last =>
                 if beqb last x5d then
                   match rposition x5b name with
                   | Some i =>
                       let ind := bytelen - i - 1 in
                       let outside := firstn ind name in
                       let inside := firstn (bytelen - 1 - (ind + 1)) (skipn (ind + 1) name) in
                       if negb (utf8_valid outside) then Done ret
                       else if negb (utf8_valid inside) then Done ret
                       else if is_nil inside then
                         let ret1 := match mget seqb outside ret with
                                     | None => mset seqb outside (QArr []) ret
                                     | Some _ => ret
                                     end in
                         match mget seqb outside ret1 with
                         | Some (QArr l) =>
                             Done (mset seqb outside (QArr (l ++ [unescaped_val])) ret1)
                         | _ => Done ret1
                         end
                       else
                         let ret1 := match mget seqb outside ret with
                                     | None => mset seqb outside (QObj []) ret
                                     | Some _ => ret
                                     end in
                         match mget seqb outside ret1 with
                         | Some (QObj m) =>
                             Done (mset seqb outside (QObj (mset seqb inside unescaped_val m)) ret1)
                         | _ => Done ret1
                         end
                   | None => plain
                   end
                 else plain
             end)
       | None => obind (unescape_hex tok) (fun k => Done (mset seqb k (QStr []) ret))
       end.
(** src/query.rs:197-258 [parse_extended_query] *)
Definition parse_extended_query (ft : features) (query : str) : outcome qmap :=
  ofoldl (parse_ext_item ft) [] (split_char AMP query).

(** src/request.rs:345-347 [Request::get_extended_query] *)
Definition get_extended_query {cl} (ft : features) (r : request cl) : outcome qmap :=
  parse_extended_query ft (path_display (rl_path (rq_line r))).

(** src/query.rs:171-193 [get_str], [get_arr], [get_obj] *)
Definition qv_str (q : query_value) : option str := match q with QStr s => Some s | _ => None end.
(** src/query.rs:179-185 [get_arr] *)
Definition qv_arr (q : query_value) : option (list str) :=
  match q with QArr l => Some l | _ => None end.
(** src/query.rs:187-193 [get_obj] *)
Definition qv_obj (q : query_value) : option strmap :=
  match q with QObj m => Some m | _ => None end.
