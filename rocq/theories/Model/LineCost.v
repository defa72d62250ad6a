(** The work of reading a request line: the functions of Model/Path.v and Model/Request.v for src/path.rs:44-59 and
    src/request.rs:87-124, counting the bytes looked at while splitting, the bytes copied, one step for each
    comparison of two strings and for each byte compared (only if the lengths agree), and one step for each other
    operation on a vector or string.  The growth of vectors is not counted. *)
From Verif.Model Require Export RustStd Path Request.

(** [==] of two strings (src/path.rs:47, 50, src/request.rs:97-119): lengths first, then bytes up to a difference *)
Fixpoint bytes_compared (a b : str) : nat :=
  match a, b with
  | x :: a', y :: b' => if beqb x y then S (bytes_compared a' b') else 1
  | _, _ => 0
  end.
(** one comparison of two strings (src/path.rs:47, 50, src/request.rs:97-119) *)
Definition comparing (a b : str) : nat := S (if Nat.eqb (length a) (length b) then bytes_compared a b else 0).
(** a [match] of a string with literals (src/request.rs:96-102, 107-118): compared one after the other until one is
    equal *)
Fixpoint matching (s : str) (literals : list str) : nat :=
  match literals with
  | [] => 0
  | l :: rest => comparing s l + (if seqb s l then 0 else matching s rest)
  end.

(** src/path.rs:46-57 the loop: splitting looks at the bytes of the chunk and at the separator or the end; then come
    [is_empty] and the comparisons, and [pop] or [to_owned] and [push] *)
Fixpoint parse_loop_counted (chunks : list str) (toks : list str) : option (list str) * nat :=
  match toks with
  | [] => (Some chunks, 0)
  | chunk :: rest =>
      let looked := S (length chunk) + 1 + (if is_nil chunk then 0 else comparing chunk DOT) in
      if is_nil chunk || seqb chunk DOT then
        let r := parse_loop_counted chunks rest in (fst r, looked + snd r)
      else
        let compared := looked + comparing chunk DOTDOT in
        if seqb chunk DOTDOT then
          (if is_nil chunks then (None, compared + 1)
           else let r := parse_loop_counted (removelast chunks) rest in (fst r, compared + 1 + snd r))
        else let r := parse_loop_counted (chunks ++ [chunk]) rest in (fst r, compared + length chunk + 1 + snd r)
  end.
(** src/path.rs:44-59 [PathBuf::parse] *)
Definition path_parse_counted (path : str) : option pathbuf * nat := parse_loop_counted [] (split_char SLASH path).

(** src/request.rs:88-90, 94, 104 [toks.next()]: looks at the bytes of the token and at the separator or the end *)
Definition token_counted (toks : list str) (k : nat) : option str * nat :=
  match nth_error toks k with Some t => (Some t, S (length t)) | None => (None, 1) end.
(** the literals of src/request.rs:108-117 *)
Definition method_literals : list str :=
  [B "POST"; B "GET"; B "DELETE"; B "PUT"; B "OPTIONS"; B "HEAD"; B "TRACE"; B "CONNECT"; B "PATCH"].
(** the literals of src/request.rs:97-100 *)
Definition version_literals : list str := [B "1.1"; B "1.0"; B "2.0"; B "0.9"].
(** src/request.rs:87-124 [RequestLine::parse] *)
Definition request_line_counted (ft : features) (line : str) : outcome (option request_line) * nat :=
  let toks := split_char SP line in
  let t0 := token_counted toks 0 in
  match fst t0 with
  | None => (Done None, snd t0)
  | Some m =>
  let t1 := token_counted toks 1 in
  match fst t1 with
  | None => (Done None, snd t0 + snd t1)
  | Some p =>
  let c := path_parse_counted p in
  match fst c with
  | None => (Panic, snd t0 + snd t1 + snd c)
  | Some path =>
  let t2 := token_counted toks 2 in
  let read := snd t0 + snd t1 + snd c + snd t2 in
  match fst t2 with
  | None => (Done None, read)
  | Some version =>
  match split_at version 5 with
  | Panic => (Panic, read + 1)
  | Done (first, ver) =>
      let read' := read + 1 + matching ver version_literals in
      let differs := negb (seqb first (B "HTTP/")) in
      let t3 := token_counted toks 3 in
      let checked := if faithful ft then comparing first (B "HTTP/") + (if differs then 0 else snd t3) else 0 in
      if faithful ft && (differs || match fst t3 with Some _ => true | None => false end)
      then (Done None, read' + checked)
      else (Done (Some (RequestLine (parse_method m) path (parse_version ver))),
            read' + checked + matching m method_literals)
  end end end end end.
