(** Model of octane_macros/src/json.rs and octane_macros/src/stream_parser.rs on token trees. *)
From Verif.Model Require Export RustStd.

(** proc_macro's [TokenTree] (matched in octane_macros/src/json.rs:59-83,
    octane_macros/src/stream_parser.rs:26) *)
Inductive delim := DBrace | DParen | DBracket | DNone.
(** [TokenTree], matched in octane_macros/src/json.rs:22-25, 43, 58, 104-113,
    octane_macros/src/stream_parser.rs:24-42 *)
Inductive token :=
| TkIdent (s : str)
| TkPunct (c : byte)
| TkLit (repr : str)
| TkGroup (d : delim) (l : list token).

(** octane_macros/src/json.rs:38, 48, 52, 141 [tok.to_string() == c] for a punctuation character, 84
    [tok.to_string() == w] for a word: only a punctuation token prints as one punctuation character
    and only an identifier as a word; a group prints with its delimiters (None-delimited groups,
    which only macro expansion produces, are assumed not to occur). *)
Definition is_punct (c : byte) (t : token) : bool :=
  match t with TkPunct d => beqb d c | _ => false end.
(** Comparison with a word, octane_macros/src/json.rs:23, 85, octane_macros/src/stream_parser.rs:34 *)
Definition is_word (w : str) (t : token) : bool :=
  match t with TkIdent x => seqb x w | _ => false end.

(** octane_macros/src/json.rs:4-9 [StructInfo] *)
Record struct_info := StructInfo {
  si_name : token;
  si_gen_between : list token;
  si_where_between : list token;
  si_generics : list str
}.
(** octane_macros/src/json.rs:61-69, 72-80, 91-93: which continuation is called, with what *)
Inductive derive_result :=
| DrBraces (body : list token) (info : struct_info)
| DrParens (body : list token) (info : struct_info)
| DrCompileError.

(** octane_macros/src/json.rs:20-29 [tok_iter.find(..)] *)
Fixpoint after_struct (toks : list token) : option (list token) :=
  match toks with
  | [] => None
  | TkIdent s :: rest => if seqb s (B "struct") then Some rest else after_struct rest
  | _ :: rest => after_struct rest
  end.

(** Loop state: gen_between, where_between, whether [cur] is where_between, generic_level,
    generics, is_gen_name. (octane_macros/src/json.rs:31-36) *)
Record derive_state := DeriveState {
  ds_gen : list token; ds_where : list token; ds_in_where : bool;
  ds_level : Z; ds_generics : list str; ds_is_gen_name : bool
}.
(** octane_macros/src/json.rs:55, 89 [extend(cur, tok)] *)
Definition ds_extend (s : derive_state) (t : token) : derive_state :=
  if ds_in_where s
  then DeriveState (ds_gen s) (ds_where s ++ [t]) true (ds_level s) (ds_generics s) (ds_is_gen_name s)
  else DeriveState (ds_gen s ++ [t]) (ds_where s) false (ds_level s) (ds_generics s) (ds_is_gen_name s).

(** octane_macros/src/json.rs:38-57 the bookkeeping at the start of one pass *)
Definition ds_track (s : derive_state) (t : token) : derive_state :=
  let level1 := if is_punct x3c t then (ds_level s + 1)%Z else ds_level s in
  let '(gens, isg) :=
    if (level1 =? 1)%Z then
      if ds_is_gen_name s then
        match t with
        | TkIdent i => (ds_generics s ++ [i], false)
        | _ => (ds_generics s, true)
        end
      else if is_punct x2c t then (ds_generics s, true)
      else (ds_generics s, false)
    else (ds_generics s, ds_is_gen_name s) in
  let level2 := if is_punct x3e t then (level1 - 1)%Z else level1 in
  DeriveState (ds_gen s) (ds_where s) (ds_in_where s) level2 gens isg.

(** octane_macros/src/json.rs:37-93 the loop.  When the tokens run out, the text
    parsed as the error is an unterminated string literal, so the [unwrap] panics. *)
Fixpoint derive_loop (name : token) (s : derive_state) (toks : list token) : outcome derive_result :=
  match toks with
  | [] => Panic
  | t :: rest =>
      let s1 := ds_track s t in
      if negb (ds_level s1 =? 0)%Z then derive_loop name (ds_extend s1 t) rest
      else
        let info := StructInfo name (ds_gen s1) (ds_where s1) (ds_generics s1) in
        match t with
        | TkGroup DBrace body => Done (DrBraces body info)
        | TkGroup DParen body => Done (DrParens body info)
        | _ =>
            if is_word (B "where") t
            then derive_loop name
                   (DeriveState (ds_gen s1) (ds_where s1) true (ds_level s1) (ds_generics s1)
                                (ds_is_gen_name s1)) rest
            else derive_loop name (ds_extend s1 t) rest
        end
  end.
(** octane_macros/src/json.rs:11-94 [handle_derive]; [Panic]: nothing follows [struct], or there is
    no body. *)
Definition handle_derive (toks : list token) : outcome derive_result :=
  match after_struct toks with
  | None => Done DrCompileError
  | Some [] => Panic
  | Some (name :: rest) => derive_loop name (DeriveState [] [] false 0 [] true) rest
  end.

(** octane_macros/src/json.rs:101-114, 257-270: the field names of a braced struct (the same loop
    in FromJSON and ToJSON). *)
Fixpoint brace_fields (is_field : bool) (toks : list token) : list str :=
  match toks with
  | [] => []
  | TkIdent i :: rest => if is_field then i :: brace_fields false rest
                         else brace_fields is_field rest
  | TkPunct c :: rest => if beqb c x2c then brace_fields true rest
                         else brace_fields is_field rest
  | _ :: rest => brace_fields is_field rest
  end.
(** octane_macros/src/json.rs:178-191, 323-336: the number of fields of a tuple struct *)
Fixpoint paren_fields (is_field : bool) (toks : list token) : nat :=
  match toks with
  | [] => 0
  | TkIdent _ :: rest => if is_field then S (paren_fields false rest)
                         else paren_fields is_field rest
  | TkPunct c :: rest => if beqb c x2c then paren_fields true rest
                         else paren_fields is_field rest
  | _ :: rest => paren_fields is_field rest
  end.

(** octane_macros/src/json.rs:122-134 (and the three copies): [gen_list] *)
Fixpoint comma_idents (l : list str) : list token :=
  match l with
  | [] => []
  | [x] => [TkIdent x]
  | x :: rest => TkIdent x :: TkPunct x2c :: comma_idents rest
  end.
(** octane_macros/src/json.rs:122-134 *)
Definition gen_list (generics : list str) : list token :=
  match generics with
  | [] => []
  | _ => TkPunct x3c :: comma_idents generics ++ [TkPunct x3e]
  end.
(** octane_macros/src/json.rs:135-145 (and the three copies): whether [comma] starts as ", " *)
Definition where_needs_comma (where_between : list token) : bool :=
  match rev where_between with
  | [] => false
  | t :: _ => negb (is_punct x2c t)
  end.
(** The path [crate::FromJSON] or [crate::ToJSON] (octane_macros/src/json.rs:148, 156) *)
Definition crate_path (trait : str) : list token :=
  [TkIdent (B "crate"); TkPunct x3a; TkPunct x3a; TkIdent trait].
(** octane_macros/src/json.rs:146-153 (and the three copies): the bounds appended to the where clause *)
Fixpoint where_bounds (trait : str) (comma : bool) (generics : list str) : list token :=
  match generics with
  | [] => []
  | g :: rest => (if comma then [TkPunct x2c] else []) ++ TkIdent g :: TkPunct x3a :: crate_path trait ++
                 where_bounds trait true rest
  end.
(** octane_macros/src/json.rs:154-156, 171-173 (and the three copies): the header of the generated
    [impl], as tokens. *)
Definition impl_header (trait : str) (info : struct_info) : list token :=
  TkIdent (B "impl") :: si_gen_between info ++ crate_path trait ++ TkIdent (B "for") :: si_name info ::
  gen_list (si_generics info) ++ TkIdent (B "where") :: si_where_between info ++
  where_bounds trait (where_needs_comma (si_where_between info)) (si_generics info).

(** ** Meaning of the generated code

    [crate::Value]: objects (a HashMap), arrays, and other values of type [L].
    (octane_macros/src/json.rs:157-158, 231-232) *)
Inductive value (L : Type) :=
| VObject (m : list (str * value L))
| VArray (l : list (value L))
| VLeaf (x : L).
Arguments VObject {L}.
Arguments VArray {L}.
Arguments VLeaf {L}.

Section Json.
Context {L F : Type}.
(** [from_json]/[to_json] of the type of the field with the given name; [F]: field values. *)
Context (field_from : str -> value L -> option F) (field_to : str -> F -> option (value L)).

(** octane_macros/src/json.rs:115-121 one initialiser per field, evaluated in order:
    [obj.remove(name)?] then [from_json(..)?]. *)
Fixpoint init_fields (obj : list (str * value L)) (fields : list str)
  : option (list (str * F) * list (str * value L)) :=
  match fields with
  | [] => Some ([], obj)
  | f :: rest =>
      match mget seqb f obj with
      | None => None
      | Some v =>
          match field_from f v with
          | None => None
          | Some x =>
              match init_fields (mremove seqb f obj) rest with
              | None => None
              | Some (l, obj') => Some ((f, x) :: l, obj')
              end
          end
      end
  end.
(** octane_macros/src/json.rs:154-170 the generated [from_json] for a braced struct.  The struct
    value is the list of its fields. *)
Definition from_json_braces (fields : list str) (v : value L) : option (list (str * F)) :=
  match v with
  | VObject obj =>
      match init_fields obj fields with
      | Some (ret, []) => Some ret
      | _ => None
      end
  | _ => None
  end.

(** octane_macros/src/json.rs:271-277 one [insert] per field *)
Fixpoint insert_fields (obj : list (str * value L)) (fields : list str) (self : list (str * F))
  : option (list (str * value L)) :=
  match fields with
  | [] => Some obj
  | f :: rest =>
      match mget seqb f self with
      | None => None            (* no such field: would not compile *)
      | Some x =>
          match field_to f x with
          | None => None
          | Some v => insert_fields (mset seqb f v obj) rest self
          end
      end
  end.
(** octane_macros/src/json.rs:307-315 the generated [to_json] for a braced struct *)
Definition to_json_braces (fields : list str) (self : list (str * F)) : option (value L) :=
  match insert_fields [] fields self with
  | Some obj => Some (VObject obj)
  | None => None
  end.
End Json.

Section JsonTuple.
Context {L F : Type}.
(** [from_json]/[to_json] of the type of the [i]-th field *)
Context (field_from : nat -> value L -> option F) (field_to : nat -> F -> option (value L)).

(** octane_macros/src/json.rs:192-195 [from_json(it.next()?)?] once per field; fields
    [i .. i + n - 1] *)
Fixpoint init_tuple (i n : nat) (it : list (value L)) : option (list F * list (value L)) :=
  match n with
  | O => Some ([], it)
  | S n' =>
      match it with
      | [] => None
      | v :: it' =>
          match field_from i v with
          | None => None
          | Some x =>
              match init_tuple (S i) n' it' with
              | None => None
              | Some (l, it'') => Some (x :: l, it'')
              end
          end
      end
  end.
(** octane_macros/src/json.rs:228-245 the generated [from_json] for a tuple struct *)
Definition from_json_parens (n : nat) (v : value L) : option (list F) :=
  match v with
  | VArray arr =>
      match init_tuple 0 n arr with
      | Some (ret, []) => Some ret
      | _ => None
      end
  | _ => None
  end.

(** octane_macros/src/json.rs:337-340 [arr.push(to_json(self.i)?)] *)
Fixpoint push_tuple (i n : nat) (self : list F) : option (list (value L)) :=
  match n with
  | O => Some []
  | S n' =>
      match nth_error self i with
      | None => None            (* no such field: would not compile *)
      | Some x =>
          match field_to i x with
          | None => None
          | Some v => match push_tuple (S i) n' self with
                      | Some l => Some (v :: l)
                      | None => None
                      end
          end
      end
  end.
(** octane_macros/src/json.rs:370-378 the generated [to_json] for a tuple struct *)
Definition to_json_parens (n : nat) (self : list F) : option (value L) :=
  match push_tuple 0 n self with
  | Some l => Some (VArray l)
  | None => None
  end.
End JsonTuple.

(** ** The main/test attributes *)

(** octane_macros/src/stream_parser.rs:3-8 [StreamParser] *)
Record stream_parser := StreamParser {
  sp_is_async : bool; sp_rest : list token; sp_signature : list token
}.
(** octane_macros/src/stream_parser.rs:22-43 the loop of [parse] *)
Fixpoint stream_parse_loop (s : stream_parser) (toks : list token) : stream_parser :=
  match toks with
  | [] => s
  | t :: rest =>
      let push := StreamParser (sp_is_async s) (sp_rest s) (sp_signature s ++ [t]) in
      match t with
      | TkGroup DBrace body => StreamParser (sp_is_async s) body (sp_signature s)
      | TkGroup _ _ => stream_parse_loop push rest
      | TkIdent x =>
          if seqb x (B "async")
          then stream_parse_loop (StreamParser true (sp_rest s) (sp_signature s)) rest
          else stream_parse_loop push rest
      | _ => stream_parse_loop push rest
      end
  end.
(** octane_macros/src/stream_parser.rs:19-47 [parse] *)
Definition stream_parse (toks : list token) : stream_parser :=
  stream_parse_loop (StreamParser false [] []) toks.

(** [a::b::c] (octane_macros/src/lib.rs:133, 173) *)
Fixpoint path_tokens (l : list str) : list token :=
  match l with
  | [] => []
  | [x] => [TkIdent x]
  | x :: rest => TkIdent x :: TkPunct x3a :: TkPunct x3a :: path_tokens rest
  end.
(** [.m(args)] (octane_macros/src/lib.rs:135-138, 140, 141, 175-176, 178, 179) *)
Definition method_call (m : str) (args : list token) : list token :=
  [TkPunct x2e; TkIdent m; TkGroup DParen args].
(** octane_macros/src/lib.rs:124-126, 163-165 [compile_error!(..);] *)
Definition async_missing : list token :=
  [TkIdent (B "compile_error"); TkPunct x21;
   TkGroup DParen [TkLit (B """the async keyword is missing from function declaration""")]; TkPunct x3b].
(** octane_macros/src/lib.rs:120-127, 159-166 *)
Definition async_check (p : stream_parser) : list token :=
  if sp_is_async p then [] else async_missing.
(** [let mut x = e;] (octane_macros/src/lib.rs:133, 140, 173, 178) *)
Definition let_mut (x : str) (e : list token) : list token :=
  TkIdent (B "let") :: TkIdent (B "mut") :: TkIdent x :: TkPunct x3d :: e ++ [TkPunct x3b].
(** octane_macros/src/lib.rs:140-143, 178-181: the runtime is built and runs the body. *)
Definition run_tokens (rest : list token) : list token :=
  let_mut (B "runtime")
    (TkIdent (B "builder") :: method_call (B "build") [] ++
     method_call (B "expect") [TkLit (B """Unable to build tokio runtime""")]) ++
  TkIdent (B "runtime") :: method_call (B "block_on") [TkIdent (B "async"); TkGroup DBrace rest].
(** octane_macros/src/lib.rs:116-148 [main], the tokens it returns; [cpus] is [num_cpus::get()] in
    the process that expands the macro, printed as the usize literal [quote!] makes of it. *)
Definition main_tokens (cpus : N) (item : list token) : list token :=
  let p := stream_parse item in
  let num_cpus := (cpus * 2)%N in
  sp_signature p ++ [TkGroup DBrace (
    async_check p ++
    let_mut (B "builder")
      (path_tokens [B "tokio"; B "runtime"; B "Builder"; B "new_multi_thread"] ++ [TkGroup DParen []]) ++
    TkIdent (B "builder") :: method_call (B "enable_io") [] ++
    method_call (B "thread_stack_size") [TkLit (B "10485760")] ++
    method_call (B "thread_name") [TkLit (B """octane-main""")] ++
    method_call (B "worker_threads") [TkLit (show_N num_cpus ++ B "usize")] ++ [TkPunct x3b] ++
    run_tokens (sp_rest p))].
(** octane_macros/src/lib.rs:156-186 [test], the tokens it returns *)
Definition test_tokens (item : list token) : list token :=
  let p := stream_parse item in
  [TkPunct x23; TkGroup DBracket [TkIdent (B "test")]] ++
  sp_signature p ++ [TkGroup DBrace (
    async_check p ++
    let_mut (B "builder")
      (path_tokens [B "tokio"; B "runtime"; B "Builder"; B "new_current_thread"] ++ [TkGroup DParen []]) ++
    TkIdent (B "builder") :: method_call (B "enable_io") [] ++
    method_call (B "thread_name") [TkLit (B """octane-test""")] ++ [TkPunct x3b] ++
    run_tokens (sp_rest p))].
