(** Model of octane_macros/src/json.rs at the level of text: the four [format!] calls, and
    [TokenStream::from_str] that turns the text into tokens. *)
From Verif.Model Require Export RustStd Macros Derive.

(** ** [str::parse::<TokenStream>] (called in octane_macros/src/json.rs:28, 91-93, 147-151, 173,
    221-225, 248, 302-305, 318, 365-368, 381)

    Simplification: comments, character, byte and raw string literals, numbers with a point and
    identifiers that are not ASCII are not known; their characters come out one by one. *)
Inductive lexeme := LWord (w : str) | LText (s : str) | LMark (c : byte).
(** Where in a token the next character is (octane_macros/src/json.rs:28, 91-93, 173 [parse]) *)
Inductive lex_state := LBetween | LInWord (w : str) | LInText (s : str) | LInEscape (s : str).
(** Letters, digits and the underscore (octane_macros/src/json.rs:173 [parse]) *)
Definition lex_word_byte (b : byte) : bool :=
  let n := bN b in
  ((97 <=? n) && (n <=? 122) || (65 <=? n) && (n <=? 90) || (48 <=? n) && (n <=? 57) || (n =? 95))%N.
(** White space (octane_macros/src/json.rs:173 [parse]) *)
Definition lex_space (b : byte) : bool := beqb b x20 || beqb b x09 || beqb b x0a || beqb b x0d.
(** A character outside of tokens (octane_macros/src/json.rs:173 [parse]) *)
Definition lex_start (b : byte) : list lexeme * lex_state :=
  if lex_word_byte b then ([], LInWord [b])
  else if lex_space b then ([], LBetween)
  else if beqb b x22 then ([], LInText [b])
  else ([LMark b], LBetween).
(** One character; [r#] starts a raw identifier (octane_macros/src/json.rs:173 [parse]) *)
Definition lex_step (st : lex_state) (b : byte) : list lexeme * lex_state :=
  match st with
  | LBetween => lex_start b
  | LInWord w =>
      if lex_word_byte b then ([], LInWord (w ++ [b]))
      else if beqb b x23 && seqb w (B "r") then ([], LInWord (w ++ [b]))
      else let '(l, st') := lex_start b in (LWord w :: l, st')
  | LInText s =>
      if beqb b x22 then ([LText (s ++ [b])], LBetween)
      else if beqb b x5c then ([], LInEscape (s ++ [b]))
      else ([], LInText (s ++ [b]))
  | LInEscape s => ([], LInText (s ++ [b]))
  end.
(** All characters (octane_macros/src/json.rs:173 [parse]) *)
Fixpoint lex_run (st : lex_state) (s : str) : list lexeme * lex_state :=
  match s with
  | [] => ([], st)
  | b :: r =>
      let '(l, st1) := lex_step st b in
      let '(l', st2) := lex_run st1 r in
      (l ++ l', st2)
  end.
(** The end of the text: a string literal must have ended (octane_macros/src/json.rs:91-93, 173
    [parse]) *)
Definition lexemes (s : str) : option (list lexeme) :=
  let '(l, st) := lex_run LBetween s in
  match st with
  | LBetween => Some l
  | LInWord w => Some (l ++ [LWord w])
  | _ => None
  end.
(** A word is an identifier or, from a digit on, a number (octane_macros/src/json.rs:339 [self.{}]) *)
Definition word_token (w : str) : token :=
  match w with
  | b :: _ => if ((48 <=? bN b) && (bN b <=? 57))%N then TkLit w else TkIdent w
  | [] => TkIdent w
  end.
(** Opening and closing characters of groups (octane_macros/src/json.rs:154-173) *)
Definition opens (c : byte) : option delim :=
  if beqb c x7b then Some DBrace else if beqb c x28 then Some DParen else if beqb c x5b then Some DBracket else None.
(** Closing characters (octane_macros/src/json.rs:154-173) *)
Definition closes (c : byte) : option delim :=
  if beqb c x7d then Some DBrace else if beqb c x29 then Some DParen else if beqb c x5d then Some DBracket else None.
(** Equality of delimiters (octane_macros/src/json.rs:154-173) *)
Definition delim_eqb (a b : delim) : bool :=
  match a, b with DBrace, DBrace | DParen, DParen | DBracket, DBracket | DNone, DNone => true | _, _ => false end.
(** The group being read, innermost first, each with its tokens so far (octane_macros/src/json.rs:154-173) *)
Definition frame : Type := delim * list token.
(** One lexeme (octane_macros/src/json.rs:154-173 [parse]) *)
Definition group_step (fs : list frame) (l : lexeme) : option (list frame) :=
  match fs with
  | [] => None
  | (d, x) :: fs' =>
      match l with
      | LWord w => Some ((d, x ++ [word_token w]) :: fs')
      | LText s => Some ((d, x ++ [TkLit s]) :: fs')
      | LMark c =>
          match opens c with
          | Some d' => Some ((d', []) :: fs)
          | None =>
              match closes c with
              | Some d' =>
                  match fs' with
                  | (e, y) :: fs'' => if delim_eqb d d' then Some ((e, y ++ [TkGroup d x]) :: fs'') else None
                  | [] => None
                  end
              | None => Some ((d, x ++ [TkPunct c]) :: fs')
              end
          end
      end
  end.
(** All lexemes (octane_macros/src/json.rs:154-173 [parse]) *)
Fixpoint group_run (fs : list frame) (l : list lexeme) : option (list frame) :=
  match l with
  | [] => Some fs
  | x :: r => match group_step fs x with Some fs' => group_run fs' r | None => None end
  end.
(** [s.parse::<TokenStream>()] (octane_macros/src/json.rs:28, 91-93, 147-151, 173) *)
Definition parse_tokens (s : str) : option (list token) :=
  match lexemes s with
  | None => None
  | Some l => match group_run [(DNone, [])] l with Some [(_, ts)] => Some ts | _ => None end
  end.

Section Text.
(** [TokenStream::to_string] (octane_macros/src/json.rs:30, 171) *)
Context (print : list token -> str).

(** octane_macros/src/json.rs:122-134 (and 196-208, 278-290, 341-353): [gen_list] *)
Fixpoint gen_names (l : list str) : str :=
  match l with
  | [] => []
  | [x] => x
  | x :: rest => x ++ B "," ++ gen_names rest
  end.
(** octane_macros/src/json.rs:122-134 (and 196-208, 278-290, 341-353) *)
Definition gen_list_text (generics : list str) : str :=
  match generics with
  | [] => []
  | _ => B "<" ++ gen_names generics ++ B ">"
  end.
(** octane_macros/src/json.rs:146-153, 220-227 with [trait] FromJSON, 302-306, 365-369 with ToJSON: the
    bounds added to [where_between] *)
Fixpoint extend_where (trait comma : str) (generics : list str) (where_between : list token) : outcome (list token) :=
  match generics with
  | [] => Done where_between
  | g :: rest =>
      obind (unwrap (parse_tokens (comma ++ g ++ B ": crate::" ++ trait))) (fun ts =>
        extend_where trait (B ", ") rest (where_between ++ ts))
  end.
(** octane_macros/src/json.rs:135-153, 209-227, 291-305, 354-368 *)
Definition where_printed (trait : str) (info : struct_info) : outcome str :=
  obind (extend_where trait (if where_needs_comma (si_where_between info) then B ", " else [])
           (si_generics info) (si_where_between info)) (fun w => Done (print w)).
(** [impl{} crate::FromJSON for {}{} where {} ] with [trait] for FromJSON (octane_macros/src/json.rs:154-156,
    228-230, 306-308, 369-371); [body] is what follows *)
Definition impl_text_of (trait : str) (info : struct_info) (body : str) : outcome (list token) :=
  obind (where_printed trait info) (fun w =>
    unwrap (parse_tokens (
      B "impl" ++ print (si_gen_between info) ++ B " crate::" ++ trait ++ B " for " ++ print [si_name info] ++
      gen_list_text (si_generics info) ++ B " where " ++ w ++ B " " ++ body))).

(** octane_macros/src/json.rs:100-173 [fromjson_braces] *)
Definition fromjson_braces (toks : list token) (info : struct_info) : outcome (list token) :=
  let vals := flat_map (fun f =>
    f ++ B ": crate::FromJSON::from_json(obj.remove(" ++ debug_str DebugNew f ++ B ")?)?,") (brace_fields true toks) in
  impl_text_of (B "FromJSON") info (
    B "{fn from_json(val: crate::Value) -> Option<Self> {if let crate::Value::Object(mut obj) = val {let ret = Self {" ++
    vals ++
    B "};if !obj.is_empty() {return None;}Some(ret)} else {None}}}").
(** octane_macros/src/json.rs:177-249 [fromjson_parens]; the line after [into_iter();] is not joined to
    it *)
Definition fromjson_parens (toks : list token) (info : struct_info) : outcome (list token) :=
  let vals := concat (repeat (B "crate::FromJSON::from_json(it.next()?)?,") (paren_fields true toks)) in
  impl_text_of (B "FromJSON") info (
    B "{fn from_json(val: crate::Value) -> Option<Self> {if let crate::Value::Array(arr) = val {let mut it = arr.into_iter();" ++
    x0a :: B "                let ret = Self (" ++
    vals ++
    B ");if it.next().is_some() {return None;}Some(ret)} else {None}}}").
(** octane_macros/src/json.rs:256-320 [tojson_braces] *)
Definition tojson_braces (toks : list token) (info : struct_info) : outcome (list token) :=
  let vals := flat_map (fun f =>
    B "obj.insert(" ++ debug_str DebugNew f ++ B ".to_owned(), crate::ToJSON::to_json(self." ++ f ++ B ")?);") (brace_fields true toks) in
  impl_text_of (B "ToJSON") info (
    B "{fn to_json(self) -> Option<crate::Value> {let mut obj = std::collections::HashMap::new();" ++
    vals ++
    B "Some(crate::Value::Object(obj))}}").
(** octane_macros/src/json.rs:322-383 [tojson_parens] *)
Definition tojson_parens (toks : list token) (info : struct_info) : outcome (list token) :=
  let vals := flat_map (fun i =>
    B "arr.push(crate::ToJSON::to_json(self." ++ show_N (N.of_nat i) ++ B ")?);") (seq 0 (paren_fields true toks)) in
  impl_text_of (B "ToJSON") info (
    B "{fn to_json(self) -> Option<crate::Value> {let mut arr = Vec::new();" ++
    vals ++
    B "Some(crate::Value::Array(arr))}}").
(** octane_macros/src/json.rs:28 *)
Definition only_structs_text : str := B "compile_error!(""Only structs are supported."");".
(** octane_macros/src/json.rs:91 *)
Definition no_body_text : str := B "compile_error!(""Could not find compatible struct body.".
(** octane_macros/src/json.rs:11-94 [handle_derive]: nothing after [struct] panics (30); without a body the
    message is parsed (91-93) *)
Definition handled (f : derive_result -> outcome (list token)) (toks : list token) : outcome (list token) :=
  match after_struct toks with
  | Some [] => Panic
  | _ => match handle_derive toks with Done r => f r | Panic => unwrap (parse_tokens no_body_text) end
  end.
(** octane_macros/src/json.rs:96-98 [derive_from_json] *)
Definition derive_from_json_text (toks : list token) : outcome (list token) :=
  handled (fun r =>
    match r with
    | DrBraces body info => fromjson_braces body info
    | DrParens body info => fromjson_parens body info
    | DrCompileError => unwrap (parse_tokens only_structs_text)
    end) toks.
(** octane_macros/src/json.rs:252-254 [derive_to_json] *)
Definition derive_to_json_text (toks : list token) : outcome (list token) :=
  handled (fun r =>
    match r with
    | DrBraces body info => tojson_braces body info
    | DrParens body info => tojson_parens body info
    | DrCompileError => unwrap (parse_tokens only_structs_text)
    end) toks.
End Text.
