(** Model of the code generated by octane_macros/src/json.rs: the tokens that the four [format!] texts
    stand for.  Simplification: the text is not printed and parsed again (that is Model/DeriveText.v, and
    C115_text says that it makes no difference); identifiers, punctuation and groups are the tokens the
    parser makes of it. *)
From Verif.Model Require Export RustStd Macros.

(** [a::b::c(args)] (octane_macros/src/json.rs:118, 194, 274, 309, 339, 372) *)
Definition call_path (l : list str) (args : list token) : list token := path_tokens l ++ [TkGroup DParen args].
(** [{0:?}] of a field name (octane_macros/src/json.rs:118, 274) *)
Definition name_literal (f : str) : token := TkLit (debug_str DebugNew f).

(** octane_macros/src/json.rs:115-121 [vals] of a braced struct *)
Definition from_vals (fields : list str) : list token :=
  flat_map (fun f =>
    [TkIdent f; TkPunct x3a] ++
    call_path [B "crate"; B "FromJSON"; B "from_json"]
      (TkIdent (B "obj") :: method_call (B "remove") [name_literal f] ++ [TkPunct x3f]) ++
    [TkPunct x3f; TkPunct x2c]) fields.
(** octane_macros/src/json.rs:157, 231: the signature of [from_json] *)
Definition from_signature : list token :=
  [TkIdent (B "fn"); TkIdent (B "from_json");
   TkGroup DParen ([TkIdent (B "val"); TkPunct x3a] ++ path_tokens [B "crate"; B "Value"]);
   TkPunct x2d; TkPunct x3e; TkIdent (B "Option"); TkPunct x3c; TkIdent (B "Self"); TkPunct x3e].
(** [return None;] (octane_macros/src/json.rs:163, 238) *)
Definition return_none : list token := [TkIdent (B "return"); TkIdent (B "None"); TkPunct x3b].
(** octane_macros/src/json.rs:154-172 [fromjson_braces]: the generated impl *)
Definition from_braces_tokens (fields : list str) (info : struct_info) : list token :=
  impl_header (B "FromJSON") info ++
  [TkGroup DBrace (from_signature ++ [TkGroup DBrace (
    [TkIdent (B "if"); TkIdent (B "let")] ++
    call_path [B "crate"; B "Value"; B "Object"] [TkIdent (B "mut"); TkIdent (B "obj")] ++
    [TkPunct x3d; TkIdent (B "val");
     TkGroup DBrace (
       [TkIdent (B "let"); TkIdent (B "ret"); TkPunct x3d; TkIdent (B "Self"); TkGroup DBrace (from_vals fields); TkPunct x3b] ++
       [TkIdent (B "if"); TkPunct x21; TkIdent (B "obj")] ++ method_call (B "is_empty") [] ++ [TkGroup DBrace return_none] ++
       [TkIdent (B "Some"); TkGroup DParen [TkIdent (B "ret")]]);
     TkIdent (B "else"); TkGroup DBrace [TkIdent (B "None")]])])].

(** octane_macros/src/json.rs:192-195 [vals] of a tuple struct *)
Fixpoint from_tuple_vals (n : nat) : list token :=
  match n with
  | O => []
  | S n' =>
      call_path [B "crate"; B "FromJSON"; B "from_json"]
        (TkIdent (B "it") :: method_call (B "next") [] ++ [TkPunct x3f]) ++
      [TkPunct x3f; TkPunct x2c] ++ from_tuple_vals n'
  end.
(** octane_macros/src/json.rs:228-248 [fromjson_parens]: the generated impl *)
Definition from_parens_tokens (n : nat) (info : struct_info) : list token :=
  impl_header (B "FromJSON") info ++
  [TkGroup DBrace (from_signature ++ [TkGroup DBrace (
    [TkIdent (B "if"); TkIdent (B "let")] ++
    call_path [B "crate"; B "Value"; B "Array"] [TkIdent (B "arr")] ++
    [TkPunct x3d; TkIdent (B "val");
     TkGroup DBrace (
       let_mut (B "it") (TkIdent (B "arr") :: method_call (B "into_iter") []) ++
       [TkIdent (B "let"); TkIdent (B "ret"); TkPunct x3d; TkIdent (B "Self"); TkGroup DParen (from_tuple_vals n); TkPunct x3b] ++
       [TkIdent (B "if"); TkIdent (B "it")] ++ method_call (B "next") [] ++ method_call (B "is_some") [] ++
       [TkGroup DBrace return_none] ++
       [TkIdent (B "Some"); TkGroup DParen [TkIdent (B "ret")]]);
     TkIdent (B "else"); TkGroup DBrace [TkIdent (B "None")]])])].

(** octane_macros/src/json.rs:309, 372: the signature of [to_json] *)
Definition to_signature : list token :=
  [TkIdent (B "fn"); TkIdent (B "to_json"); TkGroup DParen [TkIdent (B "self")]; TkPunct x2d; TkPunct x3e;
   TkIdent (B "Option"); TkPunct x3c] ++ path_tokens [B "crate"; B "Value"] ++ [TkPunct x3e].
(** octane_macros/src/json.rs:271-277 [vals] of a braced struct *)
Definition to_vals (fields : list str) : list token :=
  flat_map (fun f =>
    TkIdent (B "obj") :: method_call (B "insert")
      (name_literal f :: method_call (B "to_owned") [] ++ [TkPunct x2c] ++
       call_path [B "crate"; B "ToJSON"; B "to_json"] [TkIdent (B "self"); TkPunct x2e; TkIdent f] ++ [TkPunct x3f]) ++
    [TkPunct x3b]) fields.
(** octane_macros/src/json.rs:306-318 [tojson_braces]: the generated impl *)
Definition to_braces_tokens (fields : list str) (info : struct_info) : list token :=
  impl_header (B "ToJSON") info ++
  [TkGroup DBrace (to_signature ++ [TkGroup DBrace (
    let_mut (B "obj") (call_path [B "std"; B "collections"; B "HashMap"; B "new"] []) ++
    to_vals fields ++
    [TkIdent (B "Some"); TkGroup DParen (call_path [B "crate"; B "Value"; B "Object"] [TkIdent (B "obj")])])])].
(** octane_macros/src/json.rs:337-340 [vals] of a tuple struct, for the fields from [i] on *)
Fixpoint to_tuple_vals (i n : nat) : list token :=
  match n with
  | O => []
  | S n' =>
      TkIdent (B "arr") :: method_call (B "push")
        (call_path [B "crate"; B "ToJSON"; B "to_json"] [TkIdent (B "self"); TkPunct x2e; TkLit (show_N (N.of_nat i))] ++ [TkPunct x3f]) ++
      [TkPunct x3b] ++ to_tuple_vals (S i) n'
  end.
(** octane_macros/src/json.rs:369-381 [tojson_parens]: the generated impl *)
Definition to_parens_tokens (n : nat) (info : struct_info) : list token :=
  impl_header (B "ToJSON") info ++
  [TkGroup DBrace (to_signature ++ [TkGroup DBrace (
    let_mut (B "arr") (call_path [B "Vec"; B "new"] []) ++
    to_tuple_vals 0 n ++
    [TkIdent (B "Some"); TkGroup DParen (call_path [B "crate"; B "Value"; B "Array"] [TkIdent (B "arr")])])])].

(** octane_macros/src/json.rs:28 [compile_error!("Only structs are supported.");] *)
Definition only_structs : list token :=
  [TkIdent (B "compile_error"); TkPunct x21; TkGroup DParen [TkLit (B """Only structs are supported.""")]; TkPunct x3b].
(** octane_macros/src/json.rs:96-98 [derive_from_json]; with 100-114 and 177-191 *)
Definition derive_from_json (toks : list token) : outcome (list token) :=
  obind (handle_derive toks) (fun r => Done
    (match r with
     | DrBraces body info => from_braces_tokens (brace_fields true body) info
     | DrParens body info => from_parens_tokens (paren_fields true body) info
     | DrCompileError => only_structs
     end)).
(** octane_macros/src/json.rs:252-254 [derive_to_json]; with 256-270 and 322-336 *)
Definition derive_to_json (toks : list token) : outcome (list token) :=
  obind (handle_derive toks) (fun r => Done
    (match r with
     | DrBraces body info => to_braces_tokens (brace_fields true body) info
     | DrParens body info => to_parens_tokens (paren_fields true body) info
     | DrCompileError => only_structs
     end)).
