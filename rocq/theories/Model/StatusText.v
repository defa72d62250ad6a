(** Model of octane_macros/src/status.rs on tokens: what [status_codes!] expands to. *)
From Verif.Model Require Export RustStd Macros Status DeriveText.
Local Open Scope Z_scope.

(** [ret.extend::<TokenStream>(text.parse().unwrap())] (octane_macros/src/status.rs:24, 32, 35-40, 45-49,
    51, 53, 59-64, 67) *)
Definition extend_text (ts : list token) (text : str) : outcome (list token) :=
  obind (unwrap (parse_tokens text)) (fun l => Done (ts ++ l)).
(** octane_macros/src/status.rs:25 [Ident::new]: panics unless the name is an identifier; names of letters
    are, unless there are none *)
Definition new_ident (s : str) : outcome token :=
  match s with [] => Panic | _ => Done (TkIdent s) end.
(** octane_macros/src/status.rs:21 [&repr[1..repr.len() - 1]] *)
Definition inner_text (repr : str) : outcome str :=
  if (length repr <? 2)%nat then Panic else Done (firstn (length repr - 2) (skipn 1 repr)).
(** octane_macros/src/status.rs:10-31 the loop: the state is [is_string], [prev_num], [entries] and
    [enum_stream] *)
Fixpoint codes_loop (is_string : bool) (prev_num : Z) (entries : list (Z * str * str)) (enum_stream : list token)
    (toks : list token) : outcome (list (Z * str * str) * list token) :=
  match toks with
  | [] => Done (entries, enum_stream)
  | TkLit repr :: rest =>
      if negb is_string then
        obind (unwrap (parse_i32 repr)) (fun val => codes_loop true val entries enum_stream rest)
      else
        obind (inner_text repr) (fun name =>
        let cased := pascal_case name in
        obind (extend_text enum_stream (B "#[doc(hidden)]")) (fun e1 =>
        obind (new_ident cased) (fun i =>
        codes_loop false prev_num (entries ++ [(prev_num, name, cased)]) (e1 ++ [i; TkPunct x2c]) rest)))
  | _ :: rest => codes_loop is_string prev_num entries enum_stream rest
  end.
(** octane_macros/src/status.rs:43-50 the arms of [match] *)
Fixpoint codes_arms (entries : list (Z * str * str)) (match_stream : list token) : outcome (list token) :=
  match entries with
  | [] => Done match_stream
  | (code, name, cased) :: rest =>
      obind (extend_text match_stream
        (B "StatusCode::" ++ cased ++ B " => (" ++ show_Z code ++ B ", " ++ debug_str DebugNew name ++ B "),")) (fun m =>
      codes_arms rest m)
  end.
(** octane_macros/src/status.rs:4-71 [status_codes].  Simplification: the two doc comments (36, 61), which
    become attributes without effect, are left out. *)
Definition status_codes (toks : list token) : outcome (list token) :=
  obind (codes_loop false (-1) [] [] toks) (fun '(entries, e) =>
  obind (extend_text e (B "#[doc(hidden)] Other(i32, &'static str)")) (fun enum_stream =>
  obind (extend_text [] (B "#[derive(Debug, Clone, Copy, PartialEq, Eq)] pub enum StatusCode")) (fun enum_tot =>
  let ret := enum_tot ++ [TkGroup DBrace enum_stream] in
  obind (codes_arms entries []) (fun m =>
  obind (extend_text m (B "StatusCode::Other(n, s) => (*n, s)")) (fun match_stream =>
  obind (extend_text [] (B "match self")) (fun function_body =>
  obind (extend_text [] (B "pub fn fetch(&self) -> (i32, &'static str)")) (fun impl_body =>
  obind (extend_text [] (B "impl StatusCode")) (fun full_impl =>
  Done (ret ++ full_impl ++ [TkGroup DBrace (impl_body ++ [TkGroup DBrace (function_body ++ [TkGroup DBrace match_stream])])]))))))))).
(** The input (octane_http/src/lib.rs:53-115) as tokens *)
Definition source_token (t : status_tok) : token :=
  match t with
  | TNum r => TkLit r
  | TStr s => TkLit ([x22] ++ s ++ [x22])
  | TOther => TkPunct x2c
  end.
