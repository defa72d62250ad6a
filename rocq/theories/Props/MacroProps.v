(** C61-C63, C67: the derive macros and the main attribute. *)
From Coq Require Import Permutation.
From Verif.Model Require Import RustStd Macros.
From Verif.Spec Require Import MacroSpec.
From Verif.Proofs Require Import MacroProofs.

(** C61.  The fields found in a struct body. *)
Theorem C61_fields_partial :
  forall ds trailing, Forall (fun d => no_comma (fd_ty d)) ds ->
  brace_fields true (comma_sep (map field_text ds) trailing) = map fd_name ds.
Proof. exact fields_ok. Qed.
Print Assumptions C61_fields_partial.
(** Every public field is taken for a field named "pub". *)
Theorem C61_pub_refuted :
  forall ds d inside ds' trailing, Forall (fun d => no_comma (fd_ty d)) ds -> no_comma (fd_ty d) ->
  Forall (fun d => no_comma (fd_ty d)) ds' ->
  brace_fields true (comma_sep (map field_text ds ++ pub_text inside d :: map field_text ds') trailing) =
  map fd_name ds ++ B "pub" :: map fd_name ds'.
Proof. exact fields_pub. Qed.
Print Assumptions C61_pub_refuted.
(** Every type with a comma adds a field. *)
Theorem C61_comma_refuted :
  forall ds d pre v post ds' trailing, Forall (fun d => no_comma (fd_ty d)) ds ->
  fd_ty d = pre ++ COMMA :: TkIdent v :: post -> no_comma pre -> no_comma post ->
  Forall (fun d => no_comma (fd_ty d)) ds' ->
  brace_fields true (comma_sep (map field_text (ds ++ d :: ds')) trailing) =
  map fd_name ds ++ fd_name d :: v :: map fd_name ds'.
Proof. exact fields_comma. Qed.
Print Assumptions C61_comma_refuted.
(** Tuple structs: public fields are fine, types without an identifier of their own are missed. *)
Theorem C61_tuple_partial :
  forall ds trailing, Forall (fun d => no_comma (td_ty d) /\ has_ident (td_ty d)) ds ->
  paren_fields true (comma_sep (map tuple_text ds) trailing) = length ds.
Proof. exact tuple_ok. Qed.
Print Assumptions C61_tuple_partial.
Theorem C61_tuple_refuted :
  forall ds d ds' trailing, Forall (fun d => no_comma (td_ty d) /\ has_ident (td_ty d)) ds ->
  no_comma (td_ty d) -> ~ has_ident (td_ty d) -> Forall (fun d => no_comma (td_ty d) /\ has_ident (td_ty d)) ds' ->
  paren_fields true (comma_sep (map tuple_text (ds ++ d :: ds')) trailing) = length ds + length ds'.
Proof. exact tuple_missed. Qed.
Print Assumptions C61_tuple_refuted.
Example C61_example :
  let id := FieldDecl [[TkIdent (B "doc"); TkPunct x3d; TkLit (B "x")]] (B "id") [TkIdent (B "u64")] in
  let tags := FieldDecl [] (B "tags") [TkIdent (B "Vec"); LT; TkGroup DParen [TkIdent (B "u8"); COMMA; TkIdent (B "u8")]; GT] in
  let map := FieldDecl [] (B "m") [TkIdent (B "HashMap"); LT; TkIdent (B "K"); COMMA; TkIdent (B "V"); GT] in
  brace_fields true (comma_sep [field_text id; field_text tags] true) = [B "id"; B "tags"] /\
  brace_fields true (comma_sep [field_text id; field_text map] false) = [B "id"; B "m"; B "V"] /\
  brace_fields true (comma_sep [pub_text None id; pub_text (Some [TkIdent (B "crate")]) tags] true) = [B "pub"; B "pub"] /\
  paren_fields true (comma_sep [[TkIdent (B "pub"); TkIdent (B "u8")]; [TkGroup DBracket [TkIdent (B "u8")]]; [TkIdent (B "T")]] false) = 2.
Proof. repeat split. Qed.

(** C62.  The generated conversions; [ffrom] and [fto] are those of the fields' types. *)
Theorem C62_round_trip :
  forall (L F : Type) (ffrom : str -> value L -> option F) fto self v, NoDup (map fst self) ->
  (forall k x u, In (k, x) self -> fto k x = Some u -> ffrom k u = Some x) ->
  to_json_braces fto (map fst self) self = Some v -> from_json_braces ffrom (map fst self) v = Some self.
Proof. exact @round_trip. Qed.
Print Assumptions C62_round_trip.
(** Reading succeeds exactly on objects with the declared members and no others, each readable. *)
Theorem C62_from_exact :
  forall (L F : Type) (ffrom : str -> value L -> option F) fields obj ret, NoDup fields -> NoDup (map fst obj) ->
  (from_json_braces ffrom fields (VObject obj) = Some ret <->
   map fst ret = fields /\ incl (map fst obj) fields /\
   forall f x, In (f, x) ret -> exists v, In (f, v) obj /\ ffrom f v = Some x).
Proof. exact @from_object. Qed.
Print Assumptions C62_from_exact.
Theorem C62_only_objects :
  forall (L F : Type) (ffrom : str -> value L -> option F) fields v ret,
  from_json_braces ffrom fields v = Some ret -> exists obj, v = VObject obj.
Proof. exact @from_only_objects. Qed.
Print Assumptions C62_only_objects.
Theorem C62_order_irrelevant :
  forall (L F : Type) (ffrom : str -> value L -> option F) fields obj obj', NoDup fields -> NoDup (map fst obj) ->
  Permutation obj obj' -> from_json_braces ffrom fields (VObject obj) = from_json_braces ffrom fields (VObject obj').
Proof. exact @from_perm. Qed.
Print Assumptions C62_order_irrelevant.
(** Writing fails exactly when a field cannot be written, and else gives the members. *)
Theorem C62_to_exact :
  forall (L F : Type) (fto : str -> F -> option (value L)) self, NoDup (map fst self) ->
  match to_json_braces fto (map fst self) self with
  | Some v => exists obj, v = VObject obj /\ NoDup (map fst obj) /\
      (forall k x, In (k, x) self -> exists u, fto k x = Some u) /\
      forall k u, In (k, u) obj <-> exists x, In (k, x) self /\ fto k x = Some u
  | None => exists k x, In (k, x) self /\ fto k x = None
  end.
Proof. exact @to_object. Qed.
Print Assumptions C62_to_exact.
Theorem C62_back :
  forall (L F : Type) (ffrom : str -> value L -> option F) fto fields obj ret, NoDup fields -> NoDup (map fst obj) ->
  (forall k x u, ffrom k u = Some x -> fto k x = Some u) ->
  from_json_braces ffrom fields (VObject obj) = Some ret ->
  exists obj', to_json_braces fto fields ret = Some (VObject obj') /\ Permutation obj' obj.
Proof. exact @round_back. Qed.
Print Assumptions C62_back.
(** Tuple structs *)
Theorem C62_tuple_round_trip :
  forall (L F : Type) (ffrom : nat -> value L -> option F) fto self v,
  (forall i x u, nth_error self i = Some x -> fto i x = Some u -> ffrom i u = Some x) ->
  to_json_parens fto (length self) self = Some v -> from_json_parens ffrom (length self) v = Some self.
Proof. exact @round_trip_tuple. Qed.
Print Assumptions C62_tuple_round_trip.
Theorem C62_tuple_from_exact :
  forall (L F : Type) (ffrom : nat -> value L -> option F) n v l, from_json_parens ffrom n v = Some l <->
  exists arr, v = VArray arr /\ length l = n /\ pointwise (fun i u x => ffrom i u = Some x) arr l.
Proof. exact @from_array. Qed.
Print Assumptions C62_tuple_from_exact.
Theorem C62_tuple_to_exact :
  forall (L F : Type) (fto : nat -> F -> option (value L)) self,
  match to_json_parens fto (length self) self with
  | Some v => exists arr, v = VArray arr /\ pointwise (fun i u x => fto i x = Some u) arr self
  | None => exists i x, nth_error self i = Some x /\ fto i x = None
  end.
Proof. exact @to_array. Qed.
Print Assumptions C62_tuple_to_exact.
Example C62_example :
  let ffrom (_ : str) (v : value nat) := match v with VLeaf x => Some x | _ => None end in
  let fto (_ : str) x := if x =? 9 then None else Some (VLeaf x) in
  let self := [(B "id", 1); (B "age", 2)] in
  to_json_braces fto (map fst self) self = Some (VObject [(B "id", VLeaf 1); (B "age", VLeaf 2)]) /\
  from_json_braces ffrom (map fst self) (VObject [(B "age", VLeaf 2); (B "id", VLeaf 1)]) = Some self /\
  from_json_braces ffrom (map fst self) (VObject [(B "age", VLeaf 2)]) = None /\
  from_json_braces ffrom (map fst self) (VObject [(B "age", VLeaf 2); (B "id", VLeaf 1); (B "x", VLeaf 0)]) = None /\
  to_json_braces fto [B "id"] [(B "id", 9)] = None.
Proof. repeat split. Qed.

(** C63.  The main attribute: the same signature without [async], and a block whose value is that of
    the body; a complaint exactly when [async] is missing. *)
Theorem C63_main :
  forall cpus pre body post, Forall (fun t => ~ is_brace t) pre ->
  exists sg block, function_with [] sg block (main_tokens cpus (pre ++ TkGroup DBrace body :: post)) /\
    without (TkIdent (B "async")) pre sg /\ runs_last body block /\
    (complains block <-> ~ In (TkIdent (B "async")) pre).
Proof. exact main_ok. Qed.
Print Assumptions C63_main.
Theorem C63_no_body :
  forall cpus pre, Forall (fun t => ~ is_brace t) pre ->
  exists sg block, function_with [] sg block (main_tokens cpus pre) /\
    without (TkIdent (B "async")) pre sg /\ runs_last [] block /\
    (complains block <-> ~ In (TkIdent (B "async")) pre).
Proof. exact main_bodiless. Qed.
Print Assumptions C63_no_body.
(** The test attribute: the same, marked [#[test]]. *)
Theorem C63_test :
  forall pre body post, Forall (fun t => ~ is_brace t) pre ->
  exists sg block, function_with [TkPunct x23; TkGroup DBracket [TkIdent (B "test")]] sg block
      (test_tokens (pre ++ TkGroup DBrace body :: post)) /\
    without (TkIdent (B "async")) pre sg /\ runs_last body block /\
    (complains block <-> ~ In (TkIdent (B "async")) pre).
Proof. exact test_ok. Qed.
Print Assumptions C63_test.
Theorem C63_determined :
  forall t l a b, without t l a -> without t l b -> a = b.
Proof. exact without_fun. Qed.
Print Assumptions C63_determined.
Example C63_example :
  let item body := [TkIdent (B "pub"); TkIdent (B "async"); TkIdent (B "fn"); TkIdent (B "main"); TkGroup DParen []; TkGroup DBrace body] in
  let sg := [TkIdent (B "pub"); TkIdent (B "fn"); TkIdent (B "main"); TkGroup DParen []] in
  (exists block, main_tokens 4 (item [TkIdent (B "x")]) = sg ++ [TkGroup DBrace block] /\ runs_last [TkIdent (B "x")] block /\
     length (statements block) = 4) /\
  (exists block, main_tokens 4 sg = sg ++ [TkGroup DBrace block] /\ length (statements block) = 5 /\
     hd [] (statements block) = [TkIdent (B "compile_error"); TkPunct x21;
       TkGroup DParen [TkLit (B """the async keyword is missing from function declaration""")]]).
Proof. split; (eexists; split; [reflexivity|]; split; reflexivity). Qed.

(** C67.  The struct declaration: name, parameters, where clause, body. *)
Theorem C67_declaration_partial :
  forall pre name gs trailing w body post, ~ In (TkIdent (B "struct")) pre -> Forall (fun g => flat (gp_rest g)) gs ->
  (Forall where_token (clause_of w) \/ gs <> [] /\ trailing = false /\ where_clause (clause_of w)) ->
  handle_derive (struct_head pre name gs trailing w ++ TkGroup DBrace body :: post) =
  Done (DrBraces body (StructInfo (TkIdent name) (generics_text gs trailing) (clause_of w) (map gp_name gs))).
Proof. exact derive_braces. Qed.
Print Assumptions C67_declaration_partial.
(** The where clause of a tuple struct, which follows the body, is lost. *)
Theorem C67_tuple_where_refuted :
  forall pre name gs trailing body post, ~ In (TkIdent (B "struct")) pre -> Forall (fun g => flat (gp_rest g)) gs ->
  handle_derive (struct_head pre name gs trailing None ++ TkGroup DParen body :: post) =
  Done (DrParens body (StructInfo (TkIdent name) (generics_text gs trailing) [] (map gp_name gs))).
Proof. exact derive_parens. Qed.
Print Assumptions C67_tuple_where_refuted.
Theorem C67_unit_struct_panics_refuted :
  forall pre name gs trailing w, ~ In (TkIdent (B "struct")) pre -> Forall (fun g => flat (gp_rest g)) gs ->
  (Forall where_token (clause_of w) \/ gs <> [] /\ trailing = false /\ where_clause (clause_of w)) ->
  handle_derive (struct_head pre name gs trailing w ++ [TkPunct x3b]) = Panic.
Proof. exact unit_panics. Qed.
Print Assumptions C67_unit_struct_panics_refuted.
Theorem C67_only_structs :
  forall toks, handle_derive toks = Done DrCompileError <-> ~ In (TkIdent (B "struct")) toks.
Proof. exact not_struct. Qed.
Print Assumptions C67_only_structs.
(** The header of the generated impl; a comma is put between the clauses when one is needed. *)
Theorem C67_header :
  forall trait name gens names wh,
  exists sep, clause_sep wh names sep /\ impl_header trait (StructInfo (TkIdent name) gens wh names) =
    impl_text trait name gens names (wh ++ sep ++ comma_sep (map (bound_text trait) names) false).
Proof. exact header_ok. Qed.
Print Assumptions C67_header.
(** Lifetimes, const parameters, and where clauses with commas or arrows or parentheses. *)
Theorem C67_refuted :
  let generics r := match r with Done (DrBraces _ i) => Some (si_generics i) | _ => None end in
  let decl l := [TkIdent (B "struct"); TkIdent (B "S")] ++ l ++ [TkGroup DBrace []] in
  generics (handle_derive (decl [LT; TkPunct x27; TkIdent (B "a"); GT])) = Some [B "a"] /\
  generics (handle_derive (decl [LT; TkIdent (B "const"); TkIdent (B "N"); TkPunct x3a; TkIdent (B "usize"); GT])) = Some [B "const"] /\
  generics (handle_derive (decl ([LT; TkIdent (B "T"); GT] ++ [TkIdent (B "where"); TkIdent (B "T"); TkPunct x3a; TkIdent (B "X");
     LT; TkIdent (B "A"); COMMA; TkIdent (B "B"); GT]))) = Some [B "T"; B "B"] /\
  handle_derive (decl ([LT; TkIdent (B "T"); GT] ++ [TkIdent (B "where"); TkIdent (B "T"); TkPunct x3a; TkIdent (B "Fn"); TkGroup DParen []])) =
    Done (DrParens [] (StructInfo (TkIdent (B "S")) [LT; TkIdent (B "T"); GT] [TkIdent (B "T"); TkPunct x3a; TkIdent (B "Fn")] [B "T"])) /\
  handle_derive (decl ([LT; TkIdent (B "T"); TkPunct x3a; TkIdent (B "Fn"); TkGroup DParen []; TkPunct x2d; GT; TkIdent (B "u8"); GT])) = Panic.
Proof. vm_compute. repeat split; reflexivity. Qed.
Print Assumptions C67_refuted.
Example C67_example :
  handle_derive (struct_head [TkPunct x23; TkGroup DBracket [TkIdent (B "struct")]; TkIdent (B "pub")] (B "P")
     [GParam (B "T") [TkPunct x3a; TkIdent (B "Into"); LT; TkIdent (B "u8"); GT]; GParam (B "U") []] false
     (Some [TkIdent (B "U"); TkPunct x3a; TkIdent (B "From"); LT; TkIdent (B "T"); GT]) ++ [TkGroup DBrace [TkIdent (B "x")]]) =
  Done (DrBraces [TkIdent (B "x")] (StructInfo (TkIdent (B "P"))
     [LT; TkIdent (B "T"); TkPunct x3a; TkIdent (B "Into"); LT; TkIdent (B "u8"); GT; COMMA; TkIdent (B "U"); GT]
     [TkIdent (B "U"); TkPunct x3a; TkIdent (B "From"); LT; TkIdent (B "T"); GT] [B "T"; B "U"])).
Proof. vm_compute. reflexivity. Qed.
