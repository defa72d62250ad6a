(** C115: derived conversions, from the tokens of the struct to what the generated functions do. *)
From Verif.Model Require Import RustStd Macros Derive DeriveText.
From Verif.Spec Require Import ResponseSpec MacroSpec RustLang DeriveSpec TokenText.
From Verif.Proofs Require Import DeriveProofs DeriveTextProofs.

(** Reading a struct: the generated [from_json] always returns, and returns a struct exactly for objects
    with the members declared, no others, each of them readable. *)
Theorem C115_from_json :
  forall pre name gs trailing w post, ~ In (TkIdent (B "struct")) pre -> Forall (fun g => flat (gp_rest g)) gs ->
  (Forall where_token (clause_of w) \/ gs <> [] /\ trailing = false /\ where_clause (clause_of w)) ->
  forall ds tr, Forall (fun d => no_comma (fd_ty d)) ds -> Forall field_name (map fd_name ds) -> NoDup (map fd_name ds) ->
  exists out body,
  derive_from_json (struct_head pre name gs trailing w ++ TkGroup DBrace (comma_sep (map field_text ds) tr) :: post) = Done out /\
  impl_with (B "FromJSON") name gs trailing w (from_json_fn body) out /\
  forall (L F : Type) (ffrom : str -> value L -> option F) fto v, is_hash_map v ->
  (forall r, computes ffrom fto [(B "val", RVal v)] body r -> r = ROpt None \/ exists st, r = ROpt (Some (RStruct st))) /\
  (exists r, computes ffrom fto [(B "val", RVal v)] body r) /\
  forall st, computes ffrom fto [(B "val", RVal v)] body (ROpt (Some (RStruct st))) <->
    exists obj, v = VObject obj /\ map fst st = map fd_name ds /\ incl (map fst obj) (map fd_name ds) /\
    forall f x, In (f, x) st -> exists u, In (f, u) obj /\ ffrom f u = Some x.
Proof. exact derived_from. Qed.
Print Assumptions C115_from_json.

(** Writing a struct: [None] exactly when some field cannot be written; else the object of its members. *)
Theorem C115_to_json :
  forall pre name gs trailing w post, ~ In (TkIdent (B "struct")) pre -> Forall (fun g => flat (gp_rest g)) gs ->
  (Forall where_token (clause_of w) \/ gs <> [] /\ trailing = false /\ where_clause (clause_of w)) ->
  forall ds tr, Forall (fun d => no_comma (fd_ty d)) ds -> Forall field_name (map fd_name ds) -> NoDup (map fd_name ds) ->
  exists out body,
  derive_to_json (struct_head pre name gs trailing w ++ TkGroup DBrace (comma_sep (map field_text ds) tr) :: post) = Done out /\
  impl_with (B "ToJSON") name gs trailing w (to_json_fn body) out /\
  forall (L F : Type) (ffrom : str -> value L -> option F) fto self, map fst self = map fd_name ds ->
  exists o, (forall r, computes ffrom fto [(B "self", RStruct self)] body r <-> r = ROpt (option_map RVal o)) /\
  match o with
  | Some v => exists obj, v = VObject obj /\ NoDup (map fst obj) /\
      (forall k x, In (k, x) self -> exists u, fto k x = Some u) /\
      forall k u, In (k, u) obj <-> exists x, In (k, x) self /\ fto k x = Some u
  | None => exists k x, In (k, x) self /\ fto k x = None
  end.
Proof. exact derived_to. Qed.
Print Assumptions C115_to_json.

(** Reading back what was written. *)
Theorem C115_round_trip :
  forall pre name gs trailing w post, ~ In (TkIdent (B "struct")) pre -> Forall (fun g => flat (gp_rest g)) gs ->
  (Forall where_token (clause_of w) \/ gs <> [] /\ trailing = false /\ where_clause (clause_of w)) ->
  forall ds tr, Forall (fun d => no_comma (fd_ty d)) ds -> Forall field_name (map fd_name ds) -> NoDup (map fd_name ds) ->
  exists fout fbody tout tbody,
  derive_from_json (struct_head pre name gs trailing w ++ TkGroup DBrace (comma_sep (map field_text ds) tr) :: post) = Done fout /\
  derive_to_json (struct_head pre name gs trailing w ++ TkGroup DBrace (comma_sep (map field_text ds) tr) :: post) = Done tout /\
  impl_with (B "FromJSON") name gs trailing w (from_json_fn fbody) fout /\
  impl_with (B "ToJSON") name gs trailing w (to_json_fn tbody) tout /\
  forall (L F : Type) (ffrom : str -> value L -> option F) fto self v, map fst self = map fd_name ds ->
  (forall k x u, In (k, x) self -> fto k x = Some u -> ffrom k u = Some x) ->
  computes ffrom fto [(B "self", RStruct self)] tbody (ROpt (Some (RVal v))) ->
  computes ffrom fto [(B "val", RVal v)] fbody (ROpt (Some (RStruct self))).
Proof. exact derived_round. Qed.
Print Assumptions C115_round_trip.

(** Tuple structs, whose fields are named 0, 1, .. *)
Theorem C115_tuple_from_json :
  forall pre name gs trailing post, ~ In (TkIdent (B "struct")) pre -> Forall (fun g => flat (gp_rest g)) gs ->
  forall ds tr, Forall (fun d => no_comma (td_ty d) /\ has_ident (td_ty d)) ds ->
  exists out body,
  derive_from_json (struct_head pre name gs trailing None ++ TkGroup DParen (comma_sep (map tuple_text ds) tr) :: post) = Done out /\
  impl_with (B "FromJSON") name gs trailing None (from_json_fn body) out /\
  forall (L F : Type) (ffrom : str -> value L -> option F) fto v,
  (forall r, computes ffrom fto [(B "val", RVal v)] body r -> r = ROpt None \/ exists st, r = ROpt (Some (RStruct st))) /\
  (exists r, computes ffrom fto [(B "val", RVal v)] body r) /\
  forall l, length l = length ds ->
  (computes ffrom fto [(B "val", RVal v)] body (ROpt (Some (RStruct (combine (index_names (length ds)) l)))) <->
    exists arr, v = VArray arr /\ pointwise (fun i u x => ffrom (show_N (N.of_nat i)) u = Some x) arr l).
Proof. exact derived_from_tuple. Qed.
Print Assumptions C115_tuple_from_json.
Theorem C115_tuple_to_json :
  forall pre name gs trailing post, ~ In (TkIdent (B "struct")) pre -> Forall (fun g => flat (gp_rest g)) gs ->
  forall ds tr, Forall (fun d => no_comma (td_ty d) /\ has_ident (td_ty d)) ds ->
  exists out body,
  derive_to_json (struct_head pre name gs trailing None ++ TkGroup DParen (comma_sep (map tuple_text ds) tr) :: post) = Done out /\
  impl_with (B "ToJSON") name gs trailing None (to_json_fn body) out /\
  forall (L F : Type) (ffrom : str -> value L -> option F) fto l, length l = length ds ->
  exists o, (forall r, computes ffrom fto [(B "self", RStruct (combine (index_names (length ds)) l))] body r <-> r = ROpt (option_map RVal o)) /\
  match o with
  | Some v => exists arr, v = VArray arr /\ pointwise (fun i u x => fto (show_N (N.of_nat i)) x = Some u) arr l
  | None => exists i x, nth_error l i = Some x /\ fto (show_N (N.of_nat i)) x = None
  end.
Proof. exact derived_to_tuple. Qed.
Print Assumptions C115_tuple_to_json.
Theorem C115_tuple_round_trip :
  forall pre name gs trailing post, ~ In (TkIdent (B "struct")) pre -> Forall (fun g => flat (gp_rest g)) gs ->
  forall ds tr, Forall (fun d => no_comma (td_ty d) /\ has_ident (td_ty d)) ds ->
  exists fout fbody tout tbody,
  derive_from_json (struct_head pre name gs trailing None ++ TkGroup DParen (comma_sep (map tuple_text ds) tr) :: post) = Done fout /\
  derive_to_json (struct_head pre name gs trailing None ++ TkGroup DParen (comma_sep (map tuple_text ds) tr) :: post) = Done tout /\
  impl_with (B "FromJSON") name gs trailing None (from_json_fn fbody) fout /\
  impl_with (B "ToJSON") name gs trailing None (to_json_fn tbody) tout /\
  forall (L F : Type) (ffrom : str -> value L -> option F) fto l v, length l = length ds ->
  (forall k x u, In x l -> fto k x = Some u -> ffrom k u = Some x) ->
  computes ffrom fto [(B "self", RStruct (combine (index_names (length ds)) l))] tbody (ROpt (Some (RVal v))) ->
  computes ffrom fto [(B "val", RVal v)] fbody (ROpt (Some (RStruct (combine (index_names (length ds)) l)))).
Proof. exact derived_round_tuple. Qed.
Print Assumptions C115_tuple_round_trip.

(** The names of those fields are the decimal numbers of their places. *)
Theorem C115_index_names :
  forall n i s, nth_error (index_names n) i = Some s <-> i < n /\ decimal (N.of_nat i) s.
Proof. exact names_decimal. Qed.
Print Assumptions C115_index_names.

(** Anything but a struct: a compile error. *)
Theorem C115_others :
  forall toks, ~ In (TkIdent (B "struct")) toks ->
  exists l, derive_from_json toks = Done (TkIdent (B "compile_error") :: TkPunct x21 :: l) /\ derive_to_json toks = derive_from_json toks.
Proof. exact derived_others. Qed.
Print Assumptions C115_others.

(** With a public field the generated functions are not Rust: the field is taken to be named [pub], a keyword. *)
Theorem C115_public_fields :
  forall pre name gs trailing w post, ~ In (TkIdent (B "struct")) pre -> Forall (fun g => flat (gp_rest g)) gs ->
  (Forall where_token (clause_of w) \/ gs <> [] /\ trailing = false /\ where_clause (clause_of w)) ->
  forall ds d inside ds' tr, Forall (fun d => no_comma (fd_ty d)) ds -> no_comma (fd_ty d) -> Forall (fun d => no_comma (fd_ty d)) ds' ->
  let decl := struct_head pre name gs trailing w ++ TkGroup DBrace (comma_sep (map field_text ds ++ pub_text inside d :: map field_text ds') tr) :: post in
  exists fout fbody tout tbody, derive_from_json decl = Done fout /\ derive_to_json decl = Done tout /\
  impl_with (B "FromJSON") name gs trailing w (from_json_fn fbody) fout /\
  impl_with (B "ToJSON") name gs trailing w (to_json_fn tbody) tout /\
  forall p, ~ reads fbody p /\ ~ reads tbody p.
Proof. exact derived_public. Qed.
Print Assumptions C115_public_fields.
(** With a comma in the type of a field, the struct that [from_json] builds has a field too many, named by
    the identifier after the comma. *)
Theorem C115_comma_types :
  forall pre name gs trailing w post, ~ In (TkIdent (B "struct")) pre -> Forall (fun g => flat (gp_rest g)) gs ->
  (Forall where_token (clause_of w) \/ gs <> [] /\ trailing = false /\ where_clause (clause_of w)) ->
  forall ds d a v b ds' tr, Forall (fun d => no_comma (fd_ty d)) ds -> fd_ty d = a ++ COMMA :: TkIdent v :: b -> no_comma a -> no_comma b ->
  Forall (fun d => no_comma (fd_ty d)) ds' -> Forall field_name (v :: map fd_name (ds ++ d :: ds')) ->
  let decl := struct_head pre name gs trailing w ++ TkGroup DBrace (comma_sep (map field_text (ds ++ d :: ds')) tr) :: post in
  exists out body, derive_from_json decl = Done out /\ impl_with (B "FromJSON") name gs trailing w (from_json_fn body) out /\
  forall (L F : Type) (ffrom : str -> value L -> option F) fto u st,
  computes ffrom fto [(B "val", RVal u)] body (ROpt (Some (RStruct st))) -> length st = S (length (ds ++ d :: ds')) /\ In v (map fst st).
Proof. exact derived_comma. Qed.
Print Assumptions C115_comma_types.

(** [struct P<T> { id: T, r#in: u8 }] and [struct Q(pub u8, u8);]: the bodies are found in the impls and run. *)
Example C115_example :
  let inner (o : outcome (list token)) := match o with
    | Done l => match rev l with TkGroup DBrace f :: _ => match rev f with TkGroup DBrace b :: _ => b | _ => [] end | _ => [] end
    | Panic => [] end in
  let run params o := match read_block 30 (inner o) with
    | Some p => result (fun _ (v : value nat) => match v with VLeaf x => Some x | _ => None end)
                       (fun _ x => if x =? 9 then None else Some (VLeaf x)) params p
    | None => None end in
  let p := struct_head [TkIdent (B "pub")] (B "P") [GParam (B "T") []] false None ++
    [TkGroup DBrace (comma_sep [field_text (FieldDecl [] (B "id") [TkIdent (B "T")]);
                                field_text (FieldDecl [] (B "r#in") [TkIdent (B "u8")])] false)] in
  let q := struct_head [] (B "Q") [] false None ++
    [TkGroup DParen (comma_sep [[TkIdent (B "pub"); TkIdent (B "u8")]; [TkIdent (B "u8")]] false); TkPunct x3b] in
  run [(B "val", RVal (VObject [(B "r#in", VLeaf 2); (B "id", VLeaf 1)]))] (derive_from_json p) =
    Some (ROpt (Some (RStruct [(B "id", 1); (B "r#in", 2)]))) /\
  run [(B "val", RVal (VObject [(B "r#in", VLeaf 2); (B "id", VLeaf 1); (B "z", VLeaf 0)]))] (derive_from_json p) = Some (ROpt None) /\
  run [(B "val", RVal (VArray []))] (derive_from_json p) = Some (ROpt None) /\
  run [(B "self", RStruct [(B "id", 1); (B "r#in", 2)])] (derive_to_json p) =
    Some (ROpt (Some (RVal (VObject [(B "id", VLeaf 1); (B "r#in", VLeaf 2)])))) /\
  run [(B "self", RStruct [(B "id", 9); (B "r#in", 2)])] (derive_to_json p) = Some (ROpt None) /\
  run [(B "val", RVal (VArray [VLeaf 5; VLeaf 6]))] (derive_from_json q) = Some (ROpt (Some (RStruct [(B "0", 5); (B "1", 6)]))) /\
  run [(B "val", RVal (VArray [VLeaf 5; VLeaf 6; VLeaf 7]))] (derive_from_json q) = Some (ROpt None) /\
  run [(B "self", RStruct [(B "0", 5); (B "1", 6)])] (derive_to_json q) = Some (ROpt (Some (RVal (VArray [VLeaf 5; VLeaf 6])))) /\
  let bad := struct_head [] (B "R") [] false None ++ [TkGroup DBrace (pub_text None (FieldDecl [] (B "id") [TkIdent (B "u8")]))] in
  read_block 30 (inner (derive_from_json bad)) = None /\ read_block 30 (inner (derive_to_json bad)) = None /\
  let map2 := struct_head [] (B "R") [] false None ++
    [TkGroup DBrace (field_text (FieldDecl [] (B "m") [TkIdent (B "Map"); LT; TkIdent (B "K"); COMMA; TkIdent (B "V"); GT]))] in
  run [(B "val", RVal (VObject [(B "m", VLeaf 1); (B "V", VLeaf 2)]))] (derive_from_json map2) =
    Some (ROpt (Some (RStruct [(B "m", 1); (B "V", 2)]))) /\
  run [(B "val", RVal (VObject [(B "m", VLeaf 1)]))] (derive_from_json map2) = Some (ROpt None).
Proof. vm_compute. repeat split; reflexivity. Qed.

(** The text that the derives write, parsed by the compiler, is those tokens, however the compiler prints
    the declaration's tokens, provided it can read them again. *)
Theorem C115_text :
  forall print, reparses print -> forall pre name rest, ~ In (TkIdent (B "struct")) pre -> ordinary name -> Forall ordinary rest -> name_alone rest ->
  let decl := pre ++ TkIdent (B "struct") :: name :: rest in
  derive_from_json_text print decl = derive_from_json decl /\ derive_to_json_text print decl = derive_to_json decl.
Proof. exact derives_read. Qed.
Print Assumptions C115_text.
(** There is such a way of printing, brackets of all kinds included: a space before every token. *)
Theorem C115_readable : forall ts, Forall ordinary ts -> parse_tokens (print_spaced ts) = Some ts.
Proof. exact spaced_reparses. Qed.
Print Assumptions C115_readable.
Theorem C115_text_others :
  forall print toks, ~ In (TkIdent (B "struct")) toks ->
  derive_from_json_text print toks = derive_from_json toks /\ derive_to_json_text print toks = derive_to_json toks.
Proof. exact derives_others. Qed.
Print Assumptions C115_text_others.

(** Without a body the derives panic: the message they try to write is no Rust text. *)
Theorem C115_no_body :
  forall print pre name rest, ~ In (TkIdent (B "struct")) pre ->
  Forall (fun t => forall g, t <> TkGroup DBrace g /\ t <> TkGroup DParen g) rest ->
  let decl := pre ++ TkIdent (B "struct") :: name :: rest in
  derive_from_json decl = Panic /\ derive_to_json decl = Panic /\ derive_from_json_text print decl = Panic /\ derive_to_json_text print decl = Panic.
Proof. exact derives_no_body. Qed.
Print Assumptions C115_no_body.

(** Printing every token after a space; [struct P<T> { id: T, r#type: [u8; 2] }], and the message for a
    struct without body, which is no Rust text. *)
Example C115_text_example :
  reparses print_spaced /\
  let decl := [TkIdent (B "struct"); TkIdent (B "P"); LT; TkIdent (B "T"); GT; TkGroup DBrace
    [TkIdent (B "id"); TkPunct x3a; TkIdent (B "T"); COMMA; TkIdent (B "r#type"); TkPunct x3a;
     TkGroup DBracket [TkIdent (B "u8"); TkPunct x3b; TkLit (B "2")]]] in
  parse_tokens (B "struct P<T> { id: T, r#type: [u8; 2] }") = Some decl /\
  parse_tokens (print_spaced decl) = Some decl /\
  derive_from_json_text print_spaced decl = derive_from_json decl /\ derive_from_json decl <> Panic /\
  derive_to_json_text print_spaced decl = derive_to_json decl /\
  parse_tokens no_body_text = None /\ handle_derive [TkIdent (B "struct"); TkIdent (B "U"); TkPunct x3b] = Panic.
Proof. split; [exact spaced_reparses|]. vm_compute. repeat split. discriminate. Qed.
