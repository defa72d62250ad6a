(** Specification vocabulary for the macros: how struct declarations are written as tokens, and what
    objects and arrays mean. *)
From Verif.Model Require Import RustStd Macros.

Definition COMMA : token := TkPunct x2c.
Definition LT : token := TkPunct x3c.
Definition GT : token := TkPunct x3e.

(** [a, b, c] with or without a trailing comma *)
Fixpoint comma_sep (l : list (list token)) (trailing : bool) : list token :=
  match l with
  | [] => []
  | [x] => x ++ (if trailing then [COMMA] else [])
  | x :: rest => x ++ COMMA :: comma_sep rest trailing
  end.

(** ** Fields *)

(** attributes, name and type of a field of a braced struct *)
Record field_decl := FieldDecl { fd_attrs : list (list token); fd_name : str; fd_ty : list token }.
Definition attrs_text (l : list (list token)) : list token := flat_map (fun a => [TkPunct x23; TkGroup DBracket a]) l.
(** [#[..] name: type] *)
Definition field_text (d : field_decl) : list token :=
  attrs_text (fd_attrs d) ++ TkIdent (fd_name d) :: TkPunct x3a :: fd_ty d.
(** [#[..] pub name: type], [#[..] pub(..) name: type] *)
Definition pub_text (inside : option (list token)) (d : field_decl) : list token :=
  attrs_text (fd_attrs d) ++ TkIdent (B "pub") ::
  match inside with Some l => [TkGroup DParen l] | None => [] end ++ TkIdent (fd_name d) :: TkPunct x3a :: fd_ty d.
Definition no_comma (l : list token) : Prop := ~ In COMMA l.

(** attributes and the tokens of visibility and type of a field of a tuple struct *)
Record tuple_decl := TupleDecl { td_attrs : list (list token); td_ty : list token }.
Definition tuple_text (d : tuple_decl) : list token := attrs_text (td_attrs d) ++ td_ty d.
Definition has_ident (l : list token) : Prop := exists s, In (TkIdent s) l.

(** ** Declarations *)

(** Balanced angle brackets. *)
Inductive nest : list token -> Prop :=
| nest_nil : nest []
| nest_tok t l : t <> LT -> t <> GT -> nest l -> nest (t :: l)
| nest_angle a l : nest a -> nest l -> nest (LT :: a ++ GT :: l).
(** Balanced, and commas only inside angle brackets. *)
Inductive flat : list token -> Prop :=
| flat_nil : flat []
| flat_tok t l : t <> LT -> t <> GT -> t <> COMMA -> flat l -> flat (t :: l)
| flat_angle a l : nest a -> flat l -> flat (LT :: a ++ GT :: l).

(** A type parameter: name, and bounds and default. *)
Record gparam := GParam { gp_name : str; gp_rest : list token }.
Definition generics_text (gs : list gparam) (trailing : bool) : list token :=
  match gs with
  | [] => []
  | _ => LT :: comma_sep (map (fun g => TkIdent (gp_name g) :: gp_rest g) gs) trailing ++ [GT]
  end.
(** The tokens a where clause may have outside angle brackets for it to be recognised. *)
Definition where_token (t : token) : Prop :=
  t <> LT /\ t <> GT /\ t <> TkIdent (B "where") /\ (forall b, t <> TkGroup DBrace b) /\ (forall b, t <> TkGroup DParen b).
(** A where clause without commas inside angle brackets. *)
Inductive where_clause : list token -> Prop :=
| wh_nil : where_clause []
| wh_tok t l : where_token t -> where_clause l -> where_clause (t :: l)
| wh_angle a l : flat a -> where_clause l -> where_clause (LT :: a ++ GT :: l).
Definition where_text (w : option (list token)) : list token :=
  match w with Some l => TkIdent (B "where") :: l | None => [] end.
Definition clause_of (w : option (list token)) : list token := match w with Some l => l | None => [] end.

(** [attributes and visibility, struct Name<..> where ..] *)
Definition struct_head (pre : list token) (name : str) (gs : list gparam) (trailing : bool) (w : option (list token)) : list token :=
  pre ++ TkIdent (B "struct") :: TkIdent name :: generics_text gs trailing ++ where_text w.

(** The header of an impl of [crate::trait] for [Name<T1, ..>], with the where clause extended by
    [Ti: crate::trait] for every parameter. *)
Definition bound_text (trait g : str) : list token :=
  [TkIdent g; TkPunct x3a; TkIdent (B "crate"); TkPunct x3a; TkPunct x3a; TkIdent trait].
Definition angles (names : list str) : list token :=
  match names with [] => [] | _ => LT :: comma_sep (map (fun g => [TkIdent g]) names) false ++ [GT] end.
Definition impl_text (trait name : str) (gens : list token) (names : list str) (wh : list token) : list token :=
  TkIdent (B "impl") :: gens ++ [TkIdent (B "crate"); TkPunct x3a; TkPunct x3a; TkIdent trait; TkIdent (B "for"); TkIdent name] ++
  angles names ++ TkIdent (B "where") :: wh.

(** What stands between the where clause and the bounds: a comma exactly if there are both and the clause
    does not end with one. *)
Definition clause_sep (wh : list token) (names : list str) (sep : list token) : Prop :=
  (sep = [COMMA] /\ names <> [] /\ wh <> [] /\ ~ (exists l, wh = l ++ [COMMA])) \/
  (sep = [] /\ (names = [] \/ wh = [] \/ exists l, wh = l ++ [COMMA])).

(** ** Values *)

(** [obj] (a hash map) has exactly these members. *)
Definition members {V : Type} (obj : list (str * V)) (m : list (str * V)) : Prop :=
  NoDup (map fst obj) /\ forall k v, In (k, v) obj <-> In (k, v) m.
(** Lists of the same length related index by index. *)
Definition pointwise {A C : Type} (R : nat -> A -> C -> Prop) (l : list A) (l' : list C) : Prop :=
  length l = length l' /\ forall i a b, nth_error l i = Some a -> nth_error l' i = Some b -> R i a b.

(** ** The main attribute *)
Definition is_brace (t : token) : Prop := exists b, t = TkGroup DBrace b.
(** [without t l l']: [l'] is [l] with every [t] left out. *)
Inductive without (t : token) : list token -> list token -> Prop :=
| wo_nil : without t [] []
| wo_skip l l' : without t l l' -> without t (t :: l) l'
| wo_keep u l l' : u <> t -> without t l l' -> without t (u :: l) (u :: l').

(** The pieces between the semicolons of a block; the last one is its value. *)
Fixpoint statements (l : list token) : list (list token) :=
  match l with
  | [] => [[]]
  | t :: rest =>
      match t with
      | TkPunct x3b => [] :: statements rest
      | _ => match statements rest with [] => [[t]] | st :: sts => (t :: st) :: sts end
      end
  end.
(** [compile_error!(..)] is a statement of the block. *)
Definition complains (block : list token) : Prop :=
  exists l, In [TkIdent (B "compile_error"); TkPunct x21; TkGroup DParen l] (statements block).
(** The value of the block is that of [body], run to its end by [runtime.block_on]. *)
Definition runs_last (body block : list token) : Prop :=
  last (statements block) [] =
  [TkIdent (B "runtime"); TkPunct x2e; TkIdent (B "block_on"); TkGroup DParen [TkIdent (B "async"); TkGroup DBrace body]].
(** [.m1(..).m2(..)] as the list of the methods with their arguments *)
Inductive call_chain : list token -> list (str * list token) -> Prop :=
| cc_nil : call_chain [] []
| cc_call m args l cs : call_chain l cs ->
    call_chain (TkPunct x2e :: TkIdent m :: TkGroup DParen args :: l) ((m, args) :: cs).
(** The runtime is made by [tokio::runtime::Builder::kind()], and the methods called on the builder
    before [build] are [cs]. *)
Definition runtime_made (kind : str) (block : list token) : Prop :=
  In ([TkIdent (B "let"); TkIdent (B "mut"); TkIdent (B "builder"); TkPunct x3d] ++
      [TkIdent (B "tokio"); TkPunct x3a; TkPunct x3a; TkIdent (B "runtime"); TkPunct x3a; TkPunct x3a;
       TkIdent (B "Builder"); TkPunct x3a; TkPunct x3a; TkIdent kind; TkGroup DParen []]) (statements block).
Definition runtime_calls (block : list token) (cs : list (str * list token)) : Prop :=
  exists l, In (TkIdent (B "builder") :: l) (statements block) /\ call_chain l cs.
(** What an attribute makes of a function: [before], the signature [sg], and a block. *)
Definition function_with (before sg block expansion : list token) : Prop :=
  expansion = before ++ sg ++ [TkGroup DBrace block].
