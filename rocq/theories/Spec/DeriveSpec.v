(** Specification vocabulary for derived conversions: the shape of the impls, and the structs. *)
From Verif.Model Require Import RustStd Macros.
From Verif.Spec Require Import MacroSpec RustLang.

(** [fn from_json(val: crate::Value) -> Option<Self> { body }] *)
Definition from_json_fn (body : list token) : list token :=
  [TkIdent (B "fn"); TkIdent (B "from_json");
   TkGroup DParen [TkIdent (B "val"); TkPunct x3a; TkIdent (B "crate"); TkPunct x3a; TkPunct x3a; TkIdent (B "Value")];
   TkPunct x2d; GT; TkIdent (B "Option"); LT; TkIdent (B "Self"); GT; TkGroup DBrace body].
(** [fn to_json(self) -> Option<crate::Value> { body }] *)
Definition to_json_fn (body : list token) : list token :=
  [TkIdent (B "fn"); TkIdent (B "to_json"); TkGroup DParen [TkIdent (B "self")]; TkPunct x2d; GT;
   TkIdent (B "Option"); LT; TkIdent (B "crate"); TkPunct x3a; TkPunct x3a; TkIdent (B "Value"); GT; TkGroup DBrace body].
(** The tokens [out] are an impl of the trait with the one function [f]; its where clause is that of the
    struct followed by a bound for every parameter. *)
Definition impl_with (trait name : str) (gs : list gparam) (trailing : bool) (w : option (list token)) (f out : list token) : Prop :=
  exists sep, clause_sep (clause_of w) (map gp_name gs) sep /\
  out = impl_text trait name (generics_text gs trailing) (map gp_name gs)
          (clause_of w ++ sep ++ comma_sep (map (bound_text trait) (map gp_name gs)) false) ++ [TkGroup DBrace f].
(** Names of fields, written in ASCII *)
Definition field_name (f : str) : Prop := Forall (fun b => word_byte b = true) f /\ ~ In f keywords.
(** The names of the fields of a tuple struct: 0, 1, .. *)
Definition index_names (n : nat) : list str := map (fun j => show_N (N.of_nat j)) (seq 0 n).
(** The members of an object, as a hash map has them: every name once. *)
Definition is_hash_map {L : Type} (v : value L) : Prop := match v with VObject obj => NoDup (map fst obj) | _ => True end.
