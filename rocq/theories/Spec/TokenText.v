(** How tokens are written, as far as the derives need it. *)
From Verif.Model Require Import RustStd Macros DeriveText.

Definition letter (b : byte) : Prop :=
  (97 <= bN b <= 122 \/ 65 <= bN b <= 90 \/ bN b = 95)%N.
Definition digit (b : byte) : Prop := (48 <= bN b <= 57)%N.
(** ASCII identifiers, also raw ones *)
Definition ident_text (s : str) : Prop :=
  exists b r, letter b /\ Forall (fun b => letter b \/ digit b) r /\ (s = b :: r \/ s = B "r#" ++ b :: r).
(** Between the quotes of a string literal: escaped characters, and others that are neither quote nor
    backslash *)
Inductive quoted : str -> Prop :=
| quoted_nil : quoted []
| quoted_char b s : b <> x22 -> b <> x5c -> quoted s -> quoted (b :: s)
| quoted_escape b s : quoted s -> quoted (x5c :: b :: s).
(** String literals and numbers without a point *)
Definition literal_text (s : str) : Prop :=
  (exists q, quoted q /\ s = x22 :: q ++ [x22]) \/
  (exists b r, digit b /\ Forall (fun b => letter b \/ digit b) r /\ s = b :: r).
(** Punctuation of Rust *)
Definition marks : str := B "~!@#$%^&*-=+|;:,<.>/?'".
Inductive ordinary : token -> Prop :=
| ordinary_ident s : ident_text s -> ordinary (TkIdent s)
| ordinary_punct c : In c marks -> ordinary (TkPunct c)
| ordinary_lit s : literal_text s -> ordinary (TkLit s)
| ordinary_group d l : d <> DNone -> Forall ordinary l -> ordinary (TkGroup d l).
(** Printed tokens can be read again. *)
Definition reparses (print : list token -> str) : Prop :=
  forall ts, Forall ordinary ts -> parse_tokens (print ts) = Some ts.
(** What follows the name of a struct does not start with a word, except [where]. *)
Definition name_alone (rest : list token) : Prop :=
  match rest with TkIdent w :: _ => w = B "where" | TkLit _ :: _ => False | _ => True end.
(** One way to print: every token after a space *)
Fixpoint print_token (t : token) : str :=
  match t with
  | TkIdent s | TkLit s => x20 :: s
  | TkPunct c => [x20; c]
  | TkGroup d l =>
      let '(o, c) := match d with DBrace => (x7b, x7d) | DBracket => (x5b, x5d) | _ => (x28, x29) end in
      x20 :: o :: flat_map print_token l ++ [x20; c]
  end.
Definition print_spaced (ts : list token) : str := flat_map print_token ts.
