(** Notions shared by the specifications. *)
From Coq Require Import List.
Import ListNotations.

(** [selects P l l']: [l'] is the sublist of the elements of [l] satisfying [P], in order. *)
Inductive selects {A : Type} (P : A -> Prop) : list A -> list A -> Prop :=
| sel_nil : selects P [] []
| sel_yes : forall x l l', P x -> selects P l l' -> selects P (x :: l) (x :: l')
| sel_no : forall x l l', ~ P x -> selects P l l' -> selects P (x :: l) l'.

(** [o] is the value given by the last element of [l] that sets one. *)
Definition last_in {A V : Type} (sets : A -> V -> Prop) (l : list A) (o : option V) : Prop :=
  match o with
  | None => forall a v, In a l -> ~ sets a v
  | Some v => exists pre a post, l = pre ++ a :: post /\ sets a v /\
                forall a' v', In a' post -> ~ sets a' v'
  end.
