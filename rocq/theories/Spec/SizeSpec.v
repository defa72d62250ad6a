(** Specification for C149: how much of a map, a header list or a query value there is to read. *)
From Verif.Model Require Import RustStd Path Request Query.
From Verif.Spec Require Import Common.

(** [l] lists entries of a map with the lookup function [look], none twice. *)
Definition entries_of {V : Type} (look : str -> option V) (l : list (str * V)) : Prop :=
  NoDup (map fst l) /\ forall k v, In (k, v) l -> look k = Some v.

(** The bytes of the names and values of some entries, and one more for each entry. *)
Definition texts_size (l : list (str * str)) : nat :=
  list_sum (map (fun e => S (length (fst e) + length (snd e))) l).
(** The bytes of the values only, and one more for each. *)
Definition values_size (l : list (str * str)) : nat := list_sum (map (fun e => S (length (snd e))) l).
Definition headers_size (hs : list header) : nat :=
  list_sum (map (fun hd => S (length (h_name hd) + length (h_value hd))) hs).

(** The same for the values of extended queries: texts, arrays of texts, and maps of texts. *)
Definition value_size (q : query_value) : nat :=
  match q with
  | QStr s => length s
  | QArr l => list_sum (map (fun s => S (length s)) l)
  | QObj m => texts_size m
  end.
Definition extended_size (l : list (str * query_value)) : nat :=
  list_sum (map (fun e => S (length (fst e) + value_size (snd e))) l).
