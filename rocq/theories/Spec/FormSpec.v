(** Specification of form encoding. *)
From Verif.Model Require Import RustStd.
From Verif.Spec Require Import Common TextSpec QuerySpec.

(** [e] is an escaped form of the text [t] that can stand in a parameter: '&', '=' and '%' are escaped (for names
    also '['). *)
Definition form_escape (t e : str) : Prop :=
  utf8_valid t = true /\ utf8_valid e = true /\ escapes (chars t) (chars e) /\ ~ In x26 e /\ ~ In x3d e.
(** [item] is the encoded form of the parameter. *)
Definition form_item (p : str * str) (item : str) : Prop :=
  exists n w, item = n ++ [x3d] ++ w /\ form_escape (fst p) n /\ form_escape (snd p) w /\ ~ In x5b n /\ fst p <> [].
(** The values given to a name, in order. *)
Definition values_of (k : str) (ps : list (str * str)) : list str :=
  map snd (filter (fun p => seqb (fst p) k) ps).
