(** Specification of how clients read quoted names, of what handlers see of a request, and of header order. *)
From Verif.Model Require Import RustStd Path Request Time Status Response Router Server.
From Verif.Spec Require Import Common TextSpec RequestSpec ResponseSpec ServerSpec.

(** ** Quoted strings (RFC 7230, 3.2.6) *)

(** Between the quotes: a backslash stands for the character after it; [text q t]: [q] is read as [t]. *)
Inductive quoted_text : str -> str -> Prop :=
| QuotedEnd : quoted_text [] []
| QuotedPair c q t : quoted_text q t -> quoted_text (x5c :: c :: q) (c :: t)
| QuotedChar c q t : c <> x22 -> c <> x5c -> quoted_text q t -> quoted_text (c :: q) (c :: t).
Definition quoted_string (s t : str) : Prop := exists q, s = [x22] ++ q ++ [x22] /\ quoted_text q t.
(** Visible ASCII characters and the space. *)
Definition printable (b : byte) : Prop := (32 <= bN b <= 126)%N.

(** ** What handlers see *)

(** The two requests agree except for headers whose names are not in [K]. *)
Definition same_seen {cl} (K : str -> Prop) (mr mr' : matched_request cl) : Prop :=
  mr_vars mr = mr_vars mr' /\ rq_line (mr_request mr) = rq_line (mr_request mr') /\
  rq_body (mr_request mr) = rq_body (mr_request mr') /\ rq_cookies (mr_request mr) = rq_cookies (mr_request mr') /\
  forall k, K k -> headers_get (rq_headers (mr_request mr)) k = headers_get (rq_headers (mr_request mr')) k.
(** The handlers use no other headers than those in [K], and use them by name. *)
Definition looks_up {cl} {H ST : Type} (K : str -> Prop)
    (handle : H -> matched_request cl -> ST * response cl -> (ST * response cl) * outcome flow) : Prop :=
  forall h mr mr' x, same_seen K mr mr' -> handle h mr x = handle h mr' x.

(** The same headers in another order; headers of the same name keep theirs. *)
Inductive reordered : list header -> list header -> Prop :=
| ReorderNil : reordered [] []
| ReorderKeep h l l' : reordered l l' -> reordered (h :: l) (h :: l')
| ReorderSwap g h l : ~ same_fold (h_name g) (h_name h) ->
    reordered (g :: h :: l) (h :: g :: l)
| ReorderTrans l l' l'' : reordered l l' -> reordered l' l'' -> reordered l l''.
