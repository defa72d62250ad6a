(** Specification of the convenience macros. *)
From Verif.Model Require Import RustStd Router Sugar.
From Verif.Spec Require Import RoutingSpec.

(** ** Route macros *)
Section Bodies.
Context {H W V : Type} (body : H -> varmap -> W -> W * body_exit V) (stops : H -> bool).
(** Run the bodies one after the other, up to and including the first that stops (or panics). *)
Fixpoint run_bodies (l : list (H * varmap)) (w : W) : W * outcome unit :=
  match l with
  | [] => (w, Done tt)
  | (h, vars) :: rest =>
      match body h vars w with
      | (w', BPanic) => (w', Panic)
      | (w', _) => if stops h then (w', Done tt) else run_bodies rest w'
      end
  end.
(** No body leaves by [return]. *)
Definition no_return : Prop := forall h vars w f, snd (body h vars w) <> BReturn f.
End Bodies.

(** ** String literals of Rust, without raw strings and line continuations *)
Definition simple_escapes : list (byte * byte) :=
  [(x6e, x0a); (x72, x0d); (x74, x09); (x5c, x5c); (x30, x00); (x27, x27); (x22, x22)].
Definition hex_of (b : byte) (n : N) : Prop :=
  ((48 <= bN b <= 57)%N /\ n = (bN b - 48)%N) \/ ((97 <= bN b <= 102)%N /\ n = (bN b - 87)%N).
(** [lit_chars src v]: the text [src] between the quotes denotes the string [v]. *)
Inductive lit_chars : str -> str -> Prop :=
| lc_nil : lit_chars [] []
| lc_plain : forall b s v, b <> x22 -> b <> x5c -> lit_chars s v -> lit_chars (b :: s) (b :: v)
| lc_escape : forall e b s v, In (e, b) simple_escapes -> lit_chars s v -> lit_chars (x5c :: e :: s) (b :: v)
| lc_hex1 : forall c n b s v, hex_of c n -> bN b = n -> lit_chars s v ->
    lit_chars (x5c :: x75 :: x7b :: c :: x7d :: s) (b :: v)
| lc_hex2 : forall c n d m b s v, hex_of c n -> hex_of d m -> bN b = (16 * n + m)%N -> (bN b < 128)%N -> lit_chars s v ->
    lit_chars (x5c :: x75 :: x7b :: c :: d :: x7d :: s) (b :: v).
(** The token text [src] is a string literal for [v]. *)
Definition string_literal (src v : str) : Prop := exists s, src = [x22] ++ s ++ [x22] /\ lit_chars s v.
