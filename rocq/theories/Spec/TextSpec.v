(** Specification notions about byte strings. *)
From Verif.Model Require Import RustStd.

(** The pattern [p] occurs in [s] at offset [i]. *)
Definition occurs_at (p s : str) (i : nat) : Prop := exists a b, s = a ++ p ++ b /\ length a = i.
Definition occurs (p s : str) : Prop := exists i, occurs_at p s i.
(** ... and nowhere before. *)
Definition first_at (p s : str) (i : nat) : Prop :=
  occurs_at p s i /\ forall j, occurs_at p s j -> i <= j.

(** [pieces] is the splitting of [s] at the separator [sep]. *)
Definition pieces_of (sep s : str) (pieces : list str) : Prop :=
  pieces <> [] /\ Forall (fun p => ~ occurs sep p) pieces /\ join sep pieces = s.

(** Unicode scalar values: what a Rust [char] holds. *)
Definition scalar (c : N) : Prop := (c < 0xD800 \/ 0xE000 <= c < 0x110000)%N.

(** ** UTF-8 (RFC 3629, section 3) *)

(** The bytes of one character: the shortest of the four forms that holds its bits. *)
Inductive utf8_char : N -> str -> Prop :=
| u8_one : forall a, (bN a < 0x80)%N -> utf8_char (bN a) [a]
| u8_two : forall a b x y, (bN a = 0xC0 + x)%N -> (bN b = 0x80 + y)%N -> (x < 32)%N -> (y < 64)%N ->
    (0x80 <= 64 * x + y)%N -> utf8_char (64 * x + y) [a; b]
| u8_three : forall a b c x y z, (bN a = 0xE0 + x)%N -> (bN b = 0x80 + y)%N -> (bN c = 0x80 + z)%N ->
    (x < 16)%N -> (y < 64)%N -> (z < 64)%N ->
    (0x800 <= 64 * (64 * x + y) + z)%N -> utf8_char (64 * (64 * x + y) + z) [a; b; c]
| u8_four : forall a b c d x y z w, (bN a = 0xF0 + x)%N -> (bN b = 0x80 + y)%N -> (bN c = 0x80 + z)%N ->
    (bN d = 0x80 + w)%N -> (x < 8)%N -> (y < 64)%N -> (z < 64)%N -> (w < 64)%N ->
    (0x10000 <= 64 * (64 * (64 * x + y) + z) + w)%N -> utf8_char (64 * (64 * (64 * x + y) + z) + w) [a; b; c; d].
(** [s] is the text of the characters [cs]. *)
Inductive utf8_text : list N -> str -> Prop :=
| u8_end : utf8_text [] []
| u8_more : forall c e cs s, scalar c -> utf8_char c e -> utf8_text cs s -> utf8_text (c :: cs) (e ++ s).

(** The characters with the Unicode property White_Space, and texts made of them. *)
Definition white (c : N) : Prop :=
  (9 <= c <= 13 \/ c = 0x20 \/ c = 0x85 \/ c = 0xA0 \/ c = 0x1680 \/ 0x2000 <= c <= 0x200A \/ c = 0x2028 \/
   c = 0x2029 \/ c = 0x202F \/ c = 0x205F \/ c = 0x3000)%N.
Definition blank_text (s : str) : Prop := exists cs, Forall white cs /\ utf8_text cs s.

(** ** Decimal numbers *)
Definition is_digit (b : byte) : Prop := (48 <= bN b <= 57)%N.
Definition dec_val (s : str) : N := fold_left (fun a b => 10 * a + (bN b - 48))%N s 0%N.
(** [s] denotes the number [n], at most [max]; a leading '+' is let through. *)
Definition number (max : N) (s : str) (n : N) : Prop :=
  exists ds, (s = ds \/ s = x2b :: ds) /\ ds <> [] /\ Forall is_digit ds /\ dec_val ds = n /\ (n <= max)%N.

(** ** Letter case *)
Definition upper_byte (a b : byte) : Prop :=
  ((97 <= bN a <= 122)%N /\ (bN b = bN a - 32)%N) \/ (~ (97 <= bN a <= 122)%N /\ b = a).
(** Equal up to the case of ASCII letters. *)
Definition fold_byte (a b : byte) : Prop := exists c, upper_byte a c /\ upper_byte b c.
Definition same_fold (s t : str) : Prop := Forall2 fold_byte s t.
