(** Specification of the debug text of any string, character by character; continues LiteralSpec.v. *)
From Verif.Model Require Import RustStd.
From Verif.Spec Require Import Common TextSpec LiteralSpec.

(** [t] is the number [n] in hexadecimal, with small letters and without leading zeros. *)
Definition hex_value (t : str) : N :=
  fold_left (fun a b => 16 * a + (if bN b <? 97 then bN b - 48 else bN b - 87))%N t 0%N.
Definition small_hex (b : byte) : Prop := (48 <= bN b <= 57 \/ 97 <= bN b <= 102)%N.
Definition hex_text (n : N) (t : str) : Prop :=
  t <> [] /\ Forall small_hex t /\ hex_value t = n /\ (t = B "0" \/ hd x00 t <> x30).
(** How one character is written, where [esc] are the characters beyond ASCII that are not shown. *)
Inductive written_wide (d : debug_style) (esc : N -> bool) : N -> str -> Prop :=
| WideAscii b t : (bN b < 128)%N -> written_char d b t -> written_wide d esc (bN b) t
| WideShown c t : (128 <= c)%N -> esc c = false -> utf8_char c t -> written_wide d esc c t
| WideHidden c t : (128 <= c)%N -> esc c = true -> hex_text c t -> written_wide d esc c (B "\u{" ++ t ++ B "}").
Definition written_text (d : debug_style) (esc : N -> bool) (cs : list N) (t : str) : Prop :=
  exists parts, Forall2 (written_wide d esc) cs parts /\ t = [x22] ++ concat parts ++ [x22].
(** The characters that a reader of quoted strings reads back. *)
Definition read_back (esc : N -> bool) (c : N) : Prop := (32 <= c <= 126 \/ 128 <= c /\ esc c = false)%N.
