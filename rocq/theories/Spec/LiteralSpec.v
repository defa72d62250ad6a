(** Specification of the text Rust prints for a string with the debug format, character by character. *)
From Verif.Model Require Import RustStd.
From Verif.Spec Require Import Common.

(** How each character is written that every release escapes (documentation of [char::escape_debug]). *)
Definition escapes : list (byte * str) :=
  [ (x22, [x5c; x22]); (x5c, [x5c; x5c]);
    (x00, B "\u{0}"); (x01, B "\u{1}"); (x02, B "\u{2}"); (x03, B "\u{3}");
    (x04, B "\u{4}"); (x05, B "\u{5}"); (x06, B "\u{6}"); (x07, B "\u{7}");
    (x08, B "\u{8}"); (x09, B "\t"); (x0a, B "\n"); (x0b, B "\u{b}");
    (x0c, B "\u{c}"); (x0d, B "\r"); (x0e, B "\u{e}"); (x0f, B "\u{f}");
    (x10, B "\u{10}"); (x11, B "\u{11}"); (x12, B "\u{12}"); (x13, B "\u{13}");
    (x14, B "\u{14}"); (x15, B "\u{15}"); (x16, B "\u{16}"); (x17, B "\u{17}");
    (x18, B "\u{18}"); (x19, B "\u{19}"); (x1a, B "\u{1a}"); (x1b, B "\u{1b}");
    (x1c, B "\u{1c}"); (x1d, B "\u{1d}"); (x1e, B "\u{1e}"); (x1f, B "\u{1f}");
    (x7f, B "\u{7f}") ].
(** Releases before 1.53 also escape the single quote; releases from about 1.61 on write NUL in a short form. *)
Definition varying (d : debug_style) : list (byte * str) :=
  match d with
  | DebugOld => [(x27, [x5c; x27])]
  | DebugMiddle => []
  | DebugNew => [(x00, B "\0")]
  end.
Inductive written_char (d : debug_style) (c : byte) : str -> Prop :=
| WrittenVarying t : In (c, t) (varying d) -> written_char d c t
| WrittenEscaped t : ~ In c (map fst (varying d)) -> In (c, t) escapes -> written_char d c t
| WrittenItself : ~ In c (map fst (varying d)) -> ~ In c (map fst escapes) -> written_char d c [c].
(** [t] is the debug text of [s]. *)
Definition written (d : debug_style) (s t : str) : Prop :=
  exists parts, Forall2 (written_char d) s parts /\ t = [x22] ++ concat parts ++ [x22].
