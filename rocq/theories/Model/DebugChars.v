(** The debug text of strings with characters beyond ASCII: [debug_str] of RustStd.v without its simplification. *)
From Verif.Model Require Export RustStd Path Request Time Status Response.

(** [{:x}] of a character's number, as in [char::escape_unicode]: without leading zeros; [fuel] bounds the digits.
    (used by [{:?}], src/responder.rs:159, 362) *)
Fixpoint hex_digits (fuel : nat) (n : N) : str :=
  match fuel with
  | O => []
  | S f => if (n <? 16)%N then [hex_digit n] else hex_digits f (n / 16) ++ [hex_digit (n mod 16)]
  end.
(** six digits hold every [char] (used by [{:?}], src/responder.rs:159, 362) *)
Definition show_hex (n : N) : str := hex_digits 6 n.
(** [char::escape_debug_ext] as [Debug for str] uses it.  [esc]: which characters beyond ASCII the toolchain's
    Unicode tables call unprintable or extending; these are printed by number. (src/responder.rs:159, 362) *)
Definition escape_char (d : debug_style) (esc : char -> bool) (c : char) : list char :=
  (if c <? 128 then map bN (debug_byte d (byte_of_N c))
   else if esc c then map bN (B "\u{" ++ show_hex c ++ B "}")
   else [c])%N.
(** [format!("{:?}", s)] (src/responder.rs:159, 362) *)
Definition debug_any (d : debug_style) (esc : char -> bool) (s : str) : str :=
  [x22] ++ of_chars (flat_map (escape_char d esc) (chars s)) ++ [x22].
(** src/responder.rs:358-366 [attachment_with_filename] *)
Definition attachment_with_any_filename {cl} (w : world) (esc : char -> bool) (file_name : str) (r : response cl)
  : response cl :=
  let extension := get_extension w file_name in
  res_set (B "Content-Type") extension
    (res_set (B "Content-Disposition")
       (B "attachment; filename = " ++ debug_any (dbg_sq w) esc file_name) r).
