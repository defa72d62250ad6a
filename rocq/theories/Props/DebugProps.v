(** C112, continued: names with characters beyond ASCII.  [esc] are the characters that the toolchain's Unicode tables
    hide; it is arbitrary, as are responses and worlds. *)
From Verif.Model Require Import RustStd Path Request Time Status Response DebugChars.
From Verif.Spec Require Import Common TextSpec LiteralSpec ClientSpec DebugSpec.
From Verif.Proofs Require Import ResponseWitness DebugProofs.

(** C112.  Whatever its characters, the name is written as Rust prints it, and it is read back exactly if each of its
    characters is a visible ASCII character, a space, or beyond ASCII and not hidden. *)
Theorem C112_any_name_partial :
  forall cl w esc cs f (r : response cl), utf8_text cs f -> exists v,
  res_get (B "Content-Disposition") (attachment_with_any_filename w esc f r) = Some (B "attachment; filename = " ++ v) /\
  (forall t, written_text (dbg_sq w) esc cs t <-> t = v) /\ (quoted_string v f <-> Forall (read_back esc) cs).
Proof. exact @any_name. Qed.
Print Assumptions C112_any_name_partial.
(** Different names give different headers. *)
Theorem C112_any_distinct :
  forall cl w w' esc f f' (r r' : response cl), utf8_valid f = true -> utf8_valid f' = true -> dbg_sq w = dbg_sq w' ->
  res_get (B "Content-Disposition") (attachment_with_any_filename w esc f r) =
  res_get (B "Content-Disposition") (attachment_with_any_filename w' esc f' r') -> f = f'.
Proof. exact @any_names_distinct. Qed.
Print Assumptions C112_any_distinct.
(** On ASCII names this is the function of the other theorems. *)
Theorem C112_any_same :
  forall cl w esc f (r : response cl), Forall (fun b => (bN b < 128)%N) f ->
  attachment_with_any_filename w esc f r = attachment_with_filename w f r.
Proof. exact @any_same. Qed.
Print Assumptions C112_any_same.
Example C112_any_example :
  let hidden c := (c =? 0x301)%N in
  let f := [x6e; xc3; xa9; x65; xcc; x81; xf0; x9f; x98; x80] in
  utf8_text [0x6e; 0xe9; 0x65; 0x301; 0x1f600]%N f /\
  res_get (B "Content-Disposition") (attachment_with_any_filename ex_world hidden f (new_empty (cl := ex_cl))) =
    Some (B "attachment; filename = ""n" ++ [xc3; xa9] ++ B "e\u{301}" ++ [xf0; x9f; x98; x80] ++ B """") /\
  ~ read_back hidden 0x301%N /\ read_back hidden 0x1f600%N.
Proof.
  repeat split.
  - apply TrimProofs.utf8_text_iff. split; [|reflexivity]. unfold scalar. repeat (apply Forall_cons; [lia|]). apply Forall_nil.
  - intros [[_ X]|[_ X]]; [vm_compute in X; congruence|discriminate X].
  - right. split; [vm_compute; discriminate|reflexivity].
Qed.
