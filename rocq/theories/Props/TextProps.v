(** Texts: UTF-8, numbers, white space and letter case as the standard library reads them. *)
From Verif.Model Require Import RustStd.
From Verif.Spec Require Import TextSpec.
From Verif.Proofs Require Import TrimProofs.

(** C18: a head is text when its bytes are the UTF-8 form of Unicode scalar values ... *)
Theorem C18_utf8 : forall s, utf8_valid s = true <-> exists cs, utf8_text cs s.
Proof. exact utf8_valid_iff. Qed.
Print Assumptions C18_utf8.
(** ... and then of exactly one sequence of them, which is what [chars] gives. *)
Theorem C18_characters : forall s cs, utf8_text cs s <-> utf8_valid s = true /\ chars s = cs.
Proof. exact chars_iff. Qed.
Print Assumptions C18_characters.
Example C18_text_example :
  utf8_text [0x61; 0xE9; 0x20AC; 0x1F600]%N [x61; xc3; xa9; xe2; x82; xac; xf0; x9f; x98; x80] /\
  utf8_valid [xc0; x80] = false /\ utf8_valid [xed; xa0; x80] = false /\ utf8_valid [xf4; x90; x80; x80] = false /\
  utf8_valid [xe2; x82] = false /\ utf8_valid [x80] = false.
Proof. split; [apply chars_iff; split; vm_compute; reflexivity|]. repeat split; vm_compute; reflexivity. Qed.

(** C19: the numbers that are read. *)
Theorem C19_numbers : forall max s n, parse_uint max s = Some n <-> number max s n.
Proof. exact parse_uint_iff. Qed.
Print Assumptions C19_numbers.
Example C19_numbers_example :
  number 255 (B "+0255") 255 /\ parse_uint 255 (B "256") = None /\ parse_uint 255 (B "-1") = None /\
  parse_uint 255 (B "+") = None /\ parse_uint 255 [] = None /\ parse_uint 255 (B "1 ") = None.
Proof. split; [apply parse_uint_iff; vm_compute; reflexivity|]. repeat split; vm_compute; reflexivity. Qed.

(** C22: the case of letters. *)
Theorem C22_letter_case : forall a b, to_ascii_lowercase a = to_ascii_lowercase b <-> same_fold a b.
Proof. intros a b. symmetry. apply same_fold_lower. Qed.
Print Assumptions C22_letter_case.
Example C22_letter_case_example :
  same_fold (B "X-aZ[1") (B "x-Az[1") /\ ~ same_fold (B "[") (B "{") /\ ~ same_fold (B "@") (B "`") /\
  ~ same_fold (B "a") (B "aa").
Proof. repeat split; rewrite same_fold_lower; vm_compute; congruence. Qed.

(** C28: what is taken from the ends of a Keep-Alive item is white space. *)
Theorem C28_trim : forall s, exists l r, blank_text l /\ blank_text r /\ s = l ++ trim s ++ r.
Proof. exact trim_split. Qed.
Print Assumptions C28_trim.
Theorem C28_trim_all :
  forall max l t r v n, blank_text l -> blank_text r -> number max n v ->
  match t with [] => False | b :: _ => (33 <= bN b <= 126)%N end -> trim (l ++ (t ++ n) ++ r) = t ++ n.
Proof. exact trim_graphic. Qed.
Print Assumptions C28_trim_all.
Example C28_trim_example : trim ([x20; x09; xc2; xa0] ++ B "a b" ++ [xe3; x80; x80]) = B "a b".
Proof. vm_compute. reflexivity. Qed.
