(** The line ends of requests and answers as numbers, not as the constants of the program. *)
From Verif.Model Require Import RustStd Path Request.
From Verif.Spec Require Import TextSpec RequestSpec.

(** Carriage return, line feed. *)
Definition newline : str := [x0d; x0a].

(** [stream] has the head [a], up to the first empty line; [b] follows. *)
Definition head_before (stream a b : str) : Prop :=
  stream = a ++ newline ++ newline ++ b /\ first_at (newline ++ newline) stream (length a).

(** The bytes of an answer: status line, one line for each header, an empty line, the body. *)
Definition answer_bytes (ver num reason : str) (hs : list (str * str)) (body : str) : str :=
  B "HTTP/" ++ ver ++ [x20] ++ num ++ [x20] ++ reason ++ newline ++
  concat (map (fun kv => fst kv ++ [x3a; x20] ++ snd kv ++ newline) hs) ++ newline ++ body.

(** The bytes of a request. *)
Definition request_bytes (m p ver : str) (hs : list header) (body : str) : str :=
  m ++ [x20] ++ p ++ [x20] ++ B "HTTP/" ++ ver ++ newline ++
  concat (map (fun hd => h_name hd ++ [x3a; x20] ++ h_value hd ++ newline) hs) ++ newline ++ body.
