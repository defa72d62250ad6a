(** C46 and C112, continued: the exact text of charsets and attachment names.  Response, world and calls are
    arbitrary. *)
From Verif.Model Require Import RustStd Path Request Time Status Response.
From Verif.Spec Require Import Common TextSpec ResponseSpec LiteralSpec.
From Verif.Proofs Require Import ResponseWitness LiteralProofs.

(** C112.  The name is written as Rust prints it, between quotes and with the escapes of the table. *)
Theorem C112_written :
  forall cl w f (r : response cl), Forall (fun b => (bN b < 128)%N) f -> exists v,
  res_get (B "Content-Disposition") (attachment_with_filename w f r) = Some (B "attachment; filename = " ++ v) /\
  forall t, written (dbg_sq w) f t <-> t = v.
Proof. exact (fun cl w f r _ => name_written cl w f r). Qed.
Print Assumptions C112_written.
Example C112_written_example :
  let f := [x0f; x10; x61; x27; x22; x7f; x20] in
  Forall (fun b => (bN b < 128)%N) f /\
  res_get (B "Content-Disposition") (attachment_with_filename ex_world f (new_empty (cl := ex_cl))) =
    Some (B "attachment; filename = ""\u{f}\u{10}a'\""\u{7f} """).
Proof. split; [repeat constructor|reflexivity]. Qed.

(** C46.  So is the charset of the content type that is filled in. *)
Theorem C46_charset_written :
  forall cl pre w o post (r r' : response cl) s, Forall (fun b => (bN b < 128)%N) s ->
  apply_ops (pre ++ (w, o) :: post) r = Done r' ->
  res_get (B "Content-Type") r = None ->
  (forall wo t, In wo (pre ++ (w, o) :: post) -> ~ chooses_type (fst wo) (snd wo) t) ->
  Forall (fun wo => fills_in (snd wo) = false) pre -> fills_in o = true ->
  charset_of pre (rs_charset r) = Some s -> exists v,
  res_get (B "Content-Type") r' = Some (B "text/html ;charset=" ++ v) /\ forall t, written (dbg_sq w) s t <-> t = v.
Proof. exact (fun cl pre w o post r r' s _ => type_written cl pre w o post r r' s). Qed.
Print Assumptions C46_charset_written.
Example C46_charset_written_example :
  exists r, run [OpCharset [x10; x09; x22]; OpSend (B "x")] = Done r /\
    res_get (B "Content-Type") r = Some (B "text/html ;charset=""\u{10}\t\""""").
Proof. eexists. split; [vm_compute; reflexivity|reflexivity]. Qed.
