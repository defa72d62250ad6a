(** The debug text of strings, against its specification. *)
From Verif.Model Require Import RustStd Path Request Time Status Response.
From Verif.Spec Require Import Common TextSpec ResponseSpec LiteralSpec.
From Verif.Proofs Require Import Basics ResponseExtra.

Definition esc_of (d : debug_style) (c : byte) : str :=
  match mget beqb c (varying d) with Some t => t | None => match mget beqb c escapes with Some t => t | None => [c] end end.
Lemma bmget_in (c : byte) (m : list (byte * str)) t : mget beqb c m = Some t -> In (c, t) m.
Proof.
  induction m as [|[k v] m IH]; cbn [mget]; [discriminate|]. destruct (beqb_spec c k) as [->|]; [|right; auto].
  intro E. injection E as ->. left. reflexivity.
Qed.
Lemma bmget_none (c : byte) (m : list (byte * str)) : mget beqb c m = None -> ~ In c (map fst m).
Proof.
  induction m as [|[k v] m IH]; cbn [mget map fst]; [auto|]. destruct (beqb_spec c k) as [->|D]; [discriminate|].
  intros E [X|X]; [congruence|exact (IH E X)].
Qed.
Lemma esc_of_written d c : written_char d c (esc_of d c).
Proof.
  unfold esc_of. destruct (mget beqb c (varying d)) as [t|] eqn:V; [apply WrittenVarying, bmget_in, V|].
  apply bmget_none in V. destruct (mget beqb c escapes) as [t|] eqn:X; [apply WrittenEscaped, bmget_in, X; exact V|].
  apply WrittenItself; [exact V|]. apply bmget_none, X.
Qed.
Lemma debug_byte_esc d c : debug_byte d c = esc_of d c.
Proof. destruct d, c; vm_compute; reflexivity. Qed.
Lemma debug_written d s : written d s (debug_str d s).
Proof.
  exists (map (debug_byte d) s). split; [|unfold debug_str; rewrite flat_map_concat_map; reflexivity].
  induction s as [|c s IH]; cbn [map]; constructor; [|exact IH]. rewrite debug_byte_esc. apply esc_of_written.
Qed.
(** The specification determines the text. *)
Lemma written_char_fun d c t t' : written_char d c t -> written_char d c t' -> t = t'.
Proof.
  assert (K : forall (m : list (byte * str)), NoDup (map fst m) -> forall c t t', In (c, t) m -> In (c, t') m -> t = t').
  { intros m N c0 u u' I1 I2. induction m as [|[k v] m IH]; [destruct I1|]. cbn [map fst] in N. inversion N as [|? ? N1 N2]; subst.
    destruct I1 as [X|I1], I2 as [Y|I2].
    - congruence.
    - injection X as -> ->. destruct N1. apply in_map_iff. exists (c0, u'). auto.
    - injection Y as -> ->. destruct N1. apply in_map_iff. exists (c0, u). auto.
    - auto. }
  assert (F : forall (m : list (byte * str)) c t, In (c, t) m -> In c (map fst m)).
  { intros m c0 u I1. apply in_map_iff. exists (c0, u). auto. }
  assert (Nv : NoDup (map fst (varying d))) by (destruct d; cbn; repeat constructor; cbn; tauto).
  assert (Ne : NoDup (map fst escapes)).
  { apply NoDup_map_inv with (f := bN). vm_compute. repeat (constructor; [cbn; intro X; repeat (destruct X as [X|X]; [discriminate|]); exact X|]). constructor. }
  intros [u I1|u N1 I1|N1 M1] [u' I2|u' N2 I2|N2 M2]; try reflexivity;
    try solve [destruct N1; eauto | destruct N2; eauto | destruct M1; eauto | destruct M2; eauto]; eauto.
Qed.
Lemma written_fun d s t t' : written d s t -> written d s t' -> t = t'.
Proof.
  intros (p & F & ->) (p' & F' & ->). assert (E : p = p'); [|rewrite E; reflexivity].
  revert p' F'. induction F as [|c u s p W F IH]; intros p' F'; inversion F'; subst; [reflexivity|].
  f_equal; [eapply written_char_fun; eauto|auto].
Qed.
Lemma name_written cl w f (r : response cl) : exists v,
  res_get (B "Content-Disposition") (attachment_with_filename w f r) = Some (B "attachment; filename = " ++ v) /\
  forall t, written (dbg_sq w) f t <-> t = v.
Proof.
  exists (debug_str (dbg_sq w) f). split.
  - unfold attachment_with_filename, res_get, res_set. cbn [rs_headers with_headers].
    rewrite (mget_mset_other seqb seqb_eq), (mget_mset_same seqb seqb_eq) by discriminate. reflexivity.
  - intro t. split; [intro W; eapply written_fun; [exact W|apply debug_written]|intros ->; apply debug_written].
Qed.
Lemma type_written cl pre w o post (r r' : response cl) s : apply_ops (pre ++ (w, o) :: post) r = Done r' ->
  res_get (B "Content-Type") r = None ->
  (forall wo t, In wo (pre ++ (w, o) :: post) -> ~ chooses_type (fst wo) (snd wo) t) ->
  Forall (fun wo => fills_in (snd wo) = false) pre -> fills_in o = true ->
  charset_of pre (rs_charset r) = Some s -> exists v,
  res_get (B "Content-Type") r' = Some (B "text/html ;charset=" ++ v) /\ forall t, written (dbg_sq w) s t <-> t = v.
Proof.
  intros A N C P F E. exists (debug_str (dbg_sq w) s). split; [erewrite ctype_default by eassumption; rewrite E; reflexivity|].
  intro t. split; [intro W; eapply written_fun; [exact W|apply debug_written]|intros ->; apply debug_written].
Qed.
