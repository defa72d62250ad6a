(** C116: the enum and the function that [status_codes!] writes for a table of status codes. *)
From Verif.Model Require Import RustStd Macros Status DeriveText StatusText.
From Verif.Spec Require Import Common ResponseSpec RustLang EnumLang.
From Verif.Proofs Require Import StatusTextProofs.

(** Every table: one variant per line, in order, and [Other]; [fetch] gives for each the number and the
    phrase of its line, and what [Other] holds.  Only literals count, and a number at the end without a
    phrase is dropped. *)
Theorem C116_expansion :
  forall toks l tail, literals toks = flat_map entry_literals l ++ tail -> (tail = [] \/ exists r n, code_text r n /\ tail = [r]) ->
  Forall entry_ok l ->
  exists body arms ars, status_codes toks = Done (enum_decl body ++ fetch_impl arms) /\
  read_variants body = Some (map (fun e => (variant_name (e_phrase e), [])) l ++ [(B "Other", [[TkIdent (B "i32")]; static_str])]) /\
  read_arms arms = Some ars /\
  (NoDup (map (fun e => variant_name (e_phrase e)) l) -> forall e, In e l ->
   matches ars (B "StatusCode") (variant_name (e_phrase e)) [] = Some [SInt (Z.of_N (e_code e)); SText (e_phrase e)]) /\
  forall n s, matches ars (B "StatusCode") (B "Other") [SInt n; SText s] = Some [SInt n; SText s].
Proof. exact expansion. Qed.
Print Assumptions C116_expansion.

(** A literal without sign that is no number of an i32, where a number is due: no expansion *)
Theorem C116_rejects_number :
  forall toks l r rest, literals toks = flat_map entry_literals l ++ r :: rest -> Forall entry_ok l ->
  (forall n, ~ code_text r n) -> (forall r', r <> x2b :: r' /\ r <> x2d :: r') -> status_codes toks = Panic.
Proof. exact rejects_number. Qed.
Print Assumptions C116_rejects_number.

(** A literal without letters, where a phrase is due: no expansion *)
Theorem C116_rejects_phrase :
  forall toks l r n q rest, literals toks = flat_map entry_literals l ++ r :: q :: rest -> Forall entry_ok l -> code_text r n ->
  Forall (fun b => is_alpha b = false) q -> status_codes toks = Panic.
Proof. exact rejects_phrase. Qed.
Print Assumptions C116_rejects_phrase.

(** The table of octane_http: the function written gives what [status_fetch] gives. *)
Theorem C116_table :
  exists body arms ars, status_codes (map source_token status_source) = Done (enum_decl body ++ fetch_impl arms) /\
  read_variants body = Some (map (fun p => (snd p, [])) all_status ++ [(B "Other", [[TkIdent (B "i32")]; static_str])]) /\
  read_arms arms = Some ars /\
  forall c name, In (c, name) all_status ->
  matches ars (B "StatusCode") name [] = Some [SInt (fst (status_fetch c)); SText (snd (status_fetch c))].
Proof. exact table_expansion. Qed.
Print Assumptions C116_table.

Example C116_example :
  let toks := [TkLit (B "418"); TkPunct x2c; TkLit (B """I'm a teapot"""); TkPunct x2c; TkLit (B "007"); TkPunct x2c; TkLit (B """Non-zero 7x-CODE""")] in
  let l := [Entry (B "418") 418 (B "I'm a teapot"); Entry (B "007") 7 (B "Non-zero 7x-CODE")] in
  literals toks = flat_map entry_literals l ++ [] /\ Forall entry_ok l /\
  map (fun e => variant_name (e_phrase e)) l = [B "ImATeapot"; B "NonzeroXcode"] /\
  NoDup (map (fun e => variant_name (e_phrase e)) l) /\
  (forall n, ~ code_text (B "2147483648") n) /\ (forall n, ~ code_text (B """Ok""") n) /\
  status_codes [TkLit (B "2147483648"); TkLit (B """Ok""")] = Panic /\
  status_codes [TkLit (B "200"); TkLit (B """42""")] = Panic.
Proof.
  assert (NC : forall r, r = B "2147483648" \/ r = B """Ok""" -> forall n, ~ code_text r n).
  { intros r [-> | ->] n (_ & D & V & M).
    - vm_compute in V. subst n. apply M. reflexivity.
    - inversion D as [|? ? D1 _]. destruct D1 as [D1 _]. apply D1. reflexivity. }
  split; [reflexivity|]. split.
  - constructor; [|constructor; [|constructor]]; (split; [split; [discriminate|split; [|split; [reflexivity|discriminate]]]|split; [split|discriminate]]).
    + repeat constructor; discriminate.
    + repeat constructor; discriminate.
    + left. reflexivity.
    + repeat constructor; discriminate.
    + repeat constructor; discriminate.
    + left. reflexivity.
  - split; [reflexivity|]. split; [repeat constructor; cbn; intuition discriminate|].
    split; [apply NC; auto|]. split; [apply NC; auto|]. split; reflexivity.
Qed.
