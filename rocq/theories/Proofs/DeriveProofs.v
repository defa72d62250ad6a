(** Proofs for Props/DeriveProps.v: the generated code is read and run. *)
From Verif.Model Require Import RustStd Macros Derive.
From Verif.Spec Require Import MacroSpec RustLang DeriveSpec.
From Verif.Proofs Require Import Basics MacroProofs.
From Verif.Proofs Require ResponseProofs.

(** ** Reading *)
Lemma before_app p a t r : Forall (fun x => p x = false) a -> p t = true -> before p (a ++ t :: r) = (a, t :: r).
Proof. induction 1 as [|x a E _ IH]; intro T; cbn [app before]; [rewrite T; auto|]. rewrite E, IH by auto. reflexivity. Qed.

Lemma pieces_items {A} (it : A -> list token) l : (forall x, Forall (fun t => is_comma t = false) (it x)) -> (forall x, it x <> []) ->
  forall n, length l <= n -> pieces n (flat_map (fun x => it x ++ [COMMA]) l) = map it l.
Proof.
  intros C NE. induction l as [|x l IH]; intros n Hn; [destruct n; reflexivity|].
  destruct n as [|n]; [cbn in Hn; lia|]. cbn [flat_map map pieces]. rewrite <- app_assoc. cbn [app].
  destruct (it x ++ COMMA :: flat_map (fun x => it x ++ [COMMA]) l) as [|t r] eqn:E.
  { destruct (NE x). destruct (it x); auto; discriminate. }
  rewrite <- E, before_app by auto. cbn [tl]. rewrite IH by (cbn in Hn; lia). reflexivity.
Qed.
Lemma all_map {A C D} (g : A -> option C) (h : D -> A) (k : D -> C) l : (forall x, In x l -> g (h x) = Some (k x)) -> all (map g (map h l)) = Some (map k l).
Proof.
  induction l as [|x l IH]; intro E; auto. cbn [map all]. rewrite (E x (or_introl eq_refl)), IH; auto. intros y I. apply E. right. auto.
Qed.
Lemma length_items {A} (it : A -> list token) l : length l <= length (flat_map (fun x => it x ++ [COMMA]) l).
Proof. induction l as [|x l IH]; auto. cbn [flat_map]. rewrite !app_length. cbn [length]. lia. Qed.

Lemma debug_word f : forallb word_byte f = true -> debug_str DebugNew f = x22 :: f ++ [x22].
Proof.
  intro W. unfold debug_str. cbn [app]. do 2 f_equal. induction f as [|b f IH]; auto. cbn [forallb flat_map] in *.
  apply andb_true_iff in W. destruct W as [W1 W2]. rewrite IH by auto. revert W1. clear. destruct b; try discriminate; reflexivity.
Qed.
Lemma word_text f : forallb word_byte f = true -> read_text (debug_str DebugNew f) = Some f.
Proof.
  intro W. rewrite debug_word by auto. unfold read_text. rewrite rev_app_distr. cbn [rev app].
  assert (E : existsb (fun b => beqb b x22 || beqb b x5c) (rev f) = false).
  { apply not_true_iff_false. intro X. apply existsb_exists in X. destruct X as (b & I & X). apply in_rev in I.
    rewrite forallb_forall in W. specialize (W b I). revert W X. clear. destruct b; discriminate. }
  rewrite E, rev_involutive. reflexivity.
Qed.

Definition good (f : str) : bool := forallb word_byte f && is_name f.
(** *** [from_json] of a braced struct *)
Definition from_item (f : str) : list token :=
  [TkIdent f; TkPunct x3a] ++
    call_path [B "crate"; B "FromJSON"; B "from_json"]
      (TkIdent (B "obj") :: method_call (B "remove") [name_literal f] ++ [TkPunct x3f]) ++ [TkPunct x3f].
Definition from_expr (e : expr) : expr := ETry (ECall [B "crate"; B "FromJSON"; B "from_json"] [ETry e]).
Definition taken (f : str) : expr := EMethod (EVar (B "obj")) (B "remove") [EText f].
Lemma from_vals_items fields : from_vals fields = flat_map (fun f => from_item f ++ [COMMA]) fields.
Proof. reflexivity. Qed.

Lemma from_item_commas f : Forall (fun t => is_comma t = false) (from_item f).
Proof. repeat constructor. Qed.
Lemma read_from_item n f : forallb word_byte f = true ->
  read_expr (4 + n) (tl (tl (from_item f))) = Some (from_expr (taken f)).
Proof.
  intro W. apply word_text in W. unfold from_item. cbn [tl app]. cbn -[read_text debug_str]. rewrite W. reflexivity.
Qed.

Definition init_expr (fields : list str) : expr := EStruct (map (fun f => (f, from_expr (taken f))) fields).
Lemma read_init n fields : forallb good fields = true ->
  read_expr (5 + n) [TkIdent (B "Self"); TkGroup DBrace (from_vals fields)] = Some (init_expr fields).
Proof.
  intro W. rewrite forallb_forall in W.
  assert (Q : forall m g, read_expr (S m) [TkIdent (B "Self"); TkGroup DBrace g] = option_map EStruct (read_items (read_expr m) g)) by reflexivity.
  change (5 + n) with (S (4 + n)). rewrite Q. unfold read_items.
  rewrite from_vals_items, pieces_items.
  - rewrite (all_map _ _ (fun f => (f, from_expr (taken f)))); [reflexivity|]. intros f I.
    pose proof (W f I) as Wf. unfold good in Wf. apply andb_true_iff in Wf. destruct Wf as [Wf Nf].
    pose proof (read_from_item n f Wf) as R. unfold from_item in *. cbn [tl app] in *. unfold read_item.
    change (beqb x3a x3a) with true. rewrite Nf. cbn [andb]. rewrite R. reflexivity.
  - apply from_item_commas.
  - discriminate.
  - apply length_items.
Qed.
Definition from_body (fields : list str) : list token :=
    [TkIdent (B "if"); TkIdent (B "let")] ++
    call_path [B "crate"; B "Value"; B "Object"] [TkIdent (B "mut"); TkIdent (B "obj")] ++
    [TkPunct x3d; TkIdent (B "val");
     TkGroup DBrace (
       [TkIdent (B "let"); TkIdent (B "ret"); TkPunct x3d; TkIdent (B "Self"); TkGroup DBrace (from_vals fields); TkPunct x3b] ++
       [TkIdent (B "if"); TkPunct x21; TkIdent (B "obj")] ++ method_call (B "is_empty") [] ++ [TkGroup DBrace return_none] ++
       [TkIdent (B "Some"); TkGroup DParen [TkIdent (B "ret")]]);
     TkIdent (B "else"); TkGroup DBrace [TkIdent (B "None")]].
Definition from_prog (init : expr) (test : expr) : list stmt :=
  [SLet (B "ret") init; SIf test [SReturn (EVar (B "None"))]; SValue (ECall [B "Some"] [EVar (B "ret")])].
Definition from_program (fields : list str) : list stmt :=
  [SValue (EIfLet [B "crate"; B "Value"; B "Object"] (B "obj") (EVar (B "val"))
     (from_prog (init_expr fields) (ENot (EMethod (EVar (B "obj")) (B "is_empty") []))) [SValue (EVar (B "None"))])].



Lemma read_if n c g r : Forall (fun t => is_block t = false) c -> match c ++ [TkGroup DBrace g] with t :: _ => is_word (B "let") t | [] => false end = false ->
  read_block (S n) (TkIdent (B "if") :: c ++ TkGroup DBrace g :: r) =
  match read_expr n c, read_block n g with
  | Some e, Some s => prepend (Some (SIf e s)) (read_block n r)
  | _, _ => None
  end.
Proof.
  intros Bl W. cbn [read_block]. change (seqb (B "if") (B "if")) with true. cbn iota. rewrite before_app by auto.
  replace (match c ++ TkGroup DBrace g :: r with t :: _ => is_word (B "let") t | [] => false end) with false by (destruct c; auto).
  reflexivity.
Qed.
Lemma read_ret n : read_block (3 + n) return_none = Some [SReturn (EVar (B "None"))].
Proof. reflexivity. Qed.
Lemma read_some n : read_block (4 + n) [TkIdent (B "Some"); TkGroup DParen [TkIdent (B "ret")]] = Some [SValue (ECall [B "Some"] [EVar (B "ret")])].
Proof. reflexivity. Qed.
Lemma read_test n c e r : Forall (fun t => is_block t = false) c -> match c ++ [TkGroup DBrace []] with t :: _ => is_word (B "let") t | [] => false end = false ->
  read_expr (3 + n) c = Some e ->
  read_block (4 + n) (TkIdent (B "if") :: c ++ TkGroup DBrace return_none :: r) =
  prepend (Some (SIf e [SReturn (EVar (B "None"))])) (read_block (3 + n) r).
Proof. intros A W R. change (4 + n) with (S (3 + n)). rewrite read_if, R, read_ret; auto. destruct c; auto. Qed.
Lemma read_let_self n d g r : read_block (S n) (TkIdent (B "let") :: TkIdent (B "ret") :: TkPunct x3d :: TkIdent (B "Self") :: TkGroup d g :: TkPunct x3b :: r) =
  prepend (option_map (SLet (B "ret")) (read_expr n [TkIdent (B "Self"); TkGroup d g])) (read_block n r).
Proof. reflexivity. Qed.
Lemma read_yes n d g i c e : read_expr (7 + n) [TkIdent (B "Self"); TkGroup d g] = Some i ->
  Forall (fun t => is_block t = false) c -> match c ++ [TkGroup DBrace []] with t :: _ => is_word (B "let") t | [] => false end = false ->
  read_expr (6 + n) c = Some e ->
  read_block (8 + n) ([TkIdent (B "let"); TkIdent (B "ret"); TkPunct x3d; TkIdent (B "Self"); TkGroup d g; TkPunct x3b] ++
       TkIdent (B "if") :: c ++ TkGroup DBrace return_none ::
       [TkIdent (B "Some"); TkGroup DParen [TkIdent (B "ret")]]) =
  Some (from_prog i e).
Proof.
  intros R A W C. change (8 + n) with (S (7 + n)).
  change ([TkIdent (B "let"); TkIdent (B "ret"); TkPunct x3d; TkIdent (B "Self"); TkGroup d g; TkPunct x3b] ++ ?r) with
    (TkIdent (B "let") :: TkIdent (B "ret") :: TkPunct x3d :: TkIdent (B "Self") :: TkGroup d g :: TkPunct x3b :: r).
  rewrite read_let_self, R. change (7 + n) with (4 + (3 + n)). rewrite (read_test _ c e) by auto.
  change (3 + (3 + n)) with (4 + (2 + n)). rewrite read_some. reflexivity.
Qed.
Lemma read_outer n ctor pat v yes y : read_block n yes = Some y -> rev pat = [v] \/ (exists m, rev pat = [v; m]) ->
  read_expr (S n) (TkIdent (B "if") :: TkIdent (B "let") :: call_path [B "crate"; B "Value"; ctor] pat ++
    [TkPunct x3d; TkIdent (B "val"); TkGroup DBrace yes; TkIdent (B "else"); TkGroup DBrace [TkIdent (B "None")]]) =
  match v, read_expr n [TkIdent (B "val")], read_block n [TkIdent (B "None")] with
  | TkIdent v, Some e, Some o => Some (EIfLet [B "crate"; B "Value"; ctor] v e y o)
  | _, _, _ => None
  end.
Proof.
  intros Y P. cbn [read_expr]. change (seqb (B "if") (B "if")) with true. cbn iota. unfold read_if_let, call_path.
  cbn [tl path_tokens app read_path]. change (beqb x3a x3a) with true. cbn [andb before is_block]. 
  change (beqb x3d x3d) with true. change (seqb (B "else") (B "else")) with true. cbn [andb]. rewrite Y.
  destruct (read_expr n [TkIdent (B "val")]) as [e|]; [|destruct v; reflexivity].
  destruct (read_block n [TkIdent (B "None")]) as [o|]; [|destruct v; reflexivity].
  destruct P as [->|[m ->]]; reflexivity.
Qed.
Lemma read_from_body n fields : forallb good fields = true -> read_block (10 + n) (from_body fields) = Some (from_program fields).
Proof.
  intro W. unfold from_body. set (yes := _ ++ _ ++ method_call _ _ ++ _ ++ _).
  assert (Y : read_block (8 + n) yes = Some (from_prog (init_expr fields) (ENot (EMethod (EVar (B "obj")) (B "is_empty") [])))).
  { apply (read_yes n DBrace (from_vals fields) _ (TkPunct x21 :: TkIdent (B "obj") :: method_call (B "is_empty") [])).
    - apply (read_init (2 + n)). auto.
    - repeat constructor.
    - reflexivity.
    - reflexivity. }
  pose proof (read_outer (8 + n) (B "Object") [TkIdent (B "mut"); TkIdent (B "obj")] (TkIdent (B "obj")) yes _ Y) as O.
  change (10 + n) with (S (9 + n)).
  assert (V : forall m r, read_block (S m) (TkIdent (B "if") :: TkIdent (B "let") :: r) = option_map (fun e => [SValue e]) (read_expr m (TkIdent (B "if") :: TkIdent (B "let") :: r))) by reflexivity.
  cbn [app]. rewrite V. setoid_rewrite O; [reflexivity|]. right. eexists; reflexivity.
Qed.

(** *** [from_json] of a tuple struct *)
Definition tuple_item : list token :=
  call_path [B "crate"; B "FromJSON"; B "from_json"] (TkIdent (B "it") :: method_call (B "next") [] ++ [TkPunct x3f]) ++ [TkPunct x3f].
Definition nexted : expr := EMethod (EVar (B "it")) (B "next") [].
Lemma from_tuple_items n : from_tuple_vals n = flat_map (fun _ => tuple_item ++ [COMMA]) (repeat tt n).
Proof. induction n; [reflexivity|]. cbn [from_tuple_vals repeat flat_map]. rewrite <- IHn. reflexivity. Qed.
Definition tuple_init (n : nat) : expr := ECall [B "Self"] (map (fun _ => from_expr nexted) (repeat tt n)).
Lemma read_tuple_init k n : read_expr (5 + k) [TkIdent (B "Self"); TkGroup DParen (from_tuple_vals n)] = Some (tuple_init n).
Proof.
  assert (Q : forall m g, read_expr (S m) [TkIdent (B "Self"); TkGroup DParen g] = match read_args (read_expr m) g with Some a => Some (ECall [B "Self"] a) | None => None end) by reflexivity.
  change (5 + k) with (S (4 + k)). rewrite Q. unfold read_args.
  rewrite from_tuple_items, (pieces_items (fun _ => tuple_item)).
  - rewrite (all_map _ (fun _ : unit => tuple_item) (fun _ => from_expr nexted)); reflexivity.
  - repeat constructor.
  - discriminate.
  - apply length_items.
Qed.
Definition from_tuple_body (n : nat) : list token :=
    [TkIdent (B "if"); TkIdent (B "let")] ++
    call_path [B "crate"; B "Value"; B "Array"] [TkIdent (B "arr")] ++
    [TkPunct x3d; TkIdent (B "val");
     TkGroup DBrace (
       let_mut (B "it") (TkIdent (B "arr") :: method_call (B "into_iter") []) ++
       [TkIdent (B "let"); TkIdent (B "ret"); TkPunct x3d; TkIdent (B "Self"); TkGroup DParen (from_tuple_vals n); TkPunct x3b] ++
       [TkIdent (B "if"); TkIdent (B "it")] ++ method_call (B "next") [] ++ method_call (B "is_some") [] ++
       [TkGroup DBrace return_none] ++
       [TkIdent (B "Some"); TkGroup DParen [TkIdent (B "ret")]]);
     TkIdent (B "else"); TkGroup DBrace [TkIdent (B "None")]].
Definition tuple_program (n : nat) : list stmt :=
  [SValue (EIfLet [B "crate"; B "Value"; B "Array"] (B "arr") (EVar (B "val"))
     (SLet (B "it") (EMethod (EVar (B "arr")) (B "into_iter") []) :: from_prog (tuple_init n) (EMethod nexted (B "is_some") [])) [SValue (EVar (B "None"))])].
Lemma read_tuple_body k n : read_block (11 + k) (from_tuple_body n) = Some (tuple_program n).
Proof.
  unfold from_tuple_body. set (rest := [TkIdent (B "let"); TkIdent (B "ret"); TkPunct x3d; TkIdent (B "Self"); TkGroup DParen (from_tuple_vals n); TkPunct x3b] ++ _).
  assert (Y : read_block (8 + k) rest = Some (from_prog (tuple_init n) (EMethod nexted (B "is_some") []))).
  { apply (read_yes k DParen (from_tuple_vals n) _ (TkIdent (B "it") :: method_call (B "next") [] ++ method_call (B "is_some") [])).
    - apply (read_tuple_init (2 + k)).
    - repeat constructor.
    - reflexivity.
    - reflexivity. }
  set (yes := let_mut _ _ ++ rest).
  assert (Y' : read_block (9 + k) yes = Some (SLet (B "it") (EMethod (EVar (B "arr")) (B "into_iter") []) :: from_prog (tuple_init n) (EMethod nexted (B "is_some") []))).
  { assert (Q : forall m r, read_block (3 + m) (let_mut (B "it") (TkIdent (B "arr") :: method_call (B "into_iter") []) ++ r) =
      prepend (Some (SLet (B "it") (EMethod (EVar (B "arr")) (B "into_iter") []))) (read_block (2 + m) r)) by reflexivity.
    unfold yes. change (9 + k) with (3 + (6 + k)). rewrite Q. change (2 + (6 + k)) with (8 + k). rewrite Y. reflexivity. }
  pose proof (read_outer (9 + k) (B "Array") [TkIdent (B "arr")] (TkIdent (B "arr")) yes _ Y') as O.
  change (11 + k) with (S (10 + k)).
  assert (V : forall m r, read_block (S m) (TkIdent (B "if") :: TkIdent (B "let") :: r) = option_map (fun e => [SValue e]) (read_expr m (TkIdent (B "if") :: TkIdent (B "let") :: r))) by reflexivity.
  cbn [app]. rewrite V. setoid_rewrite O; [reflexivity|]. left. reflexivity.
Qed.

(** *** [to_json] *)
Definition to_expr (e : expr) : expr := ETry (ECall [B "crate"; B "ToJSON"; B "to_json"] [e]).
Definition put (f : str) : stmt :=
  SDo (EMethod (EVar (B "obj")) (B "insert") [EMethod (EText f) (B "to_owned") []; to_expr (EField (EVar (B "self")) f)]).
Definition put_args (f : str) : list token :=
  name_literal f :: method_call (B "to_owned") [] ++ [TkPunct x2c] ++
  call_path [B "crate"; B "ToJSON"; B "to_json"] [TkIdent (B "self"); TkPunct x2e; TkIdent f] ++ [TkPunct x3f].
Lemma put_pieces f : pieces (length (put_args f)) (put_args f) =
  [name_literal f :: method_call (B "to_owned") [];
   call_path [B "crate"; B "ToJSON"; B "to_json"] [TkIdent (B "self"); TkPunct x2e; TkIdent f] ++ [TkPunct x3f]].
Proof. unfold put_args, name_literal. generalize (debug_str DebugNew f). intro. reflexivity. Qed.
Lemma read_owned n f : forallb word_byte f = true ->
  read_expr (4 + n) (name_literal f :: method_call (B "to_owned") []) = Some (EMethod (EText f) (B "to_owned") []).
Proof.
  intro W. apply word_text in W. unfold name_literal, method_call. change (4 + n) with (S (3 + n)). cbn [read_expr].
  unfold read_operand. rewrite W. reflexivity.
Qed.
Lemma read_to n f : is_name f = true -> read_expr (4 + n) (call_path [B "crate"; B "ToJSON"; B "to_json"] [TkIdent (B "self"); TkPunct x2e; TkIdent f] ++ [TkPunct x3f]) =
  Some (to_expr (EField (EVar (B "self")) f)).
Proof.
  intro N.
  assert (R : read_expr (3 + n) [TkIdent (B "self"); TkPunct x2e; TkIdent f] = if is_name f then Some (EField (EVar (B "self")) f) else None) by reflexivity.
  rewrite N in R.
  assert (Q : forall g, read_expr (S (3 + n)) (call_path [B "crate"; B "ToJSON"; B "to_json"] g ++ [TkPunct x3f]) =
    match read_args (read_expr (3 + n)) g with Some a => Some (ETry (ECall [B "crate"; B "ToJSON"; B "to_json"] a)) | None => None end)
    by (intro g; generalize (3 + n); intro; reflexivity).
  change (4 + n) with (S (3 + n)). rewrite Q. unfold read_args.
  change (pieces (length [TkIdent (B "self"); TkPunct x2e; TkIdent f]) [TkIdent (B "self"); TkPunct x2e; TkIdent f]) with [[TkIdent (B "self"); TkPunct x2e; TkIdent f]].
  cbn [map all]. rewrite R. reflexivity.
Qed.
Lemma read_insert n g : read_expr (S n) (TkIdent (B "obj") :: method_call (B "insert") g) =
    match read_args (read_expr n) g with Some a => Some (EMethod (EVar (B "obj")) (B "insert") a) | None => None end.
Proof. reflexivity. Qed.
Lemma read_do n o m g r : seqb o (B "if") = false -> seqb o (B "let") = false -> seqb o (B "return") = false ->
  read_block (S n) (TkIdent o :: method_call m g ++ TkPunct x3b :: r) =
  prepend (option_map SDo (read_expr n (TkIdent o :: method_call m g))) (read_block n r).
Proof. intros A1 A2 A3. cbn [read_block]. rewrite A1, A2, A3. reflexivity. Qed.
Lemma to_vals_one f : to_vals [f] = TkIdent (B "obj") :: method_call (B "insert") (put_args f) ++ [TkPunct x3b].
Proof. unfold put_args, to_vals. cbn [flat_map]. rewrite app_nil_r. reflexivity. Qed.
Lemma read_put n f r : good f = true ->
  read_block (6 + n) (to_vals [f] ++ r) = prepend (Some (put f)) (read_block (5 + n) r).
Proof.
  intro W. apply andb_true_iff in W. destruct W as [W Nf]. rewrite to_vals_one. rewrite <- app_comm_cons, <- app_assoc. change ([TkPunct x3b] ++ r) with (TkPunct x3b :: r).
  change (6 + n) with (S (5 + n)). rewrite read_do by reflexivity. change (5 + n) with (S (4 + n)) at 1. rewrite read_insert.
  unfold read_args. rewrite put_pieces. cbn [map all]. rewrite read_owned, read_to by auto. reflexivity.
Qed.
Lemma read_puts n fields r p : forallb good fields = true -> read_block (5 + n) r = Some p ->
  read_block (length fields + (5 + n)) (to_vals fields ++ r) = Some (map put fields ++ p).
Proof.
  induction fields as [|f fields IH]; intros W R; [exact R|]. cbn [forallb] in W. apply andb_true_iff in W. destruct W as [W1 W2].
  change (to_vals (f :: fields)) with (to_vals [f] ++ to_vals fields). rewrite <- app_assoc. cbn [length].
  replace (S (length fields) + (5 + n)) with (6 + (length fields + n)) by lia. rewrite read_put by auto.
  replace (5 + (length fields + n)) with (length fields + (5 + n)) by lia. rewrite IH; auto.
Qed.
Definition to_body (fields : list str) : list token :=
    let_mut (B "obj") (call_path [B "std"; B "collections"; B "HashMap"; B "new"] []) ++
    to_vals fields ++
    [TkIdent (B "Some"); TkGroup DParen (call_path [B "crate"; B "Value"; B "Object"] [TkIdent (B "obj")])].
Definition to_program (fields : list str) : list stmt :=
  SLet (B "obj") (ECall [B "std"; B "collections"; B "HashMap"; B "new"] []) :: map put fields ++
  [SValue (ECall [B "Some"] [ECall [B "crate"; B "Value"; B "Object"] [EVar (B "obj")]])].
Lemma read_to_body n fields : forallb good fields = true -> read_block (S (length fields + (5 + n))) (to_body fields) = Some (to_program fields).
Proof.
  intro W. unfold to_body, to_program.
  assert (Q : forall m r, read_block (3 + m) (let_mut (B "obj") (call_path [B "std"; B "collections"; B "HashMap"; B "new"] []) ++ r) =
    prepend (Some (SLet (B "obj") (ECall [B "std"; B "collections"; B "HashMap"; B "new"] []))) (read_block (2 + m) r)) by reflexivity.
  replace (S (length fields + (5 + n))) with (3 + (length fields + (3 + n))) by lia. rewrite Q.
  replace (2 + (length fields + (3 + n))) with (length fields + (5 + n)) by lia.
  rewrite (read_puts n fields _ [SValue (ECall [B "Some"] [ECall [B "crate"; B "Value"; B "Object"] [EVar (B "obj")]])]) by auto. reflexivity.
Qed.
Definition pushed (i : nat) : stmt :=
  SDo (EMethod (EVar (B "arr")) (B "push") [to_expr (EField (EVar (B "self")) (show_N (N.of_nat i)))]).


Lemma read_push n g : read_expr (S n) (TkIdent (B "arr") :: method_call (B "push") g) =
    match read_args (read_expr n) g with Some a => Some (EMethod (EVar (B "arr")) (B "push") a) | None => None end.
Proof. reflexivity. Qed.
Definition push_args (f : str) : list token := call_path [B "crate"; B "ToJSON"; B "to_json"] [TkIdent (B "self"); TkPunct x2e; TkLit f] ++ [TkPunct x3f].
Lemma push_pieces f : pieces (length (push_args f)) (push_args f) = [push_args f].
Proof. reflexivity. Qed.
Lemma read_to_index n f : read_expr (4 + n) (push_args f) = Some (to_expr (EField (EVar (B "self")) f)).
Proof. reflexivity. Qed.
Lemma to_tuple_S i n : to_tuple_vals i (S n) = TkIdent (B "arr") :: method_call (B "push") (push_args (show_N (N.of_nat i))) ++ TkPunct x3b :: to_tuple_vals (S i) n.
Proof. cbn [to_tuple_vals]. unfold push_args. generalize (show_N (N.of_nat i)). reflexivity. Qed.
Lemma read_pushes n k : forall i r p, read_block (5 + n) r = Some p ->
  read_block (k + (5 + n)) (to_tuple_vals i k ++ r) = Some (map pushed (seq i k) ++ p).
Proof.
  induction k as [|k IH]; intros i r p R; [exact R|]. rewrite to_tuple_S. rewrite <- app_comm_cons, <- app_assoc.
  change ((TkPunct x3b :: to_tuple_vals (S i) k) ++ r) with (TkPunct x3b :: to_tuple_vals (S i) k ++ r).
  change (S k + (5 + n)) with (S (k + (5 + n))). rewrite read_do by reflexivity. rewrite (IH (S i) r p R). replace (k + (5 + n)) with (S (4 + (k + n))) by lia.
  rewrite read_push. unfold read_args. rewrite push_pieces. cbn [map all]. rewrite read_to_index. reflexivity.
Qed.
Definition to_tuple_body (n : nat) : list token :=
    let_mut (B "arr") (call_path [B "Vec"; B "new"] []) ++
    to_tuple_vals 0 n ++
    [TkIdent (B "Some"); TkGroup DParen (call_path [B "crate"; B "Value"; B "Array"] [TkIdent (B "arr")])].
Definition to_tuple_program (n : nat) : list stmt :=
  SLet (B "arr") (ECall [B "Vec"; B "new"] []) :: map pushed (seq 0 n) ++
  [SValue (ECall [B "Some"] [ECall [B "crate"; B "Value"; B "Array"] [EVar (B "arr")]])].
Lemma read_to_tuple_body n k : read_block (S (k + (5 + n))) (to_tuple_body k) = Some (to_tuple_program k).
Proof.
  unfold to_tuple_body, to_tuple_program.
  assert (Q : forall m r, read_block (3 + m) (let_mut (B "arr") (call_path [B "Vec"; B "new"] []) ++ r) =
    prepend (Some (SLet (B "arr") (ECall [B "Vec"; B "new"] []))) (read_block (2 + m) r)) by reflexivity.
  replace (S (k + (5 + n))) with (3 + (k + (3 + n))) by lia. rewrite Q.
  replace (2 + (k + (3 + n))) with (k + (5 + n)) by lia.
  rewrite (read_pushes n k _ _ [SValue (ECall [B "Some"] [ECall [B "crate"; B "Value"; B "Array"] [EVar (B "arr")]])]) by auto. reflexivity.
Qed.

(** ** Running *)
Section Runs.
Context {L F : Type} (ffrom : str -> value L -> option F) (fto : str -> F -> option (value L)).
Notation ev := (eval ffrom fto).
Definition blk (en : env) (l : list stmt) : res rv := ev None en (EBlock l).
Fixpoint ev_list (en : env) (l : list expr) : res (list rv) :=
  match l with
  | [] => Value en []
  | e :: r => bind (ev None en e) (fun en1 v => bind (ev_list en1 r) (fun en2 vs => Value en2 (v :: vs)))
  end.
Fixpoint ev_items (i : nat) (en : env) (l : list expr) : res (list (str * F)) :=
    match l with
    | [] => Value en []
    | e :: r =>
        bind (ev (Some (show_N (N.of_nat i))) en e) (fun en1 v =>
          match v with
          | RField f x => bind (ev_items (S i) en1 r) (fun en2 vs => Value en2 ((f, x) :: vs))
          | _ => Stuck
          end)
    end.
Fixpoint ev_named (en : env) (l : list (str * expr)) : res (list (str * F)) :=
    match l with
    | [] => Value en []
    | (f, e) :: r =>
        bind (ev (Some f) en e) (fun en1 v =>
          match v with
          | RField f x => bind (ev_named en1 r) (fun en2 vs => Value en2 ((f, x) :: vs))
          | _ => Stuck
          end)
    end.
Lemma ev_call want en p args : ev want en (ECall p args) =
  if same_path p [B "Self"] then bind (ev_items 0 en args) (fun en1 l => Value en1 (RStruct l))
  else bind (ev_list en args) (fun en1 vs => match call ffrom fto want p vs with Some v => Value en1 v | None => Stuck end).
Proof. reflexivity. Qed.
Lemma ev_struct want en l : ev want en (EStruct l) = bind (ev_named en l) (fun en1 l => Value en1 (RStruct l)).
Proof. reflexivity. Qed.
Lemma ev_method want en x m args : ev want en (EMethod (EVar x) m args) =
          bind (ev_list en args) (fun en1 vs =>
            match mget seqb x en1 with
            | Some r => match method_on r m vs with Some (v, r') => Value (mset seqb x r' en1) v | None => Stuck end
            | None => Stuck
            end).
Proof. reflexivity. Qed.
Lemma ev_try want en e : ev want en (ETry e) =
      bind (ev want en e) (fun en1 r =>
        match r with ROpt (Some v) => Value en1 v | ROpt None => Returned (ROpt None) | _ => Stuck end).
Proof. reflexivity. Qed.
Lemma blk_let en x e r : blk en (SLet x e :: r) = bind (ev None en e) (fun en1 v => blk (mset seqb x v en1) r).
Proof. reflexivity. Qed.
Lemma blk_do en e r : blk en (SDo e :: r) = bind (ev None en e) (fun en1 _ => blk en1 r).
Proof. reflexivity. Qed.
Lemma blk_value en e r : blk en (SValue e :: r) = ev None en e.
Proof. reflexivity. Qed.
Lemma blk_guard en c r : blk en (SIf c [SReturn (EVar (B "None"))] :: r) =
  bind (ev None en c) (fun en1 b => match b with RBool true => Returned (ROpt None) | RBool false => blk en1 r | _ => Stuck end).
Proof. reflexivity. Qed.
Lemma ev_if_let want en ctor x e yes no : ev want en (EIfLet ctor x e yes no) =
      bind (ev None en e) (fun en1 r =>
        match r with
        | RVal v => match matches_ctor ctor v with Some w => blk (mset seqb x w en1) yes | None => blk en1 no end
        | _ => Stuck
        end).
Proof. reflexivity. Qed.
Lemma ev_var want en x : seqb x (B "None") = false -> ev want en (EVar x) = match mget seqb x en with Some v => Value en v | None => Stuck end.
Proof. intro E. cbn [eval]. rewrite E. reflexivity. Qed.
Lemma ev_not want en e : ev want en (ENot e) = bind (ev None en e) (fun en1 r => match r with RBool b => Value en1 (RBool (negb b)) | _ => Stuck end).
Proof. reflexivity. Qed.
Lemma ev_field want en e f : ev want en (EField e f) = bind (ev None en e) (fun en1 r => match r with
        | RStruct l => match mget seqb f l with Some x => Value en1 (RField f x) | None => Stuck end
        | _ => Stuck
        end).
Proof. reflexivity. Qed.
Lemma ev_method_on want en e m' a' m : ev want en (EMethod (EMethod e m' a') m []) =
  bind (ev None en (EMethod e m' a')) (fun en1 r => match method_on r m [] with Some (v, _) => Value en1 v | None => Stuck end).
Proof. reflexivity. Qed.

(** A field: what [from_json(e?)?] makes of an optional value. *)
Lemma ev_from f en e en1 o : ev None en e = Value en1 (ROpt (option_map RVal o)) ->
  ev (Some f) en (from_expr e) =
  match o with
  | None => Returned (ROpt None)
  | Some v => match ffrom f v with None => Returned (ROpt None) | Some x => Value en1 (RField f x) end
  end.
Proof.
  intro E. unfold from_expr. rewrite ev_try, ev_call. change (same_path _ [B "Self"]) with false. cbn iota. cbn [ev_list].
  rewrite ev_try, E. destruct o as [v|]; [|reflexivity]. cbn [option_map bind].
  change (call ffrom fto (Some f) [B "crate"; B "FromJSON"; B "from_json"] [RVal v]) with (Some (ROpt (option_map (@RField L F f) (ffrom f v)))).
  cbn iota. destruct (ffrom f v); reflexivity.
Qed.
Lemma run_named fields : forall en o, mget seqb (B "obj") en = Some (RMap o) ->
  match init_fields ffrom o fields with
  | Some (l, o') => exists en', ev_named en (map (fun f => (f, from_expr (taken f))) fields) = Value en' l /\ mget seqb (B "obj") en' = Some (RMap o')
  | None => ev_named en (map (fun f => (f, from_expr (taken f))) fields) = Returned (ROpt None)
  end.
Proof.
  induction fields as [|f fields IH]; intros en o G; [exists en; auto|]. cbn [init_fields map ev_named].
  assert (T : ev None en (taken f) = Value (mset seqb (B "obj") (RMap (mremove seqb f o)) en) (ROpt (option_map RVal (mget seqb f o)))).
  { unfold taken. rewrite ev_method. cbn [ev_list]. change (ev None en (EText f)) with (Value en (@RText L F f)). cbn [bind].
    rewrite G. reflexivity. }
  rewrite (ev_from f _ _ _ _ T). destruct (mget seqb f o) as [v|]; [|reflexivity]. destruct (ffrom f v) as [x|]; [|reflexivity].
  cbn [bind]. specialize (IH (mset seqb (B "obj") (RMap (mremove seqb f o)) en) (mremove seqb f o) (mget_mset_same seqb seqb_eq _ _ _)).
  destruct (init_fields ffrom (mremove seqb f o) fields) as [[l o']|]; [|rewrite IH; reflexivity].
  destruct IH as (en' & -> & G'). exists en'. split; auto.
Qed.

Lemma run_from fields v : result ffrom fto [(B "val", RVal v)] (from_program fields) =
  Some (ROpt (option_map RStruct (from_json_braces ffrom fields v))).
Proof.
  unfold result, from_program. change (ev None ?p (EBlock ?l)) with (blk p l). rewrite blk_value, ev_if_let.
  rewrite ev_var by reflexivity. change (mget seqb (B "val") [(B "val", RVal v)]) with (Some (@RVal L F v)). cbn [bind].
  destruct v as [m|l|x]; [|reflexivity|reflexivity].
  change (matches_ctor [B "crate"; B "Value"; B "Object"] (VObject m)) with (Some (@RMap L F m)). cbn iota.
  set (en := mset seqb (B "obj") (@RMap L F m) _).
  assert (G : mget seqb (B "obj") en = Some (RMap m)) by apply (mget_mset_same seqb seqb_eq).
  unfold from_prog, init_expr. rewrite blk_let, ev_struct. pose proof (run_named fields en m G) as R. unfold from_json_braces.
  destruct (init_fields ffrom m fields) as [[l o']|]; [|rewrite R; reflexivity]. destruct R as (en' & -> & G'). cbn [bind].
  rewrite blk_guard. set (en2 := mset seqb (B "ret") (RStruct l) en').
  assert (G2 : mget seqb (B "obj") en2 = Some (RMap o')) by (unfold en2; rewrite (mget_mset_other seqb seqb_eq) by discriminate; auto).
  assert (E : ev None en2 (ENot (EMethod (EVar (B "obj")) (B "is_empty") [])) =
    Value (mset seqb (B "obj") (RMap o') en2) (RBool (negb (match o' with [] => true | _ => false end)))).
  { rewrite ev_not, ev_method. cbn [ev_list bind]. rewrite G2. reflexivity. }
  rewrite E. cbn [bind]. destruct o' as [|y o']; cbn [negb]; [|reflexivity].
  rewrite blk_value, ev_call. change (same_path [B "Some"] [B "Self"]) with false. cbn iota. cbn [ev_list].
  rewrite ev_var by reflexivity. rewrite (mget_mset_other seqb seqb_eq) by discriminate. unfold en2. rewrite (mget_mset_same seqb seqb_eq).
  reflexivity.
Qed.

(** Tuple structs: the fields are named by their indices. *)
Definition names (i n : nat) : list str := map (fun j => show_N (N.of_nat j)) (seq i n).
Definition ifrom (i : nat) := ffrom (show_N (N.of_nat i)).
Definition ito (i : nat) := fto (show_N (N.of_nat i)).
Lemma run_items n : forall i en it, mget seqb (B "it") en = Some (RIter it) ->
  match init_tuple ifrom i n it with
  | Some (l, it') => exists en', ev_items i en (map (fun _ => from_expr nexted) (repeat tt n)) = Value en' (combine (names i n) l) /\
      mget seqb (B "it") en' = Some (RIter it')
  | None => ev_items i en (map (fun _ => from_expr nexted) (repeat tt n)) = Returned (ROpt None)
  end.
Proof.
  induction n as [|n IH]; intros i en it G; [exists en; auto|]. cbn [init_tuple repeat map ev_items].
  assert (T : ev None en nexted = Value (mset seqb (B "it") (RIter (tl it)) en) (ROpt (option_map RVal (hd_error it)))).
  { unfold nexted. rewrite ev_method. cbn [ev_list bind]. rewrite G. reflexivity. }
  rewrite (ev_from (show_N (N.of_nat i)) _ _ _ _ T). destruct it as [|v it]; [reflexivity|]. cbn [hd_error tl].
  change (ifrom i v) with (ffrom (show_N (N.of_nat i)) v). destruct (ffrom (show_N (N.of_nat i)) v) as [x|]; [|reflexivity].
  cbn [bind tl]. specialize (IH (S i) (mset seqb (B "it") (RIter it) en) it (mget_mset_same seqb seqb_eq _ _ _)).
  destruct (init_tuple ifrom (S i) n it) as [[l it']|]; [|rewrite IH; reflexivity].
  destruct IH as (en' & -> & G'). exists en'. split; auto.
Qed.
Lemma run_from_tuple n v : result ffrom fto [(B "val", RVal v)] (tuple_program n) =
  Some (ROpt (option_map (fun l => RStruct (combine (names 0 n) l)) (from_json_parens ifrom n v))).
Proof.
  unfold result, tuple_program. change (ev None ?p (EBlock ?l)) with (blk p l). rewrite blk_value, ev_if_let.
  rewrite ev_var by reflexivity. change (mget seqb (B "val") [(B "val", RVal v)]) with (Some (@RVal L F v)). cbn [bind].
  destruct v as [m|arr|x]; [reflexivity| |reflexivity].
  change (matches_ctor [B "crate"; B "Value"; B "Array"] (VArray arr)) with (Some (@RVec L F arr)). cbn iota.
  set (en0 := mset seqb (B "arr") (@RVec L F arr) _). rewrite blk_let, ev_method. cbn [ev_list bind].
  assert (G0 : mget seqb (B "arr") en0 = Some (RVec arr)) by apply (mget_mset_same seqb seqb_eq). rewrite G0.
  change (method_on (RVec arr) (B "into_iter") []) with (Some (@RIter L F arr, @RUnit L F)). cbn [bind].
  set (en := mset seqb (B "it") (@RIter L F arr) _).
  assert (G : mget seqb (B "it") en = Some (RIter arr)) by apply (mget_mset_same seqb seqb_eq).
  unfold from_prog, tuple_init. rewrite blk_let, ev_call. change (same_path [B "Self"] [B "Self"]) with true. cbn iota.
  pose proof (run_items n 0 en arr G) as R. unfold from_json_parens.
  destruct (init_tuple ifrom 0 n arr) as [[l o']|]; [|rewrite R; reflexivity]. destruct R as (en' & -> & G'). cbn [bind].
  rewrite blk_guard. set (st := RStruct _). set (en2 := mset seqb (B "ret") st en').
  assert (G2 : mget seqb (B "it") en2 = Some (RIter o')) by (unfold en2; rewrite (mget_mset_other seqb seqb_eq) by discriminate; auto).
  assert (E : ev None en2 (EMethod nexted (B "is_some") []) =
    Value (mset seqb (B "it") (RIter (tl o')) en2) (RBool (match o' with [] => false | _ => true end))).
  { unfold nexted at 1. rewrite ev_method_on. rewrite ev_method. cbn [ev_list bind]. rewrite G2. destruct o'; reflexivity. }
  rewrite E. cbn [bind]. destruct o' as [|y o']; [|reflexivity].
  rewrite blk_value, ev_call. change (same_path [B "Some"] [B "Self"]) with false. cbn iota. cbn [ev_list].
  rewrite ev_var by reflexivity. rewrite (mget_mset_other seqb seqb_eq) by discriminate. unfold en2. rewrite (mget_mset_same seqb seqb_eq).
  reflexivity.
Qed.

(** [to_json(self.f)?] *)
Lemma ev_to en self f : mget seqb (B "self") en = Some (RStruct self) ->
  ev None en (to_expr (EField (EVar (B "self")) f)) =
  match mget seqb f self with
  | None => Stuck
  | Some x => match fto f x with None => Returned (ROpt None) | Some v => Value en (RVal v) end
  end.
Proof.
  intro G. unfold to_expr. rewrite ev_try, ev_call. change (same_path _ [B "Self"]) with false. cbn iota. cbn [ev_list].
  rewrite ev_field.
  rewrite ev_var, G by reflexivity. cbn [bind]. destruct (mget seqb f self) as [x|]; [|reflexivity]. cbn [bind].
  change (call ffrom fto None [B "crate"; B "ToJSON"; B "to_json"] [RField f x]) with (Some (ROpt (option_map (@RVal L F) (fto f x)))).
  cbn iota. destruct (fto f x); reflexivity.
Qed.
Lemma run_puts self rest fields : (forall f, In f fields -> mget seqb f self <> None) -> forall en o,
  mget seqb (B "obj") en = Some (RMap o) -> mget seqb (B "self") en = Some (RStruct self) ->
  match insert_fields fto o fields self with
  | Some o' => exists en', blk en (map put fields ++ rest) = blk en' rest /\ mget seqb (B "obj") en' = Some (RMap o')
  | None => blk en (map put fields ++ rest) = Returned (ROpt None)
  end.
Proof.
  induction fields as [|f fields IH]; intros P en o G S; [exists en; auto|]. cbn [insert_fields map app].
  unfold put at 1 3. rewrite blk_do, ev_method. cbn [ev_list].
  change (ev None en (EMethod (EText f) (B "to_owned") [])) with (Value en (@RText L F f)). cbn [bind].
  rewrite (ev_to en self f S). destruct (mget seqb f self) as [x|] eqn:X; [|destruct (P f (or_introl eq_refl) X)].
  destruct (fto f x) as [v|]; [|reflexivity]. cbn [bind]. rewrite G.
  change (method_on (RMap o) (B "insert") [RText f; RVal v]) with (Some (ROpt (option_map (@RVal L F) (mget seqb f o)), @RMap L F (mset seqb f v o))).
  cbn [bind].
  apply IH.
  - intros g I. apply P. right. auto.
  - apply (mget_mset_same seqb seqb_eq).
  - rewrite (mget_mset_other seqb seqb_eq) by discriminate. auto.
Qed.
Lemma run_to fields self : (forall f, In f fields -> mget seqb f self <> None) ->
  result ffrom fto [(B "self", RStruct self)] (to_program fields) = Some (ROpt (option_map RVal (to_json_braces fto fields self))).
Proof.
  intro P. unfold result, to_program. change (ev None ?p (EBlock ?l)) with (blk p l). rewrite blk_let, ev_call.
  change (same_path _ [B "Self"]) with false. cbn iota. cbn [ev_list bind].
  change (call ffrom fto None [B "std"; B "collections"; B "HashMap"; B "new"] []) with (Some (@RMap L F [])). cbn [bind].
  set (en := mset seqb (B "obj") (@RMap L F []) _).
  pose proof (run_puts self [SValue (ECall [B "Some"] [ECall [B "crate"; B "Value"; B "Object"] [EVar (B "obj")]])] fields P en []
    (mget_mset_same seqb seqb_eq _ _ _) eq_refl) as R.
  unfold to_json_braces. destruct (insert_fields fto [] fields self) as [o'|]; [|rewrite R; reflexivity].
  destruct R as (en' & -> & G). rewrite blk_value, ev_call. change (same_path [B "Some"] [B "Self"]) with false. cbn iota. cbn [ev_list].
  rewrite ev_call. change (same_path _ [B "Self"]) with false. cbn iota. cbn [ev_list]. rewrite ev_var, G by reflexivity. reflexivity.
Qed.
Lemma names_get k : forall i j (xs : list F), length xs = k -> j < k ->
  mget seqb (show_N (N.of_nat (i + j))) (combine (names i k) xs) = nth_error xs j.
Proof.
  induction k as [|k IH]; intros i j xs E J; [lia|]. destruct xs as [|x xs]; [discriminate|].
  change (names i (S k)) with (show_N (N.of_nat i) :: names (S i) k). cbn [combine mget].
  destruct j as [|j].
  - rewrite Nat.add_0_r. replace (seqb (show_N (N.of_nat i)) (show_N (N.of_nat i))) with true by (symmetry; apply seqb_eq; auto). reflexivity.
  - destruct (seqb (show_N (N.of_nat (i + S j))) (show_N (N.of_nat i))) eqn:Q.
    + apply seqb_eq in Q. pose proof (ResponseProofs.show_N_decimal (N.of_nat (i + S j))) as D. rewrite Q in D.
      pose proof (ResponseProofs.decimal_inj _ _ _ D (ResponseProofs.show_N_decimal _)). lia.
    + replace (i + S j) with (S i + j) by lia. cbn [nth_error]. apply IH; cbn in *; lia.
Qed.
Lemma run_pushes rest k (xs : list F) : length xs = k -> forall n i, i + n = k -> forall en l,
  mget seqb (B "arr") en = Some (RVec l) -> mget seqb (B "self") en = Some (RStruct (combine (names 0 k) xs)) ->
  match push_tuple ito i n xs with
  | Some l' => exists en', blk en (map pushed (seq i n) ++ rest) = blk en' rest /\ mget seqb (B "arr") en' = Some (RVec (l ++ l'))
  | None => blk en (map pushed (seq i n) ++ rest) = Returned (ROpt None)
  end.
Proof.
  intro K. induction n as [|n IH]; intros i I en l G S; [exists en; split; auto; rewrite app_nil_r; auto|]. cbn [push_tuple seq map app].
  unfold pushed at 1 3. rewrite blk_do, ev_method. cbn [ev_list].
  rewrite (ev_to en _ _ S). pose proof (names_get k 0 i xs K ltac:(lia)) as NG. cbn [Nat.add] in NG. rewrite NG.
  destruct (nth_error xs i) as [x|] eqn:X; [|apply nth_error_None in X; lia].
  change (ito i x) with (fto (show_N (N.of_nat i)) x). destruct (fto (show_N (N.of_nat i)) x) as [v|]; [|reflexivity]. cbn [bind]. rewrite G.
  change (method_on (RVec l) (B "push") [RVal v]) with (Some (@RUnit L F, @RVec L F (l ++ [v]))). cbn [bind].
  specialize (IH (Datatypes.S i) ltac:(lia) (mset seqb (B "arr") (RVec (l ++ [v])) en) (l ++ [v]) (mget_mset_same seqb seqb_eq _ _ _)).
  rewrite (mget_mset_other seqb seqb_eq) in IH by discriminate. specialize (IH S).
  destruct (push_tuple ito (Datatypes.S i) n xs) as [l'|]; [|exact IH]. destruct IH as (en' & -> & G'). exists en'. split; auto.
  rewrite G', <- app_assoc. reflexivity.
Qed.
Lemma run_to_tuple k (xs : list F) : length xs = k ->
  result ffrom fto [(B "self", RStruct (combine (names 0 k) xs))] (to_tuple_program k) = Some (ROpt (option_map RVal (to_json_parens ito k xs))).
Proof.
  intro K. unfold result, to_tuple_program. change (ev None ?p (EBlock ?l)) with (blk p l). rewrite blk_let, ev_call.
  change (same_path _ [B "Self"]) with false. cbn iota. cbn [ev_list bind].
  change (call ffrom fto None [B "Vec"; B "new"] []) with (Some (@RVec L F [])). cbn [bind].
  set (en := mset seqb (B "arr") (@RVec L F []) _).
  pose proof (run_pushes [SValue (ECall [B "Some"] [ECall [B "crate"; B "Value"; B "Array"] [EVar (B "arr")]])] k xs K k 0 eq_refl en []
    (mget_mset_same seqb seqb_eq _ _ _) eq_refl) as R.
  unfold to_json_parens. destruct (push_tuple ito 0 k xs) as [o'|]; [|rewrite R; reflexivity].
  destruct R as (en' & -> & G). rewrite blk_value, ev_call. change (same_path [B "Some"] [B "Self"]) with false. cbn iota. cbn [ev_list].
  rewrite ev_call. change (same_path _ [B "Self"]) with false. cbn iota. cbn [ev_list]. rewrite ev_var, G by reflexivity. reflexivity.
Qed.
End Runs.

(** ** From the declaration to the behaviour *)
Lemma reads_fun l p q : reads l p -> reads l q -> p = q.
Proof. intros [n A] [m C]. specialize (A (n + m) ltac:(lia)). specialize (C (n + m) ltac:(lia)). congruence. Qed.
Lemma computes_fun {L F} (ffrom : str -> value L -> option F) fto params body p v : reads body p -> result ffrom fto params p = Some v ->
  forall u, computes ffrom fto params body u <-> u = v.
Proof.
  intros R E u. split.
  - intros (q & R' & E'). rewrite (reads_fun _ _ _ R' R), E in E'. congruence.
  - intros ->. exists p. auto.
Qed.
Lemma is_name_true f : ~ In f keywords -> is_name f = true.
Proof.
  intro N. unfold is_name. destruct (existsb (seqb f) keywords) eqn:E; [|reflexivity]. apply existsb_exists in E. destruct E as (g & I & E).
  apply seqb_eq in E. subst g. contradiction.
Qed.
Lemma ascii_words fs : Forall field_name fs -> forallb good fs = true.
Proof.
  intro H. apply forallb_forall. intros f I. rewrite Forall_forall in H. apply H in I. destruct I as [W N]. unfold good.
  rewrite is_name_true by auto. rewrite andb_true_r. apply forallb_forall. apply Forall_forall. auto.
Qed.
Lemma reads_from fields : Forall field_name fields -> reads (from_body fields) (from_program fields).
Proof. intro H. exists 10. intros m M. replace m with (10 + (m - 10)) by lia. apply read_from_body, ascii_words; auto. Qed.
Lemma reads_to fields : Forall field_name fields -> reads (to_body fields) (to_program fields).
Proof.
  intro H. exists (length fields + 6). intros m M. replace m with (S (length fields + (5 + (m - 6 - length fields)))) by lia.
  apply read_to_body, ascii_words; auto.
Qed.
Lemma reads_from_tuple n : reads (from_tuple_body n) (tuple_program n).
Proof. exists 11. intros m M. replace m with (11 + (m - 11)) by lia. apply read_tuple_body. Qed.
Lemma reads_to_tuple n : reads (to_tuple_body n) (to_tuple_program n).
Proof. exists (n + 6). intros m M. replace m with (S (n + (5 + (m - 6 - n)))) by lia. apply read_to_tuple_body. Qed.

Lemma header_with trait name gs tr w f :
  impl_with trait name gs tr w f (impl_header trait (StructInfo (TkIdent name) (generics_text gs tr) (clause_of w) (map gp_name gs)) ++ [TkGroup DBrace f]).
Proof.
  destruct (header_ok trait name (generics_text gs tr) (map gp_name gs) (clause_of w)) as (sep & S & E).
  exists sep. rewrite E. split; auto.
Qed.

Section EndToEnd.
Context (pre : list token) (name : str) (gs : list gparam) (trailing : bool) (w : option (list token)) (post : list token).
Context (Hpre : ~ In (TkIdent (B "struct")) pre) (Hgs : Forall (fun g => flat (gp_rest g)) gs).

Section Braces.
Context (Hw : Forall where_token (clause_of w) \/ gs <> [] /\ trailing = false /\ where_clause (clause_of w)).
Context (ds : list field_decl) (tr : bool) (Hty : Forall (fun d => no_comma (fd_ty d)) ds) (Hn : Forall field_name (map fd_name ds)).
Context (ND : NoDup (map fd_name ds)).
Let decl := struct_head pre name gs trailing w ++ TkGroup DBrace (comma_sep (map field_text ds) tr) :: post.

Lemma derived_from : exists out body, derive_from_json decl = Done out /\
  impl_with (B "FromJSON") name gs trailing w (from_json_fn body) out /\
  forall (L F : Type) (ffrom : str -> value L -> option F) fto v, is_hash_map v ->
  (forall r, computes ffrom fto [(B "val", RVal v)] body r -> r = ROpt None \/ exists st, r = ROpt (Some (RStruct st))) /\
  (exists r, computes ffrom fto [(B "val", RVal v)] body r) /\
  forall st, computes ffrom fto [(B "val", RVal v)] body (ROpt (Some (RStruct st))) <->
    exists obj, v = VObject obj /\ map fst st = map fd_name ds /\ incl (map fst obj) (map fd_name ds) /\
    forall f x, In (f, x) st -> exists u, In (f, u) obj /\ ffrom f u = Some x.
Proof.
  unfold decl, derive_from_json. rewrite derive_braces by auto. cbn [obind]. rewrite fields_ok by auto.
  eexists. exists (from_body (map fd_name ds)). split; [reflexivity|]. split; [apply header_with|]. intros L F ffrom fto v HM.
  pose proof (computes_fun ffrom fto _ _ _ _ (reads_from _ Hn) (run_from ffrom fto (map fd_name ds) v)) as C.
  split; [|split].
  - intros r R. apply C in R. subst r. destruct (from_json_braces ffrom (map fd_name ds) v) as [st|]; [right; exists st|left]; reflexivity.
  - eexists. apply C. reflexivity.
  - intro st. rewrite C. transitivity (from_json_braces ffrom (map fd_name ds) v = Some st).
    + split; [|intros ->; reflexivity]. destruct (from_json_braces ffrom (map fd_name ds) v); cbn [option_map]; congruence.
    + split.
      * intro E. destruct (from_only_objects _ _ _ _ E) as (obj & ->). exists obj. split; auto. apply from_object in E; auto.
      * intros (obj & -> & X). apply from_object; auto.
Qed.
Lemma derived_to : exists out body, derive_to_json decl = Done out /\
  impl_with (B "ToJSON") name gs trailing w (to_json_fn body) out /\
  forall (L F : Type) (ffrom : str -> value L -> option F) fto self, map fst self = map fd_name ds ->
  exists o, (forall r, computes ffrom fto [(B "self", RStruct self)] body r <-> r = ROpt (option_map RVal o)) /\
  match o with
  | Some v => exists obj, v = VObject obj /\ NoDup (map fst obj) /\
      (forall k x, In (k, x) self -> exists u, fto k x = Some u) /\
      forall k u, In (k, u) obj <-> exists x, In (k, x) self /\ fto k x = Some u
  | None => exists k x, In (k, x) self /\ fto k x = None
  end.
Proof.
  unfold decl, derive_to_json. rewrite derive_braces by auto. cbn [obind]. rewrite fields_ok by auto.
  eexists. exists (to_body (map fd_name ds)). split; [reflexivity|]. split; [apply header_with|]. intros L F ffrom fto self E.
  exists (to_json_braces fto (map fd_name ds) self). split.
  - apply (computes_fun ffrom fto _ _ _ _ (reads_to _ Hn)). apply run_to. intros f I X. rewrite <- E in I.
    apply in_map_iff in I. destruct I as ([k x] & <- & I). apply (mget_None seqb seqb_eq) in X. apply X. apply (in_map fst) in I. exact I.
  - rewrite <- E. apply to_object. rewrite E. auto.
Qed.
Lemma derived_round : exists fout fbody tout tbody, derive_from_json decl = Done fout /\ derive_to_json decl = Done tout /\
  impl_with (B "FromJSON") name gs trailing w (from_json_fn fbody) fout /\
  impl_with (B "ToJSON") name gs trailing w (to_json_fn tbody) tout /\
  forall (L F : Type) (ffrom : str -> value L -> option F) fto self v, map fst self = map fd_name ds ->
  (forall k x u, In (k, x) self -> fto k x = Some u -> ffrom k u = Some x) ->
  computes ffrom fto [(B "self", RStruct self)] tbody (ROpt (Some (RVal v))) ->
  computes ffrom fto [(B "val", RVal v)] fbody (ROpt (Some (RStruct self))).
Proof.
  unfold decl, derive_to_json, derive_from_json. rewrite derive_braces by auto. cbn [obind]. rewrite fields_ok by auto.
  eexists. exists (from_body (map fd_name ds)). eexists. exists (to_body (map fd_name ds)). split; [reflexivity|]. split; [reflexivity|].
  split; [apply header_with|]. split; [apply header_with|]. intros L F ffrom fto self v E R C.
  apply (computes_fun ffrom fto _ _ _ _ (reads_from _ Hn) (run_from ffrom fto (map fd_name ds) v)).
  assert (P : forall f, In f (map fd_name ds) -> mget seqb f self <> None).
  { intros f I X. rewrite <- E in I. apply in_map_iff in I. destruct I as ([k x] & <- & I). apply (mget_None seqb seqb_eq) in X. apply X.
    apply (in_map fst) in I. exact I. }
  apply (computes_fun ffrom fto _ _ _ _ (reads_to _ Hn) (run_to ffrom fto (map fd_name ds) self P)) in C.
  destruct (to_json_braces fto (map fd_name ds) self) as [u|] eqn:T; [|discriminate]. cbn [option_map] in C. injection C as <-.
  rewrite <- E in *. rewrite (round_trip ffrom fto self v); auto.
Qed.
End Braces.

Section Parens.
Context (ds : list tuple_decl) (tr : bool) (Hty : Forall (fun d => no_comma (td_ty d) /\ has_ident (td_ty d)) ds).
Let decl := struct_head pre name gs trailing None ++ TkGroup DParen (comma_sep (map tuple_text ds) tr) :: post.
Lemma combine_fst {A C} (a : list A) (c : list C) : length a = length c -> map fst (combine a c) = a.
Proof. revert c. induction a as [|x a IH]; intros [|y c] E; try discriminate; auto. cbn. rewrite IH; auto. Qed.
Lemma combine_inj {A C} (a : list A) (c d : list C) : length a = length c -> length a = length d -> combine a c = combine a d -> c = d.
Proof.
  revert c d. induction a as [|x a IH]; intros [|y c] [|z d] E E' H; try discriminate; auto. cbn in *. injection H as -> H. f_equal. apply IH; auto.
Qed.
Lemma names_decimal n i s : nth_error (index_names n) i = Some s <-> i < n /\ ResponseSpec.decimal (N.of_nat i) s.
Proof.
  unfold index_names. destruct (Nat.lt_ge_cases i n) as [L|L].
  - rewrite (map_nth_error _ _ _ (d := i)) by (rewrite (nth_error_nth' _ 0) by (rewrite seq_length; auto); rewrite seq_nth by auto; reflexivity).
    split.
    + intro E. injection E as <-. split; auto. apply ResponseProofs.show_N_decimal.
    + intros (_ & D). f_equal. eapply ResponseProofs.decimal_unique; [apply ResponseProofs.show_N_decimal|exact D].
  - split; [|lia]. intro E. exfalso. assert (X : nth_error (map (fun j => show_N (N.of_nat j)) (seq 0 n)) i <> None) by congruence.
    apply nth_error_Some in X. rewrite map_length, seq_length in X. lia.
Qed.
Lemma names_length n : length (index_names n) = n.
Proof. unfold index_names. rewrite map_length, seq_length. reflexivity. Qed.
Lemma derived_from_tuple : exists out body, derive_from_json decl = Done out /\
  impl_with (B "FromJSON") name gs trailing None (from_json_fn body) out /\
  forall (L F : Type) (ffrom : str -> value L -> option F) fto v,
  (forall r, computes ffrom fto [(B "val", RVal v)] body r -> r = ROpt None \/ exists st, r = ROpt (Some (RStruct st))) /\
  (exists r, computes ffrom fto [(B "val", RVal v)] body r) /\
  forall l, length l = length ds ->
  (computes ffrom fto [(B "val", RVal v)] body (ROpt (Some (RStruct (combine (index_names (length ds)) l)))) <->
    exists arr, v = VArray arr /\ pointwise (fun i u x => ffrom (show_N (N.of_nat i)) u = Some x) arr l).
Proof.
  unfold decl, derive_from_json. rewrite derive_parens by auto. cbn [obind]. rewrite tuple_ok by auto.
  eexists. exists (from_tuple_body (length ds)). split; [reflexivity|]. split; [apply (header_with _ _ _ _ None)|]. intros L F ffrom fto v.
  pose proof (computes_fun ffrom fto _ _ _ _ (reads_from_tuple _) (run_from_tuple ffrom fto (length ds) v)) as C.
  split; [|split].
  - intros r R. apply C in R. subst r. destruct (from_json_parens _ (length ds) v) as [st|]; [right; eexists|left]; reflexivity.
  - eexists. apply C. reflexivity.
  - intros l E. rewrite C. transitivity (from_json_parens (ifrom ffrom) (length ds) v = Some l).
    + split; [|intros ->; reflexivity]. destruct (from_json_parens (ifrom ffrom) (length ds) v) as [l'|] eqn:J; cbn [option_map]; [|congruence].
      apply from_array in J. destruct J as (arr & _ & E' & _).
      intro X. injection X as X. f_equal. symmetry. apply (combine_inj (index_names (length ds))); rewrite ?names_length; auto.
    + rewrite from_array. split; intros (arr & A); exists arr; tauto.
Qed.
Lemma derived_to_tuple : exists out body, derive_to_json decl = Done out /\
  impl_with (B "ToJSON") name gs trailing None (to_json_fn body) out /\
  forall (L F : Type) (ffrom : str -> value L -> option F) fto l, length l = length ds ->
  exists o, (forall r, computes ffrom fto [(B "self", RStruct (combine (index_names (length ds)) l))] body r <-> r = ROpt (option_map RVal o)) /\
  match o with
  | Some v => exists arr, v = VArray arr /\ pointwise (fun i u x => fto (show_N (N.of_nat i)) x = Some u) arr l
  | None => exists i x, nth_error l i = Some x /\ fto (show_N (N.of_nat i)) x = None
  end.
Proof.
  unfold decl, derive_to_json. rewrite derive_parens by auto. cbn [obind]. rewrite tuple_ok by auto.
  eexists. exists (to_tuple_body (length ds)). split; [reflexivity|]. split; [apply (header_with _ _ _ _ None)|]. intros L F ffrom fto l E.
  exists (to_json_parens (ito fto) (length ds) l). split.
  - apply (computes_fun ffrom fto _ _ _ _ (reads_to_tuple _)). apply (run_to_tuple ffrom fto). auto.
  - rewrite <- E. apply (to_array (ito fto)).
Qed.
Lemma derived_round_tuple : exists fout fbody tout tbody, derive_from_json decl = Done fout /\ derive_to_json decl = Done tout /\
  impl_with (B "FromJSON") name gs trailing None (from_json_fn fbody) fout /\
  impl_with (B "ToJSON") name gs trailing None (to_json_fn tbody) tout /\
  forall (L F : Type) (ffrom : str -> value L -> option F) fto l v, length l = length ds ->
  (forall k x u, In x l -> fto k x = Some u -> ffrom k u = Some x) ->
  computes ffrom fto [(B "self", RStruct (combine (index_names (length ds)) l))] tbody (ROpt (Some (RVal v))) ->
  computes ffrom fto [(B "val", RVal v)] fbody (ROpt (Some (RStruct (combine (index_names (length ds)) l)))).
Proof.
  unfold decl, derive_to_json, derive_from_json. rewrite derive_parens by auto. cbn [obind]. rewrite tuple_ok by auto.
  eexists. exists (from_tuple_body (length ds)). eexists. exists (to_tuple_body (length ds)). split; [reflexivity|]. split; [reflexivity|].
  split; [apply (header_with _ _ _ _ None)|]. split; [apply (header_with _ _ _ _ None)|]. intros L F ffrom fto l v E R C.
  apply (computes_fun ffrom fto _ _ _ _ (reads_from_tuple _) (run_from_tuple ffrom fto (length ds) v)).
  apply (computes_fun ffrom fto _ _ _ _ (reads_to_tuple _) (run_to_tuple ffrom fto (length ds) l E)) in C.
  destruct (to_json_parens (ito fto) (length ds) l) as [u|] eqn:T; [|discriminate]. cbn [option_map] in C. injection C as <-.
  rewrite <- E in *. rewrite (round_trip_tuple (ifrom ffrom) (ito fto) l v); auto.
  intros i x u X. apply nth_error_In in X. unfold ito, ifrom. auto.
Qed.
End Parens.
End EndToEnd.

Lemma derived_others toks : ~ In (TkIdent (B "struct")) toks ->
  exists l, derive_from_json toks = Done (TkIdent (B "compile_error") :: TkPunct x21 :: l) /\ derive_to_json toks = derive_from_json toks.
Proof. intro N. apply not_struct in N. unfold derive_from_json, derive_to_json. rewrite N. eexists. split; reflexivity. Qed.

(** ** Fields taken to be named by a keyword *)
Lemma all_none {A C} (g : A -> option C) l x : In x l -> g x = None -> all (map g l) = None.
Proof.
  induction l as [|y l IH]; intros I E; [destruct I|]. cbn [map all]. destruct I as [->|I]; [rewrite E; reflexivity|].
  rewrite IH by auto. destruct (g y); reflexivity.
Qed.
Lemma prepend_none {A} (a : option A) : prepend a None = None.
Proof. destruct a; reflexivity. Qed.
Lemma unread_init n fields f : In f fields -> is_name f = false -> read_expr (S n) [TkIdent (B "Self"); TkGroup DBrace (from_vals fields)] = None.
Proof.
  intros I K.
  assert (Q : forall m g, read_expr (S m) [TkIdent (B "Self"); TkGroup DBrace g] = option_map EStruct (read_items (read_expr m) g)) by reflexivity.
  rewrite Q. unfold read_items. rewrite from_vals_items, pieces_items.
  - rewrite (all_none _ _ (from_item f)); [reflexivity|apply in_map; auto|].
    unfold from_item, read_item. cbn [app]. rewrite K, andb_false_r. reflexivity.
  - apply from_item_commas.
  - discriminate.
  - apply length_items.
Qed.
Lemma unread_outer n ctor pat yes : read_block n yes = None ->
  read_expr (S n) (TkIdent (B "if") :: TkIdent (B "let") :: call_path [B "crate"; B "Value"; ctor] pat ++
    [TkPunct x3d; TkIdent (B "val"); TkGroup DBrace yes; TkIdent (B "else"); TkGroup DBrace [TkIdent (B "None")]]) = None.
Proof.
  intros Y. cbn [read_expr]. change (seqb (B "if") (B "if")) with true. cbn iota. unfold read_if_let, call_path.
  cbn [tl path_tokens app read_path]. change (beqb x3a x3a) with true. cbn [andb before is_block].
  change (beqb x3d x3d) with true. change (seqb (B "else") (B "else")) with true. cbn [andb]. rewrite Y.
  destruct (read_expr n [TkIdent (B "val")]); reflexivity.
Qed.
Lemma unread_from n fields f : In f fields -> is_name f = false -> read_block (4 + n) (from_body fields) = None.
Proof.
  intros I K. unfold from_body. set (yes := _ ++ _ ++ method_call _ _ ++ _ ++ _).
  assert (Y : read_block (2 + n) yes = None).
  { change (2 + n) with (S (1 + n)). unfold yes. set (r := [TkIdent (B "if"); TkPunct x21; TkIdent (B "obj")] ++ _).
    change ([TkIdent (B "let"); TkIdent (B "ret"); TkPunct x3d; TkIdent (B "Self"); TkGroup DBrace (from_vals fields); TkPunct x3b] ++ r) with
      (TkIdent (B "let") :: TkIdent (B "ret") :: TkPunct x3d :: TkIdent (B "Self") :: TkGroup DBrace (from_vals fields) :: TkPunct x3b :: r).
    rewrite read_let_self. change (1 + n) with (S n) at 1. rewrite (unread_init n fields f I K). reflexivity. }
  pose proof (unread_outer (2 + n) (B "Object") [TkIdent (B "mut"); TkIdent (B "obj")] yes Y) as O.
  assert (V : forall m r, read_block (S m) (TkIdent (B "if") :: TkIdent (B "let") :: r) = option_map (fun e => [SValue e]) (read_expr m (TkIdent (B "if") :: TkIdent (B "let") :: r))) by reflexivity.
  change (4 + n) with (S (S (2 + n))). cbn [app]. rewrite V. setoid_rewrite O. reflexivity.
Qed.
Lemma unread_put n f r : is_name f = false -> read_block (6 + n) (to_vals [f] ++ r) = None.
Proof.
  intro K. rewrite to_vals_one. rewrite <- app_comm_cons, <- app_assoc. change ([TkPunct x3b] ++ r) with (TkPunct x3b :: r).
  change (6 + n) with (S (5 + n)). rewrite read_do by reflexivity. change (5 + n) with (S (4 + n)) at 1. rewrite read_insert.
  unfold read_args. rewrite put_pieces. cbn [map all].
  assert (T : read_expr (4 + n) (call_path [B "crate"; B "ToJSON"; B "to_json"] [TkIdent (B "self"); TkPunct x2e; TkIdent f] ++ [TkPunct x3f]) = None).
  { assert (R : read_expr (3 + n) [TkIdent (B "self"); TkPunct x2e; TkIdent f] = if is_name f then Some (EField (EVar (B "self")) f) else None) by reflexivity.
    rewrite K in R.
    assert (Q : forall g, read_expr (S (3 + n)) (call_path [B "crate"; B "ToJSON"; B "to_json"] g ++ [TkPunct x3f]) =
      match read_args (read_expr (3 + n)) g with Some a => Some (ETry (ECall [B "crate"; B "ToJSON"; B "to_json"] a)) | None => None end)
      by (intro g; generalize (3 + n); intro; reflexivity).
    change (4 + n) with (S (3 + n)). rewrite Q. unfold read_args.
    change (pieces (length [TkIdent (B "self"); TkPunct x2e; TkIdent f]) [TkIdent (B "self"); TkPunct x2e; TkIdent f]) with [[TkIdent (B "self"); TkPunct x2e; TkIdent f]].
    cbn [map all]. rewrite R. reflexivity. }
  rewrite T. destruct (read_expr (4 + n) (name_literal f :: method_call (B "to_owned") [])); reflexivity.
Qed.
Lemma step_put n f r : read_block (S n) (to_vals [f] ++ r) =
  prepend (option_map SDo (read_expr n (TkIdent (B "obj") :: method_call (B "insert") (put_args f)))) (read_block n r).
Proof.
  rewrite to_vals_one. rewrite <- app_comm_cons, <- app_assoc. change ([TkPunct x3b] ++ r) with (TkPunct x3b :: r).
  apply read_do; reflexivity.
Qed.
Lemma unread_puts n fields r f : In f fields -> is_name f = false -> read_block (length fields + (5 + n)) (to_vals fields ++ r) = None.
Proof.
  intros I K. induction fields as [|g fields IH]; [destruct I|].
  change (to_vals (g :: fields)) with (to_vals [g] ++ to_vals fields). rewrite <- app_assoc. cbn [length].
  destruct I as [->|I].
  - replace (S (length fields) + (5 + n)) with (6 + (length fields + n)) by lia. apply unread_put. auto.
  - change (S (length fields) + (5 + n)) with (S (length fields + (5 + n))). rewrite step_put, IH by auto. apply prepend_none.
Qed.
Lemma unread_to n fields f : In f fields -> is_name f = false -> read_block (S (length fields + (5 + n))) (to_body fields) = None.
Proof.
  intros I K. unfold to_body.
  assert (Q : forall m r, read_block (3 + m) (let_mut (B "obj") (call_path [B "std"; B "collections"; B "HashMap"; B "new"] []) ++ r) =
    prepend (Some (SLet (B "obj") (ECall [B "std"; B "collections"; B "HashMap"; B "new"] []))) (read_block (2 + m) r)) by reflexivity.
  replace (S (length fields + (5 + n))) with (3 + (length fields + (3 + n))) by lia. rewrite Q.
  replace (2 + (length fields + (3 + n))) with (length fields + (5 + n)) by lia.
  rewrite (unread_puts n fields _ f) by auto. reflexivity.
Qed.
Lemma derived_public pre name gs trailing w post : ~ In (TkIdent (B "struct")) pre -> Forall (fun g => flat (gp_rest g)) gs ->
  (Forall where_token (clause_of w) \/ gs <> [] /\ trailing = false /\ where_clause (clause_of w)) ->
  forall ds d inside ds' tr, Forall (fun d => no_comma (fd_ty d)) ds -> no_comma (fd_ty d) -> Forall (fun d => no_comma (fd_ty d)) ds' ->
  let decl := struct_head pre name gs trailing w ++ TkGroup DBrace (comma_sep (map field_text ds ++ pub_text inside d :: map field_text ds') tr) :: post in
  exists fout fbody tout tbody, derive_from_json decl = Done fout /\ derive_to_json decl = Done tout /\
  impl_with (B "FromJSON") name gs trailing w (from_json_fn fbody) fout /\
  impl_with (B "ToJSON") name gs trailing w (to_json_fn tbody) tout /\
  forall p, ~ reads fbody p /\ ~ reads tbody p.
Proof.
  intros Hpre Hgs Hw ds d inside ds' tr H1 H2 H3 decl. unfold decl, derive_to_json, derive_from_json. rewrite derive_braces by auto.
  cbn [obind]. rewrite fields_pub by auto. set (fields := map fd_name ds ++ B "pub" :: map fd_name ds').
  eexists. exists (from_body fields). eexists. exists (to_body fields). split; [reflexivity|]. split; [reflexivity|].
  split; [apply header_with|]. split; [apply header_with|].
  assert (I : In (B "pub") fields) by (unfold fields; apply in_or_app; right; left; reflexivity).
  intro p. split; intros [n R].
  - specialize (R (4 + n) ltac:(lia)). rewrite (unread_from n fields (B "pub") I eq_refl) in R. discriminate.
  - specialize (R (S (length fields + (5 + n))) ltac:(lia)). rewrite (unread_to n fields (B "pub") I eq_refl) in R. discriminate.
Qed.
Lemma init_names {L F} (ffrom : str -> value L -> option F) fields : forall o l o', init_fields ffrom o fields = Some (l, o') -> map fst l = fields.
Proof.
  induction fields as [|f fields IH]; intros o l o' E; cbn [init_fields] in E; [injection E as <- <-; reflexivity|].
  destruct (mget seqb f o) as [v|]; [|discriminate]. destruct (ffrom f v) as [x|]; [|discriminate].
  destruct (init_fields ffrom (mremove seqb f o) fields) as [[l1 o1]|] eqn:J; [|discriminate]. injection E as <- <-. cbn [map fst]. f_equal. eauto.
Qed.
Lemma derived_comma pre name gs trailing w post : ~ In (TkIdent (B "struct")) pre -> Forall (fun g => flat (gp_rest g)) gs ->
  (Forall where_token (clause_of w) \/ gs <> [] /\ trailing = false /\ where_clause (clause_of w)) ->
  forall ds d a v b ds' tr, Forall (fun d => no_comma (fd_ty d)) ds -> fd_ty d = a ++ COMMA :: TkIdent v :: b -> no_comma a -> no_comma b ->
  Forall (fun d => no_comma (fd_ty d)) ds' -> Forall field_name (v :: map fd_name (ds ++ d :: ds')) ->
  let decl := struct_head pre name gs trailing w ++ TkGroup DBrace (comma_sep (map field_text (ds ++ d :: ds')) tr) :: post in
  exists out body, derive_from_json decl = Done out /\ impl_with (B "FromJSON") name gs trailing w (from_json_fn body) out /\
  forall (L F : Type) (ffrom : str -> value L -> option F) fto u st,
  computes ffrom fto [(B "val", RVal u)] body (ROpt (Some (RStruct st))) -> length st = S (length (ds ++ d :: ds')) /\ In v (map fst st).
Proof.
  intros Hpre Hgs Hw ds d a v b ds' tr H1 H2 Ha Hb H3 Hn decl. unfold decl, derive_from_json. rewrite derive_braces by auto.
  cbn [obind]. rewrite (fields_comma ds d a v b ds' tr) by auto. set (fields := map fd_name ds ++ fd_name d :: v :: map fd_name ds').
  assert (G : Forall field_name fields).
  { unfold fields. inversion Hn as [|x l Hv Hr E]; subst. rewrite map_app in Hr. apply Forall_app in Hr. destruct Hr as [R1 R2]. apply Forall_app. split; auto.
    cbn [map] in R2. inversion R2; subst. repeat constructor; auto; apply Hv || apply H4. }
  eexists. exists (from_body fields). split; [reflexivity|]. split; [apply header_with|]. intros L F ffrom fto u st C.
  apply (computes_fun ffrom fto _ _ _ _ (reads_from _ G) (run_from ffrom fto fields u)) in C.
  destruct (from_json_braces ffrom fields u) as [st'|] eqn:J; [|discriminate]. cbn [option_map] in C. injection C as ->.
  unfold from_json_braces in J. destruct u as [m| |]; try discriminate. destruct (init_fields ffrom m fields) as [[l o]|] eqn:K; [|discriminate].
  destruct o; [|discriminate]. injection J as ->. apply init_names in K. split.
  - rewrite <- (map_length fst), K. unfold fields. rewrite !app_length. cbn [length]. rewrite !map_length. lia.
  - rewrite K. unfold fields. apply in_or_app. right. right. left. reflexivity.
Qed.
