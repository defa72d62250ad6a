(** Proofs for Props/DeriveProps.v: the generated texts, read as tokens. *)
From Verif.Model Require Import RustStd Macros Derive DeriveText.
From Verif.Spec Require Import MacroSpec RustLang DeriveSpec TokenText.
From Verif.Proofs Require Import Basics MacroProofs DeriveProofs.
From Verif.Proofs Require ResponseProofs.

(** ** Reading a text piece by piece *)
Definition run (st : lex_state) (fs : list frame) (s : str) : option (lex_state * list frame) :=
  let '(l, st') := lex_run st s in match group_run fs l with Some fs' => Some (st', fs') | None => None end.

Lemma lex_run_app st a b : lex_run st (a ++ b) =
  let '(l, st1) := lex_run st a in let '(l', st2) := lex_run st1 b in (l ++ l', st2).
Proof.
  revert st. induction a as [|c a IH]; intro st; cbn [app lex_run].
  - destruct (lex_run st b); reflexivity.
  - destruct (lex_step st c) as [l1 st1]. rewrite IH. destruct (lex_run st1 a) as [l2 st2]. destruct (lex_run st2 b). rewrite app_assoc. reflexivity.
Qed.
Lemma group_run_app fs a b : group_run fs (a ++ b) = match group_run fs a with Some fs' => group_run fs' b | None => None end.
Proof. revert fs. induction a as [|x a IH]; intro fs; auto. cbn [app group_run]. destruct (group_step fs x); auto. Qed.
Lemma run_app st fs a b : run st fs (a ++ b) = match run st fs a with Some (st', fs') => run st' fs' b | None => None end.
Proof.
  unfold run. rewrite lex_run_app. destruct (lex_run st a) as [l st1]. destruct (lex_run st1 b) as [l' st2] eqn:E.
  rewrite group_run_app. destruct (group_run fs l) as [fs'|]; auto. rewrite E. reflexivity.
Qed.
Lemma run_then st fs a b st' fs' : run st fs a = Some (st', fs') -> run st fs (a ++ b) = run st' fs' b.
Proof. intro E. rewrite run_app, E. reflexivity. Qed.
Lemma run_end s ts d : run LBetween [(DNone, [])] s = Some (LBetween, [(d, ts)]) -> parse_tokens s = Some ts.
Proof.
  unfold run, parse_tokens, lexemes. destruct (lex_run LBetween s) as [l st]. destruct (group_run _ l) as [fs|] eqn:E; [|discriminate].
  intros [= -> ->]. rewrite E. reflexivity.
Qed.
(** The end of a text, a word being there or not *)
Definition settle (st : lex_state) (fs : list frame) : option (list frame) :=
  match st with LBetween => Some fs | LInWord w => group_step fs (LWord w) | _ => None end.
Lemma parse_settle s : parse_tokens s =
  match run LBetween [(DNone, [])] s with
  | Some (st, fs) => match settle st fs with Some [(_, ts)] => Some ts | _ => None end
  | None => None
  end.
Proof.
  unfold run, parse_tokens, lexemes. destruct (lex_run LBetween s) as [l st]. destruct st as [|w|q|q]; cbn [settle].
  - destruct (group_run _ l); reflexivity.
  - rewrite group_run_app. destruct (group_run _ l) as [fs|]; auto. cbn [group_run settle]. destruct (group_step fs (LWord w)); reflexivity.
  - destruct (group_run _ l) as [[|[? ?] [|? ?]]|]; reflexivity.
  - destruct (group_run _ l) as [[|[? ?] [|? ?]]|]; reflexivity.
Qed.

(** ** What was read alone is read within a larger text *)
Lemma step_frame top d x l res : group_step (top ++ [(d, x)]) l = Some res ->
  exists top' x', res = top' ++ [(d, x ++ x')] /\
  forall e p more, group_step (top ++ (e, p ++ x) :: more) l = Some (top' ++ (e, p ++ x ++ x') :: more).
Proof.
  assert (K : forall t, Some ((d, x ++ [t]) :: []) = Some res -> exists top' x', res = top' ++ [(d, x ++ x')] /\
    forall e p more, Some ((e, (p ++ x) ++ [t]) :: more) = Some (top' ++ (e, p ++ x ++ x') :: more)).
  { intros t [= <-]. exists [], [t]. split; [reflexivity|]. intros. rewrite <- app_assoc. reflexivity. }
  destruct top as [|[d1 x1] top]; cbn [app group_step].
  - destruct l as [w|s|c]; [apply K|apply K|]. destruct (opens c) as [o|].
    + intros [= <-]. exists [(o, [])], []. split; [rewrite app_nil_r; reflexivity|]. intros. rewrite app_nil_r. reflexivity.
    + destruct (closes c) as [o|]; [discriminate|apply K].
  - assert (K' : forall t, Some ((d1, x1 ++ [t]) :: top ++ [(d, x)]) = Some res -> exists top' x', res = top' ++ [(d, x ++ x')] /\
      forall e p more, Some ((d1, x1 ++ [t]) :: top ++ (e, p ++ x) :: more) = Some (top' ++ (e, p ++ x ++ x') :: more)).
    { intros t [= <-]. exists ((d1, x1 ++ [t]) :: top), []. rewrite app_nil_r. split; auto. }
    destruct l as [w|s|c]; [apply K'|apply K'|]. destruct (opens c) as [o|].
    + intros [= <-]. exists ((o, []) :: (d1, x1) :: top), []. rewrite app_nil_r. split; auto.
    + destruct (closes c) as [o|]; [|apply K'].
      destruct top as [|[d2 x2] top]; cbn [app].
      * destruct (delim_eqb d1 o); [|discriminate]. intros [= <-]. exists [], [TkGroup d1 x1]. split; [reflexivity|]. intros. rewrite <- app_assoc. reflexivity.
      * destruct (delim_eqb d1 o); [|discriminate]. intros [= <-]. exists ((d2, x2 ++ [TkGroup d1 x1]) :: top), []. rewrite app_nil_r. split; auto.
Qed.
Lemma run_frame l : forall top d x res, group_run (top ++ [(d, x)]) l = Some res ->
  exists top' x', res = top' ++ [(d, x ++ x')] /\
  forall e p more, group_run (top ++ (e, p ++ x) :: more) l = Some (top' ++ (e, p ++ x ++ x') :: more).
Proof.
  induction l as [|y l IH]; intros top d x res; cbn [group_run].
  - intros [= <-]. exists top, []. rewrite app_nil_r. split; auto.
  - destruct (group_step (top ++ [(d, x)]) y) as [fs|] eqn:E; [|discriminate]. intro R.
    destruct (step_frame _ _ _ _ _ E) as (t1 & x1 & -> & S1). destruct (IH _ _ _ _ R) as (t2 & x2 & -> & S2).
    exists t2, (x1 ++ x2). split; [rewrite app_assoc; reflexivity|]. intros. rewrite S1, (S2 e p more), <- !app_assoc. reflexivity.
Qed.
Lemma run_embed s ts d x fs : parse_tokens s = Some ts ->
  exists st fs', run LBetween ((d, x) :: fs) s = Some (st, fs') /\ settle st fs' = Some ((d, x ++ ts) :: fs).
Proof.
  rewrite parse_settle. unfold run. destruct (lex_run LBetween s) as [l st]. destruct (group_run [(DNone, [])] l) as [g|] eqn:E; [|discriminate].
  destruct (run_frame l [] DNone [] g E) as (t1 & x1 & -> & S1). specialize (S1 d x fs). rewrite app_nil_r in S1. cbn [app] in S1, E |- *.
  intro R. rewrite S1. exists st, (t1 ++ (d, x ++ x1) :: fs). split; [reflexivity|].
  destruct st as [|w|q|q]; cbn [settle] in *; try discriminate.
  - destruct t1 as [|[? ?] [|? ?]]; cbn [app] in *; try discriminate. injection R as ->. reflexivity.
  - destruct (group_step (t1 ++ [(DNone, x1)]) (LWord w)) as [[|[d' y] [|? ?]]|] eqn:G; try discriminate. injection R as ->.
    destruct t1 as [|[? ?] t1]; cbn [app group_step] in *.
    + injection G as _ <-. rewrite <- app_assoc. reflexivity.
    + destruct t1; discriminate.
Qed.
(** A character that ends a word *)
Definition ends (b : byte) : Prop := lex_word_byte b = false /\ b <> x23.
Lemma word_ends w d x fs b s : lex_word_byte b = false -> (b <> x23 \/ w <> B "r") ->
  run (LInWord w) ((d, x) :: fs) (b :: s) = run LBetween ((d, x ++ [word_token w]) :: fs) (b :: s).
Proof.
  intros W N. unfold run. cbn [lex_run lex_step]. rewrite W.
  assert (E : beqb b x23 && seqb w (B "r") = false).
  { destruct N as [N|N].
    - destruct (beqb b x23) eqn:E; auto. apply beqb_eq in E. contradiction.
    - destruct (seqb w (B "r")) eqn:E; [apply seqb_eq in E; contradiction|apply andb_false_r]. }
  rewrite E. destruct (lex_start b) as [l st1]. destruct (lex_run st1 s) as [l' st2]. reflexivity.
Qed.
Lemma printed_then s ts d x fs b r : parse_tokens s = Some ts -> ends b ->
  run LBetween ((d, x) :: fs) (s ++ b :: r) = run LBetween ((d, x ++ ts) :: fs) (b :: r).
Proof.
  intros P [W N]. destruct (run_embed s ts d x fs P) as (st & fs' & R & S). rewrite (run_then _ _ _ _ _ _ R).
  destruct st as [|w|q|q]; cbn [settle] in S; try discriminate; [injection S as ->; reflexivity|].
  destruct fs' as [|[d' x'] fs']; cbn [group_step] in S; [discriminate|]. injection S as -> E ->. rewrite word_ends by auto. rewrite E. reflexivity.
Qed.

(** ** A text starts with a word only if the tokens do *)
Definition starts_word (ts : list token) : Prop := match ts with TkIdent _ :: _ | TkLit _ :: _ => True | _ => False end.
Lemma in_word_emits s : forall w l st, lex_run (LInWord w) s = (l, st) ->
  (exists w', l = [] /\ st = LInWord (w ++ w')) \/ (exists w' l', l = LWord (w ++ w') :: l').
Proof.
  induction s as [|b s IH]; intros w l st; cbn [lex_run lex_step].
  - intros [= <- <-]. left. exists []. rewrite app_nil_r. auto.
  - destruct (lex_word_byte b) eqn:Hw.
    + destruct (lex_run (LInWord (w ++ [b])) s) as [l' st2] eqn:E. intros [= <- <-].
      destruct (IH _ _ _ E) as [(w' & -> & ->)|(w' & l'' & ->)]; [left|right]; exists ([b] ++ w'); rewrite app_assoc; eauto.
    + destruct (beqb b x23 && seqb w (B "r")).
      * destruct (lex_run (LInWord (w ++ [b])) s) as [l' st2] eqn:E. intros [= <- <-].
        destruct (IH _ _ _ E) as [(w' & -> & ->)|(w' & l'' & ->)]; [left|right]; exists ([b] ++ w'); rewrite app_assoc; eauto.
      * destruct (lex_start b) as [l1 st1]. destruct (lex_run st1 s) as [l' st2]. intros [= <- <-]. right. exists [], (l1 ++ l'). rewrite app_nil_r. reflexivity.
Qed.
Lemma starts_with_word b s ts : lex_word_byte b = true -> parse_tokens (b :: s) = Some ts -> starts_word ts.
Proof.
  intro W. rewrite parse_settle. unfold run. cbn [lex_run lex_step]. unfold lex_start. rewrite W.
  destruct (lex_run (LInWord [b]) s) as [l st] eqn:E. cbn [app].
  assert (K : forall w ts', starts_word (word_token (b :: w) :: ts')) by (intros; cbn; destruct ((48 <=? bN b) && (bN b <=? 57))%N; exact I).
  destruct (in_word_emits _ _ _ _ E) as [(w' & -> & ->)|(w' & l' & ->)]; cbn [group_run settle group_step app].
  - intros [= <-]. apply K.
  - destruct (group_run [(DNone, [word_token (b :: w')])] l') as [g|] eqn:G; [|discriminate].
    destruct (run_frame l' [] DNone [word_token (b :: w')] g G) as (t1 & x1 & -> & _).
    destruct st as [|w|q|q]; cbn [settle]; try discriminate.
    + destruct t1 as [|[? ?] [|? ?]]; cbn [app]; try discriminate. intros [= <-]. apply K.
    + destruct t1 as [|[? ?] [|? ?]]; cbn [app group_step]; try discriminate. intros [= <-]. apply K.
Qed.

(** ** Names, numbers and string literals *)
Lemma letter_word b : letter b \/ digit b -> lex_word_byte b = true.
Proof.
  unfold letter, digit, lex_word_byte. intro W.
  destruct (97 <=? bN b)%N eqn:E1, (bN b <=? 122)%N eqn:E2, (65 <=? bN b)%N eqn:E3, (bN b <=? 90)%N eqn:E4,
    (48 <=? bN b)%N eqn:E5, (bN b <=? 57)%N eqn:E6, (bN b =? 95)%N eqn:E7; cbn; auto;
  rewrite ?N.leb_le, ?N.leb_gt, ?N.eqb_eq, ?N.eqb_neq in *; exfalso; lia.
Qed.
Lemma run_word r : Forall (fun b => letter b \/ digit b) r -> forall w fs s, run (LInWord w) fs (r ++ s) = run (LInWord (w ++ r)) fs s.
Proof.
  induction 1 as [|b r Hb _ IH]; intros w fs s; [rewrite app_nil_r; reflexivity|].
  cbn [app]. change (b :: r) with ([b] ++ r). rewrite app_assoc, <- IH. unfold run. cbn [lex_run lex_step]. rewrite (letter_word b Hb).
  destruct (lex_run (LInWord (w ++ [b])) (r ++ s)); reflexivity.
Qed.
Lemma run_first b fs s : lex_word_byte b = true -> run LBetween fs (b :: s) = run (LInWord [b]) fs s.
Proof. intro W. unfold run. cbn [lex_run lex_step]. unfold lex_start. rewrite W. destruct (lex_run (LInWord [b]) s); reflexivity. Qed.
Lemma run_ident f : ident_text f -> forall fs s, run LBetween fs (f ++ s) = run (LInWord f) fs s.
Proof.
  intros (b & r & Hb & Hr & [-> | ->]) fs s; cbn [app].
  - rewrite run_first by (apply letter_word; auto). apply (run_word r Hr [b]).
  - change (run LBetween fs (B "r#" ++ b :: r ++ s) = run (LInWord (B "r#" ++ b :: r)) fs s).
    transitivity (run (LInWord (B "r#")) fs ((b :: r) ++ s)).
    + unfold run. change (B "r#" ++ b :: r ++ s) with (x72 :: x23 :: (b :: r) ++ s). cbn [lex_run].
      change (lex_step LBetween x72) with (@nil lexeme, LInWord [x72]). cbv iota beta.
      change (lex_step (LInWord [x72]) x23) with (@nil lexeme, LInWord (B "r#")). cbv iota beta.
      destruct (lex_run (LInWord (B "r#")) ((b :: r) ++ s)); reflexivity.
    + apply run_word. constructor; auto.
Qed.
Lemma letter_no_digit b : letter b -> ((48 <=? bN b) && (bN b <=? 57))%N = false.
Proof. unfold letter. intro L. destruct (48 <=? bN b)%N eqn:E1, (bN b <=? 57)%N eqn:E2; auto; rewrite ?N.leb_le in *; lia. Qed.
Lemma ident_token f : ident_text f -> word_token f = TkIdent f.
Proof. intros (b & r & Hb & Hr & [-> | ->]); cbn [app word_token]; [rewrite letter_no_digit by auto; reflexivity|reflexivity]. Qed.
Lemma ident_then f d x fs b s : ident_text f -> ends b ->
  run LBetween ((d, x) :: fs) (f ++ b :: s) = run LBetween ((d, x ++ [TkIdent f]) :: fs) (b :: s).
Proof. intros F [W N]. rewrite run_ident, word_ends, ident_token by auto. reflexivity. Qed.
Lemma number_then n d x fs b s : ends b ->
  run LBetween ((d, x) :: fs) (show_N n ++ b :: s) = run LBetween ((d, x ++ [TkLit (show_N n)]) :: fs) (b :: s).
Proof.
  intros [W N].
  assert (E : exists c r, show_N n = c :: r /\ digit c /\ Forall (fun b => letter b \/ digit b) r).
  { destruct (ResponseProofs.show_N_decimal n) as (NE & D & _). destruct (show_N n) as [|c r]; [contradiction|].
    apply Forall_cons_iff in D. destruct D as [Dc Dr]. exists c, r. split; [reflexivity|]. split; [exact Dc|].
    eapply Forall_impl; [|exact Dr]. intros a Ha. right. exact Ha. }
  destruct E as (c & r & E & Hc & Hr). rewrite E. cbn [app]. rewrite run_first by (apply letter_word; auto). rewrite (run_word r Hr [c]).
  cbn [app]. rewrite word_ends by auto. cbn [word_token]. unfold digit in Hc.
  replace ((48 <=? bN c) && (bN c <=? 57))%N with true; [reflexivity|]. symmetry. apply andb_true_iff. rewrite !N.leb_le. lia.
Qed.
Lemma quoted_run q : quoted q -> forall w d x fs s,
  run (LInText w) ((d, x) :: fs) (q ++ x22 :: s) = run LBetween ((d, x ++ [TkLit (w ++ q ++ [x22])]) :: fs) s.
Proof.
  induction 1 as [|b q N1 N2 _ IH|b q _ IH]; intros w d x fs s; cbn [app].
  - unfold run. cbn [lex_run]. change (lex_step (LInText w) x22) with ([LText (w ++ [x22])], LBetween). cbv iota beta.
    destruct (lex_run LBetween s). reflexivity.
  - replace (w ++ b :: q ++ [x22]) with ((w ++ [b]) ++ q ++ [x22]) by (rewrite <- app_assoc; reflexivity). rewrite <- IH.
    unfold run. cbn [lex_run lex_step]. destruct (beqb b x22) eqn:E1; [apply beqb_eq in E1; contradiction|].
    destruct (beqb b x5c) eqn:E2; [apply beqb_eq in E2; contradiction|]. destruct (lex_run (LInText (w ++ [b])) (q ++ x22 :: s)); reflexivity.
  - replace (w ++ x5c :: b :: q ++ [x22]) with (((w ++ [x5c]) ++ [b]) ++ q ++ [x22]) by (rewrite <- !app_assoc; reflexivity). rewrite <- IH.
    unfold run. cbn [lex_run]. change (lex_step (LInText w) x5c) with (@nil lexeme, LInEscape (w ++ [x5c])). cbv iota beta.
    change (lex_step (LInEscape (w ++ [x5c])) b) with (@nil lexeme, LInText ((w ++ [x5c]) ++ [b])). cbv iota beta.
    destruct (lex_run (LInText ((w ++ [x5c]) ++ [b])) (q ++ x22 :: s)); reflexivity.
Qed.
Lemma literal_then q d x fs s : quoted q ->
  run LBetween ((d, x) :: fs) ((x22 :: q ++ [x22]) ++ s) = run LBetween ((d, x ++ [TkLit (x22 :: q ++ [x22])]) :: fs) s.
Proof.
  intro Q. transitivity (run (LInText [x22]) ((d, x) :: fs) (q ++ x22 :: s)).
  - cbn [app]. rewrite <- app_assoc. cbn [app]. unfold run. cbn [lex_run]. change (lex_step LBetween x22) with (@nil lexeme, LInText [x22]). cbv iota beta.
    destruct (lex_run (LInText [x22]) (q ++ x22 :: s)); reflexivity.
  - rewrite quoted_run by auto. reflexivity.
Qed.
Lemma ident_word f : ident_text f -> forallb word_byte f = true.
Proof.
  assert (K : forall b, letter b \/ digit b -> word_byte b = true).
  { intros b H. apply letter_word in H. unfold lex_word_byte in H. unfold word_byte. cbn [app]. rewrite H. reflexivity. }
  intros (b & r & Hb & Hr & E). assert (R : forallb word_byte (b :: r) = true).
  { cbn [forallb]. rewrite K by auto. apply forallb_forall. intros a Ha. apply K. rewrite Forall_forall in Hr. auto. }
  destruct E as [-> | ->]; [exact R|]. change (forallb word_byte (x72 :: x23 :: b :: r) = true). cbn [forallb] in R |- *. rewrite R. reflexivity.
Qed.
Lemma ident_quoted f : ident_text f -> quoted f.
Proof.
  intro F. apply ident_word in F. induction f as [|b f IH]; constructor; cbn [forallb] in F; apply andb_true_iff in F as [F1 F2]; auto.
  - intros ->. discriminate.
  - intros ->. discriminate.
Qed.
Lemma name_then f d x fs s : ident_text f ->
  run LBetween ((d, x) :: fs) (debug_str DebugNew f ++ s) = run LBetween ((d, x ++ [name_literal f]) :: fs) s.
Proof. intro F. unfold name_literal. rewrite debug_word by (apply ident_word; auto). apply literal_then, ident_quoted, F. Qed.

(** ** The fixed pieces *)
Lemma piece top0 s st top x' : run LBetween (top0 ++ [(DNone, [])]) s = Some (st, top ++ [(DNone, x')]) ->
  forall d x fs r, run LBetween (top0 ++ (d, x) :: fs) (s ++ r) = run st (top ++ (d, x ++ x') :: fs) r.
Proof.
  unfold run at 1. destruct (lex_run LBetween s) as [l st1] eqn:E. destruct (group_run _ l) as [g|] eqn:G; [|discriminate]. intros [= -> ->] d x fs r.
  destruct (run_frame l top0 DNone [] _ G) as (t1 & x1 & E1 & S1). apply app_inj_tail in E1. destruct E1 as [<- [= <-]].
  specialize (S1 d x fs). rewrite app_nil_r in S1. apply run_then. unfold run. rewrite E, S1. reflexivity.
Qed.
(** [piece] with the piece at the start of the goal's text *)
Ltac fixed top0 st top x' :=
  match goal with |- context [run LBetween _ (?s ++ ?r)] =>
    let P := fresh in assert (P := piece top0 s st top x' eq_refl); cbn [app] in P; rewrite P; clear P
  end.

Definition ends_word (s : str) : Prop := match s with b :: _ => ends b | [] => False end.
Lemma ident_run f d x fs s : ident_text f -> ends_word s ->
  run LBetween ((d, x) :: fs) (f ++ s) = run LBetween ((d, x ++ [TkIdent f]) :: fs) s.
Proof. destruct s as [|b s]; [contradiction|]. apply ident_then. Qed.
Lemma number_run n d x fs s : ends_word s ->
  run LBetween ((d, x) :: fs) (show_N n ++ s) = run LBetween ((d, x ++ [TkLit (show_N n)]) :: fs) s.
Proof. destruct s as [|b s]; [contradiction|]. apply number_then. Qed.
Lemma printed_run p ts d x fs s : parse_tokens p = Some ts -> ends_word s ->
  run LBetween ((d, x) :: fs) (p ++ s) = run LBetween ((d, x ++ ts) :: fs) s.
Proof. destruct s as [|b s]; [contradiction|]. apply printed_then. Qed.
Ltac ender := split; [reflexivity|discriminate].

Lemma from_vals_run fields : Forall ident_text fields -> forall d x fs r,
  run LBetween ((d, x) :: fs) (flat_map (fun f => f ++ B ": crate::FromJSON::from_json(obj.remove(" ++ debug_str DebugNew f ++ B ")?)?,") fields ++ r) =
  run LBetween ((d, x ++ from_vals fields) :: fs) r.
Proof.
  induction 1 as [|f fields Hf _ IH]; intros d x fs r; [rewrite app_nil_r; reflexivity|].
  cbn [flat_map]. unfold from_vals. cbn [flat_map]. fold (from_vals fields). rewrite <- !app_assoc.
  rewrite ident_run by (auto; ender).
  fixed (@nil frame) LBetween [(DParen, []); (DParen, [TkIdent (B "obj"); TkPunct x2e; TkIdent (B "remove")])]
    (TkPunct x3a :: path_tokens [B "crate"; B "FromJSON"; B "from_json"]).
  rewrite name_then by auto. cbn [app].
  fixed [(DParen, [name_literal f]); (DParen, [TkIdent (B "obj"); TkPunct x2e; TkIdent (B "remove")])] LBetween (@nil frame)
    [TkGroup DParen (TkIdent (B "obj") :: method_call (B "remove") [name_literal f] ++ [TkPunct x3f]); TkPunct x3f; TkPunct x2c].
  rewrite IH. rewrite <- !app_assoc. reflexivity.
Qed.
Lemma from_tuple_run n : forall d x fs r,
  run LBetween ((d, x) :: fs) (concat (repeat (B "crate::FromJSON::from_json(it.next()?)?,") n) ++ r) =
  run LBetween ((d, x ++ from_tuple_vals n) :: fs) r.
Proof.
  induction n as [|n IH]; intros d x fs r; [rewrite app_nil_r; reflexivity|].
  cbn [repeat concat]. rewrite <- !app_assoc.
  fixed (@nil frame) LBetween (@nil frame) (call_path [B "crate"; B "FromJSON"; B "from_json"]
        (TkIdent (B "it") :: method_call (B "next") [] ++ [TkPunct x3f]) ++ [TkPunct x3f; TkPunct x2c]).
  rewrite IH. rewrite <- !app_assoc. reflexivity.
Qed.
Lemma to_vals_run fields : Forall ident_text fields -> forall d x fs r,
  run LBetween ((d, x) :: fs) (flat_map (fun f => B "obj.insert(" ++ debug_str DebugNew f ++ B ".to_owned(), crate::ToJSON::to_json(self." ++ f ++ B ")?);") fields ++ r) =
  run LBetween ((d, x ++ to_vals fields) :: fs) r.
Proof.
  induction 1 as [|f fields Hf _ IH]; intros d x fs r; [rewrite app_nil_r; reflexivity|].
  cbn [flat_map]. unfold to_vals. cbn [flat_map]. fold (to_vals fields). rewrite <- !app_assoc.
  fixed (@nil frame) LBetween [(DParen, @nil token)] [TkIdent (B "obj"); TkPunct x2e; TkIdent (B "insert")].
  rewrite name_then by auto. cbn [app].
  fixed [(DParen, [name_literal f])] LBetween [(DParen, [TkIdent (B "self"); TkPunct x2e]);
    (DParen, name_literal f :: method_call (B "to_owned") [] ++ [TkPunct x2c] ++ path_tokens [B "crate"; B "ToJSON"; B "to_json"])] (@nil token).
  rewrite ident_run by (auto; ender). cbn [app].
  fixed [(DParen, [TkIdent (B "self"); TkPunct x2e; TkIdent f]);
    (DParen, name_literal f :: method_call (B "to_owned") [] ++ [TkPunct x2c] ++ path_tokens [B "crate"; B "ToJSON"; B "to_json"])]
    LBetween (@nil frame) 
    [TkGroup DParen (name_literal f :: method_call (B "to_owned") [] ++ [TkPunct x2c] ++ path_tokens [B "crate"; B "ToJSON"; B "to_json"] ++
       [TkGroup DParen [TkIdent (B "self"); TkPunct x2e; TkIdent f]; TkPunct x3f]); TkPunct x3b].
  rewrite IH. rewrite <- !app_assoc. reflexivity.
Qed.
Lemma to_tuple_run n : forall i d x fs r,
  run LBetween ((d, x) :: fs) (flat_map (fun i => B "arr.push(crate::ToJSON::to_json(self." ++ show_N (N.of_nat i) ++ B ")?);") (seq i n) ++ r) =
  run LBetween ((d, x ++ to_tuple_vals i n) :: fs) r.
Proof.
  induction n as [|n IH]; intros i d x fs r; [rewrite app_nil_r; reflexivity|].
  cbn [seq flat_map to_tuple_vals]. rewrite <- !app_assoc. 
  fixed (@nil frame) LBetween [(DParen, [TkIdent (B "self"); TkPunct x2e]); (DParen, path_tokens [B "crate"; B "ToJSON"; B "to_json"])]
    [TkIdent (B "arr"); TkPunct x2e; TkIdent (B "push")].
  rewrite number_run by ender. generalize (show_N (N.of_nat i)). intro t. cbn [app].
  fixed [(DParen, [TkIdent (B "self"); TkPunct x2e; TkLit t]); (DParen, path_tokens [B "crate"; B "ToJSON"; B "to_json"])] LBetween (@nil frame)
    [TkGroup DParen (call_path [B "crate"; B "ToJSON"; B "to_json"] [TkIdent (B "self"); TkPunct x2e; TkLit t] ++ [TkPunct x3f]); TkPunct x3b].
  rewrite IH. rewrite <- !app_assoc. reflexivity.
Qed.

(** ** The header *)
Lemma run_settle s st x : run LBetween [(DNone, [])] s = Some (st, [(DNone, x)]) ->
  parse_tokens s = match st with LBetween => Some x | LInWord w => Some (x ++ [word_token w]) | _ => None end.
Proof. intro E. rewrite parse_settle, E. destruct st; reflexivity. Qed.
Lemma bound_parses trait g comma : ident_text trait -> ident_text g -> parse_tokens ((if comma : bool then B ", " else []) ++ g ++ B ": crate::" ++ trait) =
  Some ((if comma then [TkPunct x2c] else []) ++ TkIdent g :: TkPunct x3a :: crate_path trait).
Proof.
  intros Ht Hg. erewrite run_settle with (st := LInWord trait) (x := (if comma then [TkPunct x2c] else []) ++ [TkIdent g; TkPunct x3a; TkIdent (B "crate"); TkPunct x3a; TkPunct x3a]).
  - rewrite ident_token by auto. rewrite <- app_assoc. reflexivity.
  - assert (K : forall x, run LBetween [(DNone, x)] (g ++ B ": crate::" ++ trait) =
      Some (LInWord trait, [(DNone, x ++ [TkIdent g; TkPunct x3a; TkIdent (B "crate"); TkPunct x3a; TkPunct x3a])])).
    { intro x. rewrite ident_run by (auto; ender). fixed (@nil frame) LBetween (@nil frame) [TkPunct x3a; TkIdent (B "crate"); TkPunct x3a; TkPunct x3a].
      rewrite <- (app_nil_r trait) at 1. rewrite run_ident by auto. unfold run. cbn [lex_run group_run]. rewrite <- app_assoc. reflexivity. }
    destruct comma; [|apply K]. 
    fixed (@nil frame) LBetween (@nil frame) [TkPunct x2c]. apply K.
Qed.
Lemma extend_where_bounds trait gens : ident_text trait -> Forall ident_text gens -> forall comma w,
  extend_where trait (if comma : bool then B ", " else []) gens w = Done (w ++ where_bounds trait comma gens).
Proof.
  intros Ht H. induction H as [|g gens Hg _ IH]; intros comma w; cbn [extend_where where_bounds]; [rewrite app_nil_r; reflexivity|].
  rewrite bound_parses by auto. cbn [unwrap obind]. rewrite (IH true). rewrite <- !app_assoc. reflexivity.
Qed.
Lemma gen_names_run gens : Forall ident_text gens -> gens <> [] -> forall d x fs r, ends_word r ->
  run LBetween ((d, x) :: fs) (gen_names gens ++ r) = run LBetween ((d, x ++ comma_idents gens) :: fs) r.
Proof.
  induction 1 as [|g gens Hg Hs IH]; [contradiction|]. intros _ d x fs r E. destruct gens as [|g2 gens].
  - cbn [gen_names comma_idents]. apply ident_run; auto.
  - change (gen_names (g :: g2 :: gens)) with (g ++ B "," ++ gen_names (g2 :: gens)).
    change (comma_idents (g :: g2 :: gens)) with (TkIdent g :: TkPunct x2c :: comma_idents (g2 :: gens)). rewrite <- !app_assoc.
    rewrite ident_run by (auto; ender). fixed (@nil frame) LBetween (@nil frame) [TkPunct x2c].
    rewrite IH by (auto; discriminate). rewrite <- !app_assoc. reflexivity.
Qed.
Lemma gen_list_run gens : Forall ident_text gens -> forall d x fs r, ends_word r ->
  run LBetween ((d, x) :: fs) (gen_list_text gens ++ r) = run LBetween ((d, x ++ gen_list gens) :: fs) r.
Proof.
  intros H d x fs r E. destruct gens as [|g gens]; [rewrite app_nil_r; reflexivity|].
  unfold gen_list_text, gen_list. rewrite <- !app_assoc. fixed (@nil frame) LBetween (@nil frame) [TkPunct x3c].
  rewrite gen_names_run by (auto; try discriminate; ender). fixed (@nil frame) LBetween (@nil frame) [TkPunct x3e].
  rewrite <- !app_assoc. reflexivity.
Qed.
Lemma gen_list_ends gens r : ends_word r -> ends_word (gen_list_text gens ++ r).
Proof. destruct gens as [|g gens]; auto. intros _. ender. Qed.

Ltac byte_lia := unfold letter, digit; repeat match goal with |- context [bN ?b] => let v := eval vm_compute in (bN b) in change (bN b) with v end; lia.
Lemma ordinary_trait trait : ident_text trait -> Forall ordinary (crate_path trait).
Proof.
  intro H. assert (C : ordinary (TkPunct x3a)) by (constructor; cbn; tauto).
  assert (D : ordinary (TkIdent (B "crate"))).
  { constructor. exists x63, (B "rate"). split; [byte_lia|]. split; [repeat constructor; byte_lia|left; reflexivity]. }
  unfold crate_path. do 3 (apply Forall_cons; [assumption|]). apply Forall_cons; [constructor; exact H|constructor].
Qed.
Lemma ordinary_bounds trait gens : ident_text trait -> Forall ident_text gens -> forall comma, Forall ordinary (where_bounds trait comma gens).
Proof.
  intros Ht H. induction H as [|g gens Hg _ IH]; intro comma; cbn [where_bounds]; [constructor|].
  apply Forall_app. split; [destruct comma; repeat constructor; cbn; tauto|].
  apply Forall_cons; [constructor; auto|]. apply Forall_cons; [constructor; cbn; tauto|]. apply Forall_app. split; [apply ordinary_trait; auto|auto].
Qed.

Section Header.
Context (print : list token -> str) (F : reparses print).
(** The parts of a declaration, as the derives take it apart *)
Definition ordinary_info (info : struct_info) : Prop :=
  ordinary (si_name info) /\ Forall ordinary (si_gen_between info) /\ ~ starts_word (si_gen_between info) /\
  Forall ordinary (si_where_between info) /\ Forall ident_text (si_generics info).
Lemma impl_reads trait info body toks : ident_text trait -> ordinary_info info ->
  (forall x, run LBetween [(DNone, x)] body = Some (LBetween, [(DNone, x ++ toks)])) ->
  impl_text_of print trait info body = Done (impl_header trait info ++ toks).
Proof.
  intros Ht (O1 & O2 & O3 & O4 & O5) Hb. unfold impl_text_of, where_printed. rewrite (extend_where_bounds trait _ Ht O5 (where_needs_comma (si_where_between info))). cbn [obind].
  set (w := si_where_between info ++ _). assert (Ow : Forall ordinary w) by (apply Forall_app; split; [auto|apply ordinary_bounds; auto]).
  assert (E : run LBetween [(DNone, [])] (B "impl" ++ print (si_gen_between info) ++ B " crate::" ++ trait ++ B " for " ++ print [si_name info] ++
      gen_list_text (si_generics info) ++ B " where " ++ print w ++ B " " ++ body) = Some (LBetween, [(DNone, impl_header trait info ++ toks)])).
  { transitivity (run LBetween [(DNone, [TkIdent (B "impl")])] (print (si_gen_between info) ++ B " crate::" ++ trait ++ B " for " ++ print [si_name info] ++
      gen_list_text (si_generics info) ++ B " where " ++ print w ++ B " " ++ body)).
    { fixed (@nil frame) (LInWord (B "impl")) (@nil frame) (@nil token).
      assert (G : match print (si_gen_between info) with b :: _ => lex_word_byte b = false | [] => True end).
      { destruct (print (si_gen_between info)) as [|b p] eqn:Ep; auto. destruct (lex_word_byte b) eqn:Eb; auto.
        destruct O3. apply (starts_with_word b p); auto. rewrite <- Ep. apply F; auto. }
      destruct (print (si_gen_between info)) as [|b p]; cbn [app]; [apply word_ends; [reflexivity|left; discriminate]|].
      apply word_ends; auto. right. discriminate. }
    rewrite (printed_run _ _ _ _ _ _ (F _ O2)) by ender.
    fixed (@nil frame) LBetween (@nil frame) [TkIdent (B "crate"); TkPunct x3a; TkPunct x3a].
    rewrite ident_run by (auto; ender).
    fixed (@nil frame) LBetween (@nil frame) [TkIdent (B "for")].
    rewrite (printed_run _ [si_name info]) by (apply gen_list_ends || apply F; auto; ender).
    rewrite gen_list_run by (auto; ender).
    fixed (@nil frame) LBetween (@nil frame) [TkIdent (B "where")].
    rewrite (printed_run _ _ _ _ _ _ (F _ Ow)) by ender.
    fixed (@nil frame) LBetween (@nil frame) (@nil token).
    rewrite Hb. unfold impl_header, crate_path, w. do 3 f_equal. repeat (rewrite <- ?app_assoc; cbn [app]). reflexivity. }
  rewrite (run_end _ _ _ E). reflexivity.
Qed.
End Header.

(** ** The bodies *)
Definition from_body_tokens (vals : list token) : list token :=
  [TkGroup DBrace (from_signature ++ [TkGroup DBrace (
    [TkIdent (B "if"); TkIdent (B "let")] ++
    call_path [B "crate"; B "Value"; B "Object"] [TkIdent (B "mut"); TkIdent (B "obj")] ++
    [TkPunct x3d; TkIdent (B "val");
     TkGroup DBrace (
       [TkIdent (B "let"); TkIdent (B "ret"); TkPunct x3d; TkIdent (B "Self"); TkGroup DBrace vals; TkPunct x3b] ++
       [TkIdent (B "if"); TkPunct x21; TkIdent (B "obj")] ++ method_call (B "is_empty") [] ++ [TkGroup DBrace return_none] ++
       [TkIdent (B "Some"); TkGroup DParen [TkIdent (B "ret")]]);
     TkIdent (B "else"); TkGroup DBrace [TkIdent (B "None")]])])].
Definition from_tuple_body (vals : list token) : list token :=
  [TkGroup DBrace (from_signature ++ [TkGroup DBrace (
    [TkIdent (B "if"); TkIdent (B "let")] ++
    call_path [B "crate"; B "Value"; B "Array"] [TkIdent (B "arr")] ++
    [TkPunct x3d; TkIdent (B "val");
     TkGroup DBrace (
       let_mut (B "it") (TkIdent (B "arr") :: method_call (B "into_iter") []) ++
       [TkIdent (B "let"); TkIdent (B "ret"); TkPunct x3d; TkIdent (B "Self"); TkGroup DParen vals; TkPunct x3b] ++
       [TkIdent (B "if"); TkIdent (B "it")] ++ method_call (B "next") [] ++ method_call (B "is_some") [] ++
       [TkGroup DBrace return_none] ++
       [TkIdent (B "Some"); TkGroup DParen [TkIdent (B "ret")]]);
     TkIdent (B "else"); TkGroup DBrace [TkIdent (B "None")]])])].
Definition to_body_tokens (ctor : str) (v : str) (new : list token) (vals : list token) : list token :=
  [TkGroup DBrace (to_signature ++ [TkGroup DBrace (
    let_mut v new ++ vals ++ [TkIdent (B "Some"); TkGroup DParen (call_path [B "crate"; B "Value"; ctor] [TkIdent v])])])].

(** One fixed piece at the end of the text *)
Lemma piece_end top0 s st top x' : run LBetween (top0 ++ [(DNone, [])]) s = Some (st, top ++ [(DNone, x')]) ->
  forall d x fs, run LBetween (top0 ++ (d, x) :: fs) s = Some (st, top ++ (d, x ++ x') :: fs).
Proof.
  intros E d x fs. rewrite <- (app_nil_r s). rewrite (piece _ _ _ _ _ E). reflexivity.
Qed.

Lemma from_braces_body fields x : Forall ident_text fields ->
  run LBetween [(DNone, x)] (B "{fn from_json(val: crate::Value) -> Option<Self> {if let crate::Value::Object(mut obj) = val {let ret = Self {" ++
    flat_map (fun f => f ++ B ": crate::FromJSON::from_json(obj.remove(" ++ debug_str DebugNew f ++ B ")?)?,") fields ++
    B "};if !obj.is_empty() {return None;}Some(ret)} else {None}}}") =
  Some (LBetween, [(DNone, x ++ from_body_tokens (from_vals fields))]).
Proof.
  intro H. set (fr := [(DBrace, [TkIdent (B "let"); TkIdent (B "ret"); TkPunct x3d; TkIdent (B "Self")]);
    (DBrace, [TkIdent (B "if"); TkIdent (B "let")] ++ call_path [B "crate"; B "Value"; B "Object"] [TkIdent (B "mut"); TkIdent (B "obj")] ++ [TkPunct x3d; TkIdent (B "val")]);
    (DBrace, from_signature)]).
  match goal with |- run _ _ (?s ++ ?r) = _ => rewrite (piece [] s LBetween ((DBrace, []) :: fr) [] eq_refl DNone x [] r : run LBetween [(DNone, x)] _ = _) end.
  cbn [app]. rewrite from_vals_run by auto. cbn [app]. rewrite app_nil_r. generalize (from_vals fields). intro v.
  match goal with |- run _ _ ?s = _ => exact (piece_end ((DBrace, v) :: fr) s LBetween [] (from_body_tokens v) eq_refl DNone x []) end.
Qed.
Lemma from_parens_body n x :
  run LBetween [(DNone, x)] (B "{fn from_json(val: crate::Value) -> Option<Self> {if let crate::Value::Array(arr) = val {let mut it = arr.into_iter();" ++
    x0a :: B "                let ret = Self (" ++
    concat (repeat (B "crate::FromJSON::from_json(it.next()?)?,") n) ++
    B ");if it.next().is_some() {return None;}Some(ret)} else {None}}}") =
  Some (LBetween, [(DNone, x ++ from_tuple_body (from_tuple_vals n))]).
Proof.
  set (fr := [(DBrace, let_mut (B "it") (TkIdent (B "arr") :: method_call (B "into_iter") []) ++ [TkIdent (B "let"); TkIdent (B "ret"); TkPunct x3d; TkIdent (B "Self")]);
    (DBrace, [TkIdent (B "if"); TkIdent (B "let")] ++ call_path [B "crate"; B "Value"; B "Array"] [TkIdent (B "arr")] ++ [TkPunct x3d; TkIdent (B "val")]);
    (DBrace, from_signature)]).
  match goal with |- run _ _ (?s ++ ?b :: ?s2 ++ ?r) = _ =>
    change (s ++ b :: s2 ++ r) with ((s ++ b :: s2) ++ r); rewrite (piece [] (s ++ b :: s2) LBetween ((DParen, []) :: fr) [] eq_refl DNone x [] r : run LBetween [(DNone, x)] _ = _) end.
  cbn [app]. rewrite from_tuple_run by auto. cbn [app]. rewrite app_nil_r. generalize (from_tuple_vals n). intro v.
  match goal with |- run _ _ ?s = _ => exact (piece_end ((DParen, v) :: fr) s LBetween [] (from_tuple_body v) eq_refl DNone x []) end.
Qed.
Lemma to_braces_body fields x : Forall ident_text fields ->
  run LBetween [(DNone, x)] (B "{fn to_json(self) -> Option<crate::Value> {let mut obj = std::collections::HashMap::new();" ++
    flat_map (fun f => B "obj.insert(" ++ debug_str DebugNew f ++ B ".to_owned(), crate::ToJSON::to_json(self." ++ f ++ B ")?);") fields ++
    B "Some(crate::Value::Object(obj))}}") =
  Some (LBetween, [(DNone, x ++ to_body_tokens (B "Object") (B "obj") (call_path [B "std"; B "collections"; B "HashMap"; B "new"] []) (to_vals fields))]).
Proof.
  intro H. set (lm := let_mut (B "obj") (call_path [B "std"; B "collections"; B "HashMap"; B "new"] [])).
  match goal with |- run _ _ (?s ++ ?r) = _ => rewrite (piece [] s LBetween [(DBrace, lm); (DBrace, to_signature)] [] eq_refl DNone x [] r : run LBetween [(DNone, x)] _ = _) end.
  cbn [app]. rewrite to_vals_run by auto. rewrite app_nil_r. unfold to_body_tokens. fold lm. rewrite app_assoc. generalize (lm ++ to_vals fields). intro v.
  change (B "Some(crate::Value::Object(obj))}}") with (B "Some(crate::Value::Object(obj))" ++ B "}}").
  rewrite (piece [] (B "Some(crate::Value::Object(obj))") LBetween [] [TkIdent (B "Some"); TkGroup DParen (call_path [B "crate"; B "Value"; B "Object"] [TkIdent (B "obj")])] eq_refl
    DBrace v [(DBrace, to_signature); (DNone, x)] (B "}}") : run LBetween ((DBrace, v) :: [(DBrace, to_signature); (DNone, x)]) _ = _).
  cbn [app]. match goal with |- run _ ((_, ?y) :: _) _ = _ => generalize y end. intro y.
  match goal with |- run _ _ ?s = _ => exact (piece_end [(DBrace, y); (DBrace, to_signature)] s LBetween [] [TkGroup DBrace (to_signature ++ [TkGroup DBrace y])] eq_refl DNone x []) end.
Qed.
Lemma to_parens_body n x :
  run LBetween [(DNone, x)] (B "{fn to_json(self) -> Option<crate::Value> {let mut arr = Vec::new();" ++
    flat_map (fun i => B "arr.push(crate::ToJSON::to_json(self." ++ show_N (N.of_nat i) ++ B ")?);") (seq 0 n) ++
    B "Some(crate::Value::Array(arr))}}") =
  Some (LBetween, [(DNone, x ++ to_body_tokens (B "Array") (B "arr") (call_path [B "Vec"; B "new"] []) (to_tuple_vals 0 n))]).
Proof.
  set (lm := let_mut (B "arr") (call_path [B "Vec"; B "new"] [])).
  match goal with |- run _ _ (?s ++ ?r) = _ => rewrite (piece [] s LBetween [(DBrace, lm); (DBrace, to_signature)] [] eq_refl DNone x [] r : run LBetween [(DNone, x)] _ = _) end.
  cbn [app]. rewrite to_tuple_run by auto. rewrite app_nil_r. unfold to_body_tokens. fold lm. rewrite app_assoc. generalize (lm ++ to_tuple_vals 0 n). intro v.
  change (B "Some(crate::Value::Array(arr))}}") with (B "Some(crate::Value::Array(arr))" ++ B "}}").
  rewrite (piece [] (B "Some(crate::Value::Array(arr))") LBetween [] [TkIdent (B "Some"); TkGroup DParen (call_path [B "crate"; B "Value"; B "Array"] [TkIdent (B "arr")])] eq_refl
    DBrace v [(DBrace, to_signature); (DNone, x)] (B "}}") : run LBetween ((DBrace, v) :: [(DBrace, to_signature); (DNone, x)]) _ = _).
  cbn [app]. match goal with |- run _ ((_, ?y) :: _) _ = _ => generalize y end. intro y.
  match goal with |- run _ _ ?s = _ => exact (piece_end [(DBrace, y); (DBrace, to_signature)] s LBetween [] [TkGroup DBrace (to_signature ++ [TkGroup DBrace y])] eq_refl DNone x []) end.
Qed.

(** ** Declarations *)
Definition loop_inv (s : derive_state) (toks : list token) : Prop :=
  Forall ordinary (ds_gen s) /\ Forall ordinary (ds_where s) /\ Forall ident_text (ds_generics s) /\ ~ starts_word (ds_gen s) /\
  (ds_in_where s = true \/ ds_gen s <> [] \/ ds_level s = 0%Z /\ name_alone toks).
Lemma starts_word_app a b : a <> [] -> ~ starts_word a -> ~ starts_word (a ++ b).
Proof. destruct a as [|[ | | | ] a]; cbn; auto; contradiction. Qed.
Lemma ordinary_ident_inv i : ordinary (TkIdent i) -> ident_text i.
Proof. intro H. inversion H. assumption. Qed.
Lemma ds_track_fields s t : ds_gen (ds_track s t) = ds_gen s /\ ds_where (ds_track s t) = ds_where s /\ ds_in_where (ds_track s t) = ds_in_where s /\
  (ordinary t -> Forall ident_text (ds_generics s) -> Forall ident_text (ds_generics (ds_track s t))).
Proof.
  unfold ds_track. destruct ((if is_punct x3c t then ds_level s + 1 else ds_level s) =? 1)%Z; cbn.
  2:{ auto. }
  destruct (ds_is_gen_name s).
  - destruct t; cbn; repeat split; auto. intros O H. apply Forall_app. split; auto. constructor; auto. apply ordinary_ident_inv, O.
  - destruct (is_punct x2c t); cbn; auto.
Qed.
Definition ordinary_result (r : derive_result) : Prop :=
  match r with
  | DrBraces body info | DrParens body info => Forall ordinary body /\ ordinary_info info
  | DrCompileError => True
  end.
Lemma extend_inv s t rest : ordinary t -> Forall ordinary (ds_gen s) /\ Forall ordinary (ds_where s) /\ Forall ident_text (ds_generics s) ->
  ~ starts_word (ds_gen s) -> (ds_in_where s = true \/ ds_gen s <> [] \/ ~ starts_word [t]) -> loop_inv (ds_extend s t) rest.
Proof.
  intros Ot (Hg & Hw & Hn) Hs D. unfold loop_inv, ds_extend. destruct (ds_in_where s) eqn:E; cbn.
  - repeat split; auto. apply Forall_app. auto.
  - repeat split; auto; [apply Forall_app; auto| |right; left; destruct (ds_gen s); discriminate].
    destruct D as [D|[D|D]]; [discriminate|apply starts_word_app; auto|]. destruct (ds_gen s) eqn:G; [exact D|]. apply starts_word_app; [discriminate|auto].
Qed.
Lemma derive_loop_info toks : forall s name r, ordinary name -> Forall ordinary toks -> loop_inv s toks ->
  derive_loop name s toks = Done r -> ordinary_result r.
Proof.
  induction toks as [|t toks IH]; intros s name r On H (Hg & Hw & Hn & Hs & D); cbn [derive_loop]; [discriminate|].
  apply Forall_cons_iff in H. destruct H as [Ot H]. destruct (ds_track_fields s t) as (E1 & E2 & E3 & E4). specialize (E4 Ot Hn).
  assert (X : Forall ordinary (ds_gen (ds_track s t)) /\ Forall ordinary (ds_where (ds_track s t)) /\ Forall ident_text (ds_generics (ds_track s t)))
    by (rewrite E1, E2; auto).
  assert (D' : (ds_level (ds_track s t) <> 0%Z \/ is_word (B "where") t = false) ->
    ds_in_where (ds_track s t) = true \/ ds_gen (ds_track s t) <> [] \/ ~ starts_word [t]).
  { intro N. rewrite E1, E3. destruct D as [D|[D|[L A]]]; auto. right; right. destruct t as [w|c|q|d l]; cbn in *; auto.
    subst w. destruct N as [N|N]; [|discriminate]. exfalso. apply N. unfold ds_track. cbn [is_punct]. rewrite L. reflexivity. }
  destruct (negb (ds_level (ds_track s t) =? 0)%Z) eqn:El.
  { apply IH; auto. apply extend_inv; auto; [rewrite E1; auto|]. apply D'. left. apply negb_true_iff, Z.eqb_neq in El. exact El. }
  assert (R : forall body, Forall ordinary body -> Forall ordinary body /\ ordinary_info (StructInfo name (ds_gen (ds_track s t)) (ds_where (ds_track s t)) (ds_generics (ds_track s t)))).
  { intros body Hb. split; auto. destruct X as (X1 & X2 & X3). repeat split; auto. cbn. rewrite E1. exact Hs. }
  assert (W : derive_loop name (if is_word (B "where") t
     then DeriveState (ds_gen (ds_track s t)) (ds_where (ds_track s t)) true (ds_level (ds_track s t)) (ds_generics (ds_track s t)) (ds_is_gen_name (ds_track s t))
     else ds_extend (ds_track s t) t) toks = Done r -> ordinary_result r).
  { apply IH; auto. destruct (is_word (B "where") t) eqn:Ew.
    - destruct X as (X1 & X2 & X3). repeat split; cbn; auto. rewrite E1. exact Hs.
    - apply extend_inv; auto. rewrite E1; auto. }
  destruct t as [w|c|q|d l].
  - destruct (is_word (B "where") (TkIdent w)); exact W.
  - exact W.
  - exact W.
  - destruct d; try exact W; intros [= <-]; cbn; apply R; inversion Ot; auto.
Qed.
Lemma after_struct_at pre rest : ~ In (TkIdent (B "struct")) pre -> after_struct (pre ++ TkIdent (B "struct") :: rest) = Some rest.
Proof.
  induction pre as [|t pre IH]; intro N; [reflexivity|]. cbn [app]. assert (~ In (TkIdent (B "struct")) pre) by (intro; apply N; right; auto).
  destruct t as [w| | | ]; cbn [after_struct]; auto. destruct (seqb w (B "struct")) eqn:E; auto. apply seqb_eq in E. destruct N. left. congruence.
Qed.
Lemma after_struct_none toks : ~ In (TkIdent (B "struct")) toks -> after_struct toks = None.
Proof.
  induction toks as [|t pre IH]; intro N; [reflexivity|]. assert (~ In (TkIdent (B "struct")) pre) by (intro; apply N; right; auto).
  destruct t as [w| | | ]; cbn [after_struct]; auto. destruct (seqb w (B "struct")) eqn:E; auto. apply seqb_eq in E. destruct N. left. congruence.
Qed.
Lemma brace_fields_idents l : Forall ordinary l -> forall b, Forall ident_text (brace_fields b l).
Proof.
  induction 1 as [|t l Ot _ IH]; intro b; cbn [brace_fields]; [constructor|]. destruct t as [w|c|q|d g]; auto.
  - destruct b; auto. constructor; auto. apply ordinary_ident_inv, Ot.
  - destruct (beqb c x2c); auto.
Qed.
Lemma trait_names : ident_text (B "FromJSON") /\ ident_text (B "ToJSON").
Proof.
  split; [exists x46, (B "romJSON")|exists x54, (B "oJSON")]; (split; [byte_lia|]); (split; [repeat constructor; byte_lia|left; reflexivity]).
Qed.

Section Derives.
Context (print : list token -> str) (F : reparses print).
Lemma results_read r : ordinary_result r ->
  match r with
  | DrBraces body info => fromjson_braces print body info = Done (from_braces_tokens (brace_fields true body) info) /\
                          tojson_braces print body info = Done (to_braces_tokens (brace_fields true body) info)
  | DrParens body info => fromjson_parens print body info = Done (from_parens_tokens (paren_fields true body) info) /\
                          tojson_parens print body info = Done (to_parens_tokens (paren_fields true body) info)
  | DrCompileError => True
  end.
Proof.
  destruct trait_names as [N1 N2]. destruct r as [body info|body info|]; cbn [ordinary_result]; auto; intros [Ob Oi]; split.
  - unfold fromjson_braces, from_braces_tokens. apply impl_reads; auto. intro x. apply from_braces_body, brace_fields_idents, Ob.
  - unfold tojson_braces, to_braces_tokens. apply impl_reads; auto. intro x. apply to_braces_body, brace_fields_idents, Ob.
  - unfold fromjson_parens, from_parens_tokens. apply impl_reads; auto. intro x. apply from_parens_body.
  - unfold tojson_parens, to_parens_tokens. apply impl_reads; auto. intro x. apply to_parens_body.
Qed.
Lemma derives_read pre name rest : ~ In (TkIdent (B "struct")) pre -> ordinary name -> Forall ordinary rest -> name_alone rest ->
  let decl := pre ++ TkIdent (B "struct") :: name :: rest in
  derive_from_json_text print decl = derive_from_json decl /\ derive_to_json_text print decl = derive_to_json decl.
Proof.
  intros N On Or A decl. unfold derive_from_json_text, derive_to_json_text, derive_from_json, derive_to_json, decl, handled, handle_derive. rewrite after_struct_at by auto.
  destruct (derive_loop name _ rest) as [r|] eqn:E; [|split; reflexivity].
  assert (R : ordinary_result r).
  { eapply derive_loop_info; [exact On|exact Or| |exact E]. repeat split; cbn; auto. }
  apply results_read in R. cbn [obind]. destruct r as [body info|body info|]; auto.
Qed.
Lemma derives_others toks : ~ In (TkIdent (B "struct")) toks ->
  derive_from_json_text print toks = derive_from_json toks /\ derive_to_json_text print toks = derive_to_json toks.
Proof.
  intro N. unfold derive_from_json_text, derive_to_json_text, derive_from_json, derive_to_json, handled, handle_derive. rewrite after_struct_none by auto.
  split; reflexivity.
Qed.
Lemma derives_no_body pre name rest : ~ In (TkIdent (B "struct")) pre ->
  Forall (fun t => forall g, t <> TkGroup DBrace g /\ t <> TkGroup DParen g) rest ->
  let decl := pre ++ TkIdent (B "struct") :: name :: rest in
  derive_from_json decl = Panic /\ derive_to_json decl = Panic /\ derive_from_json_text print decl = Panic /\ derive_to_json_text print decl = Panic.
Proof.
  intros N HF decl. unfold derive_from_json_text, derive_to_json_text, derive_from_json, derive_to_json, decl, handled, handle_derive. rewrite after_struct_at by auto.
  assert (E : forall s, derive_loop name s rest = Panic).
  { induction HF as [|t rest Ht _ IH]; intro s; [reflexivity|]. cbn [derive_loop]. destruct (negb _); [apply IH|].
    destruct t as [w|c|r|[] g]; try (destruct (is_word _ _); apply IH); destruct (Ht g) as [H1 H2]; congruence. }
  rewrite E. repeat split; reflexivity.
Qed.
End Derives.

(** ** A printer *)
Lemma run_space s ts d : run LBetween [(DNone, [])] (s ++ [x20]) = Some (LBetween, [(d, ts)]) -> parse_tokens s = Some ts.
Proof.
  rewrite run_app, parse_settle. destruct (run LBetween [(DNone, [])] s) as [[st fs]|]; [|discriminate].
  destruct st as [|w|q|q]; cbn [settle]; try discriminate.
  - unfold run. cbn. intros [= ->]. reflexivity.
  - destruct fs as [|[d0 x] fs]; [discriminate|]. rewrite word_ends by (try reflexivity; left; discriminate). unfold run. cbn. intros [= -> <- ->]. reflexivity.
Qed.
Lemma mark_run c d x fs r : In c marks -> run LBetween ((d, x) :: fs) (c :: r) = run LBetween ((d, x ++ [TkPunct c]) :: fs) r.
Proof.
  intro H. unfold run. cbn [lex_run].
  assert (E : lex_step LBetween c = ([LMark c], LBetween) /\ opens c = None /\ closes c = None).
  { assert (K : forallb (fun c => match lex_step LBetween c with ([LMark c'], LBetween) => beqb c' c | _ => false end &&
      match opens c, closes c with None, None => true | _, _ => false end) marks = true) by reflexivity.
    rewrite forallb_forall in K. specialize (K c H). apply andb_true_iff in K. destruct K as [K1 K2].
    destruct (opens c), (closes c); try discriminate. destruct (lex_step LBetween c) as [[|[| |c'] [|? ?]] [| | | ]]; try discriminate.
    apply beqb_eq in K1. subst c'. auto. }
  destruct E as (E1 & E2 & E3). rewrite E1. destruct (lex_run LBetween r) as [l st]. cbn [app group_run group_step]. rewrite E2, E3. reflexivity.
Qed.
Lemma space_run d x fs r : run LBetween ((d, x) :: fs) (x20 :: r) = run LBetween ((d, x) :: fs) r.
Proof. unfold run. cbn [lex_run]. change (lex_step LBetween x20) with (@nil lexeme, LBetween). cbv iota beta. destruct (lex_run LBetween r). reflexivity. Qed.
Lemma token_run t : ordinary t -> forall d x fs r, ends_word r -> run LBetween ((d, x) :: fs) (print_token t ++ r) = run LBetween ((d, x ++ [t]) :: fs) r.
Proof.
  revert t. fix IH 1. intros t O d x fs r E. destruct t as [s|c|s|g l]; cbn [print_token].
  - cbn [app]. rewrite space_run. apply ident_run; auto. apply ordinary_ident_inv, O.
  - cbn [app]. rewrite space_run. apply mark_run. inversion O; auto.
  - cbn [app]. rewrite space_run. inversion O as [| |? L|]; subst. destruct L as [(q & Q & ->)|(b & q & Hb & Hq & ->)].
    + apply literal_then, Q.
    + cbn [app]. rewrite run_first by (apply letter_word; auto). rewrite (run_word q Hq [b]). cbn [app].
      destruct r as [|c r]; [contradiction|]. destruct E as [W N]. rewrite word_ends by auto. cbn [word_token]. unfold digit in Hb.
      replace ((48 <=? bN b) && (bN b <=? 57))%N with true; [reflexivity|]. symmetry. apply andb_true_iff. rewrite !N.leb_le. lia.
  - inversion O as [| | |? ? Hd Hl]; subst.
    assert (L : forall d x fs r, ends_word r -> run LBetween ((d, x) :: fs) (flat_map print_token l ++ r) = run LBetween ((d, x ++ l) :: fs) r).
    { clear - IH Hl. induction l as [|t l IHl]; intros d x fs r E; [rewrite app_nil_r; reflexivity|]. apply Forall_cons_iff in Hl. destruct Hl as [Ht Hl].
      cbn [flat_map]. rewrite <- app_assoc. rewrite IH; auto.
      - rewrite IHl by auto. rewrite <- app_assoc. reflexivity.
      - destruct l as [|t' l]; [exact E|]. destruct t' as [ | | |[| | | ]]; ender. }
    assert (G : forall o c, (match lex_step LBetween o with ([LMark o'], LBetween) => opens o' = Some g | _ => False end) ->
      (match lex_step LBetween c with ([LMark c'], LBetween) => opens c' = None /\ closes c' = Some g | _ => False end) -> delim_eqb g g = true ->
      run LBetween ((d, x) :: fs) ((x20 :: o :: flat_map print_token l ++ [x20; c]) ++ r) = run LBetween ((d, x ++ [TkGroup g l]) :: fs) r).
    { intros o c Ho Hc Eg. cbn [app]. rewrite space_run. rewrite <- app_assoc. cbn [app].
      transitivity (run LBetween ((g, []) :: (d, x) :: fs) (flat_map print_token l ++ x20 :: c :: r)).
      { unfold run. cbn [lex_run]. destruct (lex_step LBetween o) as [[|[| |o'] [|? ?]] [| | | ]]; try contradiction.
        destruct (lex_run LBetween _) as [k st]. cbn [app group_run group_step]. rewrite Ho. reflexivity. }
      rewrite L by ender. rewrite space_run. unfold run. cbn [lex_run]. destruct (lex_step LBetween c) as [[|[| |c'] [|? ?]] [| | | ]]; try contradiction.
      destruct (lex_run LBetween r) as [k st]. cbn [app group_run group_step]. destruct Hc as [-> ->]. rewrite Eg. reflexivity. }
    destruct g; [apply G; cbn; auto|apply G; cbn; auto|apply G; cbn; auto|contradiction].
Qed.
Lemma spaced_reparses : reparses print_spaced.
Proof.
  intros ts H. apply run_space with (d := DNone). unfold print_spaced.
  assert (L : forall x, run LBetween [(DNone, x)] (flat_map print_token ts ++ [x20]) = Some (LBetween, [(DNone, x ++ ts)])).
  { induction H as [|t l Ht Hl IHl]; intro x; [rewrite app_nil_r; reflexivity|]. cbn [flat_map]. rewrite <- app_assoc. rewrite token_run; auto.
    - rewrite IHl, <- app_assoc. reflexivity.
    - destruct l as [|t' l]; [ender|]. destruct t' as [ | | |[| | | ]]; ender. }
  apply (L []).
Qed.
