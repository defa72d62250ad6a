(** Proofs for Props/StatusProps.v: the expansion of [status_codes!]. *)
From Verif.Model Require Import RustStd Macros Status DeriveText StatusText.
From Verif.Spec Require Import MacroSpec RustLang ResponseSpec TokenText EnumLang.
From Verif.Proofs Require Import Basics DeriveProofs DeriveTextProofs.
From Verif.Proofs Require ResponseProofs ConformProofs.

(** ** Names *)
Definition camel_on (up : bool) (w : str) : str := if up then camel w else map lower (filter is_alpha w).
Lemma words_cons s : exists w ws, words s = w :: ws.
Proof. destruct s as [|b r]; cbn [words]; [eauto|]. destruct (beqb b x20); [eauto|]. destruct (words r); eauto. Qed.
Lemma pascal_fold s : forall ret up w ws, words s = w :: ws ->
  fst (fold_left pascal_step s (ret, up)) = ret ++ camel_on up w ++ concat (map camel ws).
Proof.
  induction s as [|b s IH]; intros ret up w ws E; cbn [words] in E.
  - injection E as <- <-. cbn. destruct up; rewrite !app_nil_r; reflexivity.
  - cbn [fold_left]. unfold pascal_step at 2. change SP with x20. destruct (beqb b x20) eqn:Eb.
    + injection E as <- <-. destruct (words_cons s) as (w' & ws' & E'). rewrite (IH ret true w' ws' E'), E'. cbn [map concat].
      destruct up; reflexivity.
    + destruct (words_cons s) as (w' & ws' & E'). rewrite E' in E. injection E as <- <-.
      destruct (is_alpha b) eqn:Ea; cbn [negb].
      * rewrite (IH _ false w' ws' E'). rewrite <- app_assoc. f_equal. unfold camel_on, camel. cbn [filter]. rewrite Ea. destruct up; reflexivity.
      * rewrite (IH _ up w' ws' E'). unfold camel_on, camel. cbn [filter]. rewrite Ea. reflexivity.
Qed.
Lemma pascal_name s : pascal_case s = variant_name s.
Proof. unfold pascal_case, variant_name. destruct (words_cons s) as (w & ws & E). etransitivity; [apply (pascal_fold s [] true w ws E)|]. rewrite E. reflexivity. Qed.
Lemma upper_letter b : is_alpha b = true -> letter (upper b) /\ is_alpha (upper b) = true.
Proof. revert b. assert (K : forall b, (if is_alpha b then (let n := bN (upper b) in (97 <=? n) && (n <=? 122) || (65 <=? n) && (n <=? 90))%N && is_alpha (upper b) else true) = true).
  { intro b. destruct b; reflexivity. }
  intros b A. specialize (K b). rewrite A in K. apply andb_true_iff in K as [K1 K2]. split; auto. unfold letter.
  apply orb_true_iff in K1. destruct K1 as [K1|K1]; apply andb_true_iff in K1 as [K3 K4]; rewrite N.leb_le in *; lia.
Qed.
Lemma lower_letter b : is_alpha b = true -> letter (lower b).
Proof. revert b. assert (K : forall b, (if is_alpha b then (let n := bN (lower b) in (97 <=? n) && (n <=? 122) || (65 <=? n) && (n <=? 90))%N else true) = true).
  { intro b. destruct b; reflexivity. }
  intros b A. specialize (K b). rewrite A in K. unfold letter.
  apply orb_true_iff in K. destruct K as [K1|K1]; apply andb_true_iff in K1 as [K3 K4]; rewrite N.leb_le in *; lia.
Qed.
Lemma variant_letters s : Forall letter (variant_name s).
Proof.
  unfold variant_name. induction (words s) as [|w ws IH]; cbn [map concat]; [constructor|]. apply Forall_app. split; auto.
  unfold camel. assert (F : Forall (fun b => is_alpha b = true) (filter is_alpha w)) by (apply Forall_forall; intros b Hb; apply filter_In in Hb; tauto).
  destruct F as [|c cs Hc Hcs]; constructor; [apply upper_letter; auto|].
  apply Forall_map. eapply Forall_impl; [|exact Hcs]. intros b Hb. apply lower_letter; auto.
Qed.
Lemma variant_nonempty s : Exists (fun b => is_alpha b = true) s -> variant_name s <> [].
Proof.
  unfold variant_name. intro H. assert (W : Exists (Exists (fun b => is_alpha b = true)) (words s)).
  { induction s as [|b s IH]; [inversion H|]. cbn [words]. destruct (words_cons s) as (w & ws & E). rewrite E in *.
    inversion H as [? ? Hb|? ? Hs]; subst.
    - destruct (beqb b x20) eqn:Eb; [apply beqb_eq in Eb; subst b; discriminate|]. left. left. exact Hb.
    - specialize (IH Hs). destruct (beqb b x20); [right; exact IH|]. inversion IH; subst; [left; right; assumption|right; assumption]. }
  clear H. induction W as [w ws Hw|w ws _ IH]; cbn [map concat].
  - unfold camel. destruct (filter is_alpha w) as [|c cs] eqn:F; [|discriminate]. exfalso. apply Exists_exists in Hw. destruct Hw as (b & Hb & A).
    assert (In b (filter is_alpha w)) as X by (apply filter_In; auto). rewrite F in X. exact X.
  - destruct (camel w); [exact IH|discriminate].
Qed.
Lemma variant_ident s : Exists (fun b => is_alpha b = true) s -> ident_text (variant_name s).
Proof.
  intro H. apply variant_nonempty in H. pose proof (variant_letters s) as L. destruct (variant_name s) as [|b r]; [contradiction|].
  apply Forall_cons_iff in L as [Lb Lr]. exists b, r. split; auto. split; auto. eapply Forall_impl; [|exact Lr]. auto.
Qed.

(** ** The loop *)
Lemma loop_literals toks : forall b p es en, codes_loop b p es en toks = codes_loop b p es en (map TkLit (literals toks)).
Proof.
  induction toks as [|t toks IH]; intros b p es en; [reflexivity|]. destruct t as [w|c|r|d g]; cbn [codes_loop literals flat_map app map]; try apply IH.
  destruct b; cbn [negb].
  - destruct (inner_text r) as [name|]; cbn [obind]; auto. destruct (extend_text en _) as [e1|]; cbn [obind]; auto.
    destruct (new_ident _) as [i|]; cbn [obind]; auto.
  - destruct (unwrap (parse_i32 r)) as [v|]; cbn [obind]; auto.
Qed.
Lemma code_parses r n : code_text r n -> parse_i32 r = Some (Z.of_N n).
Proof.
  intros (NE & D & V & M). assert (P : parse_uint 2147483647 r = Some n).
  { pose proof (TrimProofs.parse_uint_spec 2147483647 r) as S. destruct (parse_uint 2147483647 r) as [m|].
    - destruct S as (ds & E & _ & Dd & Vd & _). destruct E as [-> | ->]; [congruence|]. destruct (TrimProofs.plus_not_digit ds D).
    - specialize (S r (or_introl eq_refl) NE D). lia. }
  unfold parse_i32. rewrite P. destruct r as [|c r]; [contradiction|]. destruct c; try reflexivity.
  exfalso. apply Forall_cons_iff in D as [D _]. unfold is_digit in D. change (bN x2d) with 45%N in D. lia.
Qed.
Definition triple (e : entry) : Z * str * str := (Z.of_N (e_code e), e_phrase e, variant_name (e_phrase e)).
Definition hidden : list token := [TkPunct x23; TkGroup DBracket [TkIdent (B "doc"); TkGroup DParen [TkIdent (B "hidden")]]].
Definition variant_tokens (e : entry) : list token := hidden ++ [TkIdent (variant_name (e_phrase e)); TkPunct x2c].
Lemma inner_quoted s : inner_text ([x22] ++ s ++ [x22]) = Done s.
Proof.
  unfold inner_text. rewrite !app_length. cbn [length]. destruct (Nat.ltb_spec (1 + (length s + 1)) 2) as [X|X].
  - lia.
  - cbn [app skipn]. replace (1 + (length s + 1) - 2) with (length s) by lia. rewrite firstn_app, firstn_all, Nat.sub_diag. cbn [firstn]. rewrite app_nil_r. reflexivity.
Qed.
Lemma loop_entries l tail : Forall entry_ok l -> (tail = [] \/ exists r n, code_text r n /\ tail = [r]) -> forall p es en,
  codes_loop false p es en (map TkLit (flat_map entry_literals l ++ tail)) = Done (es ++ map triple l, en ++ flat_map variant_tokens l).
Proof.
  intros H T. induction H as [|e l (Hc & Hp & Hn) _ IH]; intros p es en.
  - rewrite !app_nil_r. destruct T as [-> | (r & n & C & ->)]; cbn [flat_map app map codes_loop negb]; [reflexivity|].
    rewrite (code_parses r n C). reflexivity.
  - cbn [flat_map entry_literals app map codes_loop negb]. rewrite (code_parses _ _ Hc). cbn [unwrap obind].
    rewrite (inner_quoted (e_phrase e) : inner_text (x22 :: e_phrase e ++ [x22]) = _). cbn [obind]. rewrite pascal_name.
    destruct Hp as [Hp Hl]. apply variant_nonempty in Hl. unfold new_ident.
    change (extend_text en (B "#[doc(hidden)]")) with (Done (en ++ hidden)). cbn [obind].
    destruct (variant_name (e_phrase e)) as [|b r] eqn:E; [contradiction|]. cbn [obind]. rewrite IH. unfold triple at 2, variant_tokens at 2. rewrite E.
    rewrite <- !app_assoc. reflexivity.
Qed.

(** ** The arms *)
Definition arm_tokens (e : entry) : list token :=
  [TkIdent (B "StatusCode"); TkPunct x3a; TkPunct x3a; TkIdent (variant_name (e_phrase e)); TkPunct x3d; TkPunct x3e;
   TkGroup DParen [TkLit (show_N (e_code e)); TkPunct x2c; TkLit ([x22] ++ e_phrase e ++ [x22])]; TkPunct x2c].
Lemma phrase_debug s : phrase_text s -> debug_str DebugNew s = x22 :: s ++ [x22] /\ quoted s.
Proof.
  intros [H _]. unfold debug_str. cbn [app]. split.
  - do 2 f_equal. induction H as [|b s (Hr & N1 & N2) _ IH]; auto. cbn [flat_map]. rewrite IH. change (b :: s) with ([b] ++ s). f_equal.
    unfold debug_byte. destruct (beqb b x22) eqn:E1; [apply beqb_eq in E1; contradiction|]. destruct (beqb b x5c) eqn:E2; [apply beqb_eq in E2; contradiction|].
    cbn [escapes_quote short_nul]. rewrite andb_false_r, andb_true_r. destruct (beqb b x09) eqn:E3; [apply beqb_eq in E3; subst b; change (bN x09) with 9%N in Hr; lia|].
    destruct (beqb b x0a) eqn:E4; [apply beqb_eq in E4; subst b; change (bN x0a) with 10%N in Hr; lia|].
    destruct (beqb b x0d) eqn:E5; [apply beqb_eq in E5; subst b; change (bN x0d) with 13%N in Hr; lia|].
    destruct (beqb b x00) eqn:E6; [apply beqb_eq in E6; subst b; change (bN x00) with 0%N in Hr; lia|].
    destruct (N.ltb_spec (bN b) 32); [lia|]. destruct (N.eqb_spec (bN b) 127); [lia|]. reflexivity.
  - induction H as [|b s (Hr & N1 & N2) _ IH]; constructor; auto.
Qed.
Lemma show_Z_N n : show_Z (Z.of_N n) = show_N n.
Proof. destruct n; reflexivity. Qed.
Lemma arm_parses e : entry_ok e ->
  parse_tokens (B "StatusCode::" ++ variant_name (e_phrase e) ++ B " => (" ++ show_Z (Z.of_N (e_code e)) ++ B ", " ++ debug_str DebugNew (e_phrase e) ++ B "),") = Some (arm_tokens e).
Proof.
  intros (Hc & Hp & Hn). apply run_end with (d := DNone). destruct (phrase_debug _ Hp) as [-> Q].
  pose proof (variant_ident _ (proj2 Hp)) as I. rewrite show_Z_N.
  fixed (@nil frame) LBetween (@nil frame) [TkIdent (B "StatusCode"); TkPunct x3a; TkPunct x3a].
  rewrite ident_run by (auto; ender).
  fixed (@nil frame) LBetween [(DParen, @nil token)] [TkPunct x3d; TkPunct x3e].
  rewrite number_run by ender.
  fixed (@nil frame) LBetween (@nil frame) [TkPunct x2c].
  rewrite literal_then by auto. cbn [app]. unfold arm_tokens. cbn [app]. generalize (show_N (e_code e)), (variant_name (e_phrase e)), (e_phrase e).
  intros a b c. reflexivity.
Qed.
Lemma arms_entries l : Forall entry_ok l -> forall m, codes_arms (map triple l) m = Done (m ++ flat_map arm_tokens l).
Proof.
  induction 1 as [|e l He _ IH]; intro m; cbn [map codes_arms flat_map]; [rewrite app_nil_r; reflexivity|]. unfold triple at 1.
  unfold extend_text. rewrite arm_parses by auto. cbn [unwrap obind]. rewrite IH, <- app_assoc. reflexivity.
Qed.

(** ** Reading *)
Lemma pieces_last {A} (it : A -> list token) l last : (forall x, Forall (fun t => is_comma t = false) (it x)) -> (forall x, it x <> []) ->
  Forall (fun t => is_comma t = false) last -> last <> [] ->
  forall n, length l < n -> pieces n (flat_map (fun x => it x ++ [COMMA]) l ++ last) = map it l ++ [last].
Proof.
  intros C NE CL NL. induction l as [|x l IH]; intros n Hn; destruct n as [|n]; try (cbn in Hn; lia); cbn [flat_map map app].
  - cbn [pieces]. destruct last as [|t r] eqn:E; [contradiction|]. rewrite <- E in *.
    assert (B0 : before is_comma last = (last, [])).
    { clear - CL. induction CL as [|t r Ht _ IHr]; [reflexivity|]. cbn [before]. rewrite Ht, IHr. reflexivity. }
    rewrite B0. cbn [tl]. destruct n; reflexivity.
  - cbn [pieces]. rewrite <- !app_assoc. cbn [app].
    destruct (it x ++ COMMA :: flat_map (fun x => it x ++ [COMMA]) l ++ last) as [|t r] eqn:E.
    { destruct (NE x). destruct (it x); auto; discriminate. }
    rewrite <- E, before_app by auto. cbn [tl]. rewrite IH by (cbn in Hn; lia). reflexivity.
Qed.
Lemma first_upper s b r : variant_name s = b :: r -> is_upper b = true.
Proof.
  unfold variant_name. induction (words s) as [|w ws IH]; cbn [map concat]; [discriminate|]. unfold camel at 1.
  destruct (filter is_alpha w) as [|c cs] eqn:F; [exact IH|]. cbn [app]. intros [= <- _].
  assert (A : is_alpha c = true) by (assert (In c (filter is_alpha w)) as X by (rewrite F; left; auto); apply filter_In in X; tauto).
  destruct c; try discriminate; reflexivity.
Qed.
Lemma variant_is_name s : variant_name s <> B "Self" -> is_name (variant_name s) = true.
Proof.
  intro N. unfold is_name. destruct (existsb (seqb (variant_name s)) keywords) eqn:E; auto. exfalso.
  apply existsb_exists in E. destruct E as (k & Hk & E). apply seqb_eq in E. rewrite E in N.
  destruct (variant_name s) as [|b r] eqn:V.
  - subst k. cbn in Hk. repeat (destruct Hk as [Hk|Hk]; [discriminate|]). exact Hk.
  - pose proof (first_upper s b r V) as U. subst k. cbn in Hk.
    repeat (destruct Hk as [Hk|Hk]; [try (injection Hk as <- <-; discriminate); try (apply N; rewrite <- Hk; reflexivity)|]). exact Hk.
Qed.
Definition other_payload : list (list token) := [[TkIdent (B "i32")]; static_str].
Definition other_variant : list token := hidden ++ [TkIdent (B "Other"); TkGroup DParen (TkIdent (B "i32") :: TkPunct x2c :: static_str)].
Lemma variants_read l : Forall entry_ok l ->
  read_variants (flat_map variant_tokens l ++ other_variant) = Some (map (fun e => (variant_name (e_phrase e), [])) l ++ [(B "Other", other_payload)]).
Proof.
  intro H. unfold read_variants.
  set (it := fun e => hidden ++ [TkIdent (variant_name (e_phrase e))]).
  replace (flat_map variant_tokens l) with (flat_map (fun e => it e ++ [COMMA]) l)
    by (apply flat_map_ext; intro e; unfold it, variant_tokens; rewrite <- app_assoc; reflexivity).
  rewrite pieces_last.
  - rewrite map_app. cbn [map]. induction H as [|e l (Hc & Hp & Hn) _ IH]; [reflexivity|]. cbn [map app all]. rewrite IH.
    unfold it, read_variant. generalize (variant_is_name _ Hn). generalize (variant_name (e_phrase e)). intros v E. cbn. rewrite E. reflexivity.
  - intro e. unfold it. repeat constructor.
  - intro e. discriminate.
  - repeat constructor.
  - discriminate.
  - rewrite app_length. assert (length l <= length (flat_map (fun e => it e ++ [COMMA]) l)); [|cbn [length other_variant hidden app]; lia].
    clear. induction l as [|e l IH]; [auto|]. cbn [flat_map]. rewrite app_length. unfold it at 1. cbn [length hidden app]. lia.
Qed.
Definition other_arm : list token :=
  [TkIdent (B "StatusCode"); TkPunct x3a; TkPunct x3a; TkIdent (B "Other"); TkGroup DParen [TkIdent (B "n"); TkPunct x2c; TkIdent (B "s")];
   TkPunct x3d; TkPunct x3e; TkGroup DParen [TkPunct x2a; TkIdent (B "n"); TkPunct x2c; TkIdent (B "s")]].
Definition arm_of (e : entry) : arm :=
  Arm (B "StatusCode") (variant_name (e_phrase e)) [] [[TkLit (show_N (e_code e))]; [TkLit ([x22] ++ e_phrase e ++ [x22])]].
Definition arm_other : arm := Arm (B "StatusCode") (B "Other") [B "n"; B "s"] [[TkPunct x2a; TkIdent (B "n")]; [TkIdent (B "s")]].
Lemma arms_read l : read_arms (flat_map arm_tokens l ++ other_arm) = Some (map arm_of l ++ [arm_other]).
Proof.
  unfold read_arms.
  set (it := fun e => [TkIdent (B "StatusCode"); TkPunct x3a; TkPunct x3a; TkIdent (variant_name (e_phrase e)); TkPunct x3d; TkPunct x3e;
    TkGroup DParen [TkLit (show_N (e_code e)); TkPunct x2c; TkLit ([x22] ++ e_phrase e ++ [x22])]]).
  change (flat_map arm_tokens l) with (flat_map (fun e => it e ++ [COMMA]) l).
  rewrite pieces_last.
  - rewrite map_app. cbn [map]. induction l as [|e l IH]; [reflexivity|]. cbn [map app all]. rewrite IH.
    unfold it, arm_of. generalize (variant_name (e_phrase e)), (show_N (e_code e)), (e_phrase e). intros v n p. reflexivity.
  - intro e. unfold it. repeat constructor.
  - intro e. discriminate.
  - repeat constructor.
  - discriminate.
  - rewrite app_length. assert (length l <= length (flat_map (fun e => it e ++ [COMMA]) l)); [|cbn [length other_arm app]; lia].
    clear. induction l as [|e l IH]; [auto|]. cbn [flat_map]. rewrite app_length. unfold it at 1. cbn [length app]. lia.
Qed.
Lemma component_number env n : component env [TkLit (show_N n)] = Some (SInt (Z.of_N n)).
Proof.
  destruct (ResponseProofs.show_N_decimal n) as (NE & D & V & _). unfold component. destruct (show_N n) as [|c r]; [contradiction|].
  assert (F : forallb (fun b => (48 <=? bN b) && (bN b <=? 57))%N (c :: r) = true).
  { apply forallb_forall. intros b Hb. rewrite Forall_forall in D. specialize (D b Hb). unfold is_digit in D. apply andb_true_iff. rewrite !N.leb_le. lia. }
  rewrite F, V. destruct c; try reflexivity. discriminate.
Qed.
Lemma component_phrase env s : phrase_text s -> component env [TkLit ([x22] ++ s ++ [x22])] = Some (SText s).
Proof.
  intros [H _]. unfold component. cbn [app]. unfold read_text. rewrite rev_app_distr. cbn [rev app].
  replace (existsb (fun b => beqb b x22 || beqb b x5c) (rev s)) with false; [rewrite rev_involutive; reflexivity|]. symmetry.
  destruct (existsb _ (rev s)) eqn:E; auto. apply existsb_exists in E. destruct E as (b & Hb & E). apply in_rev in Hb.
  rewrite Forall_forall in H. destruct (H b Hb) as (_ & N1 & N2). apply orb_true_iff in E. destruct E as [E|E]; apply beqb_eq in E; contradiction.
Qed.
Lemma matches_other l n s : matches (map arm_of l ++ [arm_other]) (B "StatusCode") (B "Other") [SInt n; SText s] = Some [SInt n; SText s].
Proof. induction l as [|e l IH]; [reflexivity|]. cbn [map app matches]. unfold arm_of at 1. cbn [a_enum a_variant a_binders length]. rewrite !andb_false_r. exact IH. Qed.
Lemma matches_entry l e : NoDup (map (fun e => variant_name (e_phrase e)) l) -> Forall entry_ok l -> In e l ->
  matches (map arm_of l ++ [arm_other]) (B "StatusCode") (variant_name (e_phrase e)) [] = Some [SInt (Z.of_N (e_code e)); SText (e_phrase e)].
Proof.
  intros ND H He. induction l as [|e' l IH]; [contradiction|]. cbn [map app matches]. apply Forall_cons_iff in H as [H' H].
  inversion ND as [|? ? N0 ND']; subst.
  change (a_enum (arm_of e')) with (B "StatusCode"). change (a_variant (arm_of e')) with (variant_name (e_phrase e')).
  change (a_binders (arm_of e')) with (@nil str). change (seqb (B "StatusCode") (B "StatusCode")) with true. cbn [andb length].
  destruct (seqb (variant_name (e_phrase e')) (variant_name (e_phrase e))) eqn:E; cbn [andb Nat.eqb].
  - apply seqb_eq in E. assert (e' = e) as <-.
    { destruct He as [He|He]; auto. exfalso. apply N0. rewrite E. apply in_map_iff. exists e. auto. }
    unfold arm_of. cbn [a_result map combine all]. rewrite component_number, component_phrase by apply H'. reflexivity.
  - destruct He as [-> |He]; [|auto]. rewrite seqb_refl in E. discriminate.
Qed.
Lemma expands toks l tail : literals toks = flat_map entry_literals l ++ tail -> (tail = [] \/ exists r n, code_text r n /\ tail = [r]) -> Forall entry_ok l ->
  status_codes toks = Done (enum_decl (flat_map variant_tokens l ++ other_variant) ++ fetch_impl (flat_map arm_tokens l ++ other_arm)).
Proof.
  intros E T H. unfold status_codes. rewrite loop_literals, E, (loop_entries l tail H T). cbn [obind app]. 
  change (extend_text (flat_map variant_tokens l) (B "#[doc(hidden)] Other(i32, &'static str)")) with (Done (flat_map variant_tokens l ++ other_variant)). cbn [obind].
  rewrite (arms_entries l H).
  change (extend_text [] (B "#[derive(Debug, Clone, Copy, PartialEq, Eq)] pub enum StatusCode")) with (Done (removelast (enum_decl []))). cbn [obind app].
  change (extend_text (flat_map arm_tokens l) (B "StatusCode::Other(n, s) => (*n, s)")) with (Done (flat_map arm_tokens l ++ other_arm)). cbn [obind].
  generalize (flat_map variant_tokens l ++ other_variant), (flat_map arm_tokens l ++ other_arm). intros v a. reflexivity.
Qed.

(** ** Rejected tables *)
Lemma loop_prefix l rest : Forall entry_ok l -> forall p es en, exists p' es' en',
  codes_loop false p es en (map TkLit (flat_map entry_literals l ++ rest)) = codes_loop false p' es' en' (map TkLit rest).
Proof.
  intros H. induction H as [|e l (Hc & Hp & Hn) _ IH]; intros p es en; [exists p, es, en; reflexivity|].
  cbn [flat_map entry_literals app map codes_loop negb]. rewrite (code_parses _ _ Hc). cbn [unwrap obind].
  rewrite (inner_quoted (e_phrase e) : inner_text (x22 :: e_phrase e ++ [x22]) = _). cbn [obind]. rewrite pascal_name.
  destruct Hp as [Hp Hl]. apply variant_nonempty in Hl. unfold new_ident.
  change (extend_text en (B "#[doc(hidden)]")) with (Done (en ++ hidden)). cbn [obind].
  destruct (variant_name (e_phrase e)) as [|b r] eqn:E; [contradiction|]. cbn [obind]. apply IH.
Qed.
Lemma not_a_number r : (forall n, ~ code_text r n) -> (forall r', r <> x2b :: r' /\ r <> x2d :: r') -> parse_i32 r = None.
Proof.
  intros N S. assert (P : parse_uint 2147483647 r = None).
  { pose proof (TrimProofs.parse_uint_spec 2147483647 r) as Q. destruct (parse_uint 2147483647 r) as [m|]; auto. exfalso.
    destruct Q as (ds & [-> | ->] & NE & D & V & L); [apply (N m); repeat split; auto|]. destruct (S ds); auto. }
  unfold parse_i32. rewrite P. destruct r as [|c r]; [reflexivity|]. destruct c; try reflexivity. destruct (S r) as [_ X]. destruct X. reflexivity.
Qed.
Lemma rejects_number toks l r rest : literals toks = flat_map entry_literals l ++ r :: rest -> Forall entry_ok l ->
  (forall n, ~ code_text r n) -> (forall r', r <> x2b :: r' /\ r <> x2d :: r') -> status_codes toks = Panic.
Proof.
  intros E H N S. unfold status_codes. rewrite loop_literals, E. destruct (loop_prefix l (r :: rest) H (-1)%Z [] []) as (p & es & en & ->).
  cbn [map codes_loop negb]. rewrite not_a_number by auto. reflexivity.
Qed.
Lemma no_letters s : Forall (fun b => is_alpha b = false) s -> variant_name s = [].
Proof.
  intro H. unfold variant_name. assert (W : Forall (Forall (fun b => is_alpha b = false)) (words s)).
  { induction H as [|b s Hb _ IH]; cbn [words]; [repeat constructor|]. destruct (words_cons s) as (w & ws & E). rewrite E in *.
    apply Forall_cons_iff in IH as [I1 I2]. destruct (beqb b x20); repeat constructor; auto. }
  induction W as [|w ws Hw _ IH]; [reflexivity|]. cbn [map concat]. rewrite IH, app_nil_r. unfold camel.
  replace (filter is_alpha w) with (@nil byte); auto. clear - Hw. induction Hw as [|b w Hb _ IH]; auto. cbn [filter]. rewrite Hb. exact IH.
Qed.
Lemma rejects_phrase toks l r n q rest : literals toks = flat_map entry_literals l ++ r :: q :: rest -> Forall entry_ok l -> code_text r n ->
  Forall (fun b => is_alpha b = false) q -> status_codes toks = Panic.
Proof.
  intros E H C Q. unfold status_codes. rewrite loop_literals, E. destruct (loop_prefix l (r :: q :: rest) H (-1)%Z [] []) as (p & es & en & ->).
  cbn [map codes_loop negb]. rewrite (code_parses r n C). cbn [unwrap obind]. unfold inner_text. destruct (Nat.ltb_spec (length q) 2); cbn [obind]; [reflexivity|].
  rewrite pascal_name, no_letters.
  - destruct (extend_text en (B "#[doc(hidden)]")); reflexivity.
  - rewrite Forall_forall in *. intros b Hb. apply Q. rewrite <- (firstn_skipn 1 q). apply in_or_app. right.
    rewrite <- (firstn_skipn (length q - 2) (skipn 1 q)). apply in_or_app. left. exact Hb.
Qed.

(** ** Everything *)
Lemma expansion toks l tail : literals toks = flat_map entry_literals l ++ tail -> (tail = [] \/ exists r n, code_text r n /\ tail = [r]) ->
  Forall entry_ok l ->
  exists body arms ars, status_codes toks = Done (enum_decl body ++ fetch_impl arms) /\
  read_variants body = Some (map (fun e => (variant_name (e_phrase e), [])) l ++ [(B "Other", [[TkIdent (B "i32")]; static_str])]) /\
  read_arms arms = Some ars /\
  (NoDup (map (fun e => variant_name (e_phrase e)) l) -> forall e, In e l ->
   matches ars (B "StatusCode") (variant_name (e_phrase e)) [] = Some [SInt (Z.of_N (e_code e)); SText (e_phrase e)]) /\
  forall n s, matches ars (B "StatusCode") (B "Other") [SInt n; SText s] = Some [SInt n; SText s].
Proof.
  intros E T H. do 3 eexists. split; [apply (expands toks l tail E T H)|]. split; [apply variants_read; auto|].
  split; [apply arms_read|]. split; [intros; apply matches_entry; auto|intros; apply matches_other].
Qed.
Lemma table_expansion :
  exists body arms ars, status_codes (map source_token status_source) = Done (enum_decl body ++ fetch_impl arms) /\
  read_variants body = Some (map (fun p => (snd p, [])) all_status ++ [(B "Other", [[TkIdent (B "i32")]; static_str])]) /\
  read_arms arms = Some ars /\
  forall c name, In (c, name) all_status ->
  matches ars (B "StatusCode") name [] = Some [SInt (fst (status_fetch c)); SText (snd (status_fetch c))].
Proof.
  destruct (status_codes (map source_token status_source)) as [out|] eqn:E; vm_compute in E; [injection E as <-|discriminate].
  do 3 eexists. split; [reflexivity|]. split; [vm_compute; reflexivity|]. split; [vm_compute; reflexivity|].
  intros c name H. repeat (destruct H as [H|H]; [injection H as <- <-; vm_compute; reflexivity|]). destruct H.
Qed.
