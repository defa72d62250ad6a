(** The debug text of any string, against its specification. *)
From Verif.Model Require Import RustStd Path Request Time Status Response DebugChars.
From Verif.Spec Require Import Common TextSpec LiteralSpec ClientSpec DebugSpec.
From Verif.Proofs Require Import Basics TextProofs Utf8 TrimProofs QueryExtra LiteralProofs ClientProofs.

(** ** Hexadecimal numbers *)
Definition digit_val (b : byte) : N := (if bN b <? 97 then bN b - 48 else bN b - 87)%N.
Lemma digit_val_lt b : small_hex b -> (digit_val b < 16)%N.
Proof. unfold small_hex, digit_val. intro H. destruct (N.ltb_spec (bN b) 97); lia. Qed.
Lemma digit_val_inj b b' : small_hex b -> small_hex b' -> digit_val b = digit_val b' -> b = b'.
Proof.
  unfold small_hex, digit_val. intros H H' E. apply bN_inj. destruct (N.ltb_spec (bN b) 97), (N.ltb_spec (bN b') 97); lia.
Qed.
Lemma digit_of n : (n < 16)%N -> small_hex (hex_digit n) /\ digit_val (hex_digit n) = n /\ (n <> 0%N -> hex_digit n <> x30).
Proof.
  intro L. unfold hex_digit, digit_val, small_hex. destruct (N.ltb_spec n 10).
  - rewrite !bN_byte_of by lia. split; [lia|]. destruct (N.ltb_spec (48 + n) 97); [|lia]. split; [lia|].
    intros Z E. apply (f_equal bN) in E. rewrite bN_byte_of in E by lia. change (bN x30) with 48%N in E. lia.
  - rewrite !bN_byte_of by lia. split; [lia|]. destruct (N.ltb_spec (87 + n) 97); [lia|]. split; [lia|].
    intros Z E. apply (f_equal bN) in E. rewrite bN_byte_of in E by lia. change (bN x30) with 48%N in E. lia.
Qed.
Lemma hex_value_snoc t b : hex_value (t ++ [b]) = (16 * hex_value t + digit_val b)%N.
Proof. unfold hex_value. rewrite fold_left_app. reflexivity. Qed.
Lemma hex_value_pos t : Forall small_hex t -> t <> [] -> hd x00 t <> x30 -> (0 < hex_value t)%N.
Proof.
  induction t as [|b t IH] using rev_ind; [congruence|]. intros F _ H. rewrite hex_value_snoc.
  apply Forall_app in F as [F Fb]. inversion Fb as [|? ? Sb _]; subst. destruct t as [|a t].
  - cbn [app hd] in H. enough (digit_val b <> 0%N) by lia. intro Z. apply H.
    unfold small_hex in Sb. unfold digit_val in Z. apply bN_inj. change (bN x30) with 48%N.
    destruct (N.ltb_spec (bN b) 97); lia.
  - enough (0 < hex_value (a :: t))%N by lia. apply IH; [exact F|discriminate|exact H].
Qed.
Lemma hex_unique n t t' : hex_text n t -> hex_text n t' -> t = t'.
Proof.
  assert (K : forall t t', Forall small_hex t -> Forall small_hex t' -> hex_value t = hex_value t' ->
    (t = [] \/ hd x00 t <> x30) -> (t' = [] \/ hd x00 t' <> x30) -> t = t').
  { clear. induction t as [|b t IH] using rev_ind; intros t' F F' E H H'.
    - destruct H' as [->|H']; [reflexivity|]. destruct t' as [|a t']; [reflexivity|].
      pose proof (hex_value_pos _ F' ltac:(discriminate) H') as P. rewrite <- E in P. vm_compute in P. discriminate.
    - destruct H as [H|H]; [destruct t; discriminate H|].
      pose proof (hex_value_pos _ F ltac:(destruct t; discriminate) H) as P.
      destruct t' as [|b' t' _] using rev_ind; [rewrite E in P; vm_compute in P; discriminate|].
      destruct H' as [H'|H']; [destruct t'; discriminate H'|].
      apply Forall_app in F as [F Fb], F' as [F' Fb']. inversion Fb as [|? ? Sb _]; inversion Fb' as [|? ? Sb' _]; subst.
      rewrite !hex_value_snoc in E. pose proof (digit_val_lt _ Sb). pose proof (digit_val_lt _ Sb').
      f_equal; [|f_equal; apply digit_val_inj; auto; lia].
      apply IH; auto; [lia|destruct t; [left; reflexivity|right; exact H]|destruct t'; [left; reflexivity|right; exact H']]. }
  intros (N1 & F & V & Z) (N2 & F' & V' & Z').
  destruct Z as [->|Z], Z' as [->|Z']; auto.
  - pose proof (hex_value_pos _ F' N2 Z') as P. rewrite V', <- V in P. vm_compute in P. discriminate.
  - pose proof (hex_value_pos _ F N1 Z) as P. rewrite V, <- V' in P. vm_compute in P. discriminate.
  - apply K; auto. congruence.
Qed.
Lemma hex_digits_S f n : hex_digits (S f) n = if (n <? 16)%N then [hex_digit n] else hex_digits f (n / 16) ++ [hex_digit (n mod 16)].
Proof. reflexivity. Qed.
Lemma hex_digits_text f n : (n < 16 ^ N.of_nat (S f))%N -> hex_text n (hex_digits (S f) n).
Proof.
  revert n. induction f as [|f IH]; intros n L; rewrite hex_digits_S; destruct (N.ltb_spec n 16) as [Q|Q].
  1,3: destruct (digit_of n Q) as (S1 & S2 & S3); split; [discriminate|]; split; [auto|]; split;
       [change [hex_digit n] with ([] ++ [hex_digit n]); rewrite hex_value_snoc; unfold hex_value; cbn [fold_left]; lia|];
       destruct (N.eq_dec n 0) as [->|Z]; [left; reflexivity|right; exact (S3 Z)].
  - cbn in L. lia.
  - assert (D : (n = 16 * (n / 16) + n mod 16 /\ n mod 16 < 16)%N) by (split; [apply N.div_mod'; lia|apply N.mod_lt; lia]).
    destruct (IH (n / 16)%N) as (T & F & V & Z).
    { rewrite Nat2N.inj_succ, N.pow_succ_r' in L. apply N.div_lt_upper_bound; [lia|exact L]. }
    destruct (digit_of (n mod 16) (proj2 D)) as (S1 & S2 & _).
    split; [intro X; apply app_eq_nil in X as [_ X]; discriminate X|]. split; [apply Forall_app; auto|].
    split; [rewrite hex_value_snoc, V, S2; lia|]. right.
    assert (G : hd x00 (hex_digits (S f) (n / 16)) <> x30).
    { destruct Z as [Z|Z]; [|exact Z]. rewrite Z in V. change (hex_value (B "0")) with 0%N in V. exfalso. lia. }
    destruct (hex_digits (S f) (n / 16)); [congruence|exact G].
Qed.
Lemma show_hex_text c : scalar c -> hex_text c (show_hex c).
Proof. intro S. apply hex_digits_text. change (16 ^ N.of_nat 6)%N with 16777216%N. unfold scalar in S. lia. Qed.

(** ** Characters *)
(** What one character becomes. *)
Lemma small_forms d c : (c < 128)%N ->
  (map bN (debug_byte d (byte_of_N c)) = [c] /\ c <> 92%N) \/
  (exists x, map bN (debug_byte d (byte_of_N c)) = [92%N; x] /\ x <> 117%N /\ (x < 128)%N) \/
  map bN (debug_byte d (byte_of_N c)) = map bN (B "\u{" ++ show_hex c ++ B "}").
Proof.
  intro L. rewrite <- (N2Nat.id c) in *. assert (M : N.to_nat c < 128) by lia. revert M. generalize (N.to_nat c) as n. clear.
  intros n M. do 128 (destruct n as [|n];
    [destruct d; solve [left; split; [reflexivity|discriminate]
                       |right; left; eexists; split; [reflexivity|split; [discriminate|reflexivity]]
                       |right; right; reflexivity]|]). lia.
Qed.
Lemma escape_forms d esc c :
  (escape_char d esc c = [c] /\ c <> 92%N) \/
  (exists x, escape_char d esc c = [92%N; x] /\ x <> 117%N /\ (c < 128)%N) \/
  escape_char d esc c = map bN (B "\u{" ++ show_hex c ++ B "}").
Proof.
  unfold escape_char. destruct (N.ltb_spec c 128) as [L|L].
  - destruct (small_forms d c L) as [X|[(x & E & D & _)|X]]; [auto|right; left; exists x; auto|auto].
  - destruct (esc c); [auto|]. left. split; [reflexivity|lia].
Qed.
Lemma until_same {A} (z : A) a a' s s' : ~ In z a -> ~ In z a' -> a ++ z :: s = a' ++ z :: s' -> a = a' /\ s = s'.
Proof.
  revert a'. induction a as [|x a IH]; intros [|x' a'] H H' E; cbn [app] in E.
  - injection E as ->. auto.
  - injection E as -> _. destruct H'. left. reflexivity.
  - injection E as -> _. destruct H. left. reflexivity.
  - injection E as -> E. destruct (IH a') with (3 := E) as [-> ->]; [intro X; apply H; right; exact X|intro X; apply H'; right; exact X|auto].
Qed.
Lemma map_bN_inj a b : map bN a = map bN b -> a = b.
Proof.
  revert b. induction a as [|x a IH]; intros [|y b] E; cbn [map] in E; try discriminate; [reflexivity|].
  injection E as E1 E. apply bN_inj in E1. subst. f_equal. auto.
Qed.
Lemma hex_no_brace c : scalar c -> ~ In 125%N (map bN (show_hex c)).
Proof.
  intros S X. destruct (show_hex_text c S) as (_ & F & _). apply in_map_iff in X as (b & E & X).
  rewrite Forall_forall in F. specialize (F b X). unfold small_hex in F. lia.
Qed.
Lemma escape_prefix d esc c c' s s' : scalar c -> scalar c' ->
  escape_char d esc c ++ s = escape_char d esc c' ++ s' -> c = c' /\ s = s'.
Proof.
  intros S S' E.
  destruct (escape_forms d esc c) as [[E1 D1]|[(x & E1 & D1 & L1)|E1]],
           (escape_forms d esc c') as [[E2 D2]|[(x' & E2 & D2 & L2)|E2]]; pose proof E as E0; rewrite E1, E2 in E.
  - injection E as -> ->. auto.
  - injection E as E _. congruence.
  - injection E as E _. congruence.
  - injection E as E _. congruence.
  - injection E as <- ->. split; [|reflexivity].
    assert (Q : map bN (debug_byte d (byte_of_N c)) = map bN (debug_byte d (byte_of_N c'))).
    { unfold escape_char in E1, E2. apply N.ltb_lt in L1, L2. rewrite L1 in E1. rewrite L2 in E2. congruence. }
    apply map_bN_inj in Q. assert (P : byte_of_N c = byte_of_N c').
    { apply (escapes_prefix_free d). rewrite Q. clear. induction (debug_byte d (byte_of_N c')) as [|y l IH]; [reflexivity|].
      cbn [is_pre]. rewrite beqb_refl. exact IH. }
    apply (f_equal bN) in P. rewrite !bN_byte_of in P by lia. exact P.
  - injection E as E _. congruence.
  - injection E as E _. congruence.
  - injection E as E _. congruence.
  - rewrite !map_app, <- !app_assoc in E. apply app_inv_head in E.
    change (map bN (B "}")) with [125%N] in E. cbn [app] in E.
    apply until_same in E as [E ->]; auto using hex_no_brace. split; [|reflexivity]. apply map_bN_inj in E.
    destruct (show_hex_text c S) as (_ & _ & V & _), (show_hex_text c' S') as (_ & _ & V' & _). congruence.
Qed.
Lemma escape_nonempty d esc c : escape_char d esc c <> [].
Proof. destruct (escape_forms d esc c) as [[-> _]|[(x & -> & _)| ->]]; discriminate. Qed.
Lemma escape_inj d esc cs cs' : Forall scalar cs -> Forall scalar cs' ->
  flat_map (escape_char d esc) cs = flat_map (escape_char d esc) cs' -> cs = cs'.
Proof.
  intro F. revert cs'. induction F as [|c cs S F IH]; intros [|c' cs'] F' E; cbn [flat_map] in E; [reflexivity| | |].
  - symmetry in E. apply app_eq_nil in E as [E _]. destruct (escape_nonempty _ _ _ E).
  - apply app_eq_nil in E as [E _]. destruct (escape_nonempty _ _ _ E).
  - inversion F' as [|? ? S' F'']; subst. apply escape_prefix in E as [-> E]; auto. f_equal. auto.
Qed.
Lemma bytes_scalar s : Forall scalar (map bN s).
Proof. induction s; constructor; auto. unfold scalar. pose proof (bN_lt a). lia. Qed.
Lemma escape_scalar d esc c : scalar c -> Forall scalar (escape_char d esc c).
Proof. intro S. unfold escape_char. destruct (c <? 128)%N; [apply bytes_scalar|]. destruct (esc c); [apply bytes_scalar|auto]. Qed.
Lemma escapes_scalar d esc cs : Forall scalar cs -> Forall scalar (flat_map (escape_char d esc) cs).
Proof. induction 1; [constructor|]. cbn [flat_map]. apply Forall_app. auto using escape_scalar. Qed.
(** Different texts have different debug texts. *)
Lemma debug_any_inj d esc f f' : utf8_valid f = true -> utf8_valid f' = true -> debug_any d esc f = debug_any d esc f' -> f = f'.
Proof.
  intros V V' E. unfold debug_any in E. apply app_inv_head, app_inv_tail in E.
  destruct (of_chars_chars f V) as [C F], (of_chars_chars f' V') as [C' F']. rewrite <- C, <- C'. f_equal.
  apply (f_equal chars) in E. rewrite !chars_of_chars in E by (apply escapes_scalar; assumption).
  eapply escape_inj; eauto.
Qed.

(** ** The text *)
Definition escape_bytes (d : debug_style) (esc : N -> bool) (c : N) : str :=
  if (c <? 128)%N then debug_byte d (byte_of_N c)
  else if esc c then B "\u{" ++ show_hex c ++ B "}" else encode_char c.
Lemma debug_byte_ascii d b : (bN b < 128)%N -> Forall (fun x => (bN x < 0x80)%N) (debug_byte d b).
Proof. intro L. destruct d, b; try (exfalso; vm_compute in L; congruence); repeat constructor. Qed.
Lemma hex_ascii c : scalar c -> Forall (fun x => (bN x < 0x80)%N) (B "\u{" ++ show_hex c ++ B "}").
Proof.
  intro S. apply Forall_app. split; [repeat constructor|]. apply Forall_app. split; [|repeat constructor].
  destruct (show_hex_text c S) as (_ & F & _). eapply Forall_impl; [|exact F]. unfold small_hex. intros b X. lia.
Qed.
Lemma escape_bytes_of d esc c : scalar c -> of_chars (escape_char d esc c) = escape_bytes d esc c.
Proof.
  intro S. unfold escape_char, escape_bytes. destruct (N.ltb_spec c 128) as [L|L].
  - apply of_chars_ascii, debug_byte_ascii. rewrite bN_byte_of; lia.
  - destruct (esc c); [apply of_chars_ascii, hex_ascii, S|]. unfold of_chars. cbn [flat_map]. apply app_nil_r.
Qed.
Lemma debug_any_bytes d esc cs : Forall scalar cs ->
  of_chars (flat_map (escape_char d esc) cs) = flat_map (escape_bytes d esc) cs.
Proof.
  induction 1 as [|c cs S F IH]; [reflexivity|]. cbn [flat_map]. rewrite <- IH, <- escape_bytes_of by exact S.
  unfold of_chars. apply flat_map_app.
Qed.
Lemma debug_any_of d esc cs f : utf8_text cs f -> debug_any d esc f = [x22] ++ flat_map (escape_bytes d esc) cs ++ [x22].
Proof.
  intro T. pose proof (proj1 (utf8_text_iff cs f) T) as [F _]. apply chars_iff in T as [_ C].
  unfold debug_any. rewrite C, debug_any_bytes by exact F. reflexivity.
Qed.
Lemma escape_written d esc c : scalar c -> written_wide d esc c (escape_bytes d esc c).
Proof.
  intro S. unfold escape_bytes. destruct (N.ltb_spec c 128) as [L|L].
  - replace c with (bN (byte_of_N c)) at 1 by (apply bN_byte_of; lia). apply WideAscii; [rewrite bN_byte_of; lia|].
    rewrite debug_byte_esc. apply esc_of_written.
  - destruct (esc c) eqn:X; [apply WideHidden|apply WideShown]; auto using show_hex_text, encode_utf8_char.
Qed.
Lemma written_wide_fun d esc c t t' : scalar c -> written_wide d esc c t -> written_wide d esc c t' -> t = t'.
Proof.
  intros S W W'. destruct W as [b t L W|c t L X U|c t L X H].
  - inversion W' as [b' u L' W2 Eb|c' u L'|c' u L']; subst; try lia. apply bN_inj in Eb. subst. eapply written_char_fun; eauto.
  - inversion W' as [b' u L' W2 Eb|c' u L' X' U'|c' u L' X']; subst; try lia; try congruence.
    rewrite (utf8_char_encode c t S U), (utf8_char_encode c t' S U'). reflexivity.
  - inversion W' as [b' u L' W2 Eb|c' u L' X' U'|c' u L' X' H']; subst; try lia; try congruence.
    do 2 f_equal. eapply hex_unique; eauto.
Qed.
Lemma any_written d esc cs f : utf8_text cs f -> forall t, written_text d esc cs t <-> t = debug_any d esc f.
Proof.
  intros T t. rewrite (debug_any_of d esc cs f T). apply utf8_text_iff in T as [F _].
  assert (P : Forall2 (written_wide d esc) cs (map (escape_bytes d esc) cs)).
  { clear -F. induction F; cbn [map]; constructor; auto using escape_written. }
  rewrite flat_map_concat_map. split; [|intros ->; eexists; split; [exact P|reflexivity]].
  intros (parts & Q & ->). f_equal. f_equal. f_equal. revert parts Q. clear -F P.
  induction F as [|c cs S F IH]; intros parts Q; inversion Q; subst; [reflexivity|]. cbn [map] in *. inversion P; subst.
  f_equal; [eapply written_wide_fun; eauto|auto].
Qed.

(** ** Reading it back *)
Definition shown_char (d : debug_style) (esc : N -> bool) (c : N) : str :=
  if (c <? 128)%N then shown d (byte_of_N c)
  else if esc c then B "u{" ++ show_hex c ++ B "}" else encode_char c.
Lemma plain_quoted q : Forall (fun b => b <> x22 /\ b <> x5c) q -> quoted_text q q.
Proof. induction 1 as [|b q [X Y] F IH]; [constructor|apply QuotedChar; auto]. Qed.
Lemma wide_bytes c : scalar c -> (128 <= c)%N -> Forall (fun b => (128 <= bN b)%N) (encode_char c).
Proof.
  intros S L. pose proof (encode_utf8_char c S) as U. revert L. destruct U; intro L; repeat constructor; lia.
Qed.
Lemma shown_char_read d esc c : scalar c -> quoted_text (escape_bytes d esc c) (shown_char d esc c).
Proof.
  intro S. unfold escape_bytes, shown_char. destruct (N.ltb_spec c 128) as [L|L].
  - apply shown_read. rewrite bN_byte_of; lia.
  - destruct (esc c).
    + change (B "\u{" ++ show_hex c ++ B "}") with (x5c :: x75 :: (x7b :: show_hex c ++ B "}")).
      change (B "u{" ++ show_hex c ++ B "}") with (x75 :: (x7b :: show_hex c ++ B "}")).
      apply QuotedPair, plain_quoted. constructor; [split; discriminate|]. apply Forall_app.
      split; [|repeat constructor; discriminate]. destruct (show_hex_text c S) as (_ & F & _).
      eapply Forall_impl; [|exact F]. unfold small_hex. intros b X. split; intros ->; vm_compute in X; intuition congruence.
    + apply plain_quoted. eapply Forall_impl; [|exact (wide_bytes c S L)]. cbn beta. intros b X.
      split; intros ->; vm_compute in X; congruence.
Qed.
Lemma encode_short c : scalar c -> length (encode_char c) <= 4 /\ ((c < 128)%N -> encode_char c = [byte_of_N c]).
Proof.
  intro S. unfold encode_char. destruct (N.ltb_spec c 0x80); [auto|]. split; [|lia].
  destruct (c <? 0x800)%N; [cbn; lia|]. destruct (c <? 0x10000)%N; cbn; lia.
Qed.
Lemma hex_long c : scalar c -> (128 <= c)%N -> 2 <= length (show_hex c).
Proof.
  intros S L. destruct (show_hex_text c S) as (N1 & F & V & _). destruct (show_hex c) as [|a [|b t]]; [congruence| |cbn; lia].
  inversion F as [|? ? Sa _]; subst. pose proof (digit_val_lt a Sa). unfold hex_value in L. cbn [fold_left] in L.
  unfold digit_val in H. lia.
Qed.
Lemma shown_char_long d esc c : scalar c -> length (encode_char c) <= length (shown_char d esc c).
Proof.
  intro S. destruct (encode_short c S) as [E4 E1]. unfold shown_char. destruct (N.ltb_spec c 128) as [L|L].
  - rewrite (E1 L). pose proof (shown_some d (byte_of_N c)). destruct (shown d (byte_of_N c)); [congruence|cbn; lia].
  - destruct (esc c); [|auto]. rewrite !app_length. pose proof (hex_long c S L).
    change (length (B "u{")) with 2. change (length (B "}")) with 1. lia.
Qed.
Lemma shown_char_same d esc c : scalar c -> (shown_char d esc c = encode_char c <-> read_back esc c).
Proof.
  intro S. destruct (encode_short c S) as [E4 E1]. unfold shown_char, read_back. destruct (N.ltb_spec c 128) as [L|L].
  - rewrite (E1 L). assert (V : bN (byte_of_N c) = c) by (apply bN_byte_of; lia). split.
    + intro E. apply shown_same in E; [|lia]. unfold printable in E. lia.
    + intro R. unfold shown. rewrite V. assert (A : ((32 <=? c) && (c <=? 126))%N = true); [|rewrite A; reflexivity].
      apply andb_true_intro. split; apply N.leb_le; lia.
  - destruct (esc c) eqn:X.
    + split; [|intros [R|[_ R]]; [lia|discriminate]]. intro E. apply (f_equal (@length byte)) in E.
      rewrite !app_length in E. pose proof (hex_long c S L).
      change (length (B "u{")) with 2 in E. change (length (B "}")) with 1 in E. lia.
    + split; auto.
Qed.
Lemma pointwise {A} (f g : A -> str) l : Forall (fun x => length (g x) <= length (f x)) l ->
  flat_map f l = flat_map g l -> Forall (fun x => f x = g x) l.
Proof.
  intro F. assert (L : length (flat_map g l) <= length (flat_map f l)).
  { induction F; cbn [flat_map]; rewrite ?app_length; cbn; lia. }
  induction F as [|x l X F IH]; intro E; [constructor|]. cbn [flat_map] in *.
  assert (M : length (flat_map g l) <= length (flat_map f l)).
  { clear -F. induction F; cbn [flat_map]; rewrite ?app_length; cbn; lia. }
  pose proof (f_equal (@length byte) E) as EL. rewrite !app_length in EL.
  assert (length (f x) = length (g x)) as Lx by lia.
  assert (f x = g x /\ flat_map f l = flat_map g l) as [Ex Er].
  { clear -E Lx. revert Lx E. generalize (f x) (g x) (flat_map f l) (flat_map g l). intros a b.
    revert b. induction a as [|y a IH]; intros [|z b] r r' Q E; cbn in Q; try lia; [auto|].
    cbn [app] in E. injection E as -> E. destruct (IH b r r') as [-> ->]; auto. }
  constructor; auto.
Qed.
Lemma any_read d esc cs f : utf8_text cs f -> (quoted_string (debug_any d esc f) f <-> Forall (read_back esc) cs).
Proof.
  intro T. rewrite (debug_any_of d esc cs f T). apply utf8_text_iff in T as [F ->].
  assert (Q : quoted_text (flat_map (escape_bytes d esc) cs) (flat_map (shown_char d esc) cs)).
  { clear -F. induction F; [constructor|]. cbn [flat_map]. apply quoted_app; auto using shown_char_read. }
  split.
  - intros (q & E & R). apply app_inv_head, app_inv_tail in E. subst q. pose proof (quoted_fun _ _ _ Q R) as E.
    apply pointwise in E; [|eapply Forall_impl; [|exact F]; intros c S; apply shown_char_long, S].
    rewrite Forall_forall in *. intros c I0. apply (shown_char_same d esc c); auto.
  - intro R. eexists. split; [reflexivity|]. replace (of_chars cs) with (flat_map (shown_char d esc) cs); [exact Q|].
    unfold of_chars. clear Q. induction F as [|c cs S F IH]; [reflexivity|]. inversion R; subst. cbn [flat_map].
    rewrite IH by assumption. f_equal. apply shown_char_same; auto.
Qed.

(** ** The header *)
Section Header.
Context {cl : cookie_lib}.
Lemma any_disposition w esc f (r : response cl) :
  res_get (B "Content-Disposition") (attachment_with_any_filename w esc f r) =
  Some (B "attachment; filename = " ++ debug_any (dbg_sq w) esc f).
Proof.
  unfold attachment_with_any_filename, res_get, res_set, with_headers. cbn [rs_headers].
  rewrite (mget_mset_other seqb seqb_eq), (mget_mset_same seqb seqb_eq) by discriminate. reflexivity.
Qed.
Theorem any_name w esc cs f (r : response cl) : utf8_text cs f -> exists v,
  res_get (B "Content-Disposition") (attachment_with_any_filename w esc f r) = Some (B "attachment; filename = " ++ v) /\
  (forall t, written_text (dbg_sq w) esc cs t <-> t = v) /\ (quoted_string v f <-> Forall (read_back esc) cs).
Proof.
  intro T. exists (debug_any (dbg_sq w) esc f). split; [apply any_disposition|]. split; [apply any_written, T|apply any_read, T].
Qed.
Theorem any_names_distinct w w' esc f f' (r r' : response cl) : utf8_valid f = true -> utf8_valid f' = true -> dbg_sq w = dbg_sq w' ->
  res_get (B "Content-Disposition") (attachment_with_any_filename w esc f r) =
  res_get (B "Content-Disposition") (attachment_with_any_filename w' esc f' r') -> f = f'.
Proof.
  intros V V' D. rewrite !any_disposition, <- D. intro E. injection E as E. eapply (debug_any_inj (dbg_sq w) esc); eauto.
  unfold debug_any. cbn [app]. f_equal. exact E.
Qed.
Lemma any_ascii d esc f : Forall (fun b => (bN b < 128)%N) f -> debug_any d esc f = debug_str d f.
Proof.
  intro A. assert (T : utf8_text (map bN f) f).
  { apply utf8_text_iff. split; [apply bytes_scalar|]. symmetry. apply of_chars_ascii, A. }
  rewrite (debug_any_of d esc _ _ T). unfold debug_str. do 2 f_equal. clear T. induction A as [|b f L A IH]; [reflexivity|].
  cbn [map flat_map]. rewrite IH. f_equal. unfold escape_bytes. apply N.ltb_lt in L. rewrite L, byte_of_bN. reflexivity.
Qed.
Theorem any_same w esc f (r : response cl) : Forall (fun b => (bN b < 128)%N) f ->
  attachment_with_any_filename w esc f r = attachment_with_filename w f r.
Proof. intro A. unfold attachment_with_any_filename, attachment_with_filename. rewrite any_ascii by exact A. reflexivity. Qed.
End Header.
