(** The texts of the standard library meet their specifications: UTF-8, white space, numbers, letter case. *)
From Verif.Model Require Export RustStd.
From Verif.Proofs Require Export Basics TextProofs Utf8.
From Verif.Spec Require Import TextSpec.
Local Ltac Zify.zify_post_hook ::= Z.to_euclidean_division_equations.

(** ** UTF-8 *)
Lemma utf8_char_encode c e : scalar c -> utf8_char c e -> e = encode_char c.
Proof.
  unfold scalar, encode_char. intros S H. destruct H as [a L|a b x y A Bb|a b c x y z A Bb C|a b c d x y z w A Bb C D].
  - apply N.ltb_lt in L. rewrite L, byte_of_bN. reflexivity.
  - destruct (N.ltb_spec (64 * x + y) 0x80); [lia|]. destruct (N.ltb_spec (64 * x + y) 0x800); [|lia].
    f_equal; [|f_equal]; apply bN_inj; rewrite bN_byte_of; lia.
  - remember (64 * (64 * x + y) + z)%N as v eqn:Ev.
    destruct (N.ltb_spec v 0x80); [lia|]. destruct (N.ltb_spec v 0x800); [lia|]. destruct (N.ltb_spec v 0x10000); [|lia].
    f_equal; [|f_equal; [|f_equal]]; apply bN_inj; rewrite bN_byte_of; lia.
  - remember (64 * (64 * (64 * x + y) + z) + w)%N as v eqn:Ev.
    destruct (N.ltb_spec v 0x80); [lia|]. destruct (N.ltb_spec v 0x800); [lia|]. destruct (N.ltb_spec v 0x10000); [lia|].
    f_equal; [|f_equal; [|f_equal; [|f_equal]]]; apply bN_inj; rewrite bN_byte_of; lia.
Qed.
Lemma encode_utf8_char c : scalar c -> utf8_char c (encode_char c).
Proof.
  unfold scalar, encode_char. intro S.
  destruct (N.ltb_spec c 0x80).
  { replace c with (bN (byte_of_N c)) at 1 by (apply bN_byte_of; lia). constructor. rewrite bN_byte_of; lia. }
  destruct (N.ltb_spec c 0x800).
  { replace c with (64 * (c / 64) + c mod 64)%N at 1 by lia. constructor; try rewrite bN_byte_of; lia. }
  destruct (N.ltb_spec c 0x10000).
  { replace c with (64 * (64 * (c / 4096) + (c / 64) mod 64) + c mod 64)%N at 1 by lia.
    constructor; try rewrite bN_byte_of; lia. }
  replace c with (64 * (64 * (64 * (c / 262144) + (c / 4096) mod 64) + (c / 64) mod 64) + c mod 64)%N at 1 by lia.
  constructor; try rewrite bN_byte_of; lia.
Qed.
Lemma utf8_text_iff cs s : utf8_text cs s <-> Forall scalar cs /\ s = of_chars cs.
Proof.
  split.
  - induction 1 as [|c e cs s Sc U T [IH ->]]; [split; auto|]. split; [auto|].
    rewrite (utf8_char_encode c e Sc U). reflexivity.
  - intros [F ->]. induction F as [|c cs Sc F IH]; [constructor|].
    change (of_chars (c :: cs)) with (encode_char c ++ of_chars cs). constructor; auto using encode_utf8_char.
Qed.
Theorem utf8_valid_iff s : utf8_valid s = true <-> exists cs, utf8_text cs s.
Proof.
  split.
  - intro V. destruct (of_chars_chars s V) as [E F]. exists (chars s). apply utf8_text_iff. auto.
  - intros (cs & T). apply utf8_text_iff in T as [F ->]. apply of_chars_valid, F.
Qed.
Theorem chars_iff s cs : utf8_text cs s <-> utf8_valid s = true /\ chars s = cs.
Proof.
  split.
  - intro T. split; [apply utf8_valid_iff; eauto|]. apply utf8_text_iff in T as [F ->]. apply chars_of_chars, F.
  - intros [V <-]. apply utf8_text_iff. destruct (of_chars_chars s V). auto.
Qed.

(** ** White space *)
Lemma white_scalar c : white c -> scalar c.
Proof. unfold white, scalar. lia. Qed.
Lemma white_in c : white c -> In (encode_char c) ws_encodings.
Proof.
  unfold white. intro H.
  assert (K : In c [9; 10; 11; 12; 13; 0x20; 0x85; 0xA0; 0x1680; 0x2000; 0x2001; 0x2002; 0x2003; 0x2004; 0x2005; 0x2006;
               0x2007; 0x2008; 0x2009; 0x200A; 0x2028; 0x2029; 0x202F; 0x205F; 0x3000]%N).
  { cbn [In]. lia. }
  clear H. revert c K. apply Forall_forall.
  repeat (constructor; [vm_compute; repeat (try (left; reflexivity); right)|]). constructor.
Qed.
Lemma in_white e : In e ws_encodings -> exists c, white c /\ e = encode_char c.
Proof.
  revert e. apply Forall_forall.
  repeat (constructor; [match goal with |- exists _, _ /\ ?e = _ => exists (hd 0%N (chars e)) end;
    split; [vm_compute; intuition congruence|vm_compute; reflexivity]|]). constructor.
Qed.
(** A text of white space is a sequence of those encodings. *)
Lemma blank_iff s : blank_text s <-> exists ws, Forall (fun w => In w ws_encodings) ws /\ s = concat ws.
Proof.
  split.
  - intros (cs & F & T). apply utf8_text_iff in T as [_ ->]. exists (map encode_char cs). split.
    + apply Forall_map. eapply Forall_impl; [|exact F]. apply white_in.
    + unfold of_chars. rewrite flat_map_concat_map. reflexivity.
  - intros (ws & F & ->). induction F as [|w ws Hw F (cs & Fc & T)].
    + exists []. split; constructor.
    + destruct (in_white w Hw) as (c & Wc & ->). exists (c :: cs). split; [auto|].
      simpl. constructor; auto using white_scalar, encode_utf8_char.
Qed.

(** [encs] is a prefix code without the empty word. *)
Definition compatible (a b : str) : bool := starts_with a b || starts_with b a.
Definition prefix_code (encs : list str) : bool :=
  forallb (fun w => negb (seqb w []) && forallb (fun w' => seqb w w' || negb (compatible w w')) encs) encs.
Lemma starts_app p s : starts_with p (p ++ s) = true.
Proof. apply starts_with_spec'. eauto. Qed.
Lemma both_prefixes p q s : starts_with p s = true -> starts_with q s = true -> compatible p q = true.
Proof.
  unfold compatible. revert q s. induction p as [|x p IH]; intros q s; [reflexivity|].
  destruct q as [|y q]; [intros; apply orb_true_r|]. destruct s as [|z s]; cbn [starts_with]; [discriminate|].
  intros P Q. apply andb_prop in P as [P1 P2]. apply andb_prop in Q as [Q1 Q2].
  destruct (beqb_spec x z) as [->|]; [|discriminate]. destruct (beqb_spec y z) as [->|]; [|discriminate].
  destruct (beqb_spec z z) as [_|N]; [|congruence]. cbn [andb]. eauto.
Qed.
Section Code.
Context (encs : list str) (PC : prefix_code encs = true).
Lemma code_nonempty w : In w encs -> w <> [].
Proof.
  intros I ->. unfold prefix_code in PC. rewrite forallb_forall in PC. specialize (PC [] I). discriminate PC.
Qed.
Lemma code_unique w w' s : In w encs -> In w' encs -> starts_with w s = true -> starts_with w' s = true -> w = w'.
Proof.
  intros I I' S S'. unfold prefix_code in PC. rewrite forallb_forall in PC. specialize (PC w I).
  apply andb_prop in PC as [_ C]. rewrite forallb_forall in C. specialize (C w' I').
  rewrite (both_prefixes _ _ _ S S'), orb_false_r in C. destruct (seqb_spec w w'); [assumption|discriminate].
Qed.
Lemma find_ws_app w s : In w encs -> find_ws encs (w ++ s) = Some w.
Proof.
  intro Hi. unfold find_ws. destruct (find _ encs) as [w'|] eqn:E.
  - apply find_some in E as [I' S']. f_equal. eapply code_unique; eauto using starts_app.
  - pose proof (find_none _ _ E w Hi) as N. cbn beta in N. rewrite starts_app in N. discriminate.
Qed.
Lemma trim_fuel_spec n : forall s, length s <= n -> exists ws, Forall (fun w => In w encs) ws /\
  s = concat ws ++ trim_fuel n encs s /\ find_ws encs (trim_fuel n encs s) = None.
Proof.
  induction n as [|n IH]; intros s L; cbn [trim_fuel].
  - destruct s; [|simpl in L; lia]. exists []. repeat split; auto.
    unfold find_ws. destruct (find _ encs) as [w|] eqn:E; [|reflexivity]. apply find_some in E as [Hi S].
    destruct w; [destruct (code_nonempty [] Hi); reflexivity|discriminate].
  - destruct (find_ws encs s) as [w|] eqn:E; [|exists []; repeat split; auto].
    apply find_some in E as [Hi S]. apply starts_with_spec' in S as (t & ->).
    rewrite skipn_app, skipn_all, Nat.sub_diag. cbn [skipn app].
    assert (0 < length w) by (destruct w; [destruct (code_nonempty [] Hi); reflexivity|simpl; lia]).
    rewrite app_length in L. destruct (IH t) as (ws & F & Et & N); [lia|].
    exists (w :: ws). repeat split; auto. cbn [concat]. rewrite <- app_assoc, <- Et. reflexivity.
Qed.
Lemma trim_fuel_strip ws : forall n t, Forall (fun w => In w encs) ws -> find_ws encs t = None ->
  length (concat ws ++ t) <= n -> trim_fuel n encs (concat ws ++ t) = t.
Proof.
  induction ws as [|w ws IH]; intros n t F N L.
  - simpl. destruct n; [reflexivity|]. cbn [trim_fuel]. rewrite N. reflexivity.
  - inversion F; subst. cbn [concat] in *. rewrite <- app_assoc in *. rewrite app_length in L.
    assert (0 < length w) by (destruct w; [destruct (code_nonempty [] H1); reflexivity|simpl; lia]).
    destruct n as [|n]; [lia|]. cbn [trim_fuel]. rewrite find_ws_app by assumption.
    rewrite skipn_app, skipn_all, Nat.sub_diag. cbn [skipn app]. apply IH; auto. lia.
Qed.
End Code.
Lemma ws_code : prefix_code ws_encodings = true.
Proof. vm_compute. reflexivity. Qed.
Lemma ws_code_rev : prefix_code (map (@rev byte) ws_encodings) = true.
Proof. vm_compute. reflexivity. Qed.
Lemma concat_rev (l : list str) : concat (map (@rev byte) (rev l)) = rev (concat l).
Proof.
  induction l as [|x l IH]; [reflexivity|]. cbn [concat rev]. rewrite map_app, concat_app, rev_app_distr.
  f_equal; [exact IH|]. apply app_nil_r.
Qed.
Lemma Forall_rev_ws ws : Forall (fun w => In w ws_encodings) ws ->
  Forall (fun w => In w (map (@rev byte) ws_encodings)) (map (@rev byte) (rev ws)).
Proof.
  intro F. apply Forall_map, Forall_rev. eapply Forall_impl; [|exact F]. intros w H. apply in_map, H.
Qed.
(** [trim] takes away white space only ... *)
Lemma trim_split s : exists l r, blank_text l /\ blank_text r /\ s = l ++ trim s ++ r.
Proof.
  unfold trim, trim_end, trim_start.
  destruct (trim_fuel_spec ws_encodings ws_code (length s) s) as (ws & F & E & _); [lia|].
  set (t := trim_fuel (length s) ws_encodings s) in *.
  destruct (trim_fuel_spec _ ws_code_rev (length t) (rev t)) as (ws' & F' & E' & _); [rewrite rev_length; lia|].
  exists (concat ws), (rev (concat ws')). split; [|split].
  - apply blank_iff. eauto.
  - apply blank_iff. exists (map (@rev byte) (rev ws')). split; [|symmetry; apply concat_rev].
    apply Forall_map, Forall_rev. eapply Forall_impl; [|exact F']. intros w H. apply in_map_iff in H as (x & <- & H).
    rewrite rev_involutive. exact H.
  - rewrite E at 1. f_equal. rewrite <- (rev_involutive t) at 1. rewrite E' at 1. rewrite rev_app_distr. reflexivity.
Qed.
(** ... and all of it. *)
Lemma trim_strip l t r : blank_text l -> blank_text r ->
  find_ws ws_encodings t = None -> find_ws (map (@rev byte) ws_encodings) (rev t) = None -> t <> [] ->
  (forall w, In w ws_encodings -> ~ (length t < length w)) \/ (forall w, In w ws_encodings -> starts_with t w = false) ->
  trim (l ++ t ++ r) = t.
Proof.
  intros L R N N' Ne D. apply blank_iff in L as (ws & F & ->). apply blank_iff in R as (ws' & F' & ->).
  unfold trim, trim_end, trim_start.
  rewrite (trim_fuel_strip _ ws_code).
  - rewrite rev_app_distr. rewrite <- concat_rev. rewrite (trim_fuel_strip _ ws_code_rev); auto.
    + apply rev_involutive.
    + apply Forall_rev_ws, F'.
    + rewrite !app_length, concat_rev, !rev_length. lia.
  - exact F.
  - destruct (find_ws ws_encodings (t ++ _)) as [w|] eqn:E; [|reflexivity]. exfalso. unfold find_ws in *.
    apply find_some in E as [Hi S].
    pose proof (find_none _ _ N w Hi) as X. cbn beta in X.
    assert (C : compatible w t = true) by (eapply both_prefixes; [exact S|apply starts_app]).
    unfold compatible in C. rewrite X in C. cbn [orb] in C. destruct D as [D|D].
    + apply starts_with_spec' in C as (u & ->). specialize (D (t ++ u) Hi). rewrite app_length in D.
      destruct u as [|x u]; [rewrite app_nil_r in X; rewrite <- (app_nil_r t) in X at 2; rewrite starts_app in X; discriminate|].
      simpl in D. lia.
    + rewrite (D w Hi) in C. discriminate.
  - lia.
Qed.

(** ** Numbers *)
Lemma digit_val_spec c : match digit_val c with Some d => is_digit c /\ d = (bN c - 48)%N | None => ~ is_digit c end.
Proof. unfold is_digit. destruct c; vm_compute; (split; [split|]; congruence) || (intros [X Y]; congruence). Qed.
Lemma parse_digits_spec s : forall acc,
  match parse_digits acc s with
  | Some n => Forall is_digit s /\ n = fold_left (fun a b => 10 * a + (bN b - 48))%N s acc
  | None => ~ Forall is_digit s
  end.
Proof.
  induction s as [|c s IH]; intro acc; cbn [parse_digits fold_left]; [auto|].
  pose proof (digit_val_spec c) as D. destruct (digit_val c) as [d|].
  - destruct D as [D ->]. specialize (IH (acc * 10 + (bN c - 48))%N). replace (10 * acc)%N with (acc * 10)%N by lia.
    destruct (parse_digits _ s); [destruct IH; auto|]. intro F. inversion F; auto.
  - intro F. inversion F; auto.
Qed.
Lemma plus_not_digit s : ~ Forall is_digit (x2b :: s).
Proof. intro F. inversion F as [|? ? [X _]]. vm_compute in X. congruence. Qed.
Lemma parse_uint_spec max s :
  match parse_uint max s with
  | Some n => exists ds, (s = ds \/ s = x2b :: ds) /\ ds <> [] /\ Forall is_digit ds /\ dec_val ds = n /\ (n <= max)%N
  | None => forall ds, (s = ds \/ s = x2b :: ds) -> ds <> [] -> Forall is_digit ds -> (max < dec_val ds)%N
  end.
Proof.
  unfold parse_uint.
  set (body := match s with x2b :: r => r | _ => s end).
  assert (Hb : s = body \/ s = x2b :: body) by (unfold body; destruct s as [|c r]; [auto|destruct c; auto]).
  assert (Hu : forall ds, s = ds \/ s = x2b :: ds -> Forall is_digit ds -> ds = body).
  { intros ds [->| ->] F; unfold body; [|reflexivity]. destruct ds as [|c r]; [reflexivity|].
    destruct c; try reflexivity. destruct (plus_not_digit r F). }
  clearbody body. pose proof (parse_digits_spec body 0) as D. destruct body as [|c r].
  - intros ds E N F. destruct N. apply Hu; auto.
  - destruct (parse_digits 0 (c :: r)) as [n|].
    + destruct D as [D1 D2]. destruct (N.leb_spec n max).
      * exists (c :: r). repeat split; auto; discriminate.
      * intros ds E N F. rewrite (Hu ds E F). unfold dec_val. rewrite <- D2. assumption.
    + intros ds E N F. rewrite (Hu ds E F) in F. contradiction.
Qed.
Theorem parse_uint_iff max s n : parse_uint max s = Some n <-> number max s n.
Proof.
  pose proof (parse_uint_spec max s) as P. split.
  - intro E. rewrite E in P. exact P.
  - intros (ds & C & Ne & F & V & L). destruct (parse_uint max s) as [m|].
    + destruct P as (ds' & C' & _ & F' & V' & _). f_equal.
      assert (ds = ds'); [|congruence]. destruct C as [C|C], C' as [C'|C']; rewrite C in C'.
      * exact C'.
      * rewrite C' in F. destruct (plus_not_digit ds' F).
      * rewrite <- C' in F'. destruct (plus_not_digit ds F').
      * injection C' as C'. exact C'.
    + specialize (P ds C Ne F). lia.
Qed.

(** A number, or a text of ordinary letters before one, has no white space at its ends. *)
Definition opens_blank (encs : list str) (b : byte) : bool :=
  existsb (fun w => match w with [] => true | c :: _ => beqb c b end) encs.
Lemma not_opening encs b t : opens_blank encs b = false ->
  find_ws encs (b :: t) = None /\ forall w, In w encs -> starts_with (b :: t) w = false.
Proof.
  unfold opens_blank, find_ws. intro E.
  assert (K : forall w, In w encs -> starts_with w (b :: t) = false /\ starts_with (b :: t) w = false).
  { intros w Hi. destruct w as [|c w].
    - assert (X : existsb (fun w => match w with [] => true | c :: _ => beqb c b end) encs = true)
        by (apply existsb_exists; exists []; auto). congruence.
    - cbn [starts_with]. destruct (beqb_spec c b) as [->|N].
      + assert (X : existsb (fun w => match w with [] => true | c :: _ => beqb c b end) encs = true)
          by (apply existsb_exists; exists (b :: w); split; [exact Hi|apply beqb_refl]). congruence.
      + destruct (beqb_spec b c); [congruence|]. auto. }
  split; [|apply K]. destruct (find _ encs) as [w|] eqn:Ef; [|reflexivity].
  apply find_some in Ef as [Hi S]. rewrite (proj1 (K w Hi)) in S. discriminate.
Qed.
Lemma digit_not_blank b : is_digit b -> opens_blank (map (@rev byte) ws_encodings) b = false.
Proof. unfold is_digit. destruct b; vm_compute; intros [X Y]; try reflexivity; congruence. Qed.
Lemma trim_number max l t r v n : blank_text l -> blank_text r -> number max n v ->
  match t with [] => False | b :: _ => opens_blank ws_encodings b = false end ->
  trim (l ++ (t ++ n) ++ r) = t ++ n.
Proof.
  intros L R (ds & C & Ne & F & _) T. destruct t as [|b t]; [contradiction|].
  destruct (not_opening ws_encodings b (t ++ n) T) as [N1 N2].
  assert (En : exists n' d, n = n' ++ [d] /\ is_digit d).
  { destruct (exists_last Ne) as (ds' & d & E). rewrite E in *. apply Forall_app in F as [_ F]. inversion F; subst.
    destruct C as [->| ->]; [exists ds', d|exists (x2b :: ds'), d]; auto. }
  destruct En as (n' & d & -> & Hd).
  apply trim_strip; auto; try discriminate.
  rewrite app_assoc, rev_app_distr. cbn [rev app]. apply not_opening, digit_not_blank, Hd.
Qed.

Lemma trim_graphic max l t r v n : blank_text l -> blank_text r -> number max n v ->
  match t with [] => False | b :: _ => (33 <= bN b <= 126)%N end -> trim (l ++ (t ++ n) ++ r) = t ++ n.
Proof.
  intros L R H T. eapply trim_number; eauto. destruct t as [|b t]; [contradiction|]. revert T. clear.
  destruct b; vm_compute; intros [X Y]; try reflexivity; congruence.
Qed.

(** ** Letter case *)
Lemma fold_byte_lower a b : fold_byte a b <-> lower a = lower b.
Proof.
  unfold fold_byte, upper_byte. split.
  - intros (c & Ha & Hb). unfold lower, is_upper.
    destruct Ha as [[Ra Ea]|[Ra ->]], Hb as [[Rb Eb]|[Rb ->]].
    + assert (a = b) as -> by (apply bN_inj; lia). reflexivity.
    + destruct (N.leb_spec 65 (bN a)); [|lia]. destruct (N.leb_spec (bN a) 90); [lia|]. cbn [andb].
      destruct (N.leb_spec 65 (bN b)); [|lia]. destruct (N.leb_spec (bN b) 90); [|lia]. cbn [andb].
      apply bN_inj. rewrite bN_byte_of; lia.
    + destruct (N.leb_spec 65 (bN b)); [|lia]. destruct (N.leb_spec (bN b) 90); [lia|]. cbn [andb].
      destruct (N.leb_spec 65 (bN a)); [|lia]. destruct (N.leb_spec (bN a) 90); [|lia]. cbn [andb].
      apply bN_inj. rewrite bN_byte_of; lia.
    + reflexivity.
  - intro E. apply (f_equal bN) in E. exists (upper (lower a)).
    assert (K : forall x, ((97 <= bN x <= 122) /\ bN (upper (lower x)) = bN x - 32)%N \/
                          (~ (97 <= bN x <= 122) /\ upper (lower x) = x)%N).
    { intro x. unfold upper, lower, is_lower, is_upper. pose proof (bN_lt x).
      destruct (N.leb_spec 65 (bN x)); destruct (N.leb_spec (bN x) 90); cbn [andb];
        rewrite ?bN_byte_of by lia.
      all: match goal with |- context [(97 <=? ?y)%N] => destruct (N.leb_spec 97 y); destruct (N.leb_spec y 122) end;
        cbn [andb]; rewrite ?bN_byte_of by lia; try lia.
      all: try (right; split; [lia|reflexivity]).
      all: try (left; split; [lia|reflexivity]).
      all: try (right; split; [lia|]; apply bN_inj; rewrite bN_byte_of; lia). }
    split; [apply K|]. apply bN_inj in E. rewrite E. apply K.
Qed.
Theorem same_fold_lower a b : same_fold a b <-> to_ascii_lowercase a = to_ascii_lowercase b.
Proof.
  unfold same_fold, to_ascii_lowercase. split.
  - induction 1 as [|x y a b H F IH]; [reflexivity|]. cbn [map]. f_equal; [apply fold_byte_lower, H|exact IH].
  - revert b. induction a as [|x a IH]; intros [|y b] E; try discriminate; constructor; injection E as E1 E2.
    + apply fold_byte_lower, E1.
    + apply IH, E2.
Qed.
Theorem lower_fixed k : to_ascii_lowercase k = k <-> Forall (fun b => ~ (65 <= bN b <= 90)%N) k.
Proof.
  unfold to_ascii_lowercase. induction k as [|b k IH]; [split; auto|]. cbn [map]. split.
  - intro E. injection E as E1 E2. constructor; [|apply IH, E2]. intro R. apply (f_equal bN) in E1.
    unfold lower, is_upper in E1. destruct (N.leb_spec 65 (bN b)); [|lia]. destruct (N.leb_spec (bN b) 90); [|lia].
    cbn [andb] in E1. rewrite bN_byte_of in E1 by lia. lia.
  - intro F. inversion F; subst. f_equal; [|apply IH; assumption]. unfold lower, is_upper.
    destruct (N.leb_spec 65 (bN b)); [|reflexivity]. destruct (N.leb_spec (bN b) 90); [lia|reflexivity].
Qed.
