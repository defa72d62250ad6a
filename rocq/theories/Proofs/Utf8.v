(** UTF-8: decoding, encoding, and scanning bytes instead of characters. *)
From Verif.Model Require Export RustStd.
From Verif.Proofs Require Export Basics.
From Verif.Spec Require Import TextSpec.
Local Ltac Zify.zify_post_hook ::= Z.to_euclidean_division_equations.

Lemma bN_lt b : (bN b < 256)%N.
Proof. destruct b; reflexivity. Qed.
Lemma byte_of_bN b : byte_of_N (bN b) = b.
Proof. destruct b; reflexivity. Qed.
Lemma bN_byte_of n : (n < 256)%N -> bN (byte_of_N n) = n.
Proof.
  intro H. unfold byte_of_N, bN. destruct (Byte.of_N n) as [b|] eqn:E.
  - apply Byte.to_of_N. exact E.
  - apply Byte.of_N_None_iff in E. lia.
Qed.
Lemma bN_inj a b : bN a = bN b -> a = b.
Proof. intro H. rewrite <- (byte_of_bN a), H. apply byte_of_bN. Qed.
Lemma beqb_bN a b : beqb a b = (bN a =? bN b)%N.
Proof.
  destruct (beqb_spec a b) as [->|N].
  - symmetry. apply N.eqb_refl.
  - symmetry. apply N.eqb_neq. intro H. apply N, bN_inj, H.
Qed.

(** The encodings of one character. *)
Inductive enc : str -> Prop :=
| Enc1 a : (bN a < 0x80)%N -> enc [a]
| Enc2 a b : (0xC2 <= bN a < 0xE0)%N -> (0x80 <= bN b < 0xC0)%N -> enc [a; b]
| Enc3 a b c : (0xE0 <= bN a < 0xF0)%N ->
    (bN a = 0xE0 -> 0xA0 <= bN b)%N -> (bN a = 0xED -> bN b < 0xA0)%N ->
    (0x80 <= bN b < 0xC0)%N -> (0x80 <= bN c < 0xC0)%N -> enc [a; b; c]
| Enc4 a b c d : (0xF0 <= bN a < 0xF5)%N ->
    (bN a = 0xF0 -> 0x90 <= bN b)%N -> (bN a = 0xF4 -> bN b < 0x90)%N ->
    (0x80 <= bN b < 0xC0)%N -> (0x80 <= bN c < 0xC0)%N -> (0x80 <= bN d < 0xC0)%N ->
    enc [a; b; c; d].

Ltac ranges :=
  unfold in_range in *;
  repeat match goal with
  | H : (_ && _)%bool = true |- _ => apply andb_prop in H; destruct H
  | H : (_ <=? _)%N = true |- _ => apply N.leb_le in H
  | H : (_ <=? _)%N = false |- _ => apply N.leb_gt in H
  | H : (_ && _)%bool = false |- _ => apply andb_false_iff in H; destruct H
  end.

Lemma utf8_inv s : utf8_valid s = true ->
  s = [] \/ exists e r, enc e /\ s = e ++ r /\ utf8_valid r = true.
Proof.
  destruct s as [|a r]; [auto|]. right. cbn [utf8_valid] in H.
  destruct (in_range 0x00 0x7F a) eqn:R1.
  - exists [a], r. split; [constructor; ranges; lia|auto].
  - destruct r as [|b r1]; [discriminate|].
    destruct (in_range 0xC2 0xDF a) eqn:R2.
    + apply andb_prop in H as [Hb H]. exists [a; b], r1. split; [constructor; ranges; lia|auto].
    + destruct r1 as [|c r2]; [discriminate|].
      destruct (in_range 0xE0 0xEF a) eqn:R3.
      * apply andb_prop in H as [H Hr]. apply andb_prop in H as [Hb Hc].
        exists [a; b; c], r2. split; [|auto].
        destruct (in_range 0xE0 0xE0 a) eqn:R4; [|destruct (in_range 0xED 0xED a) eqn:R5];
          constructor; ranges; lia.
      * destruct r2 as [|d r3]; [discriminate|].
        destruct (in_range 0xF0 0xF4 a) eqn:R6; [|discriminate].
        apply andb_prop in H as [H Hr]. apply andb_prop in H as [H Hd]. apply andb_prop in H as [Hb Hc].
        exists [a; b; c; d], r3. split; [|auto].
        destruct (in_range 0xF0 0xF0 a) eqn:R4; [|destruct (in_range 0xF4 0xF4 a) eqn:R5];
          constructor; ranges; lia.
Qed.

Lemma in_range_true lo hi b : (lo <= bN b <= hi)%N -> in_range lo hi b = true.
Proof. intros [H1 H2]. unfold in_range. apply N.leb_le in H1, H2. rewrite H1, H2. auto. Qed.
Lemma in_range_false lo hi b : (bN b < lo \/ hi < bN b)%N -> in_range lo hi b = false.
Proof.
  intros [H|H]; unfold in_range; apply andb_false_iff; [left|right]; apply N.leb_gt; auto.
Qed.
Ltac rng :=
  repeat first
  [ rewrite in_range_true by lia | rewrite in_range_false by lia ].

Lemma utf8_step e r : enc e -> utf8_valid (e ++ r) = utf8_valid r.
Proof.
  intros [a Ha | a b Ha Hb | a b c Ha Hz Hd Hb Hc | a b c d Ha Hz Hx Hb Hc Hd];
    cbn [app utf8_valid].
  - rng. auto.
  - rng. auto.
  - rng. destruct (N.eq_dec (bN a) 0xE0); [|destruct (N.eq_dec (bN a) 0xED)]; rng; auto.
  - rng. destruct (N.eq_dec (bN a) 0xF0); [|destruct (N.eq_dec (bN a) 0xF4)]; rng; auto.
Qed.

Lemma utf8_induct (P : str -> Prop) :
  P [] -> (forall e r, enc e -> utf8_valid r = true -> P r -> P (e ++ r)) ->
  forall s, utf8_valid s = true -> P s.
Proof.
  intros H0 HS s. remember (length s) as n eqn:E. revert s E.
  induction n as [n IH] using (well_founded_induction Wf_nat.lt_wf). intros s -> V.
  destruct (utf8_inv s V) as [->|(e & r & He & -> & Vr)]; auto.
  apply HS; auto. apply (IH (length r)); auto.
  rewrite app_length. inversion He; simpl; lia.
Qed.

Lemma utf8_app a b : utf8_valid a = true -> utf8_valid (a ++ b) = utf8_valid b.
Proof.
  intro H. revert a H. apply utf8_induct; auto.
  intros e r He _ IH. rewrite <- app_assoc, utf8_step; auto.
Qed.

Lemma enc_tail e : enc e -> exists x t, e = x :: t /\ is_continuation x = false /\
  Forall (fun b => is_continuation b = true) t.
Proof.
  assert (C : forall b, (0x80 <= bN b < 0xC0)%N -> is_continuation b = true).
  { intros b H. unfold is_continuation. apply andb_true_iff. split; [apply N.leb_le|apply N.ltb_lt]; lia. }
  assert (D : forall b, (bN b < 0x80 \/ 0xC0 <= bN b)%N -> is_continuation b = false).
  { intros b H. unfold is_continuation. apply andb_false_iff.
    destruct H; [left; apply N.leb_gt|right; apply N.ltb_ge]; lia. }
  intros [a Ha | a b Ha Hb | a b c Ha Hz Hd Hb Hc | a b c d Ha Hz Hx Hb Hc Hd];
    eexists; eexists; (split; [reflexivity|]); split; auto; apply D; lia.
Qed.

(** A valid string may be cut at any byte that is not a continuation byte. *)
Definition starts_char (b : str) : Prop :=
  match b with [] => True | x :: _ => is_continuation x = false end.
Lemma utf8_cut a b : utf8_valid (a ++ b) = true -> starts_char b -> utf8_valid a = true /\ utf8_valid b = true.
Proof.
  intros V Hb. assert (utf8_valid a = true) as Va.
  { remember (length a) as n eqn:E. revert a E V.
    induction n as [n IH] using (well_founded_induction Wf_nat.lt_wf). intros a -> V.
    destruct a as [|x a]; auto.
    destruct (utf8_inv _ V) as [H|(e & r & He & E & Vr)]; [discriminate|].
    destruct (Nat.le_gt_cases (length e) (length (x :: a))) as [L|L].
    - assert (exists a', x :: a = e ++ a' /\ r = a' ++ b) as (a' & E1 & ->).
      { exists (skipn (length e) (x :: a)).
        assert (E1 : firstn (length e) ((x :: a) ++ b) = e).
        { rewrite E, firstn_app, Nat.sub_diag, firstn_all, firstn_O, app_nil_r. auto. }
        rewrite firstn_app in E1. replace (length e - length (x :: a)) with 0 in E1 by lia.
        rewrite firstn_O, app_nil_r in E1. split.
        - rewrite <- E1 at 1. symmetry. apply firstn_skipn.
        - assert (E2 : skipn (length e) ((x :: a) ++ b) = r).
          { rewrite E, skipn_app, Nat.sub_diag, skipn_all. auto. }
          rewrite skipn_app in E2. replace (length e - length (x :: a)) with 0 in E2 by lia.
          rewrite skipn_O in E2. auto. }
      rewrite E1 in *. rewrite utf8_step; auto. apply (IH (length a')); auto.
      rewrite app_length. inversion He; simpl; lia.
    - exfalso. destruct (enc_tail e He) as (y & t & -> & Hy & Ht).
      simpl in E. injection E as <- E. simpl in L.
      assert (exists t', t = a ++ t' /\ b = t' ++ r) as (t' & -> & ->).
      { exists (skipn (length a) t).
        assert (E1 : firstn (length a) (t ++ r) = a).
        { rewrite <- E, firstn_app, Nat.sub_diag, firstn_all, firstn_O, app_nil_r. auto. }
        rewrite firstn_app in E1. replace (length a - length t) with 0 in E1 by lia.
        rewrite firstn_O, app_nil_r in E1. split.
        - rewrite <- E1 at 1. symmetry. apply firstn_skipn.
        - assert (E2 : skipn (length a) (a ++ b) = b).
          { rewrite skipn_app, Nat.sub_diag, skipn_all. auto. }
          rewrite E, skipn_app in E2. replace (length a - length t) with 0 in E2 by lia.
          rewrite skipn_O in E2. auto. }
      rewrite app_length in L. destruct t' as [|z t']; [simpl in L; lia|].
      simpl in Hb. apply Forall_app in Ht as [_ Ht]. inversion Ht; subst. congruence. }
  split; auto. rewrite utf8_app in V; auto.
Qed.
Lemma ascii_not_cont b : (bN b < 0x80)%N -> is_continuation b = false.
Proof. intro H. unfold is_continuation. apply andb_false_iff. left. apply N.leb_gt. auto. Qed.

Lemma valid_starts_char s : utf8_valid s = true -> starts_char s.
Proof.
  intro V. destruct (utf8_inv s V) as [->|(e & r & He & -> & _)]; simpl; auto.
  destruct (enc_tail e He) as (x & t & -> & Hx & _). exact Hx.
Qed.

(** ** Characters *)


Lemma chars_step e r : enc e -> exists c, chars (e ++ r) = c :: chars r /\ scalar c /\ encode_char c = e
  /\ (forall b, In b e -> (bN b < 0x80)%N -> e = [b]) /\
     ((c < 0x80)%N -> exists b, e = [b] /\ bN b = c) /\ (~ (c < 0x80)%N -> forall b, In b e -> (0x80 <= bN b)%N).
Proof.
  unfold scalar.
  intros [a Ha | a b Ha Hb | a b c Ha Hz Hd Hb Hc | a b c d Ha Hz Hx Hb Hc Hd];
    cbn [app chars]; rng; eexists; (split; [reflexivity|]).
  - repeat split; auto.
    + lia.
    + unfold encode_char. apply N.ltb_lt in Ha. rewrite Ha, byte_of_bN. auto.
    + intros b [->|[]]; auto.
    + intros _. exists a; auto.
    + intros H b [->|[]]; lia.
  - repeat split.
    + lia.
    + unfold encode_char.
      destruct (N.ltb_spec ((bN a - 192) * 64 + (bN b - 128)) 0x80); [lia|].
      destruct (N.ltb_spec ((bN a - 192) * 64 + (bN b - 128)) 0x800); [|lia].
      f_equal; [|f_equal]; rewrite <- byte_of_bN; f_equal; lia.
    + intros x [->|[->|[]]]; lia.
    + lia.
    + intros H x [->|[->|[]]]; lia.
  - repeat split.
    + destruct (N.eq_dec (bN a) 0xED); lia.
    + unfold encode_char.
      remember ((bN a - 224) * 4096 + (bN b - 128) * 64 + (bN c - 128))%N as v eqn:Ev.
      destruct (N.ltb_spec v 0x80); [destruct (N.eq_dec (bN a) 0xE0); lia|].
      destruct (N.ltb_spec v 0x800); [destruct (N.eq_dec (bN a) 0xE0); lia|].
      destruct (N.ltb_spec v 0x10000); [|lia].
      f_equal; [|f_equal; [|f_equal]]; rewrite <- byte_of_bN; f_equal; lia.
    + intros x [->|[->|[->|[]]]]; lia.
    + intro H. exfalso. destruct (N.eq_dec (bN a) 0xE0); lia.
    + intros H x [->|[->|[->|[]]]]; lia.
  - repeat split.
    + destruct (N.eq_dec (bN a) 0xF4); [|destruct (N.eq_dec (bN a) 0xF0)]; lia.
    + unfold encode_char.
      remember ((bN a - 240) * 262144 + (bN b - 128) * 4096 + (bN c - 128) * 64 + (bN d - 128))%N as v eqn:Ev.
      destruct (N.ltb_spec v 0x80); [destruct (N.eq_dec (bN a) 0xF0); lia|].
      destruct (N.ltb_spec v 0x800); [destruct (N.eq_dec (bN a) 0xF0); lia|].
      destruct (N.ltb_spec v 0x10000); [destruct (N.eq_dec (bN a) 0xF0); lia|].
      f_equal; [|f_equal; [|f_equal; [|f_equal]]]; rewrite <- byte_of_bN; f_equal; lia.
    + intros x [->|[->|[->|[->|[]]]]]; lia.
    + intro H. exfalso. destruct (N.eq_dec (bN a) 0xF0); lia.
    + intros H x [->|[->|[->|[->|[]]]]]; lia.
Qed.

Lemma encode_enc c : scalar c -> enc (encode_char c).
Proof.
  unfold scalar, encode_char. intro H.
  destruct (N.ltb_spec c 0x80); [constructor; rewrite bN_byte_of; lia|].
  destruct (N.ltb_spec c 0x800); [constructor; rewrite bN_byte_of; lia|].
  destruct (N.ltb_spec c 0x10000); constructor; rewrite ?bN_byte_of; try lia.
Qed.
Lemma encode_inj c c' : scalar c -> scalar c' -> encode_char c = encode_char c' -> c = c'.
Proof.
  intros H H' E.
  pose proof (chars_step _ [] (encode_enc c H)) as (d & Ed & _ & _).
  assert (F : forall c, scalar c -> chars (encode_char c ++ []) = [c]).
  { clear. unfold scalar, encode_char. intros c H.
    destruct (N.ltb_spec c 0x80); [|destruct (N.ltb_spec c 0x800); [|destruct (N.ltb_spec c 0x10000)]];
      cbn [app chars];
      repeat first [ rewrite in_range_true by (rewrite bN_byte_of; lia)
                   | rewrite in_range_false by (rewrite bN_byte_of; lia) ];
      rewrite ?bN_byte_of by lia; auto; f_equal; lia. }
  pose proof (F c H) as F1. pose proof (F c' H') as F2. rewrite E in F1. congruence.
Qed.

Lemma chars_app_enc c r : scalar c -> chars (encode_char c ++ r) = c :: chars r.
Proof.
  intro H. destruct (chars_step _ r (encode_enc c H)) as (d & E & Hd & Ed & _).
  rewrite E. f_equal. apply encode_inj; auto.
Qed.
Lemma chars_of_chars l : Forall scalar l -> chars (of_chars l) = l.
Proof.
  induction l as [|c l IH]; intro H; auto. inversion H; subst.
  change (of_chars (c :: l)) with (encode_char c ++ of_chars l).
  rewrite chars_app_enc, IH; auto.
Qed.
Lemma of_chars_valid l : Forall scalar l -> utf8_valid (of_chars l) = true.
Proof.
  induction l as [|c l IH]; intro H; auto. inversion H; subst.
  change (of_chars (c :: l)) with (encode_char c ++ of_chars l).
  rewrite utf8_step; auto. apply encode_enc; auto.
Qed.
Lemma of_chars_chars s : utf8_valid s = true -> of_chars (chars s) = s /\ Forall scalar (chars s).
Proof.
  revert s. apply utf8_induct; [split; [reflexivity|constructor]|].
  intros e r He _ [IH1 IH2]. destruct (chars_step e r He) as (c & E & Hc & Ec & _).
  rewrite E. split; [|constructor; auto].
  change (of_chars (c :: chars r)) with (encode_char c ++ of_chars (chars r)).
  rewrite Ec, IH1. auto.
Qed.
Lemma chars_app a b : utf8_valid a = true -> chars (a ++ b) = chars a ++ chars b.
Proof.
  intro V. revert a V. apply utf8_induct; auto.
  intros e r He _ IH. rewrite <- app_assoc.
  destruct (chars_step e (r ++ b) He) as (c & E & Hc & Ec & _). rewrite E.
  destruct (chars_step e r He) as (c' & E' & Hc' & Ec' & _). rewrite E'.
  simpl. rewrite IH. f_equal. apply encode_inj; auto. congruence.
Qed.

(** Scanning for ASCII characters can be done on bytes. *)
Lemma scan_exists (p : N -> bool) s :
  (forall c, 0x80 <= c -> p c = false)%N -> utf8_valid s = true ->
  existsb p (chars s) = existsb (fun b => p (bN b)) s.
Proof.
  intros Hp V. revert s V. apply utf8_induct; auto.
  intros e r He _ IH. destruct (chars_step e r He) as (c & E & Hc & Ec & _ & H1 & H2).
  rewrite E. rewrite existsb_app, <- IH. cbn [existsb]. f_equal.
  destruct (N.lt_ge_cases c 0x80) as [L|L].
  - destruct (H1 L) as (b & -> & <-). simpl. rewrite orb_false_r. auto.
  - rewrite Hp by auto. symmetry. apply not_true_is_false. intro X.
    apply existsb_exists in X as (b & Hb & X). rewrite Hp in X; [discriminate|].
    apply H2; auto. lia.
Qed.
Lemma scan_forall (p : N -> bool) s :
  (forall c, 0x80 <= c -> p c = false)%N -> utf8_valid s = true ->
  forallb p (chars s) = forallb (fun b => p (bN b)) s.
Proof.
  intros Hp V. revert s V. apply utf8_induct; auto.
  intros e r He _ IH. destruct (chars_step e r He) as (c & E & Hc & Ec & _ & H1 & H2).
  rewrite E. rewrite forallb_app, <- IH. cbn [forallb]. f_equal.
  destruct (N.lt_ge_cases c 0x80) as [L|L].
  - destruct (H1 L) as (b & -> & <-). simpl. rewrite andb_true_r. auto.
  - rewrite Hp by auto. destruct (enc_tail e He) as (x & t & Ee & _).
    rewrite Ee. simpl. rewrite Hp; auto. apply H2; [lia|]. rewrite Ee. left. auto.
Qed.
Lemma In_chars (c : N) s : (c < 0x80)%N -> utf8_valid s = true -> (In c (chars s) <-> exists b, In b s /\ bN b = c).
Proof.
  intros Hc V.
  assert (X : forall l : list N, In c l <-> existsb (N.eqb c) l = true).
  { intro l. rewrite existsb_exists. split; [intro H; exists c; split; [auto|apply N.eqb_refl]|].
    intros (x & H & E). apply N.eqb_eq in E. congruence. }
  rewrite X, scan_exists; auto.
  - rewrite existsb_exists. split; intros (b & H & E); exists b; split; auto.
    + apply N.eqb_eq in E. auto.
    + apply N.eqb_eq. auto.
  - intros d Hd. apply N.eqb_neq. lia.
Qed.
