(** Percent-decoding and query strings. *)
From Verif.Model Require Export Query.
From Verif.Proofs Require Export Basics TextProofs Utf8 RequestProofs.
From Verif.Spec Require Import Common TextSpec QuerySpec.
Local Arguments N.mul : simpl never.
Local Arguments N.add : simpl never.
Local Arguments N.sub : simpl never.
Local Arguments N.div : simpl never.
Local Arguments N.modulo : simpl never.
Local Arguments N.eqb : simpl never.

(** ** Hex digits *)
Lemma from_hex_spec c v : from_hex c = Some v <-> hex_value c v.
Proof.
  unfold from_hex, hex_value. destruct (N.ltb_spec 102 c) as [L|L].
  - split; [discriminate|]. intros [[? ?]|[[? ?]|[? ?]]]; lia.
  - rewrite N.mod_small by lia.
    destruct (N.leb_spec 48 c), (N.leb_spec c 57), (N.leb_spec 65 c), (N.leb_spec c 70),
             (N.leb_spec 97 c), (N.leb_spec c 102); cbn [andb];
    split; intro H'; try discriminate; try (injection H' as <-); try lia;
    try (f_equal; lia); destruct H' as [[? ?]|[[? ?]|[? ?]]]; try lia; f_equal; lia.
Qed.
Lemma from_hex_lt c v : from_hex c = Some v -> (v < 16)%N.
Proof. rewrite from_hex_spec. intros [[? ->]|[[? ->]|[? ->]]]; lia. Qed.

(** ** The look-ahead iterator *)
Section DP.
Context {T : Type} (dflt : T).

(** What [next] will still yield. *)
Definition pend (s : dpeek T) : list T :=
  match dp_stored s with
  | 0 => dp_iter s
  | 1 => dp_cache0 s :: dp_iter s
  | _ => dp_cache0 s :: dp_cache1 s :: dp_iter s
  end.

Lemma dp_next_spec s : dp_stored s <= 2 ->
  fst (dp_next dflt s) = hd_error (pend s) /\ pend (snd (dp_next dflt s)) = tl (pend s) /\
  dp_stored (snd (dp_next dflt s)) <= 1.
Proof.
  destruct s as [it c0 c1 st u]. unfold dp_next, pend; simpl. intro H.
  destruct st as [|[|[|st]]]; simpl; try lia; auto.
  destruct it; simpl; auto.
Qed.
(** Any peek: never panics, leaves what is pending. *)
Lemma dp_peek_any s : dp_stored s <= 2 ->
  exists o s', dp_peek s = Done (o, s') /\ pend s' = pend s /\ dp_stored s' <= 2.
Proof.
  destruct s as [it c0 c1 st u]. unfold dp_peek, pend; simpl. intro H.
  destruct st as [|[|[|st]]]; destruct u; simpl; try lia;
    try destruct it; simpl; eexists; eexists; (split; [reflexivity|]); simpl; auto.
Qed.
(** First peek after a reset. *)
Lemma dp_peek_first s : dp_stored s <= 2 -> dp_unpeek s = true ->
  exists s', dp_peek s = Done (hd_error (pend s), s') /\ pend s' = pend s /\ dp_unpeek s' = false /\
    (dp_stored s <= 1 -> dp_stored s' = Nat.min 1 (length (pend s))).
Proof.
  destruct s as [it c0 c1 st u]. unfold dp_peek, pend; simpl. intros H ->.
  destruct st as [|[|[|st]]]; simpl; try lia.
  - destruct it; simpl; eexists; repeat split.
  - eexists; repeat split.
  - eexists; repeat split. intro; lia.
Qed.
Lemma dp_peek_second s : dp_stored s = 1 -> dp_unpeek s = false ->
  exists s', dp_peek s = Done (nth_error (pend s) 1, s') /\ pend s' = pend s /\ dp_stored s' <= 2.
Proof.
  destruct s as [it c0 c1 st u]. unfold dp_peek, pend; simpl. intros -> ->.
  destruct it; simpl; eexists; repeat split; auto.
Qed.
Lemma pend_reset s : pend (dp_set_unpeek s) = pend s.
Proof. reflexivity. Qed.

Lemma dp_run_spec ops : forall s, dp_stored s <= 2 ->
  exists s', dp_run dflt ops s = Done (map (nth_error (pend s)) (seq 0 (count_next ops)), s') /\
             pend s' = skipn (count_next ops) (pend s) /\ dp_stored s' <= 2.
Proof.
  induction ops as [|op ops IH]; intros s H; simpl; eauto.
  destruct op.
  - destruct (dp_next_spec s H) as (E1 & E2 & E3).
    destruct (IH (snd (dp_next dflt s))) as (s' & E & Ep & Hs); [lia|].
    rewrite E. cbn [obind fst snd]. exists s'. split; [|split; auto].
    + f_equal. f_equal. cbn [count_next seq map]. f_equal.
      * rewrite E1. destruct (pend s); reflexivity.
      * rewrite <- seq_shift, map_map, E2. apply map_ext. intro i. destruct (pend s); simpl; auto.
        destruct i; auto.
    + rewrite Ep, E2. destruct (pend s); simpl; auto. apply skipn_nil.
  - destruct (dp_peek_any s H) as (o & s1 & E & Ep & Hs). rewrite E. cbn [obind snd].
    destruct (IH s1 Hs) as (s' & E' & Ep' & Hs'). rewrite Ep in *. eauto.
  - destruct (IH (dp_set_unpeek s) H) as (s' & E' & Ep' & Hs'). eauto.
Qed.
End DP.

(** ** Decoding *)
Fixpoint decode (fuel : nat) (cs : list N) : list N :=
  match fuel with
  | O => []
  | S f =>
    match cs with
    | [] => []
    | c :: r =>
        if negb (N.eqb c 37) then c :: decode f r
        else match r with
             | a :: b :: r' =>
                 match from_hex a, from_hex b with
                 | Some x, Some y => (x * 16 + y)%N :: decode f r'
                 | _, _ => 37%N :: decode f r
                 end
             | _ => 37%N :: decode f r
             end
    end
  end.
Lemma unescape_loop_spec fuel : forall ret (p : dpeek N), dp_stored p <= 2 -> length (pend p) < fuel ->
  unescape_loop fuel ret p = Some (Done (ret ++ decode fuel (pend p))).
Proof.
  induction fuel as [|fuel IH]; intros ret p Hs L; [lia|].
  cbn [unescape_loop].
  destruct (dp_next_spec 0%N p Hs) as (E1 & E2 & E3).
  destruct (dp_next 0%N p) as [o p1]. cbn [fst snd] in *. subst o.
  destruct (pend p) as [|c r] eqn:Ep; cbn [hd_error decode tl] in *.
  - rewrite app_nil_r. reflexivity.
  - simpl in L. destruct (N.eqb c 37) eqn:Ec; cbn [negb].
    2:{ rewrite IH by (rewrite ?E2; lia). rewrite E2, <- app_assoc. reflexivity. }
    apply N.eqb_eq in Ec. subst c.
    destruct (dp_peek_first (dp_set_unpeek p1)) as (p2 & F1 & F2 & F3 & F4); [simpl; lia|reflexivity|].
    rewrite F1. rewrite pend_reset, E2 in *. specialize (F4 E3).
    assert (K : forall q ret', pend q = r -> dp_stored q <= 2 ->
      unescape_loop fuel (ret' ++ [37%N]) q = Some (Done (ret' ++ 37%N :: decode fuel r))).
    { intros q ret' Eq Hq. rewrite IH by (rewrite ?Eq; lia). rewrite Eq, <- app_assoc. reflexivity. }
    destruct r as [|a r]; cbn [hd_error].
    + apply K; auto. rewrite F4. simpl. lia.
    + simpl in F4.
      destruct (dp_peek_second p2) as (p3 & G1 & G2 & G3); auto. rewrite F2 in *.
      rewrite G1. cbn [nth_error]. destruct r as [|b r]; cbn [nth_error].
      * apply K; auto.
      * destruct (from_hex a) as [x|]; [|apply K; auto].
        destruct (from_hex b) as [y|]; [|apply K; auto].
        destruct (dp_next_spec 0%N p3 G3) as (_ & N2 & N3).
        destruct (dp_next_spec 0%N (snd (dp_next 0%N p3))) as (_ & M2 & M3); [lia|].
        rewrite N2, G2 in M2. simpl in M2.
        rewrite IH by (rewrite ?M2; simpl in *; lia). rewrite M2, <- app_assoc. reflexivity.
Qed.
Lemma two_hex_b a b r x y : from_hex a = Some x -> from_hex b = Some y -> two_hex (a :: b :: r).
Proof. intros Ha Hb. exists a, b, x, y, r. rewrite <- !from_hex_spec. auto. Qed.
Lemma decode_decodes fuel : forall cs, length cs < fuel -> decodes cs (decode fuel cs).
Proof.
  induction fuel as [|fuel IH]; intros cs L; [lia|].
  destruct cs as [|c r]; cbn [decode]; [constructor|]. simpl in L.
  destruct (N.eqb c 37) eqn:Ec; cbn [negb].
  2:{ constructor; [apply N.eqb_neq; auto|apply IH; lia]. }
  apply N.eqb_eq in Ec. subst c.
  destruct r as [|a [|b r]].
  - apply dec_lone; [|apply IH; lia]. intros (? & ? & ? & ? & ? & E & _). discriminate.
  - apply dec_lone; [|apply IH; lia]. intros (? & ? & ? & ? & ? & E & _). discriminate.
  - destruct (from_hex a) as [x|] eqn:Ha.
    + destruct (from_hex b) as [y|] eqn:Hb.
      * apply dec_hex; [apply from_hex_spec; auto|apply from_hex_spec; auto|]. apply IH. simpl in L. lia.
      * apply dec_lone; [|apply IH; lia]. intros (a' & b' & x' & y' & r' & E & H1 & H2).
        injection E as <- <- <-. apply from_hex_spec in H2. congruence.
    + apply dec_lone; [|apply IH; lia]. intros (a' & b' & x' & y' & r' & E & H1 & H2).
      injection E as <- <- <-. apply from_hex_spec in H1. congruence.
Qed.
Lemma decodes_fun cs t t' : decodes cs t -> decodes cs t' -> t = t'.
Proof.
  intro H. revert t'. induction H as [|c t e Hc H IH|a b x y t e Ha Hb H IH|t e Hn H IH]; intros t' H'.
  - inversion H'; auto.
  - inversion H' as [|? ? ? Hc' X|? ? ? ? ? ? Ha' Hb' X|? ? Hn' X]; subst; try congruence. f_equal. auto.
  - inversion H' as [|? ? ? Hc' X|? ? ? ? ? ? Ha' Hb' X|? ? Hn' X]; subst; try congruence.
    + apply from_hex_spec in Ha, Hb, Ha', Hb'. f_equal; [congruence|auto].
    + exfalso. apply Hn'. exists a, b, x, y, e. auto.
  - inversion H' as [|? ? ? Hc' X|? ? ? ? ? ? Ha' Hb' X|? ? Hn' X]; subst; try congruence.
    + exfalso. apply Hn. exists a, b, x, y, e0. auto.
    + f_equal. auto.
Qed.
Lemma unescape_chars_spec cs t : unescape_chars cs = Done t <-> decodes cs t.
Proof.
  unfold unescape_chars. rewrite unescape_loop_spec by (simpl; auto).
  change (pend (dp_new 0%N cs)) with cs. rewrite app_nil_l.
  assert (D : decodes cs (decode (S (length cs)) cs)) by (apply decode_decodes; auto).
  split; intro H.
  - injection H as <-. exact D.
  - f_equal. eapply decodes_fun; eauto.
Qed.
Lemma unescape_chars_total cs : exists t, unescape_chars cs = Done t.
Proof. unfold unescape_chars. rewrite unescape_loop_spec by (simpl; auto). eauto. Qed.
Lemma unescape_hex_spec s d : unescape_hex s = Done d <-> decoded s d.
Proof.
  unfold unescape_hex, decoded. destruct (unescape_chars_total (chars s)) as (t & E). rewrite E.
  apply unescape_chars_spec in E as Ht. simpl. split.
  - intro H. injection H as <-. eauto.
  - intros (t' & H & ->). rewrite (decodes_fun _ _ _ Ht H). reflexivity.
Qed.
Lemma unescape_total s : exists d, unescape_hex s = Done d.
Proof. unfold unescape_hex. destruct (unescape_chars_total (chars s)) as (t & ->). simpl. eauto. Qed.
Lemma decoded_fun s d d' : decoded s d -> decoded s d' -> d = d'.
Proof. rewrite <- !unescape_hex_spec. congruence. Qed.

(** Escaped text decodes to the text. *)
Lemma escapes_decodes t e : escapes t e -> decodes e t.
Proof. induction 1; constructor; auto. Qed.

Lemma unescape_escaped t e : Forall scalar t -> Forall scalar e -> escapes t e ->
  unescape_hex (of_chars e) = Done (of_chars t).
Proof.
  intros Ht He H. apply unescape_hex_spec. exists t. split; auto.
  rewrite chars_of_chars; auto. apply escapes_decodes. auto.
Qed.
Lemma escapes_no_pct t : ~ In 37%N t -> escapes t t.
Proof.
  induction t as [|c t IH]; intro H; constructor.
  - intros ->. apply H. left. auto.
  - apply IH. intro X. apply H. right. auto.
Qed.
Lemma unescape_plain s : utf8_valid s = true -> ~ In x25 s -> unescape_hex s = Done s.
Proof.
  intros V H. destruct (of_chars_chars s V) as [E F]. rewrite <- E at 1. rewrite <- E at 2.
  apply unescape_escaped; auto. apply escapes_no_pct. intro X.
  apply In_chars in X as (b & Hb & Eb); auto; [|reflexivity].
  assert (b = x25) as -> by (apply bN_inj; exact Eb). auto.
Qed.
Lemma decodes_app_copy p e t : ~ In 37%N p -> decodes e t -> decodes (p ++ e) (p ++ t).
Proof.
  induction p as [|c p IH]; intros H D; auto. simpl. constructor.
  - intros ->. apply H. left. auto.
  - apply IH; auto. intro X. apply H. right. auto.
Qed.
Lemma lone_percent p r t : ~ In 37%N p -> ~ two_hex r -> unescape_chars r = Done t ->
  unescape_chars (p ++ 37%N :: r) = Done (p ++ 37%N :: t).
Proof.
  intros Hp Hr E. apply unescape_chars_spec in E. apply unescape_chars_spec.
  apply decodes_app_copy; auto. apply dec_lone; auto.
Qed.

(** ** C32 *)
Lemma hex_digit_value n : (n < 16)%N -> hex_value (bN (hex_digit n)) n /\ (bN (hex_digit n) < 0x80)%N.
Proof.
  intro H. unfold hex_digit, hex_value. destruct (N.ltb_spec n 10); rewrite bN_byte_of by lia; split; lia.
Qed.
Lemma chars_ascii (b : byte) r : (bN b < 0x80)%N -> chars (b :: r) = bN b :: chars r.
Proof.
  intro H. change (b :: r) with ([b] ++ r). replace [b] with (encode_char (bN b)).
  - apply chars_app_enc. left. lia.
  - unfold encode_char. apply N.ltb_lt in H. rewrite H, byte_of_bN. reflexivity.
Qed.
Lemma pct_chars s : chars (pct s) = flat_map (fun b => [37; bN (hex_digit (bN b / 16)); bN (hex_digit (bN b mod 16))])%N s.
Proof.
  induction s as [|b s IH]; auto. cbn [pct flat_map]. fold (pct s).
  pose proof (bN_lt b) as L.
  assert (D : (bN b / 16 < 16)%N) by (apply N.div_lt_upper_bound; lia).
  assert (M : (bN b mod 16 < 16)%N) by (apply N.mod_lt; lia).
  apply hex_digit_value in D, M. destruct D as [_ D], M as [_ M].
  unfold pct_byte. cbn [app]. rewrite !chars_ascii by (auto; reflexivity). rewrite IH. reflexivity.
Qed.
Lemma pct_decodes s : decodes (chars (pct s)) (map bN s).
Proof.
  rewrite pct_chars. induction s as [|b s IH]; simpl; [constructor|].
  pose proof (bN_lt b) as L.
  assert (D : (bN b / 16 < 16)%N) by (apply N.div_lt_upper_bound; lia).
  assert (M : (bN b mod 16 < 16)%N) by (apply N.mod_lt; lia).
  apply hex_digit_value in D, M. destruct D as [D _], M as [M _].
  rewrite (N.div_mod (bN b) 16) at 3 by lia. rewrite (N.mul_comm 16). constructor; auto.
Qed.
Lemma pct_result s : unescape_hex (pct s) = Done (of_chars (map bN s)).
Proof. apply unescape_hex_spec. exists (map bN s). split; auto. apply pct_decodes. Qed.
Lemma latin1_scalar s : Forall scalar (map bN s).
Proof. apply Forall_map. apply Forall_forall. intros b _. left. pose proof (bN_lt b). lia. Qed.
Lemma pct_broken c : scalar c -> (0x80 <= c)%N ->
  exists d, unescape_hex (pct (encode_char c)) = Done d /\ d <> encode_char c.
Proof.
  intros Hc L. exists (of_chars (map bN (encode_char c))). split; [apply pct_result|].
  intro E. assert (E2 : chars (of_chars (map bN (encode_char c))) = chars (encode_char c ++ [])) by (rewrite app_nil_r; congruence).
  rewrite chars_of_chars in E2 by apply latin1_scalar. rewrite chars_app_enc in E2 by auto.
  pose proof (encode_enc c Hc) as He. unfold encode_char in *.
  destruct (N.ltb_spec c 0x80); [lia|].
  destruct (N.ltb_spec c 0x800); [discriminate|]. destruct (N.ltb_spec c 0x10000); discriminate.
Qed.
Lemma pct_ascii s : Forall (fun b => (bN b < 0x80)%N) s -> unescape_hex (pct s) = Done s.
Proof.
  intro H. rewrite pct_result. f_equal. induction H as [|b s Hb H IH]; auto.
  cbn [map]. change (of_chars (bN b :: map bN s)) with (encode_char (bN b) ++ of_chars (map bN s)).
  rewrite IH. unfold encode_char. apply N.ltb_lt in Hb. rewrite Hb, byte_of_bN. reflexivity.
Qed.

(** ** Plain queries *)
Lemma find_eq_some tok i : find_char EQUALS tok = Some i ->
  tok = firstn i tok ++ [x3d] ++ skipn 1 (skipn i tok) /\ ~ In x3d (firstn i tok).
Proof.
  intro H. apply find_char_Some in H as (E & N & _). split; auto.
  rewrite skipn_skipn'. replace (i + 1) with (S i) by lia. exact E.
Qed.
Lemma split_eq n w n' w' : n ++ [x3d] ++ w = n' ++ [x3d] ++ w' -> ~ In x3d n -> ~ In x3d n' -> n = n' /\ w = w'.
Proof.
  intros E H H'. assert (L : find_char x3d (n ++ x3d :: w) = find_char x3d (n' ++ x3d :: w')) by (simpl in E; congruence).
  rewrite !find_char_app in L by auto. injection L as L.
  apply app_length_inj in E as [-> E]; auto. injection E as ->. auto.
Qed.

(** What an item assigns: at most one pair. *)
Lemma query_item_spec ft tok : exists o : option (str * str),
  (forall ret, parse_query_item ft ret tok =
     Done match o with Some (k, v) => mset seqb k v ret | None => ret end) /\
  forall k v, assigns (faithful ft) k tok v <-> o = Some (k, v).
Proof.
  unfold parse_query_item.
  destruct (faithful ft && is_nil tok) eqn:E0.
  - apply andb_prop in E0 as [Ef E0]. destruct tok; [|discriminate].
    exists None. split; auto. intros k v. split; [|discriminate]. intros [H _]. exfalso. apply (H Ef). auto.
  - assert (Hne : faithful ft = true -> tok <> []).
    { intros Ef ->. rewrite Ef in E0. discriminate. }
    destruct (find_char EQUALS tok) as [i|] eqn:E.
    + apply find_eq_some in E as [E Hn].
      set (n := firstn i tok) in *. set (w := skipn 1 (skipn i tok)) in *.
      assert (A : forall k v, assigns (faithful ft) k tok v <-> (faithful ft = true -> n <> []) /\ decoded n k /\ decoded w v).
      { intros k v. split.
        - intros [_ [(n' & w' & E' & Hn' & Hs & Dk & Dv)|(Hn' & _)]].
          + rewrite E in E'. apply split_eq in E' as [<- <-]; auto.
          + exfalso. apply Hn'. rewrite E. apply in_or_app. right. left. auto.
        - intros (Hs & Dk & Dv). split; auto. left. exists n, w. auto. }
      destruct (faithful ft && is_nil n) eqn:E1.
      * apply andb_prop in E1 as [Ef E1]. exists None. split; auto. intros k v. rewrite A. split; [|discriminate].
        intros [H _]. exfalso. apply (H Ef). destruct n; auto; discriminate.
      * assert (Hs : faithful ft = true -> n <> []).
        { intros Ef X. rewrite Ef, X in E1. discriminate. }
        destruct (unescape_total n) as (k0 & Ek). destruct (unescape_total w) as (v0 & Ev).
        exists (Some (k0, v0)). split.
        -- intro ret. rewrite Ek. cbn [obind]. rewrite Ev. reflexivity.
        -- intros k v. rewrite A. apply unescape_hex_spec in Ek, Ev. split.
           ++ intros (_ & Dk & Dv). rewrite (decoded_fun _ _ _ Dk Ek), (decoded_fun _ _ _ Dv Ev). auto.
           ++ intro H. injection H as <- <-. auto.
    + apply find_char_None in E.
      destruct (unescape_total tok) as (k0 & Ek). exists (Some (k0, [])). split.
      * intro ret. rewrite Ek. reflexivity.
      * apply unescape_hex_spec in Ek. intros k v. split.
        -- intros [_ [(n' & w' & E' & _)|(_ & Dk & ->)]].
           ++ exfalso. apply E. rewrite E'. apply in_or_app. right. left. auto.
           ++ rewrite (decoded_fun _ _ _ Dk Ek). auto.
        -- intro H. injection H as <- <-. split; auto.
Qed.
Lemma ofoldl_snoc {A B'} (f : A -> B' -> outcome A) l x : forall a,
  ofoldl f a (l ++ [x]) = obind (ofoldl f a l) (fun a' => f a' x).
Proof.
  induction l as [|y l IH]; intro a; simpl.
  - destruct (f a x); reflexivity.
  - destruct (f a y); simpl; auto.
Qed.
Lemma query_fold ft l : exists m, ofoldl (parse_query_item ft) [] l = Done m /\
  forall k, last_in (assigns (faithful ft) k) l (mget seqb k m).
Proof.
  induction l as [|x l IH] using rev_ind.
  - exists []. split; auto. intros k a v [].
  - destruct IH as (m & E & H). destruct (query_item_spec ft x) as (o & P & A).
    eexists. rewrite ofoldl_snoc, E. cbn [obind]. split; [apply P|]. intro k.
    assert (Old : (forall v, ~ assigns (faithful ft) k x v) ->
                  last_in (assigns (faithful ft) k) (l ++ [x]) (mget seqb k m)).
    { intro N. specialize (H k). unfold last_in in *. destruct (mget seqb k m) as [v|].
      - destruct H as (pre & a & post & -> & Ha & Hp). exists pre, a, (post ++ [x]).
        split; [rewrite <- app_assoc; auto|]. split; auto. intros a' v' I. apply in_app_or in I as [I|[<-|[]]]; auto.
      - intros a v I. apply in_app_or in I as [I|[<-|[]]]; auto. }
    destruct o as [[k0 v0]|].
    + rewrite (mget_mset seqb seqb_eq). destruct (seqb_spec k k0) as [->|N].
      * exists l, x, []. split; auto. split; [apply A; auto|]. intros a' v' [].
      * apply Old. intros v X. apply A in X. congruence.
    + apply Old. intros v X. apply A in X. discriminate.
Qed.

(** ** Extended queries *)
Lemma split_at_first (c : byte) n w n' w' :
  n ++ [c] ++ w = n' ++ [c] ++ w' -> ~ In c n -> ~ In c n' -> n = n' /\ w = w'.
Proof.
  intros E H H'. assert (L : find_char c (n ++ c :: w) = find_char c (n' ++ c :: w')) by (simpl in E; congruence).
  rewrite !find_char_app in L by auto. injection L as L.
  apply app_length_inj in E as [-> E]; auto. injection E as ->. auto.
Qed.
Lemma split_at_last (c : byte) n w n' w' :
  n ++ [c] ++ w = n' ++ [c] ++ w' -> ~ In c w -> ~ In c w' -> n = n' /\ w = w'.
Proof.
  intros E H H'. apply (f_equal (@rev byte)) in E. rewrite !rev_app_distr in E. simpl in E.
  rewrite <- !app_assoc in E.
  apply split_at_first in E as [E1 E2]; try (rewrite <- in_rev; auto).
  apply (f_equal (@rev byte)) in E1, E2. rewrite !rev_involutive in *. auto.
Qed.
Lemma bracketed_fun n k x k' x' : bracketed n k x -> bracketed n k' x' -> k = k' /\ x = x'.
Proof.
  intros [E H] [E' H']. rewrite E in E'. rewrite !app_assoc in E'. apply app_inj_tail in E' as [E' _].
  rewrite <- !app_assoc in E'. apply split_at_last in E'; auto.
Qed.
Lemma in_item n w : In x3d (n ++ [x3d] ++ w).
Proof. apply in_or_app. right. left. auto. Qed.
Lemma bracketed_nonempty n k x : bracketed n k x -> n <> [].
Proof. intros [-> _]. destruct k; discriminate. Qed.

(** Items with an '=' in view of their two parts. *)
Lemma ext_means_eq strict n w o : ~ In x3d n -> ext_means strict (n ++ [x3d] ++ w) o ->
  (n = [] /\ o = None) \/
  (exists k v, bracketed n k [] /\ decoded w v /\ o = Some (EArr k v)) \/
  (exists k x v, bracketed n k x /\ x <> [] /\ decoded w v /\ o = Some (EObj k x v)) \/
  (exists k v, n <> [] /\ (forall k' x', ~ bracketed n k' x') /\ decoded n k /\ decoded w v /\
     o = Some (EPlain k v)).
Proof.
  intros Hn H. remember (n ++ [x3d] ++ w) as item eqn:E.
  destruct H as [Hs|item k Hi _ _|w'|n' k w' v Hn' Hb Dv|n' k x w' v Hn' Hb Hx Dv|n' k w' v Hne Hn' Hb Dk Dv].
  - destruct n; discriminate.
  - exfalso. apply Hi. rewrite E. apply in_item.
  - change ([x3d] ++ w') with ([] ++ [x3d] ++ w') in E. apply split_eq in E as [<- _]; auto.
  - apply split_eq in E as [<- <-]; auto. right. left. eauto.
  - apply split_eq in E as [<- <-]; auto. right. right. left. exists k, x, v. auto.
  - apply split_eq in E as [<- <-]; auto. right. right. right. exists k, v. auto.
Qed.
Lemma ext_means_flag strict item o : ~ In x3d item -> ext_means strict item o ->
  (strict = true /\ item = [] /\ o = None) \/
  ((strict = true -> item <> []) /\ exists k, decoded item k /\ o = Some (EPlain k [])).
Proof.
  intros Hn H. destruct H; auto; try (exfalso; apply Hn; apply in_item).
  - right. eauto.
  - exfalso. apply Hn. left. auto.
Qed.
Lemma ext_means_fun strict item o o' : ext_means strict item o -> ext_means strict item o' -> o = o'.
Proof.
  intros H H'. destruct (find_char EQUALS item) as [i|] eqn:E.
  - apply find_eq_some in E as [E Hn]. rewrite E in H, H'.
    apply ext_means_eq in H; auto. apply ext_means_eq in H'; auto.
    destruct H as [[En ->]|[(k & v & Hb & D & ->)|[(k & x & v & Hb & Hx & D & ->)|(k & v & Hne & Hb & Dk & D & ->)]]];
    destruct H' as [[En' ->]|[(k' & v' & Hb' & D' & ->)|[(k' & x' & v' & Hb' & Hx' & D' & ->)|(k' & v' & Hne' & Hb' & Dk' & D' & ->)]]];
    auto;
    try (exfalso; match goal with
         | H : bracketed ?n _ _, H' : ?n = [] |- _ => exact (bracketed_nonempty _ _ _ H H')
         | H : bracketed ?n _ _, H' : forall k x, ~ bracketed ?n k x |- _ => exact (H' _ _ H)
         | H : ?n = [], H' : ?n <> [] |- _ => exact (H' H)
         end);
    try (assert (v = v') as <- by (eapply decoded_fun; eauto)).
    + destruct (bracketed_fun _ _ _ _ _ Hb Hb') as [<- _]. auto.
    + destruct (bracketed_fun _ _ _ _ _ Hb Hb') as [_ <-]. congruence.
    + destruct (bracketed_fun _ _ _ _ _ Hb Hb') as [_ ->]. congruence.
    + destruct (bracketed_fun _ _ _ _ _ Hb Hb') as [<- <-]. auto.
    + rewrite (decoded_fun _ _ _ Dk Dk'). auto.
  - apply find_char_None in E. apply ext_means_flag in H; auto. apply ext_means_flag in H'; auto.
    destruct H as [(S1 & N1 & ->)|(S1 & k & D & ->)], H' as [(S2 & N2 & ->)|(S2 & k' & D' & ->)]; auto.
    + exfalso. apply S2; auto.
    + exfalso. apply S1; auto.
    + rewrite (decoded_fun _ _ _ D D'). auto.
Qed.

(** The effect of an item on the table. *)
Definition apply_ext (o : option ext) (ret : qmap) : qmap :=
  match o with
  | None => ret
  | Some (EPlain k v) => mset seqb k (QStr v) ret
  | Some (EArr k v) =>
      match mget seqb k ret with
      | None => mset seqb k (QArr [v]) (mset seqb k (QArr []) ret)
      | Some (QArr l) => mset seqb k (QArr (l ++ [v])) ret
      | _ => ret
      end
  | Some (EObj k x v) =>
      match mget seqb k ret with
      | None => mset seqb k (QObj [(x, v)]) (mset seqb k (QObj []) ret)
      | Some (QObj m) => mset seqb k (QObj (mset seqb x v m)) ret
      | _ => ret
      end
  end.

Lemma utf8_parts n c w : (bN c < 0x80)%N -> utf8_valid (n ++ [c] ++ w) = true ->
  utf8_valid n = true /\ utf8_valid w = true.
Proof.
  intros Hc V. 
  assert (S1 : starts_char ([c] ++ w)) by (apply ascii_not_cont; auto).
  destruct (utf8_cut _ _ V S1) as [V1 V2]. split; auto.
  rewrite <- (utf8_step [c]); auto. constructor. auto.
Qed.
Lemma bracket_found name i : nth_error name (length name - 1) = Some x5d ->
  rposition x5b name = Some i ->
  let ind := length name - i - 1 in
  bracketed name (firstn ind name) (firstn (length name - 1 - (ind + 1)) (skipn (ind + 1) name)).
Proof.
  intros HL H ind. unfold rposition in H. apply find_char_Some in H as (E & N & Li).
  rewrite rev_length in Li.
  apply (f_equal (@rev byte)) in E. rewrite rev_involutive, rev_app_distr in E. cbn [rev] in E.
  rewrite <- app_assoc in E. cbn [app] in E.
  set (k := rev (skipn (S i) (rev name))) in *. set (y := rev (firstn i (rev name))) in *.
  assert (Ly : length y = i) by (unfold y; rewrite rev_length, firstn_length, rev_length; lia).
  assert (Ny : ~ In x5b y) by (unfold y; rewrite <- in_rev; auto).
  clearbody k y.
  assert (Ln : length name = length k + S i) . { rewrite E, app_length. cbn [length]. lia. }
  assert (Ei : ind = length k) by (unfold ind; lia).
  destruct (exists_last (l := y)) as (x & z & Ey).
  { intros Ey. rewrite Ey in *. simpl in Ly. subst i.
    rewrite E, app_length in HL. simpl in HL. rewrite nth_error_app2 in HL by lia. replace (length k + 1 - 1 - length k) with 0 in HL by lia.
    discriminate. }
  assert (z = x5d) as ->.
  { rewrite E, Ey in HL. change (k ++ x5b :: x ++ [z]) with (k ++ (x5b :: x) ++ [z]) in HL.
    rewrite app_assoc, app_length in HL. cbn [length] in HL. rewrite nth_error_app2 in HL by lia.
    replace (length (k ++ x5b :: x) + 1 - 1 - length (k ++ x5b :: x)) with 0 in HL by lia.
    injection HL as ->. auto. }
  rewrite Ey, app_length in Ly. simpl in Ly.
  assert (E' : name = k ++ [x5b] ++ x ++ [x5d]) by (rewrite E, Ey; auto).
  assert (K1 : firstn ind name = k).
  { rewrite Ei, E', firstn_app, Nat.sub_diag, firstn_all, firstn_O, app_nil_r. auto. }
  assert (K2 : firstn (length name - 1 - (ind + 1)) (skipn (ind + 1) name) = x).
  { rewrite Ei, E'. replace (length k + 1) with (length (k ++ [x5b])) by (rewrite app_length; auto).
    rewrite app_assoc, skipn_app, skipn_all, Nat.sub_diag. cbn [skipn app].
    replace (length ((k ++ [x5b]) ++ x ++ [x5d]) - 1 - length (k ++ [x5b])) with (length x)
      by (rewrite !app_length; simpl; lia).
    rewrite firstn_app, Nat.sub_diag, firstn_all, firstn_O, app_nil_r. auto. }
  rewrite K1, K2. split; auto. intro I. apply Ny. rewrite Ey. apply in_or_app. auto.
Qed.
Lemma bracketed_last n k x : bracketed n k x -> nth_error n (length n - 1) = Some x5d.
Proof.
  intros [-> _]. rewrite !app_assoc. rewrite app_length. cbn [length]. rewrite nth_error_app2 by lia.
  replace (length ((k ++ [x5b]) ++ x) + 1 - 1 - length ((k ++ [x5b]) ++ x)) with 0 by lia. auto.
Qed.
Lemma bracketed_open n k x : bracketed n k x -> rposition x5b n <> None.
Proof.
  intros [-> _] H. unfold rposition in H. apply find_char_None in H. apply H. rewrite <- in_rev.
  apply in_or_app. right. left. auto.
Qed.

Lemma ext_item_spec ft tok : utf8_valid tok = true -> exists o, ext_means (faithful ft) tok o /\
  forall ret, exists m, parse_ext_item ft ret tok = Done m /\
    forall k, mget seqb k m = mget seqb k (apply_ext o ret).
Proof.
  intro V. unfold parse_ext_item.
  destruct (faithful ft && is_nil tok) eqn:E0.
  - apply andb_prop in E0 as [Ef E0]. destruct tok; [|discriminate].
    exists None. split; [constructor; auto|]. intro ret. exists ret. auto.
  - assert (Hne : faithful ft = true -> tok <> []).
    { intros Ef ->. rewrite Ef in E0. discriminate. }
    destruct (find_char EQUALS tok) as [i|] eqn:E.
    + apply find_eq_some in E as [E Hn].
      set (n := firstn i tok) in *. set (w := skipn 1 (skipn i tok)) in *.
      destruct (unescape_total w) as (v & Ev). apply unescape_hex_spec in Ev as Dv.
      destruct n as [|c0 n0] eqn:En.
      { exists None. split; [rewrite E; constructor|]. intro ret. exists ret. rewrite Ev. auto. }
      rewrite <- En in *. assert (Nn : n <> []) by (rewrite En; discriminate). clearbody n w. 
      rewrite Ev. cbn [obind].
      assert (In0 : is_nil n = false) by (rewrite En; auto). rewrite In0.
      assert (Vn : utf8_valid n = true) by (rewrite E in V; apply utf8_parts in V as [V1 V2]; [auto|reflexivity]).
      destruct (nth_error n (length n - 1)) as [last|] eqn:EL.
      2:{ exfalso. apply nth_error_None in EL. rewrite En in EL. simpl in EL. lia. }
      assert (PL : (forall k' x', ~ bracketed n k' x') -> exists o, ext_means (faithful ft) tok o /\
        forall ret, exists m, obind (unescape_hex n) (fun k => Done (mset seqb k (QStr v) ret)) = Done m /\
          forall k, mget seqb k m = mget seqb k (apply_ext o ret)).
      { intro Hb. destruct (unescape_total n) as (k & Ek). apply unescape_hex_spec in Ek as Dk.
        exists (Some (EPlain k v)). split; [rewrite E; apply em_plain; auto|].
        intro ret. rewrite Ek. cbn [obind]. eexists. split; [reflexivity|]. auto. }
      destruct (beqb last x5d) eqn:Eb.
      2:{ apply PL. intros k' x' Hb. apply bracketed_last in Hb. rewrite EL in Hb. injection Hb as ->.
          discriminate. }
      apply beqb_eq in Eb. subst last.
      destruct (rposition x5b n) as [j|] eqn:Er.
      2:{ apply PL. intros k' x' Hb. apply bracketed_open in Hb. auto. }
      pose proof (bracket_found n j EL Er) as Hb. cbv zeta in Hb.
      set (k := firstn (length n - j - 1) n) in *.
      set (x := firstn (length n - 1 - (length n - j - 1 + 1)) (skipn (length n - j - 1 + 1) n)) in *.
      clearbody k x.
      assert (Vk : utf8_valid k = true /\ utf8_valid x = true).
      { destruct Hb as [Hb _]. rewrite Hb in Vn. apply utf8_parts in Vn as [V1 V2]; [|reflexivity].
        change (x ++ [x5d]) with (x ++ [x5d] ++ []) in V2. apply utf8_parts in V2 as [V2 _]; [auto|reflexivity]. }
      destruct Vk as [Vk Vx]. rewrite Vk, Vx. cbn [negb].
      destruct x as [|x0 x1]; cbn [is_nil].
      * exists (Some (EArr k v)). split; [rewrite E; apply em_arr; auto|].
        intro ret. cbn [apply_ext]. destruct (mget seqb k ret) as [q|] eqn:Eq.
        -- rewrite Eq. destruct q; eexists; (split; [reflexivity|]); auto.
        -- rewrite (mget_mset_same seqb seqb_eq). eexists; (split; [reflexivity|]); auto.
      * exists (Some (EObj k (x0 :: x1) v)). split; [rewrite E; apply em_obj; auto; discriminate|].
        intro ret. cbn [apply_ext]. destruct (mget seqb k ret) as [q|] eqn:Eq.
        -- rewrite Eq. destruct q; eexists; (split; [reflexivity|]); auto.
        -- rewrite (mget_mset_same seqb seqb_eq). eexists; (split; [reflexivity|]); auto.
    + apply find_char_None in E. destruct (unescape_total tok) as (k & Ek). apply unescape_hex_spec in Ek as Dk.
      exists (Some (EPlain k [])). split; [apply em_flag; auto|].
      intro ret. rewrite Ek. cbn [obind]. eexists. split; [reflexivity|]. auto.
Qed.

Lemma somes_app {A} (l l' : list (option A)) : somes (l ++ l') = somes l ++ somes l'.
Proof. induction l as [|[a|] l IH]; simpl; congruence. Qed.

Lemma last_opt_snoc l x : last_opt (l ++ [x]) = Some x.
Proof. unfold last_opt. rewrite rev_unit. auto. Qed.
Lemma last_opt_nil : last_opt [] = None.
Proof. auto. Qed.

(** Equal look-ups, equal results. *)
Lemma ext_result_step k es e o ret :
  (forall k', ext_result k' es (mget seqb k' ret)) -> o = mget seqb k (apply_ext (Some e) ret) ->
  ext_result k (es ++ [e]) o.
Proof.
  intros H ->. specialize (H k) as Hk. unfold ext_result in *.
  unfold plains, brackets, arrs, objs in *. rewrite !flat_map_app. cbn [flat_map]. rewrite !app_nil_r.
  fold (plains k es) in *. fold (brackets k es) in *. fold (arrs k es) in *.
  destruct e as [k0 v|k0 v|k0 x0 v]; cbn [apply_ext].
  - (* plain *)
    destruct (seqb_spec k k0) as [->|N].
    + rewrite last_opt_snoc, (mget_mset_same seqb seqb_eq). auto.
    + rewrite (mget_mset_other seqb seqb_eq) by auto. rewrite !app_nil_r.
      destruct (last_opt (plains k es)); auto. destruct (brackets k es) as [|[] ?]; auto.
      destruct Hk as (m & E & Hm). exists m. split; auto. intro x. rewrite flat_map_app. simpl.
      rewrite !app_nil_r. auto.
  - (* array *)
    rewrite !app_nil_r. destruct (seqb_spec k k0) as [->|N].
    + specialize (H k0). unfold ext_result in H. fold (plains k0 es) (brackets k0 es) in *.
      destruct (last_opt (plains k0 es)) as [w|].
      * rewrite Hk. auto.
      * destruct (brackets k0 es) as [|[] bs] eqn:Eb; cbn [app].
        -- rewrite Hk. rewrite (mget_mset_same seqb seqb_eq).
           assert (Ea : arrs k0 es = []).
           { clear - Eb. induction es as [|e es IH]; auto. unfold arrs, brackets in *. cbn [flat_map] in *.
             apply app_eq_nil in Eb as [E1 E2]. rewrite IH by auto.
             destruct e; simpl in *; auto. destruct (seqb k0 k); [discriminate|auto]. }
           fold (arrs k0 es). rewrite Ea. auto.
        -- rewrite Hk. rewrite (mget_mset_same seqb seqb_eq). auto.
        -- destruct Hk as (m & E & Hm). rewrite E. exists m. split; auto. intro x.
           rewrite flat_map_app. simpl. rewrite app_nil_r. auto.
    + assert (En : mget seqb k (apply_ext (Some (EArr k0 v)) ret) = mget seqb k ret).
      { cbn [apply_ext]. destruct (mget seqb k0 ret) as [[]|]; rewrite ?(mget_mset_other seqb seqb_eq) by auto; auto. }
      cbn [apply_ext] in En. rewrite En, !app_nil_r. destruct (last_opt (plains k es)); auto.
      destruct (brackets k es) as [|[] ?]; auto.
      destruct Hk as (m & E & Hm). exists m. split; auto. intro x. rewrite flat_map_app. simpl.
      rewrite !app_nil_r. auto.
  - rewrite !app_nil_r. destruct (seqb_spec k k0) as [->|N].
    + destruct (last_opt (plains k0 es)) as [w|].
      * rewrite Hk. auto.
      * destruct (brackets k0 es) as [|[] bs] eqn:Eb; cbn [app].
        -- rewrite Hk. rewrite (mget_mset_same seqb seqb_eq).
           assert (Ea : forall x, objs k0 x es = []).
           { intro x. clear - Eb. induction es as [|e es IH]; auto. unfold objs, brackets in *. cbn [flat_map] in *.
             apply app_eq_nil in Eb as [E1 E2]. rewrite IH by auto.
             destruct e; simpl in *; auto. destruct (seqb k0 k); [discriminate|auto]. }
           eexists. split; auto. intro x. rewrite flat_map_app. fold (objs k0 x es). rewrite Ea. simpl.
           rewrite seqb_refl. destruct (seqb x x0); auto.
        -- rewrite Hk. auto.
        -- destruct Hk as (m & E & Hm). rewrite E. eexists.
           split; [apply (mget_mset_same seqb seqb_eq)|]. intro x.
           rewrite (mget_mset seqb seqb_eq), flat_map_app. simpl. fold (objs k0 x es).
           rewrite app_nil_r, seqb_refl. destruct (seqb x x0); simpl.
           ++ rewrite last_opt_snoc. auto.
           ++ rewrite app_nil_r. apply Hm.
    + assert (En : mget seqb k (apply_ext (Some (EObj k0 x0 v)) ret) = mget seqb k ret).
      { cbn [apply_ext]. destruct (mget seqb k0 ret) as [[]|]; rewrite ?(mget_mset_other seqb seqb_eq) by auto; auto. }
      cbn [apply_ext] in En. rewrite En, !app_nil_r. destruct (last_opt (plains k es)); auto.
      destruct (brackets k es) as [|[] ?]; auto.
      destruct Hk as (m & E & Hm). exists m. split; auto. intro x. rewrite flat_map_app. simpl.
      destruct (seqb_spec k k0); [congruence|]. rewrite !app_nil_r. auto.
Qed.
Lemma ext_fold ft l : Forall (fun s => utf8_valid s = true) l ->
  exists m evs, ofoldl (parse_ext_item ft) [] l = Done m /\ Forall2 (ext_means (faithful ft)) l evs /\
    forall k, ext_result k (somes evs) (mget seqb k m).
Proof.
  induction l as [|x l IH] using rev_ind; intro V.
  - exists [], []. split; auto. split; [constructor|]. intro k. reflexivity.
  - apply Forall_app in V as [V Vx]. inversion Vx; subst. destruct IH as (m & evs & E & F & H); auto.
    destruct (ext_item_spec ft x) as (o & Ho & P); auto. destruct (P m) as (m' & Em & Hm).
    exists m', (evs ++ [o]). rewrite ofoldl_snoc, E. cbn [obind]. split; auto.
    split; [apply Forall2_app; auto|]. intro k. rewrite somes_app. destruct o as [e|]; cbn [somes].
    + eapply ext_result_step; eauto.
    + rewrite app_nil_r, Hm. apply H.
Qed.
Lemma Forall2_fun {A C} (R : A -> C -> Prop) : (forall a c c', R a c -> R a c' -> c = c') ->
  forall l m m', Forall2 R l m -> Forall2 R l m' -> m = m'.
Proof.
  intros H l m m' F. revert m'. induction F; intros m' F'; inversion F'; subst; auto.
  f_equal; eauto.
Qed.
