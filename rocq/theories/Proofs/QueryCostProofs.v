(** Proofs for C150. *)
From Coq Require Import Lia.
From Verif.Model Require Import RustStd Path Request Query QueryCost.
From Verif.Spec Require Import Common PathSpec TextSpec RequestSpec ServerSpec QuerySpec SizeSpec.
From Verif.Proofs Require Import Basics Utf8 TextProofs RequestProofs RequestExtra QueryProofs QueryExtra ApiProofs ReachProofs SizeProofs ServerProofs.

(** ** The counting functions compute the same *)
Lemma loop_counted_fst fuel : forall ret p, fst (unescape_loop_counted fuel ret p) = unescape_loop fuel ret p.
Proof.
  induction fuel as [|fuel IH]; intros ret p; [reflexivity|]. cbn [unescape_loop_counted unescape_loop].
  destruct (dp_next 0%N p) as [[val|] p1]; [|reflexivity].
  destruct (negb (N.eqb val 37)); [cbn [tick fst]; apply IH|].
  destruct (dp_peek (dp_set_unpeek p1)) as [[[c1|] p2]|]; [| |reflexivity]; [|cbn [tick fst]; apply IH].
  destruct (dp_peek p2) as [[[c2|] p3]|]; [| |reflexivity]; [|cbn [tick fst]; apply IH].
  destruct (from_hex c1), (from_hex c2); cbn [tick fst]; apply IH.
Qed.
Lemma unescape_counted_fst s : fst (unescape_counted s) = unescape_hex s.
Proof. unfold unescape_counted, unescape_hex, unescape_chars. cbn [fst]. rewrite loop_counted_fst. reflexivity. Qed.
Lemma find_counted_fst c s : fst (find_counted c s) = find_char c s.
Proof.
  induction s as [|x s IH]; [reflexivity|]. cbn [find_counted find_char]. destruct (beqb x c); [reflexivity|].
  cbn [fst]. rewrite IH. destruct (find_char c s); reflexivity.
Qed.
Lemma cbind_fst {A C} (x : outcome A * nat) (f : A -> outcome C * nat) g :
  (forall a, fst (f a) = g a) -> fst (cbind x f) = obind (fst x) g.
Proof. intro E. unfold cbind. destruct (fst x); cbn [obind tick fst]; auto. Qed.
Lemma items_counted_fst {A} (f : A -> str -> outcome A * nat) g l :
  (forall a s, fst (f a s) = g a s) -> forall a, fst (items_counted f a l) = ofoldl g a l.
Proof.
  intro E. induction l as [|x l IH]; intro a; [reflexivity|]. cbn [items_counted ofoldl tick fst].
  rewrite (cbind_fst _ _ (fun a' => ofoldl g a' l)) by auto. rewrite E. reflexivity.
Qed.
Lemma query_item_fst ft ret tok : fst (query_item_counted ft ret tok) = parse_query_item ft ret tok.
Proof.
  unfold query_item_counted, parse_query_item. destruct (faithful ft && is_nil tok); [reflexivity|].
  cbn [tick fst]. rewrite find_counted_fst. destruct (find_char EQUALS tok) as [v|].
  - destruct (faithful ft && is_nil (firstn v tok)); [reflexivity|].
    rewrite <- unescape_counted_fst. apply cbind_fst. intro k. rewrite <- unescape_counted_fst. apply cbind_fst. reflexivity.
  - rewrite <- unescape_counted_fst. apply cbind_fst. reflexivity.
Qed.
Lemma ext_item_fst ft ret tok : fst (ext_item_counted ft ret tok) = parse_ext_item ft ret tok.
Proof.
  unfold ext_item_counted, parse_ext_item. destruct (faithful ft && is_nil tok); [reflexivity|].
  cbn [tick fst]. rewrite find_counted_fst. destruct (find_char EQUALS tok) as [v|].
  - rewrite <- unescape_counted_fst. apply cbind_fst. intro val.
    destruct (is_nil (firstn v tok)); [reflexivity|]. cbn [tick fst]. set (n := firstn v tok).
    assert (Pl : fst (cbind (unescape_counted n) (fun k => insert_counted k (QStr val) ret)) =
                 obind (unescape_hex n) (fun k => Done (mset seqb k (QStr val) ret))).
    { rewrite <- unescape_counted_fst. apply cbind_fst. reflexivity. }
    destruct (nth_error n (length n - 1)) as [last|]; [|reflexivity].
    destruct (beqb last x5d); [|exact Pl]. cbn [tick fst]. unfold rposition. rewrite find_counted_fst.
    destruct (find_char x5b (rev n)) as [i|]; [|exact Pl]. cbn [tick fst].
    destruct (negb (utf8_valid _)); [reflexivity|]. cbn [tick fst].
    destruct (negb (utf8_valid _)); [reflexivity|]. cbn [tick fst].
    destruct (is_nil _); destruct (mget seqb _ ret); cbn [fst snd]; destruct (mget seqb _ _) as [[]|]; reflexivity.
  - rewrite <- unescape_counted_fst. apply cbind_fst. reflexivity.
Qed.
Theorem query_counted_fst ft q : fst (parse_query_counted ft q) = parse_query ft q.
Proof. apply items_counted_fst. apply query_item_fst. Qed.
Theorem ext_counted_fst ft q : fst (parse_extended_query_counted ft q) = parse_extended_query ft q.
Proof. apply items_counted_fst. apply ext_item_fst. Qed.

(** ** Bounds *)
Lemma loop_counted_snd fuel : forall ret (p : dpeek N), dp_stored p <= 2 -> length (pend p) < fuel ->
  snd (unescape_loop_counted fuel ret p) <= S (4 * length (pend p)).
Proof.
  induction fuel as [|fuel IH]; intros ret p Hs L; [lia|].
  cbn [unescape_loop_counted].
  destruct (dp_next_spec 0%N p Hs) as (E1 & E2 & E3).
  destruct (dp_next 0%N p) as [o p1]. cbn [fst snd] in *. subst o.
  destruct (pend p) as [|c r] eqn:Ep; cbn [hd_error tl] in *; [cbn [snd]; lia|]. cbn [length] in *.
  assert (K : forall q ret', pend q = r -> dp_stored q <= 2 -> snd (unescape_loop_counted fuel ret' q) <= S (4 * length r)).
  { intros q ret' Eq Hq. rewrite <- Eq. apply IH; auto. rewrite Eq. lia. }
  destruct (N.eqb c 37) eqn:Ec; cbn [negb].
  2:{ cbn [tick snd]. specialize (K p1 (ret ++ [c]) E2 ltac:(lia)). lia. }
  destruct (dp_peek_first (dp_set_unpeek p1)) as (p2 & F1 & F2 & F3 & F4); [simpl; lia|reflexivity|].
  rewrite F1. rewrite pend_reset, E2 in *. specialize (F4 E3).
  destruct r as [|a r]; cbn [hd_error].
  - cbn [tick snd]. specialize (K p2 (ret ++ [37%N]) F2). rewrite F4 in K. simpl in K. specialize (K ltac:(lia)). lia.
  - cbn [length] in *. rewrite Nat.min_l in F4 by lia.
    destruct (dp_peek_second p2) as (p3 & G1 & G2 & G3); auto. rewrite F2 in *.
    rewrite G1. cbn [nth_error]. pose proof (K p3 (ret ++ [37%N]) G2 G3) as K3.
    destruct r as [|b r]; cbn [nth_error].
    + cbn [tick snd]. lia.
    + destruct (from_hex a) as [x|]; [|cbn [tick snd]; lia].
      destruct (from_hex b) as [y|]; [|cbn [tick snd]; lia].
      destruct (dp_next_spec 0%N p3 G3) as (_ & N2 & N3).
      destruct (dp_next_spec 0%N (snd (dp_next 0%N p3))) as (_ & M2 & M3); [lia|].
      rewrite N2, G2 in M2. cbn [tl] in M2. cbn [tick snd length] in *.
      specialize (IH (ret ++ [(x * 16 + y)%N]) (snd (dp_next 0%N (snd (dp_next 0%N p3)))) ltac:(lia)).
      rewrite M2 in IH. specialize (IH ltac:(lia)). lia.
Qed.
Lemma chars_length s : utf8_valid s = true -> length (chars s) <= length s.
Proof.
  intro V. destruct (of_chars_chars s V) as [E F]. rewrite <- E at 2. generalize F. generalize (chars s).
  clear. induction l as [|c l IH]; intro F; [simpl; lia|]. inversion F; subst.
  change (of_chars (c :: l)) with (encode_char c ++ of_chars l). rewrite app_length. cbn [length].
  specialize (IH H2). enough (1 <= length (encode_char c)) by lia.
  unfold encode_char. repeat match goal with |- context [if ?b then _ else _] => destruct b end; cbn [length]; lia.
Qed.
Theorem decode_work s : utf8_valid s = true -> snd (unescape_counted s) <= S (4 * length s).
Proof.
  intro V. unfold unescape_counted. cbn [snd].
  eapply Nat.le_trans; [apply loop_counted_snd; [cbn; lia|apply Nat.lt_succ_diag_r]|].
  change (pend (dp_new 0%N (chars s))) with (chars s). apply le_n_S, Nat.mul_le_mono_l, chars_length, V.
Qed.
Lemma find_counted_snd c s : snd (find_counted c s) <= length s.
Proof. induction s as [|x s IH]; cbn [find_counted]; [cbn [snd length]; lia|]. destruct (beqb x c); cbn [snd length]; lia. Qed.
Lemma cbind_unescape {C} s (f : str -> outcome C * nat) : utf8_valid s = true -> exists d, unescape_hex s = Done d /\
  length d <= length s /\ snd (cbind (unescape_counted s) f) <= S (4 * length s) + snd (f d) /\
  fst (cbind (unescape_counted s) f) = fst (f d).
Proof.
  intro V. destruct (unescape_size s V) as (d & E & L). exists d. split; auto. split; auto.
  pose proof (decode_work s V). unfold cbind. rewrite unescape_counted_fst, E. cbn [tick snd fst]. split; [lia|auto].
Qed.
Lemma items_work {A} (f : A -> str -> outcome A * nat) k l :
  (forall a s, utf8_valid s = true -> S (length s) + snd (f a s) <= k * S (length s)) ->
  Forall (fun s => utf8_valid s = true) l ->
  forall a, snd (items_counted f a l) <= k * list_sum (map (fun p : str => S (length p)) l).
Proof.
  intros F V. induction V as [|x l Vx V IH]; intro a; [cbn [items_counted snd]; lia|].
  cbn [items_counted tick snd]. specialize (F a x Vx).
  change (list_sum (map (fun p : str => S (length p)) (x :: l))) with (S (length x) + list_sum (map (fun p : str => S (length p)) l)).
  rewrite Nat.mul_add_distr_l. unfold cbind. destruct (fst (f a x)) as [b|].
  - cbn [tick snd]. specialize (IH b). lia.
  - cbn [snd]. lia.
Qed.
Lemma query_item_work ft ret tok : utf8_valid tok = true ->
  S (length tok) + snd (query_item_counted ft ret tok) <= 7 * S (length tok).
Proof.
  intro V. unfold query_item_counted. destruct (faithful ft && is_nil tok); [cbn [snd]; lia|].
  cbn [tick snd]. pose proof (find_counted_snd EQUALS tok) as Lf. rewrite find_counted_fst.
  destruct (find_char EQUALS tok) as [i|] eqn:E.
  - apply find_eq_some in E as [E Hn]. rewrite E in V. apply eq_parts_valid in V as [V1 V2].
    assert (L : length tok = length (firstn i tok) + S (length (skipn 1 (skipn i tok)))).
    { rewrite E at 1. rewrite !app_length. reflexivity. }
    destruct (faithful ft && is_nil (firstn i tok)); [cbn [snd]; lia|].
    match goal with |- context [cbind (unescape_counted (firstn i tok)) ?f] => destruct (cbind_unescape (firstn i tok) f V1) as (k & _ & Lk & Wk & _) end.
    cbv beta in Wk.
    match type of Wk with _ <= _ + snd (cbind _ ?f) => destruct (cbind_unescape _ f V2) as (x & _ & Lx & Wx & _) end.
    cbn [insert_counted snd] in *. unfold strmap, qmap, str in *. lia.
  - match goal with |- context [cbind (unescape_counted tok) ?f] => destruct (cbind_unescape tok f V) as (k & _ & Lk & Wk & _) end.
    cbn [insert_counted snd] in *. unfold strmap, qmap, str in *. lia.
Qed.
Lemma ext_item_work ft ret tok : utf8_valid tok = true ->
  S (length tok) + snd (ext_item_counted ft ret tok) <= 9 * S (length tok).
Proof.
  intro V. unfold ext_item_counted. destruct (faithful ft && is_nil tok); [cbn [snd]; lia|].
  cbn [tick snd]. pose proof (find_counted_snd EQUALS tok) as Lf. rewrite find_counted_fst.
  destruct (find_char EQUALS tok) as [i|] eqn:E.
  - apply find_eq_some in E as [E Hn]. rewrite E in V. apply eq_parts_valid in V as [V1 V2].
    assert (L : length tok = length (firstn i tok) + S (length (skipn 1 (skipn i tok)))).
    { rewrite E at 1. rewrite !app_length. reflexivity. }
    set (n := firstn i tok) in *. set (w := skipn 1 (skipn i tok)) in *. clearbody n w.
    match goal with |- context [cbind (unescape_counted w) ?f] => destruct (cbind_unescape w f V2) as (v & _ & Lv & Wv & _) end.
    eapply Nat.le_trans; [apply Nat.add_le_mono_l, Nat.add_le_mono_l, Wv|]. clear Wv.
    match goal with |- _ + (_ + (_ + snd ?r)) <= _ => enough (snd r <= 7 * length n + 3) by lia end.
    destruct (is_nil n) eqn:En; [cbn [snd]; lia|]. cbn [tick snd].
    assert (Ln : 1 <= length n) by (destruct n; [discriminate|cbn [length]; lia]).
    assert (Pl : snd (cbind (unescape_counted n) (fun k => insert_counted k (QStr v) ret)) <= 5 * length n + 2).
    { match goal with |- context [cbind (unescape_counted n) ?f] => destruct (cbind_unescape n f V1) as (k & _ & Lk & Wk & _) end.
      cbn [insert_counted snd] in *. unfold strmap, qmap, str in *. lia. }
    destruct (nth_error n (length n - 1)) as [last|]; [|cbn [snd]; lia].
    destruct (beqb last x5d); [|unfold qmap, str in *; lia]. cbn [tick snd].
    pose proof (find_counted_snd x5b (rev n)) as Lb. rewrite rev_length in Lb. rewrite find_counted_fst.
    destruct (find_char x5b (rev n)) as [j|] eqn:Ej; [|unfold qmap, str in *; lia]. cbn [tick snd].
    apply find_char_Some in Ej as (_ & _ & Hj). rewrite rev_length in Hj.
    set (o := firstn (length n - j - 1) n). set (x := firstn (length n - 1 - (length n - j - 1 + 1)) (skipn (length n - j - 1 + 1) n)).
    assert (Lo : length o + length x <= length n - 1).
    { unfold o, x. rewrite !firstn_length, skipn_length. lia. }
    clearbody o x.
    destruct (negb (utf8_valid o)); [cbn [snd]; lia|]. cbn [tick snd].
    destruct (negb (utf8_valid x)); [cbn [snd]; lia|]. cbn [tick snd].
    destruct (mget seqb o ret) as [q|]; cbn [fst snd];
      destruct (is_nil x); match goal with |- context [mget seqb o ?m] => destruct (mget seqb o m) as [[]|] end; cbn [snd]; lia.
  - match goal with |- context [cbind (unescape_counted tok) ?f] => destruct (cbind_unescape tok f V) as (k & _ & Lk & Wk & _) end.
    cbn [insert_counted snd] in *. unfold strmap, qmap, str in *. lia.
Qed.
Theorem query_work ft q : utf8_valid q = true -> snd (parse_query_counted ft q) <= 7 * S (length q).
Proof.
  intro V. rewrite <- (pieces_size AMP q). apply items_work; [intros; apply query_item_work; auto|].
  exact (pieces_valid AMP q eq_refl V).
Qed.
Theorem ext_work ft q : utf8_valid q = true -> snd (parse_extended_query_counted ft q) <= 9 * S (length q).
Proof.
  intro V. rewrite <- (pieces_size AMP q). apply items_work; [intros; apply ext_item_work; auto|].
  exact (pieces_valid AMP q eq_refl V).
Qed.
Lemma request_path ft cl t (rq : request cl) : real_segments t -> read_request ft cl t = IoDone (RdRequest rq) ->
  utf8_valid (path_display (rl_path (rq_line rq))) = true /\ S (length (path_display (rl_path (rq_line rq)))) <= length (stream_of t).
Proof.
  intros R E. pose proof (read_request_cases ft cl t R) as C. rewrite E in C.
  destruct C as (rl & hs & cs & body & (a & b & (Es & _) & (V & rlt & hst & Hp & Hl & Hb & Hc) & _ & _ & Bc) & Rl & _).
  pose proof (path_sendable _ _ _ _ _ V Hp Hl) as Sd.
  split.
  - rewrite Rl. apply display_valid. eapply Forall_impl; [|exact Sd]. intros s Hs. apply Hs.
  - assert (Ls : length (stream_of t) = length rlt + 2 + length hst + 4 + length b).
    { rewrite Es. destruct Hp as [-> _]. rewrite !app_length. change (length CRLF) with 2. change (length CRLFCRLF) with 4. lia. }
    destruct Hl as (m & p & first & ver & rest & (_ & _ & <-) & L5 & _ & _ & Pm & _). apply path_size in Pm. rewrite Rl.
    enough (length p <= length (join [x20] (m :: p :: (first ++ ver) :: rest))) by lia.
    change (join [x20] (m :: p :: (first ++ ver) :: rest)) with (m ++ [x20] ++ p ++ [x20] ++ join [x20] ((first ++ ver) :: rest)).
    rewrite !app_length. lia.
Qed.
Theorem request_work ft cl t (rq : request cl) : real_segments t -> read_request ft cl t = IoDone (RdRequest rq) ->
  snd (get_query_counted ft rq) <= 8 * length (stream_of t) /\
  snd (get_extended_query_counted ft rq) <= 10 * length (stream_of t).
Proof.
  intros R E. destruct (request_path ft cl t rq R E) as [V L].
  unfold get_query_counted, get_extended_query_counted. cbn [tick snd].
  pose proof (query_work ft _ V). pose proof (ext_work ft _ V). split; lia.
Qed.
Theorem get_counted_fst ft cl (rq : request cl) :
  fst (get_query_counted ft rq) = get_query ft rq /\ fst (get_extended_query_counted ft rq) = get_extended_query ft rq.
Proof. split; cbn [tick fst]; [apply query_counted_fst|apply ext_counted_fst]. Qed.
Theorem counted_same ft cl (rq : request cl) q s :
  fst (get_query_counted ft rq) = get_query ft rq /\ fst (get_extended_query_counted ft rq) = get_extended_query ft rq /\
  fst (parse_query_counted ft q) = parse_query ft q /\ fst (parse_extended_query_counted ft q) = parse_extended_query ft q /\
  fst (unescape_counted s) = unescape_hex s.
Proof.
  repeat split; [apply get_counted_fst|apply get_counted_fst|apply query_counted_fst|apply ext_counted_fst|apply unescape_counted_fst].
Qed.
