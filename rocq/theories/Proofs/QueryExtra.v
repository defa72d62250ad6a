(** The query theorems in their final form. *)
From Verif.Model Require Export Query Router.
From Verif.Proofs Require Export QueryProofs.
From Verif.Proofs Require Import PathExtra RouterExtra RequestExtra.
From Verif.Spec Require Import Common PathSpec TextSpec RoutingSpec QuerySpec.

(** ** C31 *)
Lemma scalar_ascii s : Forall (fun b => (bN b < 0x80)%N) s -> Forall scalar (map bN s).
Proof. intros _. apply latin1_scalar. Qed.
Lemma chars_all_ascii s : Forall (fun b => (bN b < 0x80)%N) s -> chars s = map bN s.
Proof. induction 1; auto. rewrite chars_ascii by auto. simpl. congruence. Qed.
Lemma ascii_valid s : Forall (fun b => (bN b < 0x80)%N) s -> utf8_valid s = true.
Proof.
  induction 1 as [|b s Hb H IH]; auto. change (b :: s) with ([b] ++ s). rewrite utf8_step; auto.
  constructor. auto.
Qed.
Lemma of_chars_ascii s : Forall (fun b => (bN b < 0x80)%N) s -> of_chars (map bN s) = s.
Proof.
  intro H. rewrite <- chars_all_ascii by auto. apply of_chars_chars. apply ascii_valid. auto.
Qed.
Lemma lone_percent_bytes a b d : utf8_valid a = true -> utf8_valid b = true -> ~ In x25 a ->
  ~ two_hex (chars b) -> unescape_hex b = Done d ->
  unescape_hex (a ++ [x25] ++ b) = Done (a ++ [x25] ++ d).
Proof.
  intros Va Vb Ha Hb E. apply unescape_hex_spec in E as (t & D & ->). apply unescape_hex_spec.
  exists (chars a ++ 37%N :: t). split.
  - rewrite chars_app by auto. cbn [app]. rewrite chars_ascii by reflexivity.
    apply decodes_app_copy; [|apply dec_lone; auto].
    intro X. apply In_chars in X as (c & Hc & Ec); auto; [|reflexivity].
    assert (c = x25) as -> by (apply bN_inj; exact Ec). auto.
  - unfold of_chars. rewrite flat_map_app. cbn [flat_map].
    replace (flat_map encode_char (chars a)) with a by (symmetry; apply (of_chars_chars a Va)). reflexivity.
Qed.

(** ** C34, C37 *)
Lemma query_lookup ft q : exists m, parse_query ft q = Done m /\
  forall items, pieces_of [x26] q items ->
  forall k, last_in (assigns (faithful ft) k) items (mget seqb k m).
Proof.
  destruct (query_fold ft (split_char AMP q)) as (m & E & H). exists m. split; auto.
  intros items P. apply pieces1_unique in P as ->. exact H.
Qed.
Lemma pieces_valid c s : (bN c < 0x80)%N -> utf8_valid s = true ->
  Forall (fun p => utf8_valid p = true) (split_char c s).
Proof.
  intros Hc. assert (P : pieces_of [c] s (split_char c s)) by (apply pieces1_unique; auto).
  destruct P as (N & _ & J). revert N J.
  generalize (split_char c s) as l. intro l. revert s. induction l as [|p l IH]; intros s' N J V.
  - constructor.
  - destruct l as [|p' l]; [simpl in J; subst; auto|].
    simpl in J. rewrite <- J in V. change (c :: join [c] (p' :: l)) with ([c] ++ join [c] (p' :: l)) in V.
    apply utf8_parts in V as [V1 V2]; auto. constructor; auto. eapply IH; eauto. discriminate.
Qed.
Lemma ext_lookup ft q : utf8_valid q = true -> exists m, parse_extended_query ft q = Done m /\
  forall items, pieces_of [x26] q items ->
  exists evs, Forall2 (ext_means (faithful ft)) items evs /\
    forall k, ext_result k (somes evs) (mget seqb k m).
Proof.
  intro V. destruct (ext_fold ft (split_char AMP q)) as (m & evs & E & F & H).
  { apply pieces_valid; auto. reflexivity. }
  exists m. split; auto. intros items P. apply pieces1_unique in P as ->. eauto.
Qed.
Lemma ext_items_unique strict items evs evs' :
  Forall2 (ext_means strict) items evs -> Forall2 (ext_means strict) items evs' -> evs = evs'.
Proof. apply Forall2_fun. intros a c c'. apply ext_means_fun. Qed.

(** ** C35 *)
Lemma get_query_path {cl} ft (r : request cl) p k v :
  plain_text p -> plain_text k -> plain_text v -> rl_path (rq_line r) = [p ++ [x3f] ++ k ++ [x3d] ++ v] ->
  exists m, get_query ft r = Done m /\
    forall k', mget seqb k' m = if seqb k' (p ++ [x3f] ++ k) then Some (v ++ [x2f]) else None.
Proof.
  intros (Vp & Pp & Ap & Ep) (Vk & Pk & Ak & Ek) (Vv & Pv & Av & Ev) Hr.
  unfold get_query. rewrite Hr. unfold parse_query.
  assert (D : path_display [p ++ [x3f] ++ k ++ [x3d] ++ v] = (p ++ [x3f] ++ k) ++ [x3d] ++ v ++ [x2f]).
  { cbn. rewrite <- !app_assoc. cbn. rewrite <- !app_assoc. reflexivity. }
  rewrite D.
  assert (Nn : forall c, (In c (p ++ [x3f] ++ k) -> In c p \/ c = x3f \/ In c k)).
  { intros c H. apply in_app_or in H as [H|[H|H]]; auto. }
  assert (Vn : utf8_valid (p ++ [x3f] ++ k) = true).
  { rewrite utf8_app by auto. rewrite utf8_step; [auto|constructor; reflexivity]. }
  rewrite split_char_no_sep_id.
  2:{ intro H. apply in_app_or in H as [H|[H|H]].
      - apply Nn in H as [H|[H|H]]; auto; discriminate.
      - discriminate.
      - apply (in_app_or v [x2f]) in H as [H|[H|[]]]; auto; discriminate. }
  cbn [ofoldl]. unfold parse_query_item.
  assert (Ne : forall x w : str, is_nil (x ++ [x3d] ++ w) = false) by (intros [|]; auto). rewrite Ne, andb_false_r.
  assert (F : find_char EQUALS ((p ++ [x3f] ++ k) ++ [x3d] ++ v ++ [x2f]) = Some (length (p ++ [x3f] ++ k))).
  { apply find_char_app. intro H. apply Nn in H as [H|[H|H]]; auto; discriminate. }
  rewrite F. rewrite firstn_app, Nat.sub_diag, firstn_all, firstn_O, app_nil_r.
  rewrite skipn_app, skipn_all, Nat.sub_diag. cbn [skipn app].
  assert (Ne2 : is_nil (p ++ x3f :: k) = false) by (destruct p; auto). rewrite Ne2, andb_false_r.
  rewrite unescape_plain; [|exact Vn|].
  2:{ intro H. apply Nn in H as [H|[H|H]]; auto; discriminate. }
  cbn [obind]. rewrite unescape_plain.
  2:{ rewrite utf8_app by auto. reflexivity. }
  2:{ intro H. apply in_app_or in H as [H|[H|[]]]; auto; discriminate. }
  cbn [obind]. eexists. split; [reflexivity|]. intro k'. rewrite (mget_mset seqb seqb_eq). reflexivity.
Qed.
Lemma get_query_misses {cl} ft (r : request cl) p k v :
  plain_text p -> plain_text k -> plain_text v -> rl_path (rq_line r) = [p ++ [x3f] ++ k ++ [x3d] ++ v] ->
  exists m, get_query ft r = Done m /\ mget seqb k m = None /\ mget seqb (p ++ [x3f] ++ k) m = Some (v ++ [x2f]).
Proof.
  intros Hp Hk Hv Hr. destruct (get_query_path ft r p k v Hp Hk Hv Hr) as (m & E & H). exists m. split; auto.
  rewrite !H, seqb_refl. split; auto. destruct (seqb_spec k (p ++ [x3f] ++ k)) as [X|]; auto.
  apply (f_equal (@length byte)) in X. rewrite !app_length in X. simpl in X. lia.
Qed.

(** What it returns instead: only the items between the first and the last are read as sent. *)
Lemma join_around sep a b mid z c : join sep ((a ++ b) :: mid ++ [z ++ c]) = a ++ join sep (b :: mid ++ [z]) ++ c.
Proof.
  assert (T : forall l, join sep (l ++ [z ++ c]) = join sep (l ++ [z]) ++ c).
  { induction l as [|x l IH]; [reflexivity|]. cbn [app]. rewrite !join_cons_assoc by (destruct l; discriminate).
    rewrite IH, !app_assoc. reflexivity. }
  rewrite !join_cons_assoc by (destruct mid; discriminate). rewrite T, !app_assoc. reflexivity.
Qed.
Lemma query_pieces dir p first mid lst :
  Forall (fun s => ~ In x26 s) (p :: first :: lst :: dir ++ mid) ->
  pieces_of [x26] (path_display (dir ++ [p ++ [x3f] ++ join [x26] (first :: mid ++ [lst])]))
    ((path_display dir ++ p ++ [x3f] ++ first) :: mid ++ [lst ++ [x2f]]).
Proof.
  intros F. inversion F as [|? ? Fp F1]; subst. inversion F1 as [|? ? Ff F2]; subst. inversion F2 as [|? ? Fl F3]; subst.
  apply Forall_app in F3 as [Fd Fm]. clear F F1 F2.
  assert (Nd : ~ In x26 (path_display dir)).
  { unfold path_display. intro H. apply in_flat_map in H as (c & Hc & H). rewrite Forall_forall in Fd.
    apply in_app_or in H as [H|[H|[]]]; [apply (Fd c Hc H)|discriminate]. }
  split; [discriminate|]. split.
  - constructor.
    + rewrite occurs1. intro H. apply in_app_or in H as [H|H]; auto. apply in_app_or in H as [H|[H|H]]; auto. discriminate.
    + apply Forall_app. split.
      * eapply Forall_impl; [|exact Fm]. intros x Hx. rewrite occurs1. exact Hx.
      * constructor; [|constructor]. rewrite occurs1. intro H. apply in_app_or in H as [H|[H|[]]]; auto. discriminate.
  - replace (path_display dir ++ p ++ [x3f] ++ first) with ((path_display dir ++ p ++ [x3f]) ++ first)
      by (rewrite <- !app_assoc; reflexivity).
    rewrite join_around. unfold path_display at 2. rewrite flat_map_app. cbn [flat_map]. rewrite app_nil_r.
    rewrite <- !app_assoc. reflexivity.
Qed.
Lemma get_query_items {cl} ft (r : request cl) dir p first mid lst :
  rl_path (rq_line r) = dir ++ [p ++ [x3f] ++ join [x26] (first :: mid ++ [lst])] ->
  Forall (fun s => ~ In x26 s) (p :: first :: lst :: dir ++ mid) ->
  exists m, get_query ft r = Done m /\
  forall k, last_in (assigns (faithful ft) k)
    ((path_display dir ++ p ++ [x3f] ++ first) :: mid ++ [lst ++ [x2f]]) (mget seqb k m).
Proof.
  intros E F. unfold get_query. rewrite E.
  destruct (query_lookup ft (path_display (dir ++ [p ++ [x3f] ++ join [x26] (first :: mid ++ [lst])]))) as (m & Em & H).
  exists m. split; [exact Em|]. apply H. apply query_pieces. exact F.
Qed.

(** ** C33 *)
Lemma dp_transparent (T : Type) (dflt : T) items ops :
  exists s, dp_run dflt ops (dp_new dflt items) =
            Done (map (nth_error items) (seq 0 (count_next ops)), s).
Proof.
  destruct (dp_run_spec dflt ops (dp_new dflt items)) as (s & E & _); [simpl; lia|]. exists s. exact E.
Qed.
Lemma dp_peeks (T : Type) (dflt : T) items ops l s :
  dp_run dflt ops (dp_new dflt items) = Done (l, s) -> dp_stored s <= 1 ->
  let n := count_next ops in
  exists s1 s2, dp_peek (dp_set_unpeek s) = Done (nth_error items n, s1) /\
    dp_peek s1 = Done (nth_error items (S n), s2) /\
    forall ops', exists s', dp_run dflt ops' s2 =
      Done (map (nth_error (skipn n items)) (seq 0 (count_next ops')), s').
Proof.
  intros E Hs n. destruct (dp_run_spec dflt ops (dp_new dflt items)) as (s0 & E0 & P & _); [simpl; lia|].
  rewrite E in E0. injection E0 as _ ->. change (pend (dp_new dflt items)) with items in P. fold n in P.
  destruct (dp_peek_first (dp_set_unpeek s0)) as (s1 & F1 & F2 & F3 & F4); [simpl; lia|reflexivity|].
  rewrite pend_reset, P in *. specialize (F4 Hs).
  assert (Nn : forall j, nth_error items (n + j) = nth_error (skipn n items) j).
  { intro j. rewrite <- (firstn_skipn n items) at 1.
    destruct (Nat.le_gt_cases n (length items)) as [L|L].
    - rewrite nth_error_app2 by (rewrite firstn_length; lia). rewrite firstn_length. f_equal. lia.
    - rewrite skipn_all2 by lia. rewrite app_nil_r, firstn_all2 by lia.
      transitivity (@None T); [apply nth_error_None; lia|destruct j; auto]. }
  rewrite <- (Nat.add_0_r n), Nn. replace (S (n + 0)) with (n + 1) by lia. rewrite Nn, Nat.add_0_r.
  exists s1. destruct (skipn n items) as [|x r] eqn:Er.
  - simpl in F4. assert (Q : exists s2, dp_peek s1 = Done (None, s2) /\ pend s2 = [] /\ dp_stored s2 <= 2).
    { destruct s1 as [it c0 c1 st u]. simpl in *. subst. unfold pend in *. simpl in *. subst it.
      unfold dp_peek. simpl. eexists. split; [reflexivity|]. simpl. auto. }
    destruct Q as (s2 & Q1 & Q2 & Q3). exists s2. split; [exact F1|]. split; [exact Q1|].
    intro ops'. destruct (dp_run_spec dflt ops' s2 Q3) as (s' & R & _). rewrite Q2 in R. eauto.
  - simpl in F4. destruct (dp_peek_second s1 F4 F3) as (s2 & Q1 & Q2 & Q3). rewrite F2 in *.
    exists s2. split; [exact F1|]. split; [exact Q1|].
    intro ops'. destruct (dp_run_spec dflt ops' s2 Q3) as (s' & R & _). rewrite Q2 in R. eauto.
Qed.
Lemma dp_shown_from (T : Type) (dflt : T) ops : forall s, dp_stored s <= 2 ->
  dp_shown dflt ops s = Done (looks ops (pend s) (dp_stored s) (dp_unpeek s)).
Proof.
  induction ops as [|op ops IH]; intros [it c0 c1 st u] H; [reflexivity|]. cbn [dp_stored] in H.
  destruct op; cbn [dp_shown looks]; [| |unfold dp_set_unpeek; rewrite IH by exact H; reflexivity].
  - destruct st as [|[|[|st]]]; [destruct it| | |lia]; rewrite IH by (cbn; lia); reflexivity.
  - destruct st as [|[|[|st]]]; [| | |lia]; destruct u; try destruct it as [|i it];
      unfold dp_peek; cbn [dp_unpeek dp_stored andb Nat.ltb Nat.leb Nat.eqb dp_iter obind fst snd dp_cache0 dp_cache1];
      rewrite IH by (cbn; lia); try reflexivity.
Qed.
Lemma dp_every_peek (T : Type) (dflt : T) items ops : dp_shown dflt ops (dp_new dflt items) = Done (looks ops items 0 false).
Proof. apply (dp_shown_from T dflt ops (dp_new dflt items)). cbn. lia. Qed.
Lemma dp_second_peek_lost :
  exists s s1 s2, dp_run 0 [OpPeek; OpPeek] (dp_new 0 [1; 2; 3]) = Done ([], s) /\
    dp_peek (dp_set_unpeek s) = Done (Some 1, s1) /\ dp_peek s1 = Done (None, s2).
Proof. do 3 eexists. repeat split; vm_compute; reflexivity. Qed.

Lemma query_breaks_routing :
  exists r, build insertion_order [ORoute VGet (B "/p") 1; OAdd 2] = Done r /\
    path_parse (B "/p?q") <> path_parse (B "/p") /\
    (exists a, path_parse (B "/p") = Some a /\
       router_run tr_exec default_features r MGet a [] = ([(1, []); (2, [])], Done tt)) /\
    (exists a, path_parse (B "/p?q") = Some a /\
       router_run tr_exec default_features r MGet a [] = ([(2, [])], Done tt)).
Proof.
  eexists. split; [vm_compute; reflexivity|]. split; [discriminate|].
  split; eexists; (split; vm_compute; reflexivity).
Qed.
