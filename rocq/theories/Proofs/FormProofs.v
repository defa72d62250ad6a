(** Lemmas behind C130. *)
From Verif.Model Require Import RustStd Path Request Query.
From Verif.Spec Require Import Common PathSpec TextSpec RequestSpec QuerySpec FormSpec.
From Verif.Proofs Require Import Basics Utf8 QueryProofs QueryExtra RequestExtra.

Lemma escape_decoded t e : form_escape t e -> decoded e t.
Proof.
  intros (Vt & Ve & E & _ & _). exists (chars t). split; [apply escapes_decodes, E|]. symmetry. apply (of_chars_chars t Vt).
Qed.
Lemma escape_nonempty t e : form_escape t e -> t <> [] -> e <> [].
Proof.
  intros (Vt & Ve & E & _ & _) Ne ->. apply Ne. inversion E as [X| |]. rewrite <- (proj1 (of_chars_chars t Vt)), <- X. reflexivity.
Qed.
Lemma item_assigns strict p item : form_item p item -> forall k v, assigns strict k item v <-> (k, v) = p.
Proof.
  intros (n & w & -> & Hn & Hw & _ & Ne) k v. destruct p as [k0 v0]. cbn [fst snd] in *.
  pose proof (escape_nonempty _ _ Hn Ne) as Nn. pose proof (escape_decoded _ _ Hn) as Dn. pose proof (escape_decoded _ _ Hw) as Dw.
  destruct Hn as (_ & _ & _ & _ & Hn). split.
  - intros (_ & [(n' & w' & E & N' & _ & Dk & Dv)|(N & _)]).
    + apply split_eq in E; auto. destruct E as [<- <-]. f_equal; eapply decoded_fun; eauto.
    + exfalso. apply N, in_or_app. right. now left.
  - intro E. injection E as -> ->. split; [intros _; destruct n; discriminate|]. left. exists n, w. auto 6.
Qed.
Lemma item_no_amp p item : form_item p item -> ~ In x26 item.
Proof.
  intros (n & w & -> & (_ & _ & _ & A & _) & (_ & _ & _ & A' & _) & _) I. apply in_app_or in I. destruct I as [I|[I|I]]; auto. discriminate.
Qed.
Lemma items_pieces ps items : Forall2 form_item ps items -> ps <> [] -> pieces_of [x26] (join [x26] items) items.
Proof.
  intros F N. split; [|split; [|reflexivity]].
  - destruct F; [congruence|discriminate].
  - clear N. induction F as [|p item ps items Hi F IH]; constructor; auto. intros (j & a & b & E & _).
    apply (item_no_amp _ _ Hi). rewrite E. apply in_or_app. right. now left.
Qed.
Lemma values_app k a b : values_of k (a ++ b) = values_of k a ++ values_of k b.
Proof. unfold values_of. rewrite filter_app, map_app. reflexivity. Qed.
Lemma last_of_snoc k ps v : last_opt (values_of k (ps ++ [(k, v)])) = Some v.
Proof.
  rewrite values_app. unfold last_opt, values_of at 2. cbn [filter fst]. rewrite seqb_refl. cbn [map snd]. rewrite rev_app_distr. reflexivity.
Qed.
Lemma last_of_other k ps p : fst p <> k -> last_opt (values_of k (ps ++ [p])) = last_opt (values_of k ps).
Proof.
  intro N. rewrite values_app. unfold values_of at 2. cbn [filter].
  destruct (seqb (fst p) k) eqn:E; [apply seqb_eq in E; contradiction|]. cbn [map]. rewrite app_nil_r. reflexivity.
Qed.
(** The last item that sets a key, in a list of items with one assignment each. *)
Lemma last_in_items strict k ps items o : Forall2 form_item ps items -> last_in (assigns strict k) items o -> o = last_opt (values_of k ps).
Proof.
  intro F. revert o. induction ps as [|p ps IH] using rev_ind in items, F |- *; intros o L.
  - inversion F. subst items. destruct o as [v|]; [|reflexivity]. destruct L as (pre & a & post & E & _). destruct pre; discriminate.
  - apply Forall2_app_inv_l in F. destruct F as (items' & l & F & F1 & ->). inversion F1 as [|? item ? ? Hi F2]; subst. inversion F2; subst.
    destruct p as [k0 v0]. destruct (seqb k0 k) eqn:Ek.
    + apply seqb_eq in Ek. subst k0. rewrite last_of_snoc. destruct o as [v|].
      * destruct L as (pre & a & post & E & A & No). destruct post as [|z post] using rev_ind.
        -- apply app_inj_tail in E. destruct E as [-> <-]. apply (item_assigns strict _ _ Hi) in A. congruence.
        -- exfalso. rewrite app_comm_cons, app_assoc in E. apply app_inj_tail in E. destruct E as [_ <-].
           apply (No item v0); [apply in_or_app; right; now left|]. apply (item_assigns strict _ _ Hi). reflexivity.
      * exfalso. apply (L item v0); [apply in_or_app; right; now left|]. apply (item_assigns strict _ _ Hi). reflexivity.
    + assert (Nk : k0 <> k) by (intros ->; rewrite seqb_refl in Ek; discriminate).
      rewrite last_of_other by exact Nk. apply (IH items'); auto.
      assert (NA : forall v, ~ assigns strict k item v) by (intros v A; apply (item_assigns strict _ _ Hi) in A; congruence).
      destruct o as [v|].
      * destruct L as (pre & a & post & E & A & No). destruct post as [|z post] using rev_ind.
        -- apply app_inj_tail in E. destruct E as [-> <-]. exfalso. eapply NA; eauto.
        -- rewrite app_comm_cons, app_assoc in E. apply app_inj_tail in E. destruct E as [-> <-]. exists pre, a, post.
           split; [reflexivity|]. split; [exact A|]. intros a' v' I. apply No, in_or_app. now left.
      * intros a v I. apply L, in_or_app. now left.
Qed.
Theorem form_query ft ps items : ps <> [] -> Forall2 form_item ps items ->
  exists m, parse_query ft (join [x26] items) = Done m /\ forall k, mget seqb k m = last_opt (values_of k ps).
Proof.
  intros N F. destruct (query_lookup ft (join [x26] items)) as (m & E & L). exists m. split; [exact E|]. intro k.
  eapply last_in_items; [exact F|]. apply L. eapply items_pieces; eauto.
Qed.
(** ** Requests *)
Lemma last_in_inner {A V} (sets : A -> V -> Prop) a l z o : (forall v, ~ sets a v) -> (forall v, ~ sets z v) ->
  last_in sets (a :: l ++ [z]) o -> last_in sets l o.
Proof.
  intros Na Nz L. destruct o as [v|].
  - destruct L as (pre & x & post & E & S & No). destruct post as [|y post] using rev_ind.
    + assert (E' : (a :: l) ++ [z] = pre ++ [x]) by exact E. apply app_inj_tail in E'. destruct E' as [_ <-]. exfalso. eapply Nz; eauto.
    + assert (E' : (a :: l) ++ [z] = (pre ++ x :: post) ++ [y]) by (rewrite <- app_assoc; exact E).
      apply app_inj_tail in E'. destruct E' as [E' _]. destruct pre as [|b pre].
      * injection E' as <- ->. exfalso. eapply Na; eauto.
      * injection E' as <- ->. exists pre, x, post. split; [reflexivity|]. split; [exact S|]. intros a' v' I. apply No, in_or_app. now left.
  - intros x v I. apply L. right. apply in_or_app. now left.
Qed.
Theorem form_request cl ft (r : request cl) dir p first lst ps items :
  rl_path (rq_line r) = dir ++ [p ++ [x3f] ++ join [x26] (first :: items ++ [lst])] ->
  Forall (fun s => ~ In x26 s) (p :: first :: lst :: dir) -> Forall2 form_item ps items ->
  exists m, get_query ft r = Done m /\ forall k,
    (forall v, ~ assigns (faithful ft) k (path_display dir ++ p ++ [x3f] ++ first) v) -> (forall v, ~ assigns (faithful ft) k (lst ++ [x2f]) v) ->
    mget seqb k m = last_opt (values_of k ps).
Proof.
  intros Er Fa F. destruct (get_query_items ft r dir p first items lst Er) as (m & E & L).
  - inversion Fa as [|? ? Hp Fa1]; subst. inversion Fa1 as [|? ? Hf Fa2]; subst. inversion Fa2 as [|? ? Hl Fd]; subst.
    repeat (constructor; [assumption|]). apply Forall_app. split; [exact Fd|]. clear - F. induction F as [|q item ps items Hi F IH]; constructor; auto.
    eapply item_no_amp; eauto.
  - exists m. split; [exact E|]. intros k Nf Nl. apply (last_in_items (faithful ft) k ps items); [exact F|].
    eapply last_in_inner; [exact Nf|exact Nl|apply L].
Qed.
(** ** Extended queries *)
Lemma item_means strict p item : form_item p item -> ext_means strict item (Some (EPlain (fst p) (snd p))).
Proof.
  intros (n & w & -> & Hn & Hw & Nb & Ne). apply em_plain.
  - eapply escape_nonempty; eauto.
  - apply Hn.
  - intros k' x' [-> _]. apply Nb, in_or_app. right. now left.
  - apply escape_decoded, Hn.
  - apply escape_decoded, Hw.
Qed.
Lemma items_valid ps items : Forall2 form_item ps items -> utf8_valid (join [x26] items) = true.
Proof.
  intro F. assert (V : Forall (fun s => utf8_valid s = true) items).
  { induction F as [|p item ps items (n & w & -> & (_ & Vn & _) & (_ & Vw & _) & _) F IH]; constructor; auto.
    rewrite utf8_app by exact Vn. rewrite utf8_app by reflexivity. exact Vw. }
  clear F. induction V as [|s [|s' r] Vs V IH]; [reflexivity|exact Vs|].
  change (join [x26] (s :: s' :: r)) with (s ++ [x26] ++ join [x26] (s' :: r)). rewrite utf8_app by exact Vs.
  rewrite utf8_app by reflexivity. exact IH.
Qed.
Theorem form_extended ft ps items : ps <> [] -> Forall2 form_item ps items ->
  exists m, parse_extended_query ft (join [x26] items) = Done m /\
    forall k, mget seqb k m = match last_opt (values_of k ps) with Some v => Some (QStr v) | None => None end.
Proof.
  intros N F. destruct (ext_lookup ft (join [x26] items) (items_valid _ _ F)) as (m & E & L). exists m. split; [exact E|]. intro k.
  destruct (L items (items_pieces _ _ F N)) as (evs & M & R). specialize (R k).
  assert (Ev : evs = map (fun p => Some (EPlain (fst p) (snd p))) ps).
  { apply (ext_items_unique (faithful ft) items); [exact M|]. clear - F. induction F as [|p item ps items Hi F IH]; constructor; auto.
    apply item_means. exact Hi. }
  rewrite Ev in R. assert (S : somes (map (fun p => Some (EPlain (fst p) (snd p))) ps) = map (fun p : str * str => EPlain (fst p) (snd p)) ps).
  { clear. induction ps as [|p ps IH]; [reflexivity|]. cbn. rewrite IH. reflexivity. }
  rewrite S in R. unfold ext_result in R.
  assert (P : plains k (map (fun p : str * str => EPlain (fst p) (snd p)) ps) = values_of k ps).
  { clear. unfold plains, values_of. induction ps as [|[k0 v0] ps IH]; [reflexivity|]. cbn [map flat_map filter fst snd]. rewrite IH.
    destruct (seqb k k0) eqn:E1; destruct (seqb k0 k) eqn:E2; try reflexivity.
    - apply seqb_eq in E1. subst. rewrite seqb_refl in E2. discriminate.
    - apply seqb_eq in E2. subst. rewrite seqb_refl in E1. discriminate. }
  assert (Br : brackets k (map (fun p : str * str => EPlain (fst p) (snd p)) ps) = []).
  { clear. unfold brackets. induction ps as [|p ps IH]; [reflexivity|exact IH]. }
  rewrite P, Br in R. destruct (last_opt (values_of k ps)); exact R.
Qed.
(** ** Escaping every byte *)
Lemma pct_bytes s b : In b (pct s) -> (bN b < 0x80)%N /\ b <> x26 /\ b <> x3d /\ b <> x5b.
Proof.
  assert (G : forall n, (n < 16)%N -> (bN (hex_digit n) < 0x80)%N /\ hex_digit n <> x26 /\ hex_digit n <> x3d /\ hex_digit n <> x5b).
  { intros n L. destruct (hex_digit_value n L) as [V A]. split; [exact A|].
    repeat split; intro E; rewrite E in V; unfold hex_value in V; change (bN x26) with 38%N in V; change (bN x3d) with 61%N in V;
      change (bN x5b) with 91%N in V; lia. }
  intro I. unfold pct in I. apply in_flat_map in I. destruct I as (c & _ & I). pose proof (bN_lt c) as L. unfold pct_byte in I. cbn [In] in I.
  destruct I as [<-|[<-|[<-|[]]]].
  - split; [reflexivity|]. repeat split; discriminate.
  - apply G. apply N.div_lt_upper_bound; lia.
  - apply G. apply N.mod_lt; lia.
Qed.
Lemma pct_form s : Forall (fun b => (bN b < 0x80)%N) s -> form_escape s (pct s) /\ ~ In x5b (pct s).
Proof.
  intro A. split; [|intro I; apply pct_bytes in I; destruct I as (_ & _ & _ & I); auto]. split; [apply QueryExtra.ascii_valid, A|]. split; [|split; [|split]].
  - apply QueryExtra.ascii_valid. apply Forall_forall. intros b I. apply (pct_bytes s b I).
  - rewrite pct_chars. induction A as [|b s Hb A IH]; [constructor|]. rewrite chars_ascii by exact Hb. cbn [flat_map app].
    pose proof (bN_lt b) as L.
    assert (D : (bN b / 16 < 16)%N) by (apply N.div_lt_upper_bound; lia).
    assert (M : (bN b mod 16 < 16)%N) by (apply N.mod_lt; lia).
    apply hex_digit_value in D, M. destruct D as [D _], M as [M _].
    replace (bN b) with (bN b / 16 * 16 + bN b mod 16)%N at 1 by (rewrite (N.div_mod (bN b) 16) at 3 by lia; lia). constructor; auto.
  - intro I. apply pct_bytes in I. destruct I as (_ & I & _). auto.
  - intro I. apply pct_bytes in I. destruct I as (_ & _ & I & _). auto.
Qed.
Theorem form_ascii ft ps : ps <> [] ->
  Forall (fun p => fst p <> [] /\ Forall (fun b => (bN b < 0x80)%N) (fst p) /\ Forall (fun b => (bN b < 0x80)%N) (snd p)) ps ->
  exists m m', parse_query ft (join [x26] (map (fun p => pct (fst p) ++ [x3d] ++ pct (snd p)) ps)) = Done m /\
    parse_extended_query ft (join [x26] (map (fun p => pct (fst p) ++ [x3d] ++ pct (snd p)) ps)) = Done m' /\
    forall k, mget seqb k m = last_opt (values_of k ps) /\
      mget seqb k m' = match last_opt (values_of k ps) with Some v => Some (QStr v) | None => None end.
Proof.
  intros Ne F. assert (F2 : Forall2 form_item ps (map (fun p => pct (fst p) ++ [x3d] ++ pct (snd p)) ps)).
  { clear Ne. induction F as [|p ps (N & A & A') F IH]; constructor; auto. exists (pct (fst p)), (pct (snd p)). split; [reflexivity|].
    split; [apply pct_form, A|]. split; [apply pct_form, A'|]. split; [apply pct_form, A|exact N]. }
  destruct (form_query ft ps _ Ne F2) as (m & E & L). destruct (form_extended ft ps _ Ne F2) as (m' & E' & L'). exists m, m'. auto.
Qed.
Lemma form_example :
  path_parse (B "/p?a=1&user=eve%26admin%3D1&c=3") = Some ([] ++ [B "p" ++ [x3f] ++ join [x26] (B "a=1" :: [B "user=eve%26admin%3D1"] ++ [B "c=3"])]) /\
  form_item (B "user", B "eve&admin=1") (B "user=eve%26admin%3D1") /\
  parse_query default_features (B "user=eve%26admin%3D1&a%5B%5D=x&user=bob") = Done [(B "user", B "bob"); (B "a[]", B "x")] /\
  parse_extended_query default_features (B "user=eve%26admin%3D1&a%5B%5D=x") = Done [(B "user", QStr (B "eve&admin=1")); (B "a[]", QStr (B "x"))].
Proof.
  split; [vm_compute; reflexivity|].
  split; [|split; vm_compute; reflexivity]. exists (B "user"), (B "eve%26admin%3D1"). cbn [fst snd].
  assert (NI : forall b s, existsb (beqb b) s = false -> ~ In b s).
  { intros b s E I. assert (X : existsb (beqb b) s = true) by (apply existsb_exists; exists b; split; [exact I|apply beqb_eq; reflexivity]). congruence. }
  split; [reflexivity|]. split; [|split; [|split; [apply NI; reflexivity|discriminate]]].
  - split; [reflexivity|]. split; [reflexivity|]. split; [|split; apply NI; reflexivity]. vm_compute. repeat (apply esc_copy; [discriminate|]). constructor.
  - split; [reflexivity|]. split; [reflexivity|]. split; [|split; apply NI; reflexivity]. vm_compute.
    repeat (apply esc_copy; [discriminate|]). apply (esc_hex 50 54 2 6); [left; lia|left; lia|].
    repeat (apply esc_copy; [discriminate|]). apply (esc_hex 51 68 3 13); [left; lia|right; left; lia|].
    repeat (apply esc_copy; [discriminate|]). constructor.
Qed.
