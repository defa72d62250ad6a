(** Proofs for C149. *)
From Coq Require Import Lia Permutation Relation_Operators.
From Verif.Model Require Import RustStd Path Request Router Server Query.
From Verif.Spec Require Import Common PathSpec RoutingSpec TextSpec RequestSpec ServerSpec QuerySpec SizeSpec.
From Verif.Proofs Require Import Basics Utf8 PathProofs PathExtra RequestProofs RequestExtra QueryProofs QueryExtra RouterExtra ServerProofs ApiProofs ReachProofs.

(** ** Sums *)
Lemma list_sum_app' l l' : list_sum (l ++ l') = list_sum l + list_sum l'.
Proof. induction l; simpl; lia. Qed.
Lemma sum_incl {A} (f : A -> nat) l : forall m, NoDup l -> incl l m -> list_sum (map f l) <= list_sum (map f m).
Proof.
  induction l as [|x l IH]; intros m D I; [simpl; lia|].
  inversion D as [|? ? Nx Dl]; subst.
  destruct (in_split x m (I x (or_introl eq_refl))) as (m1 & m2 & ->).
  rewrite map_app, list_sum_app'. cbn [map list_sum]. specialize (IH (m1 ++ m2) Dl).
  rewrite map_app, list_sum_app' in IH.
  assert (incl l (m1 ++ m2)).
  { intros y Iy. assert (J := I y (or_intror Iy)). rewrite in_app_iff in *. cbn [In] in J.
    destruct J as [J|[<-|J]]; tauto. }
  specialize (IH H). unfold list_sum in *. cbn [fold_right] in *. lia.
Qed.
Lemma nodup_fst {A C} (l : list (A * C)) : NoDup (map fst l) -> NoDup l.
Proof. apply NoDup_map_inv. Qed.
Lemma mget_in {V} k (v : V) m : mget seqb k m = Some v -> In (k, v) m.
Proof.
  induction m as [|[k' v'] m IH]; cbn [mget]; [discriminate|].
  destruct (seqb_spec k k') as [->|N]; intro E; [injection E as ->; left; auto|right; auto].
Qed.
Lemma entries_sum {V} (f : str * V -> nat) m l : entries_of (fun k => mget seqb k m) l ->
  list_sum (map f l) <= list_sum (map f m).
Proof.
  intros [D L]. apply sum_incl; [apply nodup_fst, D|]. intros [k v] I. apply mget_in, L, I.
Qed.
Lemma mset_sum {V} (g : V -> nat) k v m :
  list_sum (map (fun e => S (length (fst e) + g (snd e))) (mset seqb k v m)) <=
  list_sum (map (fun e => S (length (fst e) + g (snd e))) m) + S (length k + g v).
Proof.
  induction m as [|[k' v'] m IH]; cbn [mset map list_sum fold_right fst snd]; [simpl; lia|].
  destruct (seqb_spec k k') as [->|N]; unfold list_sum in *; cbn [map fold_right fst snd]; lia.
Qed.
(** Replacing the value of a present key *)
Lemma mset_sum_at {V} (g : V -> nat) k u v m : mget seqb k m = Some u ->
  list_sum (map (fun e => S (length (fst e) + g (snd e))) (mset seqb k v m)) + g u =
  list_sum (map (fun e => S (length (fst e) + g (snd e))) m) + g v.
Proof.
  induction m as [|[k' v'] m IH]; cbn [mget mset]; [discriminate|].
  destruct (seqb_spec k k') as [->|N]; intro E; unfold list_sum in *; cbn [map fold_right fst snd].
  - injection E as ->. lia.
  - specialize (IH E). lia.
Qed.

(** ** Decoding makes nothing longer *)
Lemma of_chars_cons c l : of_chars (c :: l) = encode_char c ++ of_chars l.
Proof. reflexivity. Qed.
Lemma encode_low c : (c < 0x800)%N -> length (encode_char c) <= 2.
Proof.
  intro H. unfold encode_char. destruct (N.ltb_spec c 0x80); [simpl; lia|].
  destruct (N.ltb_spec c 0x800); [simpl; lia|lia].
Qed.
Lemma encode_some c : 1 <= length (encode_char c).
Proof. unfold encode_char. destruct (c <? 0x80)%N, (c <? 0x800)%N, (c <? 0x10000)%N; simpl; lia. Qed.
Lemma hex_lt c v : hex_value c v -> (v < 16)%N.
Proof. intro H. apply from_hex_spec, from_hex_lt in H. exact H. Qed.
Lemma decodes_size e t : decodes e t -> length (of_chars t) <= length (of_chars e).
Proof.
  induction 1 as [|c t e Nc _ IH|a b x y t e Ha Hb _ IH|t e _ _ IH]; auto.
  - rewrite !of_chars_cons, !app_length. lia.
  - rewrite !of_chars_cons, !app_length. pose proof (hex_lt _ _ Ha). pose proof (hex_lt _ _ Hb).
    pose proof (encode_low (x * 16 + y) ltac:(lia)). pose proof (encode_some a). pose proof (encode_some b).
    pose proof (encode_some 37%N). lia.
  - rewrite !of_chars_cons, !app_length. lia.
Qed.
Lemma decoded_size s d : utf8_valid s = true -> decoded s d -> length d <= length s.
Proof.
  intros V (t & D & ->). apply decodes_size in D. rewrite (proj1 (of_chars_chars s V)) in D. exact D.
Qed.

(** ** Queries *)
Lemma pieces_size c s : list_sum (map (fun p : str => S (length p)) (split_char c s)) = S (length s).
Proof.
  rewrite <- (join_split_char c s) at 2. generalize (split_char_nonempty c s).
  generalize (split_char c s). intros l. induction l as [|p l IH]; [congruence|]. intros _.
  destruct l as [|q l]; [simpl; lia|].
  change (join [c] (p :: q :: l)) with (p ++ [c] ++ join [c] (q :: l)).
  change (list_sum (map (fun p : str => S (length p)) (p :: q :: l)))
    with (S (length p) + list_sum (map (fun p : str => S (length p)) (q :: l))).
  rewrite IH by discriminate. rewrite !app_length. cbn [length]. lia.
Qed.
Lemma texts_set k v m : texts_size (mset seqb k v m) <= texts_size m + S (length k + length v).
Proof. apply (mset_sum (fun v : str => length v)). Qed.
Lemma ext_set k v m : extended_size (mset seqb k v m) <= extended_size m + S (length k + value_size v).
Proof. apply (mset_sum value_size). Qed.
Lemma ext_set_at k u v m : mget seqb k m = Some u ->
  extended_size (mset seqb k v m) + value_size u = extended_size m + value_size v.
Proof. apply (mset_sum_at value_size). Qed.
Lemma eq_parts_valid n w : utf8_valid (n ++ [x3d] ++ w) = true -> utf8_valid n = true /\ utf8_valid w = true.
Proof. apply utf8_parts. reflexivity. Qed.

Lemma query_item_size ft ret tok m : utf8_valid tok = true -> parse_query_item ft ret tok = Done m ->
  texts_size m <= texts_size ret + S (length tok).
Proof.
  intros V E. destruct (query_item_spec ft tok) as (o & P & A). rewrite P in E. injection E as <-.
  destruct o as [[k v]|]; [|lia]. pose proof (proj2 (A k v) eq_refl) as [_ [(n & w & -> & _ & _ & Dk & Dv)|(_ & Dk & ->)]].
  - apply eq_parts_valid in V as [V1 V2]. pose proof (decoded_size _ _ V1 Dk). pose proof (decoded_size _ _ V2 Dv).
    pose proof (texts_set k v ret). rewrite !app_length. cbn [length]. lia.
  - pose proof (decoded_size _ _ V Dk). pose proof (texts_set k [] ret). cbn [length] in *. lia.
Qed.
Lemma fold_size {A} (f : A -> str -> outcome A) (sz : A -> nat) :
  (forall a s m, utf8_valid s = true -> f a s = Done m -> sz m <= sz a + S (length s)) ->
  forall l a m, Forall (fun s => utf8_valid s = true) l -> ofoldl f a l = Done m ->
  sz m <= sz a + list_sum (map (fun p : str => S (length p)) l).
Proof.
  intros F l. induction l as [|x l IH]; intros a m V E; cbn [ofoldl] in E.
  - injection E as <-. simpl. lia.
  - inversion V; subst. destruct (f a x) as [b|] eqn:Ex; cbn [obind] in E; [|discriminate].
    apply F in Ex; auto. apply IH in E; auto. unfold list_sum in *. cbn [map fold_right]. lia.
Qed.
Theorem query_size ft q : utf8_valid q = true -> exists m, parse_query ft q = Done m /\
  forall l, entries_of (fun k => mget seqb k m) l -> texts_size l <= S (length q).
Proof.
  intro V. destruct (query_lookup ft q) as (m & E & _). exists m. split; auto. intros l L.
  pose proof (entries_sum (fun e => S (length (fst e) + length (snd e))) m l L).
  pose proof (fold_size _ texts_size (query_item_size ft) _ [] m (pieces_valid AMP q eq_refl V) E) as F.
  rewrite pieces_size in F. change (texts_size []) with 0 in F. exact (Nat.le_trans _ _ _ H F).
Qed.

Lemma arr_snoc l v : value_size (QArr (l ++ [v])) = value_size (QArr l) + S (length v).
Proof. cbn [value_size]. rewrite map_app, list_sum_app'. f_equal. simpl. lia. Qed.
Lemma ext_item_size ft ret tok m : utf8_valid tok = true -> parse_ext_item ft ret tok = Done m ->
  extended_size m <= extended_size ret + S (length tok).
Proof.
  intros V. unfold parse_ext_item. destruct (faithful ft && is_nil tok); [intro E; injection E as <-; lia|].
  destruct (find_char EQUALS tok) as [i|] eqn:E.
  - apply find_eq_some in E as [E Hn]. rewrite E in V. apply eq_parts_valid in V as [V1 V2].
    assert (L : length tok = length (firstn i tok) + S (length (skipn 1 (skipn i tok)))).
    { rewrite E at 1. rewrite !app_length. reflexivity. }
    set (n := firstn i tok) in *. set (w := skipn 1 (skipn i tok)) in *. clearbody n w. clear E.
    destruct (unescape_total w) as (v & Ev). rewrite Ev. cbn [obind].
    apply unescape_hex_spec in Ev. apply decoded_size in Ev; auto.
    destruct (is_nil n) eqn:En; [intro E; injection E as <-; lia|].
    assert (Pl : obind (unescape_hex n) (fun k => Done (mset seqb k (QStr v) ret)) = Done m ->
                 extended_size m <= extended_size ret + S (length tok)).
    { destruct (unescape_total n) as (k & Ek). rewrite Ek. cbn [obind]. intro E. injection E as <-.
      apply unescape_hex_spec in Ek. apply decoded_size in Ek; auto.
      pose proof (ext_set k (QStr v) ret). cbn [value_size] in *. lia. }
    destruct (nth_error n (length n - 1)) as [last|]; [|discriminate].
    destruct (beqb last x5d); [|exact Pl].
    destruct (rposition x5b n) as [j|] eqn:Ej; [|exact Pl].
    unfold rposition in Ej. apply find_char_Some in Ej as (_ & _ & Hj). rewrite rev_length in Hj.
    set (o := firstn (length n - j - 1) n). set (x := firstn (length n - 1 - (length n - j - 1 + 1)) (skipn (length n - j - 1 + 1) n)).
    assert (Lo : length o + length x <= length n - 1).
    { unfold o, x. rewrite !firstn_length, skipn_length. lia. }
    assert (Ln : 1 <= length n) by (destruct n; [discriminate|cbn [length]; lia]).
    clearbody o x.
    destruct (negb (utf8_valid o)); [intro E; injection E as <-; lia|].
    destruct (negb (utf8_valid x)); [intro E; injection E as <-; lia|].
    destruct (is_nil x) eqn:Ex.
    + set (r1 := match mget seqb o ret with Some _ => ret | None => mset seqb o (QArr []) ret end).
      assert (S1 : extended_size r1 <= extended_size ret + S (length o)).
      { unfold r1. destruct (mget seqb o ret); [lia|]. pose proof (ext_set o (QArr []) ret). cbn [value_size map list_sum fold_right] in *. lia. }
      clearbody r1. destruct (mget seqb o r1) as [[s|l|ob]|] eqn:G; intro E; injection E as <-; try lia.
      pose proof (ext_set_at o _ (QArr (l ++ [v])) _ G) as Q. rewrite arr_snoc in Q. lia.
    + assert (Lx : 1 <= length x) by (destruct x; [discriminate|cbn [length]; lia]).
      set (r1 := match mget seqb o ret with Some _ => ret | None => mset seqb o (QObj []) ret end).
      assert (S1 : extended_size r1 <= extended_size ret + S (length o)).
      { unfold r1. destruct (mget seqb o ret); [lia|]. pose proof (ext_set o (QObj []) ret). cbn [value_size] in *.
        change (texts_size []) with 0 in *. lia. }
      clearbody r1. destruct (mget seqb o r1) as [[s|l|ob]|] eqn:G; intro E; injection E as <-; try lia.
      pose proof (ext_set_at o _ (QObj (mset seqb x v ob)) _ G) as Q. cbn [value_size] in Q.
      pose proof (texts_set x v ob). lia.
  - destruct (unescape_total tok) as (k & Ek). rewrite Ek. cbn [obind]. intro E1. injection E1 as <-.
    apply unescape_hex_spec in Ek. apply decoded_size in Ek; auto.
    pose proof (ext_set k (QStr []) ret). cbn [value_size length] in *. lia.
Qed.
Theorem extended_query_size ft q : utf8_valid q = true -> exists m, parse_extended_query ft q = Done m /\
  forall l, entries_of (fun k => mget seqb k m) l -> extended_size l <= S (length q).
Proof.
  intro V. destruct (ext_lookup ft q V) as (m & E & _). exists m. split; auto. intros l L.
  pose proof (entries_sum (fun e => S (length (fst e) + value_size (snd e))) m l L).
  pose proof (fold_size _ extended_size (ext_item_size ft) _ [] m (pieces_valid AMP q eq_refl V) E) as F.
  rewrite pieces_size in F. change (extended_size []) with 0 in F. exact (Nat.le_trans _ _ _ H F).
Qed.

(** ** Paths and route variables *)
Lemma display_size (p : list str) : length (path_display p) = list_sum (map (fun s : str => S (length s)) p).
Proof.
  induction p as [|s p IH]; auto. change (path_display (s :: p)) with ((s ++ [x2f]) ++ path_display p).
  rewrite !app_length, IH. unfold list_sum. cbn [map fold_right length]. lia.
Qed.
Lemma resolve_size segs r : resolves segs r ->
  list_sum (map (fun s : str => S (length s)) r) <= list_sum (map (fun s : str => S (length s)) segs).
Proof.
  intros [R _]. induction R as [x y St|x|x y z _ IH1 _ IH2]; [|lia|lia].
  destruct St as [l r|l r|l x r _]; rewrite !map_app, !list_sum_app'; unfold list_sum; cbn [map fold_right]; lia.
Qed.
Lemma path_size p pat : path_means p pat -> length (path_display pat) <= S (length p).
Proof.
  intros (segs & (Ne & _ & <-) & R). rewrite display_size. apply resolve_size in R.
  enough (list_sum (map (fun s : str => S (length s)) segs) = S (length (join (B "/") segs))) by lia.
  clear R. induction segs as [|s segs IH]; [congruence|]. destruct segs as [|s' segs]; [simpl; lia|].
  change (join (B "/") (s :: s' :: segs)) with (s ++ (B "/") ++ join (B "/") (s' :: segs)).
  change (list_sum (map (fun s : str => S (length s)) (s :: s' :: segs)))
    with (S (length s) + list_sum (map (fun s : str => S (length s)) (s' :: segs))).
  rewrite IH by discriminate. rewrite !app_length. cbn [length]. simpl (length (B "/")). lia.
Qed.
Lemma nth_sum {A} (f : A -> nat) (p : list A) : forall is,
  NoDup is -> (forall i, In i is -> i < length p) ->
  list_sum (map (fun i => match nth_error p i with Some a => f a | None => 0 end) is) <= list_sum (map f p).
Proof.
  intros is D I. pose proof (sum_incl (fun i => match nth_error p i with Some a => f a | None => 0 end) is (seq 0 (length p)) D) as Q.
  specialize (Q ltac:(intros i Ii; apply in_seq; specialize (I i Ii); lia)).
  enough (list_sum (map (fun i => match nth_error p i with Some a => f a | None => 0 end) (seq 0 (length p))) = list_sum (map f p)) by lia.
  clear. induction p as [|a p IH]; auto. cbn [length seq map nth_error]. unfold list_sum in *. cbn [fold_right].
  rewrite <- seq_shift, map_map. cbn [nth_error]. rewrite IH. auto.
Qed.
Lemma binds_size pat path l : NoDup (map fst l) -> (forall k v, In (k, v) l -> binds pat path k v) ->
  values_size l <= length (path_display path).
Proof.
  intros D L. rewrite display_size.
  assert (X : exists is, NoDup is /\ (forall i, In i is -> i < length path) /\
            (forall i, In i is -> exists k v, In (k, v) l /\ nth_error pat i = Some (x3a :: k)) /\
            values_size l = list_sum (map (fun i => match nth_error path i with Some s => S (length s) | None => 0 end) is)).
  { induction l as [|[k v] l IH]; [exists []; repeat split; try constructor; intros i []|].
    inversion D as [|? ? Nk Dl]; subst.
    destruct IH as (is & Di & Bi & Ki & Vi); auto; [intros; apply L; right; auto|].
    destruct (L k v (or_introl eq_refl)) as (i & Pi & Qi & _).
    exists (i :: is). repeat split.
    - constructor; auto. intro Ii. destruct (Ki i Ii) as (k' & v' & I' & E'). rewrite Pi in E'. injection E' as <-.
      apply Nk. apply in_map_iff. exists (k, v'). auto.
    - intros j [<-|J]; auto. apply nth_error_Some. congruence.
    - intros j [<-|J].
      + exists k, v. split; auto. left. auto.
      + destruct (Ki j J) as (k' & v' & I' & E'). exists k', v'. split; auto. right. auto.
    - unfold values_size, list_sum in *. cbn [map fold_right snd]. rewrite Qi, Vi. auto. }
  destruct X as (is & Di & Bi & _ & ->). apply nth_sum; auto.
Qed.
Theorem variables_size (H W : Type) (exec : H -> varmap -> W -> W * outcome flow) o ft (l : list (oreg H)) m path w :
  (N.of_nat (length (flatten l)) <= USIZE_MAX)%N -> m <> MAll ->
  exists r calls, build o l = Done r /\ router_run exec ft r m path w = run_chain exec calls w /\
    forall call vs, In call calls -> entries_of (fun k => mget seqb k (snd call)) vs ->
      values_size vs <= length (path_display path).
Proof.
  intros Hl Hm. destruct (own_variables exec o ft l m path w Hl Hm) as (r & calls & Eb & Er & Hc).
  exists r, calls. split; auto. split; auto. intros call vs I [D L].
  destruct (Hc call I) as [(v & p & pat & _ & _ & _ & Hv)|[_ Hv]].
  - apply (binds_size pat); auto. intros k x Ik. apply L in Ik. apply Hv in Ik. apply Ik.
  - rewrite Hv in L. destruct vs as [|[k x] vs]; [change (values_size []) with 0; lia|]. specialize (L k x (or_introl eq_refl)). discriminate.
Qed.

(** ** Headers *)
Definition line_cost (hd : header) : nat := S (length (h_name hd) + length (h_value hd)) + 2.
Lemma sum_filter {A} (f : A -> nat) (b : A -> bool) l :
  list_sum (map f (filter b l)) + list_sum (map f (filter (fun a => negb (b a)) l)) = list_sum (map f l).
Proof.
  induction l as [|a l IH]; auto. cbn [filter]. destruct (b a); cbn [negb]; unfold list_sum in *; cbn [map fold_right]; lia.
Qed.
Lemma lower_length s : length (to_ascii_lowercase s) = length s.
Proof. apply map_length. Qed.
Lemma folded_size k hs v : folded k hs = Some v ->
  S (length k + length v) <= list_sum (map line_cost (filter (RequestSpec.named k) hs)).
Proof.
  unfold folded. assert (F : forall hd, In hd (filter (RequestSpec.named k) hs) -> length (h_name hd) = length k).
  { intros hd I. apply filter_In in I as [_ E]. unfold RequestSpec.named in E. apply seqb_eq in E. rewrite <- E. symmetry. apply lower_length. }
  revert F. generalize (filter (RequestSpec.named k) hs). clear hs. intros l F.
  destruct (map h_value l) eqn:El; [discriminate|]. rewrite <- El. intro E. injection E as <-.
  destruct l as [|hd l]; [discriminate|]. clear El.
  revert hd F. induction l as [|hd' l IH]; intros hd F.
  - simpl. unfold line_cost. specialize (F hd (or_introl eq_refl)). lia.
  - change (join (B ", ") (map h_value (hd :: hd' :: l))) with (h_value hd ++ (B ", ") ++ join (B ", ") (map h_value (hd' :: l))).
    change (list_sum (map line_cost (hd :: hd' :: l))) with (line_cost hd + list_sum (map line_cost (hd' :: l))).
    rewrite !app_length. specialize (IH hd' ltac:(intros; apply F; right; auto)).
    unfold line_cost at 1. simpl (length (B ", ")). specialize (F hd (or_introl eq_refl)). lia.
Qed.
Lemma folded_other k k' hs : k <> k' -> folded k' (filter (fun hd => negb (RequestSpec.named k hd)) hs) = folded k' hs.
Proof.
  intro N. unfold folded. enough (filter (RequestSpec.named k') (filter (fun hd => negb (RequestSpec.named k hd)) hs) = filter (RequestSpec.named k') hs) as -> by auto.
  induction hs as [|hd hs IH]; auto. cbn [filter]. destruct (RequestSpec.named k hd) eqn:E; cbn [negb].
  - rewrite IH. destruct (RequestSpec.named k' hd) eqn:E'; auto.
    unfold RequestSpec.named in *. apply seqb_eq in E, E'. congruence.
  - cbn [filter]. destruct (RequestSpec.named k' hd); rewrite IH; auto.
Qed.
Lemma headers_map_size l : forall hs, entries_of (fun k => folded k hs) l -> texts_size l <= list_sum (map line_cost hs).
Proof.
  induction l as [|[k v] l IH]; intros hs [D L]; [unfold texts_size; simpl; lia|].
  inversion D as [|? ? Nk Dl]; subst.
  rewrite <- (sum_filter line_cost (RequestSpec.named k) hs).
  pose proof (folded_size k hs v (L k v (or_introl eq_refl))) as Q.
  specialize (IH (filter (fun hd => negb (RequestSpec.named k hd)) hs)).
  assert (T : texts_size l <= list_sum (map line_cost (filter (fun hd => negb (RequestSpec.named k hd)) hs))).
  { apply IH. split; auto. intros k' v' I'. rewrite folded_other; [apply L; right; auto|].
    intros <-. apply Nk. apply in_map_iff. exists (k, v'). auto. }
  unfold texts_size, list_sum in *. cbn [map fold_right fst snd]. lia.
Qed.
Lemma block_size strict s hs : header_block strict s hs -> list_sum (map line_cost hs) <= length s + 2.
Proof.
  intros (lines & (Ne & _ & <-) & F). revert Ne. induction F as [|ln hd lines hs (_ & Hm) F IH]; [congruence|]. intros _.
  assert (Lc : S (length (h_name hd) + length (h_value hd)) <= length ln).
  { destruct Hm as (_ & _ & ws & _ & ->). rewrite !app_length. cbn [length]. lia. }
  destruct lines as [|ln' lines].
  - inversion F; subst. simpl. unfold line_cost. lia.
  - change (join CRLF (ln :: ln' :: lines)) with (ln ++ CRLF ++ join CRLF (ln' :: lines)).
    specialize (IH ltac:(discriminate)). rewrite !app_length. change (length CRLF) with 2.
    change (list_sum (map line_cost (hd :: hs))) with (line_cost hd + list_sum (map line_cost hs)). unfold line_cost at 1. lia.
Qed.

(** ** Requests *)
Lemma join_count sep (l : list str) : sep <> [] -> length l <= S (length (join sep l)).
Proof.
  intro Ns. induction l as [|p l IH]; [simpl; lia|]. destruct l as [|q l]; [simpl; lia|].
  change (join sep (p :: q :: l)) with (p ++ sep ++ join sep (q :: l)). rewrite !app_length.
  assert (1 <= length sep) by (destruct sep; [congruence|simpl; lia]).
  change (length (p :: q :: l)) with (S (length (q :: l))). lia.
Qed.
Lemma block_raw strict s hs : header_block strict s hs -> headers_size hs <= length s + 2.
Proof.
  intro Hb. apply block_size in Hb. enough (headers_size hs <= list_sum (map line_cost hs)) by lia. clear.
  induction hs as [|hd hs IH]; [reflexivity|]. unfold headers_size, list_sum in *. cbn [map fold_right]. unfold line_cost at 1. lia.
Qed.
Theorem request_size ft cl t rq : real_segments t -> read_request ft cl t = IoDone (RdRequest rq) ->
  (forall l, entries_of (headers_get (rq_headers rq)) l ->
     texts_size l + length (path_display (rl_path (rq_line rq))) + length (rq_body rq) <= length (stream_of t)) /\
  (raw_headers_on ft = true -> headers_size (raw (rq_headers rq)) <= length (stream_of t)) /\
  length (rq_cookies rq) <= length (stream_of t) /\
  (exists m, get_query ft rq = Done m /\
     forall l, entries_of (fun k => mget seqb k m) l -> texts_size l <= length (stream_of t)) /\
  (exists m, get_extended_query ft rq = Done m /\
     forall l, entries_of (fun k => mget seqb k m) l -> extended_size l <= length (stream_of t)).
Proof.
  intros R E. pose proof (read_request_cases ft cl t R) as C. rewrite E in C.
  destruct C as (rl & hs & cs & body & (a & b & (Es & _) & (V & rlt & hst & Hp & Hl & Hb & Hc) & _ & _ & Bc) & Rl & Rb & Rc & Rh & Rr).
  pose proof (path_sendable _ _ _ _ _ V Hp Hl) as Sd.
  assert (Lp : length (path_display (rl_path rl)) + 7 <= S (length rlt)).
  { destruct Hl as (m & p & first & ver & rest & (_ & _ & <-) & L5 & _ & _ & Pm & _). apply path_size in Pm.
    destruct rest as [|x rest].
    - change (join [x20] [m; p; first ++ ver]) with (m ++ [x20] ++ p ++ [x20] ++ first ++ ver).
      rewrite !app_length. cbn [length]. lia.
    - change (join [x20] (m :: p :: (first ++ ver) :: x :: rest)) with (m ++ [x20] ++ p ++ [x20] ++ (first ++ ver) ++ [x20] ++ join [x20] (x :: rest)).
      rewrite !app_length. cbn [length]. lia. }
  assert (Ls : length (stream_of t) = length rlt + 2 + length hst + 4 + length b).
  { rewrite Es. destruct Hp as [-> _]. rewrite !app_length. change (length CRLF) with 2. change (length CRLFCRLF) with 4. lia. }
  assert (Lb : length body <= length b).
  { destruct Bc as [->|(_ & k & _ & ->)]; rewrite firstn_length; lia. }
  assert (M : forall l, entries_of (headers_get (rq_headers rq)) l -> texts_size l <= length hst + 2).
  { intros l [D L]. pose proof (block_size _ _ _ Hb). enough (texts_size l <= list_sum (map line_cost hs)) by lia.
    apply headers_map_size. split; auto. intros k v I. rewrite <- Rh. auto. }
  assert (Vd : utf8_valid (path_display (rl_path rl)) = true).
  { apply display_valid. eapply Forall_impl; [|exact Sd]. intros s Hs. apply Hs. }
  rewrite Rl, Rb, Rc. repeat split.
  - intros l L. apply M in L. lia.
  - intro Ro. rewrite (Rr Ro). apply block_raw in Hb. lia.
  - unfold cookies_mean in Hc. destruct (cookies_on ft); [|subst; simpl; lia].
    destruct (folded (B "cookie") hs) as [v|] eqn:Ef; [|subst; simpl; lia].
    destruct Hc as (items & (_ & _ & <-) & F). apply Forall2_len in F. rewrite <- F.
    pose proof (join_count (B "; ") items ltac:(discriminate)).
    assert (Q : texts_size [(B "cookie", join (B "; ") items)] <= length hst + 2).
    { apply M. split; [repeat constructor; intros []|]. intros k v [I|[]]. injection I as <- <-. rewrite Rh. auto. }
    unfold texts_size in Q. cbn [map list_sum fold_right fst snd] in Q. change (length (B "cookie")) with 6 in Q. lia.
  - unfold get_query. rewrite Rl. destruct (query_size ft _ Vd) as (m & Em & Q). exists m. split; auto.
    intros l L. apply Q in L. lia.
  - unfold get_extended_query. rewrite Rl. destruct (extended_query_size ft _ Vd) as (m & Em & Q). exists m. split; auto.
    intros l L. apply Q in L. lia.
Qed.
Lemma unescape_size s : utf8_valid s = true -> exists d, unescape_hex s = Done d /\ length d <= length s.
Proof.
  intro V. destruct (unescape_total s) as (d & E). exists d. split; auto.
  apply unescape_hex_spec in E. eapply decoded_size; eauto.
Qed.
