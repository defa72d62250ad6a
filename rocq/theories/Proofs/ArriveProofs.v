(** Proofs about how the bytes of a request arrive (C139). *)
From Verif.Proofs Require Export ReadProofs.
From Verif.Spec Require Import PathSpec RoutingSpec TextSpec RequestSpec ArriveSpec.
Local Arguments N.mul : simpl never.
Local Arguments N.add : simpl never.
Local Arguments N.sub : simpl never.

Lemma read_as_fun n l r : 0 < n -> Forall (fun s => s <> []) l -> read_as n l r -> forall r', read_as n l r' -> r = r'.
Proof.
  intros P F R. induction R as [|s l r L R IH|s1 s2 l r L N2 R IH]; intros r' R'; inversion R'; subst; auto.
  - f_equal. apply IH; auto. inversion F; auto.
  - exfalso. rewrite app_length in L. destruct s2; [congruence|]. simpl in L. lia.
  - exfalso. rewrite app_length in *. destruct s2; [congruence|]. simpl in *. lia.
  - match goal with H : _ ++ _ = _ ++ _ |- _ => apply app_length_inj in H as [-> ->]; [|congruence] end.
    f_equal. apply IH; auto. inversion F; subst. constructor; auto.
Qed.
Lemma read_as_concat n l r : read_as n l r -> concat r = concat l.
Proof.
  intro R. induction R as [|s l r L R IH|s1 s2 l r L N2 R IH]; simpl in *; auto.
  - rewrite IH. auto.
  - rewrite IH, app_assoc. auto.
Qed.
Lemma read_as_short n l r : read_as n l r -> Forall (fun x => length x <= n) r.
Proof. intro R. induction R; constructor; auto; lia. Qed.
Lemma read_as_total n l : 0 < n -> exists r, read_as n l r.
Proof.
  intro P. induction l as [|s l (r & IH)]; [eexists; constructor|].
  assert (X : forall k s, length s <= k -> exists r, read_as n (s :: l) r).
  { induction k as [|k IHk]; intros u L.
    - destruct u; [|simpl in L; lia]. exists ([] :: r). apply ra_fits; [simpl; lia|auto].
    - destruct (Nat.le_gt_cases (length u) n) as [Y|Y]; [exists (u :: r); apply ra_fits; auto|].
      destruct (IHk (skipn n u)) as (r' & R'); [rewrite skipn_length; lia|].
      exists (firstn n u :: r'). rewrite <- (firstn_skipn n u) at 1. apply ra_piece; auto.
      + rewrite firstn_length. lia.
      + intro Z. pose proof (skipn_length n u) as W. rewrite Z in W. simpl in W. lia. }
  apply (X (length s)). auto.
Qed.

Lemma occurs_grow p a b : occurs p a -> occurs p (a ++ b).
Proof. intros (i & O). exists i. apply occurs_at_app; auto. Qed.

(** The bytes that came along are unique. *)
Lemma split_unique (A : list str) : forall p x q p' x' q', p ++ x :: q = p' ++ x' :: q' ->
  ~ occurs CRLFCRLF (concat p) -> ~ occurs CRLFCRLF (concat p') ->
  occurs CRLFCRLF (concat p ++ x) -> occurs CRLFCRLF (concat p' ++ x') -> p = p' /\ x = x'.
Proof.
  clear A. intros p x q p' x' q' E N1 N2 O1 O2.
  assert (W : forall p x q p' x' q', p ++ x :: q = p' ++ x' :: q' -> length p < length p' ->
    occurs CRLFCRLF (concat p ++ x) -> occurs CRLFCRLF (concat p')).
  { clear. intros p x q p' x' q' E L O.
    assert (E2 : exists m, p' = p ++ x :: m).
    { exists (skipn (S (length p)) p'). 
      assert (firstn (S (length p)) (p ++ x :: q) = firstn (S (length p)) (p' ++ x' :: q')) as F by (rewrite E; auto).
      rewrite (firstn_app (S (length p)) p'), (proj2 (Nat.sub_0_le (S (length p)) (length p'))) in F by lia.
      rewrite firstn_O, app_nil_r, firstn_app, firstn_all2 in F by lia.
      replace (S (length p) - length p) with 1 in F by lia. change (firstn 1 (x :: q)) with [x] in F.
      change (p ++ x :: skipn (S (length p)) p') with (p ++ ([x] ++ skipn (S (length p)) p')).
      rewrite app_assoc, F, firstn_skipn. auto. }
    destruct E2 as (m & ->). rewrite concat_app. cbn [concat]. rewrite app_assoc. apply occurs_grow; auto. }
  destruct (Nat.lt_trichotomy (length p) (length p')) as [L|[L|L]].
  - exfalso. apply N2. eapply W; eauto.
  - apply app_length_inj in E as [-> E]; auto. inversion E; auto.
  - exfalso. apply N1. eapply W; [symmetry; exact E|auto|auto].
Qed.
Lemma along_fun t early early' : real_segments t -> along t early -> along t early' -> early = early'.
Proof.
  intros R (p & x & q & a & R1 & N1 & H1) (p' & x' & q' & a' & R2 & N2 & H2).
  assert (E : p ++ x :: q = p' ++ x' :: q') by (eapply read_as_fun; [| exact R|exact R1|exact R2]; lia).
  destruct (split_unique [] _ _ _ _ _ _ E N1 N2) as [-> ->]; [eapply head_at_occurs; eauto|eapply head_at_occurs; eauto|].
  eapply head_at_fun; eauto.
Qed.

(** The reader takes exactly the bytes that came along for the start of the body. *)
Lemma tr_read_as t chunk t' r : tr_read BUF t = IoDone (Some chunk, t') -> chunk <> [] ->
  read_as 512 (segs t') r -> Forall (fun s => s <> []) (segs t) -> read_as 512 (segs t) (chunk :: r).
Proof.
  destruct t as [l e]. unfold tr_read. cbn [segs fin]. destruct l as [|s l].
  - destruct e; intros E Nc; inversion E; subst; congruence.
  - destruct (Nat.leb_spec (length s) BUF) as [L|L]; intros E Nc R F.
    + assert (E1 : chunk = s) by congruence. assert (E2 : t' = Transport l e) by congruence. subst. apply ra_fits; auto.
    + assert (E1 : chunk = firstn BUF s) by congruence. assert (E2 : t' = Transport (skipn BUF s :: l) e) by congruence. subst.
      cbn [segs] in R. assert (Es : s = firstn BUF s ++ skipn BUF s) by (symmetry; apply firstn_skipn).
      rewrite Es at 1. apply ra_piece; auto.
      * pose proof (firstn_length BUF s) as W. unfold BUF in *. rewrite W. lia.
      * intro Z. pose proof (skipn_length BUF s) as W. rewrite Z in W. simpl in W. lia.
Qed.
Lemma head_loop_along fuel : forall data t hs rl rem later, real_segments t -> ~ occurs CRLFCRLF data ->
  head_loop fuel data t = IoDone (HeadOk hs rl rem later) ->
  exists before last rest a, read_as 512 (segs t) (before ++ last :: rest) /\
    ~ occurs CRLFCRLF (data ++ concat before) /\ head_at (data ++ concat before ++ last) a rem.
Proof.
  induction fuel as [|fuel IH]; intros data t hs rl rem later R Hd E; [discriminate|].
  cbn [head_loop] in E. pose proof (tr_read_spec t R) as T.
  destruct (tr_read BUF t) as [[[chunk|] t']| | |] eqn:Et; cbn [io_bind] in E; try discriminate.
  destruct (Nat.eqb_spec (length chunk) 0) as [Z|NZ]; [discriminate|].
  assert (Nc : chunk <> []) by (intros ->; apply NZ; reflexivity).
  assert (R' : real_segments t') by (destruct chunk; [congruence|apply T]).
  pose proof (find_in_slice_spec (data ++ chunk) CRLFCRLF) as F.
  destruct (find_in_slice (data ++ chunk) CRLFCRLF) as [i|].
  - destruct (utf8_valid (firstn i (data ++ chunk))); [|discriminate].
    destruct (parse_without_body (firstn i (data ++ chunk))) as [[x y]|]; [|discriminate].
    inversion E; subst. destruct (read_as_total 512 (segs later)) as (r & Hr); [lia|].
    exists [], chunk, r, (firstn i (data ++ chunk)). cbn [concat app]. rewrite app_nil_r.
    split; [eapply tr_read_as; eauto|]. split; auto.
    pose proof (occurs_at_le _ _ _ (proj1 F)) as Li. split.
    + apply (occurs_at_firstn CRLFCRLF (data ++ chunk) i). apply F.
    + rewrite firstn_length_le by lia. exact F.
  - destruct (IH _ _ _ _ _ _ R' F E) as (before & last & rest & a & H1 & H2 & H3).
    exists (chunk :: before), last, rest, a. cbn [concat app]. rewrite <- app_assoc in H2. rewrite <- !app_assoc in *.
    split; [eapply tr_read_as; eauto|]. split; auto.
Qed.
Lemma read_head_along t hs rl rem later : real_segments t -> read_head t = IoDone (HeadOk hs rl rem later) -> along t rem.
Proof.
  intros R E. destruct (head_loop_along (S (total_len (segs t))) [] t hs rl rem later R) as (b & l & q & a & H1 & H2 & H3); auto.
  - intros (i & H). apply occurs_at_le in H. simpl in H. lia.
  - exists b, l, q, a. auto.
Qed.

Lemma first_split reads : forall d, ~ occurs CRLFCRLF d -> occurs CRLFCRLF (d ++ concat reads) ->
  exists before last later, reads = before ++ last :: later /\
    ~ occurs CRLFCRLF (d ++ concat before) /\ occurs CRLFCRLF (d ++ concat before ++ last).
Proof.
  induction reads as [|x reads IH]; intros d Nd O.
  - simpl in O. rewrite app_nil_r in O. contradiction.
  - pose proof (find_str_spec CRLFCRLF (d ++ x)) as F. destruct (find_str CRLFCRLF (d ++ x)) as [i|].
    + exists [], x, reads. cbn [concat app]. rewrite app_nil_r. split; auto. split; auto. exists i. apply F.
    + cbn [concat] in O. rewrite app_assoc in O. destruct (IH _ F O) as (b & l & q & -> & H1 & H2).
      exists (x :: b), l, q. cbn [concat app]. rewrite <- !app_assoc in *. auto.
Qed.
Lemma nothing_yet : ~ occurs CRLFCRLF [].
Proof. intros (i & H). apply occurs_at_le in H. simpl in H. lia. Qed.

(** C139: exactly one text came along; it is a prefix of what follows the head. *)
Lemma arrival t a b : real_segments t -> head_at (stream_of t) a b ->
  exists early rest, along t early /\ b = early ++ rest /\ length early < 512 /\ forall early', along t early' -> early' = early.
Proof.
  intros R Ha. destruct (read_as_total 512 (segs t)) as (reads & Hr); [lia|].
  pose proof (read_as_concat _ _ _ Hr) as Ec. pose proof (read_as_short _ _ _ Hr) as Sh.
  destruct (first_split reads [] nothing_yet) as (p & x & q & -> & N1 & O1).
  { simpl. rewrite Ec. eapply head_at_occurs. exact Ha. }
  cbn [app] in N1, O1. destruct (head_at_exists _ O1) as (a' & early & Hb).
  assert (HA : head_at (stream_of t) a' (early ++ concat q)).
  { unfold stream_of. rewrite <- Ec, concat_app. cbn [concat]. rewrite app_assoc.
    destruct Hb as [E F]. split; [|apply first_at_app; auto]. rewrite E at 1. rewrite <- !app_assoc. auto. }
  destruct (head_at_fun _ _ _ _ _ Ha HA) as [<- ->].
  assert (Al : along t early) by (exists p, x, q, a; auto).
  exists early, (concat q). split; [exact Al|]. split; auto. split.
  - assert (L : length x <= 512) by (rewrite Forall_forall in Sh; apply Sh; apply in_elt).
    destruct Hb as [E [F _]].
    destruct (Nat.le_gt_cases 512 (length early)) as [G|G]; auto. exfalso. apply N1.
    exists (length a). apply (occurs_at_prefix _ _ x); auto.
    apply (f_equal (@length byte)) in E. rewrite !app_length in E. lia.
  - intros. eapply along_fun; eauto.
Qed.

Lemma read_request_along ft cl t a b rl hs h rlt hst early : real_segments t ->
  head_at (stream_of t) a b -> utf8_valid a = true -> head_parts a rlt hst ->
  request_line_parse ft rlt = Done (Some rl) -> headers_parse ft hst = Some h -> (forall k, headers_get h k = folded k hs) ->
  along t early ->
  read_request ft cl t = io_bind (let n := announced hs in
      if (n =? 0)%N then io_of_outcome (request_parse ft cl rl h [])
      else if (n <=? N.of_nat (length early))%N then io_of_outcome (request_parse ft cl rl h early)
      else if (ISIZE_MAX <? n - N.of_nat (length early))%N then IoPanic
      else if (n <=? N.of_nat (length b))%N
        then if (ISIZE_MAX <? n)%N then IoPanic else io_of_outcome (request_parse ft cl rl h (firstn (N.to_nat n) b))
        else match fin t with Stall => IoBlocked | _ => IoPanic end)
    (fun o => IoDone match o with Some rq => RdRequest rq | None => RdBad end).
Proof.
  intros R Ha V Hp El Eh G Al.
  destruct (read_head_ok t a b rlt hst R Ha V Hp) as (rem & tl & E & Er & Ef & R' & Lr).
  assert (rem = early) as -> by (apply (along_fun t); [exact R|eapply read_head_along; [exact R|exact E]|exact Al]).
  unfold read_request. rewrite E. cbn [io_bind]. rewrite Eh, El. cbn [obind unwrap io_of_outcome io_bind].
  rewrite from_raw_spec by auto. cbn zeta. rewrite (content_length_spec h hs G), Er, Ef.
  set (n := announced hs). f_equal.
  destruct (N.eqb_spec n 0) as [Z|Z], (Nat.eqb_spec (N.to_nat n) 0) as [Z'|Z']; try lia; auto.
  destruct (N.leb_spec n (N.of_nat (length early))) as [Y|Y], (Nat.leb_spec (N.to_nat n) (length early)) as [Y'|Y']; try lia; auto.
  destruct (ISIZE_MAX <? n - N.of_nat (length early))%N; auto.
  destruct (N.leb_spec n (N.of_nat (length b))) as [X|X], (Nat.leb_spec (N.to_nat n) (length b)) as [X'|X']; try lia; auto.
Qed.

Lemma arrival_read ft cl t t' : real_segments t -> real_segments t' -> same_arrival t t' ->
  read_request ft cl t = read_request ft cl t'.
Proof.
  intros R R' (Es & Ef & Ea). pose proof (find_str_spec CRLFCRLF (stream_of t)) as F.
  destruct (find_str CRLFCRLF (stream_of t)) as [i|].
  2:{ rewrite !read_request_none; auto; [|rewrite <- Es; auto]. rewrite Ef. auto. }
  destruct (head_at_exists (stream_of t)) as (a & b & Ha); [exists i; apply F|].
  assert (Ha' : head_at (stream_of t') a b) by (rewrite <- Es; auto).
  destruct (utf8_valid a) eqn:V.
  2:{ rewrite !(read_request_bad ft cl _ a b); auto; left; auto. }
  pose proof (parse_without_body_spec a) as P. destruct (parse_without_body a) as [[rlt hst]|].
  2:{ rewrite !(read_request_bad ft cl _ a b); auto; right; auto. }
  destruct (read_head_ok t a b rlt hst R Ha V P) as (rem & tl & E & Er & Eft & R1 & Lr).
  destruct (read_head_ok t' a b rlt hst R' Ha' V P) as (rem' & tl' & E' & Er' & Eft' & R1' & Lr').
  assert (rem' = rem) as ->.
  { apply (along_fun t'); auto; [eapply read_head_along; eauto|]. apply Ea. eapply read_head_along; eauto. }
  unfold read_request. rewrite E, E'. cbn [io_bind]. destruct (headers_parse ft hst) as [h|]; auto.
  destruct (request_line_parse ft rlt) as [[rl|]|]; cbn [obind unwrap io_of_outcome io_bind]; auto.
  rewrite !from_raw_spec by auto. cbn zeta. rewrite Er, Er', Eft, Eft', Ef. auto.
Qed.
Lemma arrival_served ft cl (H ST : Type) handle (rt : router H) w ho pos (s : ST) t t' :
  real_segments t -> real_segments t' -> same_arrival t t' ->
  serve ft cl handle w ho pos rt s t = serve ft cl handle w ho pos rt s t'.
Proof. intros R R' S. unfold serve. rewrite (arrival_read ft cl t t' R R' S). reflexivity. Qed.

Lemma arrival_body ft cl t a b rl hs cs early : real_segments t ->
  head_at (stream_of t) a b -> head_means ft cl a rl hs cs ->
  (announced hs <= N.of_nat (length b))%N -> (announced hs <= ISIZE_MAX)%N -> along t early ->
  exists h, read_request ft cl t = IoDone (RdRequest (Request rl h (body_taken (announced hs) early b) cs)) /\
    (forall k, headers_get h k = folded k hs) /\ (raw_headers_on ft = true -> raw h = hs).
Proof.
  intros R Ha (V & rlt & hst & Hp & Hl & Hb & Hc) Ln Li Al.
  destruct (block_parse ft hst hs Hb) as (h & Eh & G & Gr). apply request_line_iff in Hl.
  exists h. split; auto. rewrite (read_request_along ft cl t a b rl hs h rlt hst early); auto.
  cbn zeta. unfold body_taken.
  destruct (N.eqb_spec (announced hs) 0); [rewrite (request_parse_ok ft cl rl h hs _ cs G Hc); auto|].
  destruct (N.leb_spec (announced hs) (N.of_nat (length early))); [rewrite (request_parse_ok ft cl rl h hs _ cs G Hc); auto|].
  destruct (N.ltb_spec ISIZE_MAX (announced hs - N.of_nat (length early))); [lia|].
  destruct (N.leb_spec (announced hs) (N.of_nat (length b))); [|lia].
  destruct (N.ltb_spec ISIZE_MAX (announced hs)); [lia|].
  rewrite (request_parse_ok ft cl rl h hs _ cs G Hc). auto.
Qed.

Lemma arrival_panics ft cl t early : real_segments t -> along t early ->
  (read_request ft cl t = IoPanic <-> kills ft cl early (stream_of t) (fin t)).
Proof.
  intros R Al.
  assert (O : exists a b, head_at (stream_of t) a b).
  { apply head_at_exists. destruct Al as (p & x & q & a & Hr & _ & Hh). unfold stream_of.
    rewrite <- (read_as_concat _ _ _ Hr), concat_app. cbn [concat]. rewrite app_assoc. apply occurs_grow.
    eapply head_at_occurs; eauto. }
  destruct O as (a & b & Ha). destruct (arrival t a b R Ha) as (early' & rest & _ & Eb & Le & U).
  rewrite <- (U early Al) in Eb, Le. clear U early'.
  assert (Lb : length b = length early + length rest) by (rewrite Eb, app_length; auto). clear Eb.
  assert (IS : (512 < ISIZE_MAX)%N) by (vm_compute; reflexivity).
  destruct (utf8_valid a) eqn:V.
  2:{ rewrite (read_request_bad ft cl t a b R Ha (or_introl V)). split; [discriminate|].
      intros (a' & b' & rlt & hst & H1 & H2 & _). destruct (head_at_fun _ _ _ _ _ Ha H1) as [<- _]. congruence. }
  pose proof (parse_without_body_spec a) as P. destruct (parse_without_body a) as [[rlt hst]|].
  2:{ rewrite (read_request_bad ft cl t a b R Ha (or_intror P)). split; [discriminate|].
      intros (a' & b' & rlt & hst & H1 & H2 & [H3 _] & _). destruct (head_at_fun _ _ _ _ _ Ha H1) as [<- _].
      exfalso. apply P. rewrite H3. exists (length rlt), rlt, hst. auto. }
  destruct (headers_parse ft hst) as [h|] eqn:Eh.
  2:{ split; intros _.
      - exists a, b, rlt, hst. split; auto. split; auto. split; auto. left. intros hs Hs.
        destruct (block_parse ft hst hs Hs) as (h & E & _). congruence.
      - destruct (read_head_ok t a b rlt hst R Ha V P) as (rem & tl & E & _).
        unfold read_request. rewrite E. cbn [io_bind]. rewrite Eh. auto. }
  destruct (parse_block ft hst h Eh) as (hs & Hb & G & _).
  pose proof (request_line_spec ft rlt) as HL.
  destruct (request_line_parse ft rlt) as [[rl|]|] eqn:El.
  2,3: split; intros _;
    [exists a, b, rlt, hst; split; auto; split; auto; split; auto; right; left; intros rl Hl;
     apply request_line_iff in Hl; congruence
    |destruct (read_head_ok t a b rlt hst R Ha V P) as (rem & tl & E & _);
     unfold read_request; rewrite E; cbn [io_bind]; rewrite Eh, El; auto].
  rewrite (read_request_along ft cl t a b rl hs h rlt hst early R Ha V P El Eh G Al). cbn zeta. clear HL.
  apply request_line_iff in El.
  assert (K : forall X : Prop, (X <-> (((N.of_nat (length b) < announced hs)%N /\ fin t <> Stall) \/
        (ISIZE_MAX < announced hs - N.of_nat (length early))%N \/
        ((announced hs <= N.of_nat (length b))%N /\
         ((ISIZE_MAX < announced hs)%N \/ forall cs, ~ cookies_mean cl (cookies_on ft) hs cs)))) ->
      (X <-> kills ft cl early (stream_of t) (fin t))).
  { intros X [X1 X2]. split.
    - intro x. exists a, b, rlt, hst. split; auto. split; auto. split; auto. right. right. exists hs. auto.
    - intros (a' & b' & rlt' & hst' & H1 & H2 & H3 & H4).
      destruct (head_at_fun _ _ _ _ _ Ha H1) as [<- <-]. destruct (head_parts_fun _ _ _ _ _ P H3) as [<- <-].
      apply X2. destruct H4 as [H4|[H4|(hs' & H4 & H5)]]; [exfalso; eapply H4; eauto|exfalso; eapply H4; eauto|].
      rewrite (header_block_fun _ _ _ _ Hb H4). auto. }
  apply K. clear K.
  assert (OK : forall body, (announced hs <= N.of_nat (length b))%N -> (announced hs <= ISIZE_MAX)%N ->
    io_bind (io_of_outcome (request_parse ft cl rl h body))
       (fun o => IoDone match o with Some rq => RdRequest rq | None => RdBad end) = IoPanic <->
    ((N.of_nat (length b) < announced hs)%N /\ fin t <> Stall \/
        (ISIZE_MAX < announced hs - N.of_nat (length early))%N \/
        (announced hs <= N.of_nat (length b))%N /\
         ((ISIZE_MAX < announced hs)%N \/ forall cs, ~ cookies_mean cl (cookies_on ft) hs cs))).
  { intros body L1 L2. pose proof (request_parse_spec ft cl rl h hs body G) as HP.
    destruct (request_parse ft cl rl h body) as [[rq|]|]; cbn [io_of_outcome io_bind].
    - destruct HP as (cs & _ & C). split; [discriminate|].
      intros [[X _]|[X|[_ [X|X]]]]; try lia. exfalso. eapply X; eauto.
    - contradiction.
    - split; auto. }
  destruct (N.eqb_spec (announced hs) 0); [apply OK; lia|].
  destruct (N.leb_spec (announced hs) (N.of_nat (length early))); [apply OK; lia|].
  destruct (N.ltb_spec ISIZE_MAX (announced hs - N.of_nat (length early))); [cbn [io_bind]; tauto|].
  destruct (N.leb_spec (announced hs) (N.of_nat (length b))).
  - destruct (N.ltb_spec ISIZE_MAX (announced hs)); [|apply OK; lia]. cbn [io_bind]. tauto.
  - destruct (fin t) eqn:Ft; cbn [io_bind].
    + split; auto. intros _. left. split; [lia|discriminate].
    + split; auto. intros _. left. split; [lia|discriminate].
    + split; [discriminate|]. intros [[_ X]|[X|[X _]]]; [congruence|lia|lia].
Qed.

(** Every number of bytes up to 511 can come along. *)
Lemma read_as_app n l : forall r l' r', Forall (fun s => length s <= n) l -> r = l -> read_as n l' r' -> read_as n (l ++ l') (r ++ r').
Proof.
  induction l as [|s l IH]; intros r l' r' F -> R'; auto. inversion F; subst. simpl. constructor; auto.
Qed.
Lemma last_byte_completes a b : head_at (a ++ CRLFCRLF ++ b) a b -> ~ occurs CRLFCRLF (a ++ [x0d; x0a; x0d]).
Proof.
  intros [_ [_ F]] (j & O). pose proof (occurs_at_le _ _ _ O) as L. rewrite app_length in L. simpl in L.
  assert (O' : occurs_at CRLFCRLF (a ++ CRLFCRLF ++ b) j).
  { replace (a ++ CRLFCRLF ++ b) with ((a ++ [x0d; x0a; x0d]) ++ x0a :: b) by (rewrite <- app_assoc; reflexivity).
    apply occurs_at_app; auto. }
  apply F in O'. lia.
Qed.
Lemma any_arrival s a early rest e : head_at s a (early ++ rest) -> length early < 512 ->
  exists t, real_segments t /\ stream_of t = s /\ fin t = e /\ along t early.
Proof.
  intros Ha L.
  pose (tail := if is_nil rest then [] else [rest]).
  pose (l := map (fun x => [x]) (a ++ [x0d; x0a; x0d]) ++ (x0a :: early) :: tail).
  assert (Ct : concat tail = rest) by (unfold tail; destruct rest; cbn; [|rewrite app_nil_r]; auto).
  assert (C1 : forall u : str, concat (map (fun x => [x]) u) = u) by (induction u; simpl; congruence).
  assert (Es : s = a ++ CRLFCRLF ++ early ++ rest) by apply Ha.
  exists (Transport l e). split; [|split; [|split]]; auto.
  - unfold real_segments, l. cbn [segs]. apply Forall_app. split.
    + apply Forall_forall. intros x Hx. apply in_map_iff in Hx as (y & <- & _). discriminate.
    + constructor; [discriminate|]. unfold tail. destruct rest; constructor; [discriminate|constructor].
  - unfold stream_of, l. cbn [segs]. rewrite concat_app, C1. cbn [concat]. rewrite Ct, Es, <- app_assoc. reflexivity.
  - destruct (read_as_total 512 tail) as (r & Hr); [lia|].
    exists (map (fun x => [x]) (a ++ [x0d; x0a; x0d])), (x0a :: early), r, a. rewrite C1. split; [|split].
    + unfold l. cbn [segs]. apply read_as_app; auto.
      * apply Forall_forall. intros x Hx. apply in_map_iff in Hx as (y & <- & _). simpl. lia.
      * apply ra_fits; auto.
    + rewrite Es in Ha. eapply last_byte_completes; eauto.
    + destruct Ha as [_ F]. rewrite Es in F.
      assert (E2 : (a ++ [x0d; x0a; x0d]) ++ x0a :: early = a ++ CRLFCRLF ++ early) by (rewrite <- app_assoc; reflexivity).
      rewrite E2. split; auto. destruct F as [_ F]. split; [exists a, early; auto|].
      intros j O. apply F. replace (a ++ CRLFCRLF ++ early ++ rest) with ((a ++ CRLFCRLF ++ early) ++ rest) by (rewrite <- !app_assoc; reflexivity).
      apply occurs_at_app; auto.
Qed.
