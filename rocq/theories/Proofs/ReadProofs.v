(** Reading a whole request. *)
From Verif.Model Require Export Server.
From Verif.Proofs Require Export TransportProofs.
From Verif.Spec Require Import PathSpec RoutingSpec TextSpec RequestSpec.
Local Arguments N.mul : simpl never.
Local Arguments N.add : simpl never.
Local Arguments N.sub : simpl never.

Lemma omapM_Forall2 {A C} (f : A -> outcome C) l cs :
  omapM f l = Done cs <-> Forall2 (fun a c => f a = Done c) l cs.
Proof.
  revert cs; induction l as [|a l IH]; intros cs; simpl.
  - split; intro H; [injection H as <-; constructor|inversion H; auto].
  - destruct (f a) as [c|] eqn:E; simpl.
    + destruct (omapM f l) as [cs'|] eqn:E'; simpl.
      * split; intro H.
        -- injection H as <-. constructor; auto. apply IH. auto.
        -- inversion H as [|? c' ? cs2 Hc H2]; subst. apply IH in H2. congruence.
      * split; intro H; [discriminate|]. inversion H as [|? c' ? cs2 Hc H2]; subst. apply IH in H2. congruence.
    + split; intro H; [discriminate|]. inversion H; subst. congruence.
Qed.

Lemma cookie_parse_spec cl v cs :
  cookie_parse cl v = Done cs <->
  exists items, pieces_of (B "; ") v items /\ Forall2 (fun item c => ck_parse cl item = Some c) items cs.
Proof.
  unfold cookie_parse. rewrite omapM_Forall2.
  assert (P : pieces_of (B "; ") v (split_str (B "; ") v)) by (apply split_str_spec; discriminate).
  assert (X : forall items, Forall2 (fun a c => unwrap (ck_parse cl a) = Done c) items cs <->
                            Forall2 (fun a c => ck_parse cl a = Some c) items cs).
  { intro items. split; intro H; induction H as [|a c l cs' Ha H IH]; constructor; auto.
    - destruct (ck_parse cl a); simpl in Ha; congruence.
    - rewrite Ha. reflexivity. }
  split.
  - intro H. exists (split_str (B "; ") v). split; auto. apply X. auto.
  - intros (items & P' & F). apply X. rewrite (pieces2_unique x3b x20 v _ _ ltac:(discriminate) P P'). auto.
Qed.

Lemma request_parse_spec ft cl rl h hs body : (forall k, headers_get h k = folded k hs) ->
  match request_parse ft cl rl h body with
  | Done (Some rq) => exists cs, rq = Request rl h body cs /\ cookies_mean cl (cookies_on ft) hs cs
  | Done None => False
  | Panic => forall cs, ~ cookies_mean cl (cookies_on ft) hs cs
  end.
Proof.
  intro G. unfold request_parse, cookies_mean. destruct (cookies_on ft).
  - rewrite G. destruct (folded (B "cookie") hs) as [v|].
    + destruct (cookie_parse cl v) as [cs|] eqn:E; simpl.
      * exists cs. split; auto. apply cookie_parse_spec. auto.
      * intros cs H. apply cookie_parse_spec in H. congruence.
    + eauto.
  - eauto.
Qed.
Lemma cookies_mean_fun cl on hs cs cs' : cookies_mean cl on hs cs -> cookies_mean cl on hs cs' -> cs = cs'.
Proof.
  unfold cookies_mean. destruct on; [|congruence]. destruct (folded (B "cookie") hs); [|congruence].
  intros H H'. apply cookie_parse_spec in H, H'. congruence.
Qed.
Lemma request_parse_ok ft cl rl h hs body cs : (forall k, headers_get h k = folded k hs) ->
  cookies_mean cl (cookies_on ft) hs cs -> request_parse ft cl rl h body = Done (Some (Request rl h body cs)).
Proof.
  intros G C. pose proof (request_parse_spec ft cl rl h hs body G) as H.
  destruct (request_parse ft cl rl h body) as [[rq|]|].
  - destruct H as (cs' & -> & C'). rewrite (cookies_mean_fun _ _ _ _ _ C C'). auto.
  - contradiction.
  - exfalso. eapply H; eauto.
Qed.

Lemma content_length_spec h hs : (forall k, headers_get h k = folded k hs) -> content_length h = announced hs.
Proof. intro G. unfold content_length, announced. rewrite G. reflexivity. Qed.

Lemma read_request_ok ft cl t a b rl hs cs : real_segments t ->
  head_at (stream_of t) a b -> head_means ft cl a rl hs cs ->
  (announced hs <= N.of_nat (length b))%N -> (announced hs <= ISIZE_MAX)%N ->
  exists h body, read_request ft cl t = IoDone (RdRequest (Request rl h body cs)) /\
    (forall k, headers_get h k = folded k hs) /\ (raw_headers_on ft = true -> raw h = hs) /\
    body_choice (N.to_nat (announced hs)) b body.
Proof.
  intros R Ha (V & rlt & hst & Hp & Hl & Hb & Hc) Ln Li.
  destruct (read_head_ok t a b rlt hst R Ha V Hp) as (rem & tl & E & Er & Ef & R' & Lr).
  destruct (block_parse ft hst hs Hb) as (h & Eh & G & Gr).
  apply request_line_iff in Hl.
  unfold read_request. rewrite E. cbn [io_bind]. rewrite Eh, Hl. cbn [obind unwrap io_of_outcome io_bind].
  rewrite from_raw_spec by auto. cbn zeta. rewrite (content_length_spec h hs G), Er, Ef.
  set (n := N.to_nat (announced hs)) in *.
  assert (OK : forall body, body_choice n b body ->
     exists h0 body0, io_bind (io_of_outcome (request_parse ft cl rl h body))
       (fun o => IoDone match o with Some rq => RdRequest rq | None => RdBad end) =
       IoDone (RdRequest (Request rl h0 body0 cs)) /\
       (forall k, headers_get h0 k = folded k hs) /\ (raw_headers_on ft = true -> raw h0 = hs) /\
       body_choice n b body0).
  { intros body Bc. rewrite (request_parse_ok ft cl rl h hs body cs G Hc). exists h, body. auto. }
  destruct (Nat.eqb_spec n 0) as [Z|NZ].
  - apply OK. left. rewrite Z. reflexivity.
  - destruct (Nat.leb_spec n (length rem)) as [L|L].
    + apply OK. destruct (Nat.eq_dec n (length rem)) as [En|Nn].
      * left. rewrite <- Er, En, firstn_app, Nat.sub_diag, firstn_all, firstn_O, app_nil_r. auto.
      * right. split; [lia|]. exists (length rem). split; [lia|].
        rewrite <- Er, firstn_app, Nat.sub_diag, firstn_all, firstn_O, app_nil_r. auto.
    + destruct (N.ltb_spec ISIZE_MAX (announced hs - N.of_nat (length rem))); [lia|].
      destruct (Nat.leb_spec n (length b)); [|unfold n in *; lia].
      destruct (N.ltb_spec ISIZE_MAX (announced hs)); [lia|]. apply OK. left. auto.
Qed.

Lemma read_request_bad ft cl t a b : real_segments t ->
  head_at (stream_of t) a b -> head_bad a -> read_request ft cl t = IoDone RdBad.
Proof.
  intros R Ha Hb. unfold read_request. rewrite (read_head_bad t a b R Ha Hb). reflexivity.
Qed.
Lemma read_request_none ft cl t : real_segments t -> ~ occurs CRLFCRLF (stream_of t) ->
  read_request ft cl t = match fin t with Eof => IoDone RdBad | Broken => IoPanic | Stall => IoBlocked end.
Proof.
  intros R Hn. unfold read_request. rewrite (read_head_none t R Hn). destruct (fin t); reflexivity.
Qed.

(** All outcomes after a proper head. *)
Definition head_kills ft cl rlt hst (lb : N) (e : ending) : Prop :=
  (forall hs, ~ header_block (faithful ft) hst hs) \/
  (forall rl, ~ line_means (faithful ft) rlt rl) \/
  exists hs, header_block (faithful ft) hst hs /\
    (((lb < announced hs)%N /\ e <> Stall) \/
     ((announced hs <= lb)%N /\
      ((forall cs, ~ cookies_mean cl (cookies_on ft) hs cs) \/ (ISIZE_MAX < announced hs)%N)) \/
     (ISIZE_MAX + 511 < announced hs)%N).
Definition head_outcome ft cl rlt hst (lb : N) (e : ending) (r : io (read_result cl)) : Prop :=
  match r with
  | IoDone RdBad => False
  | IoDone (RdRequest rq) => exists rl hs cs,
      line_means (faithful ft) rlt rl /\ header_block (faithful ft) hst hs /\
      cookies_mean cl (cookies_on ft) hs cs /\ (announced hs <= lb)%N /\ (announced hs <= ISIZE_MAX)%N
  | IoPanic => head_kills ft cl rlt hst lb e \/
      (e = Stall /\ exists rl hs, line_means (faithful ft) rlt rl /\ header_block (faithful ft) hst hs /\
        (lb < announced hs)%N /\ (ISIZE_MAX < announced hs <= ISIZE_MAX + 511)%N)
  | IoBlocked => e = Stall /\ exists rl hs, line_means (faithful ft) rlt rl /\ header_block (faithful ft) hst hs /\
      (lb < announced hs)%N /\ (announced hs <= ISIZE_MAX + 511)%N
  | IoFuel => False
  end.
Lemma read_request_head ft cl t a b rlt hst : real_segments t ->
  head_at (stream_of t) a b -> utf8_valid a = true -> head_parts a rlt hst ->
  head_outcome ft cl rlt hst (N.of_nat (length b)) (fin t) (read_request ft cl t).
Proof.
  intros R Ha V Hp.
  destruct (read_head_ok t a b rlt hst R Ha V Hp) as (rem & tl & E & Er & Ef & R' & Lr).
  unfold read_request. rewrite E. cbn [io_bind].
  pose proof (headers_parse_spec ft hst) as HB.
  destruct (headers_parse ft hst) as [h|]; [|left; left; eauto].
  destruct HB as (hs & HB & G & _).
  pose proof (request_line_spec ft rlt) as HL.
  destruct (request_line_parse ft rlt) as [[rl|]|]; cbn [obind unwrap io_of_outcome io_bind].
  2:{ left. right. left. apply HL. }
  2:{ left. right. left. apply HL. }
  destruct HL as [HL _].
  rewrite from_raw_spec by auto. cbn zeta. rewrite (content_length_spec h hs G), Er, Ef.
  assert (OK : forall body, (announced hs <= N.of_nat (length b))%N -> (announced hs <= ISIZE_MAX)%N ->
    head_outcome ft cl rlt hst (N.of_nat (length b)) (fin t)
      (io_bind (io_of_outcome (request_parse ft cl rl h body))
       (fun o => IoDone match o with Some rq => RdRequest rq | None => RdBad end))).
  { intros body Lb Li. pose proof (request_parse_spec ft cl rl h hs body G) as HP.
    destruct (request_parse ft cl rl h body) as [[rq|]|]; cbn [io_of_outcome io_bind head_outcome]; auto.
    - destruct HP as (cs & _ & C). exists rl, hs, cs. auto.
    - left. right. right. exists hs. split; auto. }
  assert (Lb : length b = length rem + length (stream_of tl)) by (rewrite <- Er, app_length; reflexivity).
  assert (IS : (511 < ISIZE_MAX)%N) by (vm_compute; reflexivity).
  destruct (Nat.eqb_spec (N.to_nat (announced hs)) 0) as [Z|NZ]; [apply OK; lia|].
  destruct (Nat.leb_spec (N.to_nat (announced hs)) (length rem)) as [L|L]; [apply OK; lia|].
  assert (Huge : (ISIZE_MAX < announced hs)%N ->
    head_outcome ft cl rlt hst (N.of_nat (length b)) (fin t) IoPanic).
  { intro Hg. destruct (N.le_gt_cases (announced hs) (ISIZE_MAX + 511)) as [Hw|Hw].
    - destruct (N.le_gt_cases (announced hs) (N.of_nat (length b))) as [Hb|Hb].
      + left. right. right. exists hs. split; [exact HB|]. auto.
      + destruct (fin t) eqn:Ft.
        * left. right. right. exists hs. split; [exact HB|]. left. split; [exact Hb|discriminate].
        * left. right. right. exists hs. split; [exact HB|]. left. split; [exact Hb|discriminate].
        * right. split; auto. exists rl, hs. auto.
    - left. right. right. exists hs. auto. }
  destruct (N.ltb_spec ISIZE_MAX (announced hs - N.of_nat (length rem))); [apply Huge; lia|].
  destruct (Nat.leb_spec (N.to_nat (announced hs)) (length b)).
  - destruct (N.ltb_spec ISIZE_MAX (announced hs)); [apply Huge; lia|apply OK; lia].
  - destruct (fin t) eqn:Ft; cbn [io_bind head_outcome].
    + left. right. right. exists hs. split; [exact HB|]. left. split; [lia|discriminate].
    + left. right. right. exists hs. split; [exact HB|]. left. split; [lia|discriminate].
    + split; auto. exists rl, hs. repeat split; auto; lia.
Qed.

(** Exactly which streams kill the task. *)
Lemma read_request_panics ft cl t : real_segments t ->
  (read_request ft cl t = IoPanic -> stream_kills ft cl (stream_of t) (fin t) \/ borderline ft (stream_of t) (fin t)) /\
  (stream_kills ft cl (stream_of t) (fin t) -> read_request ft cl t = IoPanic).
Proof.
  intros R. pose proof (find_str_spec CRLFCRLF (stream_of t)) as F.
  destruct (find_str CRLFCRLF (stream_of t)) as [i|].
  - destruct (head_at_exists (stream_of t)) as (a & b & Ha); [exists i; apply F|].
    assert (Hx : ~ ~ occurs CRLFCRLF (stream_of t)) by (intro X; apply X; eapply head_at_occurs; eauto).
    destruct (utf8_valid a) eqn:V.
    + destruct (find_str CRLF a) as [j|] eqn:Ej.
      * apply find_str_Some in Ej. destruct (head_parts_exists a) as (rlt & hst & Hp); [exists j; apply Ej|].
        pose proof (read_request_head ft cl t a b rlt hst R Ha V Hp) as H.
        split.
        -- intro E. rewrite E in H. destruct H as [H|(Es & rl & hs & H1 & H2 & H3 & H4)].
           ++ left. right. exists a, b, rlt, hst. auto.
           ++ right. split; auto. exists a, b, rlt, hst, rl, hs. auto 9.
        -- intros [[X _]|(a' & b' & rlt' & hst' & Ha' & V' & Hp' & K)]; [tauto|].
           destruct (head_at_fun _ _ _ _ _ Ha Ha') as [<- <-].
           destruct (head_parts_fun _ _ _ _ _ Hp Hp') as [<- <-].
           destruct (read_request ft cl t) as [[|rq]| | |]; auto; try contradiction; exfalso.
           ++ destruct H as (rl & hs & cs & H1 & H2 & H3 & H4 & H5).
              destruct K as [K|[K|(hs' & K1 & K2)]]; [eapply K; eauto|eapply K; eauto|].
              rewrite (header_block_fun _ _ _ _ K1 H2) in *.
              destruct K2 as [[K2 _]|[[_ [K2|K2]]|K2]]; [lia|eapply K2; eauto|lia|lia].
           ++ destruct H as (Hs & rl & hs & H1 & H2 & H3 & H4).
              destruct K as [K|[K|(hs' & K1 & K2)]]; [eapply K; eauto|eapply K; eauto|].
              rewrite (header_block_fun _ _ _ _ K1 H2) in *.
              destruct K2 as [[_ K2]|[[K2 _]|K2]]; [tauto|lia|lia].
      * apply find_str_None in Ej. rewrite (read_request_bad ft cl t a b R Ha (or_intror Ej)).
        split; [discriminate|]. intros [[X _]|(a' & b' & rlt' & hst' & Ha' & V' & Hp' & K)]; [tauto|].
        destruct (head_at_fun _ _ _ _ _ Ha Ha') as [<- <-]. exfalso. apply Ej.
        destruct Hp' as [-> _]. exists (length rlt'), rlt', hst'. auto.
    + rewrite (read_request_bad ft cl t a b R Ha (or_introl V)).
      split; [discriminate|]. intros [[X _]|(a' & b' & rlt' & hst' & Ha' & V' & Hp' & K)]; [tauto|].
      destruct (head_at_fun _ _ _ _ _ Ha Ha') as [<- <-]. congruence.
  - rewrite (read_request_none ft cl t R F). split.
    + destruct (fin t); try discriminate. left. left. auto.
    + intros [[_ ->]|(a' & b' & rlt' & hst' & Ha' & _)]; auto.
      exfalso. apply F. eapply head_at_occurs; eauto.
Qed.
Lemma panic_set ft cl t : real_segments t -> ~ borderline ft (stream_of t) (fin t) ->
  (read_request ft cl t = IoPanic <-> stream_kills ft cl (stream_of t) (fin t)).
Proof.
  intros R NB. destruct (read_request_panics ft cl t R) as [A C]. split; auto.
  intro E. destruct (A E); [auto|contradiction].
Qed.
