(** Reading the request head and body from the network. *)
From Verif.Proofs Require Export RequestProofs.
From Verif.Spec Require Import PathSpec RoutingSpec TextSpec RequestSpec.
Local Arguments N.mul : simpl never.
Local Arguments N.add : simpl never.
Local Arguments N.sub : simpl never.

Lemma occurs_at_app p d x j : occurs_at p d j -> occurs_at p (d ++ x) j.
Proof. intros (a & b & -> & <-). exists a, (b ++ x). split; auto. rewrite <- !app_assoc. reflexivity. Qed.
Lemma occurs_at_prefix p d x j : occurs_at p (d ++ x) j -> j + length p <= length d -> occurs_at p d j.
Proof.
  intros (a & b & E & <-) L. rewrite app_assoc in E.
  assert (E2 : firstn (length (a ++ p)) (d ++ x) = a ++ p).
  { rewrite E, firstn_app, Nat.sub_diag, firstn_all, firstn_O, app_nil_r. reflexivity. }
  rewrite firstn_app in E2. rewrite app_length in E2.
  replace (length a + length p - length d) with 0 in E2 by lia. rewrite firstn_O, app_nil_r in E2.
  exists a, (skipn (length a + length p) d). split; auto.
  rewrite app_assoc, <- E2 at 1. symmetry. apply firstn_skipn.
Qed.
Lemma first_at_app p d x i : first_at p d i -> first_at p (d ++ x) i.
Proof.
  intros [H1 H2]. split; [apply occurs_at_app; auto|].
  intros j Hj. destruct (Nat.lt_ge_cases j i); auto.
  apply H2. apply (occurs_at_prefix p d x j Hj). apply occurs_at_le in H1. lia.
Qed.

Lemma head_at_fun s a b a' b' : head_at s a b -> head_at s a' b' -> a = a' /\ b = b'.
Proof.
  intros [E F] [E' F']. pose proof (first_at_unique _ _ _ _ F F') as L.
  rewrite E in E'. apply app_length_inj in E' as [-> E']; [|auto]. apply app_inv_head in E'. auto.
Qed.
Lemma head_parts_fun a rl hs rl' hs' : head_parts a rl hs -> head_parts a rl' hs' -> rl = rl' /\ hs = hs'.
Proof.
  intros [E F] [E' F']. pose proof (crlf_first rl hs F) as X. pose proof (crlf_first rl' hs' F') as X'.
  rewrite <- E in X. rewrite <- E' in X'. pose proof (first_at_unique _ _ _ _ X X') as L.
  rewrite E in E'. apply app_length_inj in E' as [-> E']; [|auto]. apply app_inv_head in E'. auto.
Qed.
Lemma head_at_occurs s a b : head_at s a b -> occurs CRLFCRLF s.
Proof. intros [_ [H _]]. exists (length a). exact H. Qed.

Lemma parse_without_body_spec a :
  match parse_without_body a with
  | Some (rl, hs) => head_parts a rl hs
  | None => ~ occurs CRLF a
  end.
Proof.
  unfold parse_without_body. pose proof (find_str_spec CRLF a) as H.
  destruct (find_str CRLF a) as [n|]; auto.
  split.
  - rewrite skipn_skipn'. apply occurs_at_firstn. apply H.
  - apply first_at_prefix_no_occ; auto. discriminate.
Qed.

Lemma total_len_cons s l : total_len (s :: l) = length s + total_len l.
Proof. reflexivity. Qed.
Lemma tr_read_spec t : real_segments t ->
  match tr_read BUF t with
  | IoDone (Some [], t') => segs t = [] /\ fin t = Eof /\ t' = t
  | IoDone (Some chunk, t') => stream_of t = chunk ++ stream_of t' /\ fin t' = fin t /\ real_segments t' /\
        length chunk <= BUF /\ total_len (segs t) = length chunk + total_len (segs t')
  | IoDone (None, t') => segs t = [] /\ fin t = Broken
  | IoBlocked => segs t = [] /\ fin t = Stall
  | _ => False
  end.
Proof.
  destruct t as [l e]. unfold real_segments, tr_read, stream_of. cbn [segs fin].
  destruct l as [|s l]; intro R.
  - destruct e; auto.
  - inversion R as [|? ? Hs R']; subst. destruct (Nat.leb_spec (length s) BUF) as [L|L].
    + destruct s as [|b s]; [congruence|]. cbn [segs fin concat total_len]. repeat split; auto.
    + destruct (firstn BUF s) as [|b c] eqn:E.
      * exfalso. pose proof (firstn_length_le s (n := BUF)) as X. rewrite E in X.
        unfold BUF in *. simpl in X. lia.
      * rewrite <- E. cbn [segs fin concat]. split; [|split; [|split; [|split]]]; auto.
        -- rewrite app_assoc, firstn_skipn. reflexivity.
        -- constructor; auto. intro X. pose proof (skipn_length BUF s) as Y. rewrite X in Y. simpl in Y. lia.
        -- rewrite firstn_length. lia.
        -- rewrite !total_len_cons, firstn_length, skipn_length. lia.
Qed.

Lemma real_nil t : segs t = [] -> stream_of t = [].
Proof. unfold stream_of. intros ->. reflexivity. Qed.

Definition head_post (stream : str) (e : ending) (r : io head_result) : Prop :=
  match r with
  | IoDone (HeadOk hs rl rem later) =>
      exists a, head_at stream a (rem ++ stream_of later) /\ utf8_valid a = true /\ head_parts a rl hs /\
                fin later = e /\ real_segments later /\ length rem < 512
  | IoDone HeadBad =>
      (exists a b, head_at stream a b /\ (utf8_valid a = false \/ ~ occurs CRLF a)) \/
      (~ occurs CRLFCRLF stream /\ e = Eof)
  | IoPanic => ~ occurs CRLFCRLF stream /\ e = Broken
  | IoBlocked => ~ occurs CRLFCRLF stream /\ e = Stall
  | IoFuel => False
  end.

Lemma head_loop_spec fuel : forall data t, real_segments t -> total_len (segs t) < fuel ->
  ~ occurs CRLFCRLF data -> head_post (data ++ stream_of t) (fin t) (head_loop fuel data t).
Proof.
  induction fuel as [|fuel IH]; intros data t R L Hd; [lia|].
  cbn [head_loop]. pose proof (tr_read_spec t R) as T.
  destruct (tr_read BUF t) as [[[chunk|] t']| | |]; cbn [io_bind]; try contradiction.
  - destruct (Nat.eqb_spec (length chunk) 0) as [Z|NZ].
    + destruct chunk; [|discriminate]. destruct T as (T1 & T2 & _). right.
      rewrite (real_nil t T1), app_nil_r. auto.
    + assert (T' : stream_of t = chunk ++ stream_of t' /\ fin t' = fin t /\ real_segments t' /\
        length chunk <= BUF /\ total_len (segs t) = length chunk + total_len (segs t')).
      { destruct chunk; [simpl in NZ; lia|exact T]. }
      destruct T' as (E & Ef & R' & Lc & Lt).
      rewrite E, app_assoc.
      pose proof (find_in_slice_spec (data ++ chunk) CRLFCRLF) as F.
      destruct (find_in_slice (data ++ chunk) CRLFCRLF) as [i|].
      * assert (HA : forall b, head_at ((data ++ chunk) ++ b) (firstn i (data ++ chunk)) (skipn (i + 4) (data ++ chunk) ++ b)).
        { intro b. pose proof (occurs_at_le _ _ _ (proj1 F)) as Li. split.
          - rewrite (occurs_at_firstn _ _ _ (proj1 F)) at 1. rewrite <- !app_assoc. reflexivity.
          - rewrite firstn_length_le by lia. apply first_at_app. exact F. }
        specialize (HA (stream_of t')).
        destruct (utf8_valid (firstn i (data ++ chunk))) eqn:V.
        -- pose proof (parse_without_body_spec (firstn i (data ++ chunk))) as P.
           destruct (parse_without_body (firstn i (data ++ chunk))) as [[rl hs]|].
           ++ exists (firstn i (data ++ chunk)). repeat split; auto; try apply HA; try apply P.
              rewrite skipn_length, app_length.
              destruct (Nat.le_gt_cases (i + 4) (length data)) as [X|X]; [|unfold BUF in Lc; lia].
              exfalso. apply Hd. exists i. apply (occurs_at_prefix _ _ chunk); [apply F|exact X].
           ++ left. eauto.
        -- left. eauto.
      * rewrite <- Ef. apply IH; auto. lia.
  - destruct T as (T1 & T2). rewrite (real_nil t T1), app_nil_r. split; auto.
  - destruct T as (T1 & T2). rewrite (real_nil t T1), app_nil_r. split; auto.
Qed.

Lemma read_head_spec t : real_segments t -> head_post (stream_of t) (fin t) (read_head t).
Proof.
  intro R. apply (head_loop_spec (S (total_len (segs t))) [] t R); auto.
  intros (i & H). apply occurs_at_le in H. simpl in H. lia.
Qed.

Lemma head_at_exists s : occurs CRLFCRLF s -> exists a b, head_at s a b.
Proof.
  intro H. pose proof (find_str_spec CRLFCRLF s) as F. destruct (find_str CRLFCRLF s) as [i|]; [|contradiction].
  exists (firstn i s), (skipn (i + 4) s). pose proof (occurs_at_le _ _ _ (proj1 F)) as L. split.
  - apply (occurs_at_firstn CRLFCRLF s i). apply F.
  - rewrite firstn_length_le by lia. exact F.
Qed.
Lemma head_parts_exists a : occurs CRLF a -> exists rl hs, head_parts a rl hs.
Proof.
  intro H. pose proof (parse_without_body_spec a) as P.
  destruct (parse_without_body a) as [[rl hs]|]; [eauto|contradiction].
Qed.

(** The complete behaviour of the head reader. *)
Lemma read_head_ok t a b rl hs : real_segments t ->
  head_at (stream_of t) a b -> utf8_valid a = true -> head_parts a rl hs ->
  exists rem later, read_head t = IoDone (HeadOk hs rl rem later) /\
    rem ++ stream_of later = b /\ fin later = fin t /\ real_segments later /\ length rem < 512.
Proof.
  intros R Ha V Hp. pose proof (read_head_spec t R) as H. pose proof (head_at_occurs _ _ _ Ha) as Ho.
  destruct (read_head t) as [[hs' rl' rem later|]| | |]; simpl in H; try tauto.
  - destruct H as (a' & H1 & H2 & H3 & H4 & H5 & H6).
    destruct (head_at_fun _ _ _ _ _ Ha H1) as [<- ->].
    destruct (head_parts_fun _ _ _ _ _ Hp H3) as [<- <-]. exists rem, later. auto.
  - destruct H as [(a' & b' & H1 & H2)|[H _]]; [|tauto].
    destruct (head_at_fun _ _ _ _ _ Ha H1) as [<- <-]. destruct H2 as [H2|H2]; [congruence|].
    exfalso. apply H2. exists (length rl), rl, hs. destruct Hp as [-> _]. auto.
Qed.
Lemma read_head_bad t a b : real_segments t ->
  head_at (stream_of t) a b -> utf8_valid a = false \/ ~ occurs CRLF a -> read_head t = IoDone HeadBad.
Proof.
  intros R Ha Hb. pose proof (read_head_spec t R) as H. pose proof (head_at_occurs _ _ _ Ha) as Ho.
  destruct (read_head t) as [[hs' rl' rem later|]| | |]; simpl in H; try tauto.
  destruct H as (a' & H1 & H2 & H3 & H4 & H5 & H6).
  destruct (head_at_fun _ _ _ _ _ Ha H1) as [<- ->].
  destruct Hb as [Hb|Hb]; [congruence|]. exfalso. apply Hb.
  exists (length rl'), rl', hs'. destruct H3 as [-> _]. auto.
Qed.
Lemma read_head_none t : real_segments t -> ~ occurs CRLFCRLF (stream_of t) ->
  read_head t = match fin t with Eof => IoDone HeadBad | Broken => IoPanic | Stall => IoBlocked end.
Proof.
  intros R Hn. pose proof (read_head_spec t R) as H.
  destruct (read_head t) as [[hs' rl' rem later|]| | |]; simpl in H.
  - destruct H as (a & H & _). apply head_at_occurs in H. tauto.
  - destruct H as [(a & b & H & _)|[_ ->]]; auto. apply head_at_occurs in H. tauto.
  - destruct H as [_ ->]. auto.
  - destruct H as [_ ->]. auto.
  - contradiction.
Qed.

(** ** The body *)
Lemma read_exact_spec l : forall n e, Forall (fun s => s <> []) l -> 0 < n ->
  read_exact_segs n l e =
    if Nat.leb n (length (concat l)) then IoDone (Some (firstn n (concat l)))
    else match e with Stall => IoBlocked | _ => IoDone None end.
Proof.
  induction l as [|s l IH]; intros n e R Hn; simpl.
  - destruct (Nat.leb_spec n 0); [lia|]. destruct e; auto.
  - inversion R as [|? ? Hs R']; subst.
    destruct s as [|b s']; [congruence|]. remember (b :: s') as s eqn:Es.
    assert (Z : is_nil s = false) by (rewrite Es; reflexivity). rewrite Z.
    rewrite app_length, firstn_app.
    destruct (Nat.leb_spec n (length s)) as [L|L].
    + destruct (Nat.leb_spec n (length s + length (concat l))); [|lia].
      replace (n - length s) with 0 by lia. rewrite firstn_O, app_nil_r. reflexivity.
    + rewrite IH by (auto; lia). rewrite (firstn_all2 s) by lia.
      destruct (Nat.leb_spec (n - length s) (length (concat l)));
      destruct (Nat.leb_spec n (length s + length (concat l))); try lia; auto.
      destruct e; auto.
Qed.

(** What [from_raw] does, given the bytes [rem] that came with the head and the bytes [rest] that
    come later. *)
Lemma from_raw_spec ft cl h rl rem later : real_segments later ->
  request_from_raw ft cl h rl rem later =
    let n := N.to_nat (content_length h) in
    if Nat.eqb n 0 then io_of_outcome (request_parse ft cl rl h [])
    else if Nat.leb n (length rem) then io_of_outcome (request_parse ft cl rl h rem)
    else if (ISIZE_MAX <? content_length h - N.of_nat (length rem))%N then IoPanic
    else if Nat.leb n (length (rem ++ stream_of later))
      then if (ISIZE_MAX <? content_length h)%N then IoPanic
           else io_of_outcome (request_parse ft cl rl h (firstn n (rem ++ stream_of later)))
      else match fin later with Stall => IoBlocked | _ => IoPanic end.
Proof.
  intro R. unfold request_from_raw. cbn zeta.
  destruct (N.ltb_spec 0 (content_length h)) as [P|P];
  destruct (Nat.eqb_spec (N.to_nat (content_length h)) 0) as [Z|NZ]; try lia; auto.
  destruct (N.ltb_spec (N.of_nat (length rem)) (content_length h)) as [L|L];
  destruct (Nat.leb_spec (N.to_nat (content_length h)) (length rem)) as [L'|L']; try lia; auto.
  destruct (ISIZE_MAX <? content_length h - N.of_nat (length rem))%N; auto.
  rewrite read_exact_spec by (auto; lia). fold (stream_of later). rewrite app_length.
  replace (N.to_nat (content_length h - N.of_nat (length rem))) with (N.to_nat (content_length h) - length rem) by lia.
  destruct (Nat.leb_spec (N.to_nat (content_length h) - length rem) (length (stream_of later)));
  destruct (Nat.leb_spec (N.to_nat (content_length h)) (length rem + length (stream_of later))); try lia.
  - cbn [io_bind]. rewrite firstn_app, (firstn_all2 rem) by lia. reflexivity.
  - destruct (fin later); reflexivity.
Qed.
