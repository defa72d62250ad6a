(** Corollaries in the form of the property theorems, and example data. *)
From Verif.Proofs Require Export ReadProofs.
From Verif.Spec Require Import Common PathSpec RoutingSpec TextSpec RequestSpec.

(** A cookie library for examples: accepts items containing '='. *)
Definition demo_lib : cookie_lib :=
  CookieLib str (fun s => match find_char x3d s with Some _ => Some s | None => None end) (fun c => c).
(** "\r\n" written as a byte string. *)
Definition demo_head : str :=
  B "POST /a/../b HTTP/1.1" ++ CRLF ++ B "Host: x" ++ CRLF ++ B "content-LENGTH: 2".
Definition demo_stream (body : str) : str := demo_head ++ CRLFCRLF ++ body.

(** ** C65 *)
Lemma nexts_finished k : forall t, sp_finished t = true -> nexts k t = repeat None k.
Proof.
  induction k as [|k IH]; intros t H; simpl; auto.
  unfold spliterator_next. rewrite H. simpl. rewrite IH; auto.
Qed.
Lemma nexts_collect fuel : forall t l, spliterator_collect fuel t = Some l ->
  forall k, nexts k t = map Some (firstn k l) ++ repeat None (k - length l).
Proof.
  induction fuel as [|fuel IH]; intros t l H k; [discriminate|].
  rewrite collect_step in H. destruct k as [|k]; [reflexivity|].
  cbn [nexts]. destruct (spliterator_next t) as [[x|] t'] eqn:E.
  - destruct (spliterator_collect fuel t') as [l'|] eqn:E'; [|discriminate]. injection H as <-.
    cbn [fst snd]. rewrite (IH t' l' E' k). reflexivity.
  - injection H as <-. unfold spliterator_next in E.
    destruct (sp_finished t) eqn:F; [|destruct (find_in_slice (sp_string t) (sp_seq t)); discriminate].
    injection E as <-. cbn [fst snd firstn map app length]. rewrite Nat.sub_0_r. simpl.
    f_equal. apply nexts_finished; auto.
Qed.
Lemma split_lossless seq s : seq <> [] ->
  exists l, pieces_of seq s l /\ forall k, nexts k (spliterator_new s seq) = map Some (firstn k l) ++ repeat None (k - length l).
Proof.
  intro H. destruct (collect_pieces seq s H) as (l & E & P). exists l. split; auto.
  intro k. eapply nexts_collect; eauto.
Qed.
Lemma split_once s : exists! l, pieces_of CRLF s l.
Proof.
  destruct (collect_pieces CRLF s) as (l & _ & P); [discriminate|]. exists l. split; auto.
  intros l' P'. eapply pieces_unique; eauto.
Qed.

(** ** C18 *)
Lemma schedule_independent t t' : real_segments t -> real_segments t' ->
  stream_of t = stream_of t' -> fin t = fin t' -> same_head (read_head t) (read_head t').
Proof.
  intros R R' E Ef. pose proof (read_head_spec t R) as H. pose proof (read_head_spec t' R') as H'.
  rewrite <- E, <- Ef in H'.
  assert (ED : fin t = Eof -> fin t = Broken -> False) by congruence.
  assert (ES : fin t = Eof -> fin t = Stall -> False) by congruence.
  assert (BS : fin t = Broken -> fin t = Stall -> False) by congruence.
  assert (HB : forall a hs rl rem tl,
    head_at (stream_of t) a (rem ++ stream_of tl) /\ utf8_valid a = true /\ head_parts a rl hs /\
      fin tl = fin t /\ real_segments tl /\ length rem < 512 ->
    (exists a b, head_at (stream_of t) a b /\ (utf8_valid a = false \/ ~ occurs CRLF a)) -> False).
  { intros a hs rl rem tl (H1 & H2 & H3 & _) (a' & b' & H4 & H5).
    destruct (head_at_fun _ _ _ _ _ H1 H4) as [<- _]. destruct H5 as [H5|H5]; [congruence|].
    apply H5. destruct H3 as [-> _]. exists (length rl), rl, hs. auto. }
  assert (HO : forall a b, head_at (stream_of t) a b -> ~ occurs CRLFCRLF (stream_of t) -> False).
  { intros a b X Y. apply Y. eapply head_at_occurs; eauto. }
  destruct (read_head t) as [[hs rl rem tl|]| | |], (read_head t') as [[hs' rl' rem' tl'|]| | |];
    simpl in *; try tauto.
  - destruct H as (a & H1 & H2 & H3 & H4 & _), H' as (a' & H1' & H2' & H3' & H4' & _).
    destruct (head_at_fun _ _ _ _ _ H1 H1') as [<- Eb].
    destruct (head_parts_fun _ _ _ _ _ H3 H3') as [<- <-]. repeat split; auto. congruence.
  - destruct H as (a & H), H' as [H'|[H' _]]; eauto. destruct H as (H & _). eauto.
  - destruct H as (a & H & _), H' as [H' _]. eauto.
  - destruct H as (a & H & _), H' as [H' _]. eauto.
  - destruct H' as (a & H'), H as [H|[H _]]; eauto. destruct H' as (H' & _). eauto.
  - destruct H as [(a & b & H & _)|[H1 H2]], H' as [H1' H2']; eauto.
  - destruct H as [(a & b & H & _)|[H1 H2]], H' as [H1' H2']; eauto.
  - destruct H' as (a & H' & _), H as [H _]. eauto.
  - destruct H' as [(a & b & H' & _)|[H1 H2]], H as [H1' H2']; eauto.
  - destruct H' as (a & H' & _), H as [H _]. eauto.
  - destruct H' as [(a & b & H' & _)|[H1 H2]], H as [H1' H2']; eauto.
Qed.

(** ** C21 *)
Lemma roundtrip ft hs : hs <> [] -> Forall (good_header (faithful ft)) hs -> raw_headers_on ft = true ->
  exists h, headers_parse ft (join CRLF (map header_text hs)) = Some h /\ raw h = hs.
Proof.
  intros Hn F Hr. destruct (block_parse ft _ hs (serialised_block _ hs Hn F)) as (h & E & _ & G).
  exists h. auto.
Qed.
Lemma strict_good hd : valid_name true (h_name hd) -> valid_value true (h_value hd) ->
  utf8_valid (h_value hd) = true -> good_header true hd.
Proof.
  intros Hn Hv V. split; auto. split; auto. split; [|apply strict_no_crlf; auto].
  unfold header_text. destruct Hn as (_ & _ & T). specialize (T eq_refl).
  assert (VN : utf8_valid (h_name hd) = true).
  { induction T as [|b l Hb T IH]; auto. simpl. rewrite in_range_true; auto.
    destruct Hb as [H|[H|[H|H]]]; try lia.
    simpl in H. repeat destruct H as [<-|H]; try (vm_compute; split; discriminate). destruct H. }
  rewrite utf8_app by auto. rewrite utf8_app by reflexivity. exact V.
Qed.

(** ** C22 for whatever is accepted *)
Lemma lookup_parsed ft s h : headers_parse ft s = Some h ->
  exists hs, header_block (faithful ft) s hs /\ forall k, headers_get h k = folded k hs.
Proof. intro H. destruct (parse_block ft s h H) as (hs & HB & G & _). eauto. Qed.
Lemma lookup_block ft s hs h : header_block (faithful ft) s hs -> headers_parse ft s = Some h ->
  forall k, headers_get h k = folded k hs.
Proof.
  intros HB E. destruct (parse_block ft s h E) as (hs' & HB' & G & _).
  rewrite (header_block_fun _ _ _ _ HB HB'). exact G.
Qed.
Lemma folded_None k hs : folded k hs = None <-> forall hd, In hd hs -> to_ascii_lowercase (h_name hd) <> k.
Proof.
  unfold folded. split.
  - intros H hd Hin E. assert (In hd (filter (named k) hs)) as X.
    { apply filter_In. split; auto. unfold named. rewrite E. apply seqb_refl. }
    destruct (filter (named k) hs) as [|y l]; [destruct X|]. discriminate.
  - intro H. destruct (filter (named k) hs) as [|y l] eqn:E; auto. exfalso.
    assert (In y (filter (named k) hs)) as X by (rewrite E; left; auto).
    apply filter_In in X as [X1 X2]. apply (H y X1). apply seqb_eq. exact X2.
Qed.

(** ** C24 *)
Lemma blank_not_colon_split (n v n' ws v' : str) : ~ In x3a n -> ~ In x3a n' ->
  n ++ [x3a] ++ v = n' ++ [x3a] ++ ws ++ v' -> n = n' /\ v = ws ++ v'.
Proof.
  revert n'. induction n as [|c n IH]; intros n' A A' E; destruct n' as [|c' n']; cbn in E.
  - injection E as E. auto.
  - injection E as E1 E2. subst. exfalso. apply A'. left. reflexivity.
  - injection E as E1 E2. subst. exfalso. apply A. left. reflexivity.
  - injection E as E1 E2. subst c'.
    destruct (IH n') as [-> ->]; auto.
    + intro X. apply A. right. exact X.
    + intro X. apply A'. right. exact X.
Qed.
Lemma ctl_line_rejected ft n v b : faithful ft = true -> ~ In x3a n -> In b v -> rejected_ctl b -> b <> HT ->
  utf8_valid (n ++ [x3a] ++ v) = true -> header_parse ft (n ++ [x3a] ++ v) = None.
Proof.
  intros F A I1 C T U. destruct (header_parse ft (n ++ [x3a] ++ v)) as [[n' v']|] eqn:E; [|reflexivity].
  exfalso. apply header_parse_spec in E; [|exact U]. destruct E as ((_ & A' & _) & (_ & V) & ws & W & E).
  destruct (blank_not_colon_split _ _ _ _ _ A A' E) as [_ ->].
  rewrite in_app_iff in I1. destruct I1 as [I1|I1].
  - rewrite Forall_forall in W. destruct (W b I1) as [->| ->]; [|apply T; reflexivity].
    destruct C as [C|C]; vm_compute in C; discriminate.
  - specialize (V F). rewrite Forall_forall in V. exact (V b I1 C).
Qed.
Lemma join_Forall (P : byte -> Prop) sep l : Forall P sep -> Forall (Forall P) l -> Forall P (join sep l).
Proof.
  intros S H. induction H as [|x l Hx H IH]; [constructor|].
  destruct l as [|y l]; [exact Hx|]. change (join sep (x :: y :: l)) with (x ++ sep ++ join sep (y :: l)).
  rewrite !Forall_app. auto.
Qed.
Lemma accepted_no_ctl ft s h : faithful ft = true -> headers_parse ft s = Some h ->
  (forall k v, headers_get h k = Some v -> Forall (fun b => ~ rejected_ctl b) v) /\
  (raw_headers_on ft = true ->
   Forall (fun hd => h_name hd <> [] /\ Forall tchar (h_name hd) /\ Forall (fun b => ~ rejected_ctl b) (h_value hd)) (raw h)).
Proof.
  intros F E.
  destruct (parse_block ft s h E) as (hs & (lines & _ & H) & G & R). rewrite F in H.
  assert (Y : Forall (fun hd => h_name hd <> [] /\ Forall tchar (h_name hd) /\ Forall (fun b => ~ rejected_ctl b) (h_value hd)) hs).
  { clear G R E. induction H as [|l hd lines hs (_ & (N & _ & T) & (_ & C) & _) H IH]; constructor; [|exact IH].
    split; [exact N|split; [exact (T eq_refl)|exact (C eq_refl)]]. }
  split; [|intro O; rewrite (R O); exact Y].
  intros k v K. rewrite G in K. unfold folded in K.
  assert (Z : Forall (Forall (fun b => ~ rejected_ctl b)) (map h_value (filter (named k) hs))).
  { rewrite Forall_map. apply Forall_forall. intros hd M. apply filter_In in M.
    rewrite Forall_forall in Y. apply (Y hd), M. }
  destruct (map h_value (filter (named k) hs)) as [|a r]; [discriminate|].
  assert (K' : join (B ", ") (a :: r) = v) by congruence. rewrite <- K'. apply join_Forall; [|exact Z].
  repeat constructor; intros [X|X]; vm_compute in X; discriminate.
Qed.

Lemma absent_header ft s h hs k : header_block (faithful ft) s hs -> headers_parse ft s = Some h ->
  (headers_get h k = None <-> forall hd, In hd hs -> to_ascii_lowercase (h_name hd) <> k).
Proof. intros HB E. rewrite (lookup_block ft s hs h HB E k). apply folded_None. Qed.
Lemma strict_roundtrip ft hs : faithful ft = true -> raw_headers_on ft = true -> hs <> [] ->
  Forall (fun hd => h_name hd <> [] /\ Forall tchar (h_name hd) /\ ~ In x3a (h_name hd) /\
            valid_value true (h_value hd) /\ utf8_valid (h_value hd) = true) hs ->
  exists h, headers_parse ft (join CRLF (map header_text hs)) = Some h /\ raw h = hs.
Proof.
  intros F R N H. apply roundtrip; auto. rewrite F. eapply Forall_impl; [|exact H].
  intros hd (A & T & C & V & U). apply strict_good; auto. repeat split; auto.
Qed.

(** ** C29, C30 *)
Lemma host_check0 v h hs : (forall k, headers_get h k = folded k hs) ->
  (err_bad_request (http_validate v h) = true <->
   v = Http11 /\ forall hd, In hd hs -> to_ascii_lowercase (h_name hd) <> B "host").
Proof.
  intro G. rewrite <- folded_None, <- G.
  unfold http_validate, http11_check, http10_check.
  destruct v; try (cbn; split; [discriminate|intros [? _]; discriminate]).
  - destruct (headers_get h (B "host")); destruct (headers_get h (B "connection")) as [c|];
      try destruct (seqb c (B "keep-alive")); try destruct (seqb c (B "close"));
      cbn; split; intro H; try discriminate; try (split; reflexivity); try reflexivity;
      destruct H; discriminate.
  - split; [|intros [? _]; discriminate].
    destruct (headers_get h (B "connection")) as [c|]; [|discriminate].
    destruct (seqb c (B "keep-alive")); [|destruct (seqb c (B "close")); discriminate].
    destruct (headers_get h (B "keep-alive")); discriminate.
Qed.
Lemma host_check v h hs : (forall k, headers_get h k = folded k hs) ->
  (err_bad_request (http_validate v h) = true <->
   v = Http11 /\ forall hd, In hd hs -> ~ same_fold (h_name hd) (B "host")).
Proof.
  intro G. rewrite (host_check0 v h hs G).
  split; intros [Ev H]; (split; [exact Ev|]); intros hd Hi X; apply (H hd Hi).
  - apply same_fold_lower in X. exact X.
  - apply same_fold_lower. exact X.
Qed.
Lemma host_required ft s h hs v : header_block (faithful ft) s hs -> headers_parse ft s = Some h ->
  (err_bad_request (http_validate v h) = true <->
   v = Http11 /\ forall hd, In hd hs -> ~ same_fold (h_name hd) (B "host")).
Proof. intros HB E. apply host_check. exact (lookup_block ft s hs h HB E). Qed.
Lemma item_sets_fun key v w item : key = B "timeout" \/ key = B "max" ->
  item_sets key v item -> item_sets key w item -> v = w.
Proof.
  intros K H H'. apply (item_sets_trim key v item K) in H as (ds & E & P).
  apply (item_sets_trim key w item K) in H' as (ds' & E' & P'). rewrite E in E'. apply app_inv_head in E'.
  injection E' as <-. congruence.
Qed.
Lemma cut_last {A} (P : A -> Prop) pre x post pre' x' post' : pre ++ x :: post = pre' ++ x' :: post' ->
  P x -> P x' -> (forall y, In y post -> ~ P y) -> (forall y, In y post' -> ~ P y) -> x = x'.
Proof.
  revert pre'. induction pre as [|a pre IH]; intros pre' E Px Px' N N'; destruct pre' as [|a' pre'].
  - injection E as -> ->. reflexivity.
  - injection E as -> E. exfalso. apply (N x'); [rewrite E; apply in_or_app; right; left; reflexivity|exact Px'].
  - injection E as E1 E. exfalso. apply (N' x); [rewrite <- E; apply in_or_app; right; left; reflexivity|exact Px].
  - injection E as _ E. eauto.
Qed.
Lemma last_setting_fun key items o o' : key = B "timeout" \/ key = B "max" ->
  last_setting key items o -> last_setting key items o' -> o = o'.
Proof.
  intros K H H'. destruct o as [v|], o' as [v'|]; simpl in *; auto.
  - destruct H as (pre & it & post & E & S & N). destruct H' as (pre' & it' & post' & E' & S' & N').
    assert (it = it') as <-.
    { rewrite E in E'. eapply (cut_last (fun it => exists v, item_sets key v it) pre it post pre' it' post'); eauto.
      - intros y Hy (w & Hw). exact (N y w Hy Hw).
      - intros y Hy (w & Hw). exact (N' y w Hy Hw). }
    f_equal. eapply item_sets_fun; eauto.
  - exfalso. destruct H as (pre & it & post & E & S & N). apply (H' it v); [|exact S].
    rewrite E. apply in_or_app. right. left. reflexivity.
  - exfalso. destruct H' as (pre & it & post & E & S & N). apply (H it v'); [|exact S].
    rewrite E. apply in_or_app. right. left. reflexivity.
Qed.
Lemma ka_timeout_iff ka secs :
  (exists items o, pieces_of [x2c] ka items /\ last_setting (B "timeout") items o /\
     secs = match o with Some t => t | None => 0%N end) <->
  secs = match ka_timeout (keepalive_parse ka) with Some t => t | None => 0%N end.
Proof.
  split.
  - intros (items & o & P & L & ->). destruct (keepalive_spec ka items P) as [L' _].
    rewrite (last_setting_fun _ _ _ _ (or_introl eq_refl) L L'). reflexivity.
  - intros ->. exists (split_char x2c ka), (ka_timeout (keepalive_parse ka)).
    split; [|split; [|reflexivity]].
    + apply pieces1_unique; reflexivity.
    + apply (keepalive_spec ka). apply pieces1_unique; reflexivity.
Qed.
Lemma persistence0 v h :
  (keep_alive (http_validate v h) = KUserDefined <->
     v = Http11 /\ headers_get h (B "connection") = Some (B "keep-alive")) /\
  (forall secs, keep_alive (http_validate v h) = KParticular secs <->
     v = Http10 /\ headers_get h (B "connection") = Some (B "keep-alive") /\
     exists ka, headers_get h (B "keep-alive") = Some ka /\
       secs = match ka_timeout (keepalive_parse ka) with Some t => t | None => 0%N end) /\
  (http_keep_alive (http_validate v h) = true <-> keep_alive (http_validate v h) <> KClose).
Proof.
  unfold http_keep_alive.
  assert (D : B "close" <> B "keep-alive") by discriminate.
  split; [|split].
  - unfold http_validate, http11_check, http10_check. split.
    + intro H. destruct v; try discriminate H.
      * destruct (headers_get h (B "connection")) as [c|];
          [|exfalso; destruct (headers_get h (B "host")); discriminate H].
        destruct (seqb_spec c (B "keep-alive")) as [Ec|N]; [rewrite Ec; auto|]. exfalso.
        destruct (headers_get h (B "host")); destruct (seqb c (B "close")); discriminate H.
      * exfalso. destruct (headers_get h (B "connection")) as [c|]; [|discriminate H].
        destruct (seqb c (B "keep-alive")).
        -- destruct (headers_get h (B "keep-alive")); discriminate H.
        -- destruct (seqb c (B "close")); discriminate H.
    + intros [-> E]. rewrite E. reflexivity.
  - intro secs. unfold http_validate, http11_check, http10_check. split.
    + intro H. destruct v; try discriminate.
      * exfalso. destruct (headers_get h (B "connection")) as [c|].
        -- destruct (seqb c _); [discriminate|]. destruct (headers_get h (B "host")); destruct (seqb c _); discriminate.
        -- destruct (headers_get h (B "host")); discriminate.
      * destruct (headers_get h (B "connection")) as [c|]; [|discriminate].
        destruct (seqb_spec c (B "keep-alive")) as [Ec|N].
        -- split; auto. split; [rewrite Ec; auto|]. destruct (headers_get h (B "keep-alive")) as [ka|]; [|discriminate].
           exists ka. split; auto. simpl in H. congruence.
        -- exfalso. destruct (seqb c (B "close")); discriminate.
    + intros (-> & E & ka & E2 & ->). rewrite E, seqb_refl, E2. reflexivity.
  - destruct (keep_alive (http_validate v h)); split; intro; congruence.
Qed.
Lemma persistence v h :
  (keep_alive (http_validate v h) = KUserDefined <->
     v = Http11 /\ headers_get h (B "connection") = Some (B "keep-alive")) /\
  (forall secs, keep_alive (http_validate v h) = KParticular secs <->
     v = Http10 /\ headers_get h (B "connection") = Some (B "keep-alive") /\
     exists ka items o, headers_get h (B "keep-alive") = Some ka /\ pieces_of [x2c] ka items /\
       last_setting (B "timeout") items o /\ secs = match o with Some t => t | None => 0%N end) /\
  (http_keep_alive (http_validate v h) = true <-> keep_alive (http_validate v h) <> KClose).
Proof.
  destruct (persistence0 v h) as (P1 & P2 & P3). split; [exact P1|]. split; [|exact P3].
  intro secs. rewrite (P2 secs). split.
  - intros (E & C & ka & G & S). split; [exact E|]. split; [exact C|].
    apply ka_timeout_iff in S as (items & o & S). exists ka, items, o. tauto.
  - intros (E & C & ka & items & o & G & S). split; [exact E|]. split; [exact C|]. exists ka. split; [exact G|].
    apply ka_timeout_iff. eauto.
Qed.

(** ** Names and letter case *)
Lemma named_fold k hd : Forall (fun b => ~ (65 <= bN b <= 90)%N) k -> (named k hd = true <-> same_fold (h_name hd) k).
Proof.
  intro L. apply lower_fixed in L. unfold named. rewrite same_fold_lower, L.
  destruct (seqb_spec (to_ascii_lowercase (h_name hd)) k); split; congruence.
Qed.
Lemma selects_is_filter {A} (P : A -> Prop) f l sel : (forall x, f x = true <-> P x) -> selects P l sel -> sel = filter f l.
Proof.
  intro H. induction 1 as [|x l l' Px S IH|x l l' Nx S IH]; [reflexivity| |]; cbn [filter].
  - apply H in Px. rewrite Px, IH. reflexivity.
  - destruct (f x) eqn:E; [apply H in E; contradiction|exact IH].
Qed.
Lemma lookup_by_name ft s hs h k sel : header_block (faithful ft) s hs -> headers_parse ft s = Some h ->
  Forall (fun b => ~ (65 <= bN b <= 90)%N) k -> selects (fun hd => same_fold (h_name hd) k) hs sel ->
  headers_get h k = match sel with [] => None | _ => Some (join (B ", ") (map h_value sel)) end.
Proof.
  intros HB E L S. rewrite (lookup_block ft s hs h HB E k).
  rewrite (selects_is_filter _ (named k) hs sel (fun hd => named_fold k hd L) S).
  unfold folded. destruct (filter (named k) hs); reflexivity.
Qed.
Lemma lookup_capital ft s h k b : headers_parse ft s = Some h -> In b k -> (65 <= bN b <= 90)%N -> headers_get h k = None.
Proof.
  intros E Hi R. destruct (lookup_parsed ft s h E) as (hs & _ & G). rewrite (G k). unfold folded.
  assert (X : filter (named k) hs = []).
  { assert (Nk : forall hd, named k hd = false).
    { intro hd. unfold named. destruct (seqb_spec (to_ascii_lowercase (h_name hd)) k) as [Ek|]; [|reflexivity]. exfalso.
      rewrite <- Ek in Hi. unfold to_ascii_lowercase in Hi. apply in_map_iff in Hi as (c & <- & _).
      unfold lower, is_upper in R. destruct (N.leb_spec 65 (bN c)); cbn [andb] in R.
      - destruct (N.leb_spec (bN c) 90); [|lia]. rewrite bN_byte_of in R; lia.
      - lia. }
    clear E G. induction hs as [|hd hs IH]; [reflexivity|]. cbn [filter]. rewrite Nk. exact IH. }
  rewrite X. reflexivity.
Qed.

(** ** C38 *)
Lemma cookies_exact ft cl s h hs rl body rq :
  header_block (faithful ft) s hs -> headers_parse ft s = Some h ->
  (request_parse ft cl rl h body = Done (Some rq) <->
   exists cs, cookies_mean cl (cookies_on ft) hs cs /\ rq = Request rl h body cs).
Proof.
  intros HB E. pose proof (lookup_block ft s hs h HB E) as G. split.
  - intro H. pose proof (request_parse_spec ft cl rl h hs body G) as X. rewrite H in X.
    destruct X as (cs & -> & C). eauto.
  - intros (cs & C & ->). eapply request_parse_ok; eauto.
Qed.

(** ** C19 *)
Lemma body_exact ft cl t a b rl hs cs : real_segments t ->
  head_at (stream_of t) a b -> head_means ft cl a rl hs cs ->
  N.of_nat (length b) = announced hs -> (announced hs <= ISIZE_MAX)%N ->
  exists h, read_request ft cl t = IoDone (RdRequest (Request rl h b cs)) /\ forall k, headers_get h k = folded k hs.
Proof.
  intros R Ha Hm E Li. destruct (read_request_ok ft cl t a b rl hs cs R Ha Hm) as (h & body & Er & G & _ & Bc); [lia|lia|].
  exists h. split; auto. rewrite Er.
  assert (body = b) as ->; auto. destruct Bc as [->|(_ & k & Hk & ->)]; apply firstn_all2; lia.
Qed.

(** ** C27: enormous announcements *)
Lemma huge_panics ft cl t a b rlt hst hs : real_segments t ->
  head_at (stream_of t) a b -> utf8_valid a = true -> head_parts a rlt hst ->
  header_block (faithful ft) hst hs -> (ISIZE_MAX + 511 < announced hs)%N ->
  read_request ft cl t = IoPanic.
Proof.
  intros R Ha V Hp Hb L.
  destruct (read_head_ok t a b rlt hst R Ha V Hp) as (rem & tl & E & Er & Ef & R' & Lr).
  destruct (block_parse ft hst hs Hb) as (h & Eh & G & _).
  unfold read_request. rewrite E. cbn [io_bind]. rewrite Eh.
  destruct (request_line_parse ft rlt) as [[rl|]|]; cbn [obind unwrap io_of_outcome io_bind]; auto.
  rewrite from_raw_spec by auto. cbn zeta. rewrite (content_length_spec h hs G).
  assert (X : (N.of_nat (length rem) < 512)%N) by lia.
  destruct (Nat.eqb_spec (N.to_nat (announced hs)) 0); [lia|].
  destruct (Nat.leb_spec (N.to_nat (announced hs)) (length rem)); [lia|].
  destruct (N.ltb_spec ISIZE_MAX (announced hs - N.of_nat (length rem))); [reflexivity|lia].
Qed.
