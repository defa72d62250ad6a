(** Conformance. *)
From Verif.Proofs Require Export ConnProofs ServerWitness ResponseExtra TrimProofs.
From Coq Require Import Relations.
From Verif.Spec Require Import Common PathSpec RoutingSpec TextSpec RequestSpec ResponseSpec ServerSpec ConformSpec.

(** ** What reading a request gives *)
Lemma block_value ft s hs : header_block (faithful ft) s hs ->
  headers_parse ft s = Some (Headers (fold_left add_header hs []) (if raw_headers_on ft then hs else [])).
Proof.
  intros (lines & P & F). unfold headers_parse. destruct (collect_pieces CRLF s) as (lines' & E & Hp); [discriminate|].
  unfold collect_all in E. rewrite E. rewrite (pieces_unique s lines' lines Hp P).
  pose proof (headers_loop_spec ft lines (Headers [] [])) as L. destruct (headers_loop ft (Headers [] []) lines) as [[m r]|].
  - destruct L as (hs' & F' & Pm & Pr). cbn [parsed raw] in *.
    rewrite (header_block_fun _ _ _ _ (ex_intro _ lines (conj P F)) (ex_intro _ lines (conj P F'))). subst.
    destruct (raw_headers_on ft); reflexivity.
  - exfalso. apply L. eauto.
Qed.

Definition finish {cl} (o : outcome (option (request cl))) : io (read_result cl) :=
  io_bind (io_of_outcome o) (fun o => IoDone match o with Some rq => RdRequest rq | None => RdBad end).
Lemma read_value ft cl t a b rlt hst : real_segments t ->
  head_at (stream_of t) a b -> utf8_valid a = true -> head_parts a rlt hst ->
  exists k, k < 512 /\ k <= length b /\
  read_request ft cl t =
    match headers_parse ft hst with
    | None => IoPanic
    | Some h =>
        match request_line_parse ft rlt with
        | Done (Some rl) =>
            let n := content_length h in
            if (n =? 0)%N then finish (request_parse ft cl rl h [])
            else if (n <=? N.of_nat k)%N then finish (request_parse ft cl rl h (firstn k b))
            else if (ISIZE_MAX <? n - N.of_nat k)%N then IoPanic
            else if (n <=? N.of_nat (length b))%N
                 then if (ISIZE_MAX <? n)%N then IoPanic else finish (request_parse ft cl rl h (firstn (N.to_nat n) b))
                 else match fin t with Stall => IoBlocked | _ => IoPanic end
        | _ => IoPanic
        end
    end.
Proof.
  intros R Ha V Hp. destruct (read_head_ok t a b rlt hst R Ha V Hp) as (rem & tl & E & Er & Ef & R' & Lr).
  exists (length rem). split; [exact Lr|]. split; [rewrite <- Er, app_length; lia|].
  unfold read_request. rewrite E. cbn [io_bind]. destruct (headers_parse ft hst) as [h|]; [|reflexivity].
  destruct (request_line_parse ft rlt) as [[rl|]|]; cbn [obind unwrap io_of_outcome io_bind]; try reflexivity.
  rewrite from_raw_spec by auto. cbn zeta. rewrite Er, Ef.
  assert (F : firstn (length rem) b = rem) by (rewrite <- Er, firstn_app, Nat.sub_diag, firstn_all, firstn_O, app_nil_r; reflexivity).
  rewrite F. unfold finish.
  destruct (Nat.eqb_spec (N.to_nat (content_length h)) 0); destruct (N.eqb_spec (content_length h) 0); try lia; [reflexivity|].
  destruct (Nat.leb_spec (N.to_nat (content_length h)) (length rem)); destruct (N.leb_spec (content_length h) (N.of_nat (length rem))); try lia; [reflexivity|].
  destruct (ISIZE_MAX <? _)%N; [reflexivity|].
  destruct (Nat.leb_spec (N.to_nat (content_length h)) (length b)); destruct (N.leb_spec (content_length h) (N.of_nat (length b))); try lia.
  - destruct (ISIZE_MAX <? _)%N; reflexivity.
  - destruct (fin t); reflexivity.
Qed.

(** ** Segmentation *)
Lemma text_cases s : ~ occurs CRLFCRLF s \/ exists a b, head_at s a b /\
  (head_bad a \/ utf8_valid a = true /\ exists rlt hst, head_parts a rlt hst).
Proof.
  pose proof (find_str_spec CRLFCRLF s) as F. destruct (find_str CRLFCRLF s) as [i|].
  - right. destruct (head_at_exists s) as (a & b & Ha); [exists i; apply F|]. exists a, b. split; auto.
    destruct (utf8_valid a) eqn:V; [|left; left; auto].
    pose proof (find_str_spec CRLF a) as G. destruct (find_str CRLF a) as [j|].
    + right. split; auto. destruct G as [(x & y & E & L) M]. exists x, y. split; [exact E|].
      intros (j' & x' & y' & E' & L'). assert (j <= j').
      { apply M. exists x', (y' ++ CRLF ++ y). rewrite E, E', <- !app_assoc. auto. }
      subst x. rewrite !app_length in L. cbn in L. lia.
    + left. right. exact G.
  - left. exact F.
Qed.
Theorem segmentation ft cl t t' : real_segments t -> real_segments t' ->
  stream_of t = stream_of t' -> fin t = fin t' ->
  ~ surplus ft (stream_of t) -> ~ borderline ft (stream_of t) (fin t) ->
  read_request ft cl t = read_request ft cl t'.
Proof.
  intros R R' Es Ef Ns Nb. destruct (text_cases (stream_of t)) as [No|(a & b & Ha & [Hb|(V & rlt & hst & Hp)])].
  - rewrite (read_request_none ft cl t R No). rewrite Es in No. rewrite (read_request_none ft cl t' R' No), Ef. reflexivity.
  - rewrite (read_request_bad ft cl t a b R Ha Hb). rewrite Es in Ha. rewrite (read_request_bad ft cl t' a b R' Ha Hb). reflexivity.
  - pose proof Ha as Ha'. rewrite Es in Ha'.
    destruct (read_value ft cl t a b rlt hst R Ha V Hp) as (k & K1 & K2 & ->).
    destruct (read_value ft cl t' a b rlt hst R' Ha' V Hp) as (k' & K1' & K2' & ->).
    pose proof (headers_parse_spec ft hst) as HB. destruct (headers_parse ft hst) as [h|]; [|reflexivity].
    destruct HB as (hs & HB & G & _). pose proof (request_line_spec ft rlt) as HL.
    destruct (request_line_parse ft rlt) as [[rl|]|]; try reflexivity. destruct HL as [HL _]. cbn zeta.
    rewrite (content_length_spec h hs G). rewrite <- Ef. set (n := announced hs).
    assert (Hs : (n = 0 \/ N.of_nat (length b) <= n)%N).
    { destruct (N.eq_dec n 0); auto. right. destruct (N.le_gt_cases (N.of_nat (length b)) n); auto. exfalso. apply Ns.
      exists a, b, rlt, hst, hs. repeat (split; [assumption|]). fold n. lia. }
    assert (IS : (512 < ISIZE_MAX)%N) by (vm_compute; reflexivity).
    destruct (N.eqb_spec n 0) as [|Nz]; [reflexivity|]. destruct Hs as [|Hs]; [lia|].
    assert (Fb : forall j, (n <= N.of_nat j)%N -> firstn j b = b) by (intros j Lj; apply firstn_all2; lia).
    rewrite (Fb (N.to_nat n)) by lia.
    assert (Sm : forall j, j < 512 -> j <= length b -> (n <= N.of_nat j)%N -> length b = j /\ (n <= 512)%N) by lia.
    destruct (N.leb_spec n (N.of_nat k)) as [L|L]; destruct (N.leb_spec n (N.of_nat k')) as [L'|L'].
    + rewrite (Fb k L), (Fb k' L'). reflexivity.
    + destruct (Sm k) as [X1 X2]; auto. rewrite (Fb k L). destruct (N.ltb_spec ISIZE_MAX (n - N.of_nat k')); [lia|].
      destruct (N.leb_spec n (N.of_nat (length b))); [|lia]. destruct (N.ltb_spec ISIZE_MAX n); [lia|]. reflexivity.
    + destruct (Sm k') as [X1 X2]; auto. rewrite (Fb k' L'). destruct (N.ltb_spec ISIZE_MAX (n - N.of_nat k)); [lia|].
      destruct (N.leb_spec n (N.of_nat (length b))); [|lia]. destruct (N.ltb_spec ISIZE_MAX n); [lia|]. reflexivity.
    + assert (Bo : (ISIZE_MAX < n)%N -> (n <= ISIZE_MAX + 511)%N -> (N.of_nat (length b) < n)%N -> fin t <> Stall).
      { intros B1 B2 B3 B4. apply Nb. split; auto. exists a, b, rlt, hst, rl, hs. repeat (split; [assumption|]). fold n. lia. }
      destruct (N.ltb_spec ISIZE_MAX (n - N.of_nat k)); destruct (N.ltb_spec ISIZE_MAX (n - N.of_nat k')); auto;
        (destruct (N.leb_spec n (N.of_nat (length b))) as [Lb|Lb]; [destruct (N.ltb_spec ISIZE_MAX n); [reflexivity|lia]|]);
        (destruct (fin t) eqn:Ft; try reflexivity; exfalso; apply Bo; auto; lia).
Qed.
Section Served.
Context (ft : features) (cl : cookie_lib) {H ST : Type}
  (handle : H -> matched_request cl -> ST * response cl -> (ST * response cl) * outcome flow).
Theorem segmentation_served rt w ho pos s t t' : real_segments t -> real_segments t' ->
  stream_of t = stream_of t' -> fin t = fin t' ->
  ~ surplus ft (stream_of t) -> ~ borderline ft (stream_of t) (fin t) ->
  serve ft cl handle w ho pos rt s t = serve ft cl handle w ho pos rt s t'.
Proof. intros R R' Es Ef Ns Nb. unfold serve. rewrite (segmentation ft cl t t' R R' Es Ef Ns Nb). reflexivity. Qed.

(** ** Bytes after a request without body *)
Lemma trailing_read t t' a b b' : real_segments t -> real_segments t' ->
  head_at (stream_of t) a b -> head_at (stream_of t') a b' -> bodyless ft a ->
  read_request ft cl t = read_request ft cl t'.
Proof.
  intros R R' Ha Ha' Bl. destruct (text_cases (stream_of t)) as [No|(a1 & b1 & Ha1 & K)].
  - exfalso. apply No. eapply head_at_occurs; eauto.
  - destruct (head_at_fun _ _ _ _ _ Ha Ha1) as [<- <-]. destruct K as [Hb|(V & rlt & hst & Hp)].
    + rewrite (read_request_bad ft cl t a b R Ha Hb), (read_request_bad ft cl t' a b' R' Ha' Hb). reflexivity.
    + destruct (read_value ft cl t a b rlt hst R Ha V Hp) as (k & K1 & K2 & ->).
      destruct (read_value ft cl t' a b' rlt hst R' Ha' V Hp) as (k' & K1' & K2' & ->).
      pose proof (headers_parse_spec ft hst) as HB. destruct (headers_parse ft hst) as [h|]; [|reflexivity].
      destruct HB as (hs & HB & G & _). destruct (request_line_parse ft rlt) as [[rl|]|]; try reflexivity.
      cbn zeta. rewrite (content_length_spec h hs G), (Bl rlt hst hs Hp HB). reflexivity.
Qed.
Theorem trailing_ignored rt w ho pos s t t' a b b' : real_segments t -> real_segments t' ->
  head_at (stream_of t) a b -> head_at (stream_of t') a b' -> bodyless ft a ->
  serve ft cl handle w ho pos rt s t = serve ft cl handle w ho pos rt s t'.
Proof. intros R R' Ha Ha' Bl. unfold serve. rewrite (trailing_read t t' a b b' R R' Ha Ha' Bl). reflexivity. Qed.
Lemma empty_body t a b rl hs cs : real_segments t -> head_at (stream_of t) a b -> head_means ft cl a rl hs cs ->
  announced hs = 0%N -> exists rq, read_request ft cl t = IoDone (RdRequest rq) /\ request_is ft rq rl hs cs [].
Proof.
  intros R Ha Hm An. destruct (read_request_ok ft cl t a b rl hs cs R Ha Hm) as (h & body & E & G & Gr & Bc).
  - rewrite An. lia.
  - rewrite An. vm_compute. discriminate.
  - exists (Request rl h body cs). split; auto. rewrite An in Bc. destruct Bc as [->|[X _]]; [|cbn in X; lia].
    repeat split; auto.
Qed.

(** ** Equivalent spellings *)
Lemma add_same m hd hd' : same_field hd hd' -> add_header m hd = add_header m hd'.
Proof. intros [E1 E2]. apply same_fold_lower in E1. unfold add_header. rewrite E1, E2. reflexivity. Qed.
Lemma fold_same hs hs' : Forall2 same_field hs hs' -> forall m, fold_left add_header hs m = fold_left add_header hs' m.
Proof. induction 1 as [|x y l l' S F IH]; intro m; auto. cbn [fold_left]. rewrite (add_same m x y S). apply IH. Qed.
Lemma value_read t a b rl hs cs : real_segments t -> head_at (stream_of t) a b -> head_means ft cl a rl hs cs ->
  announced hs = N.of_nat (length b) -> (announced hs <= ISIZE_MAX)%N ->
  read_request ft cl t =
  IoDone (RdRequest (Request rl (Headers (fold_left add_header hs []) (if raw_headers_on ft then hs else [])) b cs)).
Proof.
  intros R Ha (V & rlt & hst & Hp & Hl & Hb & Hc) An Ai.
  destruct (read_value ft cl t a b rlt hst R Ha V Hp) as (k & K1 & K2 & ->).
  rewrite (block_value ft hst hs Hb). apply request_line_iff in Hl. rewrite Hl. cbn zeta.
  set (h := Headers _ _). assert (G : forall k, headers_get h k = folded k hs).
  { intro k'. unfold headers_get, h. cbn [parsed]. rewrite fold_add. cbn [mget]. unfold folded.
    destruct (map h_value (filter (named k') hs)); reflexivity. }
  rewrite (content_length_spec h hs G), An.
  assert (F : forall n, length b <= n -> firstn n b = b) by (intros; apply firstn_all2; lia).
  unfold finish. destruct (N.eqb_spec (N.of_nat (length b)) 0) as [Z|Z].
  - destruct b; [|cbn in Z; lia]. rewrite (request_parse_ok ft cl rl h hs [] cs G Hc). reflexivity.
  - destruct (N.leb_spec (N.of_nat (length b)) (N.of_nat k)).
    + rewrite F by lia. rewrite (request_parse_ok ft cl rl h hs b cs G Hc). reflexivity.
    + destruct (N.ltb_spec ISIZE_MAX (N.of_nat (length b) - N.of_nat k)); [lia|]. rewrite N.leb_refl.
      destruct (N.ltb_spec ISIZE_MAX (N.of_nat (length b))); [lia|]. rewrite F by lia.
      rewrite (request_parse_ok ft cl rl h hs b cs G Hc). reflexivity.
Qed.
Lemma folded_same hs hs' k : Forall2 same_field hs hs' -> folded k hs = folded k hs'.
Proof.
  intro F. unfold folded. replace (map h_value (filter (named k) hs')) with (map h_value (filter (named k) hs)); [reflexivity|].
  induction F as [|x y l l' [E1 E2] F IH]; auto. cbn [filter]. apply same_fold_lower in E1. unfold named in *. rewrite E1.
  destruct (seqb _ k); cbn [map]; rewrite IH, ?E2; reflexivity.
Qed.
Lemma announced_same hs hs' : Forall2 same_field hs hs' -> announced hs = announced hs'.
Proof. intro F. unfold announced. rewrite (folded_same hs hs' _ F). reflexivity. Qed.
Lemma cookies_same on hs hs' cs : Forall2 same_field hs hs' -> cookies_mean cl on hs cs -> cookies_mean cl on hs' cs.
Proof. intros F. unfold cookies_mean. rewrite (folded_same hs hs' _ F). auto. Qed.
Theorem same_meaning t t' a a' b rl hs hs' cs cs' : real_segments t -> real_segments t' ->
  head_at (stream_of t) a b -> head_at (stream_of t') a' b ->
  head_means ft cl a rl hs cs -> head_means ft cl a' rl hs' cs' -> Forall2 same_field hs hs' ->
  announced hs = N.of_nat (length b) -> (announced hs <= ISIZE_MAX)%N ->
  (exists m raw raw', read_request ft cl t = IoDone (RdRequest (Request rl (Headers m raw) b cs)) /\
     read_request ft cl t' = IoDone (RdRequest (Request rl (Headers m raw') b cs))) /\
  (raw_headers_on ft = false \/ hs = hs' -> forall rt w ho pos s,
     serve ft cl handle w ho pos rt s t = serve ft cl handle w ho pos rt s t').
Proof.
  intros R R' Ha Ha' Hm Hm' F An Ai.
  assert (cs = cs') as <-.
  { destruct Hm as (_ & ? & ? & _ & _ & _ & C). destruct Hm' as (_ & ? & ? & _ & _ & _ & C').
    apply (cookies_same _ _ _ _ F) in C. exact (cookies_mean_fun _ _ _ _ _ C C'). }
  pose proof (value_read t a b rl hs cs R Ha Hm An Ai) as E. rewrite (announced_same hs hs' F) in An, Ai.
  pose proof (value_read t' a' b rl hs' cs R' Ha' Hm' An Ai) as E'. rewrite <- (fold_same hs hs' F []) in E'. split.
  - do 3 eexists. split; [exact E|exact E'].
  - intros D rt w ho pos s. unfold serve. rewrite E, E'. destruct D as [->| <-]; reflexivity.
Qed.
End Served.

(** ** Content-Length *)
Theorem announced_exact hs :
  (forall n, usable_length hs n -> announced hs = n) /\ ((forall n, ~ usable_length hs n) -> announced hs = 0%N).
Proof.
  unfold announced, usable_length. destruct (folded (B "content-length") hs) as [v|].
  - destruct (parse_uint USIZE_MAX v) as [m|] eqn:P; split.
    + intros n (v' & E & H). injection E as <-. apply parse_uint_iff in H. congruence.
    + intro N. destruct (N m). exists v. split; [reflexivity|]. apply parse_uint_iff, P.
    + intros n (v' & E & H). injection E as <-. apply parse_uint_iff in H. congruence.
    + reflexivity.
  - split; [intros n (? & ? & _); discriminate|reflexivity].
Qed.
Lemma join_comma vs : 2 <= length vs -> In x2c (join (B ", ") vs).
Proof.
  destruct vs as [|v [|u vs]]; cbn [length]; try lia. intros _. cbn [join]. apply in_or_app. right. left. reflexivity.
Qed.
Theorem repeated_unusable hs n : repeated (B "content-length") hs -> ~ usable_length hs n.
Proof.
  intros Rp (v & E & ds & C & _ & F & _). unfold folded in E.
  assert (L : 2 <= length (map h_value (filter (named (B "content-length")) hs))) by (rewrite map_length; exact Rp).
  assert (In x2c v) as I. { assert (v = join (B ", ") (map h_value (filter (named (B "content-length")) hs))) as -> by (destruct (map h_value _); [discriminate|congruence]).
    apply join_comma. exact L. }
  assert (In x2c ds) as K by (destruct C as [<-| ->]; auto; destruct I as [I|I]; [discriminate|auto]).
  rewrite Forall_forall in F. destruct (F _ K) as [X _]. vm_compute in X. congruence.
Qed.
Theorem unusable_length ft cl t a b rl hs cs : real_segments t -> head_at (stream_of t) a b -> head_means ft cl a rl hs cs ->
  (forall n, ~ usable_length hs n) -> exists rq, read_request ft cl t = IoDone (RdRequest rq) /\ request_is ft rq rl hs cs [].
Proof. intros R Ha Hm U. eapply empty_body; eauto. apply announced_exact. exact U. Qed.
Theorem chunks_lost ft cl t a b rl hs cs content : real_segments t -> head_at (stream_of t) a b -> head_means ft cl a rl hs cs ->
  chunked content b -> content <> [] -> (forall n, ~ usable_length hs n) ->
  exists rq, read_request ft cl t = IoDone (RdRequest rq) /\ request_is ft rq rl hs cs [] /\ rq_body rq <> content.
Proof.
  intros R Ha Hm _ N U. destruct (unusable_length ft cl t a b rl hs cs R Ha Hm U) as (rq & E & Q). exists rq. split; auto. split; auto.
  destruct Q as (_ & Q & _). rewrite Q. auto.
Qed.

(** ** Targets *)
Lemma means_concat a b p q : path_means a p -> path_means b q -> path_means (a ++ B "/" ++ b) (p ++ q).
Proof. rewrite !path_means_parse. intros Ha Hb. apply (parse_concat a b p q Ha Hb). Qed.
Lemma means_one s : normal s -> no_slash s -> path_means s [s].
Proof.
  intros N S. exists [s]. split; [split; [discriminate|split; [repeat constructor; auto|reflexivity]]|].
  split; [apply rt_refl|]. repeat constructor; apply N.
Qed.
Lemma query_normal s q : normal (s ++ B "?" ++ q).
Proof. split; [destruct s; discriminate|]. split; intro E; destruct s as [|? [|? [|? ?]]]; discriminate E. Qed.
Lemma query_no_slash s q : no_slash s -> no_slash q -> no_slash (s ++ B "?" ++ q).
Proof. unfold no_slash. intros Hs Hq I. apply in_app_or in I as [I|I]; auto. apply in_app_or in I as [[I|[]]|I]; [discriminate|auto]. Qed.
Theorem query_in_path a p s q : path_parse a = Some p -> no_slash s -> no_slash q ->
  path_parse (a ++ B "/" ++ s ++ B "?" ++ q) = Some (p ++ [s ++ B "?" ++ q]).
Proof.
  rewrite <- !path_means_parse. intros Ha Hs Hq. apply means_concat; auto.
  apply means_one; [apply query_normal|apply query_no_slash; auto].
Qed.
Lemma Forall2_last {A C} (P : A -> C -> Prop) l l' x : Forall2 P l (l' ++ [x]) ->
  exists k y, l = k ++ [y] /\ Forall2 P k l' /\ P y x.
Proof.
  intro F. apply Forall2_app_inv_r in F as (k & k' & F1 & F2 & ->). inversion F2 as [|y ? ? ? Py F3]; subst.
  inversion F3; subst. eauto.
Qed.
Lemma query_neq (s q : str) : s <> s ++ B "?" ++ q.
Proof. intro E. apply (f_equal (@length _)) in E. rewrite !app_length in E. cbn in E. lia. Qed.
Theorem query_matching v pat p s q : route_matches v pat (p ++ [s]) ->
  (route_matches v pat (p ++ [s ++ B "?" ++ q]) <-> v = true /\ exists pat' name, pat = pat' ++ [x3a :: name]).
Proof.
  unfold route_matches. destruct v; intro F.
  - apply Forall2_last in F as (k & y & -> & F & Py). split.
    + intro G. apply Forall2_last in G as (k' & y' & E & G & Py'). apply app_inj_tail in E as [<- <-].
      split; auto. destruct Py' as [[name ->]| ->]; [eauto|]. destruct Py as [[name Py]|Py]; [exists k, name; rewrite Py; reflexivity|].
      destruct (query_neq s q). auto.
    + intros [_ (pat' & name & E)]. apply app_inj_tail in E as [<- ->]. apply Forall2_app; auto. constructor; [|constructor].
      left. eauto.
  - split; [|intros [X _]; discriminate]. intro G. exfalso.
    apply Forall2_last in F as (k & y & -> & F & Py). apply Forall2_last in G as (k' & y' & E & G & Py').
    apply app_inj_tail in E as [<- <-]. destruct Py as [_ ->], Py' as [_ Py']. exact (query_neq s q Py').
Qed.
Theorem query_bound pat' name p s q : length pat' = length p ->
  binds (pat' ++ [x3a :: name]) (p ++ [s ++ B "?" ++ q]) name (s ++ B "?" ++ q).
Proof.
  intro L. exists (length pat'). split; [|split].
  - rewrite nth_error_app2, Nat.sub_diag by lia. reflexivity.
  - rewrite L, nth_error_app2, Nat.sub_diag by lia. reflexivity.
  - intros j Hj. rewrite (proj2 (nth_error_None _ _)); [discriminate|]. rewrite app_length. cbn. lia.
Qed.
Section QueryDispatch.
Context {H W : Type} (exec : H -> varmap -> W -> W * outcome flow).
(** One route: what runs. *)
Lemma one_route o ft v t pat (h : H) m path r w : path_parse t = Some pat -> m <> MAll -> build o [ORoute v t h] = Done r ->
  serves v m ->
  (route_matches (url_variables ft) pat path ->
     exists vars, router_run exec ft r m path w = run_chain exec [(h, vars)] w /\
       forall name val, mget seqb name vars = Some val <-> (url_variables ft = true /\ binds pat path name val)) /\
  (~ route_matches (url_variables ft) pat path -> router_run exec ft r m path w = (w, Done tt)).
Proof.
  intros Et Hm Eb Sv.
  destruct (dispatch_correct exec o ft [ORoute v t h] m path w) as (r' & sel & calls & Eb' & S & F & R); [cbn; unfold USIZE_MAX; lia|exact Hm|].
  rewrite Eb in Eb'. injection Eb' as <-. apply path_means_parse in Et. cbn [flatten flat_map flatten1 app] in S.
  assert (Un : forall pat', path_means t pat' -> pat' = pat).
  { intros pat' M. apply path_means_parse in M. apply path_means_parse in Et. congruence. }
  split.
  - intro M. inversion S as [|x l l' Px S'|x l l' Px S']; subst; [|exfalso; apply Px; cbn; eauto].
    inversion S'; subst. inversion F as [|y [h' vars] ? ? I F']; subst. inversion F'; subst. destruct I as [<- (pat' & M' & I)].
    rewrite (Un pat' M') in I. exists vars. split; [exact R|exact I].
  - intro M. inversion S as [|x l l' Px S'|x l l' Px S']; subst.
    + destruct Px as [_ (pat' & M' & I)]. rewrite (Un pat' M') in I. contradiction.
    + inversion S'; subst. inversion F; subst. exact R.
Qed.
Theorem query_dispatch o ft v t pat (h : H) m p s q r w : path_parse t = Some pat -> m <> MAll ->
  build o [ORoute v t h] = Done r -> serves v m -> route_matches (url_variables ft) pat (p ++ [s]) ->
  (exists vars, router_run exec ft r m (p ++ [s]) w = run_chain exec [(h, vars)] w) /\
  (forall pat' name, url_variables ft = true -> pat = pat' ++ [x3a :: name] ->
     exists vars, router_run exec ft r m (p ++ [s ++ B "?" ++ q]) w = run_chain exec [(h, vars)] w /\
       mget seqb name vars = Some (s ++ B "?" ++ q)) /\
  ((url_variables ft = true -> forall pat' name, pat <> pat' ++ [x3a :: name]) ->
     router_run exec ft r m (p ++ [s ++ B "?" ++ q]) w = (w, Done tt)).
Proof.
  intros Et Hm Eb Sv M. destruct (one_route o ft v t pat h m (p ++ [s]) r w Et Hm Eb Sv) as [A _].
  destruct (one_route o ft v t pat h m (p ++ [s ++ B "?" ++ q]) r w Et Hm Eb Sv) as [C D].
  pose proof (query_matching _ pat p s q M) as Q. split; [|split].
  - destruct (A M) as (vars & E & _). eauto.
  - intros pat' name V ->. destruct C as (vars & E & G); [apply Q; eauto|]. exists vars. split; auto. apply G. split; auto.
    apply query_bound. rewrite V in M. unfold route_matches in M. apply Forall2_len in M. rewrite !app_length in M. apply (Nat.add_cancel_r _ _ 1). exact M.
  - intro N. apply D. intro X. apply Q in X as [V (pat' & name & E)]. exact (N V pat' name E).
Qed.
End QueryDispatch.
Theorem absolute_form host a p : normal host -> no_slash host -> path_parse a = Some p ->
  path_parse (B "http://" ++ host ++ B "/" ++ a) = Some ([B "http:"; host] ++ p).
Proof.
  rewrite <- !path_means_parse. intros N S Ha.
  change (B "http://" ++ host ++ B "/" ++ a) with (B "http:" ++ B "/" ++ B "" ++ B "/" ++ host ++ B "/" ++ a).
  change ([B "http:"; host] ++ p) with ([B "http:"] ++ [] ++ [host] ++ p).
  apply means_concat; [apply means_one; [repeat split; discriminate|intro I; cbn in I; intuition discriminate]|].
  apply means_concat; [apply path_means_parse; reflexivity|]. apply means_concat; auto. apply means_one; auto.
Qed.
Lemma parse_loop_incl toks : forall chunks r, parse_loop chunks toks = Some r -> incl r (chunks ++ toks).
Proof.
  induction toks as [|t toks IH]; intros chunks r E.
  - injection E as <-. rewrite app_nil_r. apply incl_refl.
  - destruct (seg_cases t) as [->|[->|[->|Ht]]].
    + rewrite parse_loop_empty in E. apply IH in E. intros x I. apply E, in_app_or in I as [I|I]; apply in_or_app; cbn; auto.
    + rewrite parse_loop_dot in E. apply IH in E. intros x I. apply E, in_app_or in I as [I|I]; apply in_or_app; cbn; auto.
    + rewrite parse_loop_dotdot in E. destruct (is_nil chunks) eqn:Z; [discriminate|]. apply IH in E.
      apply is_nil_false in Z. destruct (removelast_split chunks Z) as (y & Y).
      intros x I. apply E, in_app_or in I as [I|I]; apply in_or_app; [left; rewrite Y; apply in_or_app; auto|right; right; auto].
    + rewrite parse_loop_normal in E by auto. apply IH in E. rewrite <- app_assoc in E. exact E.
Qed.
Theorem verbatim target segs path : segments_of segs target -> path_parse target = Some path -> incl path segs.
Proof.
  intros S M. unfold path_parse in M. rewrite (segments_of_unique segs target S).
  exact (parse_loop_incl _ [] path M).
Qed.

(** ** Responses *)
Section Names.
Context {cl : cookie_lib}.
Local Notation step := (@apply_ops cl).
Lemma touches_named (o : rop cl) k : touches o k -> In k own_names \/ exists v, o = OpSet k v.
Proof.
  unfold own_names. destruct o; cbn [touches]; intro T; try contradiction; subst; eauto; left; cbn in *; intuition.
Qed.
Theorem names_known l r r' k : step l r = Done r' -> In k (map fst (rs_headers r')) ->
  In k (map fst (rs_headers r)) \/ In k own_names \/ In k (set_names l).
Proof.
  intros E I. destruct (in_dec (list_eq_dec Byte.byte_eq_dec) k (own_names ++ set_names l)) as [K|K].
  { right. apply in_app_or in K. exact K. }
  left. destruct (mget seqb k (rs_headers r)) eqn:G; [eapply mget_Some_In_fst; [exact seqb_eq|exact G]|].
  assert (U : res_get k r' = res_get k r).
  { eapply ops_untouched; [|exact E]. apply Forall_forall. intros [w o] Io T. apply K. apply in_or_app.
    apply touches_named in T as [T|[v T]]; auto. right. unfold set_names. apply in_flat_map. exists (w, o).
    cbn [snd] in *. subst o. split; [exact Io|left; reflexivity]. }
  unfold res_get in U. rewrite G in U. apply (mget_None seqb seqb_eq) in U. contradiction.
Qed.
Lemma one_spelling_pairs l : one_spelling l -> NoDup l -> ForallOrdPairs (fun k k' => ~ same_fold k k') l.
Proof.
  induction l as [|x l IH]; intros O N; [constructor|]. inversion N; subst. constructor.
  - apply Forall_forall. intros y I E. assert (x = y) by (apply O; cbn; auto). subst. contradiction.
  - apply IH; auto. intros k k' I I' E. apply O; cbn; auto.
Qed.
Theorem names_unique_fold l r' : step l new_empty = Done r' -> one_spelling (own_names ++ set_names l) ->
  ForallOrdPairs (fun k k' => ~ same_fold k k') (map fst (rs_headers r')).
Proof.
  intros E O. apply one_spelling_pairs.
  - assert (K : forall k, In k (map fst (rs_headers r')) -> In k (own_names ++ set_names l)).
    { intros k I. apply in_or_app. destruct (names_known l new_empty r' k E I) as [X|X]; [destruct X|exact X]. }
    intros k k' I I'. apply O; auto.
  - eapply ops_keys; [|exact E]. constructor.
Qed.
Theorem connection_header l r' : step l new_empty = Done r' ->
  (forall wo v, In wo l -> snd wo <> OpSet (B "Connection") v) -> res_get (B "Connection") r' = None.
Proof.
  intros E N. rewrite (ops_untouched l new_empty r' (B "Connection")); [reflexivity| |exact E].
  apply Forall_forall. intros wo I T. apply touches_named in T as [T|[v T]]; [cbn in T; intuition discriminate|eapply N; eauto].
Qed.
(** The status has no influence on what follows the head. *)
Theorem status_keeps_body ft w ho pos c (r : response cl) b : given_body (rs_body r) b ->
  exists head, octane_send (get_data ft w ho pos (set_status c r)) = head ++ b.
Proof.
  intro G. eexists. unfold octane_send, get_data. cbn [fst snd set_status rs_body]. rewrite (given_copy _ _ G). reflexivity.
Qed.
End Names.

(** ** Socket options *)
Theorem reuse_too_late tls os port : ~ precedes EvReuseAddr (EvBound port) (fst (octane_listen tls os port)).
Proof.
  intros (l1 & l2 & l3 & E). unfold octane_listen, server_builder_new in E.
  destruct tls, (os_socket os), (os_nonblocking os), (os_bind os), (os_listen os), (os_reuse os), (os_from_std os); cbn in E;
    repeat (match type of E with _ = ?l ++ _ => destruct l as [|? ?]; cbn in E end;
            try discriminate E; try (apply (f_equal (@tl _)) in E; cbn in E)).
Qed.
