(** The route trie: insertion, lookup, iteration, merging. *)
From Verif.Proofs Require Export PathProofs.
From Verif.Spec Require Import Common PathSpec RouteSpec.

Section Trie.
Context {T : Type}.
Implicit Types (n : pathnode T) (m : list (pathchunk * pathnode T)) (d : pathdata T).

Definition colon_b (c : str) : bool := match c with x3a :: _ => true | _ => false end.
Definition key (c : str) : pathchunk := if colon_b c then CatchAll else Chunk c.
Definition keys (p : pathbuf) : list pathchunk := map key p.

Lemma first_is_colon_b c : c <> [] -> first_is_colon c = Done (colon_b c).
Proof.
  destruct c as [|b c]; [congruence|intros _]. unfold first_is_colon, COLON.
  destruct (beqb_spec b x3a) as [->|H]; [reflexivity|].
  destruct b; try reflexivity. congruence.
Qed.
Lemma colon_b_true c : colon_b c = true <-> exists nm, c = x3a :: nm.
Proof.
  split.
  - destruct c as [|b c]; [discriminate|]. destruct b; try discriminate. intros _; exists c; reflexivity.
  - intros (n & ->). reflexivity.
Qed.
Lemma key_not_end c : key c <> End_.
Proof. unfold key. destruct (colon_b c); discriminate. Qed.

Inductive shape : pathnode T -> Prop :=
| shape_node m :
    NoDup (map fst m) ->
    (forall k c, In (k, c) m -> k <> End_ -> shape c) ->
    (forall c, In (End_, c) m -> exists l, c = Leaf l) ->
    shape (Node m).

Fixpoint at_keys (ks : list pathchunk) n {struct ks} : list (pathdata T) :=
  match n with
  | Leaf _ => []
  | Node m =>
      match ks with
      | [] => match mget chunk_eqb End_ m with Some (Leaf l) => l | _ => [] end
      | k :: ks' => match mget chunk_eqb k m with Some c => at_keys ks' c | None => [] end
      end
  end.
Definition no_end (ks : list pathchunk) : Prop := ~ In End_ ks.

Lemma shape_new : shape node_new.
Proof. constructor; simpl; [constructor| |]; intros; contradiction. Qed.
Lemma at_keys_new ks : at_keys ks node_new = [].
Proof. destruct ks; reflexivity. Qed.

Lemma mget_mset_chunk k k' (v : pathnode T) m :
  mget chunk_eqb k (mset chunk_eqb k' v m) = if chunk_eqb k k' then Some v else mget chunk_eqb k m.
Proof. apply (mget_mset chunk_eqb chunk_eqb_eq). Qed.

Definition list_eq_dec_keys : forall a b : list pathchunk, {a = b} + {a <> b}.
Proof.
  apply list_eq_dec. intros a b. destruct (chunk_eqb a b) eqn:E.
  - left. apply chunk_eqb_eq; auto.
  - right. intros ->. rewrite (proj2 (chunk_eqb_eq b b) eq_refl) in E. discriminate.
Defined.

Fixpoint entries n : list (pathdata T) :=
  match n with
  | Leaf l => l
  | Node m => flat_map (fun kv => entries (snd kv)) m
  end.

Lemma entries_mset k (c' : pathnode T) m d :
  NoDup (map fst m) ->
  match mget chunk_eqb k m with
  | Some c => Permutation (entries c') (d :: entries c)
  | None => Permutation (entries c') [d]
  end ->
  Permutation (flat_map (fun kv => entries (snd kv)) (mset chunk_eqb k c' m))
              (d :: flat_map (fun kv => entries (snd kv)) m).
Proof.
  intro ND. induction m as [|[k0 c0] m IH]; simpl; intro H.
  - rewrite app_nil_r. exact H.
  - inversion ND; subst. destruct (chunk_eqb k k0) eqn:E; simpl.
    + change (d :: entries c0 ++ flat_map (fun kv => entries (snd kv)) m)
        with ((d :: entries c0) ++ flat_map (fun kv => entries (snd kv)) m).
      apply Permutation_app_tail. exact H.
    + rewrite IH by auto.
      symmetry. apply Permutation_middle.
Qed.

Lemma insert_at_spec chunks d : forall n,
  shape n -> Forall nonempty chunks ->
  exists n', insert_at chunks d n = Done n' /\ shape n' /\
    (forall ks, no_end ks ->
      at_keys ks n' = if list_eq_dec_keys ks (keys chunks) then at_keys ks n ++ [d] else at_keys ks n) /\
    Permutation (entries n') (d :: entries n).
Proof.
  induction chunks as [|c chunks IH]; intros n Hs HN; inversion Hs as [m ND Hsub Hend]; subst n.
  - assert (G : forall l, (mget chunk_eqb End_ m = Some (Leaf l) \/ (mget chunk_eqb End_ m = None /\ l = [])) ->
       shape (Node (mset chunk_eqb End_ (Leaf (l ++ [d])) m)) /\
       (forall ks, no_end ks ->
          at_keys ks (Node (mset chunk_eqb End_ (Leaf (l ++ [d])) m)) =
          if list_eq_dec_keys ks (keys []) then at_keys ks (Node m) ++ [d] else at_keys ks (Node m)) /\
       Permutation (entries (Node (mset chunk_eqb End_ (Leaf (l ++ [d])) m))) (d :: entries (Node m))).
    { intros l Hl. split; [|split].
      - constructor.
        + apply (mset_NoDup chunk_eqb chunk_eqb_eq); auto.
        + intros k c Hin Hk. apply (mset_In_inv chunk_eqb chunk_eqb_eq) in Hin as [[H1 H2]|H1]; eauto; congruence.
        + intros c Hin. apply (mset_In_inv chunk_eqb chunk_eqb_eq) in Hin as [[H1 H2]|H1]; eauto.
      - intros [|k ks] Hno.
        + destruct (list_eq_dec_keys [] (keys [])) as [_|N]; [|exfalso; apply N; reflexivity].
          simpl. rewrite mget_mset_chunk. simpl.
          destruct Hl as [-> | [-> ->]]; reflexivity.
        + destruct (list_eq_dec_keys (k :: ks) (keys [])) as [N|_]; [discriminate|].
          simpl. rewrite mget_mset_chunk.
          destruct (chunk_eqb k End_) eqn:E; auto.
          apply chunk_eqb_eq in E; subst. exfalso; apply Hno; left; auto.
      - simpl. apply entries_mset; auto.
        destruct Hl as [-> | [-> ->]]; simpl; auto.
        rewrite Permutation_app_comm. reflexivity. }
    simpl. destruct (mget chunk_eqb End_ m) as [c|] eqn:E.
    + destruct (Hend c (mget_In chunk_eqb chunk_eqb_eq _ _ _ E)) as [l ->].
      eexists. split; [reflexivity|]. apply G; auto.
    + eexists. split; [reflexivity|]. apply (G []); auto.
  - inversion HN as [|? ? Hc HN']; subst. simpl insert_at.
    rewrite first_is_colon_b by auto. cbn [obind]. fold (key c).
    set (child := match mget chunk_eqb (key c) m with Some c0 => c0 | None => node_new end).
    assert (Hchild : shape child).
    { unfold child. destruct (mget chunk_eqb (key c) m) as [c0|] eqn:E; [|apply shape_new].
      apply (Hsub (key c)); [apply (mget_In chunk_eqb chunk_eqb_eq); auto|apply key_not_end]. }
    destruct (IH child Hchild HN') as (child' & H1 & H2 & H3 & H4).
    rewrite H1. cbn [obind]. eexists. split; [reflexivity|]. split; [|split].
    + constructor.
      * apply (mset_NoDup chunk_eqb chunk_eqb_eq); auto.
      * intros k c0 Hin Hk. apply (mset_In_inv chunk_eqb chunk_eqb_eq) in Hin as [[-> ->]|Hin]; eauto.
      * intros c0 Hin. apply (mset_In_inv chunk_eqb chunk_eqb_eq) in Hin as [[Hk ->]|Hin]; eauto.
        exfalso. apply (key_not_end c). auto.
    + intros [|k ks] Hno.
      * destruct (list_eq_dec_keys [] (keys (c :: chunks))) as [N|_]; [discriminate|].
        simpl. rewrite mget_mset_chunk.
        destruct (chunk_eqb End_ (key c)) eqn:E; auto.
        apply chunk_eqb_eq in E. exfalso. apply (key_not_end c); auto.
      * simpl at_keys. rewrite mget_mset_chunk.
        destruct (chunk_eqb k (key c)) eqn:E.
        -- apply chunk_eqb_eq in E; subst k.
           rewrite H3 by (intro Hin; apply Hno; right; auto).
           assert (Hch : at_keys ks child =
                   match mget chunk_eqb (key c) m with Some c0 => at_keys ks c0 | None => [] end).
           { unfold child. destruct (mget chunk_eqb (key c) m); auto. apply at_keys_new. }
           rewrite Hch.
           destruct (list_eq_dec_keys ks (keys chunks)) as [->|N];
             destruct (list_eq_dec_keys (key c :: _) (keys (c :: chunks))) as [N2|N2]; auto.
           ++ exfalso; apply N2; reflexivity.
           ++ injection N2 as N2. contradiction.
        -- destruct (list_eq_dec_keys (k :: ks) (keys (c :: chunks))) as [N|N]; auto.
           injection N as -> ->. rewrite (proj2 (chunk_eqb_eq _ _) eq_refl) in E. discriminate.
    + simpl. apply entries_mset; auto. unfold child in H4.
      destruct (mget chunk_eqb (key c) m); auto.
Qed.

(** Tables built from a log of insertions. *)
Definition seg_ok d : Prop := Forall nonempty (orig_path d).
Definition keys_eqb (a b : list pathchunk) : bool := if list_eq_dec_keys a b then true else false.

Definition represents n (log : list (pathdata T)) : Prop :=
  shape n /\ Forall seg_ok log /\
  (forall ks, no_end ks -> at_keys ks n = filter (fun d => keys_eqb (keys (orig_path d)) ks) log) /\
  Permutation (entries n) log.

Lemma represents_new : represents node_new [].
Proof.
  split; [apply shape_new|]. split; [constructor|]. split; auto.
  intros ks _. apply at_keys_new.
Qed.
Lemma insert_represents n log path (x : T) :
  represents n log -> Forall nonempty path ->
  exists n', node_insert n path x = Done n' /\ represents n' (log ++ [PathData path x]).
Proof.
  intros (Hs & Hlog & Hat & Hen) HN. unfold node_insert.
  destruct (insert_at_spec path (PathData path x) n Hs HN) as (n' & H1 & H2 & H3 & H4).
  exists n'. split; auto. split; auto. split; [|split].
  - apply Forall_app. split; auto.
  - intros ks Hno. rewrite H3, Hat by auto. rewrite filter_app. simpl.
    assert (K : keys_eqb (keys path) ks = if list_eq_dec_keys ks (keys path) then true else false).
    { unfold keys_eqb. destruct (list_eq_dec_keys ks (keys path));
        destruct (list_eq_dec_keys (keys path) ks); congruence. }
    rewrite K. destruct (list_eq_dec_keys ks (keys path)); auto.
    rewrite app_nil_r. reflexivity.
  - rewrite H4, Hen. apply Permutation_cons_append.
Qed.
Lemma extend_represents l : forall n log,
  represents n log -> Forall seg_ok l ->
  exists n', node_extend n l = Done n' /\ represents n' (log ++ l).
Proof.
  induction l as [|d l IH]; intros n log Hr HF.
  - exists n. rewrite app_nil_r. split; auto.
  - inversion HF; subst. simpl.
    destruct (insert_represents n log (orig_path d) (data d) Hr) as (n' & H3 & H4); auto.
    rewrite H3. cbn [obind]. destruct (IH n' _ H4) as (n'' & H5 & H6); auto.
    exists n''. split; auto. rewrite <- app_assoc in H6. destruct d; exact H6.
Qed.

(** ** Lookup *)

Fixpoint kss (uv : bool) (path : list str) : list (list pathchunk) :=
  match path with
  | [] => [[]]
  | c :: p => map (cons (Chunk c)) (kss uv p) ++ (if uv then map (cons CatchAll) (kss uv p) else [])
  end.
Lemma kss_no_end uv path ks : In ks (kss uv path) -> no_end ks.
Proof.
  revert ks; induction path as [|c p IH]; simpl; intros ks H.
  - destruct H as [<-|[]]. intros [].
  - apply in_app_or in H as [H|H].
    + apply in_map_iff in H as (ks' & <- & H). intros [E|E]; [discriminate|]. apply (IH _ H E).
    + destruct uv; [|destruct H].
      apply in_map_iff in H as (ks' & <- & H). intros [E|E]; [discriminate|]. apply (IH _ H E).
Qed.
Lemma NoDup_app' {A} (l l' : list A) :
  NoDup l -> NoDup l' -> (forall x, In x l -> ~ In x l') -> NoDup (l ++ l').
Proof.
  induction l as [|x l IH]; simpl; auto. intros H H' Hd. inversion H; subst.
  constructor.
  - intro Hin. apply in_app_or in Hin as [Hin|Hin]; auto. apply (Hd x); auto.
  - apply IH; auto.
Qed.
Lemma NoDup_map_cons {A} (x : A) l : NoDup l -> NoDup (map (cons x) l).
Proof.
  induction 1; simpl; constructor; auto.
  intro Hin. apply in_map_iff in Hin as (y & E & Hy). injection E as ->. contradiction.
Qed.
Lemma kss_NoDup uv path : NoDup (kss uv path).
Proof.
  induction path as [|c p IH]; simpl.
  - constructor; [intros []|constructor].
  - apply NoDup_app'; [apply NoDup_map_cons; auto| |].
    + destruct uv; [apply NoDup_map_cons; auto|constructor].
    + intros ks H H'. apply in_map_iff in H as (k1 & <- & _).
      destruct uv; [|destruct H']. apply in_map_iff in H' as (k2 & E & _). discriminate.
Qed.

Lemma flat_map_app' {A C} (f : A -> list C) l l' : flat_map f (l ++ l') = flat_map f l ++ flat_map f l'.
Proof. induction l; simpl; auto. rewrite IHl, app_assoc; auto. Qed.
Lemma flat_map_map' {A C D} (f : C -> list D) (g : A -> C) l :
  flat_map f (map g l) = flat_map (fun x => f (g x)) l.
Proof. induction l; simpl; congruence. Qed.
Lemma flat_map_nil' {A C} (l : list A) : flat_map (fun _ => @nil C) l = [].
Proof. induction l; auto. Qed.

Lemma dfs_spec ft path : forall n, shape n ->
  dfs ft path n = Done (flat_map (fun ks => at_keys ks n) (kss (url_variables ft) path)).
Proof.
  induction path as [|c p IH]; intros n Hs; inversion Hs as [m ND Hsub Hend]; subst n.
  - simpl. rewrite app_nil_r. destruct (mget chunk_eqb End_ m) as [c|] eqn:E; auto.
    destruct (Hend c (mget_In chunk_eqb chunk_eqb_eq _ _ _ E)) as [l ->]. reflexivity.
  - simpl. rewrite flat_map_app', flat_map_map'.
    assert (G : forall k, k <> End_ ->
       match mget chunk_eqb k m with Some v => dfs ft p v | None => Done [] end =
       Done (flat_map (fun ks => at_keys (k :: ks) (Node m)) (kss (url_variables ft) p))).
    { intros k Hk. simpl. destruct (mget chunk_eqb k m) as [v|] eqn:E.
      - apply IH. apply (Hsub k); auto. apply (mget_In chunk_eqb chunk_eqb_eq); auto.
      - rewrite flat_map_nil'. reflexivity. }
    rewrite (G (Chunk c)) by discriminate. cbn [obind].
    destruct (url_variables ft) eqn:U.
    + rewrite flat_map_map'. specialize (G CatchAll). simpl in G.
      destruct (mget chunk_eqb CatchAll m) as [v|] eqn:E.
      * rewrite G by discriminate. cbn [obind]. do 2 f_equal.
        apply flat_map_ext. intro ks. simpl. rewrite E. reflexivity.
      * replace (flat_map (fun x => at_keys (CatchAll :: x) (Node m)) (kss true p)) with (@nil (pathdata T)).
        { rewrite app_nil_r. reflexivity. }
        rewrite <- (flat_map_nil' (kss true p)). apply flat_map_ext. intro ks. simpl. rewrite E. reflexivity.
    + simpl. rewrite app_nil_r. reflexivity.
Qed.

Lemma filter_false {A} (l : list A) : filter (fun _ => false) l = [].
Proof. induction l; auto. Qed.
Lemma flat_map_filter_perm {A K} (kd : forall a b : K, {a = b} + {a <> b}) (f : A -> K) (l : list A) ks :
  NoDup ks ->
  Permutation (flat_map (fun k => filter (fun x => if kd (f x) k then true else false) l) ks)
              (filter (fun x => existsb (fun k => if kd (f x) k then true else false) ks) l).
Proof.
  induction ks as [|k ks IH]; intro ND; simpl.
  - rewrite filter_false. constructor.
  - inversion ND as [|? ? Hni ND']; subst. rewrite (IH ND'). clear IH.
    assert (G : forall x, f x = k -> existsb (fun k0 => if kd (f x) k0 then true else false) ks = false).
    { intros x Hx. apply not_true_is_false. intro E. apply existsb_exists in E as (k' & Hk' & E).
      destruct (kd (f x) k'); [|discriminate]. subst. congruence. }
    induction l as [|x l IHl]; simpl; auto.
    destruct (kd (f x) k) as [E|E]; simpl.
    + rewrite (G x E). constructor. apply IHl.
    + destruct (existsb _ ks).
      * rewrite <- Permutation_middle. constructor. apply IHl.
      * apply IHl.
Qed.

Lemma key_matches uv path : forall p, Forall nonempty p ->
  (In (keys p) (kss uv path) <-> route_matches uv p path).
Proof.
  unfold route_matches.
  induction path as [|c path IH]; intros p HN.
  - destruct p as [|a p]; simpl.
    + split; [destruct uv; constructor|auto].
    + split; [intros [E|[]]; discriminate|destruct uv; intro H; inversion H].
  - destruct p as [|a p]; simpl kss.
    + split.
      * intro H. apply in_app_or in H as [H|H].
        -- apply in_map_iff in H as (? & E & _); discriminate.
        -- destruct uv; [|destruct H]. apply in_map_iff in H as (? & E & _); discriminate.
      * destruct uv; intro H; inversion H.
    + inversion HN as [|? ? Ha HN']; subst. simpl keys. specialize (IH p HN').
      rewrite in_app_iff. unfold key. destruct (colon_b a) eqn:Ec.
      * destruct uv.
        -- split.
           ++ intros [H|H]; apply in_map_iff in H as (ks & E & H); [discriminate|].
              injection E as ->. constructor; [|apply IH; auto].
              left. apply colon_b_true. auto.
           ++ intro H. inversion H; subst. right. apply in_map_iff.
              exists (keys p). split; auto. apply IH; auto.
        -- split.
           ++ intros [H|[]]; apply in_map_iff in H as (ks & E & H); discriminate.
           ++ intro H. inversion H as [|? ? ? ? [H1 H2]]; subst.
              apply colon_b_true in Ec as (nm & ->). exfalso; apply H1; reflexivity.
      * assert (Hnc : hd_error a <> Some x3a).
        { destruct a as [|b a]; [discriminate|]. intro E. injection E as ->. discriminate Ec. }
        assert (R : In (Chunk a :: keys p) (map (cons (Chunk c)) (kss uv path)) <->
                    a = c /\ In (keys p) (kss uv path)).
        { rewrite in_map_iff. split.
          - intros (ks & E & H). injection E as -> ->. auto.
          - intros [-> H]. exists (keys p); auto. }
        change (Chunk a :: map key p) with (Chunk a :: keys p).
        rewrite R. destruct uv.
        -- split.
           ++ intros [[-> H]|H].
              ** constructor; [right; auto|apply IH; auto].
              ** apply in_map_iff in H as (ks & E & H). discriminate.
           ++ intro H. inversion H as [|? ? ? ? [[nm H1]|H1]]; subst.
              ** exfalso. apply Hnc; reflexivity.
              ** left. split; auto. apply IH; auto.
        -- split.
           ++ intros [[-> H]|[]]. constructor; [split; auto|apply IH; auto].
           ++ intro H. inversion H as [|? ? ? ? [H1 H2]]; subst. left. split; auto. apply IH; auto.
Qed.

Lemma selects_filter {A} (f : A -> bool) (P : A -> Prop) l :
  (forall x, In x l -> (f x = true <-> P x)) -> selects P l (filter f l).
Proof.
  induction l as [|x l IH]; simpl; intro H; [constructor|].
  pose proof (H x (or_introl eq_refl)) as Hx. destruct (f x).
  - constructor; [apply Hx; auto|apply IH; auto].
  - constructor; [|apply IH; auto]. intro HP. apply Hx in HP. discriminate.
Qed.
Lemma selects_In {A} (P : A -> Prop) l l' : selects P l l' -> forall x, In x l' -> In x l /\ P x.
Proof.
  induction 1; simpl; intros y Hy; [contradiction| |].
  - destruct Hy as [<-|Hy]; auto. destruct (IHselects y Hy); auto.
  - destruct (IHselects y Hy); auto.
Qed.

Lemma get_represents ft n log path :
  represents n log ->
  exists res, node_get ft n path = Done res /\ lookup_result (url_variables ft) log path res.
Proof.
  intros (Hs & Hlog & Hat & Hen). unfold node_get.
  rewrite (dfs_spec ft path n Hs). cbn [obind].
  set (shown := flat_map (fun ks => at_keys ks n) (kss (url_variables ft) path)).
  set (matching := filter (fun d => existsb (keys_eqb (keys (orig_path d))) (kss (url_variables ft) path)) log).
  assert (HP : Permutation matching shown).
  { unfold shown, matching. symmetry.
    rewrite <- (flat_map_filter_perm list_eq_dec_keys (fun d => keys (orig_path d)) log
                 (kss (url_variables ft) path) (kss_NoDup _ _)).
    erewrite flat_map_concat_map, flat_map_concat_map.
    erewrite map_ext_in; [reflexivity|]. intros ks Hk. apply Hat. eapply kss_no_end; eauto. }
  assert (HS : selects (fun d => route_matches (url_variables ft) (orig_path d) path) log matching).
  { apply selects_filter. intros d Hd.
    rewrite Forall_forall in Hlog.
    rewrite <- (key_matches (url_variables ft) path (orig_path d) (Hlog d Hd)).
    rewrite existsb_exists. unfold keys_eqb. split.
    - intros (ks & Hk & E). destruct (list_eq_dec_keys _ _); [subst; auto|discriminate].
    - intro H. exists (keys (orig_path d)). split; auto.
      destruct (list_eq_dec_keys _ _); auto. }
  assert (HE : forall d, In d shown ->
     seg_ok d /\ route_matches (url_variables ft) (orig_path d) path).
  { intros d Hd. apply (Permutation_in d (Permutation_sym HP)) in Hd.
    destruct (selects_In _ _ _ HS d Hd) as [H1 H2]. rewrite Forall_forall in Hlog. auto. }
  clearbody shown. clear - HP HS HE.
  assert (G : exists res, omapM (fun d : pathdata T =>
             if url_variables ft then
               obind (check_matches (orig_path d) path) (fun o =>
                 obind (unwrap o) (fun vars => Done (MatchedPath vars (data d))))
             else Done (MatchedPath [] (data d))) shown = Done res /\
     Forall2 (fun d r => mp_data r = data d /\
      forall name val, mget seqb name (mp_vars r) = Some val <->
         (url_variables ft = true /\ binds (orig_path d) path name val)) shown res).
  { clear HP HS. induction shown as [|d l IH].
    - exists []. split; constructor.
    - destruct IH as (res & H1 & H2); [intros; apply HE; right; auto|].
      destruct (HE d (or_introl eq_refl)) as [Hok Hm].
      simpl. destruct (url_variables ft) eqn:U.
      + destruct (check_matches_spec (orig_path d) path Hok) as [(vars & V1 & V2 & V3)|[V1 V2]].
        * rewrite V1. cbn [obind unwrap]. rewrite H1. cbn [obind].
          eexists. split; [reflexivity|]. constructor; auto. simpl. split; auto.
          intros name val. rewrite V3. tauto.
        * exfalso. apply V2. exact Hm.
      + cbn [obind]. rewrite H1. cbn [obind]. eexists. split; [reflexivity|].
        constructor; auto. simpl. split; auto. intros name val. split; [discriminate|].
        intros [H _]; discriminate. }
  destruct G as (res & H1 & H2). exists res. split; auto.
  exists matching, shown. auto.
Qed.

Lemma selects_perm {A} (P : A -> Prop) l1 l2 :
  Permutation l1 l2 -> forall s1, selects P l1 s1 -> exists s2, selects P l2 s2 /\ Permutation s1 s2.
Proof.
  induction 1 as [|x l l' HP IH|x y l|l l' l'' H1 IH1 H2 IH2]; intros s Hs.
  - exists s; auto.
  - inversion Hs; subst.
    + destruct (IH _ H3) as (s2 & ? & ?). exists (x :: s2). split; [constructor|]; auto.
    + destruct (IH _ H3) as (s2 & ? & ?). exists s2. split; [constructor 3|]; auto.
  - inversion Hs as [|? ? s1 Hy Hs1|? ? s1 Hy Hs1]; subst;
      inversion Hs1 as [|? ? s2 Hx Hs2|? ? s2 Hx Hs2]; subst.
    + exists (x :: y :: s2). split; [repeat constructor; auto|apply perm_swap].
    + exists (y :: s1). split; [|auto]. apply sel_no; auto. apply sel_yes; auto.
    + exists (x :: s2). split; [|auto]. apply sel_yes; auto. apply sel_no; auto.
    + exists s. split; auto. apply sel_no; auto. apply sel_no; auto.
  - destruct (IH1 _ Hs) as (s2 & ? & ?). destruct (IH2 _ H) as (s3 & ? & ?).
    exists s3. split; auto. eapply Permutation_trans; eauto.
Qed.
Lemma lookup_result_perm uv log log' path (res : list (matchedpath T)) :
  Permutation log log' -> lookup_result uv log path res -> lookup_result uv log' path res.
Proof.
  intros HP (mt & sh & H1 & H2 & H3).
  destruct (selects_perm _ _ _ HP _ H1) as (mt' & H4 & H5).
  exists mt', sh. split; auto. split; auto.
  eapply Permutation_trans; [apply Permutation_sym; exact H5|exact H2].
Qed.

(** ** Iteration *)

Definition frames_entries (fs : list (list (pathnode T))) : list (pathdata T) :=
  flat_map (flat_map entries) fs.
Definition frame_weight (f : list (pathnode T)) : nat := 1 + fold_right (fun n acc => weight n + acc) 0 f.
Definition stack_weight (fs : list (list (pathnode T))) : nat :=
  fold_right (fun f acc => frame_weight f + acc) 0 fs.

Lemma hash_values_entries o i m :
  Permutation (flat_map entries (hash_values o i m)) (entries (Node m)).
Proof.
  unfold hash_values. rewrite flat_map_map'. simpl.
  apply Permutation_flat_map. apply ord_perm.
Qed.
Lemma weight_perm m1 m2 : Permutation m1 m2 ->
  fold_right (fun kv acc => weight (snd kv) + acc) 0 m1 =
  fold_right (fun kv acc => weight (snd kv) + acc) 0 m2.
Proof. induction 1; simpl; lia. Qed.
Lemma hash_values_weight o i m :
  S (frame_weight (hash_values o i m)) = weight (Node m).
Proof.
  unfold hash_values, frame_weight. simpl. do 2 f_equal.
  rewrite <- (weight_perm _ _ (ord_perm o i _ m)).
  induction (ord_fn o i (pathchunk * pathnode T) m); simpl; auto.
Qed.

Lemma vec_pop_none {A} (l : list A) : vec_pop l = None -> l = [].
Proof.
  unfold vec_pop. destruct (rev l) eqn:E; [|discriminate]. intros _.
  apply (f_equal (@rev A)) in E. rewrite rev_involutive in E. exact E.
Qed.
Lemma vec_pop_some {A} (l : list A) x l' : vec_pop l = Some (x, l') -> l = l' ++ [x].
Proof.
  unfold vec_pop. destruct (rev l) eqn:E; [discriminate|]. intro H. injection H as -> <-.
  apply (f_equal (@rev A)) in E. rewrite rev_involutive in E. exact E.
Qed.

Definition opt_list {A} (o : option (list A)) : list A := match o with Some l => l | None => [] end.

Definition owned_rest (s : owned_iter T) : list (pathdata T) :=
  opt_list (ow_curvec s) ++ frames_entries (ow_stack s).
Definition owned_measure (s : owned_iter T) : nat :=
  length (opt_list (ow_curvec s)) + stack_weight (ow_stack s).

Definition drained {S} (body : S -> loop_result S (pathdata T)) fuel s rest : Prop :=
  exists l s', drain_fuel body fuel s = Some (l, s') /\ Permutation l rest /\
               next_calls body s l s' /\ next_call body s' None s'.

Lemma drained_yield {S} (body : S -> loop_result S (pathdata T)) fuel s a s' rest rest' :
  body s = Yield a s' -> drained body fuel s' rest' -> Permutation (a :: rest') rest ->
  drained body (Datatypes.S fuel) s rest.
Proof.
  intros Hb (l & s2 & H1 & H2 & H3 & H4) HP. exists (a :: l), s2.
  split; [simpl; rewrite Hb, H1; reflexivity|]. split; [|split; auto].
  - rewrite <- HP. constructor. exact H2.
  - eapply ncs_more; [apply nc_yield; eauto|auto].
Qed.
Lemma drained_continue {S} (body : S -> loop_result S (pathdata T)) fuel s s' rest rest' :
  body s = Continue s' -> drained body fuel s' rest' -> Permutation rest' rest ->
  drained body (Datatypes.S fuel) s rest.
Proof.
  intros Hb (l & s2 & H1 & H2 & H3 & H4) HP. exists l, s2.
  split; [simpl; rewrite Hb, H1; reflexivity|]. split; [|split; auto].
  - rewrite <- HP. exact H2.
  - inversion H3; subst.
    + apply ncs_end. eapply nc_again; eauto.
    + eapply ncs_more; [eapply nc_again; eauto|auto].
Qed.

Lemma owned_drain o fuel : forall s, owned_measure s < fuel -> drained (owned_loop_body o) fuel s (owned_rest s).
Proof.
  induction fuel as [|fuel IH]; intros s Hf; [lia|].
  destruct s as [stack cv pos cnt]. unfold owned_measure, owned_rest in *. simpl in *.
  destruct (match cv with Some v => vec_pop v | None => None end) as [[a v']|] eqn:E.
  - destruct cv as [v|]; [|discriminate]. pose proof (vec_pop_some _ _ _ E) as ->.
    eapply drained_yield; [unfold owned_loop_body; simpl; rewrite E; reflexivity|apply IH|].
    + unfold owned_measure; simpl in *. rewrite app_length in Hf. simpl in Hf. lia.
    + unfold owned_rest. simpl. rewrite <- app_assoc. apply Permutation_middle.
  - assert (Ecv : opt_list cv = []).
    { destruct cv; auto. apply vec_pop_none in E. simpl. auto. }
    rewrite Ecv in *. simpl in *.
    assert (Hb : forall r, (match (match cv with Some v => vec_pop v | None => None end) with
                  | Some (ret, v') => Yield ret (OwnedIter stack (Some v') pos cnt)
                  | None => r end) = r) by (rewrite E; auto).
    destruct stack as [|frame below].
    + exists [], (OwnedIter [] None pos cnt). simpl. unfold owned_loop_body at 1. simpl. rewrite E.
      split; auto. split; auto. split.
      * apply ncs_end. apply nc_end. unfold owned_loop_body; simpl. rewrite E. reflexivity.
      * apply nc_end. reflexivity.
    + destruct frame as [|v frame'].
      * eapply drained_continue; [unfold owned_loop_body; simpl; rewrite E; reflexivity|apply IH|].
        -- unfold owned_measure; simpl in *. lia.
        -- unfold owned_rest. simpl. reflexivity.
      * destruct v as [m|l].
        -- eapply drained_continue; [unfold owned_loop_body; simpl; rewrite E; reflexivity|apply IH|].
           ++ unfold owned_measure; simpl. simpl in Hf.
              pose proof (hash_values_weight o (pos ++ [cnt]) m) as Hw. unfold frame_weight in *.
              simpl in Hw. simpl. lia.
           ++ unfold owned_rest. simpl. rewrite <- app_assoc.
              apply Permutation_app; auto. apply hash_values_entries.
        -- eapply drained_continue; [unfold owned_loop_body; simpl; rewrite E; reflexivity|apply IH|].
           ++ unfold owned_measure; simpl in *. lia.
           ++ unfold owned_rest. simpl. rewrite <- app_assoc. reflexivity.
Qed.

Definition iter_rest (s : node_iter T) : list (pathdata T) :=
  skipn (it_curind s) (opt_list (it_curvec s)) ++ frames_entries (it_stack s).
Definition iter_measure (s : node_iter T) : nat :=
  length (skipn (it_curind s) (opt_list (it_curvec s))) + stack_weight (it_stack s).

Lemma skipn_nth {A} (l : list A) i x : nth_error l i = Some x -> skipn i l = x :: skipn (S i) l.
Proof.
  revert i; induction l as [|y l IH]; intros [|i] H; simpl in *; try discriminate.
  - congruence.
  - rewrite (IH i H). reflexivity.
Qed.
Lemma skipn_nth_none {A} (l : list A) i : nth_error l i = None -> skipn i l = [].
Proof. intro H. apply skipn_all2. apply nth_error_None. exact H. Qed.

Lemma iter_drain o fuel : forall s, iter_measure s < fuel -> drained (iter_loop_body o) fuel s (iter_rest s).
Proof.
  induction fuel as [|fuel IH]; intros s Hf; [lia|].
  destruct s as [stack cv ci pos cnt]. unfold iter_measure, iter_rest in *.
  cbn [it_curind it_curvec it_stack] in *.
  destruct (match cv with Some v => nth_error v ci | None => None end) as [a|] eqn:E.
  - destruct cv as [v|]; [|discriminate]. cbn [opt_list] in *.
    rewrite (skipn_nth _ _ _ E) in *. cbn [length] in Hf.
    eapply drained_yield; [unfold iter_loop_body; simpl; rewrite E; reflexivity|apply IH|].
    + unfold iter_measure. cbn [it_curind it_curvec it_stack opt_list]. lia.
    + reflexivity.
  - assert (Ecv : skipn ci (opt_list cv) = []).
    { destruct cv; cbn [opt_list]; [apply skipn_nth_none; auto|destruct ci; auto]. }
    rewrite Ecv in *. cbn [length app] in *.
    destruct stack as [|frame below].
    + exists [], (NodeIter [] None 0 pos cnt). simpl. unfold iter_loop_body at 1. simpl. rewrite E.
      split; auto. split; auto. split.
      * apply ncs_end. apply nc_end. unfold iter_loop_body; simpl. rewrite E. reflexivity.
      * apply nc_end. reflexivity.
    + destruct frame as [|v frame'].
      * eapply drained_continue; [unfold iter_loop_body; simpl; rewrite E; reflexivity|apply IH|].
        -- unfold iter_measure; simpl in *. lia.
        -- unfold iter_rest. simpl. reflexivity.
      * destruct v as [m|l].
        -- eapply drained_continue; [unfold iter_loop_body; simpl; rewrite E; reflexivity|apply IH|].
           ++ unfold iter_measure; simpl. simpl in Hf.
              pose proof (hash_values_weight o (pos ++ [cnt]) m) as Hw. unfold frame_weight in *.
              simpl in Hw. simpl. lia.
           ++ unfold iter_rest. simpl. rewrite <- app_assoc.
              apply Permutation_app; auto. apply hash_values_entries.
        -- eapply drained_continue; [unfold iter_loop_body; simpl; rewrite E; reflexivity|apply IH|].
           ++ unfold iter_measure; simpl in *. lia.
           ++ unfold iter_rest. simpl. rewrite <- app_assoc. reflexivity.
Qed.

Lemma owned_full o pos n :
  drained (owned_loop_body o) (S (weight n)) (owned_iter_new o pos n) (entries n).
Proof.
  destruct n as [m|l].
  - destruct (owned_drain o (S (weight (Node m))) (owned_iter_new o pos (Node m))) as (l & s & H1 & H2 & H3).
    + unfold owned_measure. simpl. pose proof (hash_values_weight o (pos ++ [0]) m) as Hw.
      unfold frame_weight in *; simpl in *; lia.
    + exists l, s. split; auto. split; auto. rewrite H2. unfold owned_rest. simpl.
      rewrite app_nil_r. apply hash_values_entries.
  - destruct (owned_drain o (S (weight (Leaf l))) (owned_iter_new o pos (Leaf l))) as (l' & s & H1 & H2 & H3).
    + unfold owned_measure. simpl. lia.
    + exists l', s. split; auto. split; auto. rewrite H2. unfold owned_rest. simpl.
      rewrite app_nil_r. reflexivity.
Qed.
Lemma iter_full o pos n :
  drained (iter_loop_body o) (S (weight n)) (node_iter_new o pos n) (entries n).
Proof.
  destruct n as [m|l].
  - destruct (iter_drain o (S (weight (Node m))) (node_iter_new o pos (Node m))) as (l & s & H1 & H2 & H3).
    + unfold iter_measure. simpl. pose proof (hash_values_weight o (pos ++ [0]) m) as Hw.
      unfold frame_weight in *; simpl in *; lia.
    + exists l, s. split; auto. split; auto. rewrite H2. unfold iter_rest. simpl.
      rewrite app_nil_r. apply hash_values_entries.
  - destruct (iter_drain o (S (weight (Leaf l))) (node_iter_new o pos (Leaf l))) as (l' & s & H1 & H2 & H3).
    + unfold iter_measure. simpl. lia.
    + exists l', s. split; auto. split; auto. rewrite H2. unfold iter_rest. simpl.
      rewrite app_nil_r. reflexivity.
Qed.

Lemma into_list_perm o pos n : exists l, node_into_list o pos n = Done l /\ Permutation l (entries n).
Proof.
  destruct (owned_full o pos n) as (l & s & H1 & H2 & _). unfold node_into_list. rewrite H1. eauto.
Qed.

(** ** Statements about tables built by insertion *)

Lemma table_exists log :
  Forall seg_ok log -> exists n, node_from_iter log = Done n /\ represents n log.
Proof.
  intro H. destruct (extend_represents log node_new [] represents_new H) as (n & H1 & H2).
  exists n. auto.
Qed.
Lemma table_represents log n :
  Forall seg_ok log -> node_from_iter log = Done n -> represents n log.
Proof.
  intros H E. destruct (table_exists log H) as (n' & H1 & H2). congruence.
Qed.

Lemma lookup_correct ft log path :
  Forall seg_ok log ->
  exists n res, node_from_iter log = Done n /\ node_get ft n path = Done res /\
                lookup_result (url_variables ft) log path res.
Proof.
  intro H. destruct (table_exists log H) as (n & H1 & H2).
  destruct (get_represents ft n log path H2) as (res & H3 & H4). eauto 6.
Qed.

Lemma iteration_correct o pos log n :
  Forall seg_ok log -> node_from_iter log = Done n ->
  (exists l s', next_calls (iter_loop_body o) (node_iter_new o pos n) l s' /\ Permutation l log /\
                next_call (iter_loop_body o) s' None s' /\ node_iter_list o pos n = Done l) /\
  (exists l s', next_calls (owned_loop_body o) (owned_iter_new o pos n) l s' /\ Permutation l log /\
                next_call (owned_loop_body o) s' None s' /\ node_into_list o pos n = Done l).
Proof.
  intros H E. destruct (table_represents log n H E) as (_ & _ & _ & HP). split.
  - destruct (iter_full o pos n) as (l & s & H1 & H2 & H3 & H4). exists l, s.
    split; auto. split; [rewrite H2; auto|]. split; auto. unfold node_iter_list. rewrite H1. auto.
  - destruct (owned_full o pos n) as (l & s & H1 & H2 & H3 & H4). exists l, s.
    split; auto. split; [rewrite H2; auto|]. split; auto. unfold node_into_list. rewrite H1. auto.
Qed.

Lemma represents_perm n log log' : represents n log ->
  Permutation log log' -> forall ft path, exists res,
  node_get ft n path = Done res /\ lookup_result (url_variables ft) log' path res.
Proof.
  intros Hr HP ft path. destruct (get_represents ft n log path Hr) as (res & H1 & H2).
  exists res. split; auto. eapply lookup_result_perm; eauto.
Qed.

Lemma merge_correct o pos log1 log2 n1 n2 :
  Forall seg_ok log1 -> Forall seg_ok log2 ->
  node_from_iter log1 = Done n1 -> node_from_iter log2 = Done n2 ->
  exists l2 n, node_into_list o pos n2 = Done l2 /\ node_extend n1 l2 = Done n /\
    forall ft path, exists res, node_get ft n path = Done res /\
      lookup_result (url_variables ft) (log1 ++ log2) path res.
Proof.
  intros H1 H2 E1 E2.
  destruct (table_represents _ _ H2 E2) as (_ & _ & _ & HP).
  destruct (into_list_perm o pos n2) as (l2 & E3 & HP2).
  assert (HP3 : Permutation l2 log2) by (rewrite HP2; auto).
  assert (HF : Forall seg_ok l2).
  { rewrite Forall_forall in *. intros d Hd. apply H2. eapply Permutation_in; eauto. }
  destruct (extend_represents l2 n1 log1 (table_represents _ _ H1 E1) HF) as (n & E4 & Hr).
  exists l2, n. split; auto. split; auto. intros ft path.
  eapply represents_perm; [exact Hr|]. apply Permutation_app_head; auto.
Qed.
End Trie.
