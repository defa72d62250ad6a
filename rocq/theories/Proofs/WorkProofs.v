(** Lemmas behind C120: the work of routing. *)
From Coq Require Import Permutation.
From Verif.Model Require Import RustStd Path Request Router RouteCost.
From Verif.Spec Require Import Common PathSpec RouteSpec RoutingSpec WorkSpec.
From Verif.Proofs Require Import Basics PathProofs PathExtra TrieProofs RouterProofs.

(** ** The counting functions compute what the others compute *)
Lemma dfs_counted_fst {T} ft chunks : forall (n : pathnode T), fst (dfs_counted ft chunks n) = dfs ft chunks n.
Proof.
  induction chunks as [|c rest IH]; intros [cur|l]; try reflexivity. cbn [dfs_counted dfs].
  assert (E : (match mget chunk_eqb (Chunk c) cur with Some v => dfs ft rest v | None => Done [] end) =
              fst (match mget chunk_eqb (Chunk c) cur with Some v => dfs_counted ft rest v | None => (Done [], no_work) end)).
  { destruct (mget chunk_eqb (Chunk c) cur) as [v|]; auto. }
  rewrite E. destruct (match mget chunk_eqb (Chunk c) cur with Some v => dfs_counted ft rest v | None => (Done [], no_work) end) as [[found|] k]; auto.
  cbn [fst obind]. destruct (url_variables ft); auto. destruct (mget chunk_eqb CatchAll cur) as [v|]; auto.
  rewrite <- IH. destruct (dfs_counted ft rest v) as [[found'|] k']; reflexivity.
Qed.
Lemma check_loop_fst self : forall vars other, fst (check_matches_loop_counted vars self other) = check_matches_loop vars self other.
Proof.
  induction self as [|a self IH]; intros vars [|b other]; auto. cbn [check_matches_loop_counted check_matches_loop].
  destruct (first_is_colon a) as [[]|]; auto; cbn [obind].
  - rewrite <- IH. destruct (check_matches_loop_counted _ self other). reflexivity.
  - destruct (seqb a b); auto. rewrite <- IH. destruct (check_matches_loop_counted vars self other). reflexivity.
Qed.
Lemma check_fst self other : fst (check_matches_counted self other) = check_matches self other.
Proof. unfold check_matches_counted, check_matches. destruct (negb _); auto. apply check_loop_fst. Qed.
Lemma matched_fst {T} ft path (l : list (pathdata T)) : fst (matched_counted ft path l) =
  omapM (fun d : pathdata T =>
             if url_variables ft then
               obind (check_matches (orig_path d) path) (fun o =>
                 obind (unwrap o) (fun vars => Done (MatchedPath vars (data d))))
             else Done (MatchedPath [] (data d))) l.
Proof.
  induction l as [|d l IH]; auto. cbn [matched_counted omapM]. rewrite <- IH. destruct (url_variables ft).
  - rewrite <- check_fst. destruct (check_matches_counted (orig_path d) path) as [o k]. cbn [fst].
    destruct (obind o _); auto. cbn [obind]. destruct (matched_counted ft path l) as [[] k']; reflexivity.
  - cbn [obind]. destruct (matched_counted ft path l) as [[] k']; reflexivity.
Qed.
Lemma node_get_fst {T} ft (n : pathnode T) path : fst (node_get_counted ft n path) = node_get ft n path.
Proof.
  unfold node_get_counted, node_get. rewrite <- dfs_counted_fst. destruct (dfs_counted ft path n) as [[found|] k]; auto.
  cbn [fst obind]. rewrite <- matched_fst. destruct (matched_counted ft path found). reflexivity.
Qed.
Section Run.
Context {H : Type}.
Notation cl := (closures H).
Lemma table_fst ft (r : router H) m path : fst (table_matches_counted ft r m path) = table_matches ft r m path.
Proof.
  unfold table_matches_counted, table_matches. destruct (mget method_eqb m (paths r)) as [n|]; auto.
  rewrite <- node_get_fst. destruct (node_get_counted ft n path). reflexivity.
Qed.
Lemma matches_fst ft (r : router H) m path : fst (run_matches_counted ft r m path) = run_matches ft r m path.
Proof.
  unfold run_matches_counted, run_matches. rewrite <- !table_fst. destruct (table_matches_counted ft r m path) as [[a|] k]; auto.
  destruct (table_matches_counted ft r MAll path) as [[b|] k']; reflexivity.
Qed.
Lemma find_min_fst (l : list (list (matchedpath cl) * nat)) : forall n mi mv,
  find_min_counted n mi mv l = (find_min n mi mv l, length l).
Proof.
  induction l as [|[v i] l IH]; intros n mi mv; auto. cbn [find_min_counted find_min length].
  destruct (nth_error v i) as [x|]; [destruct (_ <? _)%N|]; rewrite IH; reflexivity.
Qed.
Context {W : Type} (exec : H -> varmap -> W -> W * outcome flow).
Lemma run_loop_fst ft total : forall M I w, fst (run_loop_counted exec ft total M I w) = run_loop exec ft total M I w.
Proof.
  induction total as [|total IH]; intros M I w; auto. cbn [run_loop_counted run_loop]. rewrite find_min_fst.
  destruct (nth_error M _) as [v|]; auto. destruct (nth_error I _) as [i|]; auto. destruct (nth_error v i) as [mp|]; auto.
  destruct (exec _ _ w) as [w' [f|]]; auto. destruct (should_continue f); auto. rewrite <- IH.
  destruct (run_loop_counted exec ft total M _ w'). reflexivity.
Qed.
Theorem run_counted_fst ft (r : router H) m path w : fst (router_run_counted exec ft r m path w) = router_run exec ft r m path w.
Proof.
  unfold router_run_counted, router_run. rewrite <- matches_fst. destruct (run_matches_counted ft r m path) as [[M|] k]; auto.
  cbn [fst]. rewrite <- run_loop_fst. destruct (run_loop_counted exec ft _ M _ w). reflexivity.
Qed.
Lemma run_loop_work ft total : forall M I w, snd (run_loop_counted exec ft total M I w) <= total * length M.
Proof.
  induction total as [|total IH]; intros M I w; auto. cbn [run_loop_counted]. rewrite find_min_fst.
  assert (L : length (combine M I) <= length M) by (rewrite combine_length; lia).
  destruct (nth_error M _) as [v|]; [|cbn; lia]. destruct (nth_error I _) as [i|]; [|cbn; lia]. destruct (nth_error v i) as [mp|]; [|cbn; lia].
  destruct (exec _ _ w) as [w' [f|]]; [|cbn; lia]. destruct (should_continue f); [|cbn; lia].
  specialize (IH M (incr_at (find_min 0 0 USIZE_MAX (combine M I)) I) w'). destruct (run_loop_counted exec ft total M _ w'). cbn [snd] in *. lia.
Qed.
End Run.

(** ** The trie *)
Section Trie.
Context {T : Type}.
Implicit Types (n : pathnode T) (d : pathdata T).
Definition visits ft path n : nat := nodes_entered (snd (dfs_counted ft path n)).
Definition deep ft path n : nat := recursion_depth (snd (dfs_counted ft path n)).

Lemma dfs_clean ft path : forall n, segments_compared (snd (dfs_counted ft path n)) = 0 /\ vectors_examined (snd (dfs_counted ft path n)) = 0.
Proof.
  induction path as [|c rest IH]; intros [cur|l]; try (split; reflexivity). cbn [dfs_counted].
  assert (E : forall k, match mget chunk_eqb k cur with Some v => dfs_counted ft rest v | None => (Done [], no_work) end =
    (fst (match mget chunk_eqb k cur with Some v => dfs_counted ft rest v | None => (Done [], no_work) end),
     snd (match mget chunk_eqb k cur with Some v => dfs_counted ft rest v | None => (Done [], no_work) end)) /\
     segments_compared (snd (match mget chunk_eqb k cur with Some v => dfs_counted ft rest v | None => (Done [], no_work) end)) = 0 /\
     vectors_examined (snd (match mget chunk_eqb k cur with Some v => dfs_counted ft rest v | None => (Done [], no_work) end)) = 0).
  { intro k. split; [apply surjective_pairing|]. destruct (mget chunk_eqb k cur) as [v|]; [apply IH|auto]. }
  destruct (E (Chunk c)) as (_ & E1 & E2).
  destruct (match mget chunk_eqb (Chunk c) cur with Some v => dfs_counted ft rest v | None => (Done [], no_work) end) as [[found|] k]; cbn [snd] in *; auto.
  destruct (url_variables ft); auto. destruct (mget chunk_eqb CatchAll cur) as [v|] eqn:Ec; auto.
  destruct (IH v) as [I1 I2]. destruct (dfs_counted ft rest v) as [r' k']. cbn in *. lia.
Qed.
(** Visits of a node, over its children; a lookup that panics stops early *)
Definition child ft k rest (cur : list (pathchunk * pathnode T)) : work :=
  match mget chunk_eqb k cur with Some v => snd (dfs_counted ft rest v) | None => no_work end.
Lemma shape_ok ft path n : shape n -> exists l, fst (dfs_counted ft path n) = Done l.
Proof. intro S. rewrite dfs_counted_fst, (dfs_spec ft path n S). eauto. Qed.
Lemma work_node ft c rest cur : shape (Node cur) ->
  snd (dfs_counted ft (c :: rest) (Node cur)) =
  entering (if url_variables ft then also (child ft (Chunk c) rest cur) (child ft CatchAll rest cur) else child ft (Chunk c) rest cur).
Proof.
  intro S. inversion S as [m ND Hsub Hend]; subst m. cbn [dfs_counted]. unfold child.
  assert (E : exists l, match mget chunk_eqb (Chunk c) cur with Some v => dfs_counted ft rest v | None => (Done [], no_work) end =
     (Done l, match mget chunk_eqb (Chunk c) cur with Some v => snd (dfs_counted ft rest v) | None => no_work end)).
  { destruct (mget chunk_eqb (Chunk c) cur) as [v|] eqn:E; [|eexists; reflexivity].
    destruct (shape_ok ft rest v) as (l & El).
    - apply (Hsub (Chunk c)); [apply (mget_In chunk_eqb chunk_eqb_eq); auto|discriminate].
    - exists l. rewrite <- El. apply surjective_pairing. }
  destruct E as (l & ->). destruct (url_variables ft); [|reflexivity].
  destruct (mget chunk_eqb CatchAll cur) as [v|].
  - destruct (dfs_counted ft rest v) as [r k]. reflexivity.
  - unfold also, entering, no_work. cbn. rewrite !Nat.add_0_r, Nat.max_0_r. reflexivity.
Qed.
Definition common ft (d : pathdata T) path : nat := agreeing (url_variables ft) (orig_path d) path.

Lemma agreeing_cons uv a pat b path : a <> [] ->
  agreeing uv (a :: pat) (b :: path) = if (if colon_b a then uv else seqb a b) then S (agreeing uv pat path) else 0.
Proof. intro N. destruct a as [|x a]; [contradiction|]. destruct x; reflexivity. Qed.

Lemma insert_at_nonempty pat d : forall n n', insert_at pat d n = Done n' -> Forall nonempty pat.
Proof.
  induction pat as [|b pat IH]; intros [cur|l] n' E; try discriminate; auto. cbn [insert_at] in E.
  destruct (first_is_colon b) as [colon|] eqn:Eb; [|discriminate]. cbn [obind] in E.
  destruct (insert_at pat d _) as [c'|] eqn:E'; [|discriminate]. constructor; [intros ->; discriminate|]. eapply IH; eauto.
Qed.
Lemma insert_at_work ft pat d : forall n path n', shape n -> insert_at pat d n = Done n' ->
  visits ft path n' <= visits ft path n + agreeing (url_variables ft) pat path /\
  deep ft path n' <= Nat.max (deep ft path n) (1 + agreeing (url_variables ft) pat path).
Proof.
  unfold visits, deep. induction pat as [|a pat IH]; intros n path n' Sh E; inversion Sh as [m ND Hsub Hend]; subst n.
  - assert (G : exists l, n' = Node (mset chunk_eqb End_ (Leaf l) m)).
    { cbn [insert_at] in E. destruct (mget chunk_eqb End_ m) as [[c|l]|]; try discriminate; injection E as <-; eauto. }
    destruct G as (l & ->).
    assert (Sh' : shape (Node (mset chunk_eqb End_ (Leaf l) m))).
    { destruct (insert_at_spec [] d (Node m) Sh (Forall_nil _)) as (n2 & E2 & S2 & _). rewrite E2 in E. injection E as <-. exact S2. }
    destruct path as [|c rest]; [cbn; lia|]. rewrite !work_node by auto. unfold child.
    rewrite !mget_mset_chunk. cbn [chunk_eqb]. lia.
  - cbn [insert_at] in E. destruct a as [|x a]; [discriminate|]. assert (Na : x :: a <> []) by discriminate.
    rewrite first_is_colon_b in E by auto. cbn [obind] in E. fold (key (x :: a)) in E.
    set (old := match mget chunk_eqb (key (x :: a)) m with Some c => c | None => node_new end) in *.
    destruct (insert_at pat d old) as [child'|] eqn:Ec; [|discriminate]. injection E as <-.
    assert (So : shape old).
    { unfold old. destruct (mget chunk_eqb (key (x :: a)) m) as [c0|] eqn:E; [|apply shape_new].
      apply (Hsub (key (x :: a))); [apply (mget_In chunk_eqb chunk_eqb_eq); auto|apply key_not_end]. }
    assert (Sc : shape child').
    { destruct (insert_at_spec pat d old So (insert_at_nonempty pat d old child' Ec)) as (n2 & E2 & S2 & _). rewrite E2 in Ec. injection Ec as <-. exact S2. }
    assert (Sh' : shape (Node (mset chunk_eqb (key (x :: a)) child' m))).
    { constructor.
      - apply (mset_NoDup chunk_eqb chunk_eqb_eq); auto.
      - intros k c Hin Hk. apply (mset_In_inv chunk_eqb chunk_eqb_eq) in Hin as [[H1 H2]|H1]; eauto. subst; auto.
      - intros c Hin. apply (mset_In_inv chunk_eqb chunk_eqb_eq) in Hin as [[H1 H2]|H1]; eauto.
        exfalso. apply (key_not_end (x :: a)). auto. }
    destruct path as [|c rest]; [cbn; lia|]. rewrite !work_node by auto.
    destruct (IH old rest child' So Ec) as [V D].
    assert (New : nodes_entered (snd (dfs_counted ft rest old)) <= 1 + nodes_entered (child ft (key (x :: a)) rest m) /\
                  (mget chunk_eqb (key (x :: a)) m <> None -> snd (dfs_counted ft rest old) = child ft (key (x :: a)) rest m) /\
                  recursion_depth (snd (dfs_counted ft rest old)) <= Nat.max 1 (recursion_depth (child ft (key (x :: a)) rest m))).
    { unfold old, child. destruct (mget chunk_eqb (key (x :: a)) m) as [c0|]; [repeat split; auto; lia|].
      split; [|split; [congruence|]]; destruct rest as [|c1 rest]; cbn; try lia; destruct (url_variables ft); cbn; lia. }
    destruct New as (N1 & N2 & N3).
    assert (At : forall k, child ft k rest (mset chunk_eqb (key (x :: a)) child' m) =
                 if chunk_eqb k (key (x :: a)) then snd (dfs_counted ft rest child') else child ft k rest m).
    { intro k. unfold child. rewrite mget_mset_chunk. destruct (chunk_eqb k (key (x :: a))); reflexivity. }
    rewrite !At, agreeing_cons by auto. unfold key in *. destruct (colon_b (x :: a)) eqn:Cb.
    + cbn [chunk_eqb]. destruct (url_variables ft); cbn [entering also nodes_entered recursion_depth] in *; lia.
    + cbn [chunk_eqb]. rewrite (seqb_sym c (x :: a)). destruct (seqb (x :: a) c) eqn:Es.
      * apply seqb_eq in Es. rewrite <- Es in *. destruct (url_variables ft); cbn [entering also nodes_entered recursion_depth] in *; lia.
      * destruct (url_variables ft); cbn [entering also nodes_entered recursion_depth] in *; lia.
Qed.

(** ** Tables made by insertions *)
Definition built n (log : list (pathdata T)) : Prop := node_from_iter log = Done n.
Lemma extend_app l1 : forall n l2, node_extend n (l1 ++ l2) = obind (node_extend n l1) (fun n' => node_extend n' l2).
Proof.
  induction l1 as [|d l1 IH]; intros n l2; auto. cbn [app node_extend]. destruct (node_insert n (orig_path d) (data d)) as [n'|]; auto.
  cbn [obind]. apply IH.
Qed.
Lemma extend_ok l : forall n n', node_extend n l = Done n' -> Forall seg_ok l.
Proof.
  induction l as [|d l IH]; intros n n' E; auto. cbn [node_extend] in E. unfold node_insert in E.
  destruct (insert_at (orig_path d) _ n) as [n1|] eqn:E1; [|discriminate]. cbn [obind] in E. constructor; [|eauto].
  exact (insert_at_nonempty _ _ _ _ E1).
Qed.
Definition sum_common ft path (l : list (pathdata T)) : nat := list_sum (map (fun d => common ft d path) l).
Definition max_common ft path (l : list (pathdata T)) : nat := list_max (map (fun d => common ft d path) l).
Lemma extend_work ft path l : forall n n', shape n -> node_extend n l = Done n' ->
  visits ft path n' <= visits ft path n + sum_common ft path l /\
  deep ft path n' <= Nat.max (deep ft path n) (1 + max_common ft path l).
Proof.
  induction l as [|d l IH]; intros n n' Sh E.
  - injection E as <-. unfold sum_common. cbn. lia.
  - cbn [node_extend] in E. unfold node_insert in E.
    destruct (insert_at (orig_path d) (PathData (orig_path d) (data d)) n) as [n1|] eqn:E1; [|discriminate]. cbn [obind] in E.
    destruct (insert_at_spec _ (PathData (orig_path d) (data d)) n Sh (insert_at_nonempty _ _ _ _ E1)) as (n2 & E2 & S2 & _). rewrite E2 in E1. injection E1 as ->.
    destruct (IH n1 n' S2 E) as [V D]. destruct (insert_at_work ft _ _ n path n1 Sh E2) as [V1 D1].
    unfold sum_common, max_common in *. cbn [map list_sum list_max fold_right]. unfold common at 1 3.
    fold (list_sum (map (fun d0 => common ft d0 path) l)). fold (list_max (map (fun d0 => common ft d0 path) l)). lia.
Qed.
Lemma built_work ft path n log : built n log ->
  visits ft path n <= 1 + sum_common ft path log /\ deep ft path n <= 1 + max_common ft path log.
Proof.
  intro Hb. destruct (extend_work ft path log node_new n shape_new Hb) as [V D].
  assert (N : visits ft path node_new = 1 /\ deep ft path node_new = 1).
  { destruct path as [|c rest]; [auto|]. unfold visits, deep, node_new. rewrite (work_node ft c rest [] shape_new). destruct (url_variables ft); auto. }
  lia.
Qed.
(** Comparisons *)
Lemma check_loop_work self : forall vars other, snd (check_matches_loop_counted vars self other) <= length self.
Proof.
  induction self as [|a self IH]; intros vars [|b other]; cbn [check_matches_loop_counted length]; try (cbn; lia).
  destruct (first_is_colon a) as [[]|]; [| |cbn; lia].
  - specialize (IH (mset seqb (skipn 1 a) b vars) other). destruct (check_matches_loop_counted _ self other). cbn [snd] in *. lia.
  - destruct (seqb a b); [|cbn; lia]. specialize (IH vars other). destruct (check_matches_loop_counted _ self other). cbn [snd] in *. lia.
Qed.
Lemma check_work self other : snd (check_matches_counted self other) <= length self.
Proof. unfold check_matches_counted. destruct (negb _); [cbn; lia|]. apply check_loop_work. Qed.
Lemma matched_work ft path (l : list (pathdata T)) : snd (matched_counted ft path l) <= list_sum (map (fun d => length (orig_path d)) l).
Proof.
  induction l as [|d l IH]; auto. cbn [matched_counted map list_sum fold_right]. fold (list_sum (map (fun d => length (orig_path d)) l)).
  destruct (url_variables ft).
  - pose proof (check_work (orig_path d) path) as C. destruct (check_matches_counted (orig_path d) path) as [o k]. cbn [snd] in C.
    destruct (obind o _); [|cbn; lia]. destruct (matched_counted ft path l). cbn [snd] in *. lia.
  - destruct (matched_counted ft path l). cbn [snd] in *. lia.
Qed.
Lemma agreeing_all uv pat path : route_matches uv pat path -> agreeing uv pat path = length pat.
Proof.
  unfold route_matches. destruct uv.
  - induction 1 as [|a b pat path M _ IH]; auto. cbn [agreeing length]. destruct M as [(nm & ->)| ->]; [congruence|].
    rewrite seqb_refl. destruct b as [|[] b]; congruence.
  - induction 1 as [|a b pat path [M ->] _ IH]; auto. cbn [agreeing length]. rewrite seqb_refl. destruct b as [|x b]; [congruence|].
    destruct x; try congruence. exfalso. apply M. reflexivity.
Qed.
Lemma list_sum_perm l l' : Permutation l l' -> list_sum l = list_sum l'.
Proof.
  induction 1; auto; cbn [list_sum fold_right] in *; fold (list_sum l) in *; try fold (list_sum l') in *; try lia; congruence.
Qed.
Lemma list_max_perm l l' : Permutation l l' -> list_max l = list_max l'.
Proof.
  induction 1; auto; cbn [list_max fold_right] in *; fold (list_max l) in *; try fold (list_max l') in *; try lia; congruence.
Qed.
Lemma sum_cons x l : list_sum (x :: l) = x + list_sum l.
Proof. reflexivity. Qed.
Lemma max_cons x l : list_max (x :: l) = Nat.max x (list_max l).
Proof. reflexivity. Qed.
Lemma filter_common ft path log : Forall seg_ok log ->
  list_sum (map (fun d => length (orig_path d)) (filter (fun d => match_b ft path (orig_path d)) log)) <= sum_common ft path log.
Proof.
  unfold sum_common. induction 1 as [|d log Hd _ IH]; auto. cbn [filter map]. rewrite sum_cons.
  destruct (match_b ft path (orig_path d)) eqn:M; [|lia]. cbn [map]. rewrite sum_cons.
  apply match_b_spec in M; [|exact Hd]. unfold common at 1. rewrite (agreeing_all _ _ _ M). lia.
Qed.
Lemma get_work ft n path log : built n log ->
  let k := snd (node_get_counted ft n path) in
  nodes_entered k <= 1 + sum_common ft path log /\ recursion_depth k <= 1 + max_common ft path log /\
  segments_compared k <= sum_common ft path log /\ vectors_examined k = 0.
Proof.
  intro Hb. pose proof (extend_ok _ _ _ Hb) as Ok. pose proof (table_represents log n Ok Hb) as R.
  destruct (built_work ft path n log Hb) as [V D]. unfold visits, deep in *. destruct (dfs_clean ft path n) as [C1 C2].
  unfold node_get_counted. pose proof (dfs_counted_fst ft path n) as F.
  destruct R as (Sh & _ & Hat & _). rewrite (dfs_spec ft path n Sh) in F.
  destruct (dfs_counted ft path n) as [found k]. cbn [fst snd] in *. subst found.
  pose proof (matched_work ft path (flat_map (fun ks => at_keys ks n) (kss (url_variables ft) path))) as M.
  assert (HP : Permutation (flat_map (fun ks => at_keys ks n) (kss (url_variables ft) path))
                           (filter (fun d => match_b ft path (orig_path d)) log)).
  { unfold match_b. rewrite <- (flat_map_filter_perm list_eq_dec_keys (fun d => keys (orig_path d)) log
                 (kss (url_variables ft) path) (kss_NoDup _ _)).
    erewrite flat_map_concat_map, flat_map_concat_map.
    erewrite map_ext_in; [reflexivity|]. intros ks Hk. apply Hat. eapply kss_no_end; eauto. }
  rewrite (list_sum_perm _ _ (Permutation_map (fun d => length (orig_path d)) HP)) in M.
  pose proof (filter_common ft path log Ok) as Fc.
  destruct (matched_counted ft path _) as [r c]. cbn [snd also nodes_entered recursion_depth segments_compared vectors_examined] in *. lia.
Qed.
End Trie.

(** ** Routers *)
Section Routers.
Context {H : Type}.
Notation cl := (closures H).
Definition tables_built (t : list (method * pathnode cl)) : Prop := forall m n, In (m, n) t -> exists log, built n log.
Lemma built_new : built (node_new (T := cl)) [].
Proof. reflexivity. Qed.
Lemma built_extend n log l n' : built (T := cl) n log -> node_extend n l = Done n' -> built n' (log ++ l).
Proof. unfold built, node_from_iter. intros H1 H2. rewrite extend_app, H1. exact H2. Qed.
Lemma tables_set t m n log : tables_built t -> built n log -> tables_built (mset method_eqb m n t).
Proof. intros Ht Hn m' n' Hin. apply (mset_In_inv method_eqb method_eqb_eq) in Hin as [[-> ->]|Hin]; eauto. Qed.
Lemma tables_get t m : tables_built t -> exists log, built (match mget method_eqb m t with Some n => n | None => node_new end) log.
Proof.
  intro Ht. destruct (mget method_eqb m t) as [n|] eqn:E; [|exists []; apply built_new].
  apply (Ht m n). apply (mget_In method_eqb method_eqb_eq). exact E.
Qed.
Lemma rreg_built (r r' : router H) c : tables_built (paths r) -> apply_rreg r c = Done r' -> tables_built (paths r').
Proof.
  intros Ht E. destruct c as [v p h|h]; cbn [apply_rreg] in E.
  - unfold router_route, inject_method in E. destruct (tables_get (paths r) (verb_method v) Ht) as (log & Hl).
    destruct (path_parse p) as [pat|].
    + destruct (node_insert _ pat _) as [n'|] eqn:En; [|discriminate]. cbn [obind] in E. destruct (add_usize _ 1) as [c|]; [|discriminate].
      cbn in E. injection E as <-. cbn [paths]. eapply tables_set; [eapply tables_set; eauto|].
      eapply (built_extend _ _ [PathData pat (Closures h (route_counter r))]); [exact Hl|]. cbn [node_extend orig_path data]. rewrite En. reflexivity.
    + cbn in E. injection E as <-. cbn [paths]. eapply tables_set; eauto.
  - unfold router_add in E. destruct (add_usize _ 1) as [c|]; [|discriminate]. cbn in E. injection E as <-. exact Ht.
Qed.
Lemma rregs_built l : forall (r r' : router H), tables_built (paths r) -> apply_rregs r l = Done r' -> tables_built (paths r').
Proof.
  induction l as [|c l IH]; intros r r' Ht E; [injection E as <-; auto|]. cbn [apply_rregs] in E.
  destruct (apply_rreg r c) as [r1|] eqn:E1; [|discriminate]. cbn [obind] in E. eapply IH; [|exact E]. eapply rreg_built; eauto.
Qed.
Lemma append_built o pos k0 others : forall k (self res : list (method * pathnode cl)), tables_built self ->
  append_paths o pos k k0 self others = Done res -> tables_built res.
Proof.
  induction others as [|[m node] others IH]; intros k self res Ht E; [injection E as <-; auto|]. cbn [append_paths] in E.
  destruct (node_into_list _ _ node) as [es|]; [|discriminate]. cbn [obind] in E.
  destruct (omapM (shift_entry k0) es) as [up|]; [|discriminate]. cbn [obind] in E.
  destruct (match mget method_eqb m self with Some x => node_extend x up | None => node_from_iter up end) as [node'|] eqn:En; [|discriminate].
  cbn [obind] in E. destruct (tables_get self m Ht) as (log & Hl). eapply IH; [|exact E].
  apply (tables_set _ _ _ (log ++ up)); auto. destruct (mget method_eqb m self) as [x|]; eapply built_extend; eauto.
Qed.
Lemma build_built o l : forall k (r r' : router H), tables_built (paths r) -> build_from o k r l = Done r' -> tables_built (paths r').
Proof.
  induction l as [|c l IH]; intros k r r' Ht E; [injection E as <-; auto|]. cbn [build_from] in E.
  destruct (apply_oreg o [k] r c) as [r1|] eqn:E1; [|discriminate]. cbn [obind] in E. eapply IH; [|exact E].
  destruct c as [v p h|h|sub]; cbn [apply_oreg] in E1.
  - exact (rreg_built r r1 (RRoute v p h) Ht E1).
  - exact (rreg_built r r1 (RAdd h) Ht E1).
  - destruct (apply_rregs router_new sub) as [r2|]; [|discriminate]. cbn [obind] in E1. unfold router_append in E1.
    destruct (append_paths _ _ _ _ _ _) as [ps|] eqn:Ep; [|discriminate]. cbn [obind] in E1.
    destruct (omapM _ _) as [mws|]; [|discriminate]. cbn [obind] in E1. destruct (add_usize _ _) as [n|]; [|discriminate].
    cbn in E1. injection E1 as <-. cbn [paths]. eapply append_built; eauto.
Qed.

(** What one method's table costs *)
Lemma table_work ft (r : router H) E m path : tables_built (paths r) -> inv r E ->
  let k := snd (table_matches_counted ft r m path) in
  nodes_entered k <= 1 + sum_common ft path (tlog m 0 E) /\ recursion_depth k <= 1 + max_common ft path (tlog m 0 E) /\
  segments_compared k <= sum_common ft path (tlog m 0 E) /\ vectors_examined k = 0.
Proof.
  intros Ht I. unfold table_matches_counted. pose proof (inv_tables _ _ I m) as Tm.
  destruct (mget method_eqb m (paths r)) as [n|] eqn:En; [|cbn; lia].
  cbn [table_ok] in Tm. destruct Tm as (log' & R & HP). apply (mget_In method_eqb method_eqb_eq) in En. destruct (Ht m n En) as (log & Hl).
  pose proof (table_represents log n (extend_ok _ _ _ Hl) Hl) as (_ & _ & _ & P1). destruct R as (_ & _ & _ & P2).
  assert (P : Permutation log (tlog m 0 E)) by (rewrite <- P1, P2; exact HP).
  pose proof (get_work ft n path log Hl) as G. cbn zeta in G.
  unfold sum_common, max_common in *.
  rewrite (list_sum_perm _ _ (Permutation_map (fun d => common ft d path) P)), (list_max_perm _ _ (Permutation_map (fun d => common ft d path) P)) in G.
  destruct (node_get_counted ft n path) as [rts k]. exact G.
Qed.
(** The registrations *)
Definition adds_b ft (m : method) path (c : rreg H) : nat :=
  match c with
  | RRoute v p _ =>
      match path_parse p with
      | Some pat => if method_eqb m (verb_method v) || method_eqb MAll (verb_method v) then agreeing (url_variables ft) pat path else 0
      | None => 0
      end
  | RAdd _ => 0
  end.
Lemma adds_b_spec ft m path c : m <> MAll -> adds (url_variables ft) m path c (adds_b ft m path c).
Proof.
  intro Hm. destruct c as [v p h|h]; cbn [adds_b]; [|constructor]. destruct (path_parse p) as [pat|] eqn:E.
  - destruct (_ || _) eqn:S; [constructor; [apply path_means_parse; auto|apply serves_b; auto]|].
    apply adds_other. intro X. apply serves_b in X; auto. congruence.
  - apply adds_rejected. intros pat X. apply path_means_parse in X. congruence.
Qed.
Lemma tlog_sums ft path m l : m <> MAll -> forall i,
  sum_common ft path (tlog m i (eff l)) + sum_common ft path (tlog MAll i (eff l)) = list_sum (map (adds_b ft m path) l) /\
  Nat.max (max_common ft path (tlog m i (eff l))) (max_common ft path (tlog MAll i (eff l))) = list_max (map (adds_b ft m path) l).
Proof.
  intro Hm. unfold sum_common, max_common. induction l as [|[v p h|h] l IH]; intro i; [auto| |].
  - cbn [eff flat_map eff1 map adds_b]. fold (eff l). destruct (path_parse p) as [pat|].
    + specialize (IH (i + 1)%N). destruct IH as [IH1 IH2]. cbn [app tlog].
      assert (X : method_eqb m (verb_method v) = true -> method_eqb MAll (verb_method v) = true -> False).
      { intros X1 X2. apply method_eqb_eq in X1. apply method_eqb_eq in X2. congruence. }
      destruct (method_eqb m (verb_method v)), (method_eqb MAll (verb_method v)); try (exfalso; apply X; reflexivity);
        cbn [orb app map]; rewrite ?sum_cons, ?max_cons; change (common ft (PathData pat (Closures h i)) path) with (agreeing (url_variables ft) pat path); lia.
    + cbn [app]. specialize (IH i). rewrite sum_cons, max_cons. lia.
  - cbn [eff flat_map eff1 map adds_b app tlog]. rewrite sum_cons, max_cons. specialize (IH (i + 1)%N). unfold eff in IH. lia.
Qed.
Lemma f2_length {A C} {R : A -> C -> Prop} {l l'} : Forall2 R l l' -> length l = length l'.
Proof. induction 1; cbn [length]; congruence. Qed.
Context {W : Type} (exec : H -> varmap -> W -> W * outcome flow).
Theorem dispatch_work o ft (l : list (oreg H)) m path w r : (N.of_nat (length (flatten l)) <= USIZE_MAX)%N -> m <> MAll ->
  build o l = Done r ->
  exists shares sel, Forall2 (adds (url_variables ft) m path) (flatten l) shares /\
    selects (applies (url_variables ft) m path) (flatten l) sel /\
    let k := snd (router_run_counted exec ft r m path w) in
    nodes_entered k <= 2 + list_sum shares /\ recursion_depth k <= 1 + list_max shares /\
    segments_compared k <= list_sum shares /\ vectors_examined k <= 3 * length sel.
Proof.
  intros HB Hm Eb. destruct (build_inv o l HB) as (r' & Eb' & I). rewrite Eb in Eb'. injection Eb' as <-.
  destruct (calls_of_spec ft m path (flatten l) Hm) as (sel & S1 & S2).
  exists (map (adds_b ft m path) (flatten l)), sel. split; [|split; [exact S1|]].
  { clear - Hm. induction (flatten l) as [|c l' IH]; constructor; auto. apply adds_b_spec. exact Hm. }
  assert (Ht : tables_built (paths r)) by (apply (build_built o l 0 router_new r); [intros x y []|exact Eb]).
  pose proof (table_work ft r _ m path Ht I) as T1. pose proof (table_work ft r _ MAll path Ht I) as T2.
  destruct (tlog_sums ft path m (flatten l) Hm 0%N) as [X1 X2]. cbn zeta in *.
  unfold nlen in HB. destruct (build_matches o l ft m path HB Hm) as (r' & M & S & Eb' & Em & El & _ & Ec).
  rewrite Eb in Eb'. injection Eb' as <-.
  assert (Ls : length S = length sel) by (rewrite (f2_length S2), <- Ec, map_length; reflexivity).
  unfold router_run_counted. pose proof (matches_fst ft r m path) as F. rewrite Em in F.
  assert (LM : length M <= 3).
  { clear - Em. unfold run_matches in Em. assert (G : forall m' a, table_matches ft r m' path = Done a -> length a <= 1).
    { intros m' a. unfold table_matches. destruct (mget _ _ _); [destruct (node_get _ _ _)|]; cbn; intro X; try discriminate; injection X as <-; auto. }
    destruct (table_matches ft r m path) as [a|] eqn:A; [|discriminate]. cbn [obind] in Em.
    destruct (table_matches ft r MAll path) as [b|] eqn:B'; [|discriminate]. cbn [obind] in Em. injection Em as <-.
    rewrite !app_length. cbn [length]. specialize (G _ _ A) as G1. specialize (G _ _ B') as G2. lia. }
  assert (K : nodes_entered (snd (run_matches_counted ft r m path)) <= 2 + list_sum (map (adds_b ft m path) (flatten l)) /\
              recursion_depth (snd (run_matches_counted ft r m path)) <= 1 + list_max (map (adds_b ft m path) (flatten l)) /\
              segments_compared (snd (run_matches_counted ft r m path)) <= list_sum (map (adds_b ft m path) (flatten l)) /\
              vectors_examined (snd (run_matches_counted ft r m path)) = 0).
  { unfold run_matches_counted. destruct (table_matches_counted ft r m path) as [[a|] k1]; cbn [snd] in *; [|lia].
    destruct (table_matches_counted ft r MAll path) as [b k2]. cbn [snd also nodes_entered recursion_depth segments_compared vectors_examined] in *. lia. }
  destruct (run_matches_counted ft r m path) as [res k]. cbn [fst snd] in *. subst res.
  pose proof (run_loop_work exec ft (list_sum (map (@length _) M)) M (repeat 0 (length M)) w) as Lw.
  destruct (run_loop_counted exec ft _ M _ w) as [out v]. cbn [snd also nodes_entered recursion_depth segments_compared vectors_examined] in *.
  rewrite El, Ls in Lw. nia.
Qed.
Lemma agreeing_le uv pat path : agreeing uv pat path <= length pat /\ agreeing uv pat path <= length path.
Proof.
  revert path. induction pat as [|a pat IH]; intros [|b path]; try (cbn; lia). cbn [agreeing length]. specialize (IH path).
  destruct (match a with x3a :: _ => uv | _ => seqb a b end); lia.
Qed.
Theorem bounded_work o ft (l : list (oreg H)) m path w r : (N.of_nat (length (flatten l)) <= USIZE_MAX)%N -> m <> MAll ->
  build o l = Done r ->
  exists sizes, Forall2 pattern_size (flatten l) sizes /\
    let k := snd (router_run_counted exec ft r m path w) in
    nodes_entered k + segments_compared k + vectors_examined k <= 2 + 2 * list_sum sizes + 3 * length (flatten l) /\
    recursion_depth k <= 1 + Nat.min (length path) (list_max sizes).
Proof.
  intros HB Hm Eb. destruct (dispatch_work o ft l m path w r HB Hm Eb) as (shares & sel & F & Sel & K).
  assert (G : exists sizes, Forall2 pattern_size (flatten l) sizes /\ list_sum shares <= list_sum sizes /\ list_max shares <= Nat.min (length path) (list_max sizes)).
  { clear - F. induction F as [|c k cs ks Hc _ (sizes & I1 & I2 & I3)]; [exists []; repeat split; auto; cbn; lia|].
    assert (G : exists z, pattern_size c z /\ k <= z /\ k <= length path).
    { destruct Hc as [v p h pat Hp Hs|v p h Hs|v p h Hp|h].
      - exists (length pat). split; [constructor; auto|]. apply agreeing_le.
      - destruct (path_parse p) as [pat|] eqn:E; [exists (length pat); split; [constructor; apply path_means_parse; auto|lia]|].
        exists 0. split; [apply size_rejected; intros pat X; apply path_means_parse in X; congruence|lia].
      - exists 0. split; [apply size_rejected; auto|lia].
      - exists 0. split; [constructor|lia]. }
    destruct G as (z & Hz & Lz & Lp). exists (z :: sizes). split; [constructor; auto|]. cbn [list_sum list_max fold_right].
    fold (list_sum ks) (list_sum sizes). fold (list_max ks) (list_max sizes). lia. }
  destruct G as (sizes & G1 & G2 & G3). exists sizes. split; auto. cbn zeta in *.
  assert (length sel <= length (flatten l)) by (clear - Sel; induction Sel; cbn [length]; lia). lia.
Qed.
End Routers.

(** The hypotheses can be met. *)
Example work_example : exists r,
  build PathExtra.insertion_order
    [ORoute VGet (B "/a/:x/c") 1; ORoute VAll (B "/a/b/:y") 2; ORoute VGet (B "/a/b/d") 3; OAdd 4;
     ORoute VPost (B "/a/b/c") 5; OMount [RRoute VGet (B "/a/../..") 6; RRoute VGet (B "/a/:z/c") 7]] = Done r /\
  (let k path := snd (router_run_counted (fun h _ (w : list nat) => (w ++ [h], Done FNext)) default_features r MGet path []) in
   k [B "a"; B "b"; B "c"] = Work 9 4 9 12 /\ k (repeat (B "z") 50) = Work 2 1 0 3) /\
  Forall2 (adds true MGet [B "a"; B "b"; B "c"])
    (flatten [ORoute VGet (B "/a/:x/c") 1; ORoute VAll (B "/a/b/:y") 2; ORoute VGet (B "/a/b/d") 3; OAdd 4;
              ORoute VPost (B "/a/b/c") 5; OMount [RRoute VGet (B "/a/../..") 6; RRoute VGet (B "/a/:z/c") 7]])
    [3; 3; 2; 0; 0; 0; 3].
Proof.
  eexists. split; [vm_compute; reflexivity|]. split; [split; vm_compute; reflexivity|].
  assert (G : forall (c : rreg nat) k, adds_b default_features MGet [B "a"; B "b"; B "c"] c = k -> adds true MGet [B "a"; B "b"; B "c"] c k).
  { intros c k <-. apply (adds_b_spec default_features). discriminate. }
  repeat (apply Forall2_cons; [apply G; vm_compute; reflexivity|]). constructor.
Qed.
