(** Router construction and dispatch. *)
From Coq Require Import Sorting.Sorted.
From Verif.Model Require Export Router.
From Verif.Proofs Require Export TrieProofs.
From Verif.Spec Require Import Common PathSpec RouteSpec RoutingSpec.

Local Arguments N.add : simpl never.
Local Arguments N.of_nat : simpl never.
Local Arguments method_eqb : simpl never.

Lemma method_eqb_eq a b : method_eqb a b = true <-> a = b.
Proof. unfold method_eqb. split; [destruct a, b; simpl; congruence|intros ->; destruct b; reflexivity]. Qed.
Lemma method_eqb_spec a b : reflect (a = b) (method_eqb a b).
Proof. apply iff_reflect. symmetry. apply method_eqb_eq. Qed.

(** ** Exact result of a lookup *)
Section Get.
Context {T : Type}.
Definition match_b (ft : features) (path : list str) (pat : pathbuf) : bool :=
  existsb (keys_eqb (keys pat)) (kss (url_variables ft) path).
Definition vars_of (ft : features) (path : list str) (pat : pathbuf) : varmap :=
  if url_variables ft then
    match check_matches pat path with Done (Some v) => v | _ => [] end
  else [].
Definition mk (ft : features) (path : list str) (d : pathdata T) : matchedpath T :=
  MatchedPath (vars_of ft path (orig_path d)) (data d).

Lemma match_b_spec ft path pat :
  Forall nonempty pat -> (match_b ft path pat = true <-> route_matches (url_variables ft) pat path).
Proof.
  intro HN. rewrite <- (key_matches (url_variables ft) path pat HN).
  unfold match_b. rewrite existsb_exists. unfold keys_eqb. split.
  - intros (ks & Hk & E). destruct (list_eq_dec_keys _ _); [subst; auto|discriminate].
  - intro H. exists (keys pat). split; auto. destruct (list_eq_dec_keys _ _); auto.
Qed.
Lemma vars_of_spec ft path pat :
  Forall nonempty pat -> route_matches (url_variables ft) pat path ->
  forall name val, mget seqb name (vars_of ft path pat) = Some val <->
                   (url_variables ft = true /\ binds pat path name val).
Proof.
  intros HN Hm name val. unfold vars_of. destruct (url_variables ft).
  - destruct (check_matches_spec pat path HN) as [(vars & V1 & V2 & V3)|[V1 V2]].
    + rewrite V1, V3. tauto.
    + exfalso. apply V2. exact Hm.
  - split; [discriminate|]. intros [E _]; discriminate.
Qed.

Lemma get_exact ft (n : pathnode T) log path :
  represents n log ->
  exists shown, node_get ft n path = Done (map (mk ft path) shown) /\
    Permutation shown (filter (fun d => match_b ft path (orig_path d)) log).
Proof.
  intros (Hs & Hlog & Hat & Hen). unfold node_get.
  rewrite (dfs_spec ft path n Hs). cbn [obind].
  exists (flat_map (fun ks => at_keys ks n) (kss (url_variables ft) path)).
  assert (HP : Permutation (flat_map (fun ks => at_keys ks n) (kss (url_variables ft) path))
                           (filter (fun d => match_b ft path (orig_path d)) log)).
  { unfold match_b.
    rewrite <- (flat_map_filter_perm list_eq_dec_keys (fun d => keys (orig_path d)) log
                 (kss (url_variables ft) path) (kss_NoDup _ _)).
    erewrite flat_map_concat_map, flat_map_concat_map.
    erewrite map_ext_in; [reflexivity|]. intros ks Hk. apply Hat. eapply kss_no_end; eauto. }
  split; auto.
  apply omapM_all. intros d Hd.
  apply (Permutation_in d HP) in Hd. apply filter_In in Hd as [Hd Hb].
  rewrite Forall_forall in Hlog. apply match_b_spec in Hb; [|apply Hlog; auto].
  unfold mk, vars_of. destruct (url_variables ft); auto.
  destruct (check_matches_spec (orig_path d) path (Hlog d Hd)) as [(vars & V1 & V2 & V3)|[V1 V2]].
  - rewrite V1. reflexivity.
  - exfalso. apply V2. exact Hb.
Qed.
End Get.

Section Build.
Context {H : Type}.
Notation cl := (closures H).

(** Effective registrations, numbered by position. *)
Inductive entry := ERoute (m : method) (pat : pathbuf) (h : H) | EAdd (h : H).

Fixpoint tlog (m : method) (i : N) (l : list entry) : list (pathdata cl) :=
  match l with
  | [] => []
  | ERoute m' p h :: r => (if method_eqb m m' then [PathData p (Closures h i)] else []) ++ tlog m (i + 1) r
  | EAdd _ :: r => tlog m (i + 1) r
  end.
Fixpoint mlog (i : N) (l : list entry) : list cl :=
  match l with
  | [] => []
  | ERoute _ _ _ :: r => mlog (i + 1) r
  | EAdd h :: r => Closures h i :: mlog (i + 1) r
  end.
Definition entry_ok (e : entry) : Prop :=
  match e with ERoute _ p _ => Forall nonempty p | EAdd _ => True end.

Definition nlen {A} (l : list A) : N := N.of_nat (length l).
Lemma nlen_app {A} (l l' : list A) : nlen (l ++ l') = (nlen l + nlen l')%N.
Proof. unfold nlen. rewrite app_length. lia. Qed.
Lemma nlen_cons {A} (x : A) l : nlen (x :: l) = (1 + nlen l)%N.
Proof. unfold nlen. cbn [length]; lia. Qed.

Lemma tlog_app m i l l' : tlog m i (l ++ l') = tlog m i l ++ tlog m (i + nlen l) l'.
Proof.
  revert i; induction l as [|[m' p h|h] l IH]; intro i; simpl.
  - unfold nlen; simpl. rewrite N.add_0_r. reflexivity.
  - rewrite IH, nlen_cons, <- app_assoc. do 3 f_equal. lia.
  - rewrite IH, nlen_cons. do 2 f_equal. lia.
Qed.
Lemma mlog_app i l l' : mlog i (l ++ l') = mlog i l ++ mlog (i + nlen l) l'.
Proof.
  revert i; induction l as [|[m' p h|h] l IH]; intro i; simpl.
  - unfold nlen; simpl. rewrite N.add_0_r. reflexivity.
  - rewrite IH, nlen_cons. do 2 f_equal. lia.
  - rewrite IH, nlen_cons. do 3 f_equal. lia.
Qed.
Lemma tlog_index m i l d : In d (tlog m i l) -> (i <= index (data d) < i + nlen l)%N.
Proof.
  revert i; induction l as [|[m' p h|h] l IH]; intros i; simpl; try contradiction.
  - intro Hd. rewrite nlen_cons. apply in_app_or in Hd as [Hd|Hd].
    + destruct (method_eqb m m'); [|contradiction]. destruct Hd as [<-|[]]. simpl. lia.
    + apply IH in Hd. lia.
  - intro Hd. rewrite nlen_cons. apply IH in Hd. lia.
Qed.
Lemma mlog_index i l d : In d (mlog i l) -> (i <= index d < i + nlen l)%N.
Proof.
  revert i; induction l as [|[m' p h|h] l IH]; intros i; simpl; try contradiction.
  - intro Hd. rewrite nlen_cons. apply IH in Hd. lia.
  - intro Hd. rewrite nlen_cons. destruct Hd as [<-|Hd]; [simpl; lia|]. apply IH in Hd. lia.
Qed.
Lemma tlog_ok m i l : Forall entry_ok l -> Forall seg_ok (tlog m i l).
Proof.
  revert i; induction l as [|[m' p h|h] l IH]; intros i HF; simpl; inversion HF; subst; auto.
  apply Forall_app. split; auto. destruct (method_eqb m m'); constructor; auto.
Qed.

(** Shifting *)
Definition shift_c (k : N) (c : cl) : cl := Closures (closure c) (index c + k).
Definition shift_d (k : N) (d : pathdata cl) : pathdata cl := PathData (orig_path d) (shift_c k (data d)).
Lemma shift_closure_ok k c : (index c + k <= USIZE_MAX)%N -> shift_closure k c = Done (shift_c k c).
Proof.
  intro E. unfold shift_closure, add_usize. rewrite (proj2 (N.leb_le _ _) E). reflexivity.
Qed.
Lemma shift_entry_ok k d : (index (data d) + k <= USIZE_MAX)%N -> shift_entry k d = Done (shift_d k d).
Proof. intro E. unfold shift_entry. rewrite shift_closure_ok by auto. reflexivity. Qed.
Lemma tlog_shift m k i l : map (shift_d k) (tlog m i l) = tlog m (i + k) l.
Proof.
  revert i; induction l as [|[m' p h|h] l IH]; intro i; simpl; auto.
  - rewrite map_app, IH. replace (i + k + 1)%N with (i + 1 + k)%N by lia.
    destruct (method_eqb m m'); reflexivity.
  - rewrite IH. f_equal. lia.
Qed.
Lemma mlog_shift k i l : map (shift_c k) (mlog i l) = mlog (i + k) l.
Proof.
  revert i; induction l as [|[m' p h|h] l IH]; intro i; simpl; auto.
  - rewrite IH. f_equal. lia.
  - rewrite IH. do 2 f_equal. lia.
Qed.

(** Tables *)
Definition table_ok (t : option (pathnode cl)) (log : list (pathdata cl)) : Prop :=
  match t with
  | Some n => exists log', represents n log' /\ Permutation log' log
  | None => log = []
  end.

Record inv (r : router H) (E : list entry) : Prop := {
  inv_counter : route_counter r = nlen E;
  inv_mw : middlewares r = mlog 0 E;
  inv_nodup : NoDup (map fst (paths r));
  inv_tables : forall m, table_ok (mget method_eqb m (paths r)) (tlog m 0 E);
  inv_ok : Forall entry_ok E
}.
Lemma inv_new : inv router_new [].
Proof. constructor; simpl; auto; constructor. Qed.

Lemma mget_mset_m m m' (v : pathnode cl) t :
  mget method_eqb m (mset method_eqb m' v t) = if method_eqb m m' then Some v else mget method_eqb m t.
Proof. apply (mget_mset method_eqb method_eqb_eq). Qed.

Definition eff1 (c : rreg H) : list entry :=
  match c with
  | RRoute v p h => match path_parse p with Some pat => [ERoute (verb_method v) pat h] | None => [] end
  | RAdd h => [EAdd h]
  end.
Definition eff (l : list (rreg H)) : list entry := flat_map eff1 l.

Lemma inv_weaken_node r E m :
  inv r E -> inv (Router (route_counter r) (middlewares r)
    (mset method_eqb m (match mget method_eqb m (paths r) with Some n => n | None => node_new end) (paths r))) E.
Proof.
  intros [I1 I2 I3 I4 I5]. constructor; simpl; auto.
  - apply (mset_NoDup method_eqb method_eqb_eq); auto.
  - intro m'. rewrite mget_mset_m. destruct (method_eqb_spec m' m) as [->|Hm]; auto.
    specialize (I4 m). destruct (mget method_eqb m (paths r)); auto. simpl in *.
    rewrite I4. exists []. split; [apply represents_new|auto].
Qed.

Lemma add_usize_ok a b : (a + b <= USIZE_MAX)%N -> add_usize a b = Done (a + b)%N.
Proof. intro E. unfold add_usize. rewrite (proj2 (N.leb_le _ _) E). reflexivity. Qed.

Lemma apply_rreg_inv r E c :
  inv r E -> (nlen E + 1 <= USIZE_MAX)%N ->
  exists r', apply_rreg r c = Done r' /\ inv r' (E ++ eff1 c).
Proof.
  intros I HB. destruct c as [v p h|h]; simpl.
  - unfold router_route, inject_method. destruct (path_parse p) as [pat|] eqn:Ep; simpl.
    + set (m := verb_method v). set (node := match mget method_eqb m (paths r) with Some n => n | None => node_new end).
      pose proof (inv_weaken_node r E m I) as I'. fold node in I'. 
      destruct I' as [I1 I2 I3 I4 I5]. simpl in *.
      pose proof (I4 m) as Hm. rewrite mget_mset_m in Hm.
      rewrite (proj2 (method_eqb_eq m m) eq_refl) in Hm. simpl in Hm. destruct Hm as (log' & Hr & HP).
      pose proof (parse_nonempty _ _ Ep) as HN.
      destruct (insert_represents node log' pat (Closures h (route_counter r)) Hr HN) as (n' & Hn & Hr').
      rewrite Hn. cbn [obind]. rewrite add_usize_ok by (rewrite I1; auto). cbn [obind omap].
      eexists. split; [reflexivity|]. constructor; simpl.
      * rewrite I1, nlen_app. reflexivity.
      * rewrite mlog_app. simpl. rewrite app_nil_r. auto.
      * apply (mset_NoDup method_eqb method_eqb_eq); auto.
      * intro m'. rewrite mget_mset_m, tlog_app. simpl.
        destruct (method_eqb_spec m' m) as [->|Hne].
        -- simpl. eexists. split; [exact Hr'|]. rewrite I1. 
           apply Permutation_app; auto.
        -- rewrite app_nil_r. auto.
      * apply Forall_app. split; auto.
    + eexists. split; [reflexivity|]. rewrite app_nil_r. apply inv_weaken_node; auto.
  - unfold router_add. destruct I as [I1 I2 I3 I4 I5].
    rewrite add_usize_ok by (rewrite I1; auto). cbn [obind omap].
    eexists. split; [reflexivity|]. constructor; simpl; auto.
    * rewrite I1, nlen_app. reflexivity.
    * rewrite mlog_app, I1, I2. reflexivity.
    * intro m. rewrite tlog_app. simpl. rewrite app_nil_r. auto.
    * apply Forall_app. split; auto. constructor; [exact I|constructor].
Qed.
Lemma eff1_le c : (nlen (eff1 c) <= 1)%N.
Proof. destruct c as [v p h|h]; simpl; [destruct (path_parse p)|]; unfold nlen; simpl; lia. Qed.
Lemma eff_le l : (nlen (eff l) <= nlen l)%N.
Proof.
  induction l as [|c l IH]; [unfold nlen; simpl; lia|].
  simpl. rewrite nlen_app, nlen_cons. pose proof (eff1_le c). lia.
Qed.
Lemma apply_rregs_inv l : forall r E,
  inv r E -> (nlen E + nlen l <= USIZE_MAX)%N ->
  exists r', apply_rregs r l = Done r' /\ inv r' (E ++ eff l).
Proof.
  induction l as [|c l IH]; intros r E I HB.
  - exists r. rewrite app_nil_r. auto.
  - rewrite nlen_cons in HB. simpl.
    destruct (apply_rreg_inv r E c I) as (r1 & E1 & I1); [lia|].
    rewrite E1. cbn [obind].
    destruct (IH r1 (E ++ eff1 c) I1) as (r2 & E2 & I2).
    + rewrite nlen_app. pose proof (eff1_le c). lia.
    + exists r2. split; auto. rewrite <- app_assoc in I2. exact I2.
Qed.

(** Mounting *)
Lemma append_paths_spec o pos k0 (f g : method -> list (pathdata cl)) others :
  NoDup (map fst others) ->
  (forall m n, In (m, n) others -> exists log', represents n log' /\ Permutation log' (g m)) ->
  (forall m d, In d (g m) -> (index (data d) + k0 <= USIZE_MAX)%N) ->
  forall k self,
  NoDup (map fst self) ->
  (forall m, table_ok (mget method_eqb m self) (f m)) ->
  exists res, append_paths o pos k k0 self others = Done res /\
    NoDup (map fst res) /\
    forall m, table_ok (mget method_eqb m res)
                (f m ++ if existsb (method_eqb m) (map fst others) then map (shift_d k0) (g m) else []).
Proof.
  revert f. induction others as [|[m n] others IH]; intros f ND Hrep Hidx k self HS Hself.
  - exists self. split; auto. split; auto. intro m. simpl. rewrite app_nil_r. auto.
  - simpl in ND. inversion ND as [|? ? Hni ND']; subst.
    destruct (Hrep m n (or_introl eq_refl)) as (log' & Hr & HP).
    destruct (into_list_perm o (pos ++ [1; k]) n) as (l & El & HPl).
    assert (HPg : Permutation l (g m)).
    { rewrite HPl. destruct Hr as (_ & _ & _ & Hen). rewrite Hen. exact HP. }
    simpl append_paths. rewrite El. cbn [obind].
    rewrite (omapM_all _ (shift_d k0)).
    2:{ intros d Hd. apply shift_entry_ok. apply (Hidx m). eapply Permutation_in; eauto. }
    cbn [obind].
    assert (Hok : Forall seg_ok (map (shift_d k0) l)).
    { apply Forall_forall. intros d Hd. apply in_map_iff in Hd as (d0 & <- & Hd).
      destruct Hr as (_ & Hlog & _). rewrite Forall_forall in Hlog.
      unfold seg_ok. simpl. apply Hlog. eapply Permutation_in; [symmetry; exact HP|].
      eapply Permutation_in; eauto. }
    assert (G : exists node', match mget method_eqb m self with
              | Some x => node_extend x (map (shift_d k0) l)
              | None => node_from_iter (map (shift_d k0) l)
              end = Done node' /\ table_ok (Some node') (f m ++ map (shift_d k0) (g m))).
    { specialize (Hself m). destruct (mget method_eqb m self) as [x|]; simpl in Hself.
      - destruct Hself as (lx & Hx & HPx).
        destruct (extend_represents (map (shift_d k0) l) x lx Hx Hok) as (n' & E' & Hr').
        exists n'. split; auto. simpl. eexists. split; [exact Hr'|].
        apply Permutation_app; auto. apply Permutation_map; auto.
      - destruct (table_exists (map (shift_d k0) l) Hok) as (n' & E' & Hr').
        exists n'. split; auto. simpl. eexists. split; [exact Hr'|]. rewrite Hself. simpl.
        apply Permutation_map; auto. }
    destruct G as (node' & E' & Hnode). rewrite E'. cbn [obind].
    destruct (IH (fun m' => if method_eqb m' m then f m ++ map (shift_d k0) (g m) else f m') ND'
                 (fun m' n' Hin => Hrep m' n' (or_intror Hin)) Hidx (S k) (mset method_eqb m node' self))
      as (res & R1 & R2 & R3).
    + apply (mset_NoDup method_eqb method_eqb_eq); auto.
    + intro m'. rewrite mget_mset_m. destruct (method_eqb_spec m' m) as [->|]; auto.
    + exists res. split; auto. split; auto. intro m'. specialize (R3 m'). simpl.
      cbv beta in R3. destruct (method_eqb_spec m' m) as [Em|Hne]; [subst m'|]; simpl in *; auto.
      replace (existsb (method_eqb m) (map fst others)) with false in R3.
      * rewrite app_nil_r in R3. exact R3.
      * symmetry. apply not_true_is_false. intro Ex. apply existsb_exists in Ex as (m2 & Hin & Hm2).
        apply method_eqb_eq in Hm2; subst. contradiction.
Qed.

Lemma append_inv o pos r E r2 E2 :
  inv r E -> inv r2 E2 -> (nlen E + nlen E2 <= USIZE_MAX)%N ->
  exists r', router_append o pos r r2 = Done r' /\ inv r' (E ++ E2).
Proof.
  intros [I1 I2 I3 I4 I5] [J1 J2 J3 J4 J5] HB. unfold router_append.
  pose proof (ord_perm o (pos ++ [0]) _ (paths r2)) as HPo.
  set (others := ord_fn o (pos ++ [0]) _ (paths r2)) in *.
  assert (NDo : NoDup (map fst others)).
  { eapply Permutation_NoDup; [|exact J3]. apply Permutation_map. symmetry; auto. }
  destruct (append_paths_spec o pos (route_counter r) (fun m => tlog m 0 E) (fun m => tlog m 0 E2) others NDo)
    with (k := 0) (self := paths r) as (res & R1 & R2 & R3); auto.
  - intros m n Hin. specialize (J4 m).
    rewrite (In_mget method_eqb method_eqb_eq m n (paths r2) J3) in J4; auto.
    eapply Permutation_in; eauto.
  - intros m d Hd. apply tlog_index in Hd. rewrite I1. lia.
  - rewrite R1. cbn [obind].
    rewrite (omapM_all _ (shift_c (route_counter r))).
    2:{ intros d Hd. apply shift_closure_ok. rewrite J2 in Hd. apply mlog_index in Hd. rewrite I1. lia. }
    cbn [obind]. rewrite add_usize_ok by (rewrite I1, J1; auto). cbn [obind].
    eexists. split; [reflexivity|]. constructor; simpl; auto.
    + rewrite I1, J1, nlen_app. reflexivity.
    + rewrite J2, I1, I2, mlog_shift, mlog_app. reflexivity.
    + intro m. specialize (R3 m). rewrite tlog_app. rewrite I1, tlog_shift in R3.
      replace (tlog m (0 + nlen E) E2) with
        (if existsb (method_eqb m) (map fst others) then tlog m (0 + nlen E) E2 else []); auto.
      destruct (existsb (method_eqb m) (map fst others)) eqn:Ex; auto.
      assert (Hn : mget method_eqb m (paths r2) = None).
      { apply (mget_None method_eqb method_eqb_eq). intro Hin.
        assert (In m (map fst others)) as Hin2.
        { eapply Permutation_in; [|exact Hin]. apply Permutation_map. symmetry; auto. }
        rewrite <- not_true_iff_false in Ex. apply Ex. apply existsb_exists. exists m.
        split; auto. apply method_eqb_eq; auto. }
      specialize (J4 m). rewrite Hn in J4. simpl in J4.
      rewrite <- tlog_shift, J4. reflexivity.
    + apply Forall_app. auto.
Qed.

Lemma apply_oreg_inv o pos r E c :
  inv r E -> (nlen E + nlen (flatten1 c) <= USIZE_MAX)%N ->
  exists r', apply_oreg o pos r c = Done r' /\ inv r' (E ++ eff (flatten1 c)).
Proof.
  intros I HB. destruct c as [v p h|h|l].
  - replace (eff (flatten1 (ORoute v p h))) with (eff1 (RRoute v p h))
      by (unfold eff; simpl; rewrite app_nil_r; reflexivity).
    apply (apply_rreg_inv r E (RRoute v p h)); auto.
  - apply (apply_rreg_inv r E (RAdd h)); auto.
  - simpl in *.
    destruct (apply_rregs_inv l router_new [] inv_new) as (sub & S1 & S2).
    { unfold nlen at 1. simpl. lia. }
    rewrite S1. cbn [obind]. apply append_inv; auto.
    simpl. pose proof (eff_le l). lia.
Qed.
Lemma eff_app l l' : eff (l ++ l') = eff l ++ eff l'.
Proof. apply flat_map_app'. Qed.

Lemma build_from_inv o l : forall k r E,
  inv r E -> (nlen E + nlen (flatten l) <= USIZE_MAX)%N ->
  exists r', build_from o k r l = Done r' /\ inv r' (E ++ eff (flatten l)).
Proof.
  induction l as [|c l IH]; intros k r E I HB.
  - exists r. simpl. rewrite app_nil_r. auto.
  - simpl in *. rewrite nlen_app in HB.
    destruct (apply_oreg_inv o [k] r E c I) as (r1 & E1 & I1); [lia|].
    rewrite E1. cbn [obind].
    destruct (IH (S k) r1 _ I1) as (r2 & E2 & I2).
    + rewrite nlen_app. pose proof (eff_le (flatten1 c)). lia.
    + exists r2. split; auto. rewrite eff_app, app_assoc. exact I2.
Qed.
Lemma build_inv o l :
  (nlen (flatten l) <= USIZE_MAX)%N -> exists r, build o l = Done r /\ inv r (eff (flatten l)).
Proof.
  intro HB. apply (build_from_inv o l 0 router_new [] inv_new). unfold nlen at 1. simpl. lia.
Qed.

(** ** Sorting *)
Definition idx (x : matchedpath cl) : N := index (mp_data x).
Definition lt_idx (x y : matchedpath cl) : Prop := (idx x < idx y)%N.

Lemma insert_sorted_perm (x : matchedpath cl) l : Permutation (insert_sorted x l) (x :: l).
Proof.
  induction l as [|y l IH]; simpl; auto.
  destruct (index (mp_data x) <=? index (mp_data y))%N; auto.
  rewrite IH. apply perm_swap.
Qed.
Lemma sort_perm (l : list (matchedpath cl)) : Permutation (sort_by_index l) l.
Proof. induction l as [|x l IH]; simpl; auto. rewrite insert_sorted_perm. auto. Qed.
Definition le_idx (x y : matchedpath cl) : Prop := (idx x <= idx y)%N.
Lemma insert_sorted_sorted (x : matchedpath cl) l : StronglySorted le_idx l -> StronglySorted le_idx (insert_sorted x l).
Proof.
  induction 1 as [|y l HS IH HF]; simpl.
  - constructor; constructor.
  - destruct (N.leb_spec (index (mp_data x)) (index (mp_data y))) as [Hle|Hlt].
    + constructor; [constructor; auto|]. constructor; auto.
      eapply Forall_impl; [|exact HF]. intros z Hz. unfold le_idx, idx in *. lia.
    + constructor; auto. apply Forall_forall. intros z Hz.
      apply (Permutation_in z (insert_sorted_perm x l)) in Hz. destruct Hz as [<-|Hz].
      * unfold le_idx, idx. lia.
      * rewrite Forall_forall in HF. auto.
Qed.
Lemma sort_sorted (l : list (matchedpath cl)) : StronglySorted le_idx (sort_by_index l).
Proof. induction l as [|x l IH]; simpl; [constructor|apply insert_sorted_sorted; auto]. Qed.

Lemma sorted_unique l : forall l', Permutation l l' -> StronglySorted le_idx l -> StronglySorted lt_idx l' -> l = l'.
Proof.
  induction l as [|x l IH]; intros l' HP HS HS'.
  - apply Permutation_nil in HP. auto.
  - destruct l' as [|y l']; [apply Permutation_sym, Permutation_nil in HP; discriminate|].
    inversion HS as [|? ? HS1 HF1]; inversion HS' as [|? ? HS2 HF2]; subst.
    assert (x = y) as ->.
    { assert (In x (y :: l')) as Hx by (eapply Permutation_in; [exact HP|left; auto]).
      assert (In y (x :: l)) as Hy by (eapply Permutation_in; [symmetry; exact HP|left; auto]).
      destruct Hx as [|Hx]; auto. destruct Hy as [|Hy]; auto.
      rewrite Forall_forall in *. specialize (HF1 y Hy). specialize (HF2 x Hx).
      unfold le_idx, lt_idx in *. lia. }
    f_equal. apply IH; auto. eapply Permutation_cons_inv; eauto.
Qed.
Lemma sort_unique l l' : Permutation l l' -> StronglySorted lt_idx l' -> sort_by_index l = l'.
Proof.
  intros HP HS. apply sorted_unique; auto; [|apply sort_sorted]. rewrite sort_perm. auto.
Qed.

Definition tl_matches ft path m i E : list (matchedpath cl) :=
  map (mk ft path) (filter (fun d => match_b ft path (orig_path d)) (tlog m i E)).
Lemma tl_matches_In ft path m i E x : In x (tl_matches ft path m i E) -> (i <= idx x < i + nlen E)%N.
Proof.
  intro Hx. apply in_map_iff in Hx as (d & <- & Hd). apply filter_In in Hd as [Hd _].
  apply tlog_index in Hd. exact Hd.
Qed.
Lemma sorted_app (l l' : list (matchedpath cl)) :
  StronglySorted lt_idx l -> StronglySorted lt_idx l' ->
  (forall x y, In x l -> In y l' -> lt_idx x y) -> StronglySorted lt_idx (l ++ l').
Proof.
  induction 1 as [|x l HS IH HF]; simpl; auto. intros HS' Hc. constructor.
  - apply IH; auto.
  - apply Forall_app. split; auto. apply Forall_forall. auto.
Qed.
Lemma tl_sorted ft path m i E : StronglySorted lt_idx (tl_matches ft path m i E).
Proof.
  revert i; induction E as [|[m' p h|h] E IH]; intro i.
  - constructor.
  - unfold tl_matches in *. simpl. rewrite filter_app, map_app. apply sorted_app; auto.
    + destruct (method_eqb m m'); simpl; [|constructor].
      destruct (match_b ft path p); simpl; [|constructor]. constructor; constructor.
    + intros x y Hx Hy. apply (tl_matches_In ft path m (i + 1) E) in Hy.
      apply in_map_iff in Hx as (d & <- & Hd). apply filter_In in Hd as [Hd _].
      destruct (method_eqb m m'); [|contradiction]. destruct Hd as [<-|[]].
      unfold lt_idx, idx in *. simpl. lia.
  - apply (IH (i + 1)%N).
Qed.
Definition mw_matches i E : list (matchedpath cl) := map (fun c => MatchedPath [] c) (mlog i E).
Lemma mw_matches_In i E x : In x (mw_matches i E) -> (i <= idx x < i + nlen E)%N.
Proof. intro Hx. apply in_map_iff in Hx as (d & <- & Hd). apply mlog_index in Hd. exact Hd. Qed.
Lemma mw_sorted i E : StronglySorted lt_idx (mw_matches i E).
Proof.
  revert i; induction E as [|[m' p h|h] E IH]; intro i; [constructor|apply (IH (i+1)%N)|].
  unfold mw_matches. simpl. constructor; [apply (IH (i+1)%N)|].
  apply Forall_forall. intros x Hx. apply mw_matches_In in Hx. unfold lt_idx, idx in *. simpl. lia.
Qed.

(** All matches in registration order. *)
Fixpoint all_matches ft (m : method) path i (E : list entry) : list (matchedpath cl) :=
  match E with
  | [] => []
  | ERoute m' p h :: r =>
      (if (method_eqb m m' || method_eqb MAll m') && match_b ft path p
       then [MatchedPath (vars_of ft path p) (Closures h i)] else [])
      ++ all_matches ft m path (i + 1)%N r
  | EAdd h :: r => MatchedPath [] (Closures h i) :: all_matches ft m path (i + 1)%N r
  end.
Lemma all_matches_In ft m path i E x : In x (all_matches ft m path i E) -> (i <= idx x < i + nlen E)%N.
Proof.
  revert i; induction E as [|[m' p h|h] E IH]; intros i; simpl; try contradiction; rewrite nlen_cons.
  - intro Hx. apply in_app_or in Hx as [Hx|Hx].
    + destruct ((method_eqb m m' || method_eqb MAll m') && match_b ft path p); [|contradiction].
      destruct Hx as [<-|[]]. unfold idx; simpl. lia.
    + apply IH in Hx. lia.
  - intros [<-|Hx]; [unfold idx; simpl; lia|]. apply IH in Hx. lia.
Qed.
Lemma all_sorted ft m path i E : StronglySorted lt_idx (all_matches ft m path i E).
Proof.
  revert i; induction E as [|[m' p h|h] E IH]; intro i; simpl; [constructor| |].
  - apply sorted_app; auto.
    + destruct ((method_eqb m m' || method_eqb MAll m') && match_b ft path p); repeat constructor.
    + intros x y Hx Hy. apply all_matches_In in Hy.
      destruct ((method_eqb m m' || method_eqb MAll m') && match_b ft path p); [|contradiction].
      destruct Hx as [<-|[]]. unfold lt_idx, idx in *. simpl. lia.
  - constructor; auto. apply Forall_forall. intros x Hx. apply all_matches_In in Hx.
    unfold lt_idx, idx in *. simpl. lia.
Qed.
Lemma all_matches_perm ft m path E : m <> MAll -> forall i,
  Permutation (tl_matches ft path m i E ++ tl_matches ft path MAll i E ++ mw_matches i E)
              (all_matches ft m path i E).
Proof.
  intro Hm. unfold tl_matches, mw_matches. induction E as [|[m' p h|h] E IH]; intro i; simpl; auto.
  - rewrite !filter_app, !map_app. rewrite <- (IH (i + 1)%N).
    destruct (method_eqb_spec m m') as [<-|Hne]; simpl.
    + replace (method_eqb MAll m) with false
        by (symmetry; destruct (method_eqb_spec MAll m); congruence). simpl.
      rewrite <- !app_assoc.
      destruct (match_b ft path p); simpl; auto.
    + destruct (method_eqb MAll m'); simpl; auto.
      destruct (match_b ft path p); simpl; auto.
      symmetry. apply Permutation_middle.
  - rewrite <- (IH (i + 1)%N).
    rewrite !app_assoc. symmetry. apply Permutation_middle.
Qed.

(** ** The merge loop *)
Lemma find_min_none n mi mv l :
  (forall v i x, In (v, i) l -> nth_error v i = Some x -> (mv <= idx x)%N) ->
  @find_min H n mi mv l = mi.
Proof.
  revert n; induction l as [|[v i] l IH]; intros n Hl; simpl; auto.
  destruct (nth_error v i) as [x|] eqn:E.
  - pose proof (Hl v i x (or_introl eq_refl) E) as Hx. unfold idx in Hx.
    rewrite (proj2 (N.ltb_ge _ _) Hx). apply IH. intros; eapply Hl; eauto. right; eauto.
  - apply IH. intros; eapply Hl; eauto. right; eauto.
Qed.
Lemma find_min_at l1 : forall n mi mv v i x l2,
  nth_error v i = Some x -> (idx x < mv)%N ->
  (forall v' i' y, In (v', i') l1 -> nth_error v' i' = Some y -> (idx x < idx y)%N) ->
  (forall v' i' y, In (v', i') l2 -> nth_error v' i' = Some y -> (idx x <= idx y)%N) ->
  @find_min H n mi mv (l1 ++ (v, i) :: l2) = n + length l1.
Proof.
  induction l1 as [|[v0 i0] l1 IH]; intros n mi mv v i x l2 E Hx H1 H2; simpl.
  - rewrite E. unfold idx in Hx. rewrite (proj2 (N.ltb_lt _ _) Hx).
    rewrite find_min_none; [lia|]. exact H2.
  - destruct (nth_error v0 i0) as [y|] eqn:E0.
    + pose proof (H1 v0 i0 y (or_introl eq_refl) E0) as Hy.
      destruct (index (mp_data y) <? mv)%N eqn:Elt.
      * rewrite (IH _ _ _ v i x l2 E); auto; [lia|]. intros; eapply H1; eauto. right; eauto.
      * rewrite (IH _ _ _ v i x l2 E); auto; [lia|]. intros; eapply H1; eauto. right; eauto.
    + rewrite (IH _ _ _ v i x l2 E); auto; [lia|]. intros; eapply H1; eauto. right; eauto.
Qed.

Definition rest (MI : list (list (matchedpath cl) * nat)) : list (matchedpath cl) :=
  flat_map (fun vi => skipn (snd vi) (fst vi)) MI.

Context {W : Type} (exec : H -> varmap -> W -> W * outcome flow).
Definition call_of ft (x : matchedpath cl) : H * varmap :=
  (closure (mp_data x), if url_variables ft then mp_vars x else []).

Lemma combine_split_incr (M1 : list (list (matchedpath cl))) : forall I1 v i (M2 : list (list (matchedpath cl))) I2,
  length I1 = length M1 ->
  combine (M1 ++ v :: M2) (incr_at (length M1) (I1 ++ i :: I2)) = combine M1 I1 ++ (v, S i) :: combine M2 I2.
Proof.
  induction M1 as [|a M1 IH]; intros [|b I1] v i M2 I2 HL; try discriminate; simpl; auto.
  rewrite IH; auto.
Qed.
Lemma incr_at_length n l : length (incr_at n l) = length l.
Proof. revert n; induction l as [|x l IH]; intros [|n]; simpl; auto. Qed.
Lemma combine_in_split {A C} (M : list A) : forall (I : list C) v i,
  length I = length M -> In (v, i) (combine M I) ->
  exists M1 I1 M2 I2, M = M1 ++ v :: M2 /\ I = I1 ++ i :: I2 /\ length I1 = length M1 /\
    combine M I = combine M1 I1 ++ (v, i) :: combine M2 I2.
Proof.
  induction M as [|a M IH]; intros [|b I] v i HL Hin; try discriminate; simpl in *; [contradiction|].
  destruct Hin as [E|Hin].
  - injection E as -> ->. exists [], [], M, I. auto.
  - destruct (IH I v i) as (M1 & I1 & M2 & I2 & -> & -> & E1 & E2); auto.
    exists (a :: M1), (b :: I1), M2, I2. simpl. repeat split; auto. rewrite E2. reflexivity.
Qed.

(** What the loop of [Router::run] relies on: [S] are the matches left, in the order of their index. *)
Record loop_inv (S : list (matchedpath cl)) (M : list (list (matchedpath cl))) (I : list nat) : Prop := LoopInv {
  li_len : length I = length M;
  li_rest : Permutation (rest (combine M I)) S;
  li_sorted : StronglySorted lt_idx S;
  li_each : Forall (fun vi => StronglySorted lt_idx (skipn (snd vi) (fst vi))) (combine M I);
  li_small : Forall (fun x => (idx x < USIZE_MAX)%N) S
}.
Lemma loop_step x S M I : loop_inv (x :: S) M I ->
  exists v i, let n := find_min 0 0 USIZE_MAX (combine M I) in
    nth_error M n = Some v /\ nth_error I n = Some i /\ nth_error v i = Some x /\
    loop_inv S M (incr_at n I).
Proof.
  intros [HL HP HS HM HB].
  inversion HS as [|? ? HS' HF]; subst. inversion HB as [|? ? Hx HB']; subst.
  assert (Hin : In x (rest (combine M I))) by (eapply Permutation_in; [symmetry; exact HP|left; auto]).
  unfold rest in Hin. apply in_flat_map in Hin as ((v & i) & Hvi & Hxin). simpl in Hxin.
  assert (Hge : forall v' i' y, In (v', i') (combine M I) -> nth_error v' i' = Some y -> y = x \/ (idx x < idx y)%N).
  { intros v' i' y Hin Hy.
    assert (In y (x :: S)) as Hy2.
    { eapply Permutation_in; [exact HP|]. unfold rest. apply in_flat_map. exists (v', i').
      split; auto. simpl. rewrite (skipn_nth _ _ _ Hy). left; auto. }
    destruct Hy2 as [->|Hy2]; auto. right. rewrite Forall_forall in HF. apply HF; auto. }
  assert (Ei : nth_error v i = Some x).
  { destruct (nth_error v i) as [y|] eqn:E.
    - rewrite Forall_forall in HM. specialize (HM _ Hvi). simpl in HM.
      rewrite (skipn_nth _ _ _ E) in HM, Hxin. inversion HM as [|? ? HM1 HM2]; subst.
      destruct Hxin as [->|Hxin]; auto.
      destruct (Hge v i y Hvi E) as [->|Hlt]; auto.
      rewrite Forall_forall in HM2. specialize (HM2 x Hxin). unfold lt_idx in HM2. lia.
    - rewrite (skipn_nth_none _ _ E) in Hxin. contradiction. }
  destruct (combine_in_split M I v i HL Hvi) as (M1 & I1 & M2 & I2 & EM & EI & HL1 & Ec).
  assert (NDx : forall v' i' y, In (v', i') (combine M1 I1 ++ combine M2 I2) ->
                nth_error v' i' = Some y -> y <> x).
  { intros v' i' y Hin Hy ->.
    assert (ND : NoDup (x :: S)).
    { constructor.
      - intro Hbad. rewrite Forall_forall in HF. specialize (HF x Hbad). unfold lt_idx in HF. lia.
      - clear - HS'. induction HS'; constructor; auto. intro Hb.
        rewrite Forall_forall in H0. specialize (H0 a Hb). unfold lt_idx in H0. lia. }
    apply (Permutation_NoDup (Permutation_sym HP)) in ND. rewrite Ec in ND. unfold rest in ND.
    rewrite flat_map_app' in ND. simpl in ND. rewrite (skipn_nth _ _ _ Ei) in ND.
    change (x :: skipn (Datatypes.S i) v) with ([x] ++ skipn (Datatypes.S i) v) in ND.
    rewrite <- app_assoc in ND. apply NoDup_remove_2 in ND. apply ND.
    rewrite in_app_iff. rewrite in_app_iff. apply in_app_or in Hin as [Hin|Hin].
    - left. apply in_flat_map. exists (v', i'). split; auto. simpl. rewrite (skipn_nth _ _ _ Hy). left; auto.
    - right. right. apply in_flat_map. exists (v', i'). split; auto. simpl. rewrite (skipn_nth _ _ _ Hy). left; auto. }
  assert (Hmin : find_min 0 0 USIZE_MAX (combine M I) = length M1).
  { rewrite Ec. rewrite (find_min_at _ _ _ _ _ _ x); auto.
    - rewrite combine_length, HL1. lia.
    - intros v' i' y Hin Hy. destruct (Hge v' i' y) as [->|]; auto.
      + rewrite Ec. apply in_or_app; auto.
      + exfalso. apply (NDx v' i' x); auto. apply in_or_app; auto.
    - intros v' i' y Hin Hy. destruct (Hge v' i' y) as [->|]; auto; try lia.
      rewrite Ec. apply in_or_app; right; right; auto. }
  assert (Ec' : combine M (incr_at (length M1) I) = combine M1 I1 ++ (v, Datatypes.S i) :: combine M2 I2).
  { rewrite EM, EI. apply combine_split_incr; auto. }
  exists v, i. cbv zeta. rewrite Hmin. repeat split; auto.
  - rewrite EM. rewrite nth_error_app2 by lia. rewrite Nat.sub_diag. reflexivity.
  - rewrite EI. rewrite nth_error_app2 by lia. rewrite HL1, Nat.sub_diag. reflexivity.
  - rewrite incr_at_length. auto.
  - rewrite Ec'. rewrite Ec in HP. unfold rest in *. rewrite flat_map_app' in *. simpl in *.
    rewrite (skipn_nth _ _ _ Ei) in HP. simpl in HP.
    rewrite <- Permutation_middle in HP. apply Permutation_cons_inv in HP. exact HP.
  - rewrite Ec'. rewrite Ec in HM. apply Forall_app in HM as [HM1 HM2].
    inversion HM2 as [|? ? Hv HM3]; subst. apply Forall_app. split; auto. constructor; auto.
    simpl in *. rewrite (skipn_nth _ _ _ Ei) in Hv. inversion Hv; auto.
Qed.
Lemma run_loop_spec ft S : forall M I w, loop_inv S M I ->
  run_loop exec ft (length S) M I w = run_chain exec (map (call_of ft) S) w.
Proof.
  induction S as [|x S IH]; intros M I w HI; [reflexivity|].
  destruct (loop_step x S M I HI) as (v & i & E1 & E2 & E3 & HI').
  cbn [length run_loop]. rewrite E1, E2, E3. cbn [map]. unfold call_of at 1. cbn [run_chain].
  destruct (exec (closure (mp_data x)) (if url_variables ft then mp_vars x else []) w) as [w' [[]|]]; auto.
  cbn [should_continue]. apply IH. exact HI'.
Qed.

Lemma table_matches_spec ft r E m path :
  inv r E -> exists Ls, table_matches ft r m path = Done Ls /\
    (Ls = [tl_matches ft path m 0 E] \/ (Ls = [] /\ tl_matches ft path m 0 E = [])).
Proof.
  intros [I1 I2 I3 I4 I5]. unfold table_matches. specialize (I4 m).
  destruct (mget method_eqb m (paths r)) as [n|]; simpl in I4.
  - destruct I4 as (log' & Hr & HP).
    destruct (get_exact ft n log' path Hr) as (shown & G1 & G2).
    rewrite G1. simpl. eexists. split; [reflexivity|]. left. f_equal.
    apply sort_unique; [|apply tl_sorted]. unfold tl_matches. apply Permutation_map.
    rewrite G2. clear - HP. induction HP; simpl; auto.
    + destruct (match_b ft path (orig_path x)); auto.
    + destruct (match_b ft path (orig_path x)), (match_b ft path (orig_path y)); auto. apply perm_swap.
    + eapply Permutation_trans; eauto.
  - eexists. split; [reflexivity|]. right. split; auto. unfold tl_matches. rewrite I4. reflexivity.
Qed.

Definition calls_of ft m path (l : list (rreg H)) : list (H * varmap) :=
  flat_map (fun c =>
    match c with
    | RRoute v p h =>
        match path_parse p with
        | Some pat => if (method_eqb m (verb_method v) || method_eqb MAll (verb_method v)) && match_b ft path pat
                      then [(h, vars_of ft path pat)] else []
        | None => []
        end
    | RAdd h => [(h, [])]
    end) l.

Lemma vars_of_nov ft path pat : (if url_variables ft then vars_of ft path pat else []) = vars_of ft path pat.
Proof. unfold vars_of. destruct (url_variables ft); auto. Qed.
Lemma calls_of_all ft m path l : forall i,
  map (call_of ft) (all_matches ft m path i (eff l)) = calls_of ft m path l.
Proof.
  induction l as [|[v p h|h] l IH]; intro i; simpl; auto.
  - destruct (path_parse p) as [pat|]; simpl; auto.
    rewrite map_app, IH.
    destruct ((method_eqb m (verb_method v) || method_eqb MAll (verb_method v)) && match_b ft path pat); auto.
    simpl. unfold call_of. simpl. rewrite vars_of_nov. reflexivity.
  - rewrite IH. unfold call_of. simpl. destruct (url_variables ft); reflexivity.
Qed.

Lemma rest_zeros (M : list (list (matchedpath cl))) : rest (combine M (repeat 0 (length M))) = concat M.
Proof. induction M as [|v M IH]; simpl; auto. rewrite IH. reflexivity. Qed.

Lemma matches_inv ft r E m path :
  inv r E -> (nlen E <= USIZE_MAX)%N -> m <> MAll ->
  exists M, run_matches ft r m path = Done M /\
    list_sum (map (@length _) M) = length (all_matches ft m path 0 E) /\
    loop_inv (all_matches ft m path 0 E) M (repeat 0 (length M)).
Proof.
  intros I HB Hm. unfold run_matches.
  destruct (table_matches_spec ft r E m path I) as (L1 & T1 & HL1).
  destruct (table_matches_spec ft r E MAll path I) as (L2 & T2 & HL2).
  rewrite T1. cbn [obind]. rewrite T2. cbn [obind].
  rewrite (inv_mw _ _ I). fold (mw_matches 0 E).
  set (M := L1 ++ L2 ++ [mw_matches 0 E]).
  assert (HC : Permutation (concat M) (all_matches ft m path 0 E)).
  { rewrite <- (all_matches_perm ft m path E Hm 0). unfold M. rewrite !concat_app.
    assert (C1 : concat L1 = tl_matches ft path m 0 E).
    { destruct HL1 as [->|[-> ->]]; simpl; auto. apply app_nil_r. }
    assert (C2 : concat L2 = tl_matches ft path MAll 0 E).
    { destruct HL2 as [->|[-> ->]]; simpl; auto. apply app_nil_r. }
    rewrite C1, C2. simpl. rewrite app_nil_r. reflexivity. }
  assert (HSo : Forall (StronglySorted lt_idx) M).
  { unfold M. apply Forall_app. split; [|apply Forall_app; split].
    - destruct HL1 as [->|[-> _]]; constructor; auto. apply tl_sorted.
    - destruct HL2 as [->|[-> _]]; constructor; auto. apply tl_sorted.
    - constructor; auto. apply mw_sorted. }
  exists M. split; [reflexivity|]. split.
  { rewrite <- (Permutation_length HC). clear. induction M as [|v M IH]; simpl; auto.
    rewrite app_length. auto. }
  constructor.
  - apply repeat_length.
  - rewrite rest_zeros. exact HC.
  - apply all_sorted.
  - clear - HSo. induction M as [|v M IH]; simpl; constructor.
    + inversion HSo; auto.
    + apply IH. inversion HSo; auto.
  - apply Forall_forall. intros x Hx. apply all_matches_In in Hx. lia.
Qed.

Lemma run_inv ft r E m path w :
  inv r E -> (nlen E <= USIZE_MAX)%N -> m <> MAll ->
  router_run exec ft r m path w = run_chain exec (map (call_of ft) (all_matches ft m path 0 E)) w.
Proof.
  intros I HB Hm. destruct (matches_inv ft r E m path I HB Hm) as (M & Em & El & HI).
  unfold router_run. rewrite Em, El. apply run_loop_spec. exact HI.
Qed.
Lemma build_matches o l ft m path : (nlen (flatten l) <= USIZE_MAX)%N -> m <> MAll ->
  exists r M S, build o l = Done r /\ run_matches ft r m path = Done M /\
    list_sum (map (@length _) M) = length S /\ loop_inv S M (repeat 0 (length M)) /\
    map (call_of ft) S = calls_of ft m path (flatten l).
Proof.
  intros HB Hm. destruct (build_inv o l HB) as (r & E & I).
  assert (HB' : (nlen (eff (flatten l)) <= USIZE_MAX)%N) by (pose proof (eff_le (flatten l)); lia).
  destruct (matches_inv ft r _ m path I HB' Hm) as (M & Em & El & HI).
  exists r, M, (all_matches ft m path 0 (eff (flatten l))). repeat split; auto; try apply HI.
  apply calls_of_all.
Qed.

Lemma build_run o l :
  (nlen (flatten l) <= USIZE_MAX)%N ->
  exists r, build o l = Done r /\
    forall ft m path w, m <> MAll ->
      router_run exec ft r m path w = run_chain exec (calls_of ft m path (flatten l)) w.
Proof.
  intro HB. destruct (build_inv o l HB) as (r & E & I). exists r. split; auto.
  intros ft m path w Hm. rewrite (run_inv ft r _ m path w I); auto.
  - rewrite calls_of_all. reflexivity.
  - pose proof (eff_le (flatten l)). lia.
Qed.

(** ** Against the specification *)
Lemma path_means_parse p pat : path_means p pat <-> path_parse p = Some pat.
Proof.
  split.
  - intros (segs & Hs & Hr). apply (parse_segments p segs pat Hs). exact Hr.
  - intro E. exists (split_char SLASH p). split; [apply segments_of_split|].
    apply (parse_segments p _ pat (segments_of_split p)). exact E.
Qed.
Lemma serves_b v m : m <> MAll ->
  (method_eqb m (verb_method v) || method_eqb MAll (verb_method v) = true <-> serves v m).
Proof. intro Hm. destruct v, m; simpl; split; intro E; auto; try discriminate; try contradiction. Qed.

Lemma calls_of_spec ft m path l : m <> MAll ->
  exists sel, selects (applies (url_variables ft) m path) l sel /\
              Forall2 (invokes (url_variables ft) path) sel (calls_of ft m path l).
Proof.
  intro Hm. induction l as [|c l IH].
  - exists []. split; constructor.
  - destruct IH as (sel & S1 & S2). destruct c as [v p h|h]; simpl calls_of.
    + fold (calls_of ft m path l). destruct (path_parse p) as [pat|] eqn:Ep.
      * destruct ((method_eqb m (verb_method v) || method_eqb MAll (verb_method v)) && match_b ft path pat) eqn:Eb.
        -- apply andb_prop in Eb as [Eb1 Eb2]. apply serves_b in Eb1; auto.
           pose proof (parse_nonempty _ _ Ep) as HN.
           apply match_b_spec in Eb2; auto.
           exists (RRoute v p h :: sel). split.
           ++ constructor; auto. simpl. split; auto. exists pat. split; auto.
              apply path_means_parse; auto.
           ++ simpl. constructor; auto. simpl. split; auto. exists pat.
              split; [apply path_means_parse; auto|]. apply vars_of_spec; auto.
        -- exists sel. split; auto. apply sel_no; auto. intros (Hsv & pat' & Hp & Hmt).
           apply path_means_parse in Hp. rewrite Ep in Hp. injection Hp as <-.
           apply serves_b in Hsv; auto. rewrite Hsv in Eb.
           apply match_b_spec in Hmt; [|eapply parse_nonempty; eauto]. rewrite Hmt in Eb. discriminate.
      * exists sel. split; auto. apply sel_no; auto. intros (_ & pat' & Hp & _).
        apply path_means_parse in Hp. congruence.
    + fold (calls_of ft m path l). exists (RAdd h :: sel). split.
      * constructor; simpl; auto.
      * simpl. constructor; simpl; auto.
Qed.

Lemma dispatch_correct o ft l m path w :
  (nlen (flatten l) <= USIZE_MAX)%N -> m <> MAll ->
  exists r sel calls, build o l = Done r /\
    selects (applies (url_variables ft) m path) (flatten l) sel /\
    Forall2 (invokes (url_variables ft) path) sel calls /\
    router_run exec ft r m path w = run_chain exec calls w.
Proof.
  intros HB Hm. destruct (build_run o l HB) as (r & E & R).
  destruct (calls_of_spec ft m path (flatten l) Hm) as (sel & S1 & S2).
  exists r, sel, (calls_of ft m path (flatten l)). auto.
Qed.
Lemma calls_of_app ft m path l l' : calls_of ft m path (l ++ l') = calls_of ft m path l ++ calls_of ft m path l'.
Proof. apply flat_map_app'. Qed.
Lemma flatten_app (l l' : list (oreg H)) : flatten (l ++ l') = flatten l ++ flatten l'.
Proof. apply flat_map_app'. Qed.
Lemma flatten_inline (l : list (rreg H)) : flatten (map inline l) = l.
Proof. induction l as [|[]]; simpl; congruence. Qed.

(** Two applications with the same selected calls behave alike. *)
Lemma same_calls o o' l l' ft m path w r r' :
  (nlen (flatten l) <= USIZE_MAX)%N -> (nlen (flatten l') <= USIZE_MAX)%N -> m <> MAll ->
  build o l = Done r -> build o' l' = Done r' ->
  calls_of ft m path (flatten l) = calls_of ft m path (flatten l') ->
  router_run exec ft r m path w = router_run exec ft r' m path w.
Proof.
  intros HB HB' Hm E E' HC.
  destruct (build_run o l HB) as (r1 & E1 & R1). destruct (build_run o' l' HB') as (r2 & E2 & R2).
  rewrite E in E1; injection E1 as <-. rewrite E' in E2; injection E2 as <-.
  rewrite R1, R2, HC; auto.
Qed.
Lemma build_total o (l : list (oreg H)) : (nlen (flatten l) <= USIZE_MAX)%N -> exists r, build o l = Done r.
Proof. intro HB. destruct (build_run o l HB) as (r & E & _). eauto. Qed.

Lemma run_chain_no_panic l w :
  (forall h vars w, snd (exec h vars w) <> Panic) -> snd (run_chain exec l w) = Done tt.
Proof.
  intro Hx. revert w; induction l as [|[h vars] l IH]; intro w; simpl; auto.
  specialize (Hx h vars w). destruct (exec h vars w) as [w' [[]|]]; simpl in *; auto. congruence.
Qed.
Lemma run_chain_app_stop l l1 l2 h vars w :
  (forall w, snd (exec h vars w) = Done FStop) ->
  run_chain exec (l ++ (h, vars) :: l1) w = run_chain exec (l ++ (h, vars) :: l2) w.
Proof.
  intro Hx. revert w; induction l as [|[h' vars'] l IH]; intro w; simpl.
  - specialize (Hx w). destruct (exec h vars w) as [w' []]; simpl in *; try discriminate.
    injection Hx as ->. reflexivity.
  - destruct (exec h' vars' w) as [w' [[]|]]; auto.
Qed.
Lemma run_chain_all_next l w :
  (forall h vars w, snd (exec h vars w) = Done FNext) ->
  run_chain exec l w = (fold_left (fun w c => fst (exec (fst c) (snd c) w)) l w, Done tt).
Proof.
  intro Hx. revert w; induction l as [|[h vars] l IH]; intro w; simpl; auto.
  specialize (Hx h vars w). destruct (exec h vars w) as [w' []]; simpl in *; try discriminate.
  injection Hx as ->. apply IH.
Qed.
End Build.
