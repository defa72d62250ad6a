(** Routers whose fields the application changes (C146). *)
From Coq Require Import Sorting.Sorted.
From Verif.Model Require Export RustStd Path Request Router Edit.
From Verif.Spec Require Import Common PathSpec RouteSpec RoutingSpec EditSpec.
From Verif.Proofs Require Import RouterProofs.

Local Arguments N.add : simpl never.
Local Arguments N.max : simpl never.
Local Arguments method_eqb : simpl never.

(** ** What a router holds *)
Section Holds.
Context {H : Type}.
Notation cl := (closures H).

Definition route1 (m : method) (i : item H) : list (pathdata cl) :=
  match i with IRoute m' pat h n => if method_eqb m m' then [PathData pat (Closures h n)] else [] | IAdd _ _ => [] end.
Definition routes_of (m : method) (L : list (item H)) : list (pathdata cl) := flat_map (route1 m) L.
Definition add1 (i : item H) : list cl := match i with IAdd h n => [Closures h n] | IRoute _ _ _ _ => [] end.
Definition adds_of (L : list (item H)) : list cl := flat_map add1 L.
Definition item_ok (i : item H) : Prop := match i with IRoute _ pat _ _ => Forall nonempty pat | IAdd _ _ => True end.

Record einv (r : router H) (s : N * list (item H)) : Prop := {
  ei_counter : route_counter r = fst s;
  ei_mw : middlewares r = adds_of (snd s);
  ei_nodup : NoDup (map fst (paths r));
  ei_tables : forall m, table_ok (mget method_eqb m (paths r)) (routes_of m (snd s));
  ei_ok : Forall item_ok (snd s)
}.
Lemma einv_new : einv router_new (0%N, []).
Proof. constructor; simpl; auto; constructor. Qed.
Lemma routes_app m L L' : routes_of m (L ++ L') = routes_of m L ++ routes_of m L'.
Proof. apply flat_map_app. Qed.
Lemma adds_app L L' : adds_of (L ++ L') = adds_of L ++ adds_of L'.
Proof. apply flat_map_app. Qed.

Lemma mget_set_m m m' (v : pathnode cl) t :
  mget method_eqb m (mset method_eqb m' v t) = if method_eqb m m' then Some v else mget method_eqb m t.
Proof. apply (mget_mset method_eqb method_eqb_eq). Qed.
Lemma einv_weaken r s m :
  einv r s -> einv (Router (route_counter r) (middlewares r)
    (mset method_eqb m (match mget method_eqb m (paths r) with Some n => n | None => node_new end) (paths r))) s.
Proof.
  intros [I1 I2 I3 I4 I5]. constructor; simpl; auto.
  - apply (mset_NoDup method_eqb method_eqb_eq); auto.
  - intro m'. rewrite mget_set_m. destruct (method_eqb_spec m' m) as [->|Hm]; auto.
    specialize (I4 m). destruct (mget method_eqb m (paths r)); auto. simpl in *.
    rewrite I4. exists []. split; [apply represents_new|auto].
Qed.
Lemma add_usize_inv a b c : add_usize a b = Done c -> c = (a + b)%N /\ (a + b <= USIZE_MAX)%N.
Proof. unfold add_usize. destruct (N.leb_spec (a + b) USIZE_MAX); intro E; [injection E as <-; auto|discriminate]. Qed.
Lemma method_of_verb v : verb_method v = method_of v.
Proof. destruct v; reflexivity. Qed.

Lemma register_holds r s c r' s' : einv r s -> registers s c s' -> apply_rreg r c = Done r' -> einv r' s'.
Proof.
  intros I R E. destruct R as [n L v p pat h Hp|n L v p h Hp|n L h]; simpl in E.
  - apply path_means_parse in Hp. unfold router_route, inject_method in E. rewrite Hp in E. rewrite method_of_verb in E.
    set (m := method_of v) in *. set (node := match mget method_eqb m (paths r) with Some n => n | None => node_new end) in *.
    pose proof (einv_weaken r _ m I) as I'. fold node in I'. destruct I' as [I1 I2 I3 I4 I5]. simpl in *.
    pose proof (I4 m) as Hm. rewrite mget_set_m, (proj2 (method_eqb_eq m m) eq_refl) in Hm. simpl in Hm. destruct Hm as (log' & Hr & HP).
    pose proof (parse_nonempty _ _ Hp) as HN.
    destruct (insert_represents node log' pat (Closures h (route_counter r)) Hr HN) as (n' & Hn & Hr').
    rewrite Hn in E. cbn [obind] in E. destruct (add_usize (route_counter r) 1) as [k|] eqn:Ea; [|discriminate].
    apply add_usize_inv in Ea as [-> _]. cbn [obind omap fst] in E. injection E as <-. clearbody node m. constructor; simpl.
    + rewrite I1. reflexivity.
    + rewrite adds_app. simpl. rewrite app_nil_r. auto.
    + apply (mset_NoDup method_eqb method_eqb_eq); auto.
    + intro m'. specialize (I4 m'). rewrite mget_set_m in I4. rewrite mget_set_m, routes_app.
      change (routes_of m' [IRoute m pat h n]) with ((if method_eqb m' m then [PathData pat (Closures h n)] else []) ++ []). rewrite app_nil_r.
      destruct (method_eqb_spec m' m) as [Em|Hne].
      * rewrite Em. simpl. eexists. split; [exact Hr'|]. rewrite I1. apply Permutation_app; auto.
      * rewrite app_nil_r, mget_set_m. destruct (method_eqb_spec m' m); [contradiction|]. exact I4.
    + apply Forall_app. split; auto.
  - unfold router_route, inject_method in E. destruct (path_parse p) as [pat|] eqn:Ep.
    + exfalso. apply (Hp pat). apply path_means_parse; auto.
    + cbn [omap fst] in E. injection E as <-. apply einv_weaken; auto.
  - unfold router_add in E. destruct I as [I1 I2 I3 I4 I5]. simpl in *.
    destruct (add_usize (route_counter r) 1) as [k|] eqn:Ea; [|discriminate]. apply add_usize_inv in Ea as [-> _].
    cbn [obind omap fst] in E. injection E as <-. constructor; simpl; auto.
    + rewrite I1. reflexivity.
    + rewrite adds_app, I1, I2. reflexivity.
    + intro m. rewrite routes_app. simpl. rewrite app_nil_r. auto.
    + apply Forall_app. split; auto. constructor; [exact Logic.I|constructor].
Qed.

Lemma kept_ok P (L kept : list (item H)) : selects P L kept -> Forall item_ok L -> Forall item_ok kept.
Proof. induction 1; intro F; inversion F; subst; auto. Qed.
Lemma kept_not_adds (L kept : list (item H)) : selects (fun i => ~ for_all i) L kept ->
  adds_of kept = [] /\ forall m, routes_of m kept = routes_of m L.
Proof.
  induction 1 as [|i L kept Hi _ [IH1 IH2]|i L kept Hi _ [IH1 IH2]]; auto.
  - destruct i as [m' pat h n|h n]; [|exfalso; apply Hi; exact Logic.I]. split; auto. intro m. unfold routes_of in *. simpl. rewrite IH2. reflexivity.
  - destruct i as [m' pat h n|h n]; [exfalso; apply Hi; simpl; auto|]. auto.
Qed.
Lemma kept_not_under m (L kept : list (item H)) : selects (fun i => ~ under m i) L kept ->
  adds_of kept = adds_of L /\ forall m', routes_of m' kept = if method_eqb m' m then [] else routes_of m' L.
Proof.
  induction 1 as [|i L kept Hi _ [IH1 IH2]|i L kept Hi _ [IH1 IH2]].
  - split; auto. intro m'. destruct (method_eqb m' m); reflexivity.
  - destruct i as [m1 pat h n|h n].
    + split; auto. intro m'. unfold routes_of in *. simpl. rewrite IH2. destruct (method_eqb_spec m' m) as [->|]; auto.
      rewrite app_nil_r. destruct (method_eqb_spec m m1) as [<-|]; auto. exfalso. apply Hi. reflexivity.
    + split; [unfold adds_of in *; simpl; rewrite IH1; reflexivity|]. exact IH2.
  - destruct i as [m1 pat h n|h n]; [|exfalso; apply Hi; simpl; auto].
    assert (m1 = m) as ->. { destruct (method_eqb_spec m1 m); auto. exfalso. apply Hi. simpl. auto. }
    split; auto. intro m'. rewrite IH2. unfold routes_of. simpl. destruct (method_eqb m' m); reflexivity.
Qed.
Lemma adds_closures (l : list cl) : adds_of (map of_closures l) = l.
Proof. induction l as [|[h n] l IH]; simpl; auto. f_equal. exact IH. Qed.
Lemma adds_entries m (l : list (pathdata cl)) : adds_of (map (of_entry m) l) = [].
Proof. induction l as [|d l IH]; simpl; auto. Qed.
Lemma routes_closures m (l : list cl) : routes_of m (map of_closures l) = [].
Proof. induction l as [|d l IH]; simpl; auto. Qed.
Lemma routes_entries m m' (l : list (pathdata cl)) : routes_of m' (map (of_entry m) l) = if method_eqb m' m then l else [].
Proof.
  unfold routes_of. induction l as [|[pat [h n]] l IH]; simpl; [destruct (method_eqb m' m); auto|].
  rewrite IH. destruct (method_eqb m' m); reflexivity.
Qed.

Lemma edit_holds r s e r' s' : einv r s -> changes s e s' -> apply_edit r e = Done r' -> einv r' s'.
Proof.
  intros I C E. destruct C as [s c s' R|n L n'|n L l kept K|n L m l kept K F|n L m kept K]; cbn [apply_edit] in E.
  - eapply register_holds; eauto.
  - injection E as <-. destruct I as [I1 I2 I3 I4 I5]. constructor; auto.
  - injection E as <-. destruct I as [I1 I2 I3 I4 I5]. destruct (kept_not_adds _ _ K) as [K1 K2]. constructor; cbn [fst snd route_counter middlewares paths] in *; auto.
    + rewrite adds_app, K1, adds_closures. reflexivity.
    + intro m. rewrite routes_app, K2, routes_closures, app_nil_r. auto.
    + apply Forall_app. split; [eapply kept_ok; eauto|]. clear. induction l; constructor; auto. exact Logic.I.
  - assert (F' : Forall (@seg_ok cl) l).
    { eapply Forall_impl; [|exact F]. intros d Hd. unfold seg_ok. eapply Forall_impl; [|exact Hd]. intros x (Hx & _). exact Hx. }
    destruct (table_exists l F') as (n' & E' & Hr). rewrite E' in E. cbn [omap] in E. injection E as <-.
    destruct I as [I1 I2 I3 I4 I5]. destruct (kept_not_under _ _ _ K) as [K1 K2]. constructor; cbn [fst snd route_counter middlewares paths] in *; auto.
    + rewrite adds_app, K1, adds_entries, app_nil_r. auto.
    + apply (mset_NoDup method_eqb method_eqb_eq); auto.
    + intro m'. rewrite mget_set_m, routes_app, K2, routes_entries. destruct (method_eqb_spec m' m) as [->|]; simpl.
      * eexists. split; [exact Hr|]. reflexivity.
      * rewrite app_nil_r. auto.
    + apply Forall_app. split; [eapply kept_ok; eauto|]. clear - F'. induction F'; constructor; auto.
  - injection E as <-. destruct I as [I1 I2 I3 I4 I5]. destruct (kept_not_under _ _ _ K) as [K1 K2]. constructor; cbn [fst snd route_counter middlewares paths] in *; auto.
    + rewrite K1. auto.
    + apply mremove_NoDup; auto.
    + intro m'. rewrite (mget_mremove method_eqb method_eqb_eq) by auto. rewrite K2. destruct (method_eqb m' m); simpl; auto.
    + eapply kept_ok; eauto.
Qed.
Lemma edits_hold l : forall r s r' s', einv r s -> edits_to s l s' -> apply_edits r l = Done r' -> einv r' s'.
Proof.
  induction l as [|e l IH]; intros r s r' s' I C E; inversion C; subst; cbn [apply_edits] in E.
  - injection E as <-. auto.
  - destruct (apply_edit r e) as [r1|] eqn:E1; [|discriminate]. cbn [obind] in E. eapply IH; [eapply edit_holds|..]; eauto.
Qed.

(** ** Mounting *)
Lemma omapM_done {A C} (f : A -> outcome C) l l' : omapM f l = Done l' -> forall x, In x l -> exists y, f x = Done y.
Proof.
  revert l'. induction l as [|a l IH]; intros l' E x Hx; [contradiction|]. cbn [omapM] in E.
  destruct (f a) as [b|] eqn:Ea; [|discriminate]. cbn [obind] in E. destruct (omapM f l) as [bs|] eqn:El; [|discriminate].
  destruct Hx as [->|Hx]; eauto.
Qed.
Lemma shift_closure_done k (c c' : cl) : shift_closure k c = Done c' -> (index c + k <= USIZE_MAX)%N.
Proof.
  unfold shift_closure. destruct (add_usize (index c) k) as [n|] eqn:E; [|discriminate]. apply add_usize_inv in E. intro. lia.
Qed.
Lemma append_paths_fits o pos k0 others : forall k (self res : list (method * pathnode cl)),
  append_paths o pos k k0 self others = Done res ->
  forall m n log d, In (m, n) others -> represents n log -> In d log -> (index (data d) + k0 <= USIZE_MAX)%N.
Proof.
  induction others as [|[m0 n0] others IH]; intros k self res E m n log d Hin Hr Hd; [contradiction|].
  cbn [append_paths] in E. destruct (into_list_perm o (pos ++ [1; k]) n0) as (l & El & HPl). rewrite El in E. cbn [obind] in E.
  destruct (omapM (shift_entry k0) l) as [u|] eqn:Eu; [|discriminate]. cbn [obind] in E.
  destruct (match mget method_eqb m0 self with Some x => node_extend x u | None => node_from_iter u end) as [node'|]; [|discriminate].
  cbn [obind] in E. destruct Hin as [Ein|Hin]; [|eapply IH; eauto]. injection Ein as <- <-.
  destruct (omapM_done _ _ _ Eu d) as (y & Ey).
  - eapply Permutation_in; [symmetry; exact HPl|]. destruct Hr as (_ & _ & _ & Hen). eapply Permutation_in; [symmetry; exact Hen|]. exact Hd.
  - unfold shift_entry in Ey. destruct (shift_closure k0 (data d)) as [c'|] eqn:Es; [|discriminate]. eapply shift_closure_done; eauto.
Qed.
Lemma routes_later m k L : routes_of m (map (later k) L) = map (shift_d k) (routes_of m L).
Proof.
  unfold routes_of. induction L as [|[m' pat h n|h n] L IH]; simpl; auto. rewrite map_app, IH. destruct (method_eqb m m'); reflexivity.
Qed.
Lemma adds_later k L : adds_of (map (later k) L) = map (shift_c k) (adds_of L).
Proof. unfold adds_of. induction L as [|[m' pat h n|h n] L IH]; simpl; auto. rewrite IH. reflexivity. Qed.

Lemma append_holds o pos r n L r2 n2 L2 r' : einv r (n, L) -> einv r2 (n2, L2) -> router_append o pos r r2 = Done r' ->
  einv r' ((n + n2)%N, L ++ map (later n) L2).
Proof.
  intros [I1 I2 I3 I4 I5] [J1 J2 J3 J4 J5] E. cbn [fst snd] in *. unfold router_append in E.
  pose proof (ord_perm o (pos ++ [0]) _ (paths r2)) as HPo.
  set (others := ord_fn o (pos ++ [0]) _ (paths r2)) in *.
  assert (NDo : NoDup (map fst others)).
  { eapply Permutation_NoDup; [|exact J3]. apply Permutation_map. symmetry; auto. }
  assert (Hrep : forall m n, In (m, n) others -> exists log', represents n log' /\ Permutation log' (routes_of m L2)).
  { intros m nd Hin. specialize (J4 m). rewrite (In_mget method_eqb method_eqb_eq m nd (paths r2) J3) in J4; auto.
    eapply Permutation_in; eauto. }
  destruct (append_paths o pos 0 (route_counter r) (paths r) others) as [res|] eqn:Ep; [|discriminate]. cbn [obind] in E.
  pose (g := fun m => if existsb (method_eqb m) (map fst others) then routes_of m L2 else []).
  assert (Hg : forall m, g m = routes_of m L2).
  { intro m. unfold g. destruct (existsb (method_eqb m) (map fst others)) eqn:Ex; auto.
    assert (Hn : mget method_eqb m (paths r2) = None).
    { apply (mget_None method_eqb method_eqb_eq). intro Hin.
      assert (In m (map fst others)) as Hin2.
      { eapply Permutation_in; [|exact Hin]. apply Permutation_map. symmetry; auto. }
      rewrite <- not_true_iff_false in Ex. apply Ex. apply existsb_exists. exists m. split; auto. apply method_eqb_eq; auto. }
    specialize (J4 m). rewrite Hn in J4. simpl in J4. auto. }
  destruct (append_paths_spec o pos (route_counter r) (fun m => routes_of m L) g others NDo) with (k := 0) (self := paths r)
    as (res' & R1 & R2 & R3); auto.
  - intros m nd Hin. rewrite Hg. auto.
  - intros m d Hd. unfold g in Hd. destruct (existsb (method_eqb m) (map fst others)) eqn:Ex; [|contradiction].
    apply existsb_exists in Ex as (m2 & Hm2 & Em). apply method_eqb_eq in Em as <-. apply in_map_iff in Hm2 as ((m2 & nd) & Em2 & Hin).
    cbn [fst] in Em2. subst m2. destruct (Hrep m nd Hin) as (log' & Hr & HP).
    eapply append_paths_fits; eauto. eapply Permutation_in; [symmetry; exact HP|]. exact Hd.
  - rewrite Ep in R1. injection R1 as <-.
    destruct (omapM (shift_closure (route_counter r)) (middlewares r2)) as [mws|] eqn:Em; [|discriminate]. cbn [obind] in E.
    destruct (add_usize (route_counter r) (route_counter r2)) as [c|] eqn:Ec; [|discriminate]. cbn [obind] in E.
    apply add_usize_inv in Ec as [-> _]. injection E as <-.
    rewrite (omapM_all _ (shift_c (route_counter r))) in Em.
    2:{ intros d Hd. destruct (omapM_done _ _ _ Em d Hd) as (y & Ey). apply shift_closure_ok. eapply shift_closure_done; eauto. }
    injection Em as <-. constructor; cbn [fst snd route_counter middlewares paths]; auto.
    + congruence.
    + rewrite adds_app, adds_later, I1, I2, J2. reflexivity.
    + intro m. specialize (R3 m). rewrite routes_app, routes_later, <- Hg, <- I1.
      destruct (existsb (method_eqb m) (map fst others)) eqn:Ex; auto. unfold g. rewrite Ex. exact R3.
    + apply Forall_app. split; auto. clear - J5. induction J5 as [|i L Hi _ IH]; constructor; auto. destruct i; auto.
Qed.

Lemma build_from_holds o l : forall k r s r' s', einv r s -> builds s l s' -> build_edited_from o k r l = Done r' -> einv r' s'.
Proof.
  induction l as [|e l IH]; intros k r s r' s' I C E; inversion C; subst; cbn [build_edited_from apply_oedit] in E.
  - injection E as <-. auto.
  - destruct (apply_rreg r c) as [r1|] eqn:E1; [|discriminate]. cbn [obind] in E. eapply IH; [eapply register_holds|..]; eauto.
  - destruct (apply_edits router_new es) as [sub|] eqn:E1; [|discriminate]. cbn [obind] in E.
    destruct (router_append o [k] r sub) as [r1|] eqn:E2; [|discriminate].
    apply (IH (S k) r1 ((n + n')%N, L ++ map (later n) L')); auto. apply (append_holds o [k] r n L sub n' L'); auto.
    apply (edits_hold es router_new (0%N, [])); auto. apply einv_new.
Qed.
Lemma build_holds o l r s : builds (0%N, []) l s -> build_edited o l = Done r -> einv r s.
Proof. intros C E. eapply build_from_holds; eauto. apply einv_new. Qed.
End Holds.

(** ** Taking turns *)
Section Turns.
Context {H : Type}.
Notation cl := (closures H).
Notation mp := (matchedpath cl).

(** The head of a list, if there is one, is not before (or is behind) an index. *)
Definition head_ge (n : N) (l : list mp) : Prop := match l with [] => True | x :: _ => (n <= idx x)%N end.
Definition head_gt (n : N) (l : list mp) : Prop := match l with [] => True | x :: _ => (n < idx x)%N end.
(** What the loop of [Router::run] does with the lists: it takes the first of the least heads. *)
Inductive merges : list (list mp) -> list mp -> Prop :=
| me_nil : forall Ls, Forall (fun l => l = []) Ls -> merges Ls []
| me_cons : forall L1 x l L2 S, Forall (head_gt (idx x)) L1 -> Forall (head_ge (idx x)) L2 ->
    merges (L1 ++ l :: L2) S -> merges (L1 ++ (x :: l) :: L2) (x :: S).

Lemma least_head (Ls : list (list mp)) : Forall (fun l => l = []) Ls \/
  exists L1 x l L2, Ls = L1 ++ (x :: l) :: L2 /\ Forall (head_gt (idx x)) L1 /\ Forall (head_ge (idx x)) L2.
Proof.
  induction Ls as [|l0 Ls [IH|(L1 & x & l & L2 & -> & IH1 & IH2)]].
  - left. constructor.
  - destruct l0 as [|y l0]; [left; constructor; auto|]. right. exists [], y, l0, Ls. repeat split; auto.
    eapply Forall_impl; [|exact IH]. intros a ->. exact Logic.I.
  - right. destruct l0 as [|y l0].
    + exists ([] :: L1), x, l, L2. repeat split; auto. constructor; auto. exact Logic.I.
    + destruct (N.ltb_spec (idx x) (idx y)) as [Lt|Le].
      * exists ((y :: l0) :: L1), x, l, L2. repeat split; auto.
      * exists [], y, l0, (L1 ++ (x :: l) :: L2). repeat split; auto.
        apply Forall_app. split; [|constructor].
        -- eapply Forall_impl; [|exact IH1]. intros [|z a]; simpl; auto. lia.
        -- exact Le.
        -- eapply Forall_impl; [|exact IH2]. intros [|z a]; simpl; auto. lia.
Qed.
Lemma merges_exists n : forall Ls, list_sum (map (@length mp) Ls) = n -> exists S, merges Ls S /\ length S = n.
Proof.
  induction n as [|n IH]; intros Ls E.
  - exists []. split; auto. constructor. clear - E. induction Ls as [|l Ls IH]; constructor; simpl in E.
    + destruct l; auto. simpl in E. lia.
    + apply IH. lia.
  - destruct (least_head Ls) as [F|(L1 & x & l & L2 & -> & F1 & F2)].
    + exfalso. clear - E F. induction F as [|l Ls -> _ IH]; simpl in E; [discriminate|auto].
    + rewrite map_app, list_sum_app in E. cbn [map list_sum fold_right length] in E.
      destruct (IH (L1 ++ l :: L2)) as (S & M & E').
      * rewrite map_app, list_sum_app. cbn [map list_sum fold_right]. change (fold_right Nat.add 0 (map (length (A:=mp)) L2)) with (list_sum (map (@length mp) L2)) in *. lia.
      * exists (x :: S). split; [constructor; auto|simpl; auto].
Qed.

Context {W : Type} (exec : H -> varmap -> W -> W * outcome flow).
Definition left_of (M : list (list mp)) (I : list nat) : list (list mp) := map (fun vi => skipn (snd vi) (fst vi)) (combine M I).
Lemma left_split M : forall I L1 x l L2, length I = length M -> left_of M I = L1 ++ (x :: l) :: L2 ->
  exists M1 I1 v i M2 I2, M = M1 ++ v :: M2 /\ I = I1 ++ i :: I2 /\ length I1 = length M1 /\
    left_of M1 I1 = L1 /\ left_of M2 I2 = L2 /\ nth_error v i = Some x /\ skipn (S i) v = l.
Proof.
  induction M as [|v M IH]; intros [|i I] L1 x l L2 HL E; try discriminate; unfold left_of in *; cbn [combine map] in E.
  - destruct L1; discriminate.
  - cbn [fst snd] in E. destruct L1 as [|l1 L1].
    + cbn [List.app] in E. injection E as E1 E2. exists [], [], v, i, M, I. repeat split; auto.
      * clear - E1. revert v E1. induction i as [|i IH]; intros [|a v] E1; simpl in *; try discriminate; [injection E1 as -> _; auto|auto].
      * clear - E1. revert v E1. induction i as [|i IH]; intros [|a v] E1; simpl in *; try discriminate; [injection E1 as _ ->; auto|]. destruct v as [|b v]; [destruct i; discriminate|]. exact (IH (b :: v) E1).
    + cbn [List.app] in E. injection E as E1 E2. destruct (IH I L1 x l L2) as (M1 & I1 & v' & i' & M2 & I2 & -> & -> & A1 & A2 & A3 & A4 & A5); auto.
      exists (v :: M1), (i :: I1), v', i', M2, I2. cbn [combine map List.app length fst snd]. rewrite A2, E1. repeat split; auto.
Qed.
Lemma heads_gt n (M : list (list mp)) I : Forall (head_gt n) (left_of M I) ->
  forall v i y, In (v, i) (combine M I) -> nth_error v i = Some y -> (n < idx y)%N.
Proof.
  unfold left_of. intros F v i y Hin E. rewrite Forall_map, Forall_forall in F. specialize (F _ Hin). cbn [fst snd] in F.
  rewrite (skipn_nth _ _ _ E) in F. exact F.
Qed.
Lemma heads_ge n (M : list (list mp)) I : Forall (head_ge n) (left_of M I) ->
  forall v i y, In (v, i) (combine M I) -> nth_error v i = Some y -> (n <= idx y)%N.
Proof.
  unfold left_of. intros F v i y Hin E. rewrite Forall_map, Forall_forall in F. specialize (F _ Hin). cbn [fst snd] in F.
  rewrite (skipn_nth _ _ _ E) in F. exact F.
Qed.
Lemma run_merges ft S : forall M I w, length I = length M -> merges (left_of M I) S -> Forall (fun x => (idx x < USIZE_MAX)%N) S ->
  run_loop exec ft (length S) M I w = run_chain exec (map (call_of ft) S) w.
Proof.
  induction S as [|x S IH]; intros M I w HL HM HB; [reflexivity|].
  inversion HM as [|L1 x0 l L2 S0 F1 F2 HM' EL]; subst. symmetry in EL.
  destruct (left_split M I L1 x l L2 HL EL) as (M1 & I1 & v & i & M2 & I2 & EM & EI & A1 & A2 & A3 & A4 & A5).
  inversion HB as [|? ? Hx HB']; subst.
  assert (Hmin : find_min 0 0 USIZE_MAX (combine (M1 ++ v :: M2) (I1 ++ i :: I2)) = length M1).
  { assert (Ec : combine (M1 ++ v :: M2) (I1 ++ i :: I2) = combine M1 I1 ++ (v, i) :: combine M2 I2).
    { clear - A1. revert I1 A1. induction M1 as [|a M1 IH]; intros [|b I1] A1; try discriminate; simpl; auto. rewrite IH; auto. }
    rewrite Ec, (find_min_at _ _ _ _ _ _ x); auto.
    - rewrite combine_length, A1. lia.
    - apply heads_gt. exact F1.
    - apply heads_ge. exact F2. }
  cbn [length run_loop]. rewrite Hmin.
  rewrite nth_error_app2 by lia. rewrite Nat.sub_diag. cbn [nth_error].
  rewrite nth_error_app2 by lia. rewrite A1, Nat.sub_diag. cbn [nth_error]. rewrite A4.
  cbn [map]. unfold call_of at 1. cbn [run_chain].
  destruct (exec (closure (mp_data x)) (if url_variables ft then mp_vars x else []) w) as [w' [[]|]]; auto.
  cbn [should_continue]. apply IH; auto.
  - rewrite incr_at_length. exact HL.
  - unfold left_of. rewrite combine_split_incr by auto. rewrite map_app. exact HM'.
Qed.

(** The three lists: routes of the method, routes of all methods, handlers for every request. *)
Definition optional (L : list (list mp)) (A : list mp) : Prop := L = [A] \/ (L = [] /\ A = []).
Definition key := (N * nat * mp)%type.
Definition before (a b : key) : Prop := (fst (fst a) < fst (fst b))%N \/ (fst (fst a) = fst (fst b) /\ snd (fst a) <= snd (fst b)).
Definition keyed (p : nat) (l : list mp) : list key := map (fun x => (idx x, p, x)) l.
Fixpoint queued (g : N) (l : list mp) : list key :=
  match l with [] => [] | x :: r => (N.max g (idx x), 2, x) :: queued (N.max g (idx x)) r end.
Lemma queued_ge l : forall g, Forall (fun k : key => (g <= fst (fst k))%N /\ snd (fst k) = 2) (queued g l).
Proof.
  induction l as [|x l IH]; intro g; constructor; [cbn; lia|]. eapply Forall_impl; [|apply IH]. intros [[n p] y] (A & A'). cbn in *. lia.
Qed.
Lemma split_three (L1 L2 L1' L2' : list (list mp)) (A Bl C x : list mp) : optional L1 A -> optional L2 Bl ->
  L1 ++ L2 ++ [C] = L1' ++ x :: L2' ->
  (x = A /\ L1 = [A] /\ L1' = [] /\ L2' = L2 ++ [C]) \/ (x = Bl /\ L2 = [Bl] /\ L1' = L1 /\ L2' = [C]) \/ (x = C /\ L1' = L1 ++ L2 /\ L2' = []).
Proof.
  intros [->|[-> ->]] [->|[-> ->]] E; cbn [List.app] in *;
  repeat (destruct L1' as [|? L1']; cbn [List.app] in E; [injection E as <- <-; auto 10|injection E as <- E]); try (destruct L1'; discriminate E).
Qed.
Lemma take_turns Ls S : merges Ls S -> forall L1 L2 A Bl C g, optional L1 A -> optional L2 Bl -> Ls = L1 ++ L2 ++ [C] ->
  StronglySorted le_idx A -> StronglySorted le_idx Bl ->
  (forall x, In x A \/ In x Bl -> (g = 0 \/ g < idx x)%N) ->
  exists T, map snd T = S /\ Permutation T (keyed 0 A ++ keyed 1 Bl ++ queued g C) /\ StronglySorted before T /\
    selects (fun k : key => snd (fst k) = 2) T (queued g C).
Proof.
  induction 1 as [Ls F|L1' x l L2' S F1 F2 M IH]; intros L1 L2 A Bl C g O1 O2 EL SA SB G.
  - subst Ls. rewrite !Forall_app in F. destruct F as (FA & FB & FC). inversion FC as [|? ? -> _]; subst.
    assert (A = []) as -> by (destruct O1 as [->|[_ ->]]; auto; inversion FA; auto).
    assert (Bl = []) as -> by (destruct O2 as [->|[_ ->]]; auto; inversion FB; auto).
    exists []. repeat split; constructor.
  - symmetry in EL. destruct (split_three _ _ _ _ _ _ _ _ O1 O2 EL) as [(EA & -> & -> & ->)|[(EB & -> & -> & ->)|(EC & -> & ->)]]; clear EL.
    + subst A. inversion SA as [|? ? SA' FA]; subst.
      destruct (IH [l] L2 l Bl C g) as (T & T1 & T2 & T3 & T4); auto.
      { left; auto. }
      { intros y [Hy|Hy]; apply G; auto. left. right. auto. }
      exists ((idx x, 0, x) :: T). split; [cbn; f_equal; auto|]. split; [cbn; constructor; auto|]. split.
      * constructor; auto. apply Forall_forall. intros [[n p] y] Hy. apply (Permutation_in _ T2) in Hy.
        apply in_app_or in Hy as [Hy|Hy]; [|apply in_app_or in Hy as [Hy|Hy]]; unfold before; cbn [fst snd].
        -- apply in_map_iff in Hy as (z & E & Hz). injection E as <- <- <-. rewrite Forall_forall in FA. specialize (FA _ Hz). unfold le_idx in FA. lia.
        -- apply in_map_iff in Hy as (z & E & Hz). injection E as <- <- <-. apply Forall_app in F2 as [F2 _].
           destruct O2 as [->|[_ ->]]; [|contradiction]. inversion F2 as [|? ? Hh _]; subst. destruct Bl as [|b Bl]; [contradiction|].
           inversion SB as [|? ? _ FB]; subst. cbn in Hh. destruct Hz as [<-|Hz]; [lia|]. rewrite Forall_forall in FB. specialize (FB _ Hz). unfold le_idx in FB. lia.
        -- apply Forall_app in F2 as [_ F2]. inversion F2 as [|? ? Hh _]; subst. destruct C as [|c C]; [contradiction|]. cbn in Hh.
           cbn [queued] in Hy. destruct Hy as [E|Hy]; [injection E as <- <- <-; lia|].
           pose proof (queued_ge C (N.max g (idx c))) as Q. rewrite Forall_forall in Q. specialize (Q _ Hy). cbn in Q. lia.
      * apply sel_no; auto.
    + subst Bl. inversion SB as [|? ? SB' FB]; subst.
      destruct (IH L1 [l] A l C g) as (T & T1 & T2 & T3 & T4); auto.
      { left; auto. }
      { intros y [Hy|Hy]; apply G; auto. right. right. auto. }
      exists ((idx x, 1, x) :: T). split; [cbn; f_equal; auto|]. split; [cbn; rewrite T2; apply Permutation_middle|]. split.
      * constructor; auto. apply Forall_forall. intros [[n p] y] Hy. apply (Permutation_in _ T2) in Hy.
        apply in_app_or in Hy as [Hy|Hy]; [|apply in_app_or in Hy as [Hy|Hy]]; unfold before; cbn [fst snd].
        -- apply in_map_iff in Hy as (z & E & Hz). injection E as <- <- <-.
           destruct O1 as [->|[_ ->]]; [|contradiction]. inversion F1 as [|? ? Hh _]; subst. destruct A as [|a A]; [contradiction|].
           inversion SA as [|? ? _ FA]; subst. cbn in Hh. destruct Hz as [<-|Hz]; [lia|]. rewrite Forall_forall in FA. specialize (FA _ Hz). unfold le_idx in FA. lia.
        -- apply in_map_iff in Hy as (z & E & Hz). injection E as <- <- <-. rewrite Forall_forall in FB. specialize (FB _ Hz). unfold le_idx in FB. lia.
        -- inversion F2 as [|? ? Hh _]; subst. destruct C as [|c C]; [contradiction|]. cbn in Hh.
           cbn [queued] in Hy. destruct Hy as [E|Hy]; [injection E as <- <- <-; lia|].
           pose proof (queued_ge C (N.max g (idx c))) as Q. rewrite Forall_forall in Q. specialize (Q _ Hy). cbn in Q. lia.
      * apply sel_no; auto.
    + subst C. apply Forall_app in F1 as [FA FB].
      assert (GA : forall y, In y A \/ In y Bl -> (idx x < idx y)%N).
      { intros y [Hy|Hy].
        - destruct O1 as [->|[_ ->]]; [|contradiction]. inversion FA as [|? ? Hh _]; subst. destruct A as [|a A]; [contradiction|].
          inversion SA as [|? ? _ FA']; subst. cbn in Hh. destruct Hy as [<-|Hz]; [lia|]. rewrite Forall_forall in FA'. specialize (FA' _ Hz). unfold le_idx in FA'. lia.
        - destruct O2 as [->|[_ ->]]; [|contradiction]. inversion FB as [|? ? Hh _]; subst. destruct Bl as [|a Bl]; [contradiction|].
          inversion SB as [|? ? _ FB']; subst. cbn in Hh. destruct Hy as [<-|Hz]; [lia|]. rewrite Forall_forall in FB'. specialize (FB' _ Hz). unfold le_idx in FB'. lia. }
      destruct (IH L1 L2 A Bl l (N.max g (idx x))) as (T & T1 & T2 & T3 & T4); auto.
      { rewrite <- app_assoc. reflexivity. }
      { intros y Hy. pose proof (GA y Hy). pose proof (G y Hy). lia. }
      exists ((N.max g (idx x), 2, x) :: T). split; [cbn; f_equal; auto|]. split.
      { cbn [queued]. rewrite app_assoc in *. rewrite T2. apply Permutation_middle. }
      split.
      * constructor; auto. apply Forall_forall. intros [[n p] y] Hy. apply (Permutation_in _ T2) in Hy.
        apply in_app_or in Hy as [Hy|Hy]; [|apply in_app_or in Hy as [Hy|Hy]]; unfold before; cbn [fst snd].
        -- apply in_map_iff in Hy as (z & E & Hz). injection E as <- <- <-. pose proof (GA z (or_introl Hz)). pose proof (G z (or_introl Hz)). lia.
        -- apply in_map_iff in Hy as (z & E & Hz). injection E as <- <- <-. pose proof (GA z (or_intror Hz)). pose proof (G z (or_intror Hz)). lia.
        -- pose proof (queued_ge l (N.max g (idx x))) as Q. rewrite Forall_forall in Q. specialize (Q _ Hy). cbn in Q. lia.
      * cbn [queued]. apply sel_yes; auto.
Qed.
End Turns.

(** ** Against the specification *)
Section Against.
Context {H : Type}.
Notation cl := (closures H).
Notation mp := (matchedpath cl).
Context (ft : features) (path : list str).

Definition shows (i : item H) : mp :=
  match i with
  | IRoute _ pat h n => MatchedPath (vars_of ft path pat) (Closures h n)
  | IAdd h n => MatchedPath [] (Closures h n)
  end.
Definition routed_b (m : method) (i : item H) : bool :=
  match i with IRoute m' pat _ _ => (method_eqb m m' || method_eqb MAll m') && match_b ft path pat | IAdd _ _ => false end.
Lemma routed_b_spec m i : item_ok i -> (routed_b m i = true <-> routed (url_variables ft) m path i).
Proof.
  destruct i as [m' pat h n|h n]; simpl; [|intuition discriminate]. intro Hok. rewrite andb_true_iff, orb_true_iff, !method_eqb_eq, match_b_spec by auto.
  intuition auto.
Qed.
Lemma select_routed m L : Forall item_ok L -> selects (routed (url_variables ft) m path) L (filter (routed_b m) L).
Proof.
  induction 1 as [|i L Hi _ IH]; simpl; [constructor|]. destruct (routed_b m i) eqn:E.
  - apply sel_yes; auto. apply routed_b_spec; auto.
  - apply sel_no; auto. rewrite <- (routed_b_spec m i Hi). congruence.
Qed.
Definition found (m : method) (L : list (item H)) : list mp :=
  map (mk ft path) (filter (fun d => match_b ft path (orig_path d)) (routes_of m L)).
Definition turned (k : N * nat * item H) : key := (fst k, shows (snd k)).

Lemma found_cons m i L : found m (i :: L) = found m [i] ++ found m L.
Proof. unfold found, routes_of. cbn [flat_map]. rewrite app_nil_r, filter_app, map_app. reflexivity. Qed.
Lemma found_turns m L : m <> MAll ->
  Permutation (keyed 0 (found m L) ++ keyed 1 (found MAll L)) (map turned (map (fun i => (turn_of_route i, i)) (filter (routed_b m) L))).
Proof.
  intro Hm. induction L as [|i L IH]; auto. rewrite (found_cons m), (found_cons MAll). unfold keyed in *. rewrite !map_app.
  destruct i as [m' pat h n|h n]; [|exact IH]. unfold found at 1 3, routes_of. cbn [flat_map route1 filter routed_b].
  destruct (method_eqb_spec m m') as [<-|Hne].
  - replace (method_eqb MAll m) with false by (symmetry; destruct (method_eqb_spec MAll m); congruence). cbn [orb andb List.app filter map orig_path].
    destruct (match_b ft path pat); cbn [map List.app]; [|exact IH].
    replace (turned (turn_of_route (IRoute m pat h n), IRoute m pat h n)) with (idx (mk ft path (PathData pat (Closures h n))), 0, mk ft path (PathData pat (Closures h n))).
    + constructor. exact IH.
    + unfold turned, turn_of_route. destruct m; try reflexivity. contradiction.
  - destruct (method_eqb_spec MAll m') as [<-|Hne2]; cbn [orb andb List.app filter map orig_path]; [|exact IH].
    destruct (match_b ft path pat); cbn [map List.app]; [|exact IH]. rewrite <- Permutation_middle. constructor. exact IH.
Qed.
Lemma queued_turns L : forall g, queued g (map (fun c : cl => MatchedPath [] c) (adds_of L)) = map turned (turns_of_handlers g L).
Proof.
  unfold adds_of. induction L as [|[m' pat h n|h n] L IH]; intro g; cbn [flat_map add1 List.app map queued turns_of_handlers]; auto. rewrite IH. reflexivity.
Qed.

Lemma sorted_back (T : list (N * nat * item H)) : StronglySorted before (map turned T) -> StronglySorted not_after T.
Proof.
  induction T as [|t T IH]; intro S; cbn [map] in S; inversion S as [|? ? S' F]; subst; constructor; auto.
  rewrite Forall_map in F. exact F.
Qed.
Definition proper (t : N * nat * item H) : Prop := match snd t with IRoute _ _ _ _ => snd (fst t) < 2 | IAdd _ _ => snd (fst t) = 2 end.
Lemma proper_route m i : routed (url_variables ft) m path i -> proper (turn_of_route i, i).
Proof. destruct i as [m' pat h n|h n]; [|contradiction]. intros _. unfold proper. cbn. destruct m'; cbn; lia. Qed.
Lemma proper_handlers L : forall g, Forall (fun t => proper t /\ for_all (snd t)) (turns_of_handlers g L).
Proof. induction L as [|[m' pat h n|h n] L IH]; intro g; cbn [turns_of_handlers]; auto. constructor; auto. split; cbn; auto. Qed.
Lemma turned_inj t t' : proper t -> for_all (snd t) -> proper t' -> for_all (snd t') -> turned t = turned t' -> t = t'.
Proof.
  destruct t as [[n p] [|h k]], t' as [[n' p'] [|h' k']]; cbn; try contradiction. intros _ _ _ _ E. unfold turned in E. cbn in E. congruence.
Qed.
Lemma selects_back T : Forall proper T -> forall Q, Forall (fun t => proper t /\ for_all (snd t)) Q ->
  selects (fun k : key => snd (fst k) = 2) (map turned T) (map turned Q) -> selects (fun t => for_all (snd t)) T Q.
Proof.
  induction 1 as [|t T Ht _ IH]; intros Q HQ HS; cbn [map] in HS.
  - inversion HS as [E1 E2| |]; subst. destruct Q; [constructor|discriminate].
  - inversion HS as [|? ? ? Hp HS' E1 E2|? ? ? Hp HS' E1 E2]; subst.
    + destruct Q as [|q Q]; [discriminate|]. cbn [map] in E2. injection E2 as E2 E3. subst. inversion HQ as [|? ? (Q1 & Q2) HQ']; subst.
      assert (Hf : for_all (snd t)). { unfold proper in Ht. destruct t as [[n p] [|h k]]; cbn in *; auto. lia. }
      assert (t = q) as ->. { apply turned_inj; auto. unfold turned. destruct t as [t1 t2], q as [q1 q2]. cbn in *. congruence. }
      apply sel_yes; auto.
    + apply sel_no; auto. intro Hf. apply Hp. unfold proper in Ht. destruct t as [[n p] [|h k]]; cbn in *; auto. contradiction.
Qed.

Lemma table_found (r : router H) s m : einv r s -> exists Ls A, table_matches ft r m path = Done Ls /\ optional Ls A /\
  StronglySorted le_idx A /\ Permutation A (found m (snd s)).
Proof.
  intros [I1 I2 I3 I4 I5]. unfold table_matches. specialize (I4 m).
  destruct (mget method_eqb m (paths r)) as [n|]; simpl in I4.
  - destruct I4 as (log' & Hr & HP). destruct (get_exact ft n log' path Hr) as (sh & G1 & G2).
    rewrite G1. cbn [omap]. eexists. exists (sort_by_index (map (mk ft path) sh)). split; [reflexivity|]. split; [left; auto|].
    split; [apply sort_sorted|]. rewrite sort_perm. unfold found. apply Permutation_map. rewrite G2.
    clear - HP. induction HP; simpl; auto.
    + destruct (match_b ft path (orig_path x)); auto.
    + destruct (match_b ft path (orig_path x)), (match_b ft path (orig_path y)); auto. apply perm_swap.
    + eapply Permutation_trans; eauto.
  - exists [], []. split; [reflexivity|]. split; [right; auto|]. split; [constructor|]. unfold found. rewrite I4. constructor.
Qed.
Lemma concat_optional (Ls : list (list mp)) A : optional Ls A -> concat Ls = A.
Proof. intros [->|[-> ->]]; simpl; auto. apply app_nil_r. Qed.

Lemma shown_call m i : item_ok i -> routed (url_variables ft) m path i \/ for_all i ->
  calls_item (url_variables ft) path i (call_of ft (shows i)).
Proof.
  destruct i as [m' pat h n|h n]; cbn [calls_item shows item_ok routed for_all]; unfold call_of; cbn [mp_data mp_vars closure fst snd].
  - intros Hok [(_ & Hm)|[]]. split; auto. rewrite vars_of_nov. apply vars_of_spec; auto.
  - intros _ _. destruct (url_variables ft); reflexivity.
Qed.

Lemma run_holds (r : router H) n L m : einv r (n, L) -> m <> MAll ->
  (forall i, In i L -> routed (url_variables ft) m path i \/ for_all i -> usable i) ->
  exists turn calls, in_turn (url_variables ft) m path L turn /\ Forall2 (calls_item (url_variables ft) path) turn calls /\
    forall W (exec : H -> varmap -> W -> W * outcome flow) w, router_run exec ft r m path w = run_chain exec calls w.
Proof.
  intros I Hm Hu. destruct (table_found r _ m I) as (L1 & A & TA & OA & SA & PA). destruct (table_found r _ MAll I) as (L2 & Bl & TB & OB & SB & PB).
  cbn [snd] in PA, PB. set (C := map (fun c : cl => MatchedPath [] c) (adds_of L)).
  set (Ms := L1 ++ L2 ++ [C]).
  assert (EM : run_matches ft r m path = Done Ms).
  { unfold run_matches. rewrite TA. cbn [obind]. rewrite TB. cbn [obind]. rewrite (ei_mw _ _ I). reflexivity. }
  destruct (merges_exists (list_sum (map (@length mp) Ms)) Ms eq_refl) as (S & M & ES).
  destruct (take_turns Ms S M L1 L2 A Bl C 0%N OA OB eq_refl SA SB) as (T & T1 & T2 & T3 & T4); [intros; auto|].
  set (routes := filter (routed_b m) L).
  assert (P : Permutation T (map turned (map (fun i => (turn_of_route i, i)) routes ++ turns_of_handlers 0 L))).
  { rewrite T2, map_app, app_assoc. unfold C. rewrite queued_turns. apply Permutation_app_tail.
    eapply Permutation_trans; [|exact (found_turns m L Hm)]. unfold keyed. apply Permutation_app; apply Permutation_map; auto. }
  apply Permutation_map_inv in P as (T' & -> & P'). apply Permutation_sym in P'.
  pose proof (select_routed m L (ei_ok _ _ I)) as Sel. fold routes in Sel.
  assert (HT : Forall (fun t => proper t /\ In (snd t) L /\ (routed (url_variables ft) m path (snd t) \/ for_all (snd t))) T').
  { apply Forall_forall. intros t Ht. apply (Permutation_in _ P') in Ht. apply in_app_or in Ht as [Ht|Ht].
    - apply in_map_iff in Ht as (i & <- & Hi). cbn [snd]. unfold routes in Hi. apply filter_In in Hi as [Hi1 Hi2].
      pose proof (ei_ok _ _ I) as Hok. cbn [snd] in Hok. rewrite Forall_forall in Hok. apply routed_b_spec in Hi2; auto.
      split; [eapply proper_route; eauto|]. auto.
    - pose proof (proper_handlers L 0%N) as Q. rewrite Forall_forall in Q. destruct (Q _ Ht) as [Q1 Q2]. split; auto. split; auto.
      clear - Ht. revert Ht. generalize 0%N. induction L as [|[m' pat h k|h k] L IH]; intros g Ht; cbn [turns_of_handlers] in Ht; [contradiction|right; eauto|].
      destruct Ht as [<-|Ht]; [left; reflexivity|right; eauto]. }
  exists (map snd T'), (map (call_of ft) S). split; [|split].
  - exists routes, T'. split; [exact Sel|]. split; [exact P'|]. split; [apply sorted_back; auto|]. split; [|reflexivity].
    unfold C in T4. rewrite queued_turns in T4. apply selects_back; auto; [|apply proper_handlers].
    eapply Forall_impl; [|exact HT]. intros t (Ht & _). exact Ht.
  - subst S. clear - HT I. pose proof (ei_ok _ _ I) as Hok. cbn [snd] in Hok. rewrite Forall_forall in Hok.
    induction HT as [|t T (Ht1 & Ht2 & Ht3) _ IH]; cbn [map]; constructor; auto. cbn [turned snd].
    apply (shown_call m); auto.
  - intros W exec w. unfold router_run. rewrite EM, <- ES. apply run_merges.
    + apply repeat_length.
    + replace (left_of Ms (repeat 0 (length Ms))) with Ms; auto. unfold left_of. clear. induction Ms as [|v Ms IH]; cbn [length repeat combine map]; auto. rewrite <- IH. reflexivity.
    + subst S. rewrite Forall_map, Forall_map. eapply Forall_impl; [|exact HT]. intros t (_ & Ht2 & Ht3). specialize (Hu _ Ht2 Ht3).
      destruct t as [k [m' pat h j|h j]]; exact Hu.
Qed.
End Against.

Theorem edited_run : forall (H : Type) o (app : list (oedit H)) rt n L, builds (0%N, []) app (n, L) -> build_edited o app = Done rt ->
  forall ft m path, m <> MAll -> (forall i, In i L -> routed (url_variables ft) m path i \/ for_all i -> usable i) ->
  exists turn calls, in_turn (url_variables ft) m path L turn /\ Forall2 (calls_item (url_variables ft) path) turn calls /\
    forall W (exec : H -> varmap -> W -> W * outcome flow) w, router_run exec ft rt m path w = run_chain exec calls w.
Proof. intros H o app rt n L C E ft m path Hm Hu. eapply run_holds; eauto. eapply build_holds; eauto. Qed.

(** Every application has a list. *)
Lemma register_somehow {H} (s : N * list (item H)) c : exists s', registers s c s'.
Proof.
  destruct s as [n L]. destruct c as [v p h|h]; [|eexists; apply reg_add]. destruct (path_parse p) as [pat|] eqn:E.
  - eexists. apply (reg_route _ _ _ _ pat). apply path_means_parse. exact E.
  - eexists. apply reg_rejected. intros pat Hp. apply path_means_parse in Hp. congruence.
Qed.
Lemma select_somehow {A} (P : A -> Prop) (f : A -> bool) l : (forall x, f x = true <-> P x) -> exists kept, selects P l kept.
Proof. intro E. exists (filter f l). apply selects_filter. intros x _. apply E. Qed.
Lemma edit_somehow {H} (s : N * list (item H)) e : patterns_parsed e -> exists s', changes s e s'.
Proof.
  destruct s as [n L]. destruct e as [c|n'|l|m l|m]; cbn [patterns_parsed]; intro K.
  - destruct (register_somehow (n, L) c) as (s' & R). exists s'. apply ch_register. exact R.
  - eexists. apply ch_counter.
  - destruct (select_somehow (fun i : item H => ~ for_all i) (fun i => match i with IAdd _ _ => false | _ => true end) L) as (kept & S).
    { intros [m' pat h k|h k]; cbn; intuition congruence. }
    eexists. apply ch_handlers. exact S.
  - destruct (select_somehow (fun i : item H => ~ under m i) (fun i => match i with IRoute m' _ _ _ => negb (method_eqb m' m) | _ => true end) L) as (kept & S).
    { intros [m' pat h k|h k]; cbn; [|intuition congruence]. rewrite negb_true_iff, <- not_true_iff_false, method_eqb_eq. reflexivity. }
    eexists. apply ch_table; [exact S|exact K].
  - destruct (select_somehow (fun i : item H => ~ under m i) (fun i => match i with IRoute m' _ _ _ => negb (method_eqb m' m) | _ => true end) L) as (kept & S).
    { intros [m' pat h k|h k]; cbn; [|intuition congruence]. rewrite negb_true_iff, <- not_true_iff_false, method_eqb_eq. reflexivity. }
    eexists. apply ch_remove. exact S.
Qed.
Lemma edits_somehow {H} (l : list (edit H)) : Forall patterns_parsed l -> forall s, exists s', edits_to s l s'.
Proof.
  induction 1 as [|e l K _ IH]; intro s; [eexists; apply ed_nil|]. destruct (edit_somehow s e K) as (s1 & C). destruct (IH s1) as (s2 & C2).
  exists s2. eapply ed_cons; eauto.
Qed.
Theorem builds_somehow : forall (H : Type) (l : list (oedit H)), Forall all_parsed l -> forall s, exists s', builds s l s'.
Proof.
  induction 1 as [|c l K _ IH]; intro s; [eexists; apply bu_nil|]. destruct c as [c|es]; cbn [all_parsed] in K.
  - destruct (register_somehow s c) as (s1 & R). destruct (IH s1) as (s2 & C). exists s2. eapply bu_reg; eauto.
  - destruct s as [n L]. destruct (edits_somehow es K (0%N, [])) as ([n' L'] & C). destruct (IH ((n + n')%N, L ++ map (later n) L')) as (s2 & C2).
    exists s2. eapply bu_mount; eauto.
Qed.
(** There is only one such list. *)
Lemma selected_once {A} (P : A -> Prop) l s s' : selects P l s -> selects P l s' -> s = s'.
Proof. intro X. revert s'. induction X; intros s' Y; inversion Y; subst; auto; try contradiction. f_equal. auto. Qed.
Lemma registers_once {H : Type} s (c : rreg H) s1 s2 : registers s c s1 -> registers s c s2 -> s1 = s2.
Proof.
  intros X Y. destruct X as [n L v p pat h M|n L v p h M|n L h]; inversion Y as [n0 L0 v0 p0 pat0 h0 M0|n0 L0 v0 p0 h0 M0|n0 L0 h0]; subst; auto.
  - apply path_means_parse in M. apply path_means_parse in M0. congruence.
  - destruct (M0 _ M).
  - destruct (M _ M0).
Qed.
Lemma changes_once {H : Type} s (e : edit H) s1 s2 : changes s e s1 -> changes s e s2 -> s1 = s2.
Proof.
  intros X Y. destruct X; inversion Y; subst; auto; try (eapply registers_once; eassumption);
    match goal with A : selects _ _ ?k, A' : selects _ _ ?k' |- _ => rewrite (selected_once _ _ _ _ A A') end; reflexivity.
Qed.
Lemma edits_once {H : Type} s (l : list (edit H)) s1 s2 : edits_to s l s1 -> edits_to s l s2 -> s1 = s2.
Proof.
  intro X. revert s2. induction X as [s|s e s1 l s3 C X IH]; intros s2 Y; inversion Y as [|? ? s1' ? ? C' Y']; subst; [reflexivity|].
  rewrite (changes_once _ _ _ _ C C') in *. auto.
Qed.
Theorem builds_once : forall (H : Type) (l : list (oedit H)) s s1 s2, builds s l s1 -> builds s l s2 -> s1 = s2.
Proof.
  intros H l s s1 s2 X. revert s2. induction X as [s|s c s1 l s3 R X IH|n L es n' L' l s3 Q X IH]; intros s2 Y.
  - inversion Y; reflexivity.
  - inversion Y as [|? ? s1' ? ? R' Y'|]; subst. rewrite (registers_once _ _ _ _ R R') in *. auto.
  - inversion Y as [| |? ? ? n2 L2 ? ? Q' Y']; subst. pose proof (edits_once _ _ _ _ Q Q') as E. injection E as <- <-. auto.
Qed.
