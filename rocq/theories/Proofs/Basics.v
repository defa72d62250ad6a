(** General lemmas about the standard-library model. *)
From Verif.Model Require Export RustStd Path.

Lemma beqb_eq a b : beqb a b = true <-> a = b.
Proof.
  unfold beqb. split; intro H.
  - apply Byte.byte_dec_bl; exact H.
  - apply Byte.byte_dec_lb; exact H.
Qed.
Lemma beqb_refl a : beqb a a = true.
Proof. apply beqb_eq; reflexivity. Qed.
Lemma beqb_neq a b : beqb a b = false <-> a <> b.
Proof.
  split; intro H.
  - intro E. apply beqb_eq in E. congruence.
  - destruct (beqb a b) eqn:E; auto. apply beqb_eq in E. contradiction.
Qed.
Lemma beqb_sym a b : beqb a b = beqb b a.
Proof.
  destruct (beqb a b) eqn:E.
  - apply beqb_eq in E; subst; symmetry; apply beqb_refl.
  - apply beqb_neq in E. symmetry. apply beqb_neq. congruence.
Qed.

Lemma seqb_eq a b : seqb a b = true <-> a = b.
Proof.
  revert b; induction a as [|x a IH]; intros [|y b]; simpl; split; intro H;
    try reflexivity; try discriminate.
  - apply andb_prop in H as [H1 H2]. apply beqb_eq in H1; apply IH in H2; congruence.
  - injection H as -> ->. rewrite beqb_refl. apply IH. reflexivity.
Qed.
Lemma seqb_refl a : seqb a a = true.
Proof. apply seqb_eq; reflexivity. Qed.
Lemma seqb_neq a b : seqb a b = false <-> a <> b.
Proof.
  split; intro H.
  - intro E. apply seqb_eq in E. congruence.
  - destruct (seqb a b) eqn:E; auto. apply seqb_eq in E. contradiction.
Qed.
Lemma seqb_sym a b : seqb a b = seqb b a.
Proof.
  destruct (seqb a b) eqn:E.
  - apply seqb_eq in E; subst; symmetry; apply seqb_refl.
  - apply seqb_neq in E. symmetry. apply seqb_neq. congruence.
Qed.
Lemma seqb_spec a b : reflect (a = b) (seqb a b).
Proof.
  destruct (seqb a b) eqn:E; constructor.
  - apply seqb_eq; exact E.
  - apply seqb_neq; exact E.
Qed.
Lemma beqb_spec a b : reflect (a = b) (beqb a b).
Proof.
  destruct (beqb a b) eqn:E; constructor.
  - apply beqb_eq; exact E.
  - apply beqb_neq; exact E.
Qed.

Lemma is_nil_true {A} (l : list A) : is_nil l = true <-> l = [].
Proof. destruct l; simpl; split; intro H; congruence. Qed.
Lemma is_nil_false {A} (l : list A) : is_nil l = false <-> l <> [].
Proof. destruct l; simpl; split; intro H; congruence. Qed.

(** ** Maps *)
Section MapLemmas.
  Context {K V : Type} (eqb : K -> K -> bool).
  Hypothesis eqb_eq : forall a b, eqb a b = true <-> a = b.

  Lemma eqb_refl' a : eqb a a = true.
  Proof using eqb_eq. apply eqb_eq; reflexivity. Qed.
  Lemma eqb_neq' a b : a <> b -> eqb a b = false.
  Proof using eqb_eq. intro H. destruct (eqb a b) eqn:E; auto. apply eqb_eq in E; contradiction. Qed.

  Lemma mget_mset_same k (v : V) m : mget eqb k (mset eqb k v m) = Some v.
  Proof using eqb_eq.
    induction m as [|[k' v'] m IH]; simpl.
    - rewrite eqb_refl'; reflexivity.
    - destruct (eqb k k') eqn:E; simpl; rewrite E; auto.
  Qed.
  Lemma mget_mset_other k k' (v : V) m : k <> k' -> mget eqb k (mset eqb k' v m) = mget eqb k m.
  Proof using eqb_eq.
    intro H. induction m as [|[k0 v0] m IH]; simpl.
    - rewrite eqb_neq'; auto.
    - destruct (eqb k' k0) eqn:E; simpl.
      + apply eqb_eq in E; subst k0. rewrite eqb_neq'; auto.
      + destruct (eqb k k0); auto.
  Qed.
  Lemma mget_mset k k' (v : V) m :
    mget eqb k (mset eqb k' v m) = if eqb k k' then Some v else mget eqb k m.
  Proof using eqb_eq.
    destruct (eqb k k') eqn:E.
    - apply eqb_eq in E; subst. apply mget_mset_same.
    - apply mget_mset_other. intro; subst. rewrite eqb_refl' in E. discriminate.
  Qed.
  Lemma mget_In k (v : V) m : mget eqb k m = Some v -> In (k, v) m.
  Proof using eqb_eq.
    induction m as [|[k' v'] m IH]; simpl; try discriminate.
    destruct (eqb k k') eqn:E; intro H.
    - apply eqb_eq in E. left; congruence.
    - right; auto.
  Qed.
  Lemma mget_None k (m : list (K * V)) : mget eqb k m = None <-> ~ In k (map fst m).
  Proof using eqb_eq.
    induction m as [|[k' v'] m IH]; simpl; split; intro H; auto; try tauto.
    - destruct (eqb k k') eqn:E; try discriminate. intros [->|H1].
      + rewrite eqb_refl' in E; discriminate.
      + apply IH in H. contradiction.
    - destruct (eqb k k') eqn:E.
      + apply eqb_eq in E; subst. tauto.
      + apply IH. tauto.
  Qed.
  Lemma mget_Some_In_fst k (v : V) m : mget eqb k m = Some v -> In k (map fst m).
  Proof using eqb_eq. intro H. apply mget_In in H. apply (in_map fst) in H. exact H. Qed.
  Lemma In_mget k (v : V) m : NoDup (map fst m) -> In (k, v) m -> mget eqb k m = Some v.
  Proof using eqb_eq.
    induction m as [|[k' v'] m IH]; simpl; intros ND H; [tauto|].
    inversion ND as [|? ? Hn ND']; subst.
    destruct H as [H|H].
    - injection H as -> ->. rewrite eqb_refl'; reflexivity.
    - rewrite eqb_neq'; auto. intros ->. apply Hn. apply (in_map fst) in H; exact H.
  Qed.
  Lemma mset_keys k (v : V) m :
    map fst (mset eqb k v m) = if existsb (eqb k) (map fst m) then map fst m
                               else map fst m ++ [k].
  Proof using eqb_eq.
    induction m as [|[k' v'] m IH]; simpl; auto.
    destruct (eqb k k') eqn:E; simpl; auto.
    rewrite IH. destruct (existsb (eqb k) (map fst m)); reflexivity.
  Qed.
  Lemma mset_NoDup k (v : V) m : NoDup (map fst m) -> NoDup (map fst (mset eqb k v m)).
  Proof using eqb_eq.
    intro H. rewrite mset_keys. destruct (existsb (eqb k) (map fst m)) eqn:E; auto.
    apply NoDup_Add with (a := k) (l := map fst m).
    - rewrite <- (app_nil_r (map fst m)) at 1. apply Add_app.
    - split; auto. intro Hin.
      assert (existsb (eqb k) (map fst m) = true).
      { apply existsb_exists. exists k. split; auto. apply eqb_refl'. }
      congruence.
  Qed.
  Lemma mset_In_inv k (v : V) m k' v' :
    In (k', v') (mset eqb k v m) -> (k' = k /\ v' = v) \/ In (k', v') m.
  Proof using eqb_eq.
    induction m as [|[k0 v0] m IH]; simpl.
    - intros [H|[]]. left; split; congruence.
    - destruct (eqb k k0) eqn:E; simpl; intros [H|H]; auto.
      + apply eqb_eq in E. left; split; congruence.
      + destruct (IH H); auto.
  Qed.
  Lemma mget_perm k (m m' : list (K * V)) :
    NoDup (map fst m) -> Permutation m m' -> mget eqb k m = mget eqb k m'.
  Proof using eqb_eq.
    intros ND P.
    assert (ND' : NoDup (map fst m')).
    { eapply Permutation_NoDup; [apply Permutation_map; exact P | exact ND]. }
    destruct (mget eqb k m) eqn:E.
    - apply mget_In in E. symmetry. apply In_mget; auto. eapply Permutation_in; eauto.
    - apply mget_None in E. symmetry. apply mget_None. intro H. apply E.
      eapply Permutation_in; [apply Permutation_map, Permutation_sym; exact P | exact H].
  Qed.
  Lemma mremove_keys k (m : list (K * V)) k' :
    In k' (map fst (mremove eqb k m)) -> In k' (map fst m).
  Proof.
    induction m as [|[k0 v0] m IH]; simpl; auto.
    destruct (eqb k k0); simpl; tauto.
  Qed.
  Lemma mremove_NoDup k (m : list (K * V)) :
    NoDup (map fst m) -> NoDup (map fst (mremove eqb k m)).
  Proof.
    induction m as [|[k0 v0] m IH]; simpl; intro ND; auto.
    inversion ND; subst. destruct (eqb k k0); simpl; auto.
    constructor; auto. intro Hin. apply mremove_keys in Hin. contradiction.
  Qed.
  Lemma mget_mremove k k' (m : list (K * V)) :
    NoDup (map fst m) ->
    mget eqb k (mremove eqb k' m) = if eqb k k' then None else mget eqb k m.
  Proof using eqb_eq.
    induction m as [|[k0 v0] m IH]; simpl; intro ND.
    - destruct (eqb k k'); reflexivity.
    - inversion ND as [|? ? Hn ND']; subst. specialize (IH ND').
      destruct (eqb k' k0) eqn:E; simpl.
      + apply eqb_eq in E; subst k0.
        destruct (eqb k k') eqn:E2; auto.
        apply eqb_eq in E2; subst. apply mget_None. exact Hn.
      + destruct (eqb k k0) eqn:E1.
        * apply eqb_eq in E1; subst k0. rewrite eqb_neq'; auto.
          intros ->. rewrite eqb_refl' in E; discriminate.
        * exact IH.
  Qed.
End MapLemmas.

Lemma chunk_eqb_eq a b : chunk_eqb a b = true <-> a = b.
Proof.
  destruct a, b; simpl; split; intro H; try discriminate; auto.
  - apply seqb_eq in H; congruence.
  - injection H as ->. apply seqb_refl.
Qed.

(** ** Splitting *)

Lemma split_char_nonempty c s : split_char c s <> [].
Proof.
  destruct s as [|x s]; simpl; [discriminate|].
  destruct (beqb x c); [discriminate|]. destruct (split_char c s); discriminate.
Qed.
Lemma split_char_no_sep c s p : In p (split_char c s) -> ~ In c p.
Proof.
  revert p; induction s as [|x s IH]; simpl; intros p H.
  - destruct H as [<-|[]]. auto.
  - destruct (beqb x c) eqn:E.
    + destruct H as [<-|H]; auto.
    + destruct (split_char c s) as [|q qs] eqn:E2.
      * destruct H as [<-|[]]. intros [->|[]]. rewrite beqb_refl in E; discriminate.
      * destruct H as [<-|H].
        -- intros [->|H1]; [rewrite beqb_refl in E; discriminate|].
           revert H1. apply IH. left; reflexivity.
        -- apply IH. right; exact H.
Qed.
Lemma split_char_app_no_sep c a b :
  ~ In c a ->
  split_char c (a ++ b) = match split_char c b with
                          | [] => [a]
                          | p :: ps => (a ++ p) :: ps
                          end.
Proof.
  induction a as [|x a IH]; simpl; intro H.
  - pose proof (split_char_nonempty c b). destruct (split_char c b); [congruence|reflexivity].
  - rewrite IH by tauto. rewrite (proj2 (beqb_neq x c)) by (intro; subst; tauto).
    destruct (split_char c b); reflexivity.
Qed.
Lemma split_char_no_sep_id c a : ~ In c a -> split_char c a = [a].
Proof.
  intro H. rewrite <- (app_nil_r a) at 1. rewrite split_char_app_no_sep by auto.
  simpl. rewrite app_nil_r; reflexivity.
Qed.
Lemma split_char_app_sep c a b : split_char c (a ++ c :: b) = split_char c a ++ split_char c b.
Proof.
  induction a as [|x a IH]; simpl.
  - rewrite beqb_refl; reflexivity.
  - rewrite IH. destruct (beqb x c); [reflexivity|].
    pose proof (split_char_nonempty c a).
    destruct (split_char c a); [congruence|reflexivity].
Qed.
Lemma split_char_join c l :
  l <> [] -> (forall p, In p l -> ~ In c p) -> split_char c (join [c] l) = l.
Proof.
  induction l as [|x l IH]; intros H1 H2; [congruence|].
  destruct l as [|y l].
  - simpl. apply split_char_no_sep_id. apply H2; left; reflexivity.
  - change (join [c] (x :: y :: l)) with (x ++ c :: join [c] (y :: l)).
    rewrite split_char_app_sep, split_char_no_sep_id by (apply H2; left; reflexivity).
    rewrite IH; [reflexivity|discriminate|]. intros p Hp; apply H2; right; exact Hp.
Qed.
Lemma join_split_char c s : join [c] (split_char c s) = s.
Proof.
  induction s as [|x s IH]; auto.
  simpl. pose proof (split_char_nonempty c s) as N.
  destruct (split_char c s) as [|p ps] eqn:E; [congruence|].
  destruct (beqb_spec x c) as [->|Hx].
  - change (join [c] ([] :: p :: ps)) with ([c] ++ join [c] (p :: ps)). rewrite IH. reflexivity.
  - destruct ps; simpl in *; rewrite IH; reflexivity.
Qed.

Lemma obind_Done {A C} (o : outcome A) (f : A -> outcome C) c :
  obind o f = Done c <-> exists a, o = Done a /\ f a = Done c.
Proof.
  destruct o; simpl; split; intro H; eauto.
  - destruct H as (a' & H1 & H2). congruence.
  - discriminate.
  - destruct H as (a' & H1 & H2). discriminate.
Qed.
Lemma omapM_Done_length {A C} (f : A -> outcome C) l l' :
  omapM f l = Done l' -> length l' = length l.
Proof.
  revert l'; induction l as [|x l IH]; simpl; intros l' H.
  - injection H as <-; reflexivity.
  - apply obind_Done in H as (y & H1 & H2). apply obind_Done in H2 as (ys & H3 & H4).
    injection H4 as <-. simpl. f_equal; auto.
Qed.
Lemma omapM_all {A C} (f : A -> outcome C) (g : A -> C) l :
  (forall x, In x l -> f x = Done (g x)) -> omapM f l = Done (map g l).
Proof.
  induction l as [|x l IH]; simpl; intro H; auto.
  rewrite H by auto. simpl. rewrite IH by auto. reflexivity.
Qed.

Lemma removelast_app1 {A} (l : list A) x : removelast (l ++ [x]) = l.
Proof. rewrite removelast_app by discriminate. simpl. apply app_nil_r. Qed.

Lemma Forall2_len {A C} (R : A -> C -> Prop) l l' : Forall2 R l l' -> length l = length l'.
Proof. induction 1; simpl; congruence. Qed.
Lemma app_length_inj {A} (a b c d : list A) : a ++ b = c ++ d -> length c = length a -> a = c /\ b = d.
Proof.
  revert c; induction a as [|x a IH]; intros [|y c] E L; simpl in *; try discriminate; auto.
  injection E as -> E. destruct (IH c E) as [-> ->]; auto.
Qed.
