(** Proofs for C122: paths of the file system on Windows. *)
From Verif.Model Require Import RustStd Path StdPath.
From Verif.Spec Require Import PathSpec FsSpec WinSpec.
From Verif.Proofs Require Import Basics PathProofs StdPathProofs.

Lemma win_sep_slash c : win_sep c = slash c.
Proof. destruct c; reflexivity. Qed.
Lemma letter_b d : letter d <-> is_lower d || is_upper d = true.
Proof.
  unfold letter, is_lower, is_upper. rewrite orb_true_iff, !andb_true_iff, !N.leb_le. tauto.
Qed.
Lemma disk_spec s : match win_disk s with
  | Some (d, r) => s = d :: x3a :: r /\ letter d
  | None => forall d r, s = d :: x3a :: r -> ~ letter d
  end.
Proof.
  destruct s as [|d [|c r]]; cbn [win_disk]; try (intros; discriminate).
  assert (G : c <> x3a -> forall d0 r0, d :: c :: r = d0 :: x3a :: r0 -> ~ letter d0) by (intros N d0 r0 E; congruence).
  destruct (beqb_spec c x3a) as [-> |N].
  - destruct (is_lower d || is_upper d) eqn:L; [split; auto; apply letter_b; auto|].
    intros d0 r0 E X. injection E as <- <-. apply letter_b in X. congruence.
  - specialize (G N). destruct c; try exact G. congruence.
Qed.
Lemma disk_none s : (forall d r, s <> d :: x3a :: r) -> win_disk s = None.
Proof. intro H. pose proof (disk_spec s) as D. destruct (win_disk s) as [[d r]|]; auto. destruct D as [-> _]. destruct (H d r eq_refl). Qed.
Lemma share_spec s : no_share s <-> win_share s = false.
Proof.
  unfold no_share. destruct s as [|a [|b r]]; cbn [win_share]; try (split; [reflexivity|intros _ ? ? ? E; discriminate]).
  rewrite !win_sep_slash, andb_false_iff. split.
  - intro H. specialize (H a b r eq_refl). destruct (slash a); auto.
  - intros H a0 b0 r0 E X. injection E as <- <- <-. destruct H; congruence.
Qed.
(** The location as a function *)
Definition place (m : machine) (s : str) : byte * list str :=
  match win_disk s with Some (d, r) => walk m d r | None => walk m (drive m) s end.
Lemma located_place m s l : win_located m s l <-> l = place m s.
Proof.
  unfold place. split.
  - intro W. destruct W as [d r L|t N].
    + pose proof (disk_spec (d :: x3a :: r)) as D. destruct (win_disk (d :: x3a :: r)) as [[d' r']|].
      * destruct D as [E _]. injection E as <- <-. reflexivity.
      * destruct (D d r eq_refl L).
    + pose proof (disk_spec t) as D. destruct (win_disk t) as [[d r]|]; auto. destruct D as [-> L]. destruct (N d r eq_refl L).
  - intros ->. pose proof (disk_spec s) as D. destruct (win_disk s) as [[d r]|].
    + destruct D as [-> L]. constructor. exact L.
    + constructor. exact D.
Qed.

Lemma cut_cons s : exists x l, cut s = x :: l.
Proof. destruct s as [|c s]; cbn [cut]; [eauto|]. destruct (slash c); [eauto|]. destruct (cut s); eauto. Qed.
Lemma cut_app c a b : slash c = true -> cut (a ++ c :: b) = cut a ++ cut b.
Proof.
  intro S. induction a as [|x a IH]; cbn [app cut]; [rewrite S; reflexivity|]. rewrite IH. destruct (slash x); [reflexivity|].
  destruct (cut_cons a) as (y & l & ->). reflexivity.
Qed.
Definition unslashed (s : str) : Prop := Forall (fun c => slash c = false) s.
Lemma cut_plain s : unslashed s -> cut s = [s].
Proof. induction 1 as [|c s Hc _ IH]; cbn [cut]; auto. rewrite Hc, IH. reflexivity. Qed.
Lemma slash_in c : slash c = true <-> c = x2f \/ c = x5c.
Proof. split; [destruct c; try discriminate; auto|intros [-> | ->]; reflexivity]. Qed.
Lemma simple_unslashed s : simple_name s -> unslashed s.
Proof.
  intros (_ & A & B' & _). apply Forall_forall. intros c I. destruct (slash c) eqn:S; auto. apply slash_in in S.
  destruct S as [-> | ->]; contradiction.
Qed.
Lemma simple_steps c p : Forall simple_name p -> slash c = true ->
  forall d, fold_left step_to (cut (join [c] p)) d = d ++ p.
Proof.
  intros F S. induction F as [|x p Hx Fp IH]; intro d; [cbn; rewrite app_nil_r; reflexivity|].
  destruct p as [|y p].
  - cbn [join]. rewrite cut_plain by (apply simple_unslashed; auto). cbn [fold_left]. apply step_normal. apply Hx.
  - change (join [c] (x :: y :: p)) with (x ++ c :: join [c] (y :: p)). rewrite cut_app by auto.
    rewrite cut_plain by (apply simple_unslashed; auto). cbn [app fold_left]. rewrite IH, step_normal by apply Hx.
    rewrite <- app_assoc. reflexivity.
Qed.
(** A text that leads from every directory to its subdirectory [p] *)
Record relative (t : str) (p : list str) : Prop := {
  rel_steps : forall d, fold_left step_to (cut t) d = d ++ p;
  rel_root : rooted t = false;
  rel_first : forall a r, t = a :: r -> a <> x3a;
  rel_second : forall a r, t <> a :: x3a :: r }.
Lemma push_relative m base t p : relative t p -> no_share base ->
  exists r, win_push base t = Some r /\ win_located m r (fst (place m base), snd (place m base) ++ p).
Proof.
  intros [St Rt F1 F2] Nb. assert (Dt : win_disk t = None) by (apply disk_none; auto).
  assert (Sh : win_share t = false).
  { destruct t as [|a [|b r]]; auto. cbn [win_share rooted] in *. rewrite win_sep_slash, Rt. reflexivity. }
  assert (Rf : forall c r, t = c :: r -> win_sep c = false) by (intros c r ->; rewrite win_sep_slash; exact Rt).
  (* all results *)
  assert (R0 : rev base = [] -> win_located m t (fst (place m base), snd (place m base) ++ p)).
  { intro E. apply (f_equal (@rev _)) in E. rewrite rev_involutive in E. cbn in E. subst base. apply located_place. unfold place at 1 2 3.
    rewrite Dt. cbn [win_disk]. unfold walk. cbn [cut fold_left step_to rooted fst snd]. rewrite St, Rt. reflexivity. }
  assert (R1 : forall d, win_disk base = Some (d, []) -> win_located m (base ++ t) (fst (place m base), snd (place m base) ++ p)).
  { intros d E. pose proof (disk_spec base) as D. rewrite E in D. destruct D as [-> L]. apply located_place.
    unfold place. rewrite E. cbn [app]. cbn [win_disk] in *. destruct (is_lower d || is_upper d); [|discriminate].
    unfold walk. cbn [cut fold_left step_to rooted fst snd]. rewrite St, Rt. reflexivity. }
  assert (R2 : forall b l u, base = b ++ [l] -> (forall d, win_disk base <> Some (d, [])) ->
     ((slash l = true /\ u = base ++ t) \/ (slash l = false /\ u = base ++ x5c :: t)) ->
     win_located m u (fst (place m base), snd (place m base) ++ p)).
  { intros b l u Eb Nd Hu.
    (* the walked part *)
    assert (W : forall z b', z = b' ++ [l] -> forall D, forall u', ((slash l = true /\ u' = z ++ t) \/ (slash l = false /\ u' = z ++ x5c :: t)) ->
       rooted u' = rooted z /\ fold_left step_to (cut u') D = fold_left step_to (cut z) D ++ p).
    { intros z b' -> D u' [[Sl ->]|[Sl ->]].
      - split; [destruct b'; reflexivity|]. rewrite <- app_assoc. cbn [app]. rewrite !cut_app, !fold_left_app by auto.
        cbn [cut fold_left step_to]. apply St.
      - split; [destruct b'; reflexivity|]. rewrite cut_app, fold_left_app by reflexivity. apply St. }
    assert (W2 : forall d z b', z = b' ++ [l] -> forall u', ((slash l = true /\ u' = z ++ t) \/ (slash l = false /\ u' = z ++ x5c :: t)) ->
       walk m d u' = (fst (walk m d z), snd (walk m d z) ++ p)).
    { intros d z b' Ez u' H'. unfold walk. cbn [fst snd]. destruct (W z b' Ez (if rooted z then [] else current m d) u' H') as [-> ->]. reflexivity. }
    apply located_place. unfold place. pose proof (disk_spec base) as D. destruct (win_disk base) as [[d r]|] eqn:E.
    - destruct D as [D L]. assert (Er : exists b', r = b' ++ [l]).
      { destruct r as [|x r]; [destruct (Nd d eq_refl)|]. rewrite D in Eb. destruct (exists_last (l := x :: r)) as (b' & y & Ey); [discriminate|].
        rewrite Ey in *. exists b'. change (d :: x3a :: b' ++ [y]) with ((d :: x3a :: b') ++ [y]) in Eb. apply app_inj_tail in Eb as [_ ->]. reflexivity. }
      destruct Er as (b' & Er). assert (U : exists u', u = d :: x3a :: u' /\ ((slash l = true /\ u' = r ++ t) \/ (slash l = false /\ u' = r ++ x5c :: t))).
      { rewrite D in Hu. cbn [app] in Hu. destruct Hu as [[H1 H2]|[H1 H2]]; eexists; (split; [exact H2|auto]). }
      destruct U as (u' & -> & U). cbn [win_disk]. apply letter_b in L. rewrite L. symmetry. apply (W2 d r b' Er u' U).
    - replace (win_disk u) with (@None (byte * str)); [symmetry; apply (W2 (drive m) base b Eb u Hu)|]. symmetry.
      assert (G : forall d r, u = d :: x3a :: r -> ~ letter d).
      { intros d r Eu. destruct base as [|x [|y base]].
        - destruct b; discriminate.
        - destruct Hu as [[H1 H2]|[H1 H2]]; rewrite Eu in H2; cbn [app] in H2; injection H2 as -> H2.
          + exfalso. destruct t as [|c t]; [discriminate|]. injection H2 as <- _. apply (F1 x3a t eq_refl). reflexivity.
          + discriminate.
        - destruct Hu as [[H1 H2]|[H1 H2]]; rewrite Eu in H2; cbn [app] in H2; injection H2 as -> <- H2; eapply D; reflexivity. }
      pose proof (disk_spec u) as Du. destruct (win_disk u) as [[d r]|]; auto. destruct Du as [Eu L]. destruct (G d r Eu L). }
  unfold win_push. rewrite Dt, Sh. apply share_spec in Nb as Nb'. rewrite Nb'. cbn [orb].
  destruct (last_split base) as [-> |(b & l & E & Er)].
  - cbn [rev]. specialize (R0 eq_refl). destruct t as [|c t]; [eauto|]. rewrite (Rf c t eq_refl). eauto.
  - rewrite Er. destruct (win_disk base) as [[d [|x r]]|] eqn:Ed.
    + specialize (R1 d eq_refl). destruct t as [|c t]; [rewrite app_nil_r in R1; eauto|]. rewrite (Rf c t eq_refl). eauto.
    + assert (Nd : forall d0, Some (d, x :: r) <> Some (d0, [])) by (intros; discriminate).
      pose proof (fun u => R2 b l u E Nd) as R. rewrite win_sep_slash. destruct t as [|c t].
      * destruct (slash l) eqn:S; eexists; (split; [reflexivity|]); apply R; [left; rewrite app_nil_r; auto|right; auto].
      * rewrite (Rf c t eq_refl). destruct (slash l) eqn:S; eexists; (split; [reflexivity|]); apply R; auto.
    + assert (Nd : forall d0, @None (byte * str) <> Some (d0, [])) by (intros; discriminate).
      pose proof (fun u => R2 b l u E Nd) as R. rewrite win_sep_slash. destruct t as [|c t].
      * destruct (slash l) eqn:S; eexists; (split; [reflexivity|]); apply R; [left; rewrite app_nil_r; auto|right; auto].
      * rewrite (Rf c t eq_refl). destruct (slash l) eqn:S; eexists; (split; [reflexivity|]); apply R; auto.
Qed.
Lemma simple_cons x : simple_name x -> exists c r, x = c :: r /\ slash c = false /\ c <> x3a /\ ~ In x3a r.
Proof.
  intros ((N & _) & A & B' & C). destruct x as [|c r]; [contradiction|]. exists c, r. repeat split; auto.
  - destruct (slash c) eqn:S; auto. apply slash_in in S. destruct S as [-> | ->]; exfalso; [apply A|apply B']; left; reflexivity.
  - intros ->. apply C. left. reflexivity.
  - intro I. apply C. right. exact I.
Qed.
Lemma relative_app x t p : simple_name x -> (t = [] \/ exists c r, t = c :: r /\ slash c = true) ->
  (forall d, fold_left step_to (cut (x ++ t)) d = d ++ p) -> relative (x ++ t) p.
Proof.
  intros Hx Ht St. destruct (simple_cons x Hx) as (c & r & -> & S & C & R). constructor; auto.
  - intros a r' E. injection E as <- _. exact C.
  - intros a r' E. injection E as <- E. destruct r as [|e r].
    + cbn [app] in E. destruct Ht as [-> |(c' & r2 & -> & S')]; [discriminate|]. injection E as -> _. discriminate.
    + injection E as -> _. apply R. left. reflexivity.
Qed.
Lemma relative_nil : relative [] [].
Proof. constructor; auto; try (intros; discriminate). intro d. cbn. rewrite app_nil_r. reflexivity. Qed.
Lemma to_std_relative p : Forall simple_name p -> relative (to_std_pathbuf p) p.
Proof.
  intro F. rewrite to_std_display. destruct F as [|x p Hx Fp]; [apply relative_nil|]. unfold path_display. cbn [flat_map].
  rewrite <- app_assoc. apply relative_app; auto.
  - right. exists SLASH. eexists. split; reflexivity.
  - assert (G : forall q, Forall simple_name q -> forall d, fold_left step_to (cut (flat_map (fun c => c ++ [SLASH]) q)) d = d ++ q).
    { induction 1 as [|y q Hy _ IH]; intro d; [cbn; rewrite app_nil_r; reflexivity|]. cbn [flat_map]. rewrite <- app_assoc. cbn [app].
      rewrite cut_app by reflexivity. rewrite fold_left_app, (cut_plain y) by (apply simple_unslashed; auto). cbn [fold_left]. rewrite IH, step_normal by apply Hy.
      rewrite <- app_assoc. reflexivity. }
    intro d. specialize (G (x :: p) (Forall_cons _ Hx Fp) d). cbn [flat_map] in G. rewrite <- app_assoc in G. exact G.
Qed.
Lemma join_sep_snoc s p c : p <> [] -> join [s] (p ++ [c]) = join [s] p ++ [s] ++ c.
Proof.
  induction p as [|a p IH]; [contradiction|]. intros _. destruct p as [|b p]; [reflexivity|].
  change ((a :: b :: p) ++ [c]) with (a :: (b :: p) ++ [c]). change (join [s] (a :: (b :: p) ++ [c])) with (a ++ [s] ++ join [s] ((b :: p) ++ [c])).
  rewrite IH by discriminate. change (join [s] (a :: b :: p)) with (a ++ [s] ++ join [s] (b :: p)). rewrite <- !app_assoc. reflexivity.
Qed.
Lemma join_relative p : Forall simple_name p -> relative (join [x5c] p) p.
Proof.
  intro F. destruct F as [|x p Hx Fp]; [apply relative_nil|]. assert (St := simple_steps x5c (x :: p) (Forall_cons _ Hx Fp) eq_refl).
  destruct p as [|y p].
  - cbn [join] in *. rewrite <- (app_nil_r x) at 1. apply relative_app; auto. rewrite app_nil_r. exact St.
  - change (join [x5c] (x :: y :: p)) with (x ++ [x5c] ++ join [x5c] (y :: p)) in *. apply relative_app; auto.
    right. exists x5c. eexists. split; reflexivity.
Qed.
Lemma join_last p : Forall simple_name p -> p <> [] -> exists d l, join [x5c] p = d ++ [l] /\ slash l = false.
Proof.
  intros F N. destruct (exists_last N) as (q & x & ->). apply Forall_app in F as [_ F]. apply Forall_cons_iff in F as [F _].
  pose proof (simple_unslashed x F) as U. destruct (exists_last (proj1 (proj1 F))) as (y & l & ->).
  apply Forall_app in U as [_ U]. apply Forall_cons_iff in U as [U _]. destruct q as [|a q].
  - exists y, l. auto.
  - exists (join [x5c] (a :: q) ++ [x5c] ++ y), l. split; auto. rewrite join_sep_snoc by discriminate. rewrite <- !app_assoc. reflexivity.
Qed.
Lemma win_from_join p : Forall simple_name p -> win_from p = Some (join [x5c] p).
Proof.
  unfold win_from. induction p as [|c p IH] using rev_ind; [reflexivity|]. intro F. apply Forall_app in F as [F Fc].
  rewrite fold_left_app, (IH F). cbn [fold_left]. apply Forall_cons_iff in Fc as [Hc _].
  pose proof (join_relative p F) as [_ Rr _ R2]. pose proof (join_relative [c] (Forall_cons _ Hc (Forall_nil _))) as [_ Rc _ Rc2]. cbn [join] in *.
  unfold win_push. rewrite (disk_none c Rc2). rewrite (disk_none _ R2).
  assert (S1 : forall z, rooted z = false -> win_share z = false).
  { intros [|a [|b r]]; auto. cbn [rooted win_share]. rewrite win_sep_slash. intros ->. reflexivity. }
  rewrite (S1 _ Rc), (S1 _ Rr). cbn [orb]. destruct (simple_cons c Hc) as (a & r & E & Sa & _). rewrite E. rewrite win_sep_slash, Sa.
  destruct p as [|x p]; [reflexivity|]. destruct (join_last (x :: p) F) as (d & l & El & Sl); [discriminate|].
  rewrite join_sep_snoc by discriminate. rewrite El, rev_app_distr. cbn [rev app]. rewrite win_sep_slash, Sl. reflexivity.
Qed.
Theorem win_below s p m base loc : path_parse s = Some p -> Forall (fun c => ~ In x5c c /\ ~ In x3a c) p -> no_share base ->
  win_located m base loc ->
  exists r q r', win_push base (to_std_pathbuf p) = Some r /\ win_located m r (fst loc, snd loc ++ p) /\
    win_from p = Some q /\ win_push base q = Some r' /\ win_located m r' (fst loc, snd loc ++ p).
Proof.
  intros P F Nb L. apply located_place in L. subst loc. apply parse_safe in P.
  assert (Fs : Forall simple_name p).
  { rewrite Forall_forall in *. intros c I. destruct (P c I) as [A1 A2]. destruct (F c I) as [A3 A4]. split; auto. }
  destruct (push_relative m base _ p (to_std_relative p Fs) Nb) as (r & R1 & R2).
  destruct (push_relative m base _ p (join_relative p Fs) Nb) as (r' & R3 & R4).
  exists r, (join [x5c] p), r'. rewrite (win_from_join p Fs). auto 6.
Qed.

(** ** Everything can be reached *)
Definition whole (d : byte) (target : list str) : str := [d; x3a; x5c] ++ join [x5c] target.
Lemma join_in c p x : In x (join [c] p) -> x = c \/ exists s, In s p /\ In x s.
Proof.
  induction p as [|a p IH]; [intros []|]. destruct p as [|b p].
  - cbn [join]. intro I. right. exists a. split; [left|]; auto.
  - change (join [c] (a :: b :: p)) with (a ++ [c] ++ join [c] (b :: p)). intro I. apply in_app_or in I as [I|I].
    + right. exists a. split; [left|]; auto.
    + apply in_app_or in I as [[-> |[]]|I]; auto. destruct (IH I) as [-> |(s & S1 & S2)]; auto. right. exists s. split; [right|]; auto.
Qed.
Theorem win_anywhere m base d target : letter d -> Forall simple_name target ->
  exists s p, path_parse s = Some p /\
    (exists r, win_push base (to_std_pathbuf p) = Some r /\ win_located m r (d, target)) /\
    (exists q r, win_from p = Some q /\ win_push base q = Some r /\ win_located m r (d, target)).
Proof.
  intros L F. set (x := whole d target). exists x, [x].
  assert (Lb := proj1 (letter_b d) L).
  assert (Dk : forall t, win_disk (x ++ t) = Some (d, x5c :: join [x5c] target ++ t)).
  { intro t. unfold x, whole. cbn [app win_disk]. rewrite Lb. reflexivity. }
  assert (Dx : win_disk x = Some (d, x5c :: join [x5c] target)) by (rewrite <- (app_nil_r x), Dk, app_nil_r; reflexivity).
  assert (Lo : forall t, t = [] \/ t = [SLASH] -> win_located m (x ++ t) (d, target)).
  { intros t Ht. apply located_place. unfold place. rewrite Dk. unfold walk. f_equal.
    change (rooted (x5c :: join [x5c] target ++ t)) with true. cbv iota. change (x5c :: join [x5c] target ++ t) with ([] ++ x5c :: (join [x5c] target ++ t)).
    rewrite cut_app by reflexivity. cbn [cut app fold_left step_to]. symmetry. destruct Ht as [-> | ->].
    - rewrite app_nil_r. apply (simple_steps x5c target F eq_refl []).
    - rewrite cut_app by reflexivity. rewrite fold_left_app, (simple_steps x5c target F eq_refl []). reflexivity. }
  split; [|split].
  - assert (NS : no_slash x).
    { unfold no_slash, x, whole. intro I. apply in_app_or in I as [I|I].
      - destruct I as [I|[I|[I|[]]]]; try discriminate. subst d. destruct L as [[L _]|[L _]]; vm_compute in L; congruence.
      - apply join_in in I. destruct I as [I|(s & I1 & I2)]; [discriminate|]. rewrite Forall_forall in F. destruct (F s I1) as (_ & A1 & _). exact (A1 I2). }
    unfold path_parse. rewrite split_char_no_sep_id by exact NS. rewrite parse_loop_normal; [reflexivity|].
    unfold x, whole. repeat split; discriminate.
  - exists (x ++ [SLASH]). split; [|apply Lo; auto]. change (to_std_pathbuf [x]) with (x ++ [SLASH]). unfold win_push. rewrite Dk. reflexivity.
  - exists x, x. split; [|split].
    + unfold win_from. cbn [fold_left]. unfold win_push. rewrite Dx. reflexivity.
    + unfold win_push. rewrite Dx. reflexivity.
    + rewrite <- (app_nil_r x). apply Lo. auto.
Qed.
