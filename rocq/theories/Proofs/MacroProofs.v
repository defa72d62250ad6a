(** Proofs about the macros. *)
From Verif.Model Require Import RustStd Macros.
From Verif.Spec Require Import MacroSpec.
From Verif.Proofs Require Import Basics.

(** ** Field lists *)

Lemma comma_tok t : (exists c, t = TkPunct c /\ c = x2c) \/ t <> COMMA.
Proof. destruct t; try (right; discriminate). destruct (Byte.eqb c x2c) eqn:E.
  - apply Byte.byte_dec_bl in E. subst. left. eexists; eauto.
  - right. intro X. injection X as ->. discriminate.
Qed.
Lemma skip_comma b rest : brace_fields b (COMMA :: rest) = brace_fields true rest.
Proof. reflexivity. Qed.
Lemma skip_false l rest : no_comma l -> brace_fields false (l ++ rest) = brace_fields false rest.
Proof.
  induction l as [|t l IH]; intro N; auto. cbn [app].
  assert (N' : no_comma l) by (intro I; apply N; right; auto).
  destruct t; cbn [brace_fields]; auto.
  destruct (beqb c x2c) eqn:E; auto. apply beqb_eq in E. subst. destruct N. left. reflexivity.
Qed.
Lemma skip_attrs l rest : brace_fields true (attrs_text l ++ rest) = brace_fields true rest.
Proof. induction l as [|a l IH]; auto. Qed.
Lemma one_field d rest : no_comma (fd_ty d) -> brace_fields true (field_text d ++ rest) = fd_name d :: brace_fields false rest.
Proof.
  intro N. unfold field_text. rewrite <- app_assoc, skip_attrs. cbn [app brace_fields].
  change (beqb x3a x2c) with false. cbn iota. rewrite skip_false; auto.
Qed.
Lemma nil_field b : brace_fields b [] = [].
Proof. reflexivity. Qed.

(** Splitting a comma separated list in the middle. *)
Lemma comma_cons x l tr : l <> [] -> comma_sep (x :: l) tr = x ++ COMMA :: comma_sep l tr.
Proof. destruct l; [congruence|reflexivity]. Qed.
Lemma fields_gen (l : list (list token)) (names : list (list str)) tr :
  Forall2 (fun x ns => forall rest, brace_fields true (x ++ rest) = ns ++ brace_fields false rest) l names ->
  brace_fields true (comma_sep l tr) = concat names.
Proof.
  induction 1 as [|x ns l names H F IH]; auto. cbn [concat].
  destruct l as [|y l].
  - inversion F; subst. cbn [comma_sep concat]. destruct tr; rewrite H; reflexivity.
  - rewrite comma_cons by discriminate. rewrite H, skip_comma, IH. reflexivity.
Qed.
Lemma fields_map ds : Forall (fun d => no_comma (fd_ty d)) ds ->
  Forall2 (fun x ns => forall rest, brace_fields true (x ++ rest) = ns ++ brace_fields false rest)
    (map field_text ds) (map (fun d => [fd_name d]) ds).
Proof. induction 1; constructor; auto. intro rest. apply one_field; auto. Qed.
Lemma concat_names ds : concat (map (fun d => [fd_name d]) ds) = map fd_name ds.
Proof. induction ds; cbn; congruence. Qed.

Lemma fields_ok ds tr : Forall (fun d => no_comma (fd_ty d)) ds ->
  brace_fields true (comma_sep (map field_text ds) tr) = map fd_name ds.
Proof. intro F. rewrite (fields_gen _ _ _ (fields_map _ F)). apply concat_names. Qed.

Lemma pub_field inside d rest : no_comma (fd_ty d) ->
  brace_fields true (pub_text inside d ++ rest) = [B "pub"] ++ brace_fields false rest.
Proof.
  intro N. unfold pub_text. rewrite <- app_assoc, skip_attrs. cbn [app brace_fields]. f_equal.
  destruct inside; cbn [app brace_fields]; change (beqb x3a x2c) with false; cbn iota; apply skip_false; auto.
Qed.
Lemma fields_pub ds d inside ds' tr : Forall (fun d => no_comma (fd_ty d)) ds -> no_comma (fd_ty d) ->
  Forall (fun d => no_comma (fd_ty d)) ds' ->
  brace_fields true (comma_sep (map field_text ds ++ pub_text inside d :: map field_text ds') tr) =
  map fd_name ds ++ B "pub" :: map fd_name ds'.
Proof.
  intros F N F'.
  rewrite (fields_gen _ (map (fun d => [fd_name d]) ds ++ [B "pub"] :: map (fun d => [fd_name d]) ds')).
  - rewrite concat_app, concat_names. cbn [concat]. rewrite concat_names. reflexivity.
  - apply Forall2_app; [apply fields_map; auto|]. constructor; [|apply fields_map; auto].
    intro rest. apply pub_field; auto.
Qed.
Lemma fields_comma ds d pre v post ds' tr : Forall (fun d => no_comma (fd_ty d)) ds ->
  fd_ty d = pre ++ COMMA :: TkIdent v :: post -> no_comma pre -> no_comma post ->
  Forall (fun d => no_comma (fd_ty d)) ds' ->
  brace_fields true (comma_sep (map field_text (ds ++ d :: ds')) tr) =
  map fd_name ds ++ fd_name d :: v :: map fd_name ds'.
Proof.
  intros F E N N' F'.
  rewrite (fields_gen _ (map (fun d => [fd_name d]) ds ++ [fd_name d; v] :: map (fun d => [fd_name d]) ds')).
  - rewrite concat_app, concat_names. cbn [concat app]. rewrite concat_names. reflexivity.
  - rewrite map_app. apply Forall2_app; [apply fields_map; auto|]. constructor; [|apply fields_map; auto].
    intro rest. unfold field_text. rewrite <- app_assoc, skip_attrs. cbn [app brace_fields].
    change (beqb x3a x2c) with false. cbn iota. rewrite E, <- app_assoc, skip_false by auto.
    cbn [app]. rewrite skip_comma. cbn [brace_fields]. rewrite skip_false; auto.
Qed.

(** Tuple structs *)
Lemma pskip_false l rest : no_comma l -> paren_fields false (l ++ rest) = paren_fields false rest.
Proof.
  induction l as [|t l IH]; intro N; auto. cbn [app].
  assert (N' : no_comma l) by (intro I; apply N; right; auto).
  destruct t; cbn [paren_fields]; auto.
  destruct (beqb c x2c) eqn:E; auto. apply beqb_eq in E. subst. destruct N. left. reflexivity.
Qed.
Lemma pskip_attrs l rest : paren_fields true (attrs_text l ++ rest) = paren_fields true rest.
Proof. induction l as [|a l IH]; auto. Qed.
Lemma one_tuple l rest : no_comma l -> has_ident l -> paren_fields true (l ++ rest) = S (paren_fields false rest).
Proof.
  induction l as [|t l IH]; intros N [s H]; [destruct H|]. cbn [app].
  assert (N' : no_comma l) by (intro I; apply N; right; auto).
  destruct t; cbn [paren_fields].
  - f_equal. apply pskip_false; auto.
  - destruct (beqb c x2c) eqn:E. { apply beqb_eq in E. subst. destruct N. left. reflexivity. }
    apply IH; auto. destruct H as [H|H]; [discriminate|]. exists s. auto.
  - apply IH; auto. destruct H as [H|H]; [discriminate|]. exists s. auto.
  - apply IH; auto. destruct H as [H|H]; [discriminate|]. exists s. auto.
Qed.
Lemma no_tuple l rest : no_comma l -> ~ has_ident l -> paren_fields true (l ++ rest) = paren_fields true rest.
Proof.
  induction l as [|t l IH]; intros N H; auto. cbn [app].
  assert (N' : no_comma l) by (intro I; apply N; right; auto).
  assert (H' : ~ has_ident l) by (intros [s I]; apply H; exists s; right; auto).
  destruct t; cbn [paren_fields]; auto.
  - destruct H. exists s. left. reflexivity.
  - destruct (beqb c x2c) eqn:E; auto.
Qed.
(** With a decision about each field: counted exactly when it has an identifier. *)
Lemma tuple_gen (l : list tuple_decl) (cs : list bool) tr :
  Forall2 (fun d b => no_comma (td_ty d) /\ if b : bool then has_ident (td_ty d) else ~ has_ident (td_ty d)) l cs ->
  paren_fields true (comma_sep (map tuple_text l) tr) = length (filter (fun b => b) cs).
Proof.
  induction 1 as [|d b l cs [N H] F IH]; auto.
  assert (One : forall rest, paren_fields true (tuple_text d ++ COMMA :: rest) =
                (if b then 1 else 0) + paren_fields true rest).
  { intro rest. unfold tuple_text. rewrite <- app_assoc, pskip_attrs.
    destruct b; [rewrite one_tuple by auto|rewrite no_tuple by auto]; reflexivity. }
  destruct l as [|e l].
  - inversion F; subst. cbn [map comma_sep]. destruct tr.
    + rewrite One. destruct b; reflexivity.
    + unfold tuple_text. rewrite <- app_assoc, pskip_attrs.
      destruct b; [rewrite one_tuple by auto|rewrite no_tuple by auto]; reflexivity.
  - cbn [map] in *. rewrite comma_cons by discriminate. rewrite One, IH. destruct b; reflexivity.
Qed.
Lemma tuple_ok ds tr : Forall (fun d => no_comma (td_ty d) /\ has_ident (td_ty d)) ds ->
  paren_fields true (comma_sep (map tuple_text ds) tr) = length ds.
Proof.
  intro F. rewrite (tuple_gen ds (map (fun _ => true) ds)).
  - induction ds; cbn; auto. inversion F; subst. f_equal; auto.
  - induction F; constructor; auto.
Qed.
Lemma tuple_missed ds d ds' tr : Forall (fun d => no_comma (td_ty d) /\ has_ident (td_ty d)) ds ->
  no_comma (td_ty d) -> ~ has_ident (td_ty d) -> Forall (fun d => no_comma (td_ty d) /\ has_ident (td_ty d)) ds' ->
  paren_fields true (comma_sep (map tuple_text (ds ++ d :: ds')) tr) = length ds + length ds'.
Proof.
  intros F N H F'. rewrite (tuple_gen _ (map (fun _ => true) ds ++ false :: map (fun _ => true) ds')).
  - rewrite filter_app, app_length. cbn [filter].
    assert (L : forall l : list tuple_decl, length (filter (fun b : bool => b) (map (fun _ => true) l)) = length l)
      by (induction l; cbn; congruence). rewrite !L. reflexivity.
  - apply Forall2_app; [|constructor; auto]; clear - F F'; [induction F|induction F']; constructor; auto.
Qed.

(** ** Declarations *)

Lemma punct_no c t : t <> TkPunct c -> is_punct c t = false.
Proof. destruct t; cbn [is_punct]; auto. intro N. destruct (beqb c0 c) eqn:E; auto. apply beqb_eq in E. subst. congruence. Qed.
Lemma word_no w t : t <> TkIdent w -> is_word w t = false.
Proof. destruct t; cbn [is_word]; auto. intro N. destruct (seqb s w) eqn:E; auto. apply seqb_eq in E. subst. congruence. Qed.

(** The state after collecting [l]. *)
Definition grown (s : derive_state) (l : list token) : derive_state :=
  if ds_in_where s
  then DeriveState (ds_gen s) (ds_where s ++ l) true (ds_level s) (ds_generics s) (ds_is_gen_name s)
  else DeriveState (ds_gen s ++ l) (ds_where s) false (ds_level s) (ds_generics s) (ds_is_gen_name s).
Definition levelled (s : derive_state) (n : Z) : derive_state :=
  DeriveState (ds_gen s) (ds_where s) (ds_in_where s) n (ds_generics s) (ds_is_gen_name s).
Lemma grown_nil s : grown s [] = s.
Proof. destruct s as [g w [|] n gs i]; unfold grown; cbn; rewrite app_nil_r; reflexivity. Qed.
Lemma grown_app s a b : grown (grown s a) b = grown s (a ++ b).
Proof. destruct s as [g w [|] n gs i]; unfold grown; cbn; rewrite app_assoc; reflexivity. Qed.
Lemma extend_grown s t : ds_extend s t = grown s [t].
Proof. reflexivity. Qed.
Lemma levelled_grown s l n : levelled (grown s l) n = grown (levelled s n) l.
Proof. destruct s as [g w [|] k gs i]; reflexivity. Qed.
Lemma grown_level s l : ds_level (grown s l) = ds_level s.
Proof. destruct s as [g w [|] k gs i]; reflexivity. Qed.
Lemma grown_isg s l : ds_is_gen_name (grown s l) = ds_is_gen_name s.
Proof. destruct s as [g w [|] k gs i]; reflexivity. Qed.

Lemma track_lt s : ds_track s LT = levelled s (ds_level s + 1).
Proof.
  unfold ds_track, levelled. cbn [is_punct LT]. change (beqb x3c x3c) with true. change (beqb x3c x3e) with false.
  change (beqb x3c x2c) with false. cbn iota. destruct (_ =? 1)%Z; [|reflexivity]. destruct (ds_is_gen_name s); reflexivity.
Qed.
Lemma track_gt s : ds_track s GT = levelled s (ds_level s - 1).
Proof.
  unfold ds_track, levelled. cbn [is_punct GT]. change (beqb x3e x3c) with false. change (beqb x3e x3e) with true.
  change (beqb x3e x2c) with false. cbn iota. destruct (_ =? 1)%Z; [|reflexivity]. destruct (ds_is_gen_name s); reflexivity.
Qed.
Lemma step_deep name s t rest : ds_level (ds_track s t) <> 0%Z ->
  derive_loop name s (t :: rest) = derive_loop name (grown (ds_track s t) [t]) rest.
Proof. intro N. cbn [derive_loop]. apply Z.eqb_neq in N. rewrite N. reflexivity. Qed.

(** Inside two or more levels, balanced text is only collected. *)
Lemma nest_loop name l : nest l -> forall s rest, (2 <= ds_level s)%Z ->
  derive_loop name s (l ++ rest) = derive_loop name (grown s l) rest.
Proof.
  induction 1 as [|t l H1 H2 N IH|a l Na IHa Nl IHl]; intros s rest L.
  - rewrite grown_nil. reflexivity.
  - cbn [app derive_loop]. unfold ds_track. rewrite (punct_no x3c), (punct_no x3e) by auto.
    destruct (ds_level s =? 1)%Z eqn:E; [apply Z.eqb_eq in E; lia|].
    cbn [ds_level]. destruct (ds_level s =? 0)%Z eqn:E0; [apply Z.eqb_eq in E0; lia|]. cbn [negb].
    rewrite extend_grown, IH; [|rewrite grown_level; auto].
    replace (DeriveState _ _ _ _ _ _) with s by (destruct s; reflexivity). rewrite grown_app. reflexivity.
  - cbn [app]. rewrite step_deep by (rewrite track_lt; cbn; lia). rewrite track_lt, <- app_assoc, IHa by (rewrite grown_level; cbn; lia).
    cbn [app]. rewrite step_deep by (rewrite track_gt; cbn; rewrite !grown_level; cbn; lia).
    rewrite track_gt, IHl by (rewrite grown_level; cbn; rewrite !grown_level; cbn; lia).
    f_equal. rewrite !levelled_grown, !grown_app. unfold levelled at 1. rewrite !grown_level. cbn [ds_level levelled].
    replace (ds_level s + 1 - 1)%Z with (ds_level s) by lia. destruct s as [g w [|] k gs i]; unfold grown; cbn; rewrite <- ?app_assoc; reflexivity.
Qed.
(** At level 1 with the parameter's name already read. *)
Lemma flat_loop name l : flat l -> forall s rest, ds_level s = 1%Z -> ds_is_gen_name s = false ->
  derive_loop name s (l ++ rest) = derive_loop name (grown s l) rest.
Proof.
  induction 1 as [|t l H1 H2 H3 N IH|a l Na Nl IHl]; intros s rest L G.
  - rewrite grown_nil. reflexivity.
  - assert (T : ds_track s t = s).
    { unfold ds_track. rewrite (punct_no x3c), (punct_no x3e), (punct_no x2c) by auto.
      rewrite L, G. destruct s; cbn in L, G |- *; subst; reflexivity. }
    cbn [app]. rewrite step_deep by (rewrite T; lia). rewrite T, IH by (rewrite ?grown_level, ?grown_isg; auto).
    rewrite grown_app. reflexivity.
  - cbn [app]. rewrite step_deep by (rewrite track_lt; cbn; lia).
    rewrite track_lt, <- app_assoc, (nest_loop _ _ Na) by (rewrite grown_level; cbn; lia).
    cbn [app]. rewrite step_deep by (rewrite track_gt; cbn; rewrite !grown_level; cbn; lia).
    rewrite track_gt, IHl; [|rewrite grown_level; cbn; rewrite !grown_level; cbn; lia|rewrite grown_isg; cbn; rewrite !grown_isg; auto].
    f_equal. rewrite !levelled_grown, !grown_app. unfold levelled at 1. rewrite !grown_level. cbn [ds_level levelled].
    replace (ds_level s + 1 - 1)%Z with (ds_level s) by lia. destruct s as [g w [|] k gs i]; unfold grown; cbn; rewrite <- ?app_assoc; reflexivity.
Qed.

(** The parameter list. *)
Lemma params_loop name gs tr : gs <> [] -> Forall (fun g => flat (gp_rest g)) gs ->
  forall g0 w n rest,
  derive_loop name (DeriveState g0 w false 1 n true) (comma_sep (map (fun g => TkIdent (gp_name g) :: gp_rest g) gs) tr ++ GT :: rest) =
  derive_loop name (DeriveState (g0 ++ comma_sep (map (fun g => TkIdent (gp_name g) :: gp_rest g) gs) tr ++ [GT]) w false 0 (n ++ map gp_name gs) tr)
    rest.
Proof.
  induction gs as [|g gs IH]; intros NE F g0 w n rest; [congruence|]. inversion F as [|? ? Fl Fs]; subst. clear NE.
  assert (One : forall r, derive_loop name (DeriveState g0 w false 1 n true) (TkIdent (gp_name g) :: gp_rest g ++ r) =
     derive_loop name (DeriveState (g0 ++ TkIdent (gp_name g) :: gp_rest g) w false 1 (n ++ [gp_name g]) false) r).
  { intro r. cbn [derive_loop]. unfold ds_track. cbn [is_punct ds_level Z.eqb Pos.eqb ds_is_gen_name ds_generics negb].
    rewrite extend_grown, (flat_loop _ _ Fl); [|reflexivity|reflexivity].
    unfold grown; cbn. rewrite <- !app_assoc. reflexivity. }
  destruct gs as [|g' gs].
  - cbn [map comma_sep]. rewrite <- !app_assoc. cbn [app]. rewrite One. destruct tr.
    + cbn [app derive_loop]. unfold ds_track. cbn [is_punct COMMA]. change (beqb x2c x3c) with false.
      change (beqb x2c x3e) with false. change (beqb x2c x2c) with true. cbn [ds_level Z.eqb Pos.eqb ds_is_gen_name negb].
      rewrite extend_grown. unfold grown; cbn [ds_in_where].
      unfold ds_track. cbn [is_punct GT]. change (beqb x3e x3c) with false. change (beqb x3e x3e) with true.
      cbn. rewrite <- !app_assoc. reflexivity.
    + cbn [app derive_loop]. unfold ds_track. cbn [is_punct GT]. change (beqb x3e x3c) with false. change (beqb x3e x3e) with true.
      change (beqb x3e x2c) with false. cbn. rewrite <- !app_assoc. reflexivity.
  - cbn [map] in *. rewrite comma_cons by discriminate.
    set (tail := comma_sep ((TkIdent (gp_name g') :: gp_rest g') :: map (fun g => TkIdent (gp_name g) :: gp_rest g) gs) tr) in *.
    rewrite <- app_assoc. cbn [app]. rewrite One. cbn [app derive_loop]. unfold ds_track. cbn [is_punct COMMA].
    change (beqb x2c x3c) with false. change (beqb x2c x3e) with false. change (beqb x2c x2c) with true.
    cbn [ds_level Z.eqb Pos.eqb ds_is_gen_name negb ds_generics ds_gen ds_where ds_in_where].
    rewrite extend_grown. unfold grown; cbn [ds_in_where ds_gen ds_where ds_level ds_generics ds_is_gen_name].
    rewrite IH by (auto; discriminate). rewrite <- !app_assoc. cbn [app]. reflexivity.
Qed.
Lemma generics_loop name gs tr : Forall (fun g => flat (gp_rest g)) gs ->
  forall rest,
  derive_loop name (DeriveState [] [] false 0 [] true) (generics_text gs tr ++ rest) =
  derive_loop name (DeriveState (generics_text gs tr) [] false 0 (map gp_name gs) (match gs with [] => true | _ => tr end)) rest.
Proof.
  intros F rest. destruct gs as [|g gs]; auto. unfold generics_text. cbn [app]. rewrite <- app_assoc. cbn [app].
  cbn [derive_loop]. unfold ds_track. cbn [is_punct LT]. change (beqb x3c x3c) with true. change (beqb x3c x3e) with false.
  cbn [ds_level Z.add Z.eqb Pos.eqb ds_is_gen_name negb ds_generics ds_gen ds_where ds_in_where].
  rewrite extend_grown. unfold grown; cbn [ds_in_where ds_gen ds_where ds_level ds_generics ds_is_gen_name app].
  rewrite params_loop by (auto; discriminate). reflexivity.
Qed.

(** Where clauses. *)
Lemma where_tok_step name t s rest : where_token t -> ds_level s = 0%Z ->
  derive_loop name s (t :: rest) = derive_loop name (grown s [t]) rest.
Proof.
  intros (H1 & H2 & H3 & H4 & H5) L.
  assert (T : ds_track s t = s).
  { unfold ds_track. rewrite (punct_no x3c), (punct_no x3e) by auto. destruct s; cbn in L |- *; subst; reflexivity. }
  cbn [derive_loop]. rewrite T, L. change (negb (0 =? 0)%Z) with false. cbn iota.
  rewrite (word_no _ _ H3), extend_grown. destruct t; auto. destruct d; auto; exfalso; [eapply H4|eapply H5]; reflexivity.
Qed.
Lemma where_plain name l : Forall where_token l -> forall s rest, ds_level s = 0%Z ->
  derive_loop name s (l ++ rest) = derive_loop name (grown s l) rest.
Proof.
  induction 1 as [|t l H F IH]; intros s rest L; [rewrite grown_nil; reflexivity|]. cbn [app].
  rewrite where_tok_step, IH by (rewrite ?grown_level; auto). rewrite grown_app. reflexivity.
Qed.
Lemma where_loop name l : where_clause l -> forall s rest, ds_level s = 0%Z -> ds_is_gen_name s = false ->
  derive_loop name s (l ++ rest) = derive_loop name (grown s l) rest.
Proof.
  induction 1 as [|t l H F IH|a l Fa F IH]; intros s rest L G; [rewrite grown_nil; reflexivity| |].
  - cbn [app]. rewrite where_tok_step, IH by (rewrite ?grown_level, ?grown_isg; auto). rewrite grown_app. reflexivity.
  - cbn [app]. rewrite step_deep by (rewrite track_lt; cbn; lia).
    rewrite track_lt, <- app_assoc, (flat_loop _ _ Fa); [|rewrite grown_level; cbn; lia|rewrite grown_isg; auto].
    cbn [app]. set (s1 := grown (grown (levelled s (ds_level s + 1)) [LT]) a).
    assert (L1 : ds_level s1 = 1%Z) by (unfold s1; rewrite !grown_level; cbn; lia).
    assert (St : forall r, derive_loop name s1 (GT :: r) = derive_loop name (grown (levelled s1 0) [GT]) r).
    { intro r. cbn [derive_loop]. rewrite track_gt, L1. reflexivity. }
    rewrite St, IH; [|rewrite grown_level; reflexivity|rewrite grown_isg; cbn; unfold s1; rewrite !grown_isg; auto].
    f_equal. unfold s1. destruct s as [g w [|] k gs i]; cbn in L, G; subst; unfold grown; cbn; rewrite <- !app_assoc; reflexivity.
Qed.
Lemma after_struct_pre pre rest : ~ In (TkIdent (B "struct")) pre -> after_struct (pre ++ TkIdent (B "struct") :: rest) = Some rest.
Proof.
  induction pre as [|t pre IH]; intro N; [reflexivity|]. cbn [app after_struct].
  assert (N' : ~ In (TkIdent (B "struct")) pre) by (intro; apply N; right; auto).
  destruct t; auto. destruct (seqb s (B "struct")) eqn:E; auto. apply seqb_eq in E. subst. destruct N. left. reflexivity.
Qed.

Lemma head_loop pre name gs tr w rest : ~ In (TkIdent (B "struct")) pre -> Forall (fun g => flat (gp_rest g)) gs ->
  (Forall where_token (clause_of w) \/ gs <> [] /\ tr = false /\ where_clause (clause_of w)) ->
  handle_derive (struct_head pre name gs tr w ++ rest) =
  derive_loop (TkIdent name) (DeriveState (generics_text gs tr) (clause_of w) (match w with Some _ => true | None => false end) 0
    (map gp_name gs) (match gs with [] => true | _ => tr end)) rest.
Proof.
  intros N F W. unfold handle_derive, struct_head. rewrite <- app_assoc. cbn [app]. rewrite after_struct_pre by auto.
  rewrite <- app_assoc, generics_loop by auto. destruct w as [l|]; [|reflexivity]. cbn [where_text clause_of] in *.
  cbn [app derive_loop]. unfold ds_track. cbn [is_punct ds_level Z.eqb negb is_word].
  change (seqb (B "where") (B "where")) with true. cbn iota. cbn [ds_gen ds_where ds_generics ds_is_gen_name].
  destruct W as [W|(NE & -> & W)].
  - rewrite where_plain by auto. reflexivity.
  - rewrite where_loop; auto. destruct gs; [congruence|reflexivity].
Qed.
Lemma body_step name s d body post : d = DBrace \/ d = DParen -> ds_level s = 0%Z ->
  derive_loop name s (TkGroup d body :: post) =
  Done ((match d with DBrace => DrBraces | _ => DrParens end) body (StructInfo name (ds_gen s) (ds_where s) (ds_generics s))).
Proof.
  intros D L. cbn [derive_loop]. unfold ds_track. cbn [is_punct]. rewrite L. cbn [Z.eqb ds_level negb ds_gen ds_where ds_generics].
  destruct D as [->| ->]; reflexivity.
Qed.

Lemma derive_braces pre name gs tr w body post : ~ In (TkIdent (B "struct")) pre -> Forall (fun g => flat (gp_rest g)) gs ->
  (Forall where_token (clause_of w) \/ gs <> [] /\ tr = false /\ where_clause (clause_of w)) ->
  handle_derive (struct_head pre name gs tr w ++ TkGroup DBrace body :: post) =
  Done (DrBraces body (StructInfo (TkIdent name) (generics_text gs tr) (clause_of w) (map gp_name gs))).
Proof. intros. rewrite head_loop, body_step; auto. Qed.
(** The where clause of a tuple struct comes after the body: it is never seen. *)
Lemma derive_parens pre name gs tr body post : ~ In (TkIdent (B "struct")) pre -> Forall (fun g => flat (gp_rest g)) gs ->
  handle_derive (struct_head pre name gs tr None ++ TkGroup DParen body :: post) =
  Done (DrParens body (StructInfo (TkIdent name) (generics_text gs tr) [] (map gp_name gs))).
Proof. intros. rewrite head_loop, body_step; auto. left. constructor. Qed.
(** No body: the macro panics. *)
Lemma unit_panics pre name gs tr w : ~ In (TkIdent (B "struct")) pre -> Forall (fun g => flat (gp_rest g)) gs ->
  (Forall where_token (clause_of w) \/ gs <> [] /\ tr = false /\ where_clause (clause_of w)) ->
  handle_derive (struct_head pre name gs tr w ++ [TkPunct x3b]) = Panic.
Proof. intros. rewrite head_loop by auto. reflexivity. Qed.
(** Not a struct: the compile error. *)
Lemma not_struct toks : handle_derive toks = Done DrCompileError <-> ~ In (TkIdent (B "struct")) toks.
Proof.
  assert (A : forall l, after_struct l = None <-> ~ In (TkIdent (B "struct")) l).
  { induction l as [|t l IH]; [cbn; tauto|]. cbn [after_struct In]. destruct t.
    - destruct (seqb s (B "struct")) eqn:E.
      + apply seqb_eq in E. subst. split; [discriminate|]. intro H. destruct H. auto.
      + rewrite IH. split; [intros H [X|X]; auto; injection X as ->; cbv in E; discriminate|tauto].
    - rewrite IH. split; [intros H [X|X]; auto; discriminate|tauto].
    - rewrite IH. split; [intros H [X|X]; auto; discriminate|tauto].
    - rewrite IH. split; [intros H [X|X]; auto; discriminate|tauto]. }
  rewrite <- A. unfold handle_derive. destruct (after_struct toks) as [[|n rest]|]; split; intro H; try discriminate; auto.
  exfalso. revert H. generalize (DeriveState [] [] false 0 [] true). induction rest as [|t rest IH]; intros s H; [discriminate|].
  cbn [derive_loop] in H. destruct (negb _); [eapply IH; eauto|].
  destruct t as [x|c|x|d l]; try (destruct (is_word (B "where") _) in H; eapply IH; eauto; fail).
  destruct d; try discriminate; cbn [is_word] in H; eapply IH; eauto.
Qed.

(** The header of the generated impl. *)
Lemma idents_sep l : comma_idents l = comma_sep (map (fun g => [TkIdent g]) l) false.
Proof. induction l as [|x [|y l] IH]; auto. cbn [comma_idents map] in *. rewrite IH. reflexivity. Qed.
Lemma bounds_sep trait l c : where_bounds trait c l =
  (match l with [] => [] | _ => if c then [COMMA] else [] end) ++ comma_sep (map (bound_text trait) l) false.
Proof.
  revert c. induction l as [|x l IH]; intro c; [reflexivity|]. cbn [where_bounds map]. rewrite IH.
  destruct l as [|y l]; [destruct c; reflexivity|]. cbn [map]. rewrite (comma_cons (bound_text trait x)) by discriminate.
  destruct c; reflexivity.
Qed.
Lemma header_sep trait name gens names wh :
  exists sep, impl_header trait (StructInfo (TkIdent name) gens wh names) =
    impl_text trait name gens names (wh ++ sep ++ comma_sep (map (bound_text trait) names) false) /\
    sep = (match names with [] => [] | _ => match rev wh with [] => [] | t :: _ => if is_punct x2c t then [] else [COMMA] end end).
Proof.
  eexists. split; [|reflexivity]. unfold impl_header, impl_text. cbn [si_gen_between si_name si_generics si_where_between].
  rewrite bounds_sep. unfold where_needs_comma.
  assert (G : gen_list names = angles names).
  { destruct names as [|x l]; auto. unfold gen_list, angles. rewrite idents_sep. reflexivity. }
  rewrite G. unfold crate_path. f_equal. f_equal. cbn [app]. do 6 f_equal. f_equal. f_equal. f_equal. f_equal.
  destruct names; auto. destruct (rev wh); auto. destruct (is_punct x2c t); reflexivity.
Qed.

Lemma header_ok trait name gens names wh :
  exists sep, clause_sep wh names sep /\ impl_header trait (StructInfo (TkIdent name) gens wh names) =
    impl_text trait name gens names (wh ++ sep ++ comma_sep (map (bound_text trait) names) false).
Proof.
  destruct (header_sep trait name gens names wh) as (sep & E & S). exists sep. split; auto. subst sep. unfold clause_sep.
  destruct names as [|x l]; [right; auto|]. destruct wh as [|t0 wh0] eqn:W; [right; auto|]. rewrite <- W in *.
  assert (NE : wh <> []) by (rewrite W; discriminate). clear W.
  destruct (exists_last NE) as (l' & t & ->). rewrite rev_app_distr. cbn [rev app].
  destruct (is_punct x2c t) eqn:P.
  - right. split; auto. right. right. exists l'. f_equal. f_equal. destruct t; try discriminate. cbn in P. apply beqb_eq in P. subst. reflexivity.
  - left. split; auto. split; [discriminate|]. split; auto. intros (l'' & E''). apply app_inj_tail in E''. destruct E'' as (_ & ->). discriminate.
Qed.

(** ** Values *)
Section Values.
Context {L F : Type}.
Context (ffrom : str -> value L -> option F) (fto : str -> F -> option (value L)).

Definition removed (obj : list (str * value L)) (fields : list str) := fold_left (fun o f => mremove seqb f o) fields obj.
Lemma removed_NoDup fields : forall obj, NoDup (map fst obj) -> NoDup (map fst (removed obj fields)).
Proof. induction fields as [|f l IH]; intros obj N; auto. apply IH. apply mremove_NoDup; auto. Qed.
Lemma removed_get fields : forall obj k, NoDup (map fst obj) ->
  mget seqb k (removed obj fields) = if existsb (seqb k) fields then None else mget seqb k obj.
Proof.
  induction fields as [|f l IH]; intros obj k N; auto. cbn [removed fold_left existsb].
  unfold removed in IH. rewrite IH by (apply mremove_NoDup; auto).
  rewrite (mget_mremove seqb seqb_eq) by auto. destruct (seqb k f); cbn [orb]; auto. destruct (existsb _ l); auto.
Qed.
Lemma removed_nil fields obj : NoDup (map fst obj) -> (removed obj fields = [] <-> incl (map fst obj) fields).
Proof.
  intro N. split.
  - intros E k I. assert (G : mget seqb k (removed obj fields) = None) by (rewrite E; reflexivity).
    rewrite removed_get in G by auto. destruct (existsb (seqb k) fields) eqn:X.
    + apply existsb_exists in X. destruct X as (y & Y & Z). apply seqb_eq in Z. subst. auto.
    + apply (mget_None seqb seqb_eq) in G. contradiction.
  - intro I. destruct (removed obj fields) as [|[k v] r] eqn:E; auto. exfalso.
    assert (G : mget seqb k (removed obj fields) = Some v) by (rewrite E; cbn [mget]; rewrite (proj2 (seqb_eq k k) eq_refl); reflexivity).
    rewrite removed_get in G by auto. destruct (existsb (seqb k) fields) eqn:X; [discriminate|].
    apply (mget_Some_In_fst seqb seqb_eq) in G. apply I in G.
    assert (existsb (seqb k) fields = true) by (apply existsb_exists; exists k; split; auto; apply seqb_eq; auto). congruence.
Qed.
Lemma init_spec fields : forall obj ret obj', NoDup fields -> NoDup (map fst obj) ->
  (init_fields ffrom obj fields = Some (ret, obj') <->
   map fst ret = fields /\ (forall f x, In (f, x) ret -> exists v, mget seqb f obj = Some v /\ ffrom f v = Some x) /\
   obj' = removed obj fields).
Proof.
  induction fields as [|f l IH]; intros obj ret obj' ND N; cbn [init_fields].
  - split.
    + intro E. injection E as <- <-. split; auto. split; [intros ? ? []|reflexivity].
    + intros (E & _ & ->). destruct ret; [reflexivity|discriminate].
  - inversion ND as [|? ? Nf NDl]; subst.
    assert (N' : NoDup (map fst (mremove seqb f obj))) by (apply mremove_NoDup; auto).
    assert (G : forall g, In g l -> mget seqb g (mremove seqb f obj) = mget seqb g obj).
    { intros g I. rewrite (mget_mremove seqb seqb_eq) by auto. destruct (seqb g f) eqn:E; auto.
      apply seqb_eq in E. subst. contradiction. }
    split.
    + destruct (mget seqb f obj) as [v|] eqn:E; [|discriminate]. destruct (ffrom f v) as [x|] eqn:Ex; [|discriminate].
      destruct (init_fields ffrom (mremove seqb f obj) l) as [[r o]|] eqn:Ei; [|discriminate].
      intro X. injection X as <- <-. apply (IH _ _ _ NDl N') in Ei. destruct Ei as (Em & Ev & ->). subst l. split; [reflexivity|].
      split; [|reflexivity]. intros g y [X|X].
      * injection X as <- <-. eauto.
      * destruct (Ev _ _ X) as (u & U & V). exists u. rewrite G in U; auto. apply (in_map fst) in X. exact X.
    + intros (Em & Ev & ->). destruct ret as [|[g x] ret]; [discriminate|]. injection Em as -> Em.
      destruct (Ev f x (or_introl eq_refl)) as (v & E & Ex). rewrite E, Ex.
      assert (Ei : init_fields ffrom (mremove seqb f obj) l = Some (ret, removed (mremove seqb f obj) l)).
      { apply (IH _ _ _ NDl N'). split; auto. split; auto. intros g y I. destruct (Ev g y (or_intror I)) as (u & U & V).
        exists u. rewrite G; auto. rewrite <- Em. apply (in_map fst) in I. exact I. }
      rewrite Ei. reflexivity.
Qed.
Lemma from_object fields obj ret : NoDup fields -> NoDup (map fst obj) ->
  (from_json_braces ffrom fields (VObject obj) = Some ret <->
   map fst ret = fields /\ incl (map fst obj) fields /\
   forall f x, In (f, x) ret -> exists v, In (f, v) obj /\ ffrom f v = Some x).
Proof.
  intros ND N. unfold from_json_braces.
  assert (Q : forall f v, mget seqb f obj = Some v <-> In (f, v) obj).
  { intros. split; [apply (mget_In seqb seqb_eq)|apply (In_mget seqb seqb_eq); auto]. }
  split.
  - destruct (init_fields ffrom obj fields) as [[r o]|] eqn:E; [|discriminate]. destruct o; [|discriminate].
    intro X. injection X as <-. apply (init_spec fields) in E; auto. destruct E as (Em & Ev & Er). split; auto. split.
    + apply removed_nil; auto.
    + intros f x I. destruct (Ev f x I) as (v & V & W). exists v. rewrite <- Q. auto.
  - intros (Em & I & Ev). assert (E : init_fields ffrom obj fields = Some (ret, removed obj fields)).
    { apply init_spec; auto. split; auto. split; auto. intros f x J. destruct (Ev f x J) as (v & V & W). exists v. rewrite Q. auto. }
    rewrite E. rewrite (proj2 (removed_nil fields obj N) I). reflexivity.
Qed.
(** The iteration order of the object does not matter. *)
Lemma from_perm fields obj obj' : NoDup fields -> NoDup (map fst obj) -> Permutation obj obj' ->
  from_json_braces ffrom fields (VObject obj) = from_json_braces ffrom fields (VObject obj').
Proof.
  intros ND N P. assert (N' : NoDup (map fst obj')) by (eapply Permutation_NoDup; [apply Permutation_map; eauto|auto]).
  assert (Q : forall ret, from_json_braces ffrom fields (VObject obj) = Some ret <-> from_json_braces ffrom fields (VObject obj') = Some ret).
  { intro ret. rewrite !from_object by auto. split; intros (A & I & E); (split; [auto|]); (split; [intros k K; apply I;
      (eapply Permutation_in; [|exact K]); apply Permutation_map; auto; apply Permutation_sym; auto|]);
      intros f x J; destruct (E f x J) as (v & V & W); exists v; (split; [|auto]);
      (eapply Permutation_in; [|exact V]); auto; apply Permutation_sym; auto. }
  destruct (from_json_braces ffrom fields (VObject obj)) as [r|] eqn:E.
  - symmetry. apply Q. reflexivity.
  - destruct (from_json_braces ffrom fields (VObject obj')) as [r|] eqn:E'; auto. destruct (proj2 (Q r) eq_refl); discriminate || auto.
Qed.

Lemma insert_spec self0 : forall self obj, NoDup (map fst self) -> NoDup (map fst obj) ->
  (forall k x, In (k, x) self -> mget seqb k self0 = Some x) -> (forall k, In k (map fst self) -> ~ In k (map fst obj)) ->
  match insert_fields fto obj (map fst self) self0 with
  | Some obj' => NoDup (map fst obj') /\ (forall k x, In (k, x) self -> exists v, fto k x = Some v) /\
                 forall k v, In (k, v) obj' <-> In (k, v) obj \/ exists x, In (k, x) self /\ fto k x = Some v
  | None => exists k x, In (k, x) self /\ fto k x = None
  end.
Proof using fto.
  clear ffrom.
  induction self as [|[k x] self IH]; intros obj ND N S D; cbn [map fst insert_fields].
  - split; auto. split; [intros ? ? []|]. intros k v. split; auto. intros [H|(x & [] & _)]; auto.
  - rewrite (S k x (or_introl eq_refl)). inversion ND as [|? ? Nk NDs]; subst.
    destruct (fto k x) as [v|] eqn:E; [|exists k, x; split; [left; reflexivity|auto]].
    assert (Ms : forall k' v', In (k', v') (mset seqb k v obj) <-> In (k', v') obj \/ k' = k /\ v' = v).
    { intros k' v'. split.
      - intro I. apply (mset_In_inv seqb seqb_eq) in I. tauto.
      - assert (ND' : NoDup (map fst (mset seqb k v obj))) by (apply (mset_NoDup seqb seqb_eq); auto).
        intro I. apply (mget_In seqb seqb_eq). rewrite (mget_mset seqb seqb_eq). destruct (seqb k' k) eqn:Ek.
        + apply seqb_eq in Ek. subst. destruct I as [I|[_ ->]]; auto. exfalso. apply (D k (or_introl eq_refl)).
          apply (in_map fst) in I. exact I.
        + destruct I as [I|[-> _]]; [apply (In_mget seqb seqb_eq); auto|]. rewrite (proj2 (seqb_eq k k) eq_refl) in Ek. discriminate. }
    specialize (IH (mset seqb k v obj) NDs (mset_NoDup seqb seqb_eq _ _ _ N) (fun k' x' I => S k' x' (or_intror I))).
    assert (D' : forall k', In k' (map fst self) -> ~ In k' (map fst (mset seqb k v obj))).
    { intros k' I J. apply in_map_iff in J. destruct J as ([k'' v'] & <- & J). cbn [fst] in *. apply Ms in J. destruct J as [J|[-> _]].
      - apply (D k'' (or_intror I)). apply (in_map fst) in J. exact J.
      - contradiction. }
    specialize (IH D'). destruct (insert_fields fto (mset seqb k v obj) (map fst self) self0) as [obj'|].
    + destruct IH as (N' & A & Q). split; auto. split.
      * intros k' x' [X|X]; [injection X as <- <-; eauto|eauto].
      * intros k' v'. rewrite Q, Ms. split.
        -- intros [[H|[-> ->]]|(x' & I & T)]; auto; right; eexists; (split; [|eassumption]); [left; reflexivity|right; auto].
        -- intros [H|(x' & [X|X] & T)]; auto.
           ++ injection X as <- <-. rewrite E in T. injection T as ->. auto.
           ++ right. eauto.
    + destruct IH as (k' & x' & I & T). exists k', x'. split; [right|]; auto.
Qed.
Lemma to_object self : NoDup (map fst self) ->
  match to_json_braces fto (map fst self) self with
  | Some v => exists obj, v = VObject obj /\ NoDup (map fst obj) /\
      (forall k x, In (k, x) self -> exists u, fto k x = Some u) /\
      forall k u, In (k, u) obj <-> exists x, In (k, x) self /\ fto k x = Some u
  | None => exists k x, In (k, x) self /\ fto k x = None
  end.
Proof using fto.
  clear ffrom.
  intro ND. unfold to_json_braces.
  pose proof (insert_spec self self [] ND (NoDup_nil _) (fun k x I => In_mget seqb seqb_eq k x self ND I) (fun k _ H => H)) as X.
  destruct (insert_fields fto [] (map fst self) self) as [obj|]; auto.
  destruct X as (N & A & Q). exists obj. split; auto. split; auto. split; auto. intros k u. rewrite Q. cbn [In]. tauto.
Qed.
Lemma round_trip self v : NoDup (map fst self) ->
  (forall k x u, In (k, x) self -> fto k x = Some u -> ffrom k u = Some x) ->
  to_json_braces fto (map fst self) self = Some v -> from_json_braces ffrom (map fst self) v = Some self.
Proof.
  intros ND R E. pose proof (to_object self ND) as X. rewrite E in X. destruct X as (obj & -> & N & A & Q).
  apply from_object; auto. split; auto. split.
  - intros k I. apply in_map_iff in I. destruct I as ([k' u] & <- & I). apply Q in I. destruct I as (x & I & _).
    apply (in_map fst) in I. exact I.
  - intros k x I. destruct (A k x I) as (u & U). exists u. split; [apply Q; eauto|eauto].
Qed.
(** The other direction: what was read is written back as the same members. *)
Lemma round_back fields obj ret : NoDup fields -> NoDup (map fst obj) ->
  (forall k x u, ffrom k u = Some x -> fto k x = Some u) ->
  from_json_braces ffrom fields (VObject obj) = Some ret ->
  exists obj', to_json_braces fto fields ret = Some (VObject obj') /\ Permutation obj' obj.
Proof.
  intros ND N R E. apply from_object in E; auto. destruct E as (Em & I & Ev). subst fields.
  pose proof (to_object ret ND) as X. destruct (to_json_braces fto (map fst ret) ret) as [v|].
  - destruct X as (obj' & -> & N' & A & Q). exists obj'. split; auto.
    apply NoDup_Permutation; [eapply NoDup_map_inv; eauto|eapply NoDup_map_inv; eauto|].
    intros [k u]. rewrite Q. split.
    + intros (x & J & T). destruct (Ev k x J) as (u' & U & V). apply R in V. congruence.
    + intro J. assert (K : In k (map fst ret)) by (apply I; apply (in_map fst) in J; exact J).
      apply in_map_iff in K. destruct K as ([k' x] & <- & K). destruct (Ev _ _ K) as (u' & U & V).
      exists x. split; auto. assert (u' = u) as <-; auto. cbn [fst] in *.
      apply (In_mget seqb seqb_eq) in U, J; auto. congruence.
  - destruct X as (k & x & J & T). destruct (Ev k x J) as (u & _ & V). apply R in V. congruence.
Qed.
Lemma from_only_objects fields v ret : from_json_braces ffrom fields v = Some ret -> exists obj, v = VObject obj.
Proof. destruct v; try discriminate. eauto. Qed.
End Values.

Section Tuples.
Context {L F : Type}.
Context (ffrom : nat -> value L -> option F) (fto : nat -> F -> option (value L)).
Lemma init_tuple_spec n : forall i it l it', init_tuple ffrom i n it = Some (l, it') <->
  exists used, it = used ++ it' /\ length used = n /\ length l = n /\
    forall j v x, nth_error used j = Some v -> nth_error l j = Some x -> ffrom (i + j) v = Some x.
Proof.
  induction n as [|n IH]; intros i it l it'; cbn [init_tuple].
  - split.
    + intro E. injection E as <- <-. exists []. repeat split. intros [|j] ? ? H; discriminate.
    + intros ([|] & -> & E & E' & _); [|discriminate]. destruct l; [reflexivity|discriminate].
  - split.
    + destruct it as [|v it]; [discriminate|]. destruct (ffrom i v) as [x|] eqn:E; [|discriminate].
      destruct (init_tuple ffrom (S i) n it) as [[r o]|] eqn:Ei; [|discriminate]. intro X. injection X as <- <-.
      apply IH in Ei. destruct Ei as (used & -> & <- & El & H). exists (v :: used). repeat split; [cbn; congruence|].
      intros [|j] v' x' V X; cbn in V, X.
      * injection V as <-. injection X as <-. rewrite Nat.add_0_r. auto.
      * rewrite <- Nat.add_succ_comm. eauto.
    + intros ([|v used] & -> & E & E' & H); [discriminate|]. destruct l as [|x l]; [discriminate|]. cbn [app].
      injection E as E. injection E' as E'. pose proof (H 0 v x eq_refl eq_refl) as H0. rewrite Nat.add_0_r in H0. rewrite H0.
      rewrite (proj2 (IH (S i) (used ++ it') l it')); auto. exists used. repeat split; auto.
      intros j v' x' V X. rewrite Nat.add_succ_comm. apply H; auto.
Qed.
Lemma from_array n v l : from_json_parens ffrom n v = Some l <->
  exists arr, v = VArray arr /\ length l = n /\ pointwise (fun i u x => ffrom i u = Some x) arr l.
Proof.
  unfold from_json_parens, pointwise. split.
  - destruct v as [|arr|]; try discriminate. destruct (init_tuple ffrom 0 n arr) as [[r o]|] eqn:E; [|discriminate].
    destruct o; [|discriminate]. intro X. injection X as <-. apply init_tuple_spec in E.
    destruct E as (used & -> & E & E' & H). rewrite app_nil_r. exists used. repeat split; auto. congruence.
  - intros (arr & -> & E & E' & H). rewrite (proj2 (init_tuple_spec n 0 arr l [])); auto.
    exists arr. rewrite app_nil_r. repeat split; auto. congruence.
Qed.
Lemma push_spec self : forall n i, i + n <= length self ->
  match push_tuple fto i n self with
  | Some l => length l = n /\ forall j v x, nth_error l j = Some v -> nth_error self (i + j) = Some x -> fto (i + j) x = Some v
  | None => exists j x, j < n /\ nth_error self (i + j) = Some x /\ fto (i + j) x = None
  end.
Proof using fto.
  clear ffrom.
  induction n as [|n IH]; intros i Le; cbn [push_tuple].
  - split; auto. intros [|j] ? ? H; discriminate.
  - destruct (nth_error self i) as [x|] eqn:E; [|apply nth_error_None in E; lia].
    destruct (fto i x) as [v|] eqn:Ev.
    + specialize (IH (S i)). destruct (push_tuple fto (S i) n self) as [l|].
      * destruct IH as (El & H); [lia|]. split; [cbn; congruence|]. intros [|j] v' x' V X.
        -- cbn in V. injection V as <-. rewrite Nat.add_0_r in X |- *. congruence.
        -- rewrite <- Nat.add_succ_comm in X |- *. apply H; auto.
      * destruct IH as (j & x' & J & X & T); [lia|]. exists (S j), x'. rewrite <- Nat.add_succ_comm. repeat split; auto. lia.
    + exists 0, x. rewrite Nat.add_0_r. repeat split; auto. lia.
Qed.
Lemma to_array self :
  match to_json_parens fto (length self) self with
  | Some v => exists arr, v = VArray arr /\ pointwise (fun i u x => fto i x = Some u) arr self
  | None => exists i x, nth_error self i = Some x /\ fto i x = None
  end.
Proof using fto.
  clear ffrom.
  unfold to_json_parens. pose proof (push_spec self (length self) 0 (le_n _)) as X.
  destruct (push_tuple fto 0 (length self) self) as [l|].
  - destruct X as (E & H). exists l. repeat split; auto.
  - destruct X as (j & x & _ & H & T). eauto.
Qed.
Lemma round_trip_tuple self v : (forall i x u, nth_error self i = Some x -> fto i x = Some u -> ffrom i u = Some x) ->
  to_json_parens fto (length self) self = Some v -> from_json_parens ffrom (length self) v = Some self.
Proof.
  intros R E. pose proof (to_array self) as X. rewrite E in X. destruct X as (arr & -> & El & H).
  apply from_array. exists arr. repeat split; auto.
Qed.
End Tuples.

(** ** The main attribute *)
Lemma parse_loop pre : Forall (fun t => ~ is_brace t) pre -> forall s rest,
  stream_parse_loop s (pre ++ rest) =
  stream_parse_loop (StreamParser (sp_is_async s || existsb (is_word (B "async")) pre) (sp_rest s)
    (sp_signature s ++ filter (fun t => negb (is_word (B "async") t)) pre)) rest.
Proof.
  induction 1 as [|t pre H F IH]; intros s rest.
  - cbn. rewrite orb_false_r, app_nil_r. destruct s; reflexivity.
  - cbn [app stream_parse_loop existsb filter]. destruct t; cbn [is_word negb orb].
    + destruct (seqb s0 (B "async")); rewrite IH; cbn [sp_is_async sp_rest sp_signature negb orb].
      * rewrite !orb_true_r. reflexivity.
      * rewrite <- app_assoc. reflexivity.
    + rewrite IH. cbn [sp_is_async sp_rest sp_signature]. rewrite <- app_assoc. reflexivity.
    + rewrite IH. cbn [sp_is_async sp_rest sp_signature]. rewrite <- app_assoc. reflexivity.
    + destruct d; [destruct H; eexists; reflexivity| | |]; rewrite IH; cbn [sp_is_async sp_rest sp_signature]; rewrite <- app_assoc; reflexivity.
Qed.

Lemma async_in pre : existsb (is_word (B "async")) pre = true <-> In (TkIdent (B "async")) pre.
Proof.
  rewrite existsb_exists. split.
  - intros (t & I & E). destruct t; try discriminate. cbn [is_word] in E. apply seqb_eq in E. subst. auto.
  - intro I. exists (TkIdent (B "async")). split; auto.
Qed.
Lemma without_filter pre : without (TkIdent (B "async")) pre (filter (fun t => negb (is_word (B "async") t)) pre).
Proof.
  induction pre as [|t pre IH]; cbn [filter]; [constructor|]. destruct (is_word (B "async") t) eqn:E; cbn [negb].
  - destruct t; try discriminate. cbn [is_word] in E. apply seqb_eq in E. subst. constructor; auto.
  - constructor; auto. intros ->. discriminate.
Qed.
Lemma parsed pre body post : Forall (fun t => ~ is_brace t) pre ->
  stream_parse (pre ++ TkGroup DBrace body :: post) =
  StreamParser (existsb (is_word (B "async")) pre) body (filter (fun t => negb (is_word (B "async") t)) pre).
Proof. intro F. unfold stream_parse. rewrite parse_loop by auto. reflexivity. Qed.
Lemma parsed_bodiless pre : Forall (fun t => ~ is_brace t) pre ->
  stream_parse pre =
  StreamParser (existsb (is_word (B "async")) pre) [] (filter (fun t => negb (is_word (B "async") t)) pre).
Proof.
  intro F. unfold stream_parse. rewrite <- (app_nil_r pre) at 1. rewrite parse_loop by auto. reflexivity.
Qed.

(** The statements of the two blocks. *)
Definition complaint (is_async : bool) : list (list token) :=
  if is_async then [] else
  [[TkIdent (B "compile_error"); TkPunct x21;
    TkGroup DParen [TkLit (B """the async keyword is missing from function declaration""")]]].
Definition main_block (cpus : N) (p : stream_parser) : list token :=
  async_check p ++
  let_mut (B "builder")
    (path_tokens [B "tokio"; B "runtime"; B "Builder"; B "new_multi_thread"] ++ [TkGroup DParen []]) ++
  TkIdent (B "builder") :: method_call (B "enable_io") [] ++
  method_call (B "thread_stack_size") [TkLit (B "10485760")] ++
  method_call (B "thread_name") [TkLit (B """octane-main""")] ++
  method_call (B "worker_threads") [TkLit (show_N (cpus * 2) ++ B "usize")] ++ [TkPunct x3b] ++
  run_tokens (sp_rest p).
Definition test_block (p : stream_parser) : list token :=
  async_check p ++
  let_mut (B "builder")
    (path_tokens [B "tokio"; B "runtime"; B "Builder"; B "new_current_thread"] ++ [TkGroup DParen []]) ++
  TkIdent (B "builder") :: method_call (B "enable_io") [] ++
  method_call (B "thread_name") [TkLit (B """octane-test""")] ++ [TkPunct x3b] ++
  run_tokens (sp_rest p).
Lemma main_tokens_eq cpus item :
  main_tokens cpus item = sp_signature (stream_parse item) ++ [TkGroup DBrace (main_block cpus (stream_parse item))].
Proof. reflexivity. Qed.
Lemma test_tokens_eq item :
  test_tokens item = [TkPunct x23; TkGroup DBracket [TkIdent (B "test")]] ++
    sp_signature (stream_parse item) ++ [TkGroup DBrace (test_block (stream_parse item))].
Proof. reflexivity. Qed.
Definition made (kind : str) : list token :=
  [TkIdent (B "let"); TkIdent (B "mut"); TkIdent (B "builder"); TkPunct x3d;
   TkIdent (B "tokio"); TkPunct x3a; TkPunct x3a; TkIdent (B "runtime"); TkPunct x3a; TkPunct x3a;
   TkIdent (B "Builder"); TkPunct x3a; TkPunct x3a; TkIdent kind; TkGroup DParen []].
Definition built : list token :=
  [TkIdent (B "let"); TkIdent (B "mut"); TkIdent (B "runtime"); TkPunct x3d; TkIdent (B "builder");
   TkPunct x2e; TkIdent (B "build"); TkGroup DParen []; TkPunct x2e; TkIdent (B "expect");
   TkGroup DParen [TkLit (B """Unable to build tokio runtime""")]].
Definition tail_expr (body : list token) : list token :=
  [TkIdent (B "runtime"); TkPunct x2e; TkIdent (B "block_on"); TkGroup DParen [TkIdent (B "async"); TkGroup DBrace body]].
Lemma main_statements cpus p : statements (main_block cpus p) =
  complaint (sp_is_async p) ++
  [made (B "new_multi_thread");
   [TkIdent (B "builder"); TkPunct x2e; TkIdent (B "enable_io"); TkGroup DParen [];
    TkPunct x2e; TkIdent (B "thread_stack_size"); TkGroup DParen [TkLit (B "10485760")];
    TkPunct x2e; TkIdent (B "thread_name"); TkGroup DParen [TkLit (B """octane-main""")];
    TkPunct x2e; TkIdent (B "worker_threads"); TkGroup DParen [TkLit (show_N (cpus * 2) ++ B "usize")]];
   built; tail_expr (sp_rest p)].
Proof. unfold main_block, async_check. destruct (sp_is_async p); reflexivity. Qed.
Lemma test_statements p : statements (test_block p) =
  complaint (sp_is_async p) ++
  [made (B "new_current_thread");
   [TkIdent (B "builder"); TkPunct x2e; TkIdent (B "enable_io"); TkGroup DParen [];
    TkPunct x2e; TkIdent (B "thread_name"); TkGroup DParen [TkLit (B """octane-test""")]];
   built; tail_expr (sp_rest p)].
Proof. unfold test_block, async_check. destruct (sp_is_async p); reflexivity. Qed.
Lemma complaint_iff pre (b : bool) rest : b = existsb (is_word (B "async")) pre ->
  (forall l, ~ In [TkIdent (B "compile_error"); TkPunct x21; TkGroup DParen l] rest) ->
  ((exists l, In [TkIdent (B "compile_error"); TkPunct x21; TkGroup DParen l] (complaint b ++ rest)) <->
   ~ In (TkIdent (B "async")) pre).
Proof.
  intros -> N. rewrite <- async_in. destruct (existsb _ pre); cbn [complaint app].
  - split; [intros (l & X); exfalso; eapply N; eauto|congruence].
  - split; [congruence|]. intros _. eexists. left. reflexivity.
Qed.
Lemma expands_main cpus p pre : sp_is_async p = existsb (is_word (B "async")) pre ->
  runs_last (sp_rest p) (main_block cpus p) /\
  (complains (main_block cpus p) <-> ~ In (TkIdent (B "async")) pre).
Proof.
  intro E. split.
  - unfold runs_last. rewrite main_statements. destruct (sp_is_async p); reflexivity.
  - unfold complains. rewrite main_statements. apply complaint_iff; auto.
    intros l [X|[X|[X|[X|[]]]]]; discriminate X.
Qed.
Lemma expands_test p pre : sp_is_async p = existsb (is_word (B "async")) pre ->
  runs_last (sp_rest p) (test_block p) /\
  (complains (test_block p) <-> ~ In (TkIdent (B "async")) pre).
Proof.
  intro E. split.
  - unfold runs_last. rewrite test_statements. destruct (sp_is_async p); reflexivity.
  - unfold complains. rewrite test_statements. apply complaint_iff; auto.
    intros l [X|[X|[X|[X|[]]]]]; discriminate X.
Qed.
Lemma main_ok cpus pre body post : Forall (fun t => ~ is_brace t) pre ->
  exists sg block, function_with [] sg block (main_tokens cpus (pre ++ TkGroup DBrace body :: post)) /\
    without (TkIdent (B "async")) pre sg /\ runs_last body block /\
    (complains block <-> ~ In (TkIdent (B "async")) pre).
Proof.
  intro F. rewrite main_tokens_eq, parsed by auto. eexists _, _. split; [reflexivity|].
  split; [apply without_filter|]. apply (expands_main cpus (StreamParser _ body _)). reflexivity.
Qed.
Lemma main_bodiless cpus pre : Forall (fun t => ~ is_brace t) pre ->
  exists sg block, function_with [] sg block (main_tokens cpus pre) /\
    without (TkIdent (B "async")) pre sg /\ runs_last [] block /\
    (complains block <-> ~ In (TkIdent (B "async")) pre).
Proof.
  intro F. rewrite main_tokens_eq, parsed_bodiless by auto. eexists _, _. split; [reflexivity|].
  split; [apply without_filter|]. apply (expands_main cpus (StreamParser _ [] _)). reflexivity.
Qed.
Lemma test_ok pre body post : Forall (fun t => ~ is_brace t) pre ->
  exists sg block, function_with [TkPunct x23; TkGroup DBracket [TkIdent (B "test")]] sg block
      (test_tokens (pre ++ TkGroup DBrace body :: post)) /\
    without (TkIdent (B "async")) pre sg /\ runs_last body block /\
    (complains block <-> ~ In (TkIdent (B "async")) pre).
Proof.
  intro F. rewrite test_tokens_eq, parsed by auto. eexists _, _. split; [reflexivity|].
  split; [apply without_filter|]. apply (expands_test (StreamParser _ body _)). reflexivity.
Qed.

(** *** The runtime *)
Lemma calls_in b l cs rest cs0 l0 : In (TkIdent (B "builder") :: l) (complaint b ++ rest) -> call_chain l cs ->
  (forall x, In (TkIdent (B "builder") :: x) rest -> x = l0) -> call_chain l0 cs0 -> cs = cs0.
Proof.
  intros I C U C0. assert (l = l0) as ->.
  { apply U. apply in_app_or in I as [I|I]; auto. destruct b; [destruct I|]. destruct I as [X|[]]. discriminate X. }
  clear I U. revert cs0 C0. induction C; intros cs0 C0; inversion C0; subst; auto. f_equal. auto.
Qed.
Lemma block_of before sg block sg' block' :
  function_with before sg block (before ++ sg' ++ [TkGroup DBrace block']) -> block = block'.
Proof.
  unfold function_with. intro E. apply app_inv_head in E. apply app_inj_tail in E as [_ E]. congruence.
Qed.
Theorem main_runtime cpus item sg block cs : function_with [] sg block (main_tokens cpus item) ->
  runtime_made (B "new_multi_thread") block /\
  (runtime_calls block cs <->
   cs = [(B "enable_io", []); (B "thread_stack_size", [TkLit (B "10485760")]);
         (B "thread_name", [TkLit (B """octane-main""")]);
         (B "worker_threads", [TkLit (show_N (cpus * 2) ++ B "usize")])]).
Proof.
  rewrite main_tokens_eq. intro E. apply (block_of [] sg block _ (main_block cpus (stream_parse item))) in E. subst block.
  unfold runtime_made, runtime_calls. rewrite main_statements. split.
  - apply in_or_app. right. left. reflexivity.
  - split.
    + intros (l & I & C). eapply calls_in; eauto.
      * intros x [X|[X|[X|[X|[]]]]]; try discriminate X. injection X as <-. reflexivity.
      * repeat constructor.
    + intros ->. eexists. split; [apply in_or_app; right; right; left; reflexivity|]. repeat constructor.
Qed.
Theorem test_runtime item sg block cs :
  function_with [TkPunct x23; TkGroup DBracket [TkIdent (B "test")]] sg block (test_tokens item) ->
  runtime_made (B "new_current_thread") block /\
  (runtime_calls block cs <-> cs = [(B "enable_io", []); (B "thread_name", [TkLit (B """octane-test""")])]).
Proof.
  rewrite test_tokens_eq. intro E.
  apply (block_of [TkPunct x23; TkGroup DBracket [TkIdent (B "test")]] sg block _ (test_block (stream_parse item))) in E.
  subst block. unfold runtime_made, runtime_calls. rewrite test_statements. split.
  - apply in_or_app. right. left. reflexivity.
  - split.
    + intros (l & I & C). eapply calls_in; eauto.
      * intros x [X|[X|[X|[X|[]]]]]; try discriminate X. injection X as <-. reflexivity.
      * repeat constructor.
    + intros ->. eexists. split; [apply in_or_app; right; right; left; reflexivity|]. repeat constructor.
Qed.
Lemma without_fun t l a b : without t l a -> without t l b -> a = b.
Proof.
  intro H. revert b. induction H; intros b0 W; inversion W; subst; auto; try congruence. f_equal; auto.
Qed.
