(** Status codes and content types. *)
From Verif.Model Require Export Response.
From Verif.Proofs Require Export Basics TextProofs ResponseProofs.
From Verif.Spec Require Import Common TextSpec RequestSpec ResponseSpec.

(** ** Letter case *)
Lemma upper_byte_upper b : upper_byte b (upper b).
Proof.
  unfold upper_byte.
  destruct b; first [left; split; [split; intro H; discriminate H|reflexivity]
                    | right; split; [intros [H1 H2]; first [apply H1; reflexivity|apply H2; reflexivity]|reflexivity]].
Qed.
Lemma bN_inj a b : bN a = bN b -> a = b.
Proof.
  unfold bN. intro H. assert (E : Byte.of_N (Byte.to_N a) = Byte.of_N (Byte.to_N b)) by (rewrite H; auto).
  rewrite !Byte.of_to_N in E. congruence.
Qed.
Lemma upper_byte_fun a c : upper_byte a c <-> c = upper a.
Proof.
  split; [|intros ->; apply upper_byte_upper].
  intro H. pose proof (upper_byte_upper a) as U. unfold upper_byte in *.
  destruct H as [[H1 H2]|[H1 H2]], U as [[U1 U2]|[U1 U2]]; try contradiction; try congruence.
  apply bN_inj. congruence.
Qed.
Lemma lower_upper b : lower (upper b) = lower b.
Proof. destruct b; vm_compute; reflexivity. Qed.
Lemma upper_lower b : upper (lower b) = upper b.
Proof. destruct b; vm_compute; reflexivity. Qed.
Lemma ascii_upper b : is_ascii (upper b) = is_ascii b.
Proof. destruct b; vm_compute; reflexivity. Qed.
Lemma fold_byte_upper a b : fold_byte a b <-> upper a = upper b.
Proof.
  split.
  - intros (c & H1 & H2). apply upper_byte_fun in H1. apply upper_byte_fun in H2. congruence.
  - intro E. exists (upper a). split; apply upper_byte_fun; auto.
Qed.
Lemma fold_byte_lower a b : fold_byte a b <-> lower a = lower b.
Proof.
  rewrite fold_byte_upper. split; intro E.
  - rewrite <- (lower_upper a), <- (lower_upper b), E. reflexivity.
  - rewrite <- (upper_lower a), <- (upper_lower b), E. reflexivity.
Qed.
Lemma same_fold_lower s t : same_fold s t <-> to_ascii_lowercase s = to_ascii_lowercase t.
Proof.
  unfold same_fold, to_ascii_lowercase. split.
  - induction 1 as [|a b s t H _ IH]; [reflexivity|]. cbn [map]. apply fold_byte_lower in H. congruence.
  - revert t; induction s as [|a s IH]; intros [|b t] E; try discriminate; [constructor|].
    cbn [map] in E. injection E as E1 E2. constructor; [apply fold_byte_lower; auto|auto].
Qed.
Lemma same_fold_ascii s t : same_fold s t -> ascii_str s = ascii_str t.
Proof.
  unfold ascii_str. induction 1 as [|a b s t H _ IH]; [reflexivity|]. cbn [forallb]. rewrite IH.
  apply fold_byte_upper in H. rewrite <- (ascii_upper a), H, ascii_upper. reflexivity.
Qed.
Lemma to_uppercase_spec u s : ascii_str s = true -> upper_of s (to_uppercase u s).
Proof.
  intro A. unfold to_uppercase. rewrite A. clear A. unfold to_ascii_uppercase.
  induction s as [|b s IH]; constructor; auto. apply upper_byte_upper.
Qed.
Lemma upper_of_fun s t t' : upper_of s t -> upper_of s t' -> t = t'.
Proof.
  intro H. revert t'. induction H as [|a c s t H _ IH]; intros t' H'; inversion H'; subst; auto.
  f_equal; auto. apply upper_byte_fun in H. match goal with X : upper_byte a _ |- _ => apply upper_byte_fun in X end. congruence.
Qed.

(** ** Status codes *)
Definition named (c : status_code) : Prop := forall n s, c <> StOther n s.
Lemma named_all c : named c <-> In c (map fst all_status).
Proof.
  split.
  - intro H. destruct c; try (exfalso; eapply H; reflexivity); cbn; tauto.
  - intros H n s ->. cbn in H. intuition discriminate.
Qed.
Lemma entries_table : status_entries status_source =
  Done (map (fun ci => (status_into_i32 (fst ci), status_display (fst ci), snd ci)) all_status).
Proof. vm_compute. reflexivity. Qed.
Lemma Znodup_b l : (fix nd l := match l with [] => true | x :: r => negb (existsb (Z.eqb x) r) && nd r end) l = true -> NoDup l.
Proof.
  induction l as [|x l IH]; intro H; constructor.
  - apply andb_true_iff in H as [H _]. intro I. apply negb_true_iff in H.
    assert (existsb (Z.eqb x) l = true) by (apply existsb_exists; exists x; split; auto; apply Z.eqb_refl). congruence.
  - apply andb_true_iff in H as [_ H]. auto.
Qed.
Lemma snodup_b l : (fix nd l := match l with [] => true | x :: r => negb (existsb (seqb x) r) && nd r end) l = true -> NoDup l.
Proof.
  induction l as [|x l IH]; intro H; constructor.
  - apply andb_true_iff in H as [H _]. intro I. apply negb_true_iff in H.
    assert (existsb (seqb x) l = true) by (apply existsb_exists; exists x; split; auto; apply seqb_refl). congruence.
  - apply andb_true_iff in H as [_ H]. auto.
Qed.
Lemma numbers_nodup : NoDup (map (fun ci => status_into_i32 (fst ci)) all_status).
Proof. apply Znodup_b. vm_compute. reflexivity. Qed.
Lemma idents_nodup : NoDup (map snd all_status).
Proof. apply snodup_b. vm_compute. reflexivity. Qed.
Lemma NoDup_map_inj {A C} (f : A -> C) l x y : NoDup (map f l) -> In x l -> In y l -> f x = f y -> x = y.
Proof.
  induction l as [|a l IH]; cbn; intros ND Hx Hy E; [contradiction|].
  inversion ND; subst. destruct Hx as [->|Hx], Hy as [->|Hy]; auto.
  - exfalso. match goal with H : ~ In _ _ |- _ => apply H end. rewrite E. apply in_map; auto.
  - exfalso. match goal with H : ~ In _ _ |- _ => apply H end. rewrite <- E. apply in_map; auto.
Qed.
Theorem status_number_inj c c' : named c -> named c' -> status_into_i32 c = status_into_i32 c' -> c = c'.
Proof.
  intros H H' E. rewrite named_all in H, H'.
  apply (NoDup_map_inj status_into_i32 (map fst all_status)); auto. rewrite map_map. exact numbers_nodup.
Qed.
Theorem status_number_range c : named c -> (100 <= status_into_i32 c <= 599)%Z.
Proof. intro H. destruct c; try (exfalso; eapply H; reflexivity); vm_compute; split; discriminate. Qed.
Lemma named_ascii c : named c -> ascii_str (status_display c) = true.
Proof. intro H. destruct c; try (exfalso; eapply H; reflexivity); reflexivity. Qed.
Lemma show_Z_nat z : (0 <= z)%Z -> decimal (Z.to_N z) (show_Z z).
Proof. destruct z; intro H; try lia; cbn [show_Z Z.to_N]; apply show_N_decimal. Qed.
Theorem status_text_spec {cl} w (r : response cl) : ascii_str (status_display (rs_status r)) = true ->
  (0 <= status_into_i32 (rs_status r))%Z ->
  exists num reason, status_line w r = B "HTTP/" ++ rs_version r ++ [SP] ++ num ++ [SP] ++ reason ++ CRLF /\
    decimal (Z.to_N (status_into_i32 (rs_status r))) num /\ upper_of (status_display (rs_status r)) reason.
Proof.
  intros A H. exists (show_Z (status_into_i32 (rs_status r))), (reason_phrase w r).
  split; [unfold status_line; reflexivity|split; [apply show_Z_nat; auto|]].
  apply to_uppercase_spec. exact A.
Qed.
(** The number in the status line identifies the code. *)
Theorem status_line_identifies {cl} w w' (r r' : response cl) : named (rs_status r) -> named (rs_status r') ->
  ~ In SP (rs_version r) -> ~ In SP (rs_version r') ->
  status_line w r = status_line w' r' -> rs_status r = rs_status r' /\ rs_version r = rs_version r'.
Proof.
  intros N N' V V' E. unfold status_line in E. rewrite !app_assoc in E.
  apply (f_equal (skipn 5)) in E.
  change ((((((rs_version r ++ [SP]) ++ show_Z (status_into_i32 (rs_status r))) ++ [SP]) ++ reason_phrase w r) ++ CRLF) =
          (((((rs_version r' ++ [SP]) ++ show_Z (status_into_i32 (rs_status r'))) ++ [SP]) ++ reason_phrase w' r') ++ CRLF)) in E.
  rewrite <- !app_assoc in E. apply sp_split in E as [Ev E]; auto.
  apply sp_split in E as [En _]; try apply show_Z_clean. split; auto.
  apply status_number_inj; auto.
  pose proof (status_number_range _ N). pose proof (status_number_range _ N').
  pose proof (show_Z_nat (status_into_i32 (rs_status r)) ltac:(lia)) as D.
  pose proof (show_Z_nat (status_into_i32 (rs_status r')) ltac:(lia)) as D'.
  rewrite En in D. pose proof (decimal_inj _ _ _ D D'). lia.
Qed.

Theorem registered_ok n s : In (n, s) registered_codes ->
  exists c, named c /\ status_into_i32 c = n /\ status_display c = s.
Proof.
  assert (X : forallb (fun ns => existsb (fun ci => Z.eqb (status_into_i32 (fst ci)) (fst ns) && seqb (status_display (fst ci)) (snd ns)) all_status)
    registered_codes = true) by (vm_compute; reflexivity).
  rewrite forallb_forall in X. intro H. apply X in H. apply existsb_exists in H as ([c i] & H & E).
  apply andb_true_iff in E as [E1 E2]. apply Z.eqb_eq in E1. apply seqb_eq in E2. exists c.
  split; auto. apply named_all. apply (in_map fst) in H. exact H.
Qed.

(** ** Content types *)
Lemma keys_nodup : NoDup (map fst mime_table).
Proof. apply snodup_b. vm_compute. reflexivity. Qed.
Lemma keys_lower k t : In (k, t) mime_table -> ascii_str k = true /\ to_ascii_lowercase k = k.
Proof.
  assert (F : forallb (fun kv => ascii_str (fst kv) && seqb (to_ascii_lowercase (fst kv)) (fst kv)) mime_table = true)
    by (vm_compute; reflexivity).
  rewrite forallb_forall in F. intro H. apply F in H. apply andb_true_iff in H as [H1 H2]. split; auto. apply seqb_eq. exact H2.
Qed.
Lemma mime_ascii w e : ascii_str e = true ->
  mime_type w e = match mget seqb (to_ascii_lowercase e) mime_table with Some t => t | None => B "text/plain" end.
Proof. intro A. unfold mime_type, to_lowercase. rewrite A. reflexivity. Qed.
Theorem mime_fold w w' e e' : ascii_str e = true -> same_fold e e' -> mime_type w e = mime_type w' e'.
Proof.
  intros A F. rewrite !mime_ascii; auto; [|rewrite <- (same_fold_ascii _ _ F); auto].
  apply same_fold_lower in F. rewrite F. reflexivity.
Qed.
Theorem mime_known w k t e : In (k, t) mime_table -> same_fold k e -> mime_type w e = t.
Proof.
  intros H F. destruct (keys_lower _ _ H) as [A L]. rewrite mime_ascii by (rewrite <- (same_fold_ascii _ _ F); auto).
  apply same_fold_lower in F. rewrite <- F, L. rewrite (In_mget seqb seqb_eq _ _ _ keys_nodup H). reflexivity.
Qed.
Theorem mime_unknown w e : ascii_str e = true -> (forall k t, In (k, t) mime_table -> ~ same_fold k e) ->
  mime_type w e = B "text/plain".
Proof.
  intros A H. rewrite mime_ascii by auto.
  destruct (mget seqb (to_ascii_lowercase e) mime_table) as [t|] eqn:E; [|reflexivity].
  apply (mget_In seqb seqb_eq) in E. exfalso. apply (H _ _ E). apply same_fold_lower.
  destruct (keys_lower _ _ E) as [_ L]. exact L.
Qed.
Theorem mime_web w k t e : In (k, t) web_types -> same_fold k e -> mime_type w e = t.
Proof.
  intros H F. apply (mime_known w k t e); auto.
  assert (X : forallb (fun kv => existsb (fun kv' => seqb (fst kv) (fst kv') && seqb (snd kv) (snd kv')) mime_table) web_types = true)
    by (vm_compute; reflexivity).
  rewrite forallb_forall in X. apply X in H. apply existsb_exists in H as ([k' t'] & H & E).
  apply andb_true_iff in E as [E1 E2]. apply seqb_eq in E1. apply seqb_eq in E2. cbn [fst snd] in *. subst. auto.
Qed.

Definition sub_okb (b : byte) : bool :=
  ((33 <=? bN b) && (bN b <=? 126))%N && negb (existsb (beqb b) [x2f; x22; x28; x29; x2c; x3a; x3b; x3c; x3d; x3e; x3f; x40]).
Definition mime_okb (t : str) : bool :=
  match find_char x2f t with
  | None => false
  | Some i => existsb (seqb (firstn i t)) top_level && negb (is_nil (skipn (S i) t)) && forallb sub_okb (skipn (S i) t)
  end.
Lemma mime_okb_ok t : mime_okb t = true -> mime_ok t.
Proof.
  unfold mime_okb. destruct (find_char x2f t) as [i|] eqn:E; [|discriminate]. intro H.
  apply andb_true_iff in H as [H H3]. apply andb_true_iff in H as [H1 H2].
  apply find_char_Some in E as (E & _). exists (firstn i t), (skipn (S i) t).
  split; [exact E|]. split; [|split].
  - apply existsb_exists in H1 as (x & Hx & Ex). apply seqb_eq in Ex. rewrite Ex. exact Hx.
  - apply negb_true_iff in H2. apply is_nil_false. exact H2.
  - apply Forall_forall. intros b Hb. rewrite forallb_forall in H3. apply H3 in Hb. unfold sub_okb in Hb.
    apply andb_true_iff in Hb as [Hb Hn]. apply andb_true_iff in Hb as [Hb1 Hb2].
    split; [apply N.leb_le in Hb1; apply N.leb_le in Hb2; lia|].
    intro I. apply negb_true_iff in Hn. assert (X : existsb (beqb b) [x2f; x22; x28; x29; x2c; x3a; x3b; x3c; x3d; x3e; x3f; x40] = true)
      by (apply existsb_exists; exists b; split; auto; apply beqb_refl). congruence.
Qed.
Lemma mime_bad : ~ mime_ok (B "applcation/octet-stream").
Proof.
  intros (top & sub & E & Ht & _). cbn in Ht.
  repeat (destruct Ht as [<-|Ht]; [discriminate E|]). contradiction.
Qed.
Lemma table_ok k t : In (k, t) mime_table -> k = B "bin" \/ mime_ok t.
Proof.
  assert (F : forallb (fun kv => seqb (fst kv) (B "bin") || mime_okb (snd kv)) mime_table = true) by (vm_compute; reflexivity).
  rewrite forallb_forall in F. intro H. apply F in H. apply orb_true_iff in H as [H|H].
  - left. apply seqb_eq in H. exact H.
  - right. apply mime_okb_ok. exact H.
Qed.
Theorem mime_ok_iff w e : ascii_str e = true -> (mime_ok (mime_type w e) <-> ~ same_fold (B "bin") e).
Proof.
  intro A. rewrite mime_ascii by auto. rewrite same_fold_lower. change (to_ascii_lowercase (B "bin")) with (B "bin").
  destruct (mget seqb (to_ascii_lowercase e) mime_table) as [t|] eqn:E.
  - apply (mget_In seqb seqb_eq) in E. destruct (table_ok _ _ E) as [Hb|Ho].
    + rewrite Hb in E. split; [|intro H; exfalso; auto].
      intros Ho _. apply (In_mget seqb seqb_eq _ _ _ keys_nodup) in E. vm_compute in E. injection E as <-.
      apply mime_bad. exact Ho.
    + split; auto. intros _ Hb. rewrite <- Hb in E.
      apply (In_mget seqb seqb_eq _ _ _ keys_nodup) in E. vm_compute in E. injection E as <-. apply mime_bad. exact Ho.
  - split; [|intros _; apply mime_okb_ok; reflexivity]. intros _ Hb. rewrite <- Hb in E. discriminate E.
Qed.
(** For any extension, the only malformed type is that one. *)
Theorem mime_ok_or w e : mime_ok (mime_type w e) \/ mime_type w e = B "applcation/octet-stream".
Proof.
  unfold mime_type. destruct (mget seqb (to_lowercase (ulower w) e) mime_table) as [t|] eqn:E.
  - apply (mget_In seqb seqb_eq) in E. destruct (table_ok _ _ E) as [Hb|Ho]; auto.
    rewrite Hb in E. right. apply (In_mget seqb seqb_eq _ _ _ keys_nodup) in E.
    change (mget seqb (B "bin") mime_table) with (Some (B "applcation/octet-stream")) in E. injection E as <-. reflexivity.
  - left. apply mime_okb_ok. reflexivity.
Qed.

(** ** Extensions *)
Lemma file_name_last dir f : ~ In x2f f -> f <> [] -> f <> B "." -> f <> B ".." ->
  std_file_name (dir ++ B "/" ++ f) = Some f /\ std_file_name f = Some f.
Proof.
  intros Hs H0 H1 H2. change x2f with SLASH in Hs.
  assert (K : negb (is_nil f || seqb f DOT) = true).
  { apply negb_true_iff, orb_false_iff. split; [apply is_nil_false; auto|apply seqb_neq; exact H1]. }
  assert (D : seqb f DOTDOT = false) by (apply seqb_neq; exact H2).
  unfold std_file_name. split.
  - change (dir ++ B "/" ++ f) with (dir ++ SLASH :: f). rewrite split_char_app_sep, filter_app.
    rewrite (split_char_no_sep_id _ _ Hs). cbn [filter]. rewrite K, rev_app_distr. cbn [rev app]. rewrite D. reflexivity.
  - rewrite (split_char_no_sep_id _ _ Hs). cbn [filter]. rewrite K. cbn [rev app]. rewrite D. reflexivity.
Qed.
Lemma extension_of_name path name ext : std_file_name path = Some (name ++ B "." ++ ext) -> name <> [] -> ~ In x2e ext ->
  std_extension path = Some ext.
Proof.
  intros H Hn He. unfold std_extension. rewrite H.
  rewrite !rev_app_distr. change (rev (B ".")) with [x2e]. rewrite <- app_assoc. cbn [app].
  rewrite find_char_app by (rewrite <- in_rev; auto). rewrite rev_length, !app_length. change (length (B ".")) with 1.
  replace (length name + (1 + length ext) - S (length ext)) with (length name) by lia.
  replace (length name + (1 + length ext) - length ext) with (length name + 1) by lia.
  rewrite firstn_app, Nat.sub_diag, firstn_O, app_nil_r, firstn_all.
  destruct name as [|c name]; [congruence|]. cbn [is_nil].
  rewrite app_assoc, skipn_app, skipn_all2 by (rewrite app_length; cbn; lia).
  rewrite app_length. change (length (B ".")) with 1. rewrite Nat.sub_diag. reflexivity.
Qed.
Theorem extension_spec dir name ext : ~ In x2f name -> ~ In x2f ext -> ~ In x2e ext -> name <> [] ->
  ~ (name = B "." /\ ext = []) ->
  std_extension (dir ++ B "/" ++ name ++ B "." ++ ext) = Some ext /\ std_extension (name ++ B "." ++ ext) = Some ext.
Proof.
  intros H1 H2 H3 H4 H5.
  destruct (file_name_last dir (name ++ B "." ++ ext)) as [F1 F2].
  - rewrite !in_app_iff. intros [I|[I|I]]; auto. cbn in I. intuition discriminate.
  - destruct name; [congruence|discriminate].
  - destruct name as [|c [|c' name]]; [congruence| |]; discriminate.
  - intro E. destruct name as [|c [|c' name]]; [congruence| |].
    + cbn in E. injection E as -> ->. auto.
    + cbn in E. injection E as -> -> E. destruct name; discriminate.
  - split; eapply extension_of_name; eauto.
Qed.
Theorem no_extension dir name : ~ In x2f name -> ~ In x2e name -> name <> [] ->
  std_extension (dir ++ B "/" ++ name) = None /\ std_extension name = None.
Proof.
  intros H1 H2 H3. destruct (file_name_last dir name) as [F1 F2]; auto.
  - intros ->. apply H2. left. auto.
  - intros ->. apply H2. left. auto.
  - unfold std_extension. rewrite F1, F2.
    assert (find_char x2e (rev name) = None) as -> by (apply find_char_None; rewrite <- in_rev; auto). auto.
Qed.
Theorem no_extension_plain w dir name : ~ In x2f name -> ~ In x2e name -> name <> [] ->
  get_extension w (dir ++ B "/" ++ name) = B "text/plain" /\ get_extension w name = B "text/plain".
Proof.
  intros H1 H2 H3. destruct (no_extension dir name H1 H2 H3) as [E1 E2]. unfold get_extension. rewrite E1, E2. auto.
Qed.
