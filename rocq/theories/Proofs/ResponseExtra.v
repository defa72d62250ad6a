(** Histories of calls on a response, status codes, content types. *)
From Verif.Proofs Require Export ResponseProofs.
From Verif.Spec Require Import Common TextSpec RequestSpec ResponseSpec.
From Coq Require Import Permutation.

Definition CLEN := B "Content-Length".
Definition CTYPE := B "Content-Type".

(** ** Clean texts *)
Lemma debug_byte_clean sq b : clean (debug_byte sq b).
Proof. apply clean_b. destruct b, sq; vm_compute; reflexivity. Qed.
Lemma debug_str_clean sq s : clean (debug_str sq s).
Proof.
  unfold debug_str. rewrite !clean_app. split; [clean_lit|split; [|clean_lit]].
  induction s as [|b s IH]; [clean_lit|]. cbn [flat_map]. apply clean_app. split; auto. apply debug_byte_clean.
Qed.
Lemma skipn_In {A} n (l : list A) x : In x (skipn n l) -> In x l.
Proof. intro H. rewrite <- (firstn_skipn n l). apply in_or_app. auto. Qed.
Lemma pad_zero_clean z : clean (pad_zero z).
Proof.
  assert (C : clean (B "0" ++ show_Z z)) by (apply clean_app; split; [clean_lit|apply show_Z_clean]).
  unfold pad_zero. split; intro I; apply skipn_In in I; [apply (proj1 C)|apply (proj2 C)]; auto.
Qed.
Lemma nth_clean l n x : forallb (fun s => negb (existsb (fun b => beqb b x0d || beqb b x0a) s)) l = true ->
  nth_error l n = Some x -> clean x.
Proof.
  intros F H. apply nth_error_In in H. rewrite forallb_forall in F. apply F in H.
  apply clean_b. apply negb_true_iff. exact H.
Qed.
Lemma time_format_clean t : clean (time_format t).
Proof.
  unfold time_format. destruct (month_day t) as [md|] eqn:Em; [|clean_lit].
  destruct (week_day t) as [wd|] eqn:Ew; [|clean_lit].
  assert (clean md). { unfold month_day in Em. destruct (_ <? _)%Z; [discriminate|]. eapply nth_clean; [|exact Em]. reflexivity. }
  assert (clean wd). { unfold week_day in Ew. destruct (_ <? _)%Z; [discriminate|]. eapply nth_clean; [|exact Ew]. reflexivity. }
  pose proof pad_zero_clean as Pz. pose proof (fun z => proj1 (show_Z_clean z)) as Sz.
  cbv zeta. rewrite !clean_app. repeat match goal with |- _ /\ _ => split end; auto; try clean_lit.
Qed.
Lemma mime_clean w e : clean (mime_type w e).
Proof.
  unfold mime_type. destruct (mget seqb (to_lowercase (ulower w) e) mime_table) as [t|] eqn:E; [|clean_lit].
  apply (mget_In seqb seqb_eq) in E.
  assert (F : forallb (fun kv => negb (existsb (fun b => beqb b x0d || beqb b x0a) (snd kv))) mime_table = true)
    by (vm_compute; reflexivity).
  rewrite forallb_forall in F. apply F in E. apply clean_b, negb_true_iff. exact E.
Qed.

Section Hist.
Context {cl : cookie_lib}.
Implicit Types r : response cl.
Local Notation step := (@apply_ops cl).

Lemma apply_ops_app l1 l2 r : step (l1 ++ l2) r = obind (step l1 r) (step l2).
Proof.
  revert r. induction l1 as [|[w o] l1 IH]; intro r; [reflexivity|].
  cbn [app apply_ops]. destruct (apply_op w o r); cbn [obind]; auto.
Qed.
(** An invariant of the single calls is one of the histories. *)
Lemma ops_invariant (P : response cl -> Prop) (Q : world * rop cl -> Prop) :
  (forall w o r r', Q (w, o) -> P r -> apply_op w o r = Done r' -> P r') ->
  forall l r r', Forall Q l -> P r -> step l r = Done r' -> P r'.
Proof.
  intro H. induction l as [|[w o] l IH]; intros r r' F Hp E.
  - injection E as <-. auto.
  - inversion F; subst. cbn [apply_ops] in E. apply obind_Done in E as (r1 & E1 & E2). eauto.
Qed.

(** The headers written by the default-filling step. *)
Lemma default_headers_spec w r r' : default_headers w r = Done r' ->
  rs_body r' = rs_body r /\ rs_status r' = rs_status r /\ rs_content_len r' = rs_content_len r /\
  rs_version r' = rs_version r /\ rs_charset r' = rs_charset r /\ rs_cookies r' = rs_cookies r /\
  exists now, time_now (clock w) = Done now /\
  rs_headers r' =
    (let h1 := match rs_content_len r with Some x => mset seqb CLEN (show_N x) (rs_headers r) | None => rs_headers r end in
     let h2 := match now with Some d => mset seqb (B "Date") (time_format d) h1 | None => h1 end in
     match mget seqb CTYPE (rs_headers r) with
     | Some _ => h2
     | None => mset seqb CTYPE (default_type (dbg_sq w) (rs_charset r)) h2
     end).
Proof.
  intro H. unfold default_headers in H. apply obind_Done in H as (now & En & H). injection H as <-.
  repeat (split; [reflexivity|]). exists now. split; auto. cbv zeta. cbn [with_headers rs_headers].
  assert (G : forall h2, mget seqb CTYPE
     (match now with Some d => mset seqb (B "Date") (time_format d) h2 | None => h2 end) = mget seqb CTYPE h2).
  { intro h2. destruct now; auto. apply (mget_mset_other seqb seqb_eq). discriminate. }
  assert (G1 : mget seqb CTYPE (match rs_content_len r with
       Some x => mset seqb CLEN (show_N x) (rs_headers r) | None => rs_headers r end) = mget seqb CTYPE (rs_headers r)).
  { destruct (rs_content_len r); auto. apply (mget_mset_other seqb seqb_eq). discriminate. }
  specialize (G (match rs_content_len r with
       Some x => mset seqb CLEN (show_N x) (rs_headers r) | None => rs_headers r end)).
  rewrite G1 in G. unfold CTYPE, CLEN in *. rewrite G.
  destruct (mget seqb (B "Content-Type") (rs_headers r)); auto.
  f_equal. unfold default_type. destruct (rs_charset r); [|reflexivity]. reflexivity.
Qed.
Lemma default_get w r r' k : default_headers w r = Done r' ->
  (k = CTYPE -> mget seqb k (rs_headers r') = match mget seqb k (rs_headers r) with
                                    | Some t => Some t | None => Some (default_type (dbg_sq w) (rs_charset r)) end) /\
  (k = CLEN -> mget seqb k (rs_headers r') = match rs_content_len r with
                                    | Some n => Some (show_N n) | None => mget seqb k (rs_headers r) end) /\
  (~ In k [CLEN; B "Date"; CTYPE] -> mget seqb k (rs_headers r') = mget seqb k (rs_headers r)).
Proof.
  intro H. apply default_headers_spec in H as (_ & _ & _ & _ & _ & _ & now & _ & ->). cbv zeta.
  assert (Go : forall k k' v m, k <> k' -> mget seqb k (@mset str str seqb k' v m) = mget seqb k m)
    by (intros; apply (mget_mset_other seqb seqb_eq); auto).
  assert (Gs : forall k v m, mget seqb k (@mset str str seqb k v m) = Some v)
    by (intros; apply (mget_mset_same seqb seqb_eq)).
  split; [|split].
  - intros ->. destruct (mget seqb CTYPE (rs_headers r)) eqn:E; [|apply Gs].
    destruct now; [rewrite Go by discriminate|]; (destruct (rs_content_len r); [rewrite Go by discriminate|]; auto).
  - intros ->. destruct (mget seqb CTYPE (rs_headers r)); [|rewrite Go by discriminate];
    (destruct now; [rewrite Go by discriminate|]; (destruct (rs_content_len r); auto)).
  - intro N. assert (k <> CLEN /\ k <> B "Date" /\ k <> CTYPE) as (N1 & N2 & N3)
      by (repeat split; intros ->; apply N; cbn; auto).
    destruct (mget seqb CTYPE (rs_headers r)); [|rewrite Go by auto];
    (destruct now; [rewrite Go by auto|]; (destruct (rs_content_len r); [rewrite Go by auto|]; auto)).
Qed.

(** What one call does to the rest of the response. *)
Lemma send_file_inv w p r r' : omap fst (send_file w p r) = Done r' ->
  (r' = r /\ forall len c, fs w p <> FsFile len c) \/
  exists len c, fs w p = FsFile len c /\
    r' = Response (BodySized len (RFile c)) (rs_status r) (Some len) (rs_version r)
           (mset seqb CTYPE (get_extension w p) (rs_headers r)) (rs_charset r) (rs_cookies r).
Proof.
  unfold send_file, send_file_result, handle_file. destruct (fs w p) as [| | |len c] eqn:E; cbn [obind omap fst snd]; intro H;
    try (injection H as <-; left; split; auto; discriminate).
  destruct (std_file_name p); cbn [unwrap obind omap fst snd] in H; [|discriminate].
  injection H as <-. right. exists len, c. split; reflexivity.
Qed.

(** *** C45 *)
Definition keys_ok r : Prop := NoDup (map fst (rs_headers r)).
Lemma with_headers_keys r k v : keys_ok r -> NoDup (map fst (mset seqb k v (rs_headers r))).
Proof. apply (mset_NoDup seqb seqb_eq). Qed.
Lemma default_keys w r r' : keys_ok r -> default_headers w r = Done r' -> keys_ok r'.
Proof.
  intros H E. unfold keys_ok in *. apply default_headers_spec in E as (_ & _ & _ & _ & _ & _ & now & _ & ->). cbv zeta.
  assert (M : forall k v m, NoDup (map fst m) -> NoDup (map fst (@mset str str seqb k v m)))
    by (intros; apply (mset_NoDup seqb seqb_eq); auto).
  destruct (mget seqb CTYPE (rs_headers r)); [|apply M]; (destruct now; [apply M|]; (destruct (rs_content_len r); auto)).
Qed.
Lemma op_keys w o r r' : keys_ok r -> apply_op w o r = Done r' -> keys_ok r'.
Proof.
  intros H E. destruct o; cbn [apply_op] in E;
    try (injection E as <-; try exact H; unfold keys_ok; cbn; apply (mset_NoDup seqb seqb_eq); exact H).
  - unfold res_send in E. eapply default_keys; [|exact E]. exact H.
  - eapply default_keys; eauto.
  - apply send_file_inv in E as [[-> _]|(len & c & _ & ->)]; auto. apply (mset_NoDup seqb seqb_eq); exact H.
  - injection E as <-. unfold keys_ok, attachment_with_filename, res_set. cbn.
    do 2 apply (mset_NoDup seqb seqb_eq). exact H.
Qed.
Theorem ops_keys l r r' : keys_ok r -> step l r = Done r' -> keys_ok r'.
Proof.
  intros H E. apply (ops_invariant keys_ok (fun _ => True)) with (l := l) (r := r); auto.
  - intros. eapply op_keys; eauto.
  - apply Forall_forall. auto.
Qed.
Theorem set_all_get l r k : forall o, last_in (fun kv v => fst kv = k /\ snd kv = v) l o ->
  res_get k (set_all l r) = match o with Some v => Some v | None => res_get k r end.
Proof.
  unfold set_all, res_get.
  assert (U : forall l r, (forall kv, In kv l -> fst kv <> k) ->
    mget seqb k (rs_headers (fold_left (fun r kv => res_set (fst kv) (snd kv) r) l r)) = mget seqb k (rs_headers r)).
  { clear. induction l as [|kv l IH]; intros r H; [reflexivity|]. cbn [fold_left]. rewrite IH by (intros; apply H; right; auto).
    cbn. apply (mget_mset_other seqb seqb_eq). intro E. apply (H kv); [left|]; auto. }
  intros [v|] H.
  - destruct H as (pre & kv & post & -> & [<- <-] & Hp). rewrite fold_left_app. cbn [fold_left].
    rewrite U. + cbn. apply (mget_mset_same seqb seqb_eq). + intros kv' Hi E. eapply (Hp kv'); eauto.
  - apply U. intros kv Hi E. eapply (H kv); eauto.
Qed.
Lemma op_untouched w o r r' k : ~ touches o k -> apply_op w o r = Done r' -> res_get k r' = res_get k r.
Proof.
  unfold res_get. intros N E. destruct o; cbn [apply_op touches] in *;
    try (injection E as <-; try reflexivity; cbn; apply (mget_mset_other seqb seqb_eq); auto; fail).
  - unfold res_send in E. eapply default_get in E as (_ & _ & E). apply E. exact N.
  - eapply default_get in E as (_ & _ & E). apply E. exact N.
  - apply send_file_inv in E as [[-> _]|(len & c & _ & ->)]; auto. apply (mget_mset_other seqb seqb_eq). auto.
  - injection E as <-. cbn. rewrite !(mget_mset_other seqb seqb_eq); auto; intros ->; apply N; cbn; auto.
Qed.
Theorem ops_untouched l r r' k : Forall (fun wo => ~ touches (snd wo) k) l -> step l r = Done r' ->
  res_get k r' = res_get k r.
Proof.
  intros F E. apply (ops_invariant (fun x => res_get k x = res_get k r) (fun wo => ~ touches (snd wo) k)) with (l := l) (r := r); auto.
  intros w o r0 r1 Q H E1. rewrite <- H. eapply op_untouched; eauto.
Qed.

(** *** C41 *)
Lemma mset_ok k v m : clean k -> ~ In x3a k -> clean v ->
  Forall (fun kv : str * str => clean (fst kv) /\ ~ In x3a (fst kv) /\ clean (snd kv)) m ->
  Forall (fun kv => clean (fst kv) /\ ~ In x3a (fst kv) /\ clean (snd kv)) (mset seqb k v m).
Proof.
  intros C1 N C2 F. rewrite Forall_forall in *. intros [k' v'] H.
  apply (mset_In_inv seqb seqb_eq) in H as [[-> ->]|H]; auto.
Qed.
Ltac lit_ok := first [clean_lit | let I := fresh in intro I; cbn in I; intuition discriminate].
Lemma default_type_clean sq c : clean (default_type sq c).
Proof.
  destruct c; cbn [default_type]; [|clean_lit]. apply clean_app. split; [clean_lit|apply debug_str_clean].
Qed.
Lemma default_ok w r r' : headers_ok r -> default_headers w r = Done r' -> headers_ok r'.
Proof.
  unfold headers_ok. intros H E. apply default_headers_spec in E as (_ & _ & _ & _ & _ & _ & now & _ & ->). cbv zeta.
  assert (H1 : Forall (fun kv : str * str => clean (fst kv) /\ ~ In x3a (fst kv) /\ clean (snd kv))
     (match rs_content_len r with Some x => mset seqb CLEN (show_N x) (rs_headers r) | None => rs_headers r end)).
  { destruct (rs_content_len r); auto. apply mset_ok; auto; try lit_ok. apply show_N_clean. }
  assert (H2 : Forall (fun kv : str * str => clean (fst kv) /\ ~ In x3a (fst kv) /\ clean (snd kv))
     (match now with Some d => mset seqb (B "Date") (time_format d)
        (match rs_content_len r with Some x => mset seqb CLEN (show_N x) (rs_headers r) | None => rs_headers r end)
        | None => (match rs_content_len r with Some x => mset seqb CLEN (show_N x) (rs_headers r) | None => rs_headers r end) end)).
  { destruct now; auto. apply mset_ok; auto; try lit_ok. apply time_format_clean. }
  destruct (mget seqb CTYPE (rs_headers r)); auto. apply mset_ok; auto; try lit_ok. apply default_type_clean.
Qed.
Lemma op_ok w o r r' : raw_clean o -> headers_ok r -> apply_op w o r = Done r' -> headers_ok r'.
Proof.
  intros Q H E. destruct o; cbn [apply_op raw_clean] in *;
    try (injection E as <-; exact H).
  - injection E as <-. apply mset_ok; tauto.
  - unfold res_send in E. eapply default_ok; [|exact E]. exact H.
  - eapply default_ok; eauto.
  - injection E as <-. apply mset_ok; auto; lit_ok.
  - apply send_file_inv in E as [[-> _]|(len & c & _ & ->)]; auto. apply mset_ok; auto; try lit_ok. apply mime_clean.
  - injection E as <-. apply mset_ok; auto; lit_ok.
  - injection E as <-. unfold headers_ok, attachment_with_filename, res_set. cbn [rs_headers with_headers].
    apply mset_ok; try lit_ok; [apply mime_clean|]. apply mset_ok; auto; try lit_ok.
    apply clean_app. split; [clean_lit|apply debug_str_clean].
  - injection E as <-. apply mset_ok; auto; lit_ok.
Qed.
Theorem ops_ok l r r' : Forall (fun wo => raw_clean (snd wo)) l -> headers_ok r -> step l r = Done r' -> headers_ok r'.
Proof. apply (ops_invariant headers_ok (fun wo => raw_clean (snd wo))). intros. eapply op_ok; eauto. Qed.

(** *** Version texts *)
Lemma version_ok v : clean (version_to_string v) /\ ~ In SP (version_to_string v).
Proof. destruct v; split; try clean_lit; intro I; cbn in I; intuition discriminate. Qed.
Lemma op_version w o r r' : clean (rs_version r) /\ ~ In SP (rs_version r) -> apply_op w o r = Done r' ->
  clean (rs_version r') /\ ~ In SP (rs_version r').
Proof.
  intros H E. destruct o; cbn [apply_op] in E; try (injection E as <-; exact H).
  - apply default_headers_spec in E as (_ & _ & _ & -> & _). exact H.
  - apply default_headers_spec in E as (_ & _ & _ & -> & _). exact H.
  - apply send_file_inv in E as [[-> _]|(len & c & _ & ->)]; auto.
  - injection E as <-. apply version_ok.
Qed.
Theorem ops_version l r r' : clean (rs_version r) /\ ~ In SP (rs_version r) -> step l r = Done r' ->
  clean (rs_version r') /\ ~ In SP (rs_version r').
Proof.
  intros H E. apply (ops_invariant (fun r => clean (rs_version r) /\ ~ In SP (rs_version r)) (fun _ => True)) with (l := l) (r := r); auto.
  - intros. eapply op_version; eauto.
  - apply Forall_forall. auto.
Qed.

(** *** C42 *)
Definition sent (b : str) r : Prop :=
  rs_body r = BodySized (N.of_nat (length b)) (RCursor b) /\ rs_content_len r = Some (N.of_nat (length b)) /\
  res_get CLEN r = Some (show_N (N.of_nat (length b))).
Lemma default_sent w b r r' : rs_body r = BodySized (N.of_nat (length b)) (RCursor b) ->
  rs_content_len r = Some (N.of_nat (length b)) -> default_headers w r = Done r' -> sent b r'.
Proof.
  intros Hb Hc E. pose proof (default_get _ _ _ CLEN E) as (_ & G & _).
  apply default_headers_spec in E as (E1 & _ & E3 & _). unfold sent, res_get. rewrite E1, E3, G, Hc by auto. auto.
Qed.
Lemma op_sent b w o r r' : sets_body o = false /\ ~ sets_header CLEN o -> sent b r -> apply_op w o r = Done r' -> sent b r'.
Proof.
  intros [Q1 Q2] (H1 & H2 & H3) E. destruct o; cbn [apply_op sets_body sets_header] in *; try discriminate;
    try (injection E as <-; split; [|split]; cbn; auto; unfold res_get in *; cbn;
         try (rewrite (mget_mset_other seqb seqb_eq); [exact H3|]); auto; try discriminate; fail).
  - eapply default_sent; eauto.
  - injection E as <-. split; [|split]; cbn; auto. unfold res_get in *. cbn.
    rewrite !(mget_mset_other seqb seqb_eq); [exact H3| |]; discriminate.
Qed.
Theorem send_length pre w b post r r' : step (pre ++ (w, OpSend b) :: post) r = Done r' ->
  Forall (fun wo => sets_body (snd wo) = false /\ ~ sets_header CLEN (snd wo)) post ->
  given_body (rs_body r') b /\ exists s, decimal (N.of_nat (length b)) s /\ res_get CLEN r' = Some s.
Proof.
  intros E F. rewrite apply_ops_app in E. apply obind_Done in E as (r1 & _ & E).
  cbn [apply_ops] in E. apply obind_Done in E as (r2 & E2 & E). cbn [apply_op] in E2.
  assert (S2 : sent b r2) by (unfold res_send in E2; eapply default_sent; [| |exact E2]; reflexivity).
  assert (S' : sent b r').
  { eapply (ops_invariant (sent b) (fun wo => sets_body (snd wo) = false /\ ~ sets_header CLEN (snd wo)));
      [|exact F|exact S2|exact E]. intros w0 o r0 r0' Q. apply op_sent. exact Q. }
  destruct S' as (H1 & H2 & H3). rewrite H1. split; [reflexivity|].
  eexists. split; [|exact H3]. apply show_N_decimal.
Qed.

(** *** C43 *)
Definition len_inv r : Prop :=
  match rs_content_len r with
  | None => res_get CLEN r = None
  | Some n => n = N.of_nat (length (copy_bytes (get_reader (rs_body r)))) /\
              (res_get CLEN r = None \/ res_get CLEN r = Some (show_N n))
  end.
Lemma default_inv w r r' : len_inv r -> default_headers w r = Done r' -> len_inv r'.
Proof.
  intros H E. pose proof (default_get _ _ _ CLEN E) as (_ & G & _). specialize (G eq_refl).
  apply default_headers_spec in E as (E1 & _ & E3 & _). unfold len_inv, res_get in *. rewrite E1, E3.
  destruct (rs_content_len r); [|congruence]. destruct H as [H _]. auto.
Qed.
Lemma len_inv_set r k v : k <> CLEN -> len_inv r -> len_inv (res_set k v r).
Proof.
  unfold len_inv, res_get. intros N H. cbn [res_set with_headers rs_content_len rs_headers rs_body].
  rewrite !(mget_mset_other seqb seqb_eq) by auto. exact H.
Qed.
Lemma op_inv w o r r' : no_file w o /\ ~ sets_header CLEN o -> len_inv r -> apply_op w o r = Done r' -> len_inv r'.
Proof.
  intros [Q1 Q2] H E. destruct o; cbn [apply_op no_file sets_header] in *;
    try (injection E as <-; exact H);
    try (injection E as <-; apply len_inv_set; [discriminate|exact H]).
  - injection E as <-. apply len_inv_set; auto.
  - unfold res_send in E. assert (S0 : sent body r') by (eapply default_sent; [| |exact E]; reflexivity).
    destruct S0 as (S1 & S2 & S3).
    unfold len_inv. rewrite S1, S2, S3. cbn [get_reader]. rewrite copy_bytes_cursor. auto.
  - eapply default_inv; eauto.
  - apply send_file_inv in E as [[-> _]|(len & c & Ef & _)]; auto. exfalso. eapply Q1; eauto.
  - injection E as <-. apply len_inv_set; [discriminate|]. apply len_inv_set; [discriminate|exact H].
Qed.
Theorem ops_len l r r' : len_inv r -> Forall (fun wo => no_file (fst wo) (snd wo) /\ ~ sets_header CLEN (snd wo)) l ->
  step l r = Done r' -> forall s, res_get CLEN r' = Some s ->
  decimal (N.of_nat (length (copy_bytes (get_reader (rs_body r'))))) s.
Proof.
  intros H F E s Hs.
  assert (L : len_inv r').
  { eapply (ops_invariant len_inv (fun wo => no_file (fst wo) (snd wo) /\ ~ sets_header CLEN (snd wo))); [|exact F|exact H|exact E].
    intros w0 o r0 r0' Q. apply op_inv. exact Q. }
  unfold len_inv in L. destruct (rs_content_len r') as [n|]; [|congruence].
  destruct L as [-> [L|L]]; rewrite L in Hs; [discriminate|]. injection Hs as <-. apply show_N_decimal.
Qed.
Lemma len_inv_empty : len_inv (@new_empty cl).
Proof. reflexivity. Qed.
Lemma len_inv_slice b : len_inv (@new_from_slice cl b).
Proof. unfold len_inv. cbn [new_from_slice res_new rs_content_len rs_body get_reader]. rewrite copy_bytes_cursor. auto. Qed.

(** *** C44 *)
Theorem send_file_empty w p r r' : send_file w p r = Done (r', true) ->
  (exists len c, fs w p = FsFile len c /\ rs_body r' = BodySized len (RFile c)) /\
  forall ft w' ho pos, octane_send (get_data ft w' ho pos r') = fst (get_data ft w' ho pos r').
Proof.
  unfold send_file, send_file_result, handle_file. destruct (fs w p) as [| | |len c] eqn:E; cbn [obind omap fst snd]; try discriminate.
  destruct (std_file_name p); cbn [unwrap obind omap fst snd]; [|discriminate]. intro H. injection H as <-.
  split; [exists len, c; auto|]. intros. unfold octane_send, get_data. cbn [snd fst rs_body get_reader].
  rewrite copy_bytes_file, app_nil_r. reflexivity.
Qed.

(** *** C46 *)
Lemma op_ctype w o r r' : apply_op w o r = Done r' ->
  (exists t, chooses_type w o t /\ res_get CTYPE r' = Some t) \/
  ((forall t, ~ chooses_type w o t) /\
   rs_charset r' = (match o with OpCharset s => Some s | _ => rs_charset r end) /\
   if fills_in o then res_get CTYPE r' = match res_get CTYPE r with
                                        | Some t => Some t | None => Some (default_type (dbg_sq w) (rs_charset r)) end
   else res_get CTYPE r' = res_get CTYPE r).
Proof.
  unfold res_get. intro E. destruct o; cbn [apply_op chooses_type fills_in] in *.
  - injection E as <-. cbn. destruct (seqb_spec k CTYPE) as [Ek|N].
    + left. exists v. split; [split; auto|]. rewrite Ek. apply (mget_mset_same seqb seqb_eq).
    + right. split; [intros t [Hk _]; auto|]. split; auto. apply (mget_mset_other seqb seqb_eq). auto.
  - right. split; [auto|]. unfold res_send in E. pose proof (default_get _ _ _ CTYPE E) as (G & _).
    apply default_headers_spec in E as (_ & _ & _ & _ & -> & _). split; auto.
  - right. split; [auto|]. pose proof (default_get _ _ _ CTYPE E) as (G & _).
    apply default_headers_spec in E as (_ & _ & _ & _ & -> & _). split; auto.
  - injection E as <-. left. exists t. split; auto. cbn. apply (mget_mset_same seqb seqb_eq).
  - apply send_file_inv in E as [[-> Hf]|(len & c & Ef & ->)].
    + right. split; [|auto]. intros t (len & c & H & _). eapply Hf; eauto.
    + left. exists (get_extension w path). split; [exists len, c; auto|]. apply (mget_mset_same seqb seqb_eq).
  - injection E as <-. right. auto.
  - injection E as <-. right. auto.
  - injection E as <-. right. split; auto. split; auto. cbn. apply (mget_mset_other seqb seqb_eq). discriminate.
  - injection E as <-. left. exists (get_extension w f). split; auto. cbn. apply (mget_mset_same seqb seqb_eq).
  - injection E as <-. right. split; auto. split; auto. cbn. apply (mget_mset_other seqb seqb_eq). discriminate.
  - injection E as <-. right. auto.
  - injection E as <-. right. auto.
Qed.
Lemma ctype_kept l : forall r r' t, (forall wo t, In wo l -> ~ chooses_type (fst wo) (snd wo) t) ->
  res_get CTYPE r = Some t -> step l r = Done r' -> res_get CTYPE r' = Some t.
Proof.
  induction l as [|[w o] l IH]; intros r r' t N H E; [injection E as <-; auto|].
  cbn [apply_ops] in E. apply obind_Done in E as (r1 & E1 & E).
  apply (IH r1); auto; [intros wo t0 Hi; apply N; right; auto|].
  destruct (op_ctype _ _ _ _ E1) as [(t' & C & _)|(_ & _ & G)].
  - exfalso. apply (N (w, o) t'); [left; auto|exact C].
  - rewrite H in G. destruct (fills_in o); auto.
Qed.
Theorem ctype_chosen l r r' t : step l r = Done r' ->
  last_in (fun wo t => chooses_type (fst wo) (snd wo) t) l (Some t) -> res_get CTYPE r' = Some t.
Proof.
  intros E (pre & [w o] & post & -> & C & N). rewrite apply_ops_app in E. apply obind_Done in E as (r1 & _ & E).
  cbn [apply_ops] in E. apply obind_Done in E as (r2 & E2 & E). eapply ctype_kept; eauto.
  destruct (op_ctype _ _ _ _ E2) as [(t' & C' & G)|(X & _)]; [|exfalso; eapply X; eauto].
  rewrite G. f_equal. cbn [fst snd] in C. clear - C C'. destruct o; cbn in *; try contradiction; try congruence.
  - destruct C, C'; congruence.
  - destruct C as (? & ? & ? & ->), C' as (? & ? & ? & ->). reflexivity.
Qed.
Lemma ctype_none l : forall r r', (forall wo t, In wo l -> ~ chooses_type (fst wo) (snd wo) t) ->
  Forall (fun wo => fills_in (snd wo) = false) l -> step l r = Done r' ->
  res_get CTYPE r' = res_get CTYPE r /\ rs_charset r' = charset_of l (rs_charset r).
Proof.
  induction l as [|[w o] l IH]; intros r r' N F E; [injection E as <-; auto|].
  cbn [apply_ops] in E. apply obind_Done in E as (r1 & E1 & E). inversion F as [|? ? F1 F2]; subst. cbn [snd] in F1.
  destruct (IH r1 r') as [I1 I2]; auto; [intros wo t0 Hi; apply N; right; auto|].
  destruct (op_ctype _ _ _ _ E1) as [(t' & C & _)|(_ & Hc & G)].
  - exfalso. apply (N (w, o) t'); [left; auto|exact C].
  - rewrite F1 in G. split; [congruence|]. rewrite I2, Hc. reflexivity.
Qed.
Theorem ctype_default pre w o post r r' : step (pre ++ (w, o) :: post) r = Done r' -> res_get CTYPE r = None ->
  (forall wo t, In wo (pre ++ (w, o) :: post) -> ~ chooses_type (fst wo) (snd wo) t) ->
  Forall (fun wo => fills_in (snd wo) = false) pre -> fills_in o = true ->
  res_get CTYPE r' = Some (default_type (dbg_sq w) (charset_of pre (rs_charset r))).
Proof.
  intros E H N F Fo. rewrite apply_ops_app in E. apply obind_Done in E as (r1 & E1 & E).
  cbn [apply_ops] in E. apply obind_Done in E as (r2 & E2 & E).
  destruct (ctype_none pre r r1) as [I1 I2]; auto; [intros wo t Hi; apply N; apply in_or_app; auto|].
  eapply ctype_kept; [|  |exact E]; [intros wo t Hi; apply N; apply in_or_app; right; right; auto|].
  destruct (op_ctype _ _ _ _ E2) as [(t' & C & _)|(_ & _ & G)].
  - exfalso. apply (N (w, o) t'); [apply in_or_app; right; left; auto|exact C].
  - rewrite Fo, I1, H, I2 in G. exact G.
Qed.
Lemma debug_plain sq s : Forall plain_char s -> debug_str sq s = [x22] ++ s ++ [x22].
Proof.
  intro F. unfold debug_str. f_equal. f_equal. induction F as [|b s [H1 H2] F IH]; [reflexivity|].
  cbn [flat_map]. rewrite IH. change (b :: s) with ([b] ++ s). f_equal.
  assert (N : b <> x22 /\ b <> x27 /\ b <> x5c /\ b <> x7f) by (repeat split; intros ->; apply H2; cbn; auto).
  clear - H1 N. destruct b; try reflexivity; try (exfalso; apply H1; reflexivity);
    exfalso; destruct N as (N1 & N2 & N3 & N4); try (apply N1; reflexivity); try (apply N2; reflexivity);
    try (apply N3; reflexivity); try (apply N4; reflexivity).
Qed.

(** *** Whole histories on the wire *)
Lemma op_cookies w o r r' : (forall c, o <> OpCookie c) -> apply_op w o r = Done r' -> rs_cookies r' = rs_cookies r.
Proof.
  intros N E. destruct o; cbn [apply_op] in E; try (injection E as <-; reflexivity).
  - apply default_headers_spec in E as (_ & _ & _ & _ & _ & -> & _). reflexivity.
  - apply default_headers_spec in E as (_ & _ & _ & _ & _ & -> & _). reflexivity.
  - apply send_file_inv in E as [[-> _]|(len & c & _ & ->)]; auto.
  - exfalso. eapply N; eauto.
Qed.
Lemma op_given w o r r' : no_file w o -> (exists b, given_body (rs_body r) b) -> apply_op w o r = Done r' ->
  exists b, given_body (rs_body r') b.
Proof.
  intros N H E. destruct o; cbn [apply_op] in E; try (injection E as <-; exact H).
  - apply default_headers_spec in E as (-> & _). exists body. reflexivity.
  - apply default_headers_spec in E as (-> & _). exact H.
  - apply send_file_inv in E as [[-> _]|(len & c & Ef & _)]; auto. exfalso. eapply N; eauto.
Qed.
Theorem history_wire l r ft w ho pos :
  step l new_empty = Done r ->
  Forall (fun wo => raw_clean (snd wo) /\ no_file (fst wo) (snd wo) /\ forall c, snd wo <> OpCookie c) l ->
  clean (reason_phrase w r) ->
  exists hs body,
    wire_reads (octane_send (get_data ft w ho pos r)) (rs_version r) (show_Z (status_into_i32 (rs_status r)))
      (reason_phrase w r) hs body /\
    given_body (rs_body r) body /\ NoDup (map fst hs) /\ (forall k v, In (k, v) hs <-> res_get k r = Some v).
Proof.
  intros E F R. rewrite Forall_forall in F.
  assert (F1 : Forall (fun wo => raw_clean (snd wo)) l) by (apply Forall_forall; intros; apply F; auto).
  assert (Hh : headers_ok r) by (eapply ops_ok; [exact F1| |exact E]; constructor).
  assert (Hk : keys_ok r) by (eapply ops_keys; [|exact E]; constructor).
  assert (Hv : clean (rs_version r) /\ ~ In SP (rs_version r)).
  { eapply ops_version; [|exact E]. split; [clean_lit|intro I; cbn in I; intuition discriminate]. }
  assert (Hc : rs_cookies r = []).
  { apply (ops_invariant (fun x => rs_cookies x = []) (fun wo => forall c, snd wo <> OpCookie c)) with (l := l) (r := new_empty); auto.
    - intros w0 o r0 r1 Q H E1. rewrite <- H. eapply op_cookies; eauto.
    - apply Forall_forall. intros. apply F; auto. }
  assert (Hb : exists b, given_body (rs_body r) b).
  { apply (ops_invariant (fun x => exists b, given_body (rs_body x) b) (fun wo => no_file (fst wo) (snd wo))) with (l := l) (r := new_empty); auto.
    - intros w0 o r0 r1 Q H E1. eapply op_given; eauto.
    - apply Forall_forall. intros. apply F; auto.
    - exists []. reflexivity. }
  destruct Hb as [body Hb]. destruct Hv as [V Vs].
  destruct (round_trip ft w ho pos r body (or_intror Hc) Hh Hb V Vs R) as (hs & P & W).
  exists hs, body. split; auto. split; auto.
  assert (ND : NoDup (map fst hs)).
  { eapply Permutation_NoDup; [apply Permutation_map, Permutation_sym; exact P|exact Hk]. }
  split; auto. intros k v. unfold res_get. rewrite <- (mget_perm seqb seqb_eq k hs (rs_headers r)) by auto.
  split; [apply (In_mget seqb seqb_eq); auto|apply (mget_In seqb seqb_eq)].
Qed.
Theorem given_transmitted ft w ho pos r b : given_body (rs_body r) b ->
  octane_send (get_data ft w ho pos r) = fst (get_data ft w ho pos r) ++ b.
Proof. intro H. unfold octane_send. cbn [get_data snd fst]. rewrite (given_copy _ _ H). reflexivity. Qed.
Theorem length_consistent (l : list (world * rop cl)) r r' :
  r = new_empty \/ (exists b, r = new_from_slice b) ->
  Forall (fun wo => no_file (fst wo) (snd wo) /\ ~ sets_header CLEN (snd wo)) l ->
  step l r = Done r' -> forall s, res_get CLEN r' = Some s ->
  forall ft w ho pos, exists body, octane_send (get_data ft w ho pos r') = fst (get_data ft w ho pos r') ++ body /\
  decimal (N.of_nat (length body)) s.
Proof.
  intros H F E s Hs ft w ho pos. eexists. split; [reflexivity|]. cbn [get_data snd].
  eapply ops_len; eauto. destruct H as [->|[b ->]]; [apply len_inv_empty|apply len_inv_slice].
Qed.
Lemma default_type_plain sq s : Forall plain_char s ->
  default_type sq (Some s) = B "text/html ;charset=""" ++ s ++ B """".
Proof. intro F. cbn [default_type]. rewrite debug_plain by auto. reflexivity. Qed.
End Hist.
