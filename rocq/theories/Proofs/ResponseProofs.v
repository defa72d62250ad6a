(** Responses. *)
From Verif.Model Require Export Response.
From Verif.Proofs Require Export Basics TextProofs TransportProofs.
From Verif.Spec Require Import Common TextSpec RequestSpec ResponseSpec.
From Coq Require Import Permutation DecimalN.

(** ** Decimal numbers *)
Fixpoint uval (acc : N) (u : Decimal.uint) : N :=
  match u with
  | Decimal.Nil => acc
  | Decimal.D0 u => uval (10 * acc) u
  | Decimal.D1 u => uval (10 * acc + 1) u
  | Decimal.D2 u => uval (10 * acc + 2) u
  | Decimal.D3 u => uval (10 * acc + 3) u
  | Decimal.D4 u => uval (10 * acc + 4) u
  | Decimal.D5 u => uval (10 * acc + 5) u
  | Decimal.D6 u => uval (10 * acc + 6) u
  | Decimal.D7 u => uval (10 * acc + 7) u
  | Decimal.D8 u => uval (10 * acc + 8) u
  | Decimal.D9 u => uval (10 * acc + 9) u
  end%N.
Lemma uval_of_uint_acc u : forall acc, uval (N.pos acc) u = N.pos (Pos.of_uint_acc u acc).
Proof. induction u; intro acc; cbn [uval Pos.of_uint_acc]; try rewrite <- IHu; auto; f_equal; lia. Qed.
Lemma uval_of_uint u : uval 0 u = N.of_uint u.
Proof.
  unfold N.of_uint. induction u; cbn [uval Pos.of_uint]; auto; try (exact IHu);
  rewrite <- uval_of_uint_acc; reflexivity.
Qed.
Lemma dec_val_uval u : forall acc, fold_left (fun a b => 10 * a + (bN b - 48))%N (bytes_of_uint u) acc = uval acc u.
Proof. induction u; intro acc; cbn [bytes_of_uint fold_left uval]; auto; rewrite IHu; f_equal; cbn; lia. Qed.
Lemma digits_of_uint u : Forall is_digit (bytes_of_uint u).
Proof. induction u; constructor; auto; vm_compute; split; discriminate. Qed.
Lemma show_N_decimal n : decimal n (show_N n).
Proof.
  unfold show_N. split; [|split; [|split]].
  - intro E. assert (N.to_uint n = Decimal.Nil) as X by (destruct (N.to_uint n); auto; discriminate).
    pose proof (DecimalN.Unsigned.of_to n) as O. rewrite X in O. cbn in O. subst n. discriminate.
  - apply digits_of_uint.
  - unfold dec_val. rewrite dec_val_uval, uval_of_uint. apply DecimalN.Unsigned.of_to.
  - intros s' E. destruct (N.to_uint n) as [|u|u|u|u|u|u|u|u|u|u] eqn:Eu; try discriminate.
    cbn in E. injection E as <-.
    pose proof (DecimalN.Unsigned.to_of (Decimal.D0 u)) as T. rewrite <- Eu in T at 1.
    rewrite DecimalN.Unsigned.of_to, Eu in T.
    unfold Decimal.unorm in T. simpl in T.
    destruct (Decimal.nzhead u) eqn:Ez; try (exfalso; clear - T Ez;
      (* a non-zero head cannot start with D0 *)
      discriminate T).
    + injection T as ->. reflexivity.
    + exfalso. clear - Ez. induction u; simpl in Ez; try discriminate. auto.
Qed.
Lemma dec_val_last s b : dec_val (s ++ [b]) = (10 * dec_val s + (bN b - 48))%N.
Proof. unfold dec_val. rewrite fold_left_app. reflexivity. Qed.
Lemma dec_val_zero s : Forall is_digit s -> dec_val s = 0%N -> Forall (eq x30) s.
Proof.
  induction s as [|b s IH] using rev_ind; intros D Z; auto. apply Forall_app in D. destruct D as (D & Db). inversion_clear Db.
  rewrite dec_val_last in Z. unfold is_digit in *. apply Forall_app. split; [apply IH; auto; lia|].
  constructor; auto. apply bN_inj. change (bN x30) with 48%N. lia.
Qed.
Lemma decimal_unique n s : forall t, decimal n s -> decimal n t -> s = t.
Proof.
  revert n. induction s as [|b s IH] using rev_ind; intros n t (NE & D & V & L) (NE' & D' & V' & L'); [contradiction|].
  destruct (exists_last NE') as (t' & c & ->). clear NE NE'.
  apply Forall_app in D. apply Forall_app in D'. destruct D as (D & Db), D' as (D' & Dc). inversion_clear Db. inversion_clear Dc.
  rewrite dec_val_last in V, V'. unfold is_digit in *.
  assert (E : bN b = bN c /\ dec_val s = dec_val t') by lia. destruct E as (E & E2). apply bN_inj in E. subst c. f_equal.
  assert (Z : forall r, Forall is_digit r -> (forall s', r ++ [b] = x30 :: s' -> s' = []) -> dec_val r = 0%N -> r = []).
  { intros r Dr Lr Zr. pose proof (dec_val_zero r Dr Zr) as A. destruct r as [|x r]; auto. inversion_clear A. subst x.
    specialize (Lr (r ++ [b]) eq_refl). destruct r; discriminate. }
  destruct (N.eq_dec (dec_val s) 0) as [Q|Q].
  - rewrite (Z s), (Z t'); auto. congruence.
  - apply (IH (dec_val s)).
    + split; [intros ->; apply Q; reflexivity|]. split; auto. split; auto. intros s' ->. specialize (L (s' ++ [b]) eq_refl). destruct s'; discriminate.
    + split; [intros ->; rewrite E2 in Q; apply Q; reflexivity|]. split; auto. split; auto. intros s' ->. specialize (L' (s' ++ [b]) eq_refl). destruct s'; discriminate.
Qed.
Lemma decimal_inj n m s : decimal n s -> decimal m s -> n = m.
Proof. intros (_ & _ & E & _) (_ & _ & E' & _). congruence. Qed.

(** ** Lines *)
Lemma clean_app a b : clean (a ++ b) <-> clean a /\ clean b.
Proof. unfold clean. rewrite !in_app_iff. tauto. Qed.
Lemma clean_b s : existsb (fun b => beqb b x0d || beqb b x0a) s = false -> clean s.
Proof.
  intro H. split; intro I; (assert (X : existsb (fun b => beqb b x0d || beqb b x0a) s = true);
    [apply existsb_exists; eexists; split; [exact I|reflexivity]|congruence]).
Qed.
Ltac clean_lit := apply clean_b; vm_compute; reflexivity.
Lemma clean_no_crlf s : clean s -> ~ occurs CRLF s.
Proof. intros [H _] (i & a & b & -> & _). apply H. apply in_or_app. right. left. auto. Qed.
Lemma occurs_at_nth p s i k : occurs_at p s i -> k < length p -> nth_error s (i + k) = nth_error p k.
Proof.
  intros (a & b & -> & <-) H. rewrite nth_error_app2 by lia.
  replace (length a + k - length a) with k by lia. apply nth_error_app1. auto.
Qed.

(** Non-empty clean lines contain no empty line until the end. *)
Lemma lines_first l : Forall clean l -> l <> [] -> Forall (fun x => x <> []) (tl l) ->
  forall rest, first_at CRLFCRLF (join CRLF l ++ CRLFCRLF ++ rest) (length (join CRLF l)).
Proof.
  induction l as [|x l IH]; intros C Hn T rest; [congruence|].
  split; [exists (join CRLF (x :: l)), rest; auto|].
  intros j Hj. inversion C as [|? ? Cx Cl]; subst.
  destruct (Nat.lt_ge_cases j (length (join CRLF (x :: l)))) as [Hlt|]; auto. exfalso.
  pose proof (occurs_at_nth _ _ _ 0 Hj ltac:(cbn; lia)) as N0.
  pose proof (occurs_at_nth _ _ _ 2 Hj ltac:(cbn; lia)) as N2.
  change (nth_error CRLFCRLF 0) with (Some CR) in N0. change (nth_error CRLFCRLF 2) with (Some CR) in N2.
  rewrite Nat.add_0_r in N0.
  destruct l as [|y l].
  - cbn [join] in *. rewrite nth_error_app1 in N0 by auto. apply nth_error_In in N0. apply (proj1 Cx); auto.
  - change (join CRLF (x :: y :: l)) with (x ++ CRLF ++ join CRLF (y :: l)) in *.
    rewrite <- !app_assoc in Hj, N0, N2. rewrite !app_length in Hlt. change (length CRLF) with 2 in Hlt.
    destruct (Nat.lt_ge_cases j (length x)) as [Hx|Hx].
    + rewrite nth_error_app1 in N0 by auto. apply nth_error_In in N0. apply (proj1 Cx); auto.
    + inversion T as [|? ? Ny Tl]; subst. inversion Cl as [|? ? Cy Cl']; subst.
      destruct (Nat.eq_dec j (length x)) as [->|].
      * rewrite nth_error_app2 in N2 by lia. replace (length x + 2 - length x) with 2 in N2 by lia.
        destruct y as [|c y]; [congruence|].
        assert (Y : Some c = Some CR) by (rewrite <- N2; destruct l; reflexivity).
        injection Y as ->. apply (proj1 Cy). left. auto.
      * destruct (Nat.eq_dec j (S (length x))) as [->|].
        -- rewrite nth_error_app2 in N0 by lia. replace (S (length x) - length x) with 1 in N0 by lia.
           discriminate N0.
        -- destruct (IH Cl ltac:(discriminate) Tl rest) as [_ F].
           assert (O : occurs_at CRLFCRLF (join CRLF (y :: l) ++ CRLFCRLF ++ rest) (j - (length x + 2))).
           { rewrite occurs_at_skipn in Hj; [|rewrite !app_length; change (length CRLF) with 2; lia].
             rewrite occurs_at_skipn; [|rewrite !app_length; change (length CRLF) with 2; lia].
             rewrite <- Hj. f_equal. rewrite (app_assoc x CRLF).
             rewrite (skipn_app j (x ++ CRLF)), (skipn_all2 (x ++ CRLF)) by (rewrite app_length; change (length CRLF) with 2; lia).
             rewrite app_length. reflexivity. }
           specialize (F _ O). lia.
Qed.
(** ... and none at all if only one line end follows. *)
Lemma lines_none l : Forall clean l -> l <> [] -> Forall (fun x => x <> []) (tl l) ->
  ~ occurs CRLFCRLF (join CRLF l ++ CRLF).
Proof.
  intros C Hn T (i & O). pose proof (occurs_at_le _ _ _ O) as L.
  rewrite app_length in L. cbn in L.
  destruct (lines_first l C Hn T []) as [_ F].
  specialize (F i). rewrite app_nil_r in F. unfold CRLFCRLF at 2 in F. rewrite app_assoc in F.
  specialize (F (occurs_at_app _ _ _ _ O)). lia.
Qed.
Lemma lines_pieces l : Forall clean l -> l <> [] -> pieces_of CRLF (join CRLF l) l.
Proof.
  intros C Hn. split; [auto|split; [|reflexivity]].
  apply Forall_forall. intros x Hx. apply clean_no_crlf. rewrite Forall_forall in C. auto.
Qed.
Lemma lines_head l rest : Forall clean l -> l <> [] -> Forall (fun x => x <> []) (tl l) ->
  head_at (join CRLF l ++ CRLFCRLF ++ rest) (join CRLF l) rest.
Proof. intros. split; [reflexivity|apply lines_first; auto]. Qed.
Lemma join_ends l ls : join CRLF (l :: ls) = l ++ flat_map (fun x => CRLF ++ x) ls.
Proof.
  revert l. induction ls as [|x ls IH]; intro l; [cbn; rewrite app_nil_r; auto|].
  change (join CRLF (l :: x :: ls)) with (l ++ CRLF ++ join CRLF (x :: ls)). rewrite IH.
  cbn [flat_map]. rewrite <- !app_assoc. reflexivity.
Qed.

(** ** Readers *)
Lemma overwrite_0 new buf : overwrite 0 new buf = new ++ skipn (length new) buf.
Proof. reflexivity. Qed.
Lemma copy_cursor n : forall fuel bytes buf, length buf = S n -> length bytes < fuel ->
  copy_loop fuel buf (RCursor bytes) = Some bytes.
Proof.
  induction fuel as [|fuel IH]; intros bytes buf Lb L; [lia|].
  cbn [copy_loop poll_read rb_bytes rb_filled]. rewrite Lb, Nat.sub_0_r, Nat.add_0_l.
  destruct (Nat.eqb_spec (Nat.min (length bytes) (S n)) 0) as [E|E].
  - destruct bytes; [reflexivity|cbn in E; lia].
  - rewrite IH.
    + rewrite overwrite_0, firstn_app.
      rewrite firstn_length_le by lia. rewrite Nat.sub_diag, firstn_O, app_nil_r.
      rewrite firstn_firstn, Nat.min_id, firstn_skipn. reflexivity.
    + rewrite overwrite_0, app_length, skipn_length, firstn_length_le by lia. rewrite Lb. lia.
    + rewrite skipn_length. lia.
Qed.
Lemma copy_bytes_cursor b : copy_bytes (RCursor b) = b.
Proof.
  unfold copy_bytes. rewrite (copy_cursor 2047); auto.
Qed.
Lemma copy_bytes_file c : copy_bytes (RFile c) = [].
Proof. reflexivity. Qed.
(** The fuel of [copy_bytes] suffices. *)
Lemma copy_loop_fuel r : copy_loop (S (reader_len r)) (repeat x00 COPY_BUF) r <> None.
Proof.
  destruct r as [b|c].
  - cbn [reader_len]. rewrite (copy_cursor 2047); auto. discriminate.
  - discriminate.
Qed.
Lemma given_copy b bytes : given_body b bytes -> copy_bytes (get_reader b) = bytes.
Proof.
  destruct b as [|len [x|x]|[x|x]]; cbn; try contradiction; intros ->; try apply copy_bytes_cursor.
  reflexivity.
Qed.

(** ** Serialisation *)
Lemma digits_clean s : Forall is_digit s -> clean s /\ ~ In SP s.
Proof.
  intro F. rewrite Forall_forall in F.
  split; [split|]; intro I; apply F in I; vm_compute in I; destruct I as [I J]; apply I; reflexivity.
Qed.
Lemma show_N_clean n : clean (show_N n).
Proof. apply digits_clean, show_N_decimal. Qed.
Lemma show_Z_clean z : clean (show_Z z) /\ ~ In SP (show_Z z).
Proof.
  assert (X : forall n, clean (show_N n) /\ ~ In SP (show_N n)) by (intro; apply digits_clean, show_N_decimal).
  destruct z as [|p|p]; cbn [show_Z]; auto. destruct (X (N.pos p)) as [C S].
  split; [change (x2d :: show_N (N.pos p)) with ([x2d] ++ show_N (N.pos p)); apply clean_app; split; auto; clean_lit|].
  intros [E|I]; [discriminate E|auto].
Qed.

Section Ser.
Context {cl : cookie_lib}.
Implicit Types r : response cl.

Definition status_text (w : world) r : str :=
  B "HTTP/" ++ rs_version r ++ [SP] ++ show_Z (status_into_i32 (rs_status r)) ++ [SP] ++ reason_phrase w r.
Definition hline (kv : str * str) : str := fst kv ++ B ": " ++ snd kv.
Lemma header_line_eq kv : header_line kv = hline kv ++ CRLF.
Proof. unfold header_line, hline. rewrite <- !app_assoc. reflexivity. Qed.
Lemma status_line_eq w r : status_line w r = status_text w r ++ CRLF.
Proof. unfold status_line, status_text. rewrite <- !app_assoc. reflexivity. Qed.

Lemma headers_join sl hs : (sl ++ CRLF) ++ flat_map header_line hs = join CRLF (sl :: map hline hs) ++ CRLF.
Proof.
  revert sl. induction hs as [|kv hs IH]; intro sl; [cbn; rewrite app_nil_r; auto|].
  cbn [flat_map map]. rewrite header_line_eq.
  change (join CRLF (sl :: hline kv :: map hline hs)) with (sl ++ CRLF ++ join CRLF (hline kv :: map hline hs)).
  specialize (IH (hline kv)). rewrite <- !app_assoc in *. do 2 f_equal. exact IH.
Qed.

(** The bytes, without cookies. *)
Definition no_cookies (ft : features) r : Prop := cookies_on ft = false \/ rs_cookies r = [].
Lemma send_plain ft w ho pos r : no_cookies ft r ->
  octane_send (get_data ft w ho pos r) =
  join CRLF (status_text w r :: map hline (ord_fn ho pos _ (rs_headers r))) ++ CRLFCRLF ++ copy_bytes (get_reader (rs_body r)).
Proof.
  intro Hc. unfold octane_send, get_data, headers_block. cbn [fst snd].
  match goal with |- context [?t] =>
    match t with (if cookies_on ft then _ else _) => assert (E : t = []) end end.
  { destruct Hc as [-> | ->]; [reflexivity|]. destruct (cookies_on ft); reflexivity. }
  rewrite E, app_nil_r, status_line_eq. rewrite app_assoc, headers_join. unfold CRLFCRLF.
  rewrite <- !app_assoc. reflexivity.
Qed.
(** ... and with. *)
Lemma send_cookies ft w ho pos r : cookies_on ft = true -> rs_cookies r <> [] ->
  fst (get_data ft w ho pos r) =
  join CRLF (status_text w r :: map hline (ord_fn ho pos _ (rs_headers r)) ++ map (cookie_serialise cl) (rs_cookies r)) ++ CRLF.
Proof.
  intros Hon Hc. unfold get_data, headers_block. cbn [fst]. rewrite Hon, status_line_eq.
  rewrite app_assoc. rewrite (app_assoc _ (flat_map header_line _)), headers_join. rewrite join_ends. f_equal.
  rewrite join_ends, flat_map_app. rewrite <- !app_assoc. f_equal. f_equal.
  destruct (rs_cookies r) as [|c cs]; [congruence|]. cbn [map]. rewrite join_ends. cbn [flat_map].
  rewrite <- !app_assoc. reflexivity.
Qed.

Lemma status_text_clean w r : clean (rs_version r) -> clean (reason_phrase w r) -> clean (status_text w r).
Proof.
  intros V R. unfold status_text. rewrite !clean_app. repeat split; try apply V; try apply R; try apply show_Z_clean;
  try (intro I; cbn in I; intuition discriminate).
Qed.
Lemma hlines_ok l hs : Permutation l hs ->
  Forall (fun kv => clean (fst kv) /\ ~ In x3a (fst kv) /\ clean (snd kv)) hs ->
  Forall clean (map hline l) /\ Forall (fun x => x <> []) (map hline l) /\ Forall2 header_line_is (map hline l) l.
Proof.
  intros P F. assert (F' : Forall (fun kv => clean (fst kv) /\ ~ In x3a (fst kv) /\ clean (snd kv)) l).
  { rewrite Forall_forall in *. intros x Hx. apply F. eapply Permutation_in; eauto. }
  clear F P. induction F' as [|kv l (C1 & N & C2) F IH]; [repeat split; constructor|].
  destruct IH as (I1 & I2 & I3). split; [|split]; cbn [map]; constructor; auto.
  - unfold hline. rewrite !clean_app. repeat split; try apply C1; try apply C2; intro I; cbn in I; intuition discriminate.
  - unfold hline. destruct (fst kv); discriminate.
  - split; auto.
Qed.

(** C40 *)
Theorem round_trip ft w ho pos r body : no_cookies ft r -> headers_ok r -> given_body (rs_body r) body ->
  clean (rs_version r) -> ~ In SP (rs_version r) -> clean (reason_phrase w r) ->
  exists hs, Permutation hs (rs_headers r) /\
    wire_reads (octane_send (get_data ft w ho pos r)) (rs_version r) (show_Z (status_into_i32 (rs_status r)))
      (reason_phrase w r) hs body.
Proof.
  intros Hc Hh Hb V Vs R. exists (ord_fn ho pos _ (rs_headers r)). split; [apply ord_perm|].
  destruct (hlines_ok _ _ (ord_perm ho pos _ (rs_headers r)) Hh) as (I1 & I2 & I3).
  rewrite send_plain by auto. rewrite (given_copy _ _ Hb).
  eexists _, _. split; [|split; [|split; [|split]]]; [| | | |exact I3].
  - apply (lines_head (status_text w r :: _)); [|discriminate|exact I2].
    constructor; auto. apply status_text_clean; auto.
  - apply (lines_pieces (status_text w r :: _)); [|discriminate]. constructor; auto. apply status_text_clean; auto.
  - auto.
  - apply show_Z_clean.
Qed.

(** What a client reads is determined by the bytes. *)
Lemma sp_split a b a' b' : ~ In SP a -> ~ In SP a' -> a ++ SP :: b = a' ++ SP :: b' -> a = a' /\ b = b'.
Proof.
  intros N N' E. assert (L : find_char SP (a ++ SP :: b) = find_char SP (a' ++ SP :: b')) by (rewrite E; auto).
  rewrite !find_char_app in L by auto. injection L as L. apply app_length_inj in E as [-> E]; [|auto].
  injection E as ->. auto.
Qed.
Lemma header_line_fun l kv kv' : header_line_is l kv -> header_line_is l kv' -> kv = kv'.
Proof.
  destruct kv as [k v], kv' as [k' v']. intros [E N] [E' N']. cbn [fst snd] in *. rewrite E in E'.
  assert (L : find_char x3a (k ++ B ": " ++ v) = find_char x3a (k' ++ B ": " ++ v')) by (rewrite E'; auto).
  change (B ": " ++ v) with (x3a :: SP :: v) in L. change (B ": " ++ v') with (x3a :: SP :: v') in L.
  rewrite !find_char_app in L by auto. injection L as L. apply app_length_inj in E' as [-> E']; [|auto].
  apply app_inv_head in E'. congruence.
Qed.
Lemma header_lines_fun l : forall hs hs', Forall2 header_line_is l hs -> Forall2 header_line_is l hs' -> hs = hs'.
Proof.
  induction l as [|x l IH]; intros hs hs' F F'; inversion F; inversion F'; subst; auto.
  f_equal; auto. eapply header_line_fun; eauto.
Qed.
Theorem wire_reads_fun bytes v n p hs b v' n' p' hs' b' :
  wire_reads bytes v n p hs b -> wire_reads bytes v' n' p' hs' b' ->
  v = v' /\ n = n' /\ p = p' /\ hs = hs' /\ b = b'.
Proof.
  intros (a & l & H & P & S1 & S2 & F) (a' & l' & H' & P' & S1' & S2' & F').
  destruct (head_at_fun _ _ _ _ _ H H') as [-> ->].
  pose proof (pieces_unique _ _ _ P P') as E0.
  pose proof (f_equal (hd []) E0) as E. pose proof (f_equal (@tl str) E0) as El. cbn [hd tl] in E, El. subst l'.
  apply (f_equal (skipn 5)) in E.
  change (v ++ [SP] ++ n ++ [SP] ++ p = v' ++ [SP] ++ n' ++ [SP] ++ p') in E.
  apply sp_split in E as [-> E]; auto. apply sp_split in E as [-> ->]; auto.
  repeat split; auto. eapply header_lines_fun; eauto.
Qed.

(** C39 *)
Theorem head_terminated ft w ho pos r : no_cookies ft r -> headers_ok r -> clean (rs_version r) ->
  clean (reason_phrase w r) ->
  exists a, head_at (octane_send (get_data ft w ho pos r)) a (copy_bytes (get_reader (rs_body r))) /\
    fst (get_data ft w ho pos r) = a ++ CRLFCRLF.
Proof.
  intros Hc Hh V R. destruct (hlines_ok _ _ (ord_perm ho pos _ (rs_headers r)) Hh) as (I1 & I2 & I3).
  exists (join CRLF (status_text w r :: map hline (ord_fn ho pos _ (rs_headers r)))). split.
  - rewrite send_plain by auto. apply lines_head; [|discriminate|exact I2].
    constructor; auto. apply status_text_clean; auto.
  - pose proof (send_plain ft w ho pos r Hc) as E. unfold octane_send in E. cbn [snd] in E.
    rewrite app_assoc in E. apply app_inv_tail in E. exact E.
Qed.
Theorem cookies_unterminated ft w ho pos r : cookies_on ft = true -> rs_cookies r <> [] ->
  headers_ok r -> clean (rs_version r) -> clean (reason_phrase w r) ->
  Forall (fun c => clean (ck_show cl c)) (rs_cookies r) ->
  ~ occurs CRLFCRLF (fst (get_data ft w ho pos r)).
Proof.
  intros Hon Hc Hh V R Ck. destruct (hlines_ok _ _ (ord_perm ho pos _ (rs_headers r)) Hh) as (I1 & I2 & I3).
  rewrite send_cookies by auto. apply lines_none; [|discriminate|].
  - constructor; [apply status_text_clean; auto|]. apply Forall_app. split; auto.
    apply Forall_forall. intros x Hx. apply in_map_iff in Hx as (c & <- & Hx).
    rewrite Forall_forall in Ck. unfold cookie_serialise. rewrite !clean_app.
    repeat split; try (apply Ck; auto); intro I; cbn in I; intuition discriminate.
  - cbn [tl]. apply Forall_app. split; auto.
    apply Forall_forall. intros x Hx. apply in_map_iff in Hx as (c & <- & Hx). discriminate.
Qed.
End Ser.
