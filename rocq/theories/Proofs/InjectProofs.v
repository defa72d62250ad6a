(** C41: what a value with line breaks in it does to the head. *)
From Verif.Proofs Require Export ResponseProofs ResponseExtra StatusMime PathExtra.
From Verif.Spec Require Import Common TextSpec RequestSpec ResponseSpec.
From Coq Require Import Permutation.

Section Inject.
Context {cl : cookie_lib}.
Implicit Type r : response cl.

Lemma mset_here (k v : str) m : In (k, v) (mset seqb k v m).
Proof.
  induction m as [|[k' v'] m IH]; cbn [mset]; [left; reflexivity|].
  destruct (seqb_spec k k') as [->|N]; [left; reflexivity|right; exact IH].
Qed.
Lemma mset_before (k v k' v' : str) m : k <> k' -> In (k', v') m -> In (k', v') (mset seqb k v m).
Proof.
  intro N. induction m as [|[k0 v0] m IH]; intros I; [destruct I|]. cbn [mset].
  destruct (seqb_spec k k0) as [->|N0]; destruct I as [I|I].
  - congruence.
  - right. exact I.
  - left. exact I.
  - right. apply IH, I.
Qed.

Section Line.
Context (k v n x : str).
Let evil : str := v ++ CRLF ++ n ++ B ": " ++ x.
Definition is_evil (kv : str * str) : bool := seqb (fst kv) k && seqb (snd kv) evil.
Definition unfolded (kv : str * str) : list (str * str) := if is_evil kv then [(k, v); (n, x)] else [kv].
Lemma is_evil_spec kv : if is_evil kv then kv = (k, evil) else kv <> (k, evil).
Proof.
  unfold is_evil. destruct kv as [a b]. cbn [fst snd]. destruct (seqb_spec a k) as [->|N]; cbn [andb]; [|congruence].
  destruct (seqb_spec b evil) as [->|N]; congruence.
Qed.
Lemma unfolded_lines l : flat_map header_line (flat_map unfolded l) = flat_map header_line l.
Proof.
  induction l as [|kv l IH]; [reflexivity|]. cbn [flat_map]. rewrite flat_map_app, IH. f_equal.
  unfold unfolded. pose proof (is_evil_spec kv) as S. destruct (is_evil kv).
  - rewrite S. cbn [flat_map]. rewrite !header_line_eq. unfold hline, evil. cbn [fst snd]. rewrite app_nil_r, <- !app_assoc. reflexivity.
  - cbn [flat_map]. apply app_nil_r.
Qed.
Theorem line_injected ft w ho pos r body : no_cookies ft r -> headers_ok r -> given_body (rs_body r) body ->
  clean (rs_version r) -> ~ In SP (rs_version r) -> clean (reason_phrase w r) ->
  clean k -> ~ In x3a k -> clean v -> clean n -> ~ In x3a n -> clean x ->
  exists hs, wire_reads (octane_send (get_data ft w ho pos (res_set k evil r))) (rs_version r)
      (show_Z (status_into_i32 (rs_status r))) (reason_phrase w r) hs body /\
    In (k, v) hs /\ In (n, x) hs /\ forall k' v', k' <> k -> In (k', v') (rs_headers r) -> In (k', v') hs.
Proof.
  intros Hc Hh Hb V Vs R Ck Nk Cv Cn Nn Cx.
  set (L := ord_fn ho pos _ (mset seqb k evil (rs_headers r))).
  set (r2 := with_headers r (flat_map unfolded L)).
  assert (PL : Permutation L (mset seqb k evil (rs_headers r))) by apply ord_perm.
  assert (Hh2 : headers_ok r2).
  { unfold headers_ok, r2. cbn [rs_headers with_headers]. apply Forall_forall. intros kv Hi.
    apply in_flat_map in Hi as (kv0 & H0 & Hu). unfold unfolded in Hu. pose proof (is_evil_spec kv0) as S.
    destruct (is_evil kv0).
    - destruct Hu as [<-|[<-|[]]]; cbn [fst snd]; auto.
    - destruct Hu as [<-|[]]. apply (Permutation_in _ PL) in H0. destruct kv0 as [a b].
      apply (mset_In_inv _ seqb_eq) in H0 as [[-> ->]|H0]; [congruence|].
      unfold headers_ok in Hh. rewrite Forall_forall in Hh. exact (Hh _ H0). }
  assert (Eb : octane_send (get_data ft w ho pos (res_set k evil r)) = octane_send (get_data ft w insertion_order [] r2)).
  { unfold octane_send, get_data, headers_block. cbn [fst snd].
    change (rs_headers (res_set k evil r)) with (mset seqb k evil (rs_headers r)). fold L.
    change (ord_fn insertion_order [] _ (rs_headers r2)) with (flat_map unfolded L). rewrite unfolded_lines. reflexivity. }
  destruct (round_trip ft w insertion_order [] r2 body) as (hs & P & W); auto.
  exists hs. split; [rewrite Eb; exact W|].
  assert (K : forall kv, In kv (flat_map unfolded L) -> In kv hs) by (intros kv; apply Permutation_in, Permutation_sym, P).
  assert (E : In (k, evil) L) by (apply (Permutation_in _ (Permutation_sym PL)), mset_here).
  assert (U : unfolded (k, evil) = [(k, v); (n, x)]).
  { unfold unfolded. pose proof (is_evil_spec (k, evil)) as S. destruct (is_evil (k, evil)); congruence. }
  split; [|split].
  - apply K, in_flat_map. exists (k, evil). rewrite U. split; [exact E|left; reflexivity].
  - apply K, in_flat_map. exists (k, evil). rewrite U. split; [exact E|right; left; reflexivity].
  - intros k' v' N I. apply K, in_flat_map. exists (k', v'). split.
    + apply (Permutation_in _ (Permutation_sym PL)), mset_before; auto.
    + unfold unfolded. pose proof (is_evil_spec (k', v')) as S. destruct (is_evil (k', v')); [congruence|left; reflexivity].
Qed.
End Line.

(** The lines up to the first bad one are clean, so the blank line in it ends the head. *)
Lemma first_bad (bad : str * str) l : In bad l -> exists a b, l = a ++ bad :: b /\ ~ In bad a.
Proof.
  induction l as [|kv l IH]; intros I; [destruct I|].
  assert (D : kv = bad \/ kv <> bad).
  { destruct kv as [a b], bad as [c d]. destruct (seqb_spec a c), (seqb_spec b d); subst; auto; right; congruence. }
  destruct D as [->|N]; [exists [], l; auto|]. destruct I as [I|I]; [contradiction|].
  destruct (IH I) as (a & b & -> & Na). exists (kv :: a), b. split; [reflexivity|]. intros [E|E]; auto.
Qed.
Theorem body_injected ft w ho pos r k v b : no_cookies ft r -> headers_ok r ->
  clean (rs_version r) -> clean (reason_phrase w r) -> clean k -> ~ In x3a k -> clean v ->
  exists a rest, head_at (octane_send (get_data ft w ho pos (res_set k (v ++ CRLFCRLF ++ b) r))) a (b ++ CRLF ++ rest).
Proof.
  intros Hc Hh V R Ck Nk Cv. assert (exists evil : str, evil = v ++ CRLFCRLF ++ b) as (evil & Ev) by eauto. rewrite <- Ev.
  set (L := ord_fn ho pos _ (mset seqb k evil (rs_headers r))).
  assert (PL : Permutation L (mset seqb k evil (rs_headers r))) by apply ord_perm.
  assert (E : In (k, evil) L) by (apply (Permutation_in _ (Permutation_sym PL)), mset_here).
  apply first_bad in E as (l1 & l2 & EL & N1).
  assert (H1 : Forall (fun kv => clean (fst kv) /\ ~ In x3a (fst kv) /\ clean (snd kv)) (l1 ++ [(k, v)])).
  { apply Forall_app. split; [|repeat constructor; auto; apply Ck || apply Cv]. apply Forall_forall. intros kv Hi.
    assert (H0 : In kv L) by (rewrite EL; apply in_or_app; left; exact Hi). apply (Permutation_in _ PL) in H0.
    destruct kv as [c d]. apply (mset_In_inv _ seqb_eq) in H0 as [[-> ->]|H0]; [contradiction|].
    unfold headers_ok in Hh. rewrite Forall_forall in Hh. exact (Hh _ H0). }
  destruct (hlines_ok _ _ (Permutation_refl _) H1) as (I1 & I2 & _).
  exists (join CRLF (status_text w r :: map hline (l1 ++ [(k, v)]))), (flat_map header_line l2 ++ CRLF ++ copy_bytes (get_reader (rs_body r))).
  assert (Eb : octane_send (get_data ft w ho pos (res_set k evil r)) =
    join CRLF (status_text w r :: map hline (l1 ++ [(k, v)])) ++ CRLFCRLF ++ b ++ CRLF ++ flat_map header_line l2 ++ CRLF ++ copy_bytes (get_reader (rs_body r))).
  { unfold octane_send, get_data, headers_block. cbn [fst snd].
    change (rs_headers (res_set k evil r)) with (mset seqb k evil (rs_headers r)). fold L.
    change (status_line w (res_set k evil r)) with (status_line w r).
    change (rs_cookies (res_set k evil r)) with (rs_cookies r). change (rs_body (res_set k evil r)) with (rs_body r).
    match goal with |- context [?t] =>
      match t with (if cookies_on ft then _ else _) => assert (Ec : t = []) end end.
    { destruct Hc as [-> | ->]; [reflexivity|]. destruct (cookies_on ft); reflexivity. }
    rewrite Ec, app_nil_r.
    assert (Eh : flat_map header_line L = flat_map header_line l1 ++ header_line (k, evil) ++ flat_map header_line l2)
      by (rewrite EL, flat_map_app; reflexivity).
    rewrite Eh.
    assert (X : forall t, (status_line w r ++ flat_map header_line l1) ++ header_line (k, evil) ++ t =
      join CRLF (status_text w r :: map hline (l1 ++ [(k, v)])) ++ CRLFCRLF ++ b ++ CRLF ++ t).
    { intro t. rewrite status_line_eq, headers_join, header_line_eq.
      assert (H2 : hline (k, evil) = hline (k, v) ++ CRLFCRLF ++ b)
        by (unfold hline; cbn [fst snd]; rewrite Ev, <- !app_assoc; reflexivity).
      assert (H3 : join CRLF (status_text w r :: map hline (l1 ++ [(k, v)])) =
                   join CRLF (status_text w r :: map hline l1) ++ CRLF ++ hline (k, v))
        by (rewrite !join_ends, map_app, flat_map_app; cbn [map flat_map]; rewrite app_nil_r, <- !app_assoc; reflexivity).
      rewrite H2, H3, <- !app_assoc. reflexivity. }
    rewrite <- !app_assoc. rewrite app_assoc. apply (X (flat_map header_line l2 ++ CRLF ++ copy_bytes (get_reader (rs_body r)))). }
  rewrite Eb. apply (lines_head (status_text w r :: _)); [|discriminate|exact I2].
  constructor; [apply status_text_clean; auto|exact I1].
Qed.

(** A status of the application's own, with a line break in its text. *)
Lemma upper_in c s : (bN c < 65)%N -> In c (to_ascii_uppercase s) -> In c s.
Proof.
  intros L. unfold to_ascii_uppercase. rewrite in_map_iff. intros (b & E & I).
  assert (b = c) as <-; [|exact I]. revert L E. unfold upper, is_lower. pose proof (bN_lt b).
  destruct (N.leb_spec 97 (bN b)); cbn [andb]; [|auto]. destruct (N.leb_spec (bN b) 122); [|auto].
  intros L E. rewrite <- E in L. rewrite bN_byte_of in L; lia.
Qed.
Lemma upper_clean s : clean s -> clean (to_ascii_uppercase s).
Proof. intros [A Bd]. split; intro I; apply upper_in in I; auto; reflexivity. Qed.
Theorem status_injected ft w ho pos r body num a n x : no_cookies ft r -> headers_ok r -> given_body (rs_body r) body ->
  clean (rs_version r) -> ~ In SP (rs_version r) ->
  clean a -> clean n -> ~ In x3a n -> clean x -> ascii_str (a ++ CRLF ++ n ++ B ": " ++ x) = true ->
  exists hs an nn xx, upper_of a an /\ upper_of n nn /\ upper_of x xx /\ Permutation hs (rs_headers r) /\
    wire_reads (octane_send (get_data ft w ho pos (set_status (StOther num (a ++ CRLF ++ n ++ B ": " ++ x)) r))) (rs_version r)
      (show_Z num) an ((nn, xx) :: hs) body.
Proof.
  intros Hc Hh Hb V Vs Ca Cn Nn Cx As. set (L := ord_fn ho pos _ (rs_headers r)).
  exists L, (to_ascii_uppercase a), (to_ascii_uppercase n), (to_ascii_uppercase x).
  assert (U : forall s, ascii_str s = true -> upper_of s (to_ascii_uppercase s)).
  { intros s A. pose proof (to_uppercase_spec (fun s => s) s A) as X. unfold to_uppercase in X. rewrite A in X. exact X. }
  assert (Aa : ascii_str a = true /\ ascii_str n = true /\ ascii_str x = true).
  { unfold ascii_str in *. rewrite !forallb_app in As. apply andb_prop in As as [A1 A2]. apply andb_prop in A2 as [_ A2].
    apply andb_prop in A2 as [A2 A3]. apply andb_prop in A3 as [_ A3]. auto. }
  destruct Aa as (Aa & An & Ax). split; [auto|]. split; [auto|]. split; [auto|]. split; [apply ord_perm|].
  set (r' := set_status _ r). rewrite send_plain by exact Hc.
  change (rs_headers r') with (rs_headers r). fold L. change (rs_body r') with (rs_body r). rewrite (given_copy _ _ Hb).
  destruct (hlines_ok _ _ (ord_perm ho pos _ (rs_headers r)) Hh) as (I1 & I2 & I3). fold L in I1, I2, I3.
  set (st := B "HTTP/" ++ rs_version r ++ [SP] ++ show_Z num ++ [SP] ++ to_ascii_uppercase a).
  set (hl := to_ascii_uppercase n ++ B ": " ++ to_ascii_uppercase x).
  assert (Es : status_text w r' = st ++ CRLF ++ hl).
  { unfold status_text, reason_phrase, to_uppercase. change (status_display (rs_status r')) with (a ++ CRLF ++ n ++ B ": " ++ x).
    rewrite As. unfold to_ascii_uppercase, st, hl. rewrite !map_app. rewrite <- !app_assoc. reflexivity. }
  assert (Ej : join CRLF (status_text w r' :: map hline L) = join CRLF (st :: hl :: map hline L)).
  { change (join CRLF (st :: hl :: map hline L)) with (st ++ CRLF ++ join CRLF (hl :: map hline L)).
    rewrite !join_ends, Es, <- !app_assoc. reflexivity. }
  rewrite Ej.
  assert (Cst : clean st).
  { unfold st. rewrite !clean_app. repeat split; try apply V; try apply show_Z_clean; try (apply upper_clean; exact Ca);
      intro I; cbn in I; intuition discriminate. }
  assert (Chl : clean hl).
  { unfold hl. rewrite !clean_app. repeat split; try (apply upper_clean; assumption); intro I; cbn in I; intuition discriminate. }
  assert (Nhl : hl <> []) by (unfold hl; destruct (to_ascii_uppercase n); discriminate).
  eexists _, (hl :: map hline L). split; [|split; [|split; [|split]]].
  - apply (lines_head (st :: hl :: _)); [|discriminate|]; constructor; auto.
  - apply (lines_pieces (st :: hl :: _)); [|discriminate]. constructor; auto.
  - exact Vs.
  - apply show_Z_clean.
  - constructor; [|exact I3]. split; [reflexivity|]. cbn [fst]. intro I. apply upper_in in I; [contradiction|reflexivity].
Qed.
End Inject.
