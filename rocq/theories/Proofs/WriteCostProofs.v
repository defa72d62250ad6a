(** Proofs for C153. *)
From Coq Require Import Lia Permutation.
From Verif.Model Require Import RustStd Path Request Time Status Response WriteCost.
From Verif.Spec Require Import Common.

Section Write.
Context {cl : cookie_lib}.

Lemma push_headers_fst hs : forall p, fst (push_headers_counted p hs) = p ++ flat_map header_line hs.
Proof.
  induction hs as [|kv hs IH]; intro p; cbn [push_headers_counted flat_map fst]; [now rewrite app_nil_r|].
  rewrite IH. unfold header_line. now rewrite <- !app_assoc.
Qed.
Lemma push_headers_snd hs : forall p, snd (push_headers_counted p hs) = 2 * length (flat_map header_line hs).
Proof.
  induction hs as [|kv hs IH]; intro p; cbn [push_headers_counted flat_map snd]; [reflexivity|].
  rewrite IH. change (fst kv ++ B ":" ++ [SP] ++ snd kv ++ CRLF) with (header_line kv).
  rewrite app_length. lia.
Qed.
Lemma serialise_fst (cs : list (ck cl)) : fst (serialise_counted cs) = map (cookie_serialise cl) cs.
Proof. induction cs as [|c cs IH]; [reflexivity|]. cbn [serialise_counted map fst]. now rewrite IH. Qed.
Lemma join_length (l : list str) :
  length (join CRLF l) = list_sum (map (@length byte) l) + 2 * (length l - 1).
Proof.
  unfold list_sum. induction l as [|x l IH]; [reflexivity|]. destruct l as [|y l].
  - cbn. lia.
  - change (join CRLF (x :: y :: l)) with (x ++ CRLF ++ join CRLF (y :: l)). rewrite !app_length, IH.
    change (length CRLF) with 2. cbn [map fold_right length]. lia.
Qed.
Lemma serialise_snd (cs : list (ck cl)) :
  snd (serialise_counted cs) <= 2 * length (join CRLF (map (cookie_serialise cl) cs)).
Proof.
  assert (W : snd (serialise_counted cs) <= 2 * fold_right Nat.add 0 (map (@length byte) (map (cookie_serialise cl) cs))).
  2: { eapply Nat.le_trans; [exact W|]. rewrite join_length. unfold list_sum. apply Nat.mul_le_mono_l, Nat.le_add_r. }
  induction cs as [|c cs IH]; [cbn; lia|]. cbn [serialise_counted map fold_right snd].
  fold (cookie_serialise cl c). set (m := length (ck_show cl c)).
  assert (E : length (cookie_serialise cl c) = 12 + m) by reflexivity.
  change (length (B "Set-Cookie:" ++ [SP] ++ ck_show cl c)) with (length (cookie_serialise cl c)). lia.
Qed.

Lemma headers_fst ft ho pos (r : response cl) : fst (headers_counted ft ho pos r) = headers_block ft ho pos r.
Proof.
  unfold headers_counted, headers_block. destruct (cookies_on ft); cbn [fst]; rewrite push_headers_fst.
  - now rewrite serialise_fst.
  - now rewrite app_nil_r.
Qed.
Lemma headers_snd ft ho pos (r : response cl) :
  snd (headers_counted ft ho pos r) <= 4 * length (headers_block ft ho pos r).
Proof.
  unfold headers_counted, headers_block. destruct (cookies_on ft); cbn [snd]; rewrite push_headers_snd, app_length.
  - rewrite serialise_fst. pose proof (serialise_snd (rs_cookies r)) as S.
    set (j := length (join CRLF (map (cookie_serialise cl) (rs_cookies r)))) in *. clearbody j. lia.
  - lia.
Qed.
Theorem get_data_same ft w ho pos (r : response cl) : fst (get_data_counted ft w ho pos r) = get_data ft w ho pos r.
Proof. unfold get_data_counted, get_data. cbn [fst]. now rewrite headers_fst. Qed.
Theorem write_work ft w ho pos (r : response cl) :
  snd (get_data_counted ft w ho pos r) <= 5 * length (fst (get_data ft w ho pos r)) + length (status_display (rs_status r)).
Proof.
  unfold get_data_counted. cbn [snd fst]. rewrite headers_fst. pose proof (headers_snd ft ho pos r) as Hh.
  unfold get_data. cbn [fst]. rewrite !app_length.
  unfold status_line_counted, reason_phrase_counted. cbn [fst snd]. fold (reason_phrase w r). fold (status_line w r).
  assert (P : length (reason_phrase w r) <= length (status_line w r)).
  { unfold status_line. rewrite !app_length. lia. }
  lia.
Qed.

Lemma lines_length hs : length (flat_map header_line hs) = list_sum (map (fun kv => length (fst kv) + length (snd kv) + 4) hs).
Proof.
  unfold list_sum. induction hs as [|kv hs IH]; [reflexivity|]. cbn [flat_map map fold_right]. rewrite app_length, IH.
  unfold header_line. rewrite !app_length. change (length (B ":")) with 1. change (length [SP]) with 1.
  change (length CRLF) with 2. unfold str in *. cbn. lia.
Qed.
Lemma perm_sum (l l' : list nat) : Permutation l l' -> list_sum l = list_sum l'.
Proof. unfold list_sum. induction 1; cbn [fold_right]; lia. Qed.
Lemma cookies_length (cs : list (ck cl)) : length (join CRLF (map (cookie_serialise cl) cs)) =
  list_sum (map (fun c => 12 + length (ck_show cl c)) cs) + 2 * (length cs - 1).
Proof.
  rewrite join_length, map_length, map_map. reflexivity.
Qed.
Theorem head_size ft w ho pos (r : response cl) :
  length (fst (get_data ft w ho pos r)) =
    length (rs_version r) + length (show_Z (status_into_i32 (rs_status r))) + length (reason_phrase w r) + 11 +
    list_sum (map (fun kv => length (fst kv) + length (snd kv) + 4) (rs_headers r)) +
    (if cookies_on ft then list_sum (map (fun c => 12 + length (ck_show cl c)) (rs_cookies r)) + 2 * (length (rs_cookies r) - 1)
     else 0).
Proof.
  unfold get_data, headers_block, status_line. cbn [fst]. rewrite !app_length, lines_length.
  rewrite (perm_sum _ _ (Permutation_map _ (ord_perm ho pos _ (rs_headers r)))).
  change (length (B "HTTP")) with 4. change (length (B "/")) with 1. change (length [SP]) with 1. change (length CRLF) with 2.
  destruct (cookies_on ft); [rewrite cookies_length|]; unfold str in *; cbn [length]; lia.
Qed.
End Write.
