(** What clients read of whole answers: lemmas behind Props/AppProps.v (C98) and Props/ConformProps.v (C89). *)
From Coq Require Import Permutation.
From Verif.Model Require Import RustStd Path Request Time Status Response Router Server.
From Verif.Spec Require Import Common PathSpec RoutingSpec TextSpec RequestSpec ResponseSpec ServerSpec AppSpec ConformSpec.
From Verif.Proofs Require Import Basics TextProofs TransportProofs RequestProofs ResponseProofs ResponseExtra RouterProofs TrimProofs ServerProofs ConnProofs AppProofs.

(** ** Answers with their header lines in another order *)
Lemma lines_end l s : Forall clean l -> Forall (fun x => x <> []) (tl l) -> join CRLF l = s ++ [CR] -> False.
Proof.
  revert s. induction l as [|x l IH]; intros s C T E; [destruct s; discriminate|].
  inversion C as [|? ? Cx Cl]; subst. destruct l as [|y l].
  - cbn [join] in E. subst x. apply (proj1 Cx). apply in_or_app. right. left. reflexivity.
  - cbn [tl] in T. inversion T as [|? ? Ny Tl]; subst.
    change (join CRLF (x :: y :: l)) with (x ++ CRLF ++ join CRLF (y :: l)) in E.
    destruct (@exists_last _ (join CRLF (y :: l))) as (s' & z & Ez).
    { destruct y; [congruence|]. destruct l; discriminate. }
    rewrite Ez, !app_assoc in E. apply app_inj_tail in E as [_ ->]. exact (IH s' Cl Tl Ez).
Qed.
(** An empty line is found after the lines only. *)
Lemma lines_after l rest j : Forall clean l -> l <> [] -> Forall (fun x => x <> []) (tl l) ->
  occurs_at CRLFCRLF (join CRLF l ++ CRLF ++ rest) j -> length (join CRLF l) <= j.
Proof.
  intros C N T O. destruct (Nat.lt_ge_cases j (length (join CRLF l))) as [Lt|]; auto. exfalso.
  destruct (Nat.le_gt_cases (j + 4) (length (join CRLF l) + 2)) as [Le|Gt].
  - apply (lines_none l C N T). exists j. apply occurs_at_prefix with (x := rest).
    + rewrite <- app_assoc. exact O.
    + rewrite app_length. exact Le.
  - pose proof (occurs_at_nth _ _ _ 0 O ltac:(cbn; lia)) as N0. rewrite Nat.add_0_r in N0.
    rewrite nth_error_app1 in N0 by exact Lt. change (nth_error CRLFCRLF 0) with (Some CR) in N0.
    apply (lines_end l (firstn j (join CRLF l)) C T).
    rewrite <- (firstn_skipn j (join CRLF l)) at 1. f_equal.
    apply nth_error_split in N0 as (s1 & s2 & E & L). rewrite E. rewrite skipn_app, (skipn_all2 s1) by lia.
    replace (j - length s1) with 0 by lia. cbn [skipn app].
    assert (length s2 = 0) by (apply (f_equal (@length byte)) in E; rewrite app_length in E; cbn [length] in E; lia).
    destruct s2; [reflexivity|discriminate].
Qed.
Lemma occurs_shift p a b j : occurs_at p b j -> occurs_at p (a ++ b) (length a + j).
Proof. intros (x & y & -> & <-). exists (a ++ x), y. rewrite app_length, <- !app_assoc. auto. Qed.
Lemma occurs_unshift p a b j : length a <= j -> occurs_at p (a ++ b) j -> occurs_at p b (j - length a).
Proof.
  intros L (x & y & E & <-). exists (skipn (length a) x), y. split; [|apply skipn_length].
  apply (f_equal (skipn (length a))) in E. rewrite skipn_app, skipn_all, Nat.sub_diag in E. cbn [app skipn] in E.
  rewrite E, skipn_app. replace (length a - length x) with 0 by lia. reflexivity.
Qed.
(** What head and body are if lines are followed by [rest]. *)
Lemma lines_split l rest a body : Forall clean l -> l <> [] -> Forall (fun x => x <> []) (tl l) ->
  head_at (join CRLF l ++ CRLF ++ rest) a body ->
  (a = join CRLF l /\ rest = CRLF ++ body) \/
  (exists a2, a = join CRLF l ++ CRLF ++ a2 /\ rest = a2 ++ CRLFCRLF ++ body).
Proof.
  intros C N T (E & O & _). pose proof (lines_after l rest _ C N T O) as L.
  set (J := join CRLF l) in *. assert (Ea : exists a', a = J ++ a').
  { exists (skipn (length J) a). apply (f_equal (firstn (length J))) in E.
    rewrite !firstn_app, firstn_all, Nat.sub_diag, firstn_O, app_nil_r in E.
    replace (length J - length a) with 0 in E by lia. rewrite firstn_O, app_nil_r in E.
    rewrite E at 1. symmetry. apply firstn_skipn. }
  destruct Ea as [a' ->]. rewrite <- app_assoc in E. apply app_inv_head in E.
  destruct a' as [|x [|y a2]]; cbn [app] in E.
  - left. rewrite app_nil_r. split; auto. injection E as E. exact E.
  - injection E as _ E. discriminate.
  - right. injection E as <- <- E. exists a2. split; [reflexivity|exact E].
Qed.
Lemma head_from l l' rest a2 body : Forall clean l' -> l' <> [] -> Forall (fun x => x <> []) (tl l') ->
  head_at (join CRLF l ++ CRLF ++ rest) (join CRLF l ++ CRLF ++ a2) body -> rest = a2 ++ CRLFCRLF ++ body ->
  head_at (join CRLF l' ++ CRLF ++ rest) (join CRLF l' ++ CRLF ++ a2) body.
Proof.
  intros C N T (E & O & F) Er. split; [rewrite Er, <- !app_assoc; reflexivity|]. split.
  - exists (join CRLF l' ++ CRLF ++ a2), body. split; [rewrite Er, <- !app_assoc; reflexivity|reflexivity].
  - intros j Oj. pose proof (lines_after l' rest j C N T Oj) as Lj.
    apply (occurs_unshift _ (join CRLF l') _ j Lj) in Oj. apply (occurs_shift _ (join CRLF l)) in Oj.
    specialize (F _ Oj). rewrite !app_length in *. lia.
Qed.
Lemma pieces_app l m a2 : Forall clean l -> l <> [] -> pieces_of CRLF a2 m -> pieces_of CRLF (join CRLF l ++ CRLF ++ a2) (l ++ m).
Proof.
  intros C N (Nm & Fm & J). split; [destruct l; [congruence|discriminate]|]. split.
  - apply Forall_app. split; auto. eapply Forall_impl; [|exact C]. intros x. apply clean_no_crlf.
  - subst a2. clear C. induction l as [|x l IH]; [congruence|]. destruct l as [|y l].
    + cbn [app join]. destruct m; [congruence|reflexivity].
    + change (join CRLF ((x :: y :: l) ++ m)) with (x ++ CRLF ++ join CRLF ((y :: l) ++ m)).
      rewrite IH by discriminate. change (join CRLF (x :: y :: l)) with (x ++ CRLF ++ join CRLF (y :: l)).
      rewrite <- !app_assoc. reflexivity.
Qed.

Definition fields_ok (hs : list (str * str)) : Prop := Forall (fun kv => clean (fst kv) /\ ~ In x3a (fst kv) /\ clean (snd kv)) hs.
Lemma fields_ok_perm hs hs' : Permutation hs hs' -> fields_ok hs -> fields_ok hs'.
Proof. intros P F. unfold fields_ok in *. rewrite Forall_forall in *. intros x I. apply F. eapply Permutation_in; [apply Permutation_sym; exact P|exact I]. Qed.
Lemma header_lines_app l m : forall f, Forall2 header_line_is (l ++ m) f ->
  exists f1 f2, f = f1 ++ f2 /\ Forall2 header_line_is l f1 /\ Forall2 header_line_is m f2.
Proof.
  intros f F. apply Forall2_app_inv_l in F as (f1 & f2 & A & A' & ->). eauto.
Qed.
Lemma wire_permuted line hs hs' rest v n p f body : Permutation hs hs' -> clean line -> fields_ok hs ->
  wire_reads (join CRLF (line :: map hline hs) ++ CRLF ++ rest) v n p f body ->
  exists f', Permutation f f' /\ wire_reads (join CRLF (line :: map hline hs') ++ CRLF ++ rest) v n p f' body.
Proof.
  intros P Cl F (a & hls & Ha & Hp & S1 & S2 & Fl).
  destruct (hlines_ok _ _ (Permutation_refl hs) F) as (I1 & I2 & I3).
  destruct (hlines_ok _ _ (Permutation_refl hs') (fields_ok_perm _ _ P F)) as (I1' & I2' & I3').
  assert (C : Forall clean (line :: map hline hs)) by (constructor; auto).
  assert (C' : Forall clean (line :: map hline hs')) by (constructor; auto).
  destruct (lines_split (line :: map hline hs) rest a body C ltac:(discriminate) I2 Ha) as [[-> Er]|(a2 & -> & Er)].
  - pose proof (pieces_unique _ _ _ Hp (lines_pieces _ C ltac:(discriminate))) as E.
    pose proof (f_equal (hd []) E) as El. pose proof (f_equal (@tl str) E) as Eh. cbn [hd tl] in El, Eh.
    exists hs'. rewrite Eh in Fl. rewrite (header_lines_fun _ _ _ Fl I3). split; [exact P|].
    exists (join CRLF (line :: map hline hs')), (map hline hs'). split; [|split; [|auto]].
    + rewrite Er. apply (lines_head (line :: map hline hs') body C' ltac:(discriminate) I2').
    + rewrite El. apply (lines_pieces (line :: map hline hs') C' ltac:(discriminate)).
  - pose proof (split_str_spec CRLF a2 ltac:(discriminate)) as Pm. set (m := split_str CRLF a2) in *.
    pose proof (pieces_unique _ _ _ Hp (pieces_app _ _ _ C ltac:(discriminate) Pm)) as E.
    change ((line :: map hline hs) ++ m) with (line :: map hline hs ++ m) in E.
    pose proof (f_equal (hd []) E) as El. pose proof (f_equal (@tl str) E) as Eh. cbn [hd tl] in El, Eh.
    rewrite Eh in Fl. apply header_lines_app in Fl as (f1 & f2 & -> & F1 & F2).
    rewrite (header_lines_fun _ _ _ F1 I3). exists (hs' ++ f2). split; [apply Permutation_app_tail; exact P|].
    exists (join CRLF (line :: map hline hs') ++ CRLF ++ a2), (map hline hs' ++ m). split; [|split; [|split; [|split]]]; auto.
    + eapply head_from; eauto. discriminate.
    + rewrite El. apply (pieces_app (line :: map hline hs') m a2 C' ltac:(discriminate) Pm).
    + apply Forall2_app; auto.
Qed.

Local Ltac lit_ok := first [clean_lit | let I := fresh in intro I; cbn in I; intuition discriminate].
(** ** The response behind an answer *)
Definition error_response {cl} (w : world) (k : status_code) : outcome (response cl) :=
  omap (res_set (B "Content-Type") (B "text/html")) (default_headers w (set_status k (new_from_slice NOT_FOUND))).
Lemma error_send_from {cl} ft w ho pos k : error_send ft w ho pos k (cl := cl) =
  omap (fun r => octane_send (get_data ft w ho pos r)) (error_response (cl := cl) w k).
Proof. unfold error_send, error_response. destruct (default_headers w _); reflexivity. Qed.

Lemma run_chain_keeps {H W} (exec : H -> varmap -> W -> W * outcome flow) (P : W -> Prop) :
  (forall h vars w, P w -> P (fst (exec h vars w))) -> forall calls w, P w -> P (fst (run_chain exec calls w)).
Proof.
  intro K. induction calls as [|[h vars] calls IH]; intros w Pw; cbn [run_chain]; auto.
  pose proof (K h vars w Pw) as K1. destruct (exec h vars w) as [w' [[]|]]; cbn [fst snd] in *; auto.
Qed.

Section Answers.
Context (ft : features) (cl : cookie_lib) {H ST : Type}
  (handle : H -> matched_request cl -> ST * response cl -> (ST * response cl) * outcome flow).
(** An answer is made from a response with the properties the handlers keep; the orders of hash maps
    only matter for writing it. *)
Lemma respond_from (P : response cl -> Prop) o o' app rt rt' w ho ho' pos pos' s rr out :
  fits app -> build o app = Done rt -> build o' app = Done rt' ->
  (forall rq, rr = RdRequest rq -> rl_method (rq_line rq) <> MAll) ->
  P new_empty -> (forall k r, In k [StBadRequest; StNotFound; StNotImplemented] -> error_response w k = Done r -> P r) ->
  (forall h mr s r, P r -> P (snd (fst (handle h mr (s, r))))) ->
  snd (respond ft cl handle w ho pos rt s rr) = Done out ->
  exists r, P r /\ out = octane_send (get_data ft w ho pos r) /\
    snd (respond ft cl handle w ho' pos' rt' s rr) = Done (octane_send (get_data ft w ho' pos' r)).
Proof.
  intros F E E' Hm P0 Pe Pk.
  assert (Er : forall k, In k [StBadRequest; StNotFound; StNotImplemented] -> error_send ft w ho pos k (cl := cl) = Done out ->
    exists r, P r /\ out = octane_send (get_data ft w ho pos r) /\
      error_send ft w ho' pos' k (cl := cl) = Done (octane_send (get_data ft w ho' pos' r))).
  { intros k Ik X. rewrite error_send_from in *. destruct (error_response w k) as [r|] eqn:Ek; [|discriminate].
    cbn [omap obind] in *. injection X as <-. exists r. eauto. }
  destruct rr as [|rq]; cbn [respond].
  - cbn [snd]. apply Er. cbn; tauto.
  - destruct (err_bad_request _); [cbn [snd]; apply Er; cbn; tauto|].
    destruct (method_is_some _); [|cbn [snd]; apply Er; cbn; tauto].
    set (exec := fun h vars => handle h (MatchedRequest rq vars)).
    rewrite <- (same_calls exec o o' app app ft _ (rl_path (rq_line rq)) (s, new_empty) rt rt' F F (Hm rq eq_refl) E E' eq_refl).
    assert (K : P (snd (fst (router_run exec ft rt (rl_method (rq_line rq)) (rl_path (rq_line rq)) (s, new_empty))))).
    { destruct (build_run exec o app F) as (r1 & E1 & X1). rewrite E in E1. injection E1 as <-. rewrite X1 by auto.
      apply (run_chain_keeps exec (fun x => P (snd x))); [|exact P0]. intros h vars [s1 r1]. apply Pk. }
    destruct (router_run exec _ _ _ _ _) as [[s' res] [[]|]]; cbn [fst snd] in *; [|discriminate].
    destruct (negb (has_body res)); cbn [snd]; [apply Er; cbn; tauto|].
    intro X. injection X as <-. exists res. auto.
Qed.
Theorem serve_from (P : response cl -> Prop) o o' app rt rt' w ho ho' pos pos' s t out :
  fits app -> build o app = Done rt -> build o' app = Done rt' ->
  P new_empty -> (forall k r, In k [StBadRequest; StNotFound; StNotImplemented] -> error_response w k = Done r -> P r) ->
  (forall h mr s r, P r -> P (snd (fst (handle h mr (s, r))))) ->
  snd (serve ft cl handle w ho pos rt s t) = IoDone out ->
  exists r, P r /\ out = octane_send (get_data ft w ho pos r) /\
    snd (serve ft cl handle w ho' pos' rt' s t) = IoDone (octane_send (get_data ft w ho' pos' r)).
Proof.
  intros F E E' P0 Pe Pk. unfold serve. pose proof (read_method ft cl t) as M.
  destruct (read_request ft cl t) as [rr| | |]; try discriminate.
  assert (Hm : forall rq, rr = RdRequest rq -> rl_method (rq_line rq) <> MAll) by (intros rq ->; auto).
  pose proof (respond_from P o o' app rt rt' w ho ho' pos pos' s rr) as X.
  destruct (respond ft cl handle w ho pos rt s rr) as [s1 [r1|]], (respond ft cl handle w ho' pos' rt' s rr) as [s2 r2];
    cbn [fst snd io_of_outcome] in *; [|discriminate].
  intro Eo. injection Eo as <-. destruct (X r1 F E E' Hm P0 Pe Pk eq_refl) as (r & Pr & Eo & Er).
  exists r. split; [exact Pr|]. split; [exact Eo|]. rewrite Er. reflexivity.
Qed.

Lemma writable_empty w : writable w (@new_empty cl).
Proof. split; [constructor|]. split; clean_lit. Qed.
Lemma error_kept w k r : error_response (cl := cl) w k = Done r ->
  headers_ok r /\ rs_version r = B "1.1" /\ rs_status r = k /\ rs_cookies r = [] /\
  forall f v, In (f, v) (rs_headers r) -> In f [B "Content-Length"; B "Date"; B "Content-Type"].
Proof.
  unfold error_response. intro E. destruct (default_headers w _) as [r0|] eqn:D; [|discriminate].
  cbn [omap obind] in E. injection E as <-.
  assert (O : headers_ok r0) by (eapply default_ok; [|exact D]; constructor).
  apply default_headers_spec in D as (_ & Ds & _ & Dv & _ & Dc & now & _ & Dh). cbn [res_set with_headers rs_version rs_status rs_cookies rs_headers].
  split; [apply mset_ok; auto; lit_ok|]. split; [exact Dv|]. split; [exact Ds|]. split; [exact Dc|].
  intros f v I. apply (mset_In_inv seqb seqb_eq) in I as [[-> _]|I]; [cbn; tauto|]. rewrite Dh in I. cbn in I.
  repeat (match goal with
          | H : context [match now with Some _ => _ | None => _ end] |- _ => destruct now
          | H : In _ _ |- _ => first [destruct H as [H|H]; [injection H as <- <-; cbn; tauto|] | destruct H]
          end).
Qed.
Lemma writable_error w k r : In k [StBadRequest; StNotFound; StNotImplemented] -> error_response (cl := cl) w k = Done r -> writable w r.
Proof.
  intros Ik E. apply error_kept in E as (O & V & S & _). split; [exact O|]. rewrite V. split; [clean_lit|].
  unfold reason_phrase. rewrite S. destruct Ik as [<-|[<-|[<-|[]]]]; clean_lit.
Qed.
(** Clients read the same, up to the order of headers. *)
Theorem clients_read o o' app rt rt' w ho ho' pos pos' s t out v n p f body :
  fits app -> build o app = Done rt -> build o' app = Done rt' ->
  (forall h mr s r, writable w r -> writable w (snd (fst (handle h mr (s, r))))) ->
  snd (serve ft cl handle w ho pos rt s t) = IoDone out -> wire_reads out v n p f body ->
  exists out' f', snd (serve ft cl handle w ho' pos' rt' s t) = IoDone out' /\ Permutation f f' /\ wire_reads out' v n p f' body.
Proof.
  intros F E E' K S W.
  destruct (serve_from (writable w) o o' app rt rt' w ho ho' pos pos' s t out F E E' (writable_empty w) (writable_error w) K S)
    as (r & (Hh & Hv & Hr) & -> & S'). eexists. 
  assert (X : forall ho pos, octane_send (get_data ft w ho pos r) =
    join CRLF (status_text w r :: map hline (ord_fn ho pos _ (rs_headers r))) ++ CRLF ++
      (if cookies_on ft then join CRLF (map (cookie_serialise cl) (rs_cookies r)) else []) ++ CRLF ++ copy_bytes (get_reader (rs_body r))).
  { intros ho1 pos1. unfold octane_send, get_data, headers_block. cbn [fst snd]. rewrite status_line_eq.
    rewrite (app_assoc (join CRLF _) CRLF), <- headers_join. rewrite <- !app_assoc. reflexivity. }
  rewrite X in W. edestruct wire_permuted as (f' & Pf & W'); [| | |exact W|].
  - eapply Permutation_trans; [apply ord_perm|apply Permutation_sym, (ord_perm ho' pos')].
  - apply status_text_clean; auto.
  - eapply fields_ok_perm; [apply Permutation_sym, ord_perm|exact Hh].
  - exists f'. split; [exact S'|]. split; [exact Pf|]. rewrite X. exact W'.
Qed.

(** Nothing but the headers of the response is read as a header. *)
Lemma fields_read w ho pos (r : response cl) v n p f body : writable w r -> no_cookies ft r ->
  wire_reads (octane_send (get_data ft w ho pos r)) v n p f body -> Permutation f (rs_headers r).
Proof.
  intros (Hh & Hv & Hr) Nc (a & hls & Ha & Hp & _ & _ & Fl). rewrite send_plain in Ha by exact Nc.
  destruct (hlines_ok _ _ (ord_perm ho pos _ (rs_headers r)) Hh) as (I1 & I2 & I3).
  assert (C : Forall clean (status_text w r :: map hline (ord_fn ho pos _ (rs_headers r)))) by (constructor; [apply status_text_clean; auto|auto]).
  destruct (head_at_fun _ _ _ _ _ Ha (lines_head _ _ C ltac:(discriminate) I2)) as [-> _].
  pose proof (pieces_unique _ _ _ Hp (lines_pieces _ C ltac:(discriminate))) as E.
  pose proof (f_equal (@tl str) E) as Eh. cbn [tl] in Eh. subst hls.
  rewrite (header_lines_fun _ _ _ Fl I3). apply ord_perm.
Qed.
Lemma writable_send w b (r r' : response cl) : writable w r -> res_send w b r = Done r' -> writable w r'.
Proof.
  intros (Hh & Hv & Hr) E. unfold res_send in E.
  assert (O : headers_ok r') by (eapply default_ok; [|exact E]; exact Hh).
  apply default_headers_spec in E as (_ & Es & _ & Ev & _ & _ & _). cbn [rs_status rs_version] in *.
  split; [exact O|]. rewrite Ev. split; [exact Hv|]. unfold reason_phrase in *. rewrite Es. exact Hr.
Qed.
Lemma quiet_send w b (r r' : response cl) : quiet ft w r -> res_send w b r = Done r' -> quiet ft w r'.
Proof.
  intros (Wr & Nc & Nk) E. split; [eapply writable_send; eauto|]. unfold res_send in E.
  apply default_headers_spec in E as (_ & _ & _ & _ & _ & Ec & now & _ & Eh). cbn [rs_cookies rs_content_len rs_headers rs_charset] in *.
  rewrite Ec. split; [exact Nc|]. rewrite Eh. cbv zeta. intros k v I Sf. revert I.
  assert (M : forall k' v' m, In k' [B "Content-Length"; B "Date"; B "Content-Type"] ->
    (In (k, v) m -> False) -> In (k, v) (mset seqb k' v' m) -> False).
  { intros k' v' m Ik Nm I. apply (mset_In_inv seqb seqb_eq) in I as [[-> _]|I]; auto. apply same_fold_lower in Sf.
    destruct Ik as [<-|[<-|[<-|[]]]]; vm_compute in Sf; discriminate. }
  assert (N0 : In (k, v) (rs_headers r) -> False) by (intro I; exact (Nk k v I Sf)).
  destruct (mget seqb CTYPE (rs_headers r)), now; repeat (apply M; [cbn; tauto|]); exact N0.
Qed.
Theorem never_announced o app rt w ho pos s t out v n p f body :
  fits app -> build o app = Done rt ->
  (forall h mr s r, quiet ft w r -> quiet ft w (snd (fst (handle h mr (s, r))))) ->
  snd (serve ft cl handle w ho pos rt s t) = IoDone out -> wire_reads out v n p f body ->
  forall k x, In (k, x) f -> ~ same_fold k (B "Connection").
Proof.
  intros F E K S W k x I.
  destruct (serve_from (quiet ft w) o o app rt rt w ho ho pos pos s t out F E E) as (r & (Wr & Nc & Nk) & -> & _); auto.
  - split; [apply writable_empty|]. split; [right; reflexivity|]. intros ? ? [].
  - intros k0 r Ik Ek. split; [eapply writable_error; eauto|]. apply error_kept in Ek as (_ & _ & _ & Ec & Ef).
    split; [right; exact Ec|]. intros k1 v1 I1 Sf. apply Ef in I1. apply same_fold_lower in Sf.
    destruct I1 as [<-|[<-|[<-|[]]]]; vm_compute in Sf; discriminate.
  - apply (Nk k x). eapply Permutation_in; [exact (fields_read w ho pos r v n p f body Wr Nc W)|exact I].
Qed.
End Answers.
