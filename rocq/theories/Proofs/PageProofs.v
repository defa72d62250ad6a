(** Lemmas behind Props/PageProps.v: the pages of the other error answers. *)
From Verif.Model Require Import RustStd Path Request Time Status Response Router Server.
From Verif.Spec Require Import Common RoutingSpec TextSpec RequestSpec ResponseSpec ServerSpec AppSpec.
From Verif.Proofs Require Import ServerProofs AppProofs ApiProofs ExchangeProofs.

Section Pages.
Context (ft : features) (cl : cookie_lib) {H ST : Type}
  (handle : H -> matched_request cl -> ST * response cl -> (ST * response cl) * outcome flow).
Theorem page_of_no_host rt w ho pos s t rl hs cs body : clock w <> None -> real_segments t ->
  carries ft cl (stream_of t) rl hs cs body -> lacks_host rl hs ->
  exists out hs page, serve ft cl handle w ho pos rt s t = (s, IoDone out) /\
    wire_reads out (B "1.1") (B "400") (B "BAD REQUEST") hs page /\
    occurs (B "404 NOT FOUND") page /\ ~ occurs (B "400") page.
Proof.
  intros C R Cs LH. destruct (page_400 (cl := cl) ft w ho pos C) as (out & hs' & E & W).
  exists out, hs', NOT_FOUND. pose proof page_says. split; [|tauto].
  pose proof (read_request_cases ft cl t R) as X. unfold serve.
  destruct (read_request ft cl t) as [[|rq]| | |].
  - exfalso. eapply bad_not_carried; eauto.
  - destruct X as (rl' & hs2 & cs' & body' & Cs' & El & _ & _ & G & _).
    destruct (carries_fun _ _ _ _ _ _ _ _ _ _ _ Cs Cs') as (<- & <- & <-). cbn [respond]. rewrite El.
    apply (host_check _ _ hs G) in LH. rewrite LH, E. reflexivity.
  - exfalso. destruct X as [X|X]; [eapply kills_not_carried; eauto|eapply borderline_not_carried; eauto].
  - exfalso. eapply waits_not_carried; eauto.
  - contradiction.
Qed.
Theorem page_of_404 o app rt w ho pos s t rl hs cs body : fits app -> build o app = Done rt ->
  clock w <> None -> real_segments t ->
  carries ft cl (stream_of t) rl hs cs body -> ~ lacks_host rl hs -> rl_method rl <> MNone ->
  exists rq got s' res r, request_is ft rq rl hs cs got /\ handled ft cl handle app rq s ((s', res), r) /\
    (r = Done tt -> rs_body res = BodyNone ->
     exists out hs' page, serve ft cl handle w ho pos rt s t = (s', IoDone out) /\
       wire_reads out (B "1.1") (B "404") (B "NOT FOUND") hs' page /\ occurs (B "404 NOT FOUND") page).
Proof.
  intros F Eb C R Cs NH Mn. destruct (page_404 (cl := cl) ft w ho pos C) as (out & hs' & E & W).
  pose proof (read_request_cases ft cl t R) as X. unfold serve.
  destruct (read_request ft cl t) as [[|rq]| | |].
  - exfalso. eapply bad_not_carried; eauto.
  - destruct X as (rl' & hs2 & cs' & got & Cs' & Ri).
    destruct (carries_fun _ _ _ _ _ _ _ _ _ _ _ Cs Cs') as (<- & <- & <-).
    pose proof (carries_method _ _ _ _ _ _ _ Cs) as Ma. pose proof Ri as (El & _ & _ & G & _). cbn [respond]. rewrite El.
    assert (Eh : err_bad_request (http_validate (rl_version rl) (rq_headers rq)) = false).
    { destruct (err_bad_request _) eqn:Ee; auto. exfalso. apply NH. apply (host_check _ _ hs G) in Ee. exact Ee. }
    rewrite Eh. assert (Em : method_is_some (rl_method rl) = true) by (destruct (rl_method rl); auto; congruence). rewrite Em.
    destruct (dispatch_correct (fun h vars => handle h (MatchedRequest rq vars)) o ft app (rl_method rl) (rl_path rl)
              (s, new_empty) F Ma) as (rt' & sel & calls & Eb' & S & I & Er).
    rewrite Eb in Eb'. injection Eb' as <-. rewrite Er.
    destruct (run_chain (fun h vars => handle h (MatchedRequest rq vars)) calls (s, new_empty)) as [[s' res] r] eqn:Ec.
    exists rq, got, s', res, r. split; [exact Ri|]. split; [unfold handled; rewrite El; exists sel, calls; auto|].
    intros -> Bn. exists out, hs', NOT_FOUND. unfold has_body. rewrite Bn. cbn [negb]. rewrite E.
    split; [reflexivity|]. split; [exact W|apply page_says].
  - exfalso. destruct X as [X|X]; [eapply kills_not_carried; eauto|eapply borderline_not_carried; eauto].
  - exfalso. eapply waits_not_carried; eauto.
  - contradiction.
Qed.
End Pages.
