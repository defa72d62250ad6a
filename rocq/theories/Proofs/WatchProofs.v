(** Lemmas behind C123 and C124. *)
From Verif.Model Require Import RustStd Path Request Time Status Response Router Server.
From Verif.Spec Require Import Common PathSpec RoutingSpec TextSpec RequestSpec ResponseSpec ServerSpec TaskSpec AppSpec.
From Verif.Proofs Require Import Basics PathProofs RouterProofs RequestProofs RequestExtra ServerProofs ConnProofs AppProofs ExchangeProofs.

(** ** Handlers that only watch *)
Section Watch.
Context (ft : features) (cl : cookie_lib) {H ST : Type}
  (handle : H -> matched_request cl -> ST * response cl -> (ST * response cl) * outcome flow) (E : ST -> ST -> Prop).
Context (In_ : indifferent handle E).

Lemma calls_of_one m path (c : rreg H) : m <> MAll ->
  calls_of ft m path [c] = [] \/ exists vars, calls_of ft m path [c] = [(handler_in c, vars)].
Proof.
  intro Hm. destruct (calls_of_spec ft m path [c] Hm) as (sel & S & F).
  inversion S as [|x l l' P S1|x l l' P S1]; subst; inversion S1; subst.
  - inversion F as [|x [h vars] l l' I F1]; subst. inversion F1; subst. right. destruct c; cbn in I.
    + destruct I as [-> _]. eauto.
    + injection I as -> ->. eauto.
  - inversion F. auto.
Qed.
Definition alike (x x' : (ST * response cl) * outcome unit) : Prop :=
  E (fst (fst x)) (fst (fst x')) /\ snd (fst x) = snd (fst x') /\ snd x = snd x'.
Lemma chain_unwatched rq m path l l' : m <> MAll -> unwatched handle E l l' -> forall s s' r, E s s' ->
  alike (run_chain (fun h vars => handle h (MatchedRequest rq vars)) (calls_of ft m path l) (s, r))
        (run_chain (fun h vars => handle h (MatchedRequest rq vars)) (calls_of ft m path l') (s', r)).
Proof.
  intros Hm U. induction U as [|c l l' U IH|c l l' W U IH]; intros s s' r Es.
  - repeat split. exact Es.
  - rewrite (calls_of_cons ft m path c l), (calls_of_cons ft m path c l').
    destruct (calls_of_one m path c Hm) as [-> |(vars & ->)]; cbn [app]; auto. cbn [run_chain].
    destruct (In_ (handler_in c) (MatchedRequest rq vars) s s' r Es) as (A & B' & C).
    destruct (handle (handler_in c) (MatchedRequest rq vars) (s, r)) as [[s1 r1] o].
    destruct (handle (handler_in c) (MatchedRequest rq vars) (s', r)) as [[s2 r2] o']. cbn [fst snd] in A, B', C. subst r2 o'.
    destruct o as [[]|]; first [apply IH; exact A|repeat split; exact A].
  - rewrite (calls_of_cons ft m path c l). destruct (calls_of_one m path c Hm) as [-> |(vars & ->)]; cbn [app]; auto.
    cbn [run_chain]. destruct (W (MatchedRequest rq vars) s s' r Es) as (s1 & -> & E1). apply IH. exact E1.
Qed.
Theorem watched o o' app app' rt rt' w ho pos s s' t :
  fits app -> fits app' -> build o app = Done rt -> build o' app' = Done rt' -> real_segments t ->
  unwatched handle E (flatten app) (flatten app') -> E s s' ->
  snd (serve ft cl handle w ho pos rt s t) = snd (serve ft cl handle w ho pos rt' s' t) /\
  E (fst (serve ft cl handle w ho pos rt s t)) (fst (serve ft cl handle w ho pos rt' s' t)).
Proof.
  intros F F' Eb Eb' R U Es. unfold serve. pose proof (read_request_cases ft cl t R) as C.
  destruct (read_request ft cl t) as [[|rq]| | |]; try (split; [reflexivity|exact Es]).
  destruct C as (rl & hs & cs & body & Cs & Ri). assert (Hm : rl_method (rq_line rq) <> MAll).
  { destruct Ri as (-> & _). eapply carries_method; eauto. }
  cbn [respond]. destruct (err_bad_request _); [split; [reflexivity|exact Es]|].
  destruct (method_is_some (rl_method (rq_line rq))); [|split; [reflexivity|exact Es]].
  destruct (build_run (fun h vars => handle h (MatchedRequest rq vars)) o app F) as (r1 & E1 & R1).
  destruct (build_run (fun h vars => handle h (MatchedRequest rq vars)) o' app' F') as (r2 & E2 & R2).
  rewrite Eb in E1; injection E1 as <-. rewrite Eb' in E2; injection E2 as <-.
  rewrite R1, R2 by exact Hm.
  pose proof (chain_unwatched rq (rl_method (rq_line rq)) (rl_path (rq_line rq)) _ _ Hm U s s' new_empty Es) as (A & B' & C).
  destruct (run_chain _ (calls_of ft _ _ (flatten app)) _) as [[s1 res1] o1].
  destruct (run_chain _ (calls_of ft _ _ (flatten app')) _) as [[s2 res2] o2]. cbn [fst snd] in A, B', C. subst res2 o2.
  destruct o1 as [[]|]; [|split; [reflexivity|exact A]]. destruct (negb (has_body res1)); split; try reflexivity; exact A.
Qed.
End Watch.

(** ** Error answers *)
Section Errors.
Context (ft : features) (cl : cookie_lib).
Definition error_code (num : str) : status_code := if seqb num (B "400") then StBadRequest else StNotImplemented.
Lemma refused_serve {H ST : Type} (handle : H -> matched_request cl -> ST * response cl -> (ST * response cl) * outcome flow)
    w ho pos rt s t num reason : real_segments t -> refused ft cl (stream_of t) (fin t) num reason ->
  serve ft cl handle w ho pos rt s t = (s, io_of_outcome (error_send ft w ho pos (error_code num) (cl := cl))).
Proof.
  intros R Rf. unfold serve. pose proof (read_request_cases ft cl t R) as C.
  assert (D : (exists e, refused ft cl (stream_of t) e num reason) /\ ~ stream_waits ft (stream_of t) (fin t) /\
     ~ stream_kills ft cl (stream_of t) (fin t) /\ ~ borderline ft (stream_of t) (fin t)).
  { split; [eauto|]. inversion Rf as [X|rl hs cs body Ca X|rl hs cs body Ca X Y]; subst; repeat split; intro Z.
    - eapply bad_not_waits; eauto.
    - eapply bad_not_kills; eauto.
    - eapply borderline_not_bad; eauto.
    - eapply waits_not_carried; eauto.
    - eapply kills_not_carried; eauto.
    - eapply borderline_not_carried; eauto.
    - eapply waits_not_carried; eauto.
    - eapply kills_not_carried; eauto.
    - eapply borderline_not_carried; eauto. }
  destruct D as (_ & D1 & D2 & D3). destruct (read_request ft cl t) as [[|rq]| | |]; try contradiction; [| |tauto].
  - assert (num = B "400") as ->.
    { inversion Rf as [X|rl hs cs body Ca X|rl hs cs body Ca X Y]; subst; auto. exfalso. eapply bad_not_carried; eauto. }
    reflexivity.
  - destruct C as (rl & hs & cs & body & Ca & Ri). pose proof Ri as (El & _ & _ & G & _). cbn [respond]. rewrite El.
    inversion Rf as [X|rl' hs' cs' body' Ca' X|rl' hs' cs' body' Ca' X Y]; subst.
    + exfalso. eapply bad_not_carried; eauto.
    + destruct (carries_fun _ _ _ _ _ _ _ _ _ _ _ Ca Ca') as (<- & <- & _). apply (host_check _ _ hs G) in X. rewrite X. reflexivity.
    + destruct (carries_fun _ _ _ _ _ _ _ _ _ _ _ Ca Ca') as (<- & <- & _).
      destruct (err_bad_request _) eqn:Eh; [exfalso; apply X; apply (host_check _ _ hs G); exact Eh|]. rewrite Y. reflexivity.
Qed.
Theorem refused_alike {H ST H' ST' : Type}
    (handle : H -> matched_request cl -> ST * response cl -> (ST * response cl) * outcome flow)
    (handle' : H' -> matched_request cl -> ST' * response cl -> (ST' * response cl) * outcome flow)
    w ho pos rt rt' s s' t t' num reason : real_segments t -> real_segments t' ->
  refused ft cl (stream_of t) (fin t) num reason -> refused ft cl (stream_of t') (fin t') num reason ->
  snd (serve ft cl handle w ho pos rt s t) = snd (serve ft cl handle' w ho pos rt' s' t').
Proof.
  intros R R' Rf Rf'. rewrite (refused_serve handle w ho pos rt s t num reason R Rf), (refused_serve handle' w ho pos rt' s' t' num reason R' Rf').
  reflexivity.
Qed.
Lemma unanswered_serve {H ST : Type} (handle : H -> matched_request cl -> ST * response cl -> (ST * response cl) * outcome flow)
    o app w ho pos rt s t : fits app -> build o app = Done rt -> real_segments t -> unanswered ft cl handle app s (stream_of t) ->
  snd (serve ft cl handle w ho pos rt s t) = io_of_outcome (error_send ft w ho pos StNotFound (cl := cl)).
Proof.
  intros F Eb R (rl & hs & cs & body & Ca & NH & NM & U). unfold serve. pose proof (read_request_cases ft cl t R) as C.
  destruct (read_request ft cl t) as [[|rq]| | |].
  - exfalso. eapply bad_not_carried; eauto.
  - destruct C as (rl' & hs' & cs' & got & Ca' & Ri). destruct (carries_fun _ _ _ _ _ _ _ _ _ _ _ Ca Ca') as (<- & <- & <-).
    pose proof Ri as (El & _ & _ & G & _). cbn [respond]. rewrite El.
    destruct (err_bad_request _) eqn:Eh; [exfalso; apply NH; apply (host_check _ _ hs G); exact Eh|].
    assert (method_is_some (rl_method rl) = true) as -> by (destruct (rl_method rl) eqn:Em; auto; congruence).
    destruct (dispatch_correct (fun h vars => handle h (MatchedRequest rq vars)) o ft app (rl_method rl) (rl_path rl)
                (s, new_empty) F (carries_method _ _ _ _ _ _ _ Ca)) as (rt' & sel & calls & Eb' & S & I & Er).
    rewrite Eb in Eb'. injection Eb' as <-. rewrite Er.
    destruct (U rq got (run_chain (fun h vars => handle h (MatchedRequest rq vars)) calls (s, new_empty)) Ri) as [A B'].
    { unfold handled. rewrite El. exists sel, calls. auto. }
    destruct (run_chain _ calls _) as [[s1 res] o1]. cbn [fst snd] in A, B'. subst o1. unfold has_body. rewrite B'. reflexivity.
  - exfalso. destruct C as [C|C]; [eapply kills_not_carried; eauto|eapply borderline_not_carried; eauto].
  - exfalso. eapply waits_not_carried; eauto.
  - contradiction.
Qed.
Theorem unanswered_alike {H ST H' ST' : Type}
    (handle : H -> matched_request cl -> ST * response cl -> (ST * response cl) * outcome flow)
    (handle' : H' -> matched_request cl -> ST' * response cl -> (ST' * response cl) * outcome flow)
    o o' app app' w ho pos rt rt' s s' t t' :
  fits app -> fits app' -> build o app = Done rt -> build o' app' = Done rt' -> real_segments t -> real_segments t' ->
  unanswered ft cl handle app s (stream_of t) -> unanswered ft cl handle' app' s' (stream_of t') ->
  snd (serve ft cl handle w ho pos rt s t) = snd (serve ft cl handle' w ho pos rt' s' t').
Proof.
  intros F F' Eb Eb' R R' U U'. rewrite (unanswered_serve handle o app w ho pos rt s t F Eb R U).
  symmetry. exact (unanswered_serve handle' o' app' w ho pos rt' s' t' F' Eb' R' U').
Qed.
End Errors.
