(** Examples for C123 and C124. *)
From Verif.Spec Require Import Common PathSpec RoutingSpec TextSpec RequestSpec ResponseSpec ServerSpec TaskSpec AppSpec.
From Verif.Proofs Require Export AppWitness WatchProofs.

(** Handler 0 writes down the path of every request; the others count and answer with the count. *)
Definition log_handle (h : nat) (mr : matched_request demo_lib) (x : (list pathbuf * nat) * response demo_lib)
  : ((list pathbuf * nat) * response demo_lib) * outcome flow :=
  let '((log, n), r) := x in
  match h with
  | 0 => ((log ++ [rl_path (rq_line (mr_request mr))], n, r), Done FNext)
  | _ => match res_send ex_world (repeat x61 n) r with
         | Done r' => ((log, S n, r'), Done FStop)
         | Panic => ((log, n, r), Panic)
         end
  end.
Definition same_count (s s' : list pathbuf * nat) : Prop := snd s = snd s'.
Definition log_app : list (oreg nat) := [OAdd 0; ORoute VGet (B "/:a") 0; ORoute VGet (B "/hi") 1; OMount [RAdd 0; RRoute VGet (B "/ho") 2]].
Definition plain_app : list (oreg nat) := [ORoute VGet (B "/hi") 1; OMount [RRoute VGet (B "/ho") 2]].
Definition log_router := match build reverse_order log_app with Done r => r | Panic => router_new end.
Definition plain_router := match build insertion_order plain_app with Done r => r | Panic => router_new end.
Lemma log_watches : watches log_handle same_count 0.
Proof. intros mr [log n] s' r E. eexists. split; [reflexivity|exact E]. Qed.
Lemma log_indifferent : indifferent log_handle same_count.
Proof.
  intros h mr [log n] [log' n'] r E. unfold same_count in *. cbn [snd] in E. subst n'. unfold log_handle.
  destruct h; [repeat split|]. destruct (res_send ex_world (repeat x61 n) r); repeat split.
Qed.
Lemma example_123 :
  indifferent log_handle same_count /\ unwatched log_handle same_count (flatten log_app) (flatten plain_app) /\
  build reverse_order log_app = Done log_router /\ build insertion_order plain_app = Done plain_router /\
  serve default_features demo_lib log_handle ex_world insertion_order [] log_router ([], 3) t_hi =
    (([[B "hi"]; [B "hi"]], 4), IoDone (answer_head (B "200 OK") (B "3") ++ B "aaa")) /\
  serve default_features demo_lib log_handle ex_world insertion_order [] plain_router ([], 3) t_hi =
    (([], 4), IoDone (answer_head (B "200 OK") (B "3") ++ B "aaa")).
Proof.
  split; [exact log_indifferent|]. split; [|repeat split; vm_compute; reflexivity].
  cbn. apply uw_less; [exact log_watches|]. apply uw_less; [exact log_watches|]. apply uw_same.
  apply uw_less; [exact log_watches|]. apply uw_same. apply uw_end.
Qed.
Lemma carried t rq : real_segments t -> read_request default_features demo_lib t = IoDone (RdRequest rq) ->
  exists hs cs body, carries default_features demo_lib (stream_of t) (rq_line rq) hs cs body /\
    (lacks_host (rq_line rq) hs <-> err_bad_request (http_validate (rl_version (rq_line rq)) (rq_headers rq)) = true).
Proof.
  intros R E. pose proof (read_request_cases default_features demo_lib t R) as X. rewrite E in X.
  destruct X as (rl & hs & cs & body & C & Ri). pose proof Ri as (-> & _ & _ & G & _). exists hs, cs, body. split; [exact C|].
  symmetry. apply host_check. exact G.
Qed.
Definition secret : transport :=
  Transport [B "GET /secret/hi HTTP/1.1" ++ CRLF ++ B "Host: y" ++ CRLF ++ B "Cookie: k=v" ++ CRLFCRLF] Stall.
Definition half_line : transport := Transport [B "GET /"; B "<b>hello</b>"] Eof.
Definition hostless : transport := Transport [B "GET / HTTP/1.1" ++ CRLF ++ B "Cookie: k=v" ++ CRLFCRLF] Stall.
Lemma example_124 :
  refused default_features demo_lib (stream_of half_line) (fin half_line) (B "400") (B "BAD REQUEST") /\
  refused default_features demo_lib (stream_of hostless) (fin hostless) (B "400") (B "BAD REQUEST") /\
  exists page,
    snd (serve default_features demo_lib ex_handle ex_world insertion_order [] ex_router 7 half_line) =
      IoDone (answer_head (B "400 BAD REQUEST") (B "189") ++ page) /\
    snd (serve default_features demo_lib log_handle ex_world insertion_order [] log_router ([], 3) hostless) =
      IoDone (answer_head (B "400 BAD REQUEST") (B "189") ++ page).
Proof.
  assert (No : ~ occurs CRLFCRLF (stream_of half_line)).
  { apply find_str_None. vm_compute. reflexivity. }
  split; [apply rf_bad; left; split; [exact No|reflexivity]|].
  split; [|exists (skipn 111 match snd (ex_serve (stream_of half_line) Eof) with IoDone x => x | _ => [] end); split; vm_compute; reflexivity].
  eassert (E : read_request default_features demo_lib hostless = IoDone (RdRequest _)) by (vm_compute; reflexivity).
  destruct (carried hostless _ ltac:(apply real_one; discriminate) E) as (hs & cs & body & C & L).
  eapply rf_host; [exact C|]. apply L. vm_compute. reflexivity.
Qed.
Lemma first_only (ST : Type) (handle : nat -> matched_request demo_lib -> ST * response demo_lib -> (ST * response demo_lib) * outcome flow)
    app s t rq0 : real_segments t -> read_request default_features demo_lib t = IoDone (RdRequest rq0) ->
  err_bad_request (http_validate (rl_version (rq_line rq0)) (rq_headers rq0)) = false -> rl_method (rq_line rq0) <> MNone ->
  (forall mr s r, exists s1, handle 0 mr (s, r) = ((s1, r), Done FNext)) ->
  (forall c, In c (flatten app) -> handler_in c <> 0 -> ~ applies true (rl_method (rq_line rq0)) (rl_path (rq_line rq0)) c) ->
  unanswered default_features demo_lib handle app s (stream_of t).
Proof.
  intros R E Hh Hm H0 N. destruct (carried t rq0 R E) as (hs & cs & body & C & L).
  exists (rq_line rq0), hs, cs, body. split; [exact C|]. split; [rewrite L, Hh; discriminate|]. split; [exact Hm|].
  intros rq got x Ri (sel & calls & S & F & <-). destruct Ri as (El & _). rewrite El in S, F. clear - H0 N S F.
  revert s calls F. induction S as [|c l l' P S IH|c l l' P S IH]; intros s calls F.
  - inversion F. auto.
  - inversion F as [|y [h vars] l1 l2 I F1]; subst. assert (h = handler_in c) as -> by (destruct c; cbn in I; [destruct I as [-> _]|injection I as -> ->]; reflexivity).
    destruct (Nat.eq_dec (handler_in c) 0) as [E0|E0]; [|exfalso; eapply N; eauto; now left].
    cbn [run_chain]. rewrite E0. destruct (H0 (MatchedRequest rq vars) s blank_response) as (s1 & ->).
    apply IH; [|exact F1]. intros c' I' Nc. apply N; auto. now right.
  - apply IH; [|exact F]. intros c' I' Nc. apply N; auto. now right.
Qed.
Definition hidden_app : list (oreg nat) := [OAdd 0; ORoute VGet (B "/hi") 1].
Definition hidden_router := match build reverse_order hidden_app with Done r => r | Panic => router_new end.
Definition other_router := match build insertion_order [OAdd 0] with Done r => r | Panic => router_new end.
Lemma example_124_unanswered :
  fits hidden_app /\ fits [OAdd 0] /\ build reverse_order hidden_app = Done hidden_router /\
  build insertion_order [OAdd 0] = Done other_router /\
  unanswered default_features demo_lib ex_handle hidden_app 7 (stream_of secret) /\
  unanswered default_features demo_lib log_handle [OAdd 0] ([], 3) (stream_of t_hi) /\
  exists page,
    snd (serve default_features demo_lib ex_handle ex_world insertion_order [] hidden_router 7 secret) =
      IoDone (answer_head (B "404 NOT FOUND") (B "189") ++ page) /\
    snd (serve default_features demo_lib log_handle ex_world insertion_order [] other_router ([], 3) t_hi) =
      IoDone (answer_head (B "404 NOT FOUND") (B "189") ++ page).
Proof.
  split; [|split; [|split; [vm_compute; reflexivity|split; [vm_compute; reflexivity|split; [|split]]]]].
  - vm_compute. discriminate.
  - vm_compute. discriminate.
  - eassert (E : read_request default_features demo_lib secret = IoDone (RdRequest _)) by (vm_compute; reflexivity).
    apply (first_only _ ex_handle hidden_app 7 secret _ ltac:(apply real_one; discriminate) E); [vm_compute; reflexivity|discriminate| |].
    + intros mr s r. eexists. reflexivity.
    + intros c I Nc. cbn in I. destruct I as [<-|[<-|[]]]; [cbn in Nc; congruence|].
      eapply route_off; [vm_compute; reflexivity|]. intro F. inversion F as [|? ? ? ? S1 F1]; subst. inversion F1.
  - eassert (E : read_request default_features demo_lib t_hi = IoDone (RdRequest _)) by (vm_compute; reflexivity).
    apply (first_only _ log_handle [OAdd 0] ([], 3) t_hi _ ltac:(apply real_one; discriminate) E); [vm_compute; reflexivity|discriminate| |].
    + intros mr [log n] r. eexists. reflexivity.
    + intros c I Nc. cbn in I. destruct I as [<-|[]]. cbn in Nc. congruence.
  - exists (skipn 109 match snd (serve default_features demo_lib ex_handle ex_world insertion_order [] hidden_router 7 secret) with IoDone x => x | _ => [] end).
    split; vm_compute; reflexivity.
Qed.
