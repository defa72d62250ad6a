(** Examples for C142. *)
From Verif.Spec Require Import Common PathSpec RouteSpec RoutingSpec TextSpec RequestSpec ResponseSpec ServerSpec AppSpec SwapSpec FeatureSpec.
From Verif.Model Require Import RustStd Path Request Time Status Response Router Server Tasks Listen Whole.
From Verif.Proofs Require Export FeatureProgram SwapWitness.

(** No feature at all; and an application without variables. *)
Definition bare : features := Features false false false false.
Definition plain_app : list (oreg nat) := [OAdd 0; ORoute VGet (B "/hi") 1; ORoute VPost (B "/echo/x:y") 2].
Definition plain_router : router nat := match build insertion_order plain_app with Done r => r | Panic => router_new end.
Definition echo_abc : transport := Transport [req (B "POST") (B "/echo/x:y") [HOST; LEN (B "3")] (B "abc")] Stall.

Lemma ex_common ft ft' : uses_only_common ft ft' ex_handle.
Proof.
  split.
  - intros h rq rq' v [s r] (_ & Eb & _). unfold ex_handle. cbn [mr_request]. rewrite Eb. reflexivity.
  - intros _ h mr [s r] E. cbn [snd] in E. unfold ex_handle.
    destruct h as [|[|[|[|h]]]]; auto.
Qed.
Lemma plain_common ft ft' : common_routes ft ft' plain_app.
Proof.
  intros _ v p h pat X P. apply path_means_parse in P. cbn [flatten plain_app flat_map List.app In] in X.
  destruct X as [X|[X|[X|[]]]]; try discriminate X; injection X as <- <- <-; vm_compute in P; injection P as <-; repeat constructor; discriminate.
Qed.
Lemma example_142 :
  fits plain_app /\ build insertion_order plain_app = Done plain_router /\ common_routes default_features bare plain_app /\
  no_stricter default_features bare /\ looks_up ex_handle /\ uses_only_common default_features bare ex_handle /\ real_segments echo_abc /\
  (exists rl hs cs body, carries default_features demo_lib (stream_of echo_abc) rl hs cs body /\ common_request default_features bare hs) /\
  serve bare demo_lib ex_handle ex_world insertion_order [] plain_router 7 echo_abc = (7, IoDone (answer_head (B "200 OK") (B "3") ++ B "abc")).
Proof.
  split; [vm_compute; discriminate|]. split; [vm_compute; reflexivity|]. split; [apply plain_common|]. split; [intros _; reflexivity|].
  split; [exact ex_looks_up|]. split; [apply ex_common|]. assert (R : real_segments echo_abc) by (apply real_one; discriminate).
  split; [exact R|]. split; [|vm_compute; reflexivity].
  pose proof (read_request_cases default_features demo_lib echo_abc R) as X.
  eassert (E : read_request default_features demo_lib echo_abc = IoDone (RdRequest _)) by (vm_compute; reflexivity).
  rewrite E in X. destruct X as (rl & hs & cs & body & Ca & (_ & _ & _ & G & _)). exists rl, hs, cs, body. split; auto.
  intros _. rewrite <- G. vm_compute. reflexivity.
Qed.

(** What the conditions are for. *)
Definition only_vars : features := Features true true false true.      (* no cookies *)
Definition only_cookies : features := Features true false true true.   (* no variables *)
Definition lax : features := Features false true true true.
Definition bad_cookie : transport := Transport [req (B "GET") (B "/hi") [HOST; Header (B "Cookie") (B "abc")] []] Stall.
Definition odd_header : transport := Transport [B "GET /hi HTTP/1.1" ++ CRLF ++ B "Host: x" ++ CRLF ++ B "a b: c" ++ CRLFCRLF] Stall.
Definition echo_var : transport := Transport [req (B "POST") (B "/echo/x") [HOST; LEN (B "3")] (B "abc")] Stall.
Notation served ft t := (serve ft demo_lib ex_handle ex_world insertion_order [] ex_router 7 t).
Lemma needed_142 :
  (served default_features bad_cookie = (7, IoPanic) /\ served only_vars bad_cookie = (8, IoDone (answer_head (B "200 OK") (B "2") ++ B "hi"))) /\
  (served default_features odd_header = (7, IoPanic) /\ served lax odd_header = (8, IoDone (answer_head (B "200 OK") (B "2") ++ B "hi"))) /\
  (served default_features echo_var = (7, IoDone (answer_head (B "200 OK") (B "3") ++ B "abc")) /\
   exists rest, served only_cookies echo_var = (7, IoDone (B "HTTP/1.1 404 " ++ rest))).
Proof.
  split; [split; vm_compute; reflexivity|]. split; [split; vm_compute; reflexivity|]. split; [vm_compute; reflexivity|].
  exists (match snd (served only_cookies echo_var) with IoDone out => skipn 13 out | _ => [] end). vm_compute. reflexivity.
Qed.

(** Two connections at a time, in two programs. *)
Definition fewer : features := Features true false true false.          (* no variables, no raw headers *)
Definition plain_evs : list prog_event :=
  [PrPlain (AcOk 1); PrPlain (AcOk 2); PrTask 1 (TInput (Arrive (req (B "POST") (B "/echo/x:y") [HOST; LEN (B "3")] (B "abc")))) ex_x;
   PrTask 2 (TInput (Arrive get_hi)) ex_x; PrTask 1 TRun ex_x; PrTask 2 TRun ex_x; PrTask 2 TRun ex_x; PrTask 1 TRun ex_x;
   PrTask 1 TRun ex_x; PrTask 2 TRun ex_x; PrTask 1 (TAccept 999) ex_x; PrTask 2 (TAccept 20) ex_x].
Definition plain_end (ft : features) := prog_run ft demo_lib ex_handle plain_router wh_start plain_evs.
Lemma programs_142 :
  common_routes default_features fewer plain_app /\ faithful default_features = faithful fewer /\ cookies_on default_features = cookies_on fewer /\
  uses_only_common default_features fewer ex_handle /\ (forall i x, ~ In (PrTask i (TInput (Arrive [])) x) plain_evs) /\
  task_get demo_lib 1 (tasks (pr_tasks (plain_end default_features))) = TClosed (answer_head (B "200 OK") (B "3") ++ B "abc") /\
  task_get demo_lib 1 (tasks (pr_tasks (plain_end fewer))) = TClosed (answer_head (B "200 OK") (B "3") ++ B "abc") /\
  (exists rest, task_get demo_lib 2 (tasks (pr_tasks (plain_end fewer))) = TSending (firstn 20 (answer_head (B "200 OK") (B "2"))) rest).
Proof.
  split; [apply plain_common|]. split; [reflexivity|]. split; [reflexivity|]. split; [apply ex_common|]. split.
  { intros i x X. unfold plain_evs in X. cbn [In] in X. repeat (destruct X as [X|X]; [discriminate X|]). destruct X. }
  split; [vm_compute; reflexivity|]. split; [vm_compute; reflexivity|]. eexists. vm_compute. reflexivity.
Qed.
