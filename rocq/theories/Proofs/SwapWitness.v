(** Examples for C140. *)
From Verif.Spec Require Import Common PathSpec RouteSpec RoutingSpec TextSpec RequestSpec ResponseSpec ServerSpec TaskSpec AppSpec SwapSpec.
From Verif.Model Require Import RustStd Path Request Time Status Response Router Server Tasks Listen Whole.
From Verif.Proofs Require Export SwapProofs MethodWitness TaskWitness ListenWitness ExchangeWitness WholeWitness.

(** The example application, partly on a mounted router and with other spellings of its paths. *)
Definition other_app : list (oreg nat) :=
  [OMount [RAdd 0; RRoute VGet (B "//hi/") 1]; ORoute VHead (B "hi") 1; OMount [RRoute VPost (B "/x/../echo/./:x") 2]; ORoute VGet (B "/boom//") 3].
Definition other_router : router nat := match build reverse_order other_app with Done r => r | Panic => router_new end.
(** Only the order of the first two is another: the page is sent before handler 0 is asked. *)
Definition turned_app : list (oreg nat) :=
  [ORoute VGet (B "/hi") 1; OAdd 0; ORoute VHead (B "/hi") 1; ORoute VPost (B "/echo/:x") 2; ORoute VGet (B "/boom") 3].

Lemma means_same p p' : path_parse p = path_parse p' -> forall pat, path_means p pat <-> path_means p' pat.
Proof. intros E pat. rewrite !path_means_parse, E. tauto. Qed.
Lemma other_respelled : Forall2 respelled (flatten ex_app) (flatten other_app).
Proof. repeat constructor; apply means_same; vm_compute; reflexivity. Qed.
Lemma ex_looks_up : looks_up ex_handle.
Proof. intros h rq v v' [s r] E. reflexivity. Qed.

(** Handler 2 sends the value of the variable x. *)
Definition var_handle (h : nat) (mr : matched_request demo_lib) (x : nat * response demo_lib)
  : (nat * response demo_lib) * outcome flow :=
  match h with
  | 2 => match res_send ex_world (match mget seqb (B "x") (mr_vars mr) with Some v => v | None => [] end) (snd x) with
         | Done r' => ((S (fst x), r'), Done FStop)
         | Panic => (x, Panic)
         end
  | _ => ex_handle h mr x
  end.
Lemma var_looks_up : looks_up var_handle.
Proof. intros h rq v v' [s r] E. unfold var_handle. cbn [mr_vars]. rewrite E. reflexivity. Qed.
Definition swap_evs : list prog_event :=
  [PrPlain (AcOk 1); PrPlain (AcOk 2); PrTask 1 (TInput (Arrive (req (B "POST") (B "/echo/abc") [HOST] []))) ex_x;
   PrTask 2 (TInput (Arrive get_hi)) ex_x; PrTask 1 TRun ex_x; PrTask 2 TRun ex_x; PrTask 2 TRun ex_x; PrTask 1 TRun ex_x;
   PrTask 1 TRun ex_x; PrTask 2 TRun ex_x; PrTask 1 (TAccept 999) ex_x; PrTask 2 (TAccept 20) ex_x].
Definition swap_end (rt : router nat) := prog_run default_features demo_lib var_handle rt wh_start swap_evs.

Lemma example_140 :
  fits ex_app /\ fits other_app /\ build insertion_order ex_app = Done ex_router /\ build reverse_order other_app = Done other_router /\
  Forall2 respelled (flatten ex_app) (flatten other_app) /\ interchangeable default_features demo_lib ex_app other_app /\
  looks_up var_handle /\ (forall i x, ~ In (PrTask i (TInput (Arrive [])) x) swap_evs) /\
  task_get demo_lib 1 (tasks (pr_tasks (swap_end ex_router))) = TClosed (answer_head (B "200 OK") (B "3") ++ B "abc") /\
  task_get demo_lib 1 (tasks (pr_tasks (swap_end other_router))) = TClosed (answer_head (B "200 OK") (B "3") ++ B "abc") /\
  tshared (pr_tasks (swap_end ex_router)) = 9 /\ tshared (pr_tasks (swap_end other_router)) = 9.
Proof.
  split; [vm_compute; discriminate|]. split; [vm_compute; discriminate|]. split; [vm_compute; reflexivity|]. split; [vm_compute; reflexivity|].
  split; [exact other_respelled|]. split; [apply respelled_interchangeable, other_respelled|]. split; [exact var_looks_up|]. split.
  { intros i x X. unfold swap_evs in X. cbn [In] in X. repeat (destruct X as [X|X]; [discriminate X|]). destruct X. }
  split; [vm_compute; reflexivity|]. split; [vm_compute; reflexivity|]. split; vm_compute; reflexivity.
Qed.
(** The order matters: the turned application is not interchangeable with the original. *)
Lemma turned_140 : ~ interchangeable default_features demo_lib ex_app turned_app.
Proof.
  intro I.
  destruct (read_carried t_hi (match read_of t_hi with Some rq => rq | None => Request (RequestLine MNone [] Http11) (Headers [] []) [] [] end))
    as (hs & cs & body & Ca & NH).
  { apply real_one. discriminate. }
  { vm_compute. reflexivity. }
  assert (A : asked_for default_features demo_lib MGet [B "hi"]).
  { exists (stream_of t_hi). do 4 eexists. split; [exact Ca|]. split; [apply NH; vm_compute; reflexivity|]. split; [vm_compute; discriminate|].
    split; vm_compute; reflexivity. }
  assert (Nm : MGet <> MAll) by discriminate.
  pose proof (inter_calls _ _ _ _ _ _ Nm I A) as X. vm_compute in X. inversion X as [|? ? ? ? [E _]]. discriminate E.
Qed.
