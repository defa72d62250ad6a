(** An exchange for Props/ExchangeProps.v. *)
From Coq Require Import Permutation.
From Verif.Proofs Require Import TaskWitness OrderProofs AppWitness ExchangeProofs.
From Verif.Spec Require Import Common PathSpec RoutingSpec TextSpec RequestSpec ResponseSpec ServerSpec TaskSpec AppSpec ExchangeSpec.

(** Handler 3 panics; the others send the body back (a clock before 1970 gives no body). *)
Definition echo_handle (h : nat) (mr : matched_request demo_lib) (x : nat * response demo_lib)
  : (nat * response demo_lib) * outcome flow :=
  let '(s, r) := x in
  if Nat.eqb h 3 then ((s, r), Panic) else
  match res_send ex_world (rq_body (mr_request mr)) r with Done r' => ((s, r'), Done FStop) | Panic => ((s, r), Done FNext) end.
Definition echo_app : list (oreg nat) := [ORoute VPost (B "/echo/:x") 2; ORoute VGet (B "/boom") 3].
Definition echo_router : router nat := match build insertion_order echo_app with Done r => r | Panic => router_new end.
Definition echo_headers : list header := [Header (B "Host") (B "x"); Header (B "Content-Length") (B "3")].
Definition echo_text : str := request_text (B "POST") (B "/echo/./7") (B "1.1") echo_headers (B "abc").
(** The request of connection 1 in two pieces, connection 2 closing early, connection 3 with another body, and
    connection 4 with a request whose handler panics. *)
Definition echo_evs1 : list (nat * task_event * (world * order)) :=
  [(1, TInput (Arrive (firstn 20 echo_text)), ex_x); (2, TInput (Arrive (B "PO")), ex_x); (1, TInput (Arrive (skipn 20 echo_text)), ex_x);
   (3, TInput (Arrive (request_text (B "POST") (B "/echo/8") (B "1.1") echo_headers (B "xyz"))), ex_x);
   (4, TInput (Arrive get_boom), ex_x)].
Definition echo_evs2 : list (nat * task_event * (world * order)) :=
  [(4, TRun, ex_x); (3, TRun, ex_x); (1, TRun, ex_x); (2, TInput PeerClose, ex_x); (1, TRun, ex_x); (3, TRun, ex_x); (1, TRun, ex_x); (2, TRun, ex_x)].
Definition echo_evs3 : list (nat * task_event * (world * order)) := [(3, TAccept 9, ex_x); (1, TAccept 77, ex_x); (1, TAccept 500, ex_x)].

Lemma echo_read_only : read_only echo_handle.
Proof. intros h mr s r. unfold echo_handle. destruct (Nat.eqb h 3); [reflexivity|]. destruct (res_send _ _ r); reflexivity. Qed.
Lemma echo_total h mr x : h <> 3 -> snd (echo_handle h mr x) <> Panic.
Proof.
  intro N. unfold echo_handle. destruct x as [s r]. apply Nat.eqb_neq in N. rewrite N. destruct (res_send _ _ r); discriminate.
Qed.
Lemma echo_keeps h mr s r : presentable default_features (eq ex_world) r ->
  presentable default_features (eq ex_world) (snd (fst (echo_handle h mr (s, r)))).
Proof.
  intros (W & Sp & Ck & b & G). unfold echo_handle. destruct (Nat.eqb h 3).
  { cbn [fst snd]. split; [exact W|]. split; [exact Sp|]. split; [exact Ck|]. exists b. exact G. }
  destruct (res_send ex_world (rq_body (mr_request mr)) r) as [r'|] eqn:E.
  - cbn [fst snd]. split; [|].
    + intros w <-. eapply writable_send; [apply W; reflexivity|exact E].
    + unfold res_send, default_headers in E. cbn in E. injection E as <-. cbn. split; [exact Sp|]. split; [exact Ck|].
      eexists. reflexivity.
  - cbn [fst snd]. split; [exact W|]. split; [exact Sp|]. split; [exact Ck|]. exists b. exact G.
Qed.
Lemma echo_behaved (rq : request demo_lib) : rq_line rq = RequestLine MPost [B "echo"; B "7"] Http11 ->
  well_behaved default_features demo_lib echo_handle (eq ex_world) echo_app rq.
Proof.
  intros El calls h vars s r (sel & S & F) I. split; [|apply echo_keeps]. apply echo_total. rewrite El in S, F. cbn [rl_method rl_path] in S, F.
  assert (A : exists c, In c sel /\ h = handler_in c).
  { clear S. induction F as [|c [h' v'] sel calls Iv F IH]; [destruct I|]. destruct I as [E|I].
    - injection E as -> ->. exists c. split; [now left|]. destruct c; cbn in Iv; [destruct Iv as [-> _]|injection Iv as -> _]; reflexivity.
    - destruct (IH I) as (c' & Ic & Ec). exists c'. split; [now right|exact Ec]. }
  destruct A as (c & Ic & ->). destruct (selects_In _ _ _ S c Ic) as [Ia P].
  cbn in Ia. destruct Ia as [<-|[<-|[]]]; [discriminate|]. exfalso. destruct P as [P _]. discriminate P.
Qed.
Lemma example_119 :
  let evs := echo_evs1 ++ echo_evs2 ++ echo_evs3 in
  (forall rq : request demo_lib, rq_line rq = RequestLine MPost [B "echo"; B "7"] Http11 ->
     well_behaved default_features demo_lib echo_handle (eq ex_world) echo_app rq) /\
  read_only echo_handle /\
  build insertion_order echo_app = Done echo_router /\ real_inputs evs /\
  Forall (fun ev => ex_world = fst (snd ev) /\ clock (fst (snd ev)) <> None) evs /\ writes_succeed 1 evs /\
  stream_of (input_of (inputs 1 echo_evs1)) = request_text (B "POST") (B "/echo/./7") (B "1.1") echo_headers (B "abc") /\
  stream_of (input_of (inputs 1 evs)) = request_text (B "POST") (B "/echo/./7") (B "1.1") echo_headers (B "abc") /\
  length (flatten echo_app) < runs_of 1 echo_evs2 /\
  task_get demo_lib 1 (tasks (tasks_run default_features demo_lib echo_handle echo_router (TasksState 7 []) evs)) =
    TClosed (answer_head (B "200 OK") (B "3") ++ B "abc") /\
  task_get demo_lib 4 (tasks (tasks_run default_features demo_lib echo_handle echo_router (TasksState 7 []) evs)) = TCrashed.
Proof.
  split; [exact echo_behaved|]. split; [exact echo_read_only|]. split; [vm_compute; reflexivity|].
  split; [unfold real_inputs; cbn [app echo_evs1 echo_evs2 echo_evs3]; repeat constructor; vm_compute; discriminate|].
  split; [cbn [app echo_evs1 echo_evs2 echo_evs3]; repeat constructor; vm_compute; discriminate|].
  split.
  { intros e x I. unfold echo_evs1, echo_evs2, echo_evs3 in I. cbn [In app] in I.
    repeat match goal with H : _ \/ _ |- _ => destruct H as [H|H] end; try contradiction;
      try discriminate I; injection I as <- <-; split; discriminate. }
  split; [vm_compute; reflexivity|]. split; [vm_compute; reflexivity|]. split; [vm_compute; auto|]. split; vm_compute; reflexivity.
Qed.

(** Connection 2 has closed after two bytes. *)
Definition short_evs1 : list (nat * task_event * (world * order)) := echo_evs1 ++ [(2, TInput PeerClose, ex_x)].
Definition short_evs2 : list (nat * task_event * (world * order)) := [(2, TRun, ex_x); (1, TRun, ex_x); (2, TRun, ex_x); (2, TRun, ex_x)].
Definition short_evs3 : list (nat * task_event * (world * order)) := [(2, TAccept 50, ex_x); (2, TAccept 500, ex_x)].
Lemma example_119_refused :
  let evs := short_evs1 ++ short_evs2 ++ short_evs3 in
  real_inputs evs /\ Forall (fun ev => clock (fst (snd ev)) <> None) evs /\ writes_succeed 2 evs /\
  ~ stream_waits default_features (stream_of (input_of (inputs 2 short_evs1))) (fin (input_of (inputs 2 short_evs1))) /\
  refused default_features demo_lib (stream_of (input_of (inputs 2 evs))) (fin (input_of (inputs 2 evs))) (B "400") (B "BAD REQUEST") /\
  length (flatten echo_app) < runs_of 2 short_evs2 /\
  exists out, task_get demo_lib 2 (tasks (tasks_run default_features demo_lib echo_handle echo_router (TasksState 7 []) evs)) = TClosed out.
Proof.
  assert (No : ~ occurs CRLFCRLF (B "PO")).
  { intros (n & a & b & E & _). apply (f_equal (@length _)) in E. rewrite !app_length in E. cbn in E. lia. }
  split; [unfold real_inputs; cbn [app short_evs1 short_evs2 short_evs3 echo_evs1]; repeat constructor; vm_compute; discriminate|].
  split; [cbn [app short_evs1 short_evs2 short_evs3 echo_evs1]; repeat constructor; vm_compute; discriminate|].
  split.
  { intros e x I. unfold short_evs1, short_evs2, short_evs3, echo_evs1 in I. cbn [In app] in I.
    repeat match goal with H : _ \/ _ |- _ => destruct H as [H|H] end; try contradiction;
      try discriminate I; injection I as <- <-; split; discriminate. }
  split; [|split; [|split; [|eexists; vm_compute; reflexivity]]].
  - intros [E _]. vm_compute in E. discriminate.
  - apply rf_bad. left. split; [exact No|reflexivity].
  - vm_compute. auto.
Qed.

(** Connection 2 closed early; its socket takes some of the 400 answer and then fails. *)
Definition gone_evs3 : list (nat * task_event * (world * order)) := [(2, TAccept 50, ex_x); (2, TWriteError, ex_x)].
Lemma example_126 :
  real_inputs short_evs1 /\ Forall (fun ev => clock (fst (snd ev)) <> None) short_evs1 /\
  In (2, TInput PeerClose, ex_x) short_evs1 /\ length (flatten echo_app) < runs_of 2 short_evs2 /\
  In (2, TWriteError, ex_x) gone_evs3 /\
  exists sent, task_get demo_lib 2 (tasks (tasks_run default_features demo_lib echo_handle echo_router (TasksState 7 [])
    (short_evs1 ++ short_evs2 ++ gone_evs3))) = TClosed sent /\ length sent = 50.
Proof.
  split; [unfold real_inputs; cbn [app short_evs1 echo_evs1]; repeat constructor; vm_compute; discriminate|].
  split; [cbn [app short_evs1 echo_evs1]; repeat constructor; vm_compute; discriminate|].
  split; [unfold short_evs1; apply in_or_app; right; now left|]. split; [vm_compute; auto|].
  split; [right; now left|]. eexists. split; vm_compute; reflexivity.
Qed.
