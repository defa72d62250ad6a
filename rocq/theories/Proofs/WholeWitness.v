(** A run of the whole program for Props/WholeProps.v. *)
From Verif.Model Require Import RustStd Path Request Time Status Response Router Server Tasks Listen Whole.
From Verif.Spec Require Import Common PathSpec RoutingSpec TextSpec RequestSpec ResponseSpec ServerSpec TaskSpec ExchangeSpec ListenSpec WholeSpec.
From Verif.Proofs Require Import PathExtra ServerWitness TaskWitness ListenWitness ExchangeWitness WholeProofs.

Definition on_tasks (evs : list (nat * task_event * (world * order))) : list prog_event := map (fun ev => PrTask (fst (fst ev)) (snd (fst ev)) (snd ev)) evs.
(** 2 and 4 are plain connections, 1, 3 and 5 TLS connections; the handshake of 5 fails, then both listeners. *)
Definition wh_evs0 : list prog_event :=
  [PrPlain (AcOk 2); PrTls (AcOk 1); PrTls (AcOk 5); PrPlain (AcOk 4); PrTls (AcOk 3); PrHandshake 3 true; PrHandshake 5 false;
   PrHandshake 1 true; PrTask 4 (TInput (Arrive (firstn 5 get_boom))) ex_x; PrTls AcErr; PrPlain AcErr; PrPlain (AcOk 6)].
Definition wh_evs1 : list prog_event :=
  PrTask 5 (TInput (Arrive get_hi)) ex_x :: PrTask 6 (TInput (Arrive get_hi)) ex_x ::
  on_tasks (firstn 4 echo_evs1) ++ [PrTask 4 (TInput (Arrive (skipn 5 get_boom))) ex_x].
Definition wh_evs2 : list prog_event := on_tasks echo_evs2.
Definition wh_evs3 : list prog_event := on_tasks echo_evs3.
Definition wh_start := prog_start (H := nat) demo_lib demo_tls TlsRustls (tls_config (B "key") (B "cert")) os_fine os_fine 80 7.
Definition wh_run := prog_run default_features demo_lib echo_handle echo_router wh_start.

Lemma example_128 :
  let after := wh_evs1 ++ wh_evs2 ++ wh_evs3 in
  can_listen os_fine /\ tls_listener demo_tls TlsRustls (tls_config (B "key") (B "cert")) os_fine = LsAccepting /\
  opened (can_listen os_fine) (tls_listener demo_tls TlsRustls (tls_config (B "key") (B "cert")) os_fine = LsAccepting) 1 wh_evs0 /\
  opened (can_listen os_fine) (tls_listener demo_tls TlsRustls (tls_config (B "key") (B "cert")) os_fine = LsAccepting) 2 wh_evs0 /\
  (forall e x, ~ In (PrTask 1 e x) wh_evs0) /\ ~ ended (can_listen os_fine) (wh_evs0 ++ after) /\
  real_inputs (task_part (wh_evs0 ++ after)) /\
  Forall (fun ev => ex_world = fst (snd ev) /\ clock (fst (snd ev)) <> None) (task_part (wh_evs0 ++ after)) /\
  writes_succeed 1 (task_part after) /\
  stream_of (input_of (inputs 1 (task_part wh_evs1))) = request_text (B "POST") (B "/echo/./7") (B "1.1") echo_headers (B "abc") /\
  stream_of (input_of (inputs 1 (task_part after))) = request_text (B "POST") (B "/echo/./7") (B "1.1") echo_headers (B "abc") /\
  length (flatten echo_app) < runs_of 1 (task_part wh_evs2) /\
  let ts := tasks (pr_tasks (wh_run (wh_evs0 ++ after))) in
  task_get demo_lib 1 ts = TClosed (answer_head (B "200 OK") (B "3") ++ B "abc") /\
  task_get demo_lib 4 ts = TCrashed /\ task_get demo_lib 5 ts = TReading [] /\ task_get demo_lib 6 ts = TReading [].
Proof.
  assert (Es : forall l, task_part (on_tasks l) = l).
  { induction l as [|[[j e] x] l IH]; [reflexivity|]. cbn [on_tasks map task_part flat_map app fst snd]. f_equal. exact IH. }
  cbv zeta. split; [repeat split; reflexivity|]. split; [vm_compute; reflexivity|].
  split.
  { right. split; [vm_compute; reflexivity|]. exists [PrPlain (AcOk 2)], [PrTls (AcOk 5); PrPlain (AcOk 4); PrTls (AcOk 3); PrHandshake 3 true; PrHandshake 5 false].
    eexists. split; [reflexivity|]. split; [|split].
    - intro X. cbn [In] in X. repeat (destruct X as [X|X]; [discriminate X|]). destruct X.
    - intros [(P & a & b & E & _)|(P & a & b & E & _)]; destruct a as [|x [|y a]]; discriminate E.
    - intro X. cbn [In] in X. repeat (destruct X as [X|X]; [discriminate X|]). destruct X. }
  split.
  { left. split; [repeat split; reflexivity|]. exists []. eexists. split; [reflexivity|]. split; [intros []|].
    intros [(P & a & b & E & _)|(P & a & b & E & _)]; destruct a; discriminate E. }
  split.
  { intros e x X. unfold wh_evs0 in X. cbn [In] in X. repeat (destruct X as [X|X]; [discriminate X|]); destruct X. }
  split.
  { intros (a & b & E & _). assert (X : In PrReturn (wh_evs0 ++ wh_evs1 ++ wh_evs2 ++ wh_evs3)) by (rewrite E; apply in_or_app; right; now left).
    clear E. unfold wh_evs0, wh_evs1, wh_evs2, wh_evs3, on_tasks, echo_evs1, echo_evs2, echo_evs3 in X. cbn [In app map firstn] in X.
    repeat (destruct X as [X|X]; [discriminate X|]); destruct X. }
  split.
  { unfold real_inputs, wh_evs0, wh_evs1, wh_evs2, wh_evs3, on_tasks, echo_evs1, echo_evs2, echo_evs3. cbn [task_part flat_map app map firstn fst snd].
    repeat constructor; vm_compute; discriminate. }
  split.
  { unfold wh_evs0, wh_evs1, wh_evs2, wh_evs3, on_tasks, echo_evs1, echo_evs2, echo_evs3. cbn [task_part flat_map app map firstn fst snd].
    repeat constructor; vm_compute; discriminate. }
  split.
  { intros e x X. unfold wh_evs1, wh_evs2, wh_evs3, on_tasks, echo_evs1, echo_evs2, echo_evs3 in X. cbn [task_part flat_map app map firstn fst snd In] in X.
    repeat match goal with H : _ \/ _ |- _ => destruct H as [H|H] end; try contradiction;
      try discriminate X; injection X as <- <-; split; discriminate. }
  split; [vm_compute; reflexivity|]. split; [vm_compute; reflexivity|]. split; [vm_compute; auto|].
  split; [vm_compute; reflexivity|]. split; [vm_compute; reflexivity|]. split; vm_compute; reflexivity.
Qed.

(** Connection 1 has sent its whole request; then the plain listener fails and [main] returns. *)
Definition over_evs : list prog_event :=
  [PrPlain (AcOk 1); PrTask 1 (TInput (Arrive echo_text)) ex_x; PrTask 1 TRun ex_x; PrPlain AcErr; PrReturn].
Lemma witness_129 :
  opened (can_listen os_fine) False 1 over_evs /\ real_inputs (task_part over_evs) /\
  writes_succeed 1 (task_part over_evs) /\
  stream_of (input_of (inputs 1 (task_part over_evs))) = request_text (B "POST") (B "/echo/./7") (B "1.1") echo_headers (B "abc") /\
  pr_tasks (wh_run over_evs) = pr_tasks (wh_run (firstn 3 over_evs)) /\
  exists j, task_get demo_lib 1 (tasks (pr_tasks (wh_run over_evs))) = TWorking j.
Proof.
  split.
  { left. split; [repeat split; reflexivity|]. exists []. eexists. split; [reflexivity|]. split; [intros []|].
    intros [(P & a & b & E & _)|(P & a & b & E & _)]; destruct a; discriminate E. }
  split.
  { unfold real_inputs, over_evs. cbn [task_part flat_map app]. repeat constructor; vm_compute; discriminate. }
  split.
  { intros e x X. unfold over_evs in X. cbn [task_part flat_map app In] in X. repeat (destruct X as [X|X]; [try discriminate X; injection X as <- <-; split; discriminate|]). destruct X. }
  split; [vm_compute; reflexivity|]. split; [vm_compute; reflexivity|]. eexists. vm_compute. reflexivity.
Qed.
Lemma refuted_129 more : exists j, task_get demo_lib 1 (tasks (pr_tasks (wh_run (over_evs ++ more)))) = TWorking j.
Proof.
  destruct witness_129 as (_ & _ & _ & _ & E & j & Ej). exists j. rewrite E in Ej.
  change (over_evs ++ more) with (firstn 4 over_evs ++ PrReturn :: more). unfold wh_run. rewrite run_app.
  rewrite all_over; [exact Ej|]. vm_compute. discriminate.
Qed.
Lemma over_failed : pr_plain (wh_run (firstn 4 over_evs)) <> LsAccepting.
Proof. vm_compute. discriminate. Qed.
