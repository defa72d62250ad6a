(** Witnesses for executions that go on forever. *)
From Verif.Proofs Require Export LiveProofs TaskWitness.
From Verif.Spec Require Import Common PathSpec RoutingSpec TextSpec RequestSpec ResponseSpec ServerSpec TaskSpec LiveSpec.

(** Connection 1 is served, its peer takes ten bytes at a time; the handlers of connection 2 never return. *)
Definition forever (k : nat) : nat * task_event * (world * order) :=
  match k with
  | 0 => (2, TInput (Arrive get_hi), ex_x)
  | 1 => (1, TInput (Arrive get_hi), ex_x)
  | S (S k) => (1, if Nat.even k then TRun else TAccept 10, ex_x)
  end.
Lemma forever_happens (P : task_event -> Prop) (b : bool) : P (if b then TRun else TAccept 10) ->
  forall k, happens forever 1 P k.
Proof.
  intros HP k. exists (2 * k + (if b then 2 else 3)), (if b then TRun else TAccept 10), ex_x. split; [destruct b; lia|]. split; [|exact HP].
  replace (2 * k + (if b then 2 else 3)) with (S (S (2 * k + (if b then 0 else 1)))) by (destruct b; lia).
  unfold forever. f_equal. f_equal. rewrite Nat.even_add, Nat.even_mul. destruct b; reflexivity.
Qed.
Lemma example_133 :
  build insertion_order ex_app = Done ex_router /\
  (forall k, snd (fst (forever k)) <> TInput (Arrive [])) /\ (forall k, clock (fst (snd (forever k))) <> None) /\
  task_runs default_features demo_lib ex_handle ex_router 7 forever 1 /\
  peer_reads default_features demo_lib ex_handle ex_router 7 forever 1 /\
  (let inp := input_of (inputs 1 (upto forever 2)) in
   stream_of inp = get_hi /\ ~ stream_waits default_features (stream_of inp) (fin inp)) /\
  task_get demo_lib 1 (tasks (after default_features demo_lib ex_handle ex_router 7 forever 40)) =
    TClosed (answer_head (B "200 OK") (B "2") ++ B "hi").
Proof.
  split; [exact ex_built|]. split; [|split; [|split; [|split; [|split]]]].
  - intros [|[|k]]; cbn [forever fst snd]; try (vm_compute; discriminate). destruct (Nat.even k); discriminate.
  - intros [|[|k]]; cbn [forever fst snd]; vm_compute; discriminate.
  - intros k j _. apply (forever_happens _ true). reflexivity.
  - split.
    + intros k sent rest _. apply (forever_happens _ false). exists 9. reflexivity.
    + intros [|[|k]] e x E; cbn [forever] in E; injection E as <- <-; try (split; discriminate); try discriminate.
      destruct (Nat.even k); split; discriminate.
  - split; [vm_compute; reflexivity|].
    change (input_of (inputs 1 (upto forever 2))) with (Transport [get_hi] Stall).
    assert (Ne : get_hi <> []) by (vm_compute; discriminate).
    pose proof (read_request_cases default_features demo_lib (Transport [get_hi] Stall) (real_one _ _ Ne)) as X.
    destruct (read_request default_features demo_lib (Transport [get_hi] Stall)) as [[|rq]| | |] eqn:E; vm_compute in E; try discriminate E.
    destruct X as (rl & hs & cs & body & Cs & _). exact (proj2 (proj2 (proj2 (proj2 (kinds_exclusive default_features demo_lib _ _)) _ _ _ _ Cs))).
  - vm_compute. reflexivity.
Qed.
