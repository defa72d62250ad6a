(** Examples for C144. *)
From Verif.Spec Require Import Common ListenSpec LimitSpec.
From Verif.Model Require Import RustStd Path Request Time Status Response Router Server Tasks Listen Whole.
From Verif.Proofs Require Export LimitProofs SwapWitness.

(** On a system that allows two connections, three clients come; the first has been answered when the third comes. *)
Definition three_evs : list prog_event :=
  [PrPlain (AcOk 1); PrPlain (AcOk 2); PrTask 1 (TInput (Arrive get_hi)) ex_x; PrTask 1 TRun ex_x; PrTask 1 TRun ex_x; PrTask 1 TRun ex_x;
   PrTask 1 (TAccept 999) ex_x; PrPlain (AcOk 3)].
Definition three_run (evs : list prog_event) := prog_run default_features demo_lib var_handle ex_router wh_start evs.
Ltac possible_step :=
  apply possible_snoc; [|first [exact I | split; [vm_compute; reflexivity|apply held_count; [vm_compute; repeat constructor; cbn; intuition discriminate|vm_compute; lia]]]].
Lemma example_144 :
  can_listen os_fine /\ possible_run 2 three_run three_evs /\
  (exists out, task_get demo_lib 1 (tasks (pr_tasks (three_run three_evs))) = TClosed out) /\
  held (three_run three_evs) 2 /\ held (three_run three_evs) 3 /\ ~ held (three_run three_evs) 1 /\ pr_plain (three_run three_evs) = LsAccepting /\
  possible 2 (three_run three_evs) (PrPlain AcErr) /\
  pr_up (three_run (three_evs ++ [PrPlain AcErr; PrReturn])) = false.
Proof.
  assert (H2 : held (three_run three_evs) 2) by (apply heldb_held; vm_compute; reflexivity).
  assert (H3 : held (three_run three_evs) 3) by (apply heldb_held; vm_compute; reflexivity).
  split; [vm_compute; tauto|]. split.
  { change three_evs with (((((((([] ++ [PrPlain (AcOk 1)]) ++ [PrPlain (AcOk 2)]) ++ [PrTask 1 (TInput (Arrive get_hi)) ex_x]) ++ [PrTask 1 TRun ex_x]) ++ [PrTask 1 TRun ex_x])
      ++ [PrTask 1 TRun ex_x]) ++ [PrTask 1 (TAccept 999) ex_x]) ++ [PrPlain (AcOk 3)]).
    do 8 possible_step. apply possible_nil. }
  split; [eexists; vm_compute; reflexivity|]. split; [exact H2|]. split; [exact H3|]. split.
  { intro X. apply heldb_held in X. vm_compute in X. discriminate X. }
  split; [vm_compute; reflexivity|]. split; [|vm_compute; reflexivity].
  exists [2; 3]. split; [repeat constructor; cbn; intuition discriminate|]. split; [reflexivity|]. intros i [<-|[<-|[]]]; auto.
Qed.
