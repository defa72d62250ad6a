(** C95, C96: the runtime the attributes set up. *)
From Verif.Model Require Import RustStd Macros.
From Verif.Spec Require Import ResponseSpec MacroSpec AttrSpec.
From Verif.Proofs Require Import Basics ResponseProofs MacroProofs.

Lemma workers_exact cpus item sg block n : function_with [] sg block (main_tokens cpus item) ->
  (asks_workers block n <-> n = (2 * cpus)%N).
Proof.
  intro F. split.
  - intros (cs & s & C & D & I). apply (main_runtime _ _ _ _ cs F) in C. subst cs.
    destruct I as [I|[I|[I|[I|[]]]]]; try discriminate I.
    injection I as E. apply app_inv_tail in E. subst s.
    rewrite (decimal_inj _ _ _ D (show_N_decimal _)). lia.
  - intros ->. pose proof (proj2 (proj2 (main_runtime _ _ _ _ _ F)) eq_refl) as C.
    eexists _, (show_N (cpus * 2)). split; [exact C|]. split.
    + replace (2 * cpus)%N with (cpus * 2)%N by lia. apply show_N_decimal.
    + right. right. right. left. reflexivity.
Qed.
Lemma workers_refuted :
  ~ (forall build run item sg block n, function_with [] sg block (main_tokens build item) ->
     asks_workers block n -> n = (2 * run)%N).
Proof.
  intro H. specialize (H 4%N 64%N []). rewrite main_tokens_eq in H.
  specialize (H [] (main_block 4 (stream_parse [])) 8%N eq_refl).
  assert (X : asks_workers (main_block 4 (stream_parse [])) 8).
  { eapply (workers_exact 4 []); [|reflexivity]. rewrite main_tokens_eq. reflexivity. }
  specialize (H X). discriminate H.
Qed.
Lemma runtime_main cpus item sg block : function_with [] sg block (main_tokens cpus item) ->
  runtime_made (B "new_multi_thread") block /\ has_sockets block /\ ~ has_timers block.
Proof.
  intro F. split; [apply (main_runtime _ _ _ _ [] F)|]. split.
  - eexists _, _. split; [apply (main_runtime _ _ _ _ _ F); reflexivity|]. left. left. reflexivity.
  - intros (cs & args & C & I). apply (main_runtime _ _ _ _ cs F) in C. subst cs.
    destruct I as [I|I]; destruct I as [I|[I|[I|[I|[]]]]]; discriminate I.
Qed.
Lemma runtime_test item sg block : function_with TEST_ATTR sg block (test_tokens item) ->
  runtime_made (B "new_current_thread") block /\ has_sockets block /\ ~ has_timers block.
Proof.
  intro F. split; [apply (test_runtime _ _ _ [] F)|]. split.
  - eexists _, _. split; [apply (test_runtime _ _ _ _ F); reflexivity|]. left. left. reflexivity.
  - intros (cs & args & C & I). apply (test_runtime _ _ _ cs F) in C. subst cs.
    destruct I as [I|I]; destruct I as [I|[I|[]]]; discriminate I.
Qed.
Lemma expansion_main cpus item : exists sg block, function_with [] sg block (main_tokens cpus item).
Proof. rewrite main_tokens_eq. eexists _, _. reflexivity. Qed.
Lemma expansion_test item : exists sg block, function_with TEST_ATTR sg block (test_tokens item).
Proof. rewrite test_tokens_eq. eexists _, _. reflexivity. Qed.
Lemma timers_refuted :
  ~ (forall cpus item sg block, function_with [] sg block (main_tokens cpus item) -> has_timers block) /\
  ~ (forall item sg block, function_with TEST_ATTR sg block (test_tokens item) -> has_timers block).
Proof.
  split; intro H.
  - destruct (expansion_main 4 []) as (sg & block & F). apply (runtime_main _ _ _ _ F). eapply H; eauto.
  - destruct (expansion_test []) as (sg & block & F). apply (runtime_test _ _ _ F). eapply H; eauto.
Qed.
