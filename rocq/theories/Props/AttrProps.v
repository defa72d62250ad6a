(** C95, C96: the runtime set up by the main and test attributes. *)
From Verif.Model Require Import RustStd Macros.
From Verif.Spec Require Import ResponseSpec MacroSpec AttrSpec.
From Verif.Proofs Require Import MacroProofs AttrProofs.

(** C95.  The documentation of the main attribute promises two worker threads per available CPU.
    The number is fixed when the attribute is expanded: it is twice the number of CPUs of the
    machine that compiles the program ... *)
Theorem C95_workers_partial :
  forall build item sg block n, function_with [] sg block (main_tokens build item) ->
  (asks_workers block n <-> n = (2 * build)%N).
Proof. exact workers_exact. Qed.
Print Assumptions C95_workers_partial.
(** ... and not of the machine that runs it. *)
Theorem C95_workers_refuted :
  ~ (forall build run item sg block n, function_with [] sg block (main_tokens build item) ->
     asks_workers block n -> n = (2 * run)%N).
Proof. exact workers_refuted. Qed.
Print Assumptions C95_workers_refuted.
Example C95_example :
  let body := [TkIdent (B "app"); TkPunct x2e; TkIdent (B "listen"); TkGroup DParen [TkLit (B "80")]] in
  let item := [TkIdent (B "async"); TkIdent (B "fn"); TkIdent (B "main"); TkGroup DParen []; TkGroup DBrace body] in
  exists block, function_with [] [TkIdent (B "fn"); TkIdent (B "main"); TkGroup DParen []] block (main_tokens 4 item) /\
    In [TkIdent (B "builder"); TkPunct x2e; TkIdent (B "enable_io"); TkGroup DParen [];
        TkPunct x2e; TkIdent (B "thread_stack_size"); TkGroup DParen [TkLit (B "10485760")];
        TkPunct x2e; TkIdent (B "thread_name"); TkGroup DParen [TkLit (B """octane-main""")];
        TkPunct x2e; TkIdent (B "worker_threads"); TkGroup DParen [TkLit (B "8usize")]] (statements block) /\
    runs_last body block.
Proof. eexists. split; [reflexivity|]. split; [cbn; tauto|reflexivity]. Qed.

(** C96.  Both attributes claim to be just like those of tokio.  They make a multi-threaded and a
    single-threaded runtime with sockets ... *)
Theorem C96_main_partial :
  forall cpus item sg block, function_with [] sg block (main_tokens cpus item) ->
  runtime_made (B "new_multi_thread") block /\ has_sockets block /\ ~ has_timers block.
Proof. exact runtime_main. Qed.
Print Assumptions C96_main_partial.
Theorem C96_test_partial :
  forall item sg block, function_with TEST_ATTR sg block (test_tokens item) ->
  runtime_made (B "new_current_thread") block /\ has_sockets block /\ ~ has_timers block.
Proof. exact runtime_test. Qed.
Print Assumptions C96_test_partial.
(** ... every item is expanded to such a function ... *)
Theorem C96_expansion :
  (forall cpus item, exists sg block, function_with [] sg block (main_tokens cpus item)) /\
  (forall item, exists sg block, function_with TEST_ATTR sg block (test_tokens item)).
Proof. exact (conj expansion_main expansion_test). Qed.
Print Assumptions C96_expansion.
(** ... but, unlike tokio's, never with timers. *)
Theorem C96_timers_refuted :
  ~ (forall cpus item sg block, function_with [] sg block (main_tokens cpus item) -> has_timers block) /\
  ~ (forall item sg block, function_with TEST_ATTR sg block (test_tokens item) -> has_timers block).
Proof. exact timers_refuted. Qed.
Print Assumptions C96_timers_refuted.
Example C96_example :
  let item := [TkIdent (B "async"); TkIdent (B "fn"); TkIdent (B "t"); TkGroup DParen []; TkGroup DBrace []] in
  exists block, function_with TEST_ATTR [TkIdent (B "fn"); TkIdent (B "t"); TkGroup DParen []] block (test_tokens item) /\
    In [TkIdent (B "builder"); TkPunct x2e; TkIdent (B "enable_io"); TkGroup DParen [];
        TkPunct x2e; TkIdent (B "thread_name"); TkGroup DParen [TkLit (B """octane-test""")]] (statements block).
Proof. eexists. split; [reflexivity|]. cbn; tauto. Qed.
