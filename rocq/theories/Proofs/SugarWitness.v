(** Consequences and witnesses for the convenience macros. *)
From Verif.Model Require Import Sugar.
From Verif.Proofs Require Import PathExtra SugarProofs.
From Verif.Spec Require Import Common PathSpec RouteSpec RoutingSpec SugarSpec.

Lemma sugar_flow {W V} (body : W -> W * body_exit V) w w' v : body w = (w', BValue v) ->
  route_next body w = (w', Done FNext) /\ route_stop body w = (w', Done FStop).
Proof. intro E. unfold route_next, route_stop, route, then_flow. rewrite E. auto. Qed.
Lemma sugar_panic {W V} (body : W -> W * body_exit V) w w' : body w = (w', BPanic) ->
  route_next body w = (w', Panic) /\ route_stop body w = (w', Panic).
Proof. intro E. unfold route_next, route_stop, route, then_flow. rewrite E. auto. Qed.
Lemma return_escapes :
  exists body : list nat -> list nat * body_exit unit,
  route_next body [] = ([1], Done FStop) /\ route_stop body [2] = ([2; 1], Done FStop) /\
  exists body' : list nat -> list nat * body_exit unit, route_stop body' [] = ([1], Done FNext).
Proof.
  exists (fun w => (w ++ [1], BReturn FStop)). split; [reflexivity|]. split; [reflexivity|].
  exists (fun w => (w ++ [1], BReturn FNext)). reflexivity.
Qed.
(** A handler that notes its number, and an application of four of them. *)
Definition note_body (h : nat) (_ : varmap) (w : list nat) : list nat * body_exit unit := (w ++ [h], BValue tt).
Definition note_app : list (oreg nat) :=
  [OAdd 1; ORoute VGet (B "/a") 2; ORoute VPost (B "/a") 9; ORoute VAll (B "/:x") 3; OAdd 4].
Lemma note_example : no_return note_body /\ exists r, build reverse_order note_app = Done r /\
  router_run (fun h vars => if (h =? 3)%nat then route_stop (note_body h vars) else route_next (note_body h vars))
    default_features r MGet [B "a"] [] = ([1; 2; 3], Done tt).
Proof. split; [intros h vars w f E; discriminate E|]. eexists. split; vm_compute; reflexivity. Qed.

Lemma path_exists cwd ex sq input out : path_macro cwd ex sq input = Done out ->
  exists p, string_literal out p /\ ex p = true /\ forall p', string_literal out p' -> p' = p.
Proof.
  intro E. destruct (path_macro_general cwd ex sq input out E) as (dir & src & rest & p & _ & _ & _ & X & L).
  exists p. split; [exact L|]. split; [exact X|]. intros p' L'. eapply string_literal_fun; eauto.
Qed.
Lemma path_concat manifest ex sq src v : string_literal src v -> ~ In x5c src ->
  match path_macro (Some manifest) ex sq [TkLit src] with
  | Done out => ex (manifest ++ v) = true /\ string_literal out (manifest ++ v)
  | Panic => ex (manifest ++ v) = false
  end.
Proof.
  intros L N. pose proof (path_macro_exact (Some manifest) ex sq src [] v L N) as X.
  destruct (path_macro _ _ _ _) as [out|].
  - destruct X as (dir & E & Y & Z). injection E as <-. auto.
  - destruct X as [X|(dir & E & Y)]; [discriminate|]. injection E as <-. exact Y.
Qed.
Lemma path_workspace manifest cwd sq src v : cwd <> manifest -> string_literal src v -> ~ In x5c src ->
  exists out, path_macro (Some cwd) (fun _ => true) sq [TkLit src] = Done out /\ ~ string_literal out (manifest ++ v).
Proof.
  intros D L N. pose proof (path_concat cwd (fun _ => true) sq src v L N) as X.
  destruct (path_macro _ _ _ _) as [out|]; [|discriminate]. destruct X as [_ X]. exists out. split; [reflexivity|].
  intro Y. apply D. apply (app_inv_tail v). eapply string_literal_fun; eauto.
Qed.
Lemma path_escape :
  exists src v out, string_literal src v /\ path_macro (Some (B "/p")) (fun _ => true) DebugNew [TkLit src] = Done out /\
    ~ string_literal out (B "/p" ++ v).
Proof.
  exists [x22; x2f; x5c; x22; x61; x22], [x2f; x22; x61]. eexists. split.
  { exists [x2f; x5c; x22; x61]. split; [reflexivity|]. apply lc_plain; [discriminate|discriminate|].
    apply lc_escape; [cbn; tauto|]. apply lc_plain; [discriminate|discriminate|constructor]. }
  split; [vm_compute; reflexivity|]. intro L.
  pose proof (string_literal_fun _ _ _ L (debug_literal DebugNew (B "/p" ++ [x2f; x5c; x61]))) as E. vm_compute in E. discriminate E.
Qed.
Lemma path_example :
  let quoted s := [x22] ++ s ++ [x22] in
  string_literal (quoted (B "/templates")) (B "/templates") /\ ~ In x5c (quoted (B "/templates")) /\
  path_macro (Some (B "/home/me/app")) (seqb (B "/home/me/app/templates")) DebugNew [TkLit (quoted (B "/templates"))] =
    Done (quoted (B "/home/me/app/templates")) /\
  path_macro (Some (B "/home/me/app")) (fun _ => false) DebugNew [TkLit (quoted (B "/templates"))] = Panic.
Proof.
  intro quoted. split; [exact (debug_literal DebugNew (B "/templates"))|]. split.
  - vm_compute. intuition discriminate.
  - split; vm_compute; reflexivity.
Qed.
