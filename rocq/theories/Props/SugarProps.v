(** C90-C91: the convenience macros. *)
From Verif.Model Require Import RustStd Path Request Router Macros Sugar.
From Verif.Spec Require Import Common PathSpec RouteSpec RoutingSpec SugarSpec.
From Verif.Proofs Require Import PathExtra SugarProofs SugarWitness.

(** C90: every handler built by [route_next!] continues and every one built by [route_stop!] stops.
    Partial: bodies without a [return] of their own; see [C90_return_refuted] for the others. *)
Theorem C90_flow_partial :
  forall (W V : Type) (body : W -> W * body_exit V) w w' v, body w = (w', BValue v) ->
  route_next body w = (w', Done FNext) /\ route_stop body w = (w', Done FStop).
Proof. exact @sugar_flow. Qed.
Print Assumptions C90_flow_partial.
(** A panic in the body is a panic of the handler, with what the body did before it. *)
Theorem C90_panic :
  forall (W V : Type) (body : W -> W * body_exit V) w w', body w = (w', BPanic) ->
  route_next body w = (w', Panic) /\ route_stop body w = (w', Panic).
Proof. exact @sugar_panic. Qed.
Print Assumptions C90_panic.
Theorem C90_dispatch_partial :
  forall (H W V : Type) (body : H -> varmap -> W -> W * body_exit V) (stops : H -> bool)
    o ft (l : list (oreg H)) m path w,
  no_return body -> (N.of_nat (length (flatten l)) <= USIZE_MAX)%N -> m <> MAll ->
  exists r sel calls, build o l = Done r /\
    selects (applies (url_variables ft) m path) (flatten l) sel /\
    Forall2 (invokes (url_variables ft) path) sel calls /\
    router_run (fun h vars => if stops h then route_stop (body h vars) else route_next (body h vars)) ft r m path w =
      run_bodies body stops calls w.
Proof. exact @sugar_dispatch. Qed.
Print Assumptions C90_dispatch_partial.
(** A [return] in the body decides instead of the macro. *)
Theorem C90_return_refuted :
  exists body : list nat -> list nat * body_exit unit,
  route_next body [] = ([1], Done FStop) /\ route_stop body [2] = ([2; 1], Done FStop) /\
  exists body' : list nat -> list nat * body_exit unit, route_stop body' [] = ([1], Done FNext).
Proof. exact return_escapes. Qed.
Print Assumptions C90_return_refuted.
(** The handlers 1, 2 are written with [route_next!], 3 with [route_stop!], 4 is not reached. *)
Example C90_example : no_return note_body /\ exists r, build reverse_order note_app = Done r /\
  router_run (fun h vars => if (h =? 3)%nat then route_stop (note_body h vars) else route_next (note_body h vars))
    default_features r MGet [B "a"] [] = ([1; 2; 3], Done tt).
Proof. exact note_example. Qed.

(** C91: the path of [path!] exists when the program is compiled, whatever the input. *)
Theorem C91_exists :
  forall cwd ex sq input out, path_macro cwd ex sq input = Done out ->
  exists p, string_literal out p /\ ex p = true /\ forall p', string_literal out p' -> p' = p.
Proof. exact path_exists. Qed.
Print Assumptions C91_exists.
(** It is [concat!(env!("CARGO_MANIFEST_DIR"), lit)].  Partial: literals without escapes, and a compiler
    started in the manifest directory. *)
Theorem C91_concat_partial :
  forall manifest ex sq src v, string_literal src v -> ~ In x5c src ->
  match path_macro (Some manifest) ex sq [TkLit src] with
  | Done out => ex (manifest ++ v) = true /\ string_literal out (manifest ++ v)
  | Panic => ex (manifest ++ v) = false
  end.
Proof. exact path_concat. Qed.
Print Assumptions C91_concat_partial.
(** For a package of a workspace the compiler runs in the workspace directory. *)
Theorem C91_workspace_refuted :
  forall manifest cwd sq src v, cwd <> manifest -> string_literal src v -> ~ In x5c src ->
  exists out, path_macro (Some cwd) (fun _ => true) sq [TkLit src] = Done out /\ ~ string_literal out (manifest ++ v).
Proof. exact path_workspace. Qed.
Print Assumptions C91_workspace_refuted.
(** Escapes in the literal are not interpreted and escaped quotes lose only the quote. *)
Theorem C91_escape_refuted :
  exists src v out, string_literal src v /\ path_macro (Some (B "/p")) (fun _ => true) DebugNew [TkLit src] = Done out /\
    ~ string_literal out (B "/p" ++ v).
Proof. exact path_escape. Qed.
Print Assumptions C91_escape_refuted.
(** [path!("/templates")] in [/home/me/app]; and where nothing exists it does not compile. *)
Example C91_example :
  let quoted s := [x22] ++ s ++ [x22] in
  string_literal (quoted (B "/templates")) (B "/templates") /\ ~ In x5c (quoted (B "/templates")) /\
  path_macro (Some (B "/home/me/app")) (seqb (B "/home/me/app/templates")) DebugNew [TkLit (quoted (B "/templates"))] =
    Done (quoted (B "/home/me/app/templates")) /\
  path_macro (Some (B "/home/me/app")) (fun _ => false) DebugNew [TkLit (quoted (B "/templates"))] = Panic.
Proof. exact path_example. Qed.
