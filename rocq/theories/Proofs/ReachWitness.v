(** Concrete instances for Props/ReachProps.v. *)
From Verif.Model Require Import RustStd Path Request Time Status Response Router Server.
From Verif.Spec Require Import Common PathSpec RoutingSpec TextSpec RequestSpec ServerSpec AppSpec SwapSpec ReachSpec.
From Verif.Proofs Require Export ReachProofs ServerWitness ConformWitness.

(** The second route is never reached, the first one is, for instance for [reach_path]. *)
Definition reach_app : list (oreg nat) := [ORoute VGet (B "/files/:name") 1; OMount [RRoute VAll (B "/my files") 2; RRoute VPost (B "/up") 3]].
Definition reach_router : router nat := match build insertion_order reach_app with Done r => r | Panic => router_new end.
Definition reach_path : list str := [B "files"; B "a,b?c=%20" ++ [x0d] ++ [xc3; xa9]].
Definition reach_pat : list str := [B "files"; B ":name"].
Definition t_reach : transport := Transport [asking (B "GET") reach_path] Stall.

Lemma reach_text : Forall line_text [B "files"; B "a,b?c=%20" ++ [x0d] ++ [xc3; xa9]; B "up"].
Proof. repeat apply Forall_cons; try apply Forall_nil; (split; [reflexivity|split; [intro I; cbn in I; intuition discriminate|apply find_str_None; reflexivity]]). Qed.
Lemma reach_send : Forall sendable reach_path.
Proof.
  pose proof reach_text as T. inversion T as [|? ? T1 T2]; subst. inversion T2 as [|? ? T3 _]; subst.
  repeat apply Forall_cons; try apply Forall_nil; (split; [repeat split; discriminate|split; [intro I; cbn in I; intuition discriminate|auto]]).
Qed.
Lemma reach_matched : route_matches true reach_pat reach_path.
Proof. constructor; [right; reflexivity|]. constructor; [left; exists (B "name"); reflexivity|constructor]. Qed.
Lemma example_145 :
  fits reach_app /\ build insertion_order reach_app = Done reach_router /\ In (RRoute VGet (B "/files/:name") 1) (flatten reach_app) /\
  path_means (B "/files/:name") reach_pat /\ reachable true reach_pat /\ ~ reachable false reach_pat /\
  path_means (B "/my files") [B "my files"] /\ ~ reachable true [B "my files"] /\
  route_matches true reach_pat reach_path /\ Forall sendable reach_path /\ asked_for default_features demo_lib MGet reach_path /\
  fst (serve default_features demo_lib notes ex_world insertion_order [] reach_router [] t_reach) =
    [(1, [(B "name", B "a,b?c=%20" ++ [x0d] ++ [xc3; xa9])])].
Proof.
  split; [vm_compute; discriminate|]. split; [reflexivity|]. split; [left; reflexivity|]. split; [apply path_means_parse; reflexivity|].
  split; [apply (path_seg true _ _ reach_matched reach_send)|].
  split. { intros R. inversion R as [|? ? _ R']; subst. inversion R' as [|? ? X _]; subst. destruct X as [[_ X]|[X _]]; [discriminate|apply X; exists (B "name"); reflexivity]. }
  split; [apply path_means_parse; reflexivity|].
  split. { intros R. inversion R as [|? ? X _]; subst. destruct X as [[(n & X) _]|[_ (_ & X & _)]]; [discriminate|apply X; cbn; auto]. }
  split; [apply reach_matched|]. split; [apply reach_send|]. split; [apply asked_exact; split; [exists (B "GET"); constructor|apply reach_send]|].
  vm_compute. reflexivity.
Qed.
