(** C146: applications that change the public fields of their routers.  Handlers, what they do and hash orders are
    arbitrary.  [builds]: the plain list of what the application holds in the end, each with its index;
    [m <> MAll]: no request has this method (C25). *)
From Verif.Model Require Import RustStd Path Request Time Status Response Router Server Edit.
From Verif.Spec Require Import Common PathSpec RoutingSpec TextSpec RequestSpec ServerSpec ReachSpec EditSpec.
From Verif.Proofs Require Import RouterExtra RequestExtra ResponseWitness EditProofs EditWitness.

(** C146 is false: with the greatest index a handler makes the dispatch of a request panic, whatever the handlers
    do, as soon as a route before it lets the request pass. *)
Theorem C146_refuted :
  forall (H : Type) (h g : H),
  exists rt L, builds (0%N, []) (spoiled h g) (2%N, L) /\ build_edited insertion_order (spoiled h g) = Done rt /\
  routed true MGet [] (IRoute MGet [] g 1%N) /\ L = [IRoute MGet [] g 1%N; IAdd h USIZE_MAX] /\
  forall W (exec : H -> varmap -> W -> W * outcome flow) ft w w', exec g [] w = (w', Done FNext) ->
    router_run exec ft rt MGet [] w = (w', Panic).
Proof. exact last_index_panics. Qed.
Print Assumptions C146_refuted.
(** With all other indices, every handler that applies has its turn once, in the order of the indices. *)
Theorem C146_turns_partial :
  forall (H : Type) o (app : list (oedit H)) rt n L, builds (0%N, []) app (n, L) -> build_edited o app = Done rt ->
  forall ft m path, m <> MAll -> (forall i, In i L -> routed (url_variables ft) m path i \/ for_all i -> usable i) ->
  exists turn calls, in_turn (url_variables ft) m path L turn /\ Forall2 (calls_item (url_variables ft) path) turn calls /\
    forall W (exec : H -> varmap -> W -> W * outcome flow) w, router_run exec ft rt m path w = run_chain exec calls w.
Proof. exact edited_run. Qed.
Print Assumptions C146_turns_partial.
(** Every application has such a list, *)
Theorem C146_listed :
  forall (H : Type) (app : list (oedit H)), Forall all_parsed app -> forall s, exists s', builds s app s'.
Proof. exact builds_somehow. Qed.
Print Assumptions C146_listed.
(** and only one. *)
Theorem C146_one_list :
  forall (H : Type) (app : list (oedit H)) s s1 s2, builds s app s1 -> builds s app s2 -> s1 = s2.
Proof. exact builds_once. Qed.
Print Assumptions C146_one_list.
(** Handler 1 waits for handler 3, which now stands before it; the route 4 has the index of the reset counter.  The
    router of the refutation ends the connection without an answer. *)
Example C146_example :
  builds (0%N, []) edited_app (3%N, edited_items) /\ build_edited reverse_order edited_app = Done edited_router /\
  (forall i, In i edited_items -> routed true MGet [B "a"] i \/ for_all i -> usable i) /\
  in_turn true MGet [B "a"] edited_items (map snd edited_turns) /\
  router_run tr_exec default_features edited_router MGet [B "a"] [] =
    ([(10, []); (4, []); (2, [(B "x", B "a")]); (7, []); (3, []); (1, [])], Done tt) /\
  router_run tr_exec default_features edited_router MPost [B "a"] [] = ([(10, []); (4, []); (7, []); (3, []); (1, [])], Done tt) /\
  exists rt, build_edited insertion_order (spoiled 1 2) = Done rt /\
    serve default_features demo_lib notes ex_world insertion_order [] rt [] t_edited = ([(2, [])], IoPanic).
Proof. exact example_146. Qed.
Example C146_example_listed : Forall all_parsed edited_app.
Proof. exact edited_parsed. Qed.
