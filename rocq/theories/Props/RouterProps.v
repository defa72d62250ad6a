(** C11-C17: registration and dispatch.  [exec] is what calling a handler does; it is arbitrary,
    as are the handler type [H], the state [W] they work on, and the hash iteration orders [o].
    [m <> MAll]: the request parser never produces the pseudo-method All (see C25). *)
From Verif.Model Require Import RustStd Path Request Router.
From Verif.Spec Require Import Common PathSpec RouteSpec RoutingSpec.
From Verif.Proofs Require Import PathExtra RouterExtra.

(** C11 (also C14, C15: [invokes] fixes the variables, [applies] the method) *)
Theorem C11_registration_order :
  forall (H W : Type) (exec : H -> varmap -> W -> W * outcome flow) o ft (l : list (oreg H)) m path w,
  (N.of_nat (length (flatten l)) <= USIZE_MAX)%N -> m <> MAll ->
  exists r sel calls, build o l = Done r /\
    selects (applies (url_variables ft) m path) (flatten l) sel /\
    Forall2 (invokes (url_variables ft) path) sel calls /\
    router_run exec ft r m path w = run_chain exec calls w.
Proof. exact (fun H W exec => @dispatch_correct H W exec). Qed.
Print Assumptions C11_registration_order.
Example C11_example : exists r, build reverse_order tr_app = Done r /\
  router_run tr_exec default_features r MGet [B "u"; B "7"] [] =
    ([(1, [(B "id", B "7")]); (2, []); (3, []); (5, [(B "a", B "u"); (B "b", B "7")]); (6, []); (9, [])],
     Done tt).
Proof. eexists. split; vm_compute; reflexivity. Qed.

(** C12 *)
Theorem C12_mount_is_inline :
  forall (H W : Type) (exec : H -> varmap -> W -> W * outcome flow) o1 o2 l1 (sub : list (rreg H)) l2 ft m path w r r',
  (N.of_nat (length (flatten (l1 ++ OMount sub :: l2))) <= USIZE_MAX)%N -> m <> MAll ->
  build o1 (l1 ++ OMount sub :: l2) = Done r ->
  build o2 (l1 ++ map inline sub ++ l2) = Done r' ->
  router_run exec ft r m path w = router_run exec ft r' m path w.
Proof. exact (fun H W exec => @mount_inline H W exec). Qed.
Print Assumptions C12_mount_is_inline.
Example C12_example : exists r r',
  build reverse_order [OAdd 1; OMount [RRoute VGet (B "/a") 2; RAdd 3]; ORoute VGet (B "/:x") 4] = Done r /\
  build insertion_order [OAdd 1; ORoute VGet (B "/a") 2; OAdd 3; ORoute VGet (B "/:x") 4] = Done r' /\
  router_run tr_exec default_features r MGet [B "a"] [] =
    ([(1, []); (2, []); (3, []); (4, [(B "x", B "a")])], Done tt) /\
  router_run tr_exec default_features r' MGet [B "a"] [] =
    ([(1, []); (2, []); (3, []); (4, [(B "x", B "a")])], Done tt).
Proof. do 2 eexists. repeat split; vm_compute; reflexivity. Qed.

(** C13 *)
Theorem C13_rejected_registration :
  forall (H W : Type) (exec : H -> varmap -> W -> W * outcome flow) o1 o2 l1 v p (h : H) l2 ft m path w r r',
  (N.of_nat (length (flatten (l1 ++ ORoute v p h :: l2))) <= USIZE_MAX)%N -> m <> MAll ->
  path_parse p = None ->
  build o1 (l1 ++ ORoute v p h :: l2) = Done r -> build o2 (l1 ++ l2) = Done r' ->
  router_run exec ft r m path w = router_run exec ft r' m path w.
Proof. exact (fun H W exec => @reject_noop H W exec). Qed.
Print Assumptions C13_rejected_registration.
Theorem C13_rejected_in_subrouter :
  forall (H W : Type) (exec : H -> varmap -> W -> W * outcome flow) o1 o2 l1 s1 v p (h : H) s2 l2 ft m path w r r',
  (N.of_nat (length (flatten (l1 ++ OMount (s1 ++ RRoute v p h :: s2) :: l2))) <= USIZE_MAX)%N -> m <> MAll ->
  path_parse p = None ->
  build o1 (l1 ++ OMount (s1 ++ RRoute v p h :: s2) :: l2) = Done r ->
  build o2 (l1 ++ OMount (s1 ++ s2) :: l2) = Done r' ->
  router_run exec ft r m path w = router_run exec ft r' m path w.
Proof. exact (fun H W exec => @reject_noop_sub H W exec). Qed.
Print Assumptions C13_rejected_in_subrouter.
(** The call reports InvalidPathError exactly for those paths. *)
Theorem C13_error_reported : forall (H : Type) v (r : router H) p h r',
  router_route v r p h = Done (r', RErr) <->
  path_parse p = None /\ exists x, router_route v r p h = Done x /\ fst x = r'.
Proof. exact (fun H => @reject_result H). Qed.
Print Assumptions C13_error_reported.
(** A handler without a path is never rejected. *)
Theorem C13_add_accepted : forall (H : Type) (r : router H) h,
  (forall r' res, router_add r h = Done (r', res) -> res = ROk) /\
  ((route_counter r < USIZE_MAX)%N -> exists x, router_add r h = Done x).
Proof. exact (fun H r h => conj (@add_result H r h) (@add_done H r h)). Qed.
Print Assumptions C13_add_accepted.
Example C13_example : exists r r',
  build insertion_order [ORoute VPut (B "/a/../..") 1; OAdd 2] = Done r /\
  build insertion_order [OAdd 2] = Done r' /\ r <> r' /\
  router_run tr_exec default_features r MPut [] [] = ([(2, [])], Done tt) /\
  router_run tr_exec default_features r' MPut [] [] = ([(2, [])], Done tt).
Proof. do 2 eexists. repeat split; try (vm_compute; reflexivity). discriminate. Qed.

(** C14: every handler call made has the variables of its own route, whatever ran before. *)
Theorem C14_own_variables :
  forall (H W : Type) (exec : H -> varmap -> W -> W * outcome flow) o ft (l : list (oreg H)) m path w,
  (N.of_nat (length (flatten l)) <= USIZE_MAX)%N -> m <> MAll ->
  exists r calls, build o l = Done r /\
    router_run exec ft r m path w = run_chain exec calls w /\
    forall call, In call calls ->
      (exists v p pat, In (RRoute v p (fst call)) (flatten l) /\ path_means p pat /\
         route_matches (url_variables ft) pat path /\
         forall name val, mget seqb name (snd call) = Some val <->
                          (url_variables ft = true /\ binds pat path name val))
      \/ (In (RAdd (fst call)) (flatten l) /\ snd call = []).
Proof. exact (fun H W exec => @own_variables H W exec). Qed.
Print Assumptions C14_own_variables.
Example C14_example : exists r,
  build insertion_order [ORoute VGet (B "/:x/:y") 1; OAdd 2; ORoute VGet (B "/:y/:x") 3] = Done r /\
  router_run tr_exec default_features r MGet [B "p"; B "q"] [] =
    ([(1, [(B "x", B "p"); (B "y", B "q")]); (2, []); (3, [(B "y", B "p"); (B "x", B "q")])], Done tt).
Proof. eexists. split; vm_compute; reflexivity. Qed.

(** C15 *)
Theorem C15_method_isolation :
  forall (H W : Type) (exec : H -> varmap -> W -> W * outcome flow) o1 o2 l1 v p (h : H) l2 ft m path w r r',
  (N.of_nat (length (flatten (l1 ++ ORoute v p h :: l2))) <= USIZE_MAX)%N -> m <> MAll ->
  ~ serves v m ->
  build o1 (l1 ++ ORoute v p h :: l2) = Done r -> build o2 (l1 ++ l2) = Done r' ->
  router_run exec ft r m path w = router_run exec ft r' m path w.
Proof. exact (fun H W exec => @other_method H W exec). Qed.
Print Assumptions C15_method_isolation.
Theorem C15_add_route_every_method :
  forall (H W : Type) (exec : H -> varmap -> W -> W * outcome flow) o ft l1 p (h : H) l2 m path pat r,
  (N.of_nat (length (flatten (l1 ++ ORoute VAll p h :: l2))) <= USIZE_MAX)%N -> m <> MAll ->
  path_means p pat -> route_matches (url_variables ft) pat path ->
  build o (l1 ++ ORoute VAll p h :: l2) = Done r ->
  exists pre vars post, forall w, router_run exec ft r m path w = run_chain exec (pre ++ (h, vars) :: post) w.
Proof. exact (fun H W exec => @verb_all_every_method H W exec). Qed.
Print Assumptions C15_add_route_every_method.
Example C15_example : exists r,
  build insertion_order [ORoute VGet (B "/a") 1; ORoute VPost (B "/a") 2; ORoute VAll (B "/a") 3] = Done r /\
  router_run tr_exec default_features r MPost [B "a"] [] = ([(2, []); (3, [])], Done tt) /\
  router_run tr_exec default_features r MTrace [B "a"] [] = ([(3, [])], Done tt).
Proof. eexists. repeat split; vm_compute; reflexivity. Qed.

(** C16 *)
Theorem C16_stop_cuts :
  forall (H W : Type) (exec : H -> varmap -> W -> W * outcome flow) o1 o2 l1 (c : rreg H) l2 l2' ft m path w r r',
  (N.of_nat (length (flatten (l1 ++ inline c :: l2))) <= USIZE_MAX)%N ->
  (N.of_nat (length (flatten (l1 ++ inline c :: l2'))) <= USIZE_MAX)%N -> m <> MAll ->
  applies (url_variables ft) m path c ->
  (forall vars w, snd (exec (match c with RRoute _ _ h => h | RAdd h => h end) vars w) = Done FStop) ->
  build o1 (l1 ++ inline c :: l2) = Done r -> build o2 (l1 ++ inline c :: l2') = Done r' ->
  router_run exec ft r m path w = router_run exec ft r' m path w.
Proof. exact (fun H W exec => @stop_cuts H W exec). Qed.
Print Assumptions C16_stop_cuts.
Theorem C16_all_next :
  forall (H W : Type) (exec : H -> varmap -> W -> W * outcome flow) o ft (l : list (oreg H)) m path w,
  (N.of_nat (length (flatten l)) <= USIZE_MAX)%N -> m <> MAll ->
  (forall h vars w, snd (exec h vars w) = Done FNext) ->
  exists r sel calls, build o l = Done r /\
    selects (applies (url_variables ft) m path) (flatten l) sel /\
    Forall2 (invokes (url_variables ft) path) sel calls /\
    router_run exec ft r m path w =
      (fold_left (fun w c => fst (exec (fst c) (snd c) w)) calls w, Done tt).
Proof. exact (fun H W exec => @all_next H W exec). Qed.
Print Assumptions C16_all_next.
Example C16_example : exists r,
  build insertion_order [OAdd 1; ORoute VGet (B "/") 9; OAdd 2] = Done r /\
  router_run tr_exec default_features r MGet [] [] = ([(1, []); (9, [])], Done tt) /\
  router_run tr_exec default_features r MPost [] [] = ([(1, []); (2, [])], Done tt).
Proof. eexists. repeat split; vm_compute; reflexivity. Qed.

(** C17 *)
Theorem C17_no_own_panic :
  forall (H W : Type) (exec : H -> varmap -> W -> W * outcome flow) o ft (l : list (oreg H)) m path w,
  (N.of_nat (length (flatten l)) <= USIZE_MAX)%N -> m <> MAll ->
  (forall h vars w, snd (exec h vars w) <> Panic) ->
  exists r, build o l = Done r /\ snd (router_run exec ft r m path w) = Done tt.
Proof. exact (fun H W exec => @no_panic H W exec). Qed.
Print Assumptions C17_no_own_panic.
Example C17_example : forall h vars w, snd (tr_exec h vars w) <> Panic.
Proof. discriminate. Qed.
