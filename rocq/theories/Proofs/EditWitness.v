(** Witnesses for C146. *)
From Coq Require Import Sorting.Sorted.
From Verif.Model Require Import RustStd Path Request Time Status Response Router Server Edit.
From Verif.Spec Require Import Common PathSpec RouteSpec RoutingSpec TextSpec RequestSpec ServerSpec ReachSpec EditSpec.
From Verif.Proofs Require Import RouterProofs RouterExtra RequestExtra ResponseWitness EditProofs.

Definition spoiled {H : Type} (h g : H) : list (oedit H) :=
  [OEMount [ERegister (RAdd h); ERegister (RRoute VGet (B "/") g); EHandlers [Closures h USIZE_MAX]]].

Ltac select := repeat first [apply sel_nil|apply sel_yes; [cbn; solve [intuition congruence]|]|apply sel_no; [cbn; solve [intuition congruence]|]].
Ltac means := apply path_means_parse; reflexivity.

Theorem last_index_panics : forall (H : Type) (h g : H),
  exists rt L, builds (0%N, []) (spoiled h g) (2%N, L) /\ build_edited insertion_order (spoiled h g) = Done rt /\
  routed true MGet [] (IRoute MGet [] g 1%N) /\ L = [IRoute MGet [] g 1%N; IAdd h USIZE_MAX] /\
  forall W (exec : H -> varmap -> W -> W * outcome flow) ft w w', exec g [] w = (w', Done FNext) ->
    router_run exec ft rt MGet [] w = (w', Panic).
Proof.
  intros H h g. eexists. exists [IRoute MGet [] g 1%N; IAdd h USIZE_MAX].
  split; [|split; [|split; [|split; [reflexivity|]]]].
  - eapply bu_mount.
    + eapply ed_cons; [apply ch_register, reg_add|]. eapply ed_cons; [apply ch_register, (reg_route _ _ _ _ []); means|].
      eapply ed_cons; [eapply ch_handlers|apply ed_nil]. cbn. select.
    + cbn. apply bu_nil.
  - vm_compute. reflexivity.
  - split; [auto|constructor].
  - intros W exec ft w w' E. unfold router_run, run_matches, table_matches. cbn. destruct (url_variables ft) eqn:Ev; cbn; rewrite ?Ev; cbn; rewrite E; cbn; reflexivity.
Qed.

Definition edited_app : list (oedit nat) :=
  [OEReg (RAdd 10);
   OEMount [ERegister (RAdd 1); ERegister (RRoute VGet (B "/:x") 2); ERegister (RAdd 3); EHandlers [Closures 3 2; Closures 1 0];
            ERegister (RRoute VPost (B "/:x") 5); ERemove MPost; ETable MPut [PathData [B "a"] (Closures 6 7)];
            ECounter 0; ERegister (RRoute VAll (B "/a") 4); ERegister (RRoute VGet (B "/a/../..") 8)];
   OEReg (RRoute VAll (B "/a") 7)].
Definition edited_items : list (item nat) :=
  [IAdd 10 0; IRoute MGet [B ":x"] 2 2; IAdd 3 3; IAdd 1 1; IRoute MPut [B "a"] 6 8; IRoute MAll [B "a"] 4 1; IRoute MAll [B "a"] 7 2].
Definition edited_router : router nat := match build_edited reverse_order edited_app with Done r => r | Panic => router_new end.
Definition edited_turns : list (N * nat * item nat) :=
  [((0%N, 2), IAdd 10 0%N); ((1%N, 1), IRoute MAll [B "a"] 4 1%N); ((2%N, 0), IRoute MGet [B ":x"] 2 2%N);
   ((2%N, 1), IRoute MAll [B "a"] 7 2%N); ((3%N, 2), IAdd 3 3%N); ((3%N, 2), IAdd 1 1%N)].
Definition t_edited : transport := Transport [B "GET / HTTP/1.1" ++ CRLF ++ B "Host: h" ++ CRLF ++ CRLF] Stall.

Lemma edited_builds : builds (0%N, []) edited_app (3%N, edited_items).
Proof.
  eapply bu_reg; [apply reg_add|]. eapply bu_mount.
  - eapply ed_cons; [apply ch_register, reg_add|]. eapply ed_cons; [apply ch_register, (reg_route _ _ _ _ [B ":x"]); means|].
    eapply ed_cons; [apply ch_register, reg_add|]. eapply ed_cons; [eapply ch_handlers; cbn; select|]. cbn.
    eapply ed_cons; [apply ch_register, (reg_route _ _ _ _ [B ":x"]); means|]. cbn.
    eapply ed_cons; [eapply ch_remove; cbn; select|]. cbn.
    eapply ed_cons; [eapply ch_table; [cbn; select|]|].
    { repeat constructor; cbn; discriminate. }
    cbn. eapply ed_cons; [apply ch_counter|]. eapply ed_cons; [apply ch_register, (reg_route _ _ _ _ [B "a"]); means|]. cbn.
    eapply ed_cons; [apply ch_register, reg_rejected|apply ed_nil].
    intros pat Hp. apply path_means_parse in Hp. discriminate Hp.
  - cbn. eapply bu_reg; [apply (reg_route _ _ _ _ [B "a"]); means|]. apply bu_nil.
Qed.
Theorem example_146 :
  builds (0%N, []) edited_app (3%N, edited_items) /\ build_edited reverse_order edited_app = Done edited_router /\
  (forall i, In i edited_items -> routed true MGet [B "a"] i \/ for_all i -> usable i) /\
  in_turn true MGet [B "a"] edited_items (map snd edited_turns) /\
  router_run tr_exec default_features edited_router MGet [B "a"] [] =
    ([(10, []); (4, []); (2, [(B "x", B "a")]); (7, []); (3, []); (1, [])], Done tt) /\
  router_run tr_exec default_features edited_router MPost [B "a"] [] = ([(10, []); (4, []); (7, []); (3, []); (1, [])], Done tt) /\
  exists rt, build_edited insertion_order (spoiled 1 2) = Done rt /\
    serve default_features demo_lib notes ex_world insertion_order [] rt [] t_edited = ([(2, [])], IoPanic).
Proof.
  split; [exact edited_builds|]. split; [vm_compute; reflexivity|]. split.
  { intros i Hi _. repeat (destruct Hi as [<-|Hi]; [reflexivity|]). contradiction. }
  split.
  { exists [IRoute MGet [B ":x"] 2 2%N; IRoute MAll [B "a"] 4 1%N; IRoute MAll [B "a"] 7 2%N], edited_turns.
    assert (Rv : route_matches true [B ":x"] [B "a"]) by (constructor; [left; eexists; reflexivity|constructor]).
    assert (Ra : route_matches true [B "a"] [B "a"]) by (constructor; [right; reflexivity|constructor]).
    split; [|split; [|split; [|split; [|reflexivity]]]].
    - unfold edited_items. apply sel_no; [intros []|]. apply sel_yes; [split; auto|]. apply sel_no; [intros []|]. apply sel_no; [intros []|].
      apply sel_no; [intros ([E|E] & _); discriminate E|]. apply sel_yes; [split; auto|]. apply sel_yes; [split; auto|]. apply sel_nil.
    - exact (Permutation_cons_app [((2%N, 0), IRoute MGet [B ":x"] 2 2%N); ((1%N, 1), IRoute MAll [B "a"] 4 1%N); ((2%N, 1), IRoute MAll [B "a"] 7 2%N)]
        [((3%N, 2), IAdd 3 3%N); ((3%N, 2), IAdd 1 1%N)] ((0%N, 2), IAdd 10 0%N) (perm_swap _ _ _)).
    - unfold edited_turns. repeat apply SSorted_cons || apply SSorted_nil || apply Forall_cons || apply Forall_nil; unfold not_after; cbn [fst snd]; lia.
    - cbn. unfold edited_turns. select.
  }
  split; [vm_compute; reflexivity|]. split; [vm_compute; reflexivity|].
  eexists. split; vm_compute; reflexivity.
Qed.
Lemma edited_parsed : Forall all_parsed edited_app.
Proof. unfold edited_app. repeat constructor; cbn; discriminate. Qed.
