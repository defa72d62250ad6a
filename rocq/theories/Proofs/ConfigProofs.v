(** Configuration. *)
From Verif.Model Require Export RustStd Config.
From Verif.Spec Require Import Common ConfigSpec.

Definition assign (c : config) (a : assignment) : config :=
  let s := cf_ssl c in
  match a with
  | AKeep d => Config d s (cf_worker_threads c)
  | AKey p => Config (cf_keep_alive c) (Ssl p (ssl_cert s) (ssl_port s)) (cf_worker_threads c)
  | ACert p => Config (cf_keep_alive c) (Ssl (ssl_key s) p (ssl_port s)) (cf_worker_threads c)
  | APort n => Config (cf_keep_alive c) (Ssl (ssl_key s) (ssl_cert s) n) (cf_worker_threads c)
  | AWorkers n => Config (cf_keep_alive c) s n
  end.
Lemma config_eta c : Config (cf_keep_alive c) (Ssl (ssl_key (cf_ssl c)) (ssl_cert (cf_ssl c)) (ssl_port (cf_ssl c))) (cf_worker_threads c) = c.
Proof. destruct c as [k [a b d] w]. reflexivity. Qed.
Lemma edits_assign es : forall c, fold_left assign (map edit_assigns es) c =
  Config (cf_keep_alive c) (fold_left edit_ssl es (cf_ssl c)) (cf_worker_threads c).
Proof.
  induction es as [|e es IH]; intro c; cbn [map fold_left]; [destruct c; reflexivity|].
  rewrite IH. destruct e; reflexivity.
Qed.
Lemma call_assigns c x : apply_cfg c (call_op x) = fold_left assign (assigns x) c.
Proof.
  destruct x as [d|s|p es|n|cf|d|s|es|cf]; cbn [call_op assigns]; try reflexivity.
  - cbn [fold_left]. rewrite edits_assign. reflexivity.
  - cbn. destruct cf as [k [a b d] w]. reflexivity.
  - cbn. destruct s as [a b d]. reflexivity.
  - rewrite edits_assign. reflexivity.
  - cbn. destruct cf as [k [a b d] w]. reflexivity.
Qed.
Lemma configure_assigns l : forall c, configure l c = fold_left assign (flat_map assigns l) c.
Proof.
  unfold configure. induction l as [|x l IH]; intro c; [reflexivity|].
  cbn [map fold_left flat_map]. rewrite fold_left_app, IH, call_assigns. reflexivity.
Qed.
(** A field changed only by the assignments of one kind. *)
Lemma last_field {V} (proj : config -> V) (mk : V -> assignment) :
  (forall c v, proj (assign c (mk v)) = v) ->
  (forall c a, (forall v, a <> mk v) -> proj (assign c a) = proj c) ->
  forall l c o, last_in (fun a v => a = mk v) l o -> proj (fold_left assign l c) = or_else o (proj c).
Proof.
  intros Hs Ho.
  assert (U : forall l c, (forall a v, In a l -> a <> mk v) -> proj (fold_left assign l c) = proj c).
  { induction l as [|a l IH]; intros c N; [reflexivity|]. cbn [fold_left].
    rewrite IH by (intros; apply N; right; auto). apply Ho. intros v. apply N. left. auto. }
  intros l c [v|] H; cbn [or_else].
  - destruct H as (pre & a & post & -> & -> & N). rewrite fold_left_app. cbn [fold_left].
    rewrite U by (intros a' v' Hi; exact (N a' v' Hi)). apply Hs.
  - apply U. intros a v Hi. exact (H a v Hi).
Qed.
Theorem config_follows l c : follows c (flat_map assigns l) (configure l c).
Proof.
  rewrite configure_assigns. unfold follows.
  split; [|split; [|split; [|split]]]; intros o H; revert o H.
  - intros o H. revert H. apply (last_field cf_keep_alive AKeep); [reflexivity|].
    intros c0 a N. destruct a; try reflexivity. exfalso. eapply N; reflexivity.
  - intros o H. revert H. apply (last_field (fun c => ssl_key (cf_ssl c)) AKey); [reflexivity|].
    intros c0 a N. destruct a; try reflexivity. exfalso. eapply N; reflexivity.
  - intros o H. revert H. apply (last_field (fun c => ssl_cert (cf_ssl c)) ACert); [reflexivity|].
    intros c0 a N. destruct a; try reflexivity. exfalso. eapply N; reflexivity.
  - intros o H. revert H. apply (last_field (fun c => ssl_port (cf_ssl c)) APort); [reflexivity|].
    intros c0 a N. destruct a; try reflexivity. exfalso. eapply N; reflexivity.
  - intros o H. revert H. apply (last_field cf_worker_threads AWorkers); [reflexivity|].
    intros c0 a N. destruct a; try reflexivity. exfalso. eapply N; reflexivity.
Qed.
Ltac kind_dec := let a := fresh in intro a; destruct a;
  first [left; eexists; reflexivity | right; intros ? ?; discriminate].
(** [follows] determines the settings. *)
Lemma last_exists {A V} (sets : A -> V -> Prop) (dec : forall a, (exists v, sets a v) \/ forall v, ~ sets a v) l :
  exists o, last_in sets l o.
Proof.
  induction l as [|a l [[v|] IH]]; [exists None; intros a v []| |].
  - exists (Some v). destruct IH as (pre & b & post & -> & H). exists (a :: pre), b, post. auto.
  - destruct (dec a) as [[v Hv]|N]; [exists (Some v), [], a, l; auto|].
    exists None. intros b v [<-|Hi]; auto.
Qed.
Theorem follows_fun c l c1 c2 : follows c l c1 -> follows c l c2 -> c1 = c2.
Proof.
  intros (A1 & A2 & A3 & A4 & A5) (B1 & B2 & B3 & B4 & B5).
  destruct (@last_exists assignment (option N) (fun a v => a = AKeep v)
    ltac:(kind_dec) l) as [o1 L1].
  destruct (@last_exists assignment str (fun a v => a = AKey v)
    ltac:(kind_dec) l) as [o2 L2].
  destruct (@last_exists assignment str (fun a v => a = ACert v)
    ltac:(kind_dec) l) as [o3 L3].
  destruct (@last_exists assignment N (fun a v => a = APort v)
    ltac:(kind_dec) l) as [o4 L4].
  destruct (@last_exists assignment (option N) (fun a v => a = AWorkers v)
    ltac:(kind_dec) l) as [o5 L5].
  specialize (A1 _ L1). specialize (A2 _ L2). specialize (A3 _ L3). specialize (A4 _ L4). specialize (A5 _ L5).
  specialize (B1 _ L1). specialize (B2 _ L2). specialize (B3 _ L3). specialize (B4 _ L4). specialize (B5 _ L5).
  destruct c1 as [k1 [a1 b1 d1] w1], c2 as [k2 [a2 b2 d2] w2]. cbn in *. congruence.
Qed.
(** The promised assignments are made when no call has something to drop. *)
Theorem config_promise l c : Forall (fun x => match x with CallWithSsl _ | CallWithConfig _ => False | _ => True end) l ->
  follows c (flat_map promised l) (configure l c).
Proof.
  intro F. assert (E : flat_map promised l = flat_map assigns l).
  { induction F as [|x l H F IH]; [reflexivity|]. cbn [flat_map]. rewrite IH. f_equal. destruct x; try contradiction; reflexivity. }
  rewrite E. apply config_follows.
Qed.
Theorem with_config_replaces l c0 c : let c' := configure (l ++ [CallWithConfig c]) c0 in
  cf_keep_alive c' = cf_keep_alive c /\ cf_ssl c' = cf_ssl c.
Proof. cbv zeta. unfold configure. rewrite map_app, fold_left_app. split; reflexivity. Qed.
Theorem settings_replace l c0 c : configure (l ++ [SetSettings c]) c0 = c.
Proof. unfold configure. rewrite map_app, fold_left_app. reflexivity. Qed.
Theorem workers_dropped c0 c : cf_worker_threads c <> cf_worker_threads c0 ->
  ~ follows c0 (flat_map promised [CallWithConfig c]) (configure [CallWithConfig c] c0).
Proof.
  intros N (_ & _ & _ & _ & H). apply N. symmetry. apply (H (Some (cf_worker_threads c))).
  eexists [_; _; _; _], _, []. split; [reflexivity|]. split; [reflexivity|]. intros ? ? [].
Qed.
Theorem port_dropped c0 s : ssl_port s <> ssl_port (cf_ssl c0) ->
  ~ follows c0 (flat_map promised [CallWithSsl s]) (configure [CallWithSsl s] c0).
Proof.
  intros N (_ & _ & _ & H & _). apply N. symmetry. apply (H (Some (ssl_port s))).
  eexists [_; _], _, []. split; [reflexivity|]. split; [reflexivity|]. intros ? ? [].
Qed.
Theorem config_defaults l : follows (Config (Some 5000000000%N) (Ssl [] [] 443) None) (flat_map assigns l) (configure l config_new).
Proof. exact (config_follows l config_new). Qed.
