(** A run of the whole program that goes on forever, for Props/ForeverProps.v. *)
From Verif.Model Require Import RustStd Path Request Time Status Response Router Server Tasks Listen Whole.
From Verif.Spec Require Import Common PathSpec RoutingSpec TextSpec RequestSpec ResponseSpec ServerSpec TaskSpec ExchangeSpec ListenSpec WholeSpec ForeverSpec.
From Verif.Proofs Require Export ServerWitness TaskWitness ListenWitness ExchangeWitness WholeProofs WholeWitness ForeverProofs.

(** 1 is a TLS connection with a request whose answer it takes ten bytes at a time.  New plain connections keep
    coming; they send requests whose handler never returns. *)
Definition endless (k : nat) : prog_event :=
  match k with
  | 0 => PrTls (AcOk 1)
  | 1 => PrHandshake 1 true
  | 2 => PrTask 1 (TInput (Arrive echo_text)) ex_x
  | S (S (S k)) =>
      match k mod 4 with
      | 0 => PrTask 1 TRun ex_x
      | 1 => PrTask 1 (TAccept 10) ex_x
      | 2 => PrPlain (AcOk (k + 2))
      | _ => PrTask (k + 1) (TInput (Arrive get_boom)) ex_x
      end
  end.
Lemma endless_mod k r : r < 4 -> (4 * k + r) mod 4 = r.
Proof. intro L. rewrite Nat.add_comm, Nat.mul_comm, Nat.mod_add by lia. apply Nat.mod_small. exact L. Qed.
Lemma endless_happens (P : task_event -> Prop) (b : bool) : P (if b then TRun else TAccept 10) -> forall k, phappens endless 1 P k.
Proof.
  intros HP k. exists (S (S (S (4 * k + (if b then 0 else 1))))), (if b then TRun else TAccept 10), ex_x. split; [lia|]. split; [|exact HP].
  unfold endless. rewrite endless_mod by (destruct b; lia). destruct b; reflexivity.
Qed.
Lemma endless_own k e x : endless k = PrTask 1 e x -> 2 <= k /\ x = ex_x /\ (e = TInput (Arrive echo_text) /\ k = 2 \/ e = TRun \/ e = TAccept 10).
Proof.
  destruct k as [|[|[|k]]]; cbn [endless]; try discriminate.
  - intro E. injection E as <- <-. auto.
  - destruct (k mod 4) as [|[|[|r]]] eqn:Er; intro E; try discriminate E; try (injection E as <- <-; split; [lia|auto]; fail).
    assert (k = 0) by (injection E as E _ _; lia). subst k. discriminate Er.
Qed.
Lemma endless_starts k : 2 <= k -> exists r, pupto endless k = PrTls (AcOk 1) :: PrHandshake 1 true :: r.
Proof. intro L. destruct k as [|[|k]]; [lia|lia|]. eexists. reflexivity. Qed.
Lemma endless_input n : 3 <= n -> inputs 1 (task_part (pupto endless n)) = [Arrive echo_text].
Proof.
  intro L. induction n as [|n IH]; [lia|]. destruct (Nat.eq_dec n 2) as [->|D]; [reflexivity|].
  rewrite pupto_S, task_part_app. unfold inputs. rewrite WholeProofs.own_app, flat_map_app. fold (inputs 1 (task_part (pupto endless n))). rewrite IH by lia.
  destruct (endless n) as [r|r|j ok|j e x|] eqn:E; cbn [task_part flat_map app]; auto. unfold own_events. cbn [filter]. unfold on_task. cbn [fst].
  destruct (Nat.eqb_spec j 1) as [->|D1]; auto. destruct (endless_own n e x E) as (_ & _ & [[-> ->]|[->| ->]]); [lia|reflexivity|reflexivity].
Qed.
Lemma endless_no_return k : endless k <> PrReturn.
Proof. destruct k as [|[|[|k]]]; cbn [endless]; try discriminate. destruct (k mod 4) as [|[|[|r]]]; discriminate. Qed.

Definition tls_up : Prop := tls_listener demo_tls TlsRustls (tls_config (B "key") (B "cert")) os_fine = LsAccepting.
Lemma example_138 :
  build insertion_order echo_app = Done echo_router /\ can_listen os_fine /\
  (forall k, ~ ended (can_listen os_fine) (pupto endless k)) /\
  (forall k j x, endless k <> PrTask j (TInput (Arrive [])) x) /\
  (forall k j e x, endless k = PrTask j e x -> ex_world = fst x /\ clock (fst x) <> None) /\
  (forall k e x, endless k = PrTask 1 e x -> opened (can_listen os_fine) tls_up 1 (pupto endless k)) /\
  ptask_runs default_features demo_lib echo_handle echo_router wh_start endless 1 /\
  ppeer_reads default_features demo_lib echo_handle echo_router wh_start endless 1 /\
  (forall n, 3 <= n -> stream_of (input_by endless 1 n) = request_text (B "POST") (B "/echo/./7") (B "1.1") echo_headers (B "abc")) /\
  task_at default_features demo_lib echo_handle echo_router wh_start endless 1 100 = TClosed (answer_head (B "200 OK") (B "3") ++ B "abc") /\
  exists j, task_at default_features demo_lib echo_handle echo_router wh_start endless 8 100 = TWorking j.
Proof.
  split; [vm_compute; reflexivity|]. split; [repeat split; reflexivity|]. split.
  { intros k (a & b & E & _). assert (X : In PrReturn (pupto endless k)) by (rewrite E; apply in_or_app; right; now left).
    unfold pupto in X. apply in_map_iff in X as (n & En & _). exact (endless_no_return n En). }
  split.
  { intros k j x. destruct k as [|[|[|k]]]; cbn [endless]; try discriminate; try (destruct (k mod 4) as [|[|[|r]]]; discriminate). }
  split.
  { intros k j e x E. assert (x = ex_x) as ->; [|split; [reflexivity|discriminate]].
    destruct k as [|[|[|k]]]; cbn [endless] in E; try discriminate E; [injection E; auto|].
    destruct (k mod 4) as [|[|[|r]]]; try discriminate E; injection E; auto. }
  split.
  { intros k e x E. destruct (endless_own k e x E) as (L & _). destruct (endless_starts k L) as [r Er]. rewrite Er. right. split; [vm_compute; reflexivity|].
    exists [], [], r. split; [reflexivity|]. split; [intros []|]. split; [|intros []].
    intros [(P & a & b & Ea & _)|(P & a & b & Ea & _)]; destruct a; discriminate Ea. }
  split; [intros k j _; apply (endless_happens _ true); reflexivity|]. split.
  { split.
    - intros k sent rest _. apply (endless_happens _ false). exists 9. reflexivity.
    - intros k e x E. destruct (endless_own k e x E) as (_ & _ & [[-> _]|[->| ->]]); split; discriminate. }
  split.
  { intros n L. unfold input_by. rewrite (endless_input n L). vm_compute. reflexivity. }
  split; [vm_compute; reflexivity|]. eexists. vm_compute. reflexivity.
Qed.
