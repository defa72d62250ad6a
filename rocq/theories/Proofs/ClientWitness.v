(** Witnesses for Props/ClientProps.v. *)
From Verif.Model Require Import RustStd Path Request Time Status Response Router Server Memory.
From Verif.Spec Require Import Common PathSpec TextSpec RequestSpec ResponseSpec ServerSpec ConformSpec ClientSpec.
From Verif.Proofs Require Import Basics TextProofs RequestExtra ReadProofs ResponseProofs ServerProofs ServerWitness ConformProofs ConformWitness
  ResponseWitness ClientProofs.

(** ** Short heads announcing long bodies *)
Lemma dec_val_ge s : Forall is_digit s -> forall acc,
  (acc * 10 ^ N.of_nat (length s) <= fold_left (fun a b => 10 * a + (bN b - 48)) s acc)%N.
Proof.
  induction 1 as [|b s D F IH]; intro acc; cbn [length fold_left]; [rewrite N.pow_0_r; lia|].
  rewrite Nnat.Nat2N.inj_succ, N.pow_succ_r'. specialize (IH (10 * acc + (bN b - 48))%N).
  etransitivity; [|exact IH]. rewrite N.mul_assoc. apply N.mul_le_mono_r. lia.
Qed.
Lemma decimal_short n s : decimal n s -> (n <= ISIZE_MAX)%N -> length s <= 19.
Proof.
  intros (Ne & D & V & Z) L. destruct s as [|b s]; [cbn; lia|]. destruct s as [|c s]; [cbn; lia|].
  destruct (Nat.le_gt_cases (length (b :: c :: s)) 19) as [X|X]; auto. exfalso.
  assert (B1 : (1 <= bN b - 48)%N).
  { inversion D as [|? ? Db _]; subst. unfold is_digit in Db. destruct (N.eq_dec (bN b) 48) as [E|E]; [|lia]. exfalso.
    assert (b = x30) as -> by (destruct b; (reflexivity || (exfalso; vm_compute in E; congruence))). specialize (Z _ eq_refl). discriminate. }
  inversion D as [|? ? _ D']; subst. unfold dec_val in L. cbn [fold_left] in L. change (10 * 0)%N with 0%N in L. rewrite N.add_0_l in L.
  pose proof (dec_val_ge (c :: s) D' (bN b - 48)%N) as G.
  assert (P : (10 ^ 19 <= 10 ^ N.of_nat (length (c :: s)))%N) by (apply N.pow_le_mono_r; cbn [length] in *; lia).
  assert (Q : (ISIZE_MAX < 10 ^ 19)%N) by (vm_compute; reflexivity).
  cbn [fold_left] in G. revert L G. generalize (10 * (bN b - 48) + (bN c - 48))%N. intros z L G.
  assert (1 * 10 ^ 19 <= (bN b - 48) * 10 ^ N.of_nat (length (c :: s)))%N by (apply N.mul_le_mono; auto). lia.
Qed.

Definition announcing (n : N) : str := request_text (B "PUT") (B "/") (B "1.1") [LEN (show_N n)] [].
Lemma digit_ascii b : is_digit b -> (bN b < 128)%N /\ b <> x0d /\ b <> x0a /\ b <> x20 /\ b <> x09 /\ ~ rejected_ctl b.
Proof. intros [L U]. destruct b; try (exfalso; vm_compute in L, U; congruence); repeat split; try discriminate; intros [X|X]; vm_compute in X; discriminate. Qed.
Lemma digits_valid s : Forall is_digit s -> utf8_valid s = true.
Proof.
  induction 1 as [|b s D F IH]; auto. change (b :: s) with ([b] ++ s). rewrite utf8_step; auto.
  constructor. apply digit_ascii. auto.
Qed.
Lemma announcing_head n : exists a, head_at (announcing n) a [] /\
  head_means default_features demo_lib a (RequestLine MPut [] Http11) [LEN (show_N n)] [].
Proof.
  pose proof (show_N_decimal n) as (Ne & D & V & Z).
  apply (text_head default_features demo_lib (B "PUT") (B "/") (B "1.1") [LEN (show_N n)] [] MPut Http11 [] []).
  - constructor.
  - constructor.
  - split; [clean_lit|split; [not_in|reflexivity]].
  - apply path_means_parse. reflexivity.
  - discriminate.
  - constructor; [|constructor]. split.
    + apply strict_good.
      * split; [discriminate|]. split; [cbn; intuition discriminate|]. intros _.
        apply Forall_forall. intros b I. apply tchar_b. repeat (destruct I as [<-|I]; [reflexivity|]). destruct I.
      * cbn [LEN h_value]. split.
        -- intros b r E. rewrite E in D. inversion D as [|? ? Db _]; subst. apply digit_ascii in Db. intros [X|X]; subst; tauto.
        -- intros _. eapply Forall_impl; [|exact D]. intros b Db. apply digit_ascii in Db. tauto.
      * apply digits_valid. exact D.
    + unfold header_text. cbn [LEN h_name h_value]. rewrite !clean_app. split; [clean_lit|split; [clean_lit|apply show_N_clean]].
  - reflexivity.
Qed.
Lemma announcing_length n : (n <= ISIZE_MAX)%N -> announced [LEN (show_N n)] = n.
Proof.
  intro L. apply (proj1 (announced_exact _)). pose proof (show_N_decimal n) as (Ne & D & V & Z).
  exists (show_N n). split; [reflexivity|]. exists (show_N n). repeat split; auto. unfold ISIZE_MAX, USIZE_MAX in *. lia.
Qed.
Theorem short_head_reserves n : (0 < n <= ISIZE_MAX)%N ->
  exists t, real_segments t /\ fin t = Stall /\ length (stream_of t) <= 60 /\
    read_request_counted default_features demo_lib t = (IoBlocked, n).
Proof.
  intro L. exists (Transport [announcing n] Stall).
  assert (St : stream_of (Transport [announcing n] Stall) = announcing n) by (unfold stream_of; cbn [segs concat]; apply app_nil_r).
  assert (R : real_segments (Transport [announcing n] Stall)) by (apply real_one; discriminate).
  split; [exact R|]. split; [reflexivity|]. rewrite St. split.
  - unfold announcing, request_text, header_text. cbn [map join LEN h_name h_value]. rewrite !app_length.
    pose proof (decimal_short n _ (show_N_decimal n) (proj2 L)) as X. revert X.
    generalize (length (show_N n)). intros k X. cbn. lia.
  - destruct (announcing_head n) as (a & Ha & Hm). rewrite <- St in Ha.
    pose proof (reserved_at_once default_features demo_lib _ a _ _ _ R eq_refl Ha Hm) as X.
    rewrite announcing_length in X by apply L. apply X. exact L.
Qed.

(** ** Headers handlers look up *)
Definition USER (v : str) := Header (B "X-User") v.
Definition LANG (v : str) := Header (B "Accept-Language") v.
(** A handler that answers with a header of the request. *)
Definition greet_handle (h : nat) (mr : matched_request demo_lib) (x : nat * response demo_lib)
  : (nat * response demo_lib) * outcome flow :=
  let '(s, r) := x in
  match res_send ex_world (unwrap_or (headers_get (rq_headers (mr_request mr)) (B "x-user")) (B "?")) r with
  | Done r' => ((S s, r'), Done FStop)
  | Panic => ((s, r), Panic)
  end.
Definition greet_serve (hs : list header) : nat * io str :=
  serve default_features demo_lib greet_handle ex_world insertion_order [] ex_router 7 (Transport [req (B "GET") (B "/hi") hs []] Stall).
Lemma greet_looks_up : looks_up (fun k => k = B "x-user") greet_handle.
Proof.
  intros h mr mr' [s r] (_ & _ & _ & _ & X). unfold greet_handle. rewrite (X (B "x-user") eq_refl). reflexivity.
Qed.
Lemma looks_up_more {cl H ST} (K K' : str -> Prop) handle : (forall k, K k -> K' k) -> @looks_up cl H ST K handle -> looks_up K' handle.
Proof. intros S L h mr mr' x (A & C & D & E & F). apply L. repeat split; auto. Qed.
Lemma example_114 :
  looks_up (fun k => k = B "x-user") greet_handle /\
  reordered [HOST; USER (B "ann"); LANG (B "fr"); USER (B "bob")] [USER (B "ann"); HOST; USER (B "bob"); LANG (B "fr")] /\
  (exists a rl, head_at (req (B "GET") (B "/hi") [HOST; USER (B "ann"); LANG (B "fr"); USER (B "bob")] []) a [] /\
     head_means default_features demo_lib a rl [HOST; USER (B "ann"); LANG (B "fr"); USER (B "bob")] []) /\
  greet_serve [HOST; USER (B "ann"); LANG (B "fr"); USER (B "bob")] = (8, IoDone (answer_head (B "200 OK") (B "8") ++ B "ann, bob")) /\
  greet_serve [USER (B "ann"); HOST; USER (B "bob"); LANG (B "fr")] = (8, IoDone (answer_head (B "200 OK") (B "8") ++ B "ann, bob")) /\
  greet_serve [USER (B "ann"); HOST; USER (B "bob")] = (8, IoDone (answer_head (B "200 OK") (B "8") ++ B "ann, bob")).
Proof.
  split; [exact greet_looks_up|]. split.
  { eapply ReorderTrans; [apply ReorderSwap; intro X; apply same_fold_lower in X; discriminate|].
    apply ReorderKeep, ReorderKeep, ReorderSwap. intro X. apply same_fold_lower in X. discriminate. }
  split; [|repeat split; vm_compute; reflexivity].
  destruct (text_head default_features demo_lib (B "GET") (B "/hi") (B "1.1") [HOST; USER (B "ann"); LANG (B "fr"); USER (B "bob")] [] MGet Http11
    [B "hi"] []) as (a & Ha & Hm).
  1: constructor. 1: constructor. 1: target_lit. 1: apply path_means_parse; reflexivity. 1: discriminate. 1: good_hds. 1: reflexivity.
  eauto.
Qed.
