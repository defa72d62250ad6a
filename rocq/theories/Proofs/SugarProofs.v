(** Convenience macros. *)
From Verif.Model Require Import Sugar.
From Verif.Proofs Require Export RouterExtra.
From Verif.Spec Require Import Common PathSpec RoutingSpec SugarSpec.

(** ** Route macros *)
Section Routes.
Context {H W V : Type} (body : H -> varmap -> W -> W * body_exit V) (stops : H -> bool).
Definition sugar_exec (h : H) (vars : varmap) : W -> W * outcome flow :=
  if stops h then route_stop (body h vars) else route_next (body h vars).
Lemma sugar_chain l : no_return body -> forall w, run_chain sugar_exec l w = run_bodies body stops l w.
Proof.
  intro N. induction l as [|[h vars] l IH]; intro w; [reflexivity|]. cbn [run_chain run_bodies].
  unfold sugar_exec at 1, route_stop, route_next, route, then_flow. specialize (N h vars w).
  destruct (stops h); destruct (body h vars w) as [w' [v|f|]]; cbn in N; auto; destruct (N f eq_refl).
Qed.
Theorem sugar_dispatch o ft (l : list (oreg H)) m path w : no_return body ->
  (N.of_nat (length (flatten l)) <= USIZE_MAX)%N -> m <> MAll ->
  exists r sel calls, build o l = Done r /\
    selects (applies (url_variables ft) m path) (flatten l) sel /\
    Forall2 (invokes (url_variables ft) path) sel calls /\
    router_run sugar_exec ft r m path w = run_bodies body stops calls w.
Proof.
  intros N L M. destruct (dispatch_correct sugar_exec o ft l m path w L M) as (r & sel & calls & E & S & F & X).
  exists r, sel, calls. rewrite <- sugar_chain by exact N. auto.
Qed.
End Routes.

(** ** Literals *)
Lemma remove_plain s : ~ In x22 s -> remove_quotes s = s.
Proof.
  induction s as [|b s IH]; intro N; [reflexivity|]. cbn [remove_quotes filter].
  destruct (beqb_spec b x22) as [->|]; [destruct N; left; reflexivity|]. cbn [negb]. f_equal. apply IH. intro I. apply N. right. exact I.
Qed.
Lemma remove_app a b : remove_quotes (a ++ b) = remove_quotes a ++ remove_quotes b.
Proof. apply filter_app. Qed.
Lemma plain_value s v : lit_chars s v -> ~ In x5c s -> v = s /\ ~ In x22 s.
Proof.
  induction 1 as [|b s v N1 N2 L IH|e b s v I L IH|c n b s v Hc Eb L IH|c n d m b s v Hc Hd Eb Lt L IH]; intro N;
    try (destruct N; left; reflexivity); [auto|].
  destruct IH as [-> I]; [intro X; apply N; right; exact X|]. split; [reflexivity|]. intros [X|X]; auto.
Qed.
Lemma hex_digit_ok n : (n < 16)%N -> hex_of (hex_digit n) n.
Proof.
  intro L. assert (I : In n (map N.of_nat (seq 0 16))).
  { apply in_map_iff. exists (N.to_nat n). split; [lia|]. apply in_seq. lia. }
  cbn in I. repeat (destruct I as [<-|I]; [vm_compute; first [left; split; [split; discriminate|reflexivity]|right; split; [split; discriminate|reflexivity]]|]).
  destruct I.
Qed.
Lemma debug_byte_literal sq b s v : lit_chars s v -> lit_chars (debug_byte sq b ++ s) (b :: v).
Proof.
  intro L. unfold debug_byte.
  destruct (beqb_spec b x22) as [->|N1]; [apply lc_escape; [cbn; tauto|exact L]|].
  destruct (beqb_spec b x5c) as [->|N2]; [apply lc_escape; [cbn; tauto|exact L]|].
  destruct (beqb b x27 && escapes_quote sq) eqn:Q.
  { apply andb_prop in Q as [Q _]. apply beqb_eq in Q as ->. apply lc_escape; [cbn; tauto|exact L]. }
  destruct (beqb_spec b x09) as [->|N3]; [apply lc_escape; [cbn; tauto|exact L]|].
  destruct (beqb_spec b x0a) as [->|N4]; [apply lc_escape; [cbn; tauto|exact L]|].
  destruct (beqb_spec b x0d) as [->|N5]; [apply lc_escape; [cbn; tauto|exact L]|].
  destruct (beqb b x00 && short_nul sq) eqn:Q0.
  { apply andb_prop in Q0 as [Q0 _]. apply beqb_eq in Q0 as ->. apply lc_escape; [cbn; tauto|exact L]. }
  destruct ((bN b <? 32)%N || (bN b =? 127)%N) eqn:C.
  - assert (Lt : (bN b < 128)%N) by (apply orb_prop in C as [C|C]; [apply N.ltb_lt in C|apply N.eqb_eq in C]; lia).
    unfold show_hex8. destruct (N.ltb_spec (bN b) 16) as [S|S]; cbn [app].
    + eapply lc_hex1; [apply hex_digit_ok; exact S|reflexivity|exact L].
    + eapply lc_hex2 with (n := (bN b / 16)%N) (m := (bN b mod 16)%N); auto.
      * apply hex_digit_ok. apply N.div_lt_upper_bound; lia.
      * apply hex_digit_ok. apply N.mod_lt. lia.
      * rewrite N.mul_comm. rewrite N.mul_comm. apply N.div_mod. lia.
  - apply lc_plain; auto.
Qed.
Theorem debug_literal sq v : string_literal (debug_str sq v) v.
Proof.
  exists (flat_map (debug_byte sq) v). split; [reflexivity|]. induction v as [|b v IH]; [constructor|].
  cbn [flat_map]. apply debug_byte_literal. exact IH.
Qed.
Theorem path_macro_exact cwd ex sq src rest v : string_literal src v -> ~ In x5c src ->
  match path_macro cwd ex sq (TkLit src :: rest) with
  | Done out => exists dir, cwd = Some dir /\ ex (dir ++ v) = true /\ string_literal out (dir ++ v)
  | Panic => cwd = None \/ exists dir, cwd = Some dir /\ ex (dir ++ v) = false
  end.
Proof.
  intros (s & -> & L) N. assert (Ns : ~ In x5c s) by (intro X; apply N; apply in_or_app; right; apply in_or_app; left; exact X).
  destruct (plain_value s v L Ns) as [-> Q]. cbn [path_macro].
  assert (Q' : remove_quotes ([x22] ++ s ++ [x22]) = s).
  { rewrite !remove_app. change (remove_quotes [x22]) with (@nil byte). rewrite (remove_plain s Q), app_nil_r. reflexivity. }
  rewrite Q'. destruct cwd as [dir|]; cbn [unwrap obind]; [|auto].
  destruct (ex (dir ++ s)) eqn:E; [|right; eauto]. exists dir. split; auto. split; auto. apply debug_literal.
Qed.
Theorem path_macro_general cwd ex sq input out : path_macro cwd ex sq input = Done out ->
  exists dir src rest p, cwd = Some dir /\ input = TkLit src :: rest /\ p = dir ++ filter (fun b => negb (beqb b x22)) src /\
    ex p = true /\ string_literal out p.
Proof.
  unfold path_macro. destruct input as [|[| |src|] rest]; try discriminate. destruct cwd as [dir|]; cbn [unwrap obind]; [|discriminate].
  destruct (ex _) eqn:E; [|discriminate]. intro X. injection X as <-.
  exists dir, src, rest, (dir ++ remove_quotes src). repeat (split; auto). apply debug_literal.
Qed.
(** The meaning of a literal is unique. *)
Lemma hex_not_brace c n : hex_of c n -> c <> x7d.
Proof. intros [[L _]|[L _]] ->; vm_compute in L; destruct L; congruence. Qed.
Lemma hex_fun c n m : hex_of c n -> hex_of c m -> n = m.
Proof. intros [[L ->]|[L ->]] [[L' ->]|[L' ->]]; lia. Qed.
Lemma bN_inj a b : bN a = bN b -> a = b.
Proof. intro E. unfold bN in E. apply (f_equal Byte.of_N) in E. rewrite !Byte.of_to_N in E. congruence. Qed.
Theorem lit_chars_fun s v v' : lit_chars s v -> lit_chars s v' -> v = v'.
Proof.
  intro L. revert v'. induction L as [|b s v N1 N2 L IH|e b s v I L IH|c n b s v Hc Eb L IH|c n d m b s v Hc Hd Eb Lt L IH]; intros v' L'.
  - inversion L'. reflexivity.
  - inversion L'; subst; try congruence. f_equal. auto.
  - inversion L'; subst; try congruence.
    + f_equal; auto. cbn in I. intuition; repeat match goal with X : (_, _) = (_, _) |- _ => injection X as <- <- end;
        match goal with X : In (_, ?b) _ |- _ = ?b => cbn in X; intuition congruence end.
    + cbn in I. intuition congruence.
    + cbn in I. intuition congruence.
  - inversion L'; subst; try congruence.
    + match goal with X : In (x75, _) _ |- _ => cbn in X; intuition congruence end.
    + f_equal; auto. apply bN_inj. eapply hex_fun; eauto.
    + exfalso. match goal with X : hex_of x7d _ |- _ => exact (hex_not_brace _ _ X eq_refl) end.
  - inversion L'; subst; try congruence.
    + match goal with X : In (x75, _) _ |- _ => cbn in X; intuition congruence end.
    + exfalso. exact (hex_not_brace _ _ Hd eq_refl).
    + f_equal; auto. apply bN_inj. rewrite Eb.
      match goal with X : bN ?x = _ |- _ = bN ?x => rewrite X end. f_equal; [f_equal|]; eapply hex_fun; eauto.
Qed.
Theorem string_literal_fun src v v' : string_literal src v -> string_literal src v' -> v = v'.
Proof.
  intros (s & -> & L) (s' & E & L'). apply (f_equal (@tl _)) in E. cbn [app tl] in E. apply app_inj_tail in E as [<- _].
  eapply lit_chars_fun; eauto.
Qed.
