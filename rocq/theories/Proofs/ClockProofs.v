(** Lemmas behind Props/ClockProps.v: what the Date header tells about the clock. *)
From Verif.Spec Require Import Common TimeSpec ClockSpec.
From Verif.Model Require Import RustStd Time Status Response.
From Verif.Proofs Require Export TimeProofs ResponseProofs.
Local Open Scope Z_scope.

(** ** Order *)
Lemma before_trans d d' d'' : date_before d d' -> date_before d' d'' -> date_before d d''.
Proof. unfold date_before. lia. Qed.
Lemma before_next d : date_before d (next_day d).
Proof.
  unfold next_day, date_before. destruct (d_day d <? _); [|destruct (d_month d <? 12) eqn:E]; cbn [d_year d_month d_day]; try lia.
Qed.
Lemma calendar_step n d d' : calendar n d -> calendar (n + 1) d' -> date_before d d'.
Proof. intros C C'. rewrite (calendar_fun _ _ _ C' (cal_next _ _ C)). apply before_next. Qed.
Theorem calendar_order n n' d d' : calendar n d -> calendar n' d' -> n < n' -> date_before d d'.
Proof.
  intros C C' L. assert (X : forall k, 0 <= k -> forall d', calendar (n + 1 + k) d' -> date_before d d').
  { intros k Hk. pattern k. apply natlike_ind; auto.
    - intros x Cx. rewrite Z.add_0_r in Cx. eapply calendar_step; eauto.
    - intros x Hx IH y Cy. destruct (calendar_total (n + 1 + x)) as (z & Cz). eapply before_trans; [exact (IH _ Cz)|].
      apply (calendar_step (n + 1 + x)); auto. replace (n + 1 + x + 1) with (n + 1 + Z.succ x) by lia. exact Cy. }
  apply (X (n' - n - 1)); [lia|]. replace (n + 1 + (n' - n - 1)) with n' by lia. exact C'.
Qed.
Theorem time_order s s' t t' : I64_MIN + LEAPOCH <= s -> s' <= I64_MAX -> s < s' ->
  time_of_stamp s = Done t -> time_of_stamp s' = Done t' -> time_before t t'.
Proof.
  intros H H' L E E'. destruct (time_spec s) as (u & Eu & C & T & R); [lia|]. destruct (time_spec s') as (u' & Eu' & C' & T' & R'); [lia|].
  rewrite E in Eu. rewrite E' in Eu'. injection Eu as <-. injection Eu' as <-. unfold time_before.
  pose proof (Z.div_le_mono s s' 86400 ltac:(lia) ltac:(lia)) as Q.
  destruct (Z.eq_dec (s / 86400) (s' / 86400)) as [D|D].
  - right. rewrite D in C. split; [eapply calendar_fun; eauto|]. rewrite (Z.div_mod s 86400), (Z.div_mod s' 86400), D, T, T' in L by lia. lia.
  - left. eapply calendar_order; eauto. lia.
Qed.

(** ** The text *)
Lemma two_inj a b : 0 <= a <= 99 -> 0 <= b <= 99 -> two a = two b -> a = b.
Proof.
  intros Ha Hb E.
  assert (A : forallb (fun x => forallb (fun y => implb (seqb (two x) (two y)) (x =? y)) (span 100)) (span 100) = true) by (vm_compute; reflexivity).
  rewrite forallb_forall in A. specialize (A a (in_span 100 a ltac:(lia))). rewrite forallb_forall in A. specialize (A b (in_span 100 b ltac:(lia))).
  rewrite E in A. rewrite (proj2 (seqb_eq _ _) eq_refl) in A. cbn [implb] in A. lia.
Qed.
Lemma four_inj a b : 1000 <= a <= 9999 -> 1000 <= b <= 9999 -> four a = four b -> a = b.
Proof.
  intros Ha Hb E. unfold four in E. unfold two in E at 1 3. cbn [app] in E.
  assert (E1 : two (a / 100) = two (b / 100)) by (unfold two; congruence).
  assert (E2 : two (a mod 100) = two (b mod 100)) by congruence.
  pose proof (Z.mod_pos_bound a 100 ltac:(lia)). pose proof (Z.mod_pos_bound b 100 ltac:(lia)).
  assert (0 <= a / 100 <= 99) by (split; [apply Z.div_pos; lia|apply Z.lt_succ_r; apply Z.div_lt_upper_bound; lia]).
  assert (0 <= b / 100 <= 99) by (split; [apply Z.div_pos; lia|apply Z.lt_succ_r; apply Z.div_lt_upper_bound; lia]).
  apply two_inj in E1; [|lia|lia]. apply two_inj in E2; [|lia|lia]. rewrite (Z.div_mod a 100), (Z.div_mod b 100) by lia. congruence.
Qed.
Lemma month_inj a b x y X Y : 0 <= a <= 11 -> 0 <= b <= 11 -> nth_error MONTHS (Z.to_nat a) = Some x -> nth_error MONTHS (Z.to_nat b) = Some y ->
  x ++ B " " ++ X = y ++ B " " ++ Y -> a = b.
Proof.
  intros Ha Hb Ex Ey E.
  assert (P : firstn 3 x = firstn 3 y).
  { assert (L : forall n z, nth_error MONTHS n = Some z -> (3 <= length z)%nat).
    { intros n z Ez. do 12 (destruct n as [|n]; [injection Ez as <-; cbn; lia|]). destruct n; discriminate. }
    apply L in Ex, Ey. apply (f_equal (firstn 3)) in E. rewrite !firstn_app in E.
    replace (3 - length x)%nat with 0%nat in E by lia. replace (3 - length y)%nat with 0%nat in E by lia.
    cbn [firstn] in E. rewrite !app_nil_r in E. exact E. }
  assert (A : forallb (fun i => forallb (fun j => implb (match nth_error MONTHS (Z.to_nat i), nth_error MONTHS (Z.to_nat j) with
      Some u, Some v => seqb (firstn 3 u) (firstn 3 v) | _, _ => false end) (i =? j)) (span 12)) (span 12) = true) by (vm_compute; reflexivity).
  rewrite forallb_forall in A. specialize (A a (in_span 12 a ltac:(lia))). rewrite forallb_forall in A. specialize (A b (in_span 12 b ltac:(lia))).
  cbv beta in A. rewrite Ex, Ey, P in A. rewrite (proj2 (seqb_eq _ _) eq_refl) in A. cbn [implb] in A. lia.
Qed.
Lemma app_same {A} (a a' b b' : list A) : length a = length a' -> a ++ b = a' ++ b' -> a = a' /\ b = b'.
Proof.
  revert a'. induction a as [|x a IH]; intros [|y a'] L E; try discriminate; auto. injection L as L. injection E as <- E.
  destruct (IH a' L E) as [-> ->]. auto.
Qed.
Theorem format_inj s s' t t' : 0 <= s < 253402300800 -> 0 <= s' < 253402300800 ->
  time_of_stamp s = Done t -> time_of_stamp s' = Done t' -> time_format t = time_format t' -> s = s'.
Proof.
  intros H H' E E' Ef. pose proof (time_fields s t H E) as F. pose proof (time_fields s' t' H' E') as F'.
  destruct (format_spec t F) as (wd & mn & Hw & Hm & Et). destruct (format_spec t' F') as (wd' & mn' & Hw' & Hm' & Et').
  rewrite Et, Et' in Ef. destruct F as (Fy & Fm & Fd & Fw & Fh & Fi & Fs). destruct F' as (Fy' & Fm' & Fd' & Fw' & Fh' & Fi' & Fs').
  apply names_len in Hw, Hw'.
  apply app_same in Ef; [|congruence]. destruct Ef as [_ Ef]. apply app_same in Ef; [|reflexivity]. destruct Ef as [_ Ef].
  apply app_same in Ef; [|reflexivity]. destruct Ef as [Ed Ef]. apply app_same in Ef; [|reflexivity]. destruct Ef as [_ Ef].
  pose proof (month_inj _ _ _ _ _ _ Fm Fm' Hm Hm' Ef) as Em.
  assert (mn' = mn) as -> by (rewrite Em in Hm; congruence).
  apply app_same in Ef; [|reflexivity]. destruct Ef as [_ Ef]. apply app_same in Ef; [|reflexivity]. destruct Ef as [_ Ef].
  apply app_same in Ef; [|reflexivity]. destruct Ef as [Ey Ef]. apply app_same in Ef; [|reflexivity]. destruct Ef as [_ Ef].
  apply app_same in Ef; [|reflexivity]. destruct Ef as [Eh Ef]. apply app_same in Ef; [|reflexivity]. destruct Ef as [_ Ef].
  apply app_same in Ef; [|reflexivity]. destruct Ef as [Ei Ef]. apply app_same in Ef; [|reflexivity]. destruct Ef as [_ Ef].
  apply app_same in Ef; [|reflexivity]. destruct Ef as [Es _].
  apply two_inj in Ed; [|lia|lia]. apply four_inj in Ey; [|lia|lia]. apply two_inj in Eh; [|lia|lia]. apply two_inj in Ei; [|lia|lia]. apply two_inj in Es; [|lia|lia].
  destruct (Z.lt_total s s') as [L|[L|L]]; auto; exfalso.
  - assert (X : time_before t t') by (eapply time_order; eauto; unfold I64_MIN, I64_MAX, LEAPOCH; lia).
    unfold time_before, date_before in X. cbn [d_year d_month d_day] in X. lia.
  - assert (X : time_before t' t) by (eapply time_order; eauto; unfold I64_MIN, I64_MAX, LEAPOCH; lia).
    unfold time_before, date_before in X. cbn [d_year d_month d_day] in X. lia.
Qed.

(** ** The header *)
Lemma date_header {cl} (w : world) (r r1 : response cl) c : clock w = Some c -> four_digits c -> default_headers w r = Done r1 ->
  exists t, time_of_stamp (Z.of_N c) = Done t /\ mget seqb (B "Date") (rs_headers r1) = Some (time_format t).
Proof.
  intros Ec F E. unfold four_digits in F. destruct (now_spec c) as (t & Et & En). { unfold I64_MAX. lia. }
  exists t. split; auto. unfold default_headers in E. rewrite Ec, En in E. cbn [obind] in E. injection E as <-. cbn [with_headers rs_headers].
  destruct (mget seqb (B "Content-Type") _) as [ct|].
  - rewrite (mget_mset_same seqb seqb_eq). reflexivity.
  - rewrite (mget_mset_other seqb seqb_eq) by discriminate. rewrite (mget_mset_same seqb seqb_eq). reflexivity.
Qed.
Theorem date_tells_clock {cl} (w w' : world) (r r' r1 r1' : response cl) c c' d :
  clock w = Some c -> clock w' = Some c' -> four_digits c -> four_digits c' ->
  default_headers w r = Done r1 -> default_headers w' r' = Done r1' ->
  mget seqb (B "Date") (rs_headers r1) = Some d ->
  (mget seqb (B "Date") (rs_headers r1') = Some d <-> c' = c).
Proof.
  intros Ec Ec' F F' E E' M. destruct (date_header w r r1 c Ec F E) as (t & Et & Mt). destruct (date_header w' r' r1' c' Ec' F' E') as (t' & Et' & Mt').
  unfold four_digits in *. rewrite Mt'. split.
  - intro X. assert (Y : time_format t = time_format t') by congruence. apply format_inj with (s := Z.of_N c) (s' := Z.of_N c') in Y; auto; lia.
  - intros ->. congruence.
Qed.
Theorem sent_date {cl} (w w' : world) b b' (r r' r1 r1' : response cl) c c' d :
  clock w = Some c -> clock w' = Some c' -> four_digits c -> four_digits c' ->
  res_send w b r = Done r1 -> res_send w' b' r' = Done r1' ->
  mget seqb (B "Date") (rs_headers r1) = Some d ->
  (mget seqb (B "Date") (rs_headers r1') = Some d <-> c' = c).
Proof. unfold res_send. intros. eapply date_tells_clock; eauto. Qed.
Theorem sent_with_date {cl} (w : world) b (r r1 : response cl) c :
  clock w = Some c -> four_digits c -> res_send w b r = Done r1 ->
  exists d, mget seqb (B "Date") (rs_headers r1) = Some d.
Proof. unfold res_send. intros Ec F E. destruct (date_header _ _ _ _ Ec F E) as (t & _ & M). eauto. Qed.
