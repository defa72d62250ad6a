(** Dates. *)
From Verif.Model Require Export Time.
From Verif.Proofs Require Export Basics.
From Verif.Spec Require Import TimeSpec.
Local Open Scope Z_scope.
Local Ltac Zify.zify_post_hook ::= Z.to_euclidean_division_equations.

(** ** The calendar in closed form *)
Definition before_year (y : Z) : Z :=
  365 * (y - 1) + (y - 1) / 4 - (y - 1) / 100 + (y - 1) / 400 - 719162.
Definition before_month (y m : Z) : Z :=
  let l := if leap y then 1 else 0 in
  if m =? 1 then 0 else if m =? 2 then 31
  else l + (if m =? 3 then 59 else if m =? 4 then 90 else if m =? 5 then 120
       else if m =? 6 then 151 else if m =? 7 then 181 else if m =? 8 then 212 else if m =? 9 then 243
       else if m =? 10 then 273 else if m =? 11 then 304 else 334).
Definition day_number (d : date) : Z :=
  before_year (d_year d) + before_month (d_year d) (d_month d) + d_day d - 1.
Definition on_number (d : date) : Prop := valid_date d /\ d_week d = (4 + day_number d) mod 7.

Lemma leap_true y : leap y = true <-> y mod 4 = 0 /\ (y mod 100 <> 0 \/ y mod 400 = 0).
Proof.
  unfold leap. rewrite andb_true_iff, orb_true_iff, negb_true_iff, !Z.eqb_eq, Z.eqb_neq. tauto.
Qed.
Lemma leap_false y : leap y = false <-> y mod 4 <> 0 \/ (y mod 100 = 0 /\ y mod 400 <> 0).
Proof.
  unfold leap. rewrite andb_false_iff, orb_false_iff, negb_false_iff, !Z.eqb_eq, !Z.eqb_neq. tauto.
Qed.
Lemma before_year_step y : before_year (y + 1) = before_year y + 365 + (if leap y then 1 else 0).
Proof.
  unfold before_year. replace (y + 1 - 1) with y by lia.
  assert (forall k, 0 < k -> y / k = (y - 1) / k + (if y mod k =? 0 then 1 else 0)) as K.
  { intros k Hk. destruct (Z.eqb_spec (y mod k) 0) as [E|E].
    - pose proof (Z.div_mod y k). assert (y / k - 1 = (y - 1) / k); [|lia].
      apply Z.div_unique with (r := k - 1); lia.
    - pose proof (Z.div_mod y k). pose proof (Z.mod_pos_bound y k Hk).
      rewrite Z.add_0_r. apply Z.div_unique with (r := y mod k - 1); lia. }
  rewrite (K 4), (K 100), (K 400) by lia. clear K.
  destruct (leap y) eqn:L; [apply leap_true in L|apply leap_false in L];
    destruct (Z.eqb_spec (y mod 4) 0), (Z.eqb_spec (y mod 100) 0), (Z.eqb_spec (y mod 400) 0); lia.
Qed.
Lemma month_cases m : 1 <= m <= 12 -> m = 1 \/ m = 2 \/ m = 3 \/ m = 4 \/ m = 5 \/ m = 6 \/ m = 7 \/
  m = 8 \/ m = 9 \/ m = 10 \/ m = 11 \/ m = 12.
Proof. lia. Qed.
Lemma before_month_step y m : 1 <= m <= 11 -> before_month y (m + 1) = before_month y m + month_len y m.
Proof.
  intro H. assert (m = 1 \/ m = 2 \/ m = 3 \/ m = 4 \/ m = 5 \/ m = 6 \/ m = 7 \/ m = 8 \/ m = 9 \/ m = 10 \/ m = 11) as C by lia.
  unfold before_month, month_len.
  repeat (destruct C as [->|C]; [cbn; destruct (leap y); reflexivity|]). subst. cbn. destruct (leap y); reflexivity.
Qed.
Lemma before_month_mono y a b : 1 <= a -> a <= b -> b <= 12 -> before_month y a <= before_month y b.
Proof.
  intros Ha Hb Hc. assert (K : forall k, 0 <= k -> a + k <= 12 -> before_month y a <= before_month y (a + k)).
  { intros k Hk. pattern k. apply natlike_ind; auto.
    - intros _. rewrite Z.add_0_r. lia.
    - intros x Hx IH H. replace (a + Z.succ x) with (a + x + 1) by lia. rewrite before_month_step by lia.
      assert (28 <= month_len y (a + x)); [|lia].
      unfold month_len. destruct (_ =? 2); [destruct (leap y); lia|].
      destruct (_ || _); lia. }
  specialize (K (b - a)). replace (a + (b - a)) with b in K by lia. lia.
Qed.
Lemma before_month_12 y : before_month y 12 + 31 = 365 + (if leap y then 1 else 0).
Proof. unfold before_month. cbn. destruct (leap y); reflexivity. Qed.
Lemma month_len_12 y : month_len y 12 = 31.
Proof. reflexivity. Qed.
Lemma month_len_pos y m : 28 <= month_len y m <= 31.
Proof.
  unfold month_len. destruct (m =? 2); [destruct (leap y); lia|].
  destruct ((m =? 4) || (m =? 6) || (m =? 9) || (m =? 11)); lia.
Qed.

Lemma next_number d : valid_date d -> valid_date (next_day d) /\ day_number (next_day d) = day_number d + 1.
Proof.
  destruct d as [y m dd w]. unfold valid_date, next_day, day_number. cbn [d_year d_month d_day d_week].
  intros (Hm & Hd & Hw).
  assert (Hw' : 0 <= (if w =? 6 then 0 else w + 1) <= 6) by (destruct (Z.eqb_spec w 6); lia).
  destruct (Z.ltb_spec dd (month_len y m)) as [L|L]; cbn [d_year d_month d_day d_week].
  - split; [split; [lia|split; [lia|auto]]|lia].
  - destruct (Z.ltb_spec m 12) as [L2|L2]; cbn [d_year d_month d_day d_week].
    + pose proof (month_len_pos y (m + 1)). split; [split; [lia|split; [lia|auto]]|].
      rewrite before_month_step by lia. lia.
    + assert (m = 12) by lia. subst m. rewrite month_len_12 in *.
      split; [split; [lia|split; [cbn; lia|auto]]|].
      rewrite before_year_step. pose proof (before_month_12 y). change (before_month (y + 1) 1) with 0. lia.
Qed.
Lemma next_week d : valid_date d ->
  (d_week (next_day d) = (4 + day_number (next_day d)) mod 7 <-> d_week d = (4 + day_number d) mod 7).
Proof.
  intro V. destruct (next_number d V) as [_ ->]. destruct V as (_ & _ & Hw).
  assert (E : d_week (next_day d) = if d_week d =? 6 then 0 else d_week d + 1).
  { unfold next_day. destruct (_ <? _); auto. destruct (_ <? _); auto. }
  rewrite E. replace (4 + (day_number d + 1)) with (4 + day_number d + 1) by lia.
  generalize (4 + day_number d) as z. intro z. generalize dependent (d_week d). intros w Hw _. destruct (Z.eqb_spec w 6); split; intro; lia.
Qed.
Lemma next_inj_number d d' : valid_date d -> valid_date d' -> day_number d = day_number d' ->
  d_year d = d_year d' /\ d_month d = d_month d' /\ d_day d = d_day d'.
Proof.
  assert (K : forall y m dd, 1 <= m <= 12 -> 1 <= dd <= month_len y m ->
             0 <= before_month y m + dd - 1 < 365 + if leap y then 1 else 0).
  { intros y m dd Hm Hd. assert (0 <= before_month y m).
    { unfold before_month. destruct (leap y); repeat destruct (_ =? _); lia. }
    destruct (Z.eq_dec m 12) as [->|N].
    - pose proof (before_month_12 y). rewrite month_len_12 in Hd. lia.
    - pose proof (before_month_step y m). 
      pose proof (before_month_mono y (m + 1) 12).
      pose proof (before_month_12 y). lia. }
  assert (Y : forall y k, 0 <= k -> before_year y + 365 * k <= before_year (y + k)).
  { intros y k Hk. pattern k. apply natlike_ind; auto.
    - replace (y + 0) with y by lia. lia.
    - intros x Hx IH. replace (y + Z.succ x) with (y + x + 1) by lia. rewrite before_year_step.
      destruct (leap (y + x)); lia. }
  assert (Y1 : forall y y', y < y' -> before_year y + 365 + (if leap y then 1 else 0) <= before_year y').
  { intros y y' H.
    pose proof (Y (y + 1) (y' - (y + 1))) as Z1. rewrite before_year_step in Z1.
    replace (y + 1 + (y' - (y + 1))) with y' in Z1 by lia. lia. }
  destruct d as [y m dd w], d' as [y' m' dd' w']. unfold valid_date, day_number.
  cbn [d_year d_month d_day d_week]. intros (Hm & Hd & _) (Hm' & Hd' & _) E.
  pose proof (K y m dd Hm Hd). pose proof (K y' m' dd' Hm' Hd').
  assert (y = y') as <-.
  { destruct (Z.lt_total y y') as [L|[L|L]]; auto; pose proof (Y1 _ _ L); lia. }
  split; auto.
  assert (M : forall a b, 1 <= a -> a < b -> b <= 12 -> before_month y a + month_len y a <= before_month y b).
  { intros a b Ha Hb Hc. rewrite <- before_month_step by lia.
    apply before_month_mono; lia. }
  assert (m = m') as <-.
  { destruct (Z.lt_total m m') as [L|[L|L]]; auto; [pose proof (M m m')|pose proof (M m' m)]; lia. }
  split; auto. lia.
Qed.

Lemma calendar_number n d : calendar n d -> on_number d /\ day_number d = n.
Proof.
  induction 1 as [|n d H [[V W] IH]|n d V H [[V' W'] IH]].
  - split; [split|]; [|reflexivity|reflexivity].
    unfold valid_date. cbn. lia.
  - destruct (next_number d V) as [V2 E]. split; [split; auto|lia]. apply next_week; auto.
  - destruct (next_number d V) as [V2 E]. split; [split; auto|lia]. apply next_week; auto.
Qed.
Lemma calendar_fun n d d' : calendar n d -> calendar n d' -> d = d'.
Proof.
  intros H H'. apply calendar_number in H as [[V W] E], H' as [[V' W'] E'].
  destruct (next_inj_number d d' V V') as (Ey & Em & Ed); [lia|].
  assert (Ew : d_week d = d_week d') by (rewrite W, W', E, E'; auto).
  destruct d, d'; cbn in *. congruence.
Qed.
Lemma calendar_inj n n' d : calendar n d -> calendar n' d -> n = n'.
Proof. intros H H'. apply calendar_number in H as [_ E], H' as [_ E']. lia. Qed.
Lemma calendar_valid n d : calendar n d -> valid_date d.
Proof. intro H. apply calendar_number in H as [[V _] _]. auto. Qed.

(** Every day has a predecessor, so every date is reached. *)
Lemma prev_day d : valid_date d -> exists d', valid_date d' /\ next_day d' = d.
Proof.
  destruct d as [y m dd w]. intros (Hm & Hd & Hw). cbn [d_year d_month d_day d_week] in *.
  set (w' := if w =? 0 then 6 else w - 1).
  assert (Hw' : 0 <= w' <= 6 /\ (if w' =? 6 then 0 else w' + 1) = w).
  { unfold w'. destruct (Z.eqb_spec w 0); [subst; cbn; lia|]. destruct (Z.eqb_spec (w - 1) 6); lia. }
  destruct Hw' as [Hw' Ew]. clearbody w'.
  destruct (Z.eq_dec dd 1) as [->|Nd].
  - destruct (Z.eq_dec m 1) as [->|Nm].
    + exists (Date (y - 1) 12 31 w'). split; [unfold valid_date; cbn; lia|].
      unfold next_day. cbn [d_year d_month d_day d_week]. rewrite month_len_12, Ew. cbn.
      f_equal; lia.
    + exists (Date y (m - 1) (month_len y (m - 1)) w'). pose proof (month_len_pos y (m - 1)).
      split; [unfold valid_date; cbn [d_year d_month d_day d_week]; lia|].
      unfold next_day. cbn [d_year d_month d_day d_week]. rewrite Z.ltb_irrefl, Ew.
      destruct (Z.ltb_spec (m - 1) 12); [|lia]. f_equal; lia.
  - exists (Date y m (dd - 1) w'). split; [unfold valid_date; cbn [d_year d_month d_day d_week]; lia|].
    unfold next_day. cbn [d_year d_month d_day d_week]. rewrite Ew.
    destruct (Z.ltb_spec (dd - 1) (month_len y m)); [|lia]. f_equal; lia.
Qed.
Lemma calendar_total n : exists d, calendar n d.
Proof.
  assert (P : forall k, 0 <= k -> exists d, calendar k d).
  { intros k Hk. pattern k. apply natlike_ind; auto.
    - eexists. constructor.
    - intros x _ (d & H). exists (next_day d). replace (Z.succ x) with (x + 1) by lia. constructor. auto. }
  assert (Q : forall k, 0 <= k -> exists d, calendar (- k) d).
  { intros k Hk. pattern k. apply natlike_ind; auto.
    - eexists. constructor.
    - intros x _ (d & H). destruct (prev_day d (calendar_valid _ _ H)) as (d' & V & E).
      exists d'. apply cal_prev; auto. rewrite E. replace (- Z.succ x + 1) with (- x) by lia. auto. }
  destruct (Z.le_gt_cases 0 n); auto. replace n with (- - n) by lia. apply Q. lia.
Qed.
Lemma number_calendar d : on_number d -> calendar (day_number d) d.
Proof.
  intros [V W]. destruct (calendar_total (day_number d)) as (d' & H).
  assert (d' = d); [|subst; auto].
  apply calendar_number in H as [[V' W'] E].
  destruct (next_inj_number d' d V' V) as (Ey & Em & Ed); [lia|].
  assert (Ew : d_week d' = d_week d) by (rewrite W, W', E; auto).
  destruct d, d'; cbn in *. congruence.
Qed.

(** ** The computation *)
Lemma i64_ok z : I64_MIN <= z <= I64_MAX -> i64 z = Done z.
Proof.
  intro H. unfold i64. destruct (Z.leb_spec I64_MIN z), (Z.leb_spec z I64_MAX); auto; lia.
Qed.
Lemma i64_bad z : z < I64_MIN \/ I64_MAX < z -> i64 z = Panic.
Proof.
  intro H. unfold i64. destruct (Z.leb_spec I64_MIN z), (Z.leb_spec z I64_MAX); auto; lia.
Qed.
Local Ltac mon :=
  repeat match goal with
  | |- context [month_len ?y (?a + ?b)] => let v := eval vm_compute in (a + b) in change (a + b) with v
  | |- context [month_len ?y (?a - ?b)] => let v := eval vm_compute in (a - b) in change (a - b) with v
  | |- context [?a + ?b =? 11] => let v := eval vm_compute in (a + b =? 11) in change (a + b =? 11) with v
  end;
  unfold month_len, before_month; cbn [Z.eqb Pos.eqb orb];
  match goal with |- context [leap ?y] => destruct (leap y) end; lia.
Lemma month_loop_spec r : 0 <= r <= 365 -> exists m r', month_loop DAYS_IN_MONTH 0 r = Done (m, r') /\
  0 <= m <= 11 /\ 0 <= r' <= 31 /\
  (m <= 9 -> forall y, r' < month_len y (m + 3) /\ 59 + r + (if leap y then 1 else 0) = before_month y (m + 3) + r') /\
  (10 <= m -> forall y, r' < month_len y (m - 9) + (if leap y then 0 else if m =? 11 then 1 else 0) /\
                        r - 306 = before_month y (m - 9) + r') /\
  (m = 11 -> r' = 28 -> r = 365).
Proof.
  intro H. unfold DAYS_IN_MONTH, month_loop, sub64.
  repeat match goal with
  | |- context [?d <=? ?r] => destruct (Z.leb_spec d r); [rewrite i64_ok by (unfold I64_MIN, I64_MAX; lia); cbn [obind]|]
  end; try lia;
  do 2 eexists; (split; [reflexivity|]); (split; [lia|]); (split; [lia|]).
  all:
  (split; [first [let Hm := fresh in intro Hm; exfalso; lia
                 | intros _ y; mon]|]);
  (split; [first [let Hm := fresh in intro Hm; exfalso; lia
                 | intros _ y; mon]|lia]).
Qed.

Lemma floor_pair a b : 0 < b <= 1000000 -> I64_MIN <= a <= I64_MAX ->
  (if Z.rem a b <? 0 then
     let* r' := add64 (Z.rem a b) b in
     let* q' := sub64 (Z.quot a b) 1 in
     Done (q', r')
   else Done (Z.quot a b, Z.rem a b)) = Done (a / b, a mod b).
Proof.
  intros Hb Ha. pose proof (Z.quot_rem a b). pose proof (Z.div_mod a b). pose proof (Z.mod_pos_bound a b).
  unfold I64_MIN, I64_MAX in Ha.
  destruct (Z.ltb_spec (Z.rem a b) 0) as [L|L].
  - pose proof (Z.rem_bound_neg_pos a b).
    assert (a < 0). { destruct (Z.le_gt_cases 0 a); auto. pose proof (Z.rem_nonneg a b). lia. }
    assert (E : Z.quot a b - 1 = a / b). { apply Z.div_unique with (r := Z.rem a b + b); lia. }
    assert (a / b < 0) by (apply Z.div_lt_upper_bound; lia).
    assert (a <= a / b) by nia.
    unfold add64, sub64. rewrite i64_ok by (unfold I64_MIN, I64_MAX; lia). cbn [obind].
    rewrite i64_ok by (unfold I64_MIN, I64_MAX; lia). cbn [obind]. f_equal. f_equal; lia.
  - assert (0 <= Z.rem a b < b).
    { split; auto. destruct (Z.le_gt_cases 0 a); [apply Z.rem_bound_pos; lia|].
      pose proof (Z.rem_nonpos a b). lia. }
    assert (E : Z.quot a b = a / b) by (apply Z.div_unique with (r := Z.rem a b); lia).
    f_equal. f_equal; lia.
Qed.
Lemma week_step d : I64_MIN <= d + 3 <= I64_MAX ->
  (let* d3 := add64 d 3 in
   let wday := Z.rem d3 7 in
   (if wday <? 0 then add64 wday 7 else Done wday)) = Done ((d + 3) mod 7).
Proof.
  intro H. unfold add64. rewrite i64_ok by auto. cbn [obind]. cbv zeta.
  destruct (Z.ltb_spec (Z.rem (d + 3) 7) 0).
  - rewrite i64_ok by (unfold I64_MIN, I64_MAX; lia). f_equal. lia.
  - f_equal. lia.
Qed.

Local Ltac ok := rewrite i64_ok by (unfold I64_MIN, I64_MAX in *; lia); cbn [obind].
Definition clamp (k z : Z) : Z := if z =? k then k - 1 else z.
Lemma clamp_step k z : 0 <= k <= 100 ->
  (if z =? k then sub64 z 1 else Done z) = Done (clamp k z).
Proof.
  intro H. unfold clamp, sub64. destruct (Z.eqb_spec z k) as [->|]; auto.
  rewrite i64_ok by (unfold I64_MIN, I64_MAX; lia). auto.
Qed.

(** The year and the day of the year (both counted from March), from the days since 1 March of a
    year divisible by 400. *)
Lemma year_split days : exists qc c q ry r,
  days = 146097 * qc + 36524 * c + 1461 * q + 365 * ry + r /\
  qc = days / 146097 /\ 
  c = clamp 4 (Z.quot (days mod 146097) 36524) /\
  q = clamp 25 (Z.quot (days mod 146097 - c * 36524) 1461) /\
  ry = clamp 4 (Z.quot (days mod 146097 - c * 36524 - q * 1461) 365) /\
  r = days mod 146097 - c * 36524 - q * 1461 - ry * 365 /\
  0 <= c <= 3 /\ 0 <= q <= 24 /\ 0 <= ry <= 3 /\ 0 <= r <= 365 /\
  (r = 365 -> ry = 3 /\ (q = 24 -> c = 3)).
Proof.
  pose proof (Z.div_mod days 146097). pose proof (Z.mod_pos_bound days 146097).
  set (qc := days / 146097) in *. set (m := days mod 146097) in *. clearbody qc m.
  set (c := clamp 4 (Z.quot m 36524)).
  assert (Hc : 0 <= c <= 3 /\ 0 <= m - c * 36524 <= 36524 /\ (c <= 2 -> m - c * 36524 <= 36523)).
  { unfold c, clamp. destruct (Z.eqb_spec (Z.quot m 36524) 4); lia. }
  destruct Hc as (Hc & Hm1 & Hm1'). set (m1 := m - c * 36524) in *.
  set (q := clamp 25 (Z.quot m1 1461)).
  assert (Hq : 0 <= q <= 24 /\ 0 <= m1 - q * 1461 <= 1460 /\ (q = 24 -> c <= 2 -> m1 - q * 1461 <= 1459)).
  { unfold q, clamp. destruct (Z.eqb_spec (Z.quot m1 1461) 25); lia. }
  destruct Hq as (Hq & Hm2 & Hm2'). set (m2 := m1 - q * 1461) in *.
  set (ry := clamp 4 (Z.quot m2 365)).
  assert (Hr : 0 <= ry <= 3 /\ 0 <= m2 - ry * 365 <= 365 /\ (m2 - ry * 365 = 365 -> m2 = 1460)).
  { unfold ry, clamp. destruct (Z.eqb_spec (Z.quot m2 365) 4); lia. }
  destruct Hr as (Hr & Hm3 & Hm3').
  exists qc, c, q, ry, (m2 - ry * 365). do 10 (split; [solve [auto | lia]|]).
  intro E. specialize (Hm3' E). split; [lia|]. intro E24. lia.
Qed.

(** The first of March of year [y], and the first of January after it. *)
Lemma march_year qc c q ry y : 0 <= c <= 3 -> 0 <= q <= 24 -> 0 <= ry <= 3 ->
  y = 2000 + ry + 4 * q + 100 * c + 400 * qc ->
  before_year y + 59 + (if leap y then 1 else 0) = 11017 + 146097 * qc + 36524 * c + 1461 * q + 365 * ry /\
  before_year (y + 1) = 11017 + 146097 * qc + 36524 * c + 1461 * q + 365 * ry + 306.
Proof.
  intros Hc Hq Hr ->.
  assert (E : before_year (2000 + ry + 4 * q + 100 * c + 400 * qc + 1) =
              11017 + 146097 * qc + 36524 * c + 1461 * q + 365 * ry + 306).
  { unfold before_year. replace (2000 + ry + 4 * q + 100 * c + 400 * qc + 1 - 1) with (2000 + ry + 4 * q + 100 * c + 400 * qc) by lia.
    assert ((2000 + ry + 4 * q + 100 * c + 400 * qc) / 4 = 500 + q + 25 * c + 100 * qc) as -> by lia.
    assert ((2000 + ry + 4 * q + 100 * c + 400 * qc) / 100 = 20 + c + 4 * qc) as -> by lia.
    assert ((2000 + ry + 4 * q + 100 * c + 400 * qc) / 400 = 5 + qc) as -> by lia. lia. }
  split; auto. rewrite before_year_step in E. lia.
Qed.
Lemma leap_next qc c q y : 0 <= c <= 3 -> 0 <= q <= 24 ->
  y = 2000 + 3 + 4 * q + 100 * c + 400 * qc + 1 -> (q = 24 -> c = 3) -> leap y = true.
Proof. intros Hc Hq -> H. apply leap_true. lia. Qed.

Lemma time_spec s : I64_MIN + LEAPOCH <= s <= I64_MAX -> exists t, time_of_stamp s = Done t /\
  calendar (s / 86400) (Date (t_year t) (t_month t + 1) (t_day t) (t_week t)) /\
  s mod 86400 = 3600 * t_hour t + 60 * t_min t + t_sec t /\
  0 <= t_hour t <= 23 /\ 0 <= t_min t <= 59 /\ 0 <= t_sec t <= 59.
Proof.
  intro H. unfold time_of_stamp. change LEAPOCH with 951868800 in *. change DAYS_PER_400Y with 146097.
  change DAYS_PER_100Y with 36524. change DAYS_PER_4Y with 1461.
  unfold sub64 at 1. unfold I64_MIN, I64_MAX in H. rewrite i64_ok by (unfold I64_MIN, I64_MAX; lia). cbn [obind].
  rewrite floor_pair by (unfold I64_MIN, I64_MAX; lia). cbn [obind].
  set (days := (s - 951868800) / 86400). set (rs := (s - 951868800) mod 86400).
  assert (Ed : s / 86400 = days + 11017) by (unfold days; lia).
  assert (Er : s mod 86400 = rs) by (unfold rs; lia).
  assert (Hd : -106751991179000 <= days <= 106751991179000) by (unfold days; lia).
  assert (Hrs : 0 <= rs < 86400) by (unfold rs; lia). clearbody days rs.
  pose proof (week_step days) as W. unfold I64_MIN, I64_MAX in W. specialize (W ltac:(lia)).
  destruct (add64 days 3) as [d3|]; [|discriminate]. cbn [obind] in W |- *. cbv zeta in W. rewrite W. cbn [obind].
  rewrite floor_pair by (unfold I64_MIN, I64_MAX; lia). cbn [obind].
  destruct (year_split days) as (qc & c & q & ry & r & Edays & Eqc & Ec & Eq & Ery & Err & Hc & Hq & Hry & Hr & Hlast).
  assert (Hqc : -800000000 <= qc <= 800000000) by lia.
  rewrite clamp_step by lia. rewrite <- Ec, <- Eqc. cbn [obind]. unfold mul64. ok. unfold sub64. ok.
  fold (sub64 (Z.quot (days mod 146097 - c * 36524) 1461) 1).
  rewrite clamp_step by lia. rewrite <- Eq. cbn [obind]. ok. ok.
  fold (sub64 (Z.quot (days mod 146097 - c * 36524 - q * 1461) 365) 1).
  rewrite clamp_step by lia. rewrite <- Ery. cbn [obind]. ok. ok. rewrite <- Err.
  clear Eqc Ec Eq Ery Err W.
  ok. unfold add64. ok. ok. ok. ok. ok.
  destruct (month_loop_spec r Hr) as (m & r' & -> & Hm & Hr' & Hlow & Hhigh & H29). cbn [obind].
  set (y := 2000 + ry + 4 * q + 100 * c + 400 * qc).
  destruct (march_year qc c q ry y Hc Hq Hry eq_refl) as [M1 M2].
  assert (T : forall t, t_week t = (days + 3) mod 7 ->
    t_day t = r' + 1 ->
    (m <= 9 /\ t_year t = y /\ t_month t = m + 2 \/ 10 <= m /\ t_year t = y + 1 /\ t_month t = m - 10) ->
    calendar (s / 86400) (Date (t_year t) (t_month t + 1) (t_day t) (t_week t))).
  { intros t Tw Td Ty. set (d := Date (t_year t) (t_month t + 1) (t_day t) (t_week t)).
    assert (N : day_number d = days + 11017 /\ 1 <= d_month d <= 12 /\ 1 <= d_day d <= month_len (d_year d) (d_month d)).
    { unfold d, day_number. cbn [d_year d_month d_day d_week]. rewrite Td.
      destruct Ty as [(L & -> & ->)|(L & -> & ->)].
      - specialize (Hlow L y). replace (m + 2 + 1) with (m + 3) by lia. lia.
      - specialize (Hhigh L (y + 1)). replace (m - 10 + 1) with (m - 9) by lia.
        destruct Hhigh as [Hh1 Hh2]. split; [lia|]. split; [lia|].
        assert (r' < month_len (y + 1) (m - 9)); [|lia].
        destruct (leap (y + 1)) eqn:L1; [lia|]. destruct (Z.eqb_spec m 11) as [->|]; [|lia].
        change (11 - 9) with 2 in *. unfold month_len in *. rewrite L1 in *. cbn [Z.eqb Pos.eqb] in *.
        destruct (Z.eq_dec r' 28) as [E28|]; [|lia]. exfalso.
        specialize (H29 eq_refl E28). specialize (Hlast H29). destruct Hlast as [E3 Hl].
        assert (X : leap (y + 1) = true) by (apply (leap_next qc c q); [lia|lia|unfold y; lia|auto]). congruence. }
    destruct N as (N1 & N2 & N3). rewrite Ed, <- N1. apply number_calendar. split.
    - split; auto. split; auto. unfold d. cbn. lia.
    - rewrite N1. unfold d. cbn [d_week]. rewrite Tw. lia. }
  clear H29 Hlast M1 M2 Hlow Hhigh.
  ok. ok.
  destruct (Z.leb_spec 12 (m + 2)) as [L|L].
  - ok. ok. ok. ok. eexists. split; [reflexivity|]. split; [apply T; cbn [t_week t_day t_year t_month]; auto|].
    { right. unfold y. lia. }
    cbn [t_hour t_min t_sec]. lia.
  - cbn [obind]. ok. ok. eexists. split; [reflexivity|]. split; [apply T; cbn [t_week t_day t_year t_month]; auto|].
    { left. unfold y. lia. }
    cbn [t_hour t_min t_sec]. lia.
Qed.
Lemma time_panics s : I64_MIN <= s < I64_MIN + LEAPOCH -> time_of_stamp s = Panic.
Proof.
  intro H. unfold time_of_stamp, sub64 at 1. rewrite i64_bad by lia. reflexivity.
Qed.

(** ** Formatting *)
Definition span (n : nat) : list Z := map Z.of_nat (seq 0 n).
Lemma in_span n z : 0 <= z < Z.of_nat n -> In z (span n).
Proof.
  intro H. unfold span. apply in_map_iff. exists (Z.to_nat z). split; [lia|]. apply in_seq. lia.
Qed.
Lemma pad_two z : 0 <= z <= 99 -> pad_zero z = two z.
Proof.
  intro H. assert (A : forallb (fun z => seqb (pad_zero z) (two z)) (span 100) = true) by (vm_compute; reflexivity).
  rewrite forallb_forall in A. apply seqb_eq. apply A. apply in_span. lia.
Qed.
Lemma show_four z : 1000 <= z <= 9999 -> show_Z z = four z.
Proof.
  intro H. assert (A : forallb (fun z => seqb (show_Z (z + 1000)) (four (z + 1000))) (span (N.to_nat 9000)) = true) by (vm_compute; reflexivity).
  rewrite forallb_forall in A. apply seqb_eq. replace z with (z - 1000 + 1000) by lia. apply A. apply in_span. lia.
Qed.
Definition fields_ok (t : time_t) : Prop :=
  1000 <= t_year t <= 9999 /\ 0 <= t_month t <= 11 /\ 1 <= t_day t <= 31 /\ 0 <= t_week t <= 6 /\
  0 <= t_hour t <= 23 /\ 0 <= t_min t <= 59 /\ 0 <= t_sec t <= 59.
Lemma format_spec t : fields_ok t ->
  exists wd mn, nth_error day_names (Z.to_nat (t_week t)) = Some wd /\
    nth_error MONTHS (Z.to_nat (t_month t)) = Some mn /\
    time_format t = wd ++ B ", " ++ two (t_day t) ++ B " " ++ mn ++ B " " ++ four (t_year t) ++ B " " ++
        two (t_hour t) ++ B ":" ++ two (t_min t) ++ B ":" ++ two (t_sec t) ++ B " GMT".
Proof.
  intros (Hy & Hm & Hd & Hw & Hh & Hi & Hs). unfold time_format, month_day, week_day.
  destruct (Z.ltb_spec (t_month t) 0); [lia|]. destruct (Z.ltb_spec (t_week t) 0); [lia|].
  destruct (nth_error MONTHS (Z.to_nat (t_month t))) as [mn|] eqn:Em.
  2:{ exfalso. apply nth_error_None in Em. cbn in Em. lia. }
  change WEEKS with day_names.
  destruct (nth_error day_names (Z.to_nat (t_week t))) as [wd|] eqn:Ew.
  2:{ exfalso. apply nth_error_None in Ew. cbn in Ew. lia. }
  exists wd, mn. split; auto. split; auto.
  rewrite !pad_two, show_four by lia. rewrite <- !app_assoc. reflexivity.
Qed.
Lemma month_name_ok i : (i < 12)%nat -> i <> 8%nat -> nth_error MONTHS i = nth_error month_names i.
Proof. intros H N. do 12 (destruct i as [|i]; [reflexivity || congruence|]). lia. Qed.
Lemma names_len : (forall i wd, nth_error day_names i = Some wd -> length wd = 3%nat) /\
  (forall i mn, nth_error month_names i = Some mn -> length mn = 3%nat).
Proof.
  split; intros i x H.
  - do 7 (destruct i as [|i]; [injection H as <-; reflexivity|]). destruct i; discriminate.
  - do 12 (destruct i as [|i]; [injection H as <-; reflexivity|]). destruct i; discriminate.
Qed.
Lemma imf_length d h m s x : imf_fixdate d h m s x -> length x = 29%nat.
Proof.
  intros (wd & mn & Hw & Hm & ->). apply names_len in Hw, Hm. rewrite !app_length, Hw, Hm. reflexivity.
Qed.
Lemma time_fields s t : 0 <= s < 253402300800 -> time_of_stamp s = Done t -> fields_ok t.
Proof.
  intros H E. destruct (time_spec s) as (t' & E' & C & _ & Hh & Hi & Hs).
  { unfold I64_MIN, I64_MAX, LEAPOCH. lia. }
  rewrite E in E'. injection E' as <-.
  apply calendar_number in C as [[V _] N]. destruct V as (Vm & Vd & Vw). cbn [d_year d_month d_day d_week] in *.
  pose proof (month_len_pos (t_year t) (t_month t + 1)).
  assert (Y : 1000 <= t_year t <= 9999).
  { assert (0 <= s / 86400 < 2932897) by lia.
    unfold day_number in N. cbn [d_year d_month d_day d_week] in N.
    assert (before_month (t_year t) (t_month t + 1) <= 335 /\ 0 <= before_month (t_year t) (t_month t + 1)).
    { unfold before_month. destruct (leap _); repeat destruct (_ =? _); lia. }
    unfold before_year in N. set (b := before_month _ _) in *. clearbody b. clear - N H H0 H1 H2 Vd.
    generalize dependent (t_year t). intros y. intros. lia. }
  unfold fields_ok. lia.
Qed.
Lemma format_imf s t : 0 <= s < 253402300800 -> time_of_stamp s = Done t -> t_month t <> 8 ->
  imf_fixdate (Date (t_year t) (t_month t + 1) (t_day t) (t_week t)) (t_hour t) (t_min t) (t_sec t) (time_format t) /\
  length (time_format t) = 29%nat.
Proof.
  intros H E N. apply time_fields in E as F; auto.
  destruct (format_spec t F) as (wd & mn & Hw & Hm & Ef).
  assert (I : imf_fixdate (Date (t_year t) (t_month t + 1) (t_day t) (t_week t)) (t_hour t) (t_min t) (t_sec t) (time_format t)).
  { exists wd, mn. cbn [d_year d_month d_day d_week]. split; auto. split; auto.
    rewrite <- Hm. replace (t_month t + 1 - 1) with (t_month t) by lia. symmetry. destruct F as (_ & Fm & _).
    apply month_name_ok; lia. }
  split; auto. eapply imf_length; eauto.
Qed.
Lemma format_september s t : 0 <= s < 253402300800 -> time_of_stamp s = Done t -> t_month t = 8 ->
  length (time_format t) = 30%nat /\ forall d h m x, ~ imf_fixdate d h m x (time_format t).
Proof.
  intros H E N. apply time_fields in E as F; auto.
  destruct (format_spec t F) as (wd & mn & Hw & Hm & Ef).
  assert (L : length (time_format t) = 30%nat).
  { rewrite N in Hm. injection Hm as <-. apply names_len in Hw. rewrite Ef, !app_length, Hw. reflexivity. }
  split; auto. intros d h m x I. apply imf_length in I. lia.
Qed.
Lemma format_sept s t : 0 <= s < 253402300800 -> time_of_stamp s = Done t -> t_month t = 8 ->
  exists a b, time_format t = a ++ B "Sept" ++ b /\ length a = 8%nat /\
  imf_fixdate (Date (t_year t) (t_month t + 1) (t_day t) (t_week t)) (t_hour t) (t_min t) (t_sec t) (a ++ B "Sep" ++ b).
Proof.
  intros H E N. apply time_fields in E as F; auto.
  destruct (format_spec t F) as (wd & mn & Hw & Hm & Ef). rewrite N in Hm. injection Hm as <-.
  exists (wd ++ B ", " ++ two (t_day t) ++ B " "), (B " " ++ four (t_year t) ++ B " " ++
        two (t_hour t) ++ B ":" ++ two (t_min t) ++ B ":" ++ two (t_sec t) ++ B " GMT").
  split; [rewrite Ef, <- !app_assoc; reflexivity|]. split.
  - apply names_len in Hw. rewrite !app_length, Hw. reflexivity.
  - exists wd, (B "Sep"). cbn [d_year d_month d_day d_week]. split; auto. split; [rewrite N; reflexivity|]. rewrite <- !app_assoc. reflexivity.
Qed.
Lemma now_spec n : (n <= Z.to_N I64_MAX)%N -> exists t, time_of_stamp (Z.of_N n) = Done t /\ time_now (Some n) = Done (Some t).
Proof.
  intro H. destruct (time_spec (Z.of_N n)) as (t & E & _).
  { unfold I64_MIN, I64_MAX, LEAPOCH in *. lia. }
  exists t. split; auto. unfold time_now. destruct (Z.leb_spec (Z.of_N n) I64_MAX); [rewrite E; auto|].
  unfold I64_MAX in *. lia.
Qed.
Lemma no_panic s : 0 <= s <= I64_MAX -> exists t, time_of_stamp s = Done t.
Proof.
  intro H. destruct (time_spec s) as (t & E & _); eauto. unfold I64_MIN, I64_MAX, LEAPOCH in *. lia.
Qed.
