(** C48-C50: dates.  [253402300800] is the first second of the year 10000. *)
From Verif.Model Require Import RustStd Time.
From Verif.Spec Require Import TimeSpec.
From Verif.Proofs Require Import TimeProofs.
Local Open Scope Z_scope.

(** C48: for every i64 stamp from which the first of March 2000 (951868800) can be subtracted. *)
Theorem C48_date_correct :
  forall s, - 2 ^ 63 + 951868800 <= s <= 2 ^ 63 - 1 -> exists t, time_of_stamp s = Done t /\
  calendar (s / 86400) (Date (t_year t) (t_month t + 1) (t_day t) (t_week t)) /\
  s mod 86400 = 3600 * t_hour t + 60 * t_min t + t_sec t /\
  0 <= t_hour t <= 23 /\ 0 <= t_min t <= 59 /\ 0 <= t_sec t <= 59.
Proof. exact time_spec. Qed.
Print Assumptions C48_date_correct.
(** The calendar of the specification: every day number has exactly one date, a valid one, and
    no date two numbers. *)
Theorem C48_calendar_unique : forall n d d', calendar n d -> calendar n d' -> d = d'.
Proof. exact calendar_fun. Qed.
Print Assumptions C48_calendar_unique.
Theorem C48_calendar_injective : forall n n' d, calendar n d -> calendar n' d -> n = n'.
Proof. exact calendar_inj. Qed.
Print Assumptions C48_calendar_injective.
Theorem C48_calendar_valid : forall n d, calendar n d -> valid_date d.
Proof. exact calendar_valid. Qed.
Print Assumptions C48_calendar_valid.
Example C48_example :
  time_of_stamp 951782400 = Done (Time 0 0 0 2 2000 1 29) /\
  time_of_stamp (-2203891201) = Done (Time 59 59 23 3 1900 1 28) /\
  calendar 2 (Date 1970 1 3 6).
Proof.
  split; [vm_compute; reflexivity|]. split; [vm_compute; reflexivity|].
  apply (cal_next 1 (Date 1970 1 2 5)). apply (cal_next 0 (Date 1970 1 1 4)). constructor.
Qed.

(** C49: right in eleven months, wrong in every September. *)
Theorem C49_format_partial :
  forall s t, 0 <= s < 253402300800 -> time_of_stamp s = Done t -> t_month t <> 8 ->
  imf_fixdate (Date (t_year t) (t_month t + 1) (t_day t) (t_week t)) (t_hour t) (t_min t) (t_sec t) (time_format t) /\
  length (time_format t) = 29%nat.
Proof. exact format_imf. Qed.
Print Assumptions C49_format_partial.
Theorem C49_september_refuted :
  forall s t, 0 <= s < 253402300800 -> time_of_stamp s = Done t -> t_month t = 8 ->
  length (time_format t) = 30%nat /\ forall d h m x, ~ imf_fixdate d h m x (time_format t).
Proof. exact format_september. Qed.
Print Assumptions C49_september_refuted.
(** In September it is the HTTP date with one letter too many, the t after Sep. *)
Theorem C49_september_text_partial :
  forall s t, 0 <= s < 253402300800 -> time_of_stamp s = Done t -> t_month t = 8 ->
  exists a b, time_format t = a ++ B "Sept" ++ b /\ length a = 8%nat /\
  imf_fixdate (Date (t_year t) (t_month t + 1) (t_day t) (t_week t)) (t_hour t) (t_min t) (t_sec t) (a ++ B "Sep" ++ b).
Proof. exact format_sept. Qed.
Print Assumptions C49_september_text_partial.
Example C49_example :
  omap time_format (time_of_stamp 6043440870) = Done (B "Sun, 05 Jul 2161 05:34:30 GMT") /\
  omap time_format (time_of_stamp 253402300799) = Done (B "Fri, 31 Dec 9999 23:59:59 GMT") /\
  omap time_format (time_of_stamp 1600000000) = Done (B "Sun, 13 Sept 2020 12:26:40 GMT").
Proof. repeat split; vm_compute; reflexivity. Qed.

(** C50: no panic from the epoch to i64::MAX, whatever the clock says in that range. *)
Theorem C50_no_overflow : forall s, 0 <= s <= 2 ^ 63 - 1 -> exists t, time_of_stamp s = Done t.
Proof. exact no_panic. Qed.
Print Assumptions C50_no_overflow.
Theorem C50_clock :
  forall n, (n <= Z.to_N (2 ^ 63 - 1))%N ->
  exists t, time_of_stamp (Z.of_N n) = Done t /\ time_now (Some n) = Done (Some t).
Proof. exact now_spec. Qed.
Print Assumptions C50_clock.
(** The bound of C48 is exact: below it the first subtraction overflows. *)
Theorem C50_below : forall s, - 2 ^ 63 <= s < - 2 ^ 63 + 951868800 -> time_of_stamp s = Panic.
Proof. exact time_panics. Qed.
Print Assumptions C50_below.
Example C50_example :
  time_of_stamp (2 ^ 63 - 1) = Done (Time 30 7 15 0 292277026596 11 4) /\ time_of_stamp (- 2 ^ 63) = Panic.
Proof. split; vm_compute; reflexivity. Qed.
