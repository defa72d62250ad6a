(** Specification for C141: what the Date header tells about the clock. *)
From Verif.Model Require Import RustStd Time Status Response.
From Verif.Spec Require Import TimeSpec.
Local Open Scope Z_scope.

(** The calendar date [d] is before [d']. *)
Definition date_before (d d' : date) : Prop :=
  d_year d < d_year d' \/
  (d_year d = d_year d' /\ (d_month d < d_month d' \/ (d_month d = d_month d' /\ d_day d < d_day d'))).
(** The same for a date with a time of day. *)
Definition time_before (t t' : time_t) : Prop :=
  let day x := Date (t_year x) (t_month x + 1) (t_day x) (t_week x) in
  date_before (day t) (day t') \/
  (day t = day t' /\
   (t_hour t < t_hour t' \/
    (t_hour t = t_hour t' /\ (t_min t < t_min t' \/ (t_min t = t_min t' /\ t_sec t < t_sec t'))))).
(** The clock shows a time before the year 10000. *)
Definition four_digits (c : N) : Prop := (c < 253402300800)%N.
