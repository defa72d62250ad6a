(** Specification of dates: the proleptic Gregorian calendar, counted day by day. *)
From Verif.Model Require Import RustStd.
Local Open Scope Z_scope.

Definition leap (y : Z) : bool :=
  (y mod 4 =? 0) && (negb (y mod 100 =? 0) || (y mod 400 =? 0)).
(** Length of month [m] (1 = January). *)
Definition month_len (y m : Z) : Z :=
  if m =? 2 then (if leap y then 29 else 28)
  else if (m =? 4) || (m =? 6) || (m =? 9) || (m =? 11) then 30 else 31.

(** Year, month 1-12, day 1-31, weekday 0-6 (0 = Sunday). *)
Record date := Date { d_year : Z; d_month : Z; d_day : Z; d_week : Z }.
Definition valid_date (d : date) : Prop :=
  1 <= d_month d <= 12 /\ 1 <= d_day d <= month_len (d_year d) (d_month d) /\ 0 <= d_week d <= 6.
(** The day after. *)
Definition next_day (d : date) : date :=
  let w := if d_week d =? 6 then 0 else d_week d + 1 in
  if d_day d <? month_len (d_year d) (d_month d) then Date (d_year d) (d_month d) (d_day d + 1) w
  else if d_month d <? 12 then Date (d_year d) (d_month d + 1) 1 w
  else Date (d_year d + 1) 1 1 w.

(** [calendar n d]: [d] is the [n]th day after Thursday, 1 January 1970. *)
Inductive calendar : Z -> date -> Prop :=
| cal_epoch : calendar 0 (Date 1970 1 1 4)
| cal_next : forall n d, calendar n d -> calendar (n + 1) (next_day d)
| cal_prev : forall n d, valid_date d -> calendar (n + 1) (next_day d) -> calendar n d.

(** The names used in HTTP dates (RFC 7231 section 7.1.1.1). *)
Definition day_names : list str := [B "Sun"; B "Mon"; B "Tue"; B "Wed"; B "Thu"; B "Fri"; B "Sat"].
Definition month_names : list str :=
  [B "Jan"; B "Feb"; B "Mar"; B "Apr"; B "May"; B "Jun"; B "Jul"; B "Aug"; B "Sep"; B "Oct";
   B "Nov"; B "Dec"].
(** The ASCII digit for [z] (0-9). *)
Definition digit (z : Z) : byte := byte_of_N (Z.to_N (48 + z)).
Definition two (z : Z) : str := [digit (z / 10); digit (z mod 10)].
Definition four (z : Z) : str := two (z / 100) ++ two (z mod 100).
(** IMF-fixdate: "Www, DD Mon YYYY HH:MM:SS GMT". *)
Definition imf_fixdate (d : date) (hour min sec : Z) (s : str) : Prop :=
  exists wd mn, nth_error day_names (Z.to_nat (d_week d)) = Some wd /\
    nth_error month_names (Z.to_nat (d_month d - 1)) = Some mn /\
    s = wd ++ B ", " ++ two (d_day d) ++ B " " ++ mn ++ B " " ++ four (d_year d) ++ B " " ++
        two hour ++ B ":" ++ two min ++ B ":" ++ two sec ++ B " GMT".
