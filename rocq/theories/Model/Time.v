(** Model of src/time.rs and the calendar constants of src/constants.rs.
    All arithmetic is on i64 with overflow = panic (checked build); [/] and [%] truncate. *)
From Verif.Model Require Export RustStd.
Local Open Scope Z_scope.

(** A checked i64 result. (src/time.rs:99-151) *)
Definition i64 (z : Z) : outcome Z :=
  if (I64_MIN <=? z) && (z <=? I64_MAX) then Done z else Panic.
(** Checked [+], src/time.rs:104, 107, 132, 138-149 *)
Definition add64 (a b : Z) : outcome Z := i64 (a + b).
(** Checked [-], src/time.rs:100, 105, 121, 126, 131, 135 *)
Definition sub64 (a b : Z) : outcome Z := i64 (a - b).
(** Checked [*], src/time.rs:121, 126, 131, 132 *)
Definition mul64 (a b : Z) : outcome Z := i64 (a * b).

(** src/constants.rs:11 *)
Definition WEEKS : list str :=
  [B "Sun"; B "Mon"; B "Tue"; B "Wed"; B "Thu"; B "Fri"; B "Sat"].
(** src/constants.rs:12-14 *)
Definition MONTHS : list str :=
  [B "Jan"; B "Feb"; B "Mar"; B "Apr"; B "May"; B "Jun"; B "Jul"; B "Aug"; B "Sept"; B "Oct";
   B "Nov"; B "Dec"].
(** src/constants.rs:17-21 *)
Definition LEAPOCH : Z := 946684800 + 86400 * (31 + 29).
(** src/constants.rs:18 *)
Definition DAYS_PER_400Y : Z := 365 * 400 + 97.
(** src/constants.rs:19 *)
Definition DAYS_PER_100Y : Z := 365 * 100 + 24.
(** src/constants.rs:20 *)
Definition DAYS_PER_4Y : Z := 365 * 4 + 1.
(** src/constants.rs:21 *)
Definition DAYS_IN_MONTH : list Z := [31; 30; 31; 30; 31; 31; 30; 31; 30; 31; 31; 29].

(** src/time.rs:7-15 [Time] *)
Record time_t := Time {
  t_min : Z; t_sec : Z; t_hour : Z; t_week : Z; t_year : Z; t_month : Z; t_day : Z
}.

(** Sequencing in src/time.rs:99-153, see [obind] *)
Notation "'let*' x := a 'in' b" := (obind a (fun x => b))
  (at level 200, x name, a at level 100, b at level 200).

(** src/time.rs:134-137 the month loop; the list argument is [DAYS_IN_MONTH[month..]], running
    off its end is the index panic. *)
Fixpoint month_loop (table : list Z) (month remdays : Z) : outcome (Z * Z) :=
  match table with
  | [] => Panic
  | d :: table' =>
      if d <=? remdays then
        let* remdays' := sub64 remdays d in
        month_loop table' (month + 1) remdays'
      else Done (month, remdays)
  end.

(** src/time.rs:99-153 [Time::time] (always [Some]).  Division by the non-zero constants cannot
    overflow, hence is not checked. *)
Definition time_of_stamp (stamp : Z) : outcome time_t :=
  let* secs := sub64 stamp LEAPOCH in
  let days := Z.quot secs 86400 in
  let remsecs := Z.rem secs 86400 in
  let* dr := (if remsecs <? 0 then
                let* remsecs' := add64 remsecs 86400 in
                let* days' := sub64 days 1 in
                Done (days', remsecs')
              else Done (days, remsecs)) in
  let '(days, remsecs) := dr in
  let* d3 := add64 days 3 in
  let wday := Z.rem d3 7 in
  let* wday := (if wday <? 0 then add64 wday 7 else Done wday) in
  let qc_cycles := Z.quot days DAYS_PER_400Y in
  let remdays := Z.rem days DAYS_PER_400Y in
  let* qr := (if remdays <? 0 then
                let* remdays' := add64 remdays DAYS_PER_400Y in
                let* qc' := sub64 qc_cycles 1 in
                Done (qc', remdays')
              else Done (qc_cycles, remdays)) in
  let '(qc_cycles, remdays) := qr in
  let c_cycles := Z.quot remdays DAYS_PER_100Y in
  let* c_cycles := (if c_cycles =? 4 then sub64 c_cycles 1 else Done c_cycles) in
  let* cm := mul64 c_cycles DAYS_PER_100Y in
  let* remdays := sub64 remdays cm in
  let q_cycles := Z.quot remdays DAYS_PER_4Y in
  let* q_cycles := (if q_cycles =? 25 then sub64 q_cycles 1 else Done q_cycles) in
  let* qm := mul64 q_cycles DAYS_PER_4Y in
  let* remdays := sub64 remdays qm in
  let remyears := Z.quot remdays 365 in
  let* remyears := (if remyears =? 4 then sub64 remyears 1 else Done remyears) in
  let* ym := mul64 remyears 365 in
  let* remdays := sub64 remdays ym in
  let* y4 := mul64 4 q_cycles in
  let* s1 := add64 remyears y4 in
  let* y100 := mul64 100 c_cycles in
  let* s2 := add64 s1 y100 in
  let* y400 := mul64 400 qc_cycles in
  let* years := add64 s2 y400 in
  let* mr := month_loop DAYS_IN_MONTH 0 remdays in
  let '(month, remdays) := mr in
  let* final_year := add64 years 100 in
  let* final_mon := add64 month 2 in
  let* fy := (if 12 <=? final_mon then
                let* fm := sub64 final_mon 12 in
                let* fy := add64 final_year 1 in
                Done (fm, fy)
              else Done (final_mon, final_year)) in
  let '(final_mon, final_year) := fy in
  let* day := add64 remdays 1 in
  let* year := add64 1900 final_year in
  Done (Time (Z.rem (Z.quot remsecs 60) 60) (Z.rem remsecs 60) (Z.quot remsecs 3600)
             wday year final_mon day).

(** src/time.rs:29-41 [Time::now].  [clock]: seconds since the epoch, [None] = the system clock is
    before the epoch.  Inner [option]: [now] returns [None] when the u64 does not fit an i64. *)
Definition time_now (clock : option N) : outcome (option time_t) :=
  match clock with
  | None => Panic
  | Some n => if Z.of_N n <=? I64_MAX
              then omap Some (time_of_stamp (Z.of_N n))
              else Done None
  end.

(** src/time.rs:21-26 [pad_zero] (the string has at least two bytes, so the slice is in bounds;
    only ASCII, so it is on a boundary). *)
Definition pad_zero (z : Z) : str :=
  let s := B "0" ++ show_Z z in
  skipn (length s - 2) s.

(** src/time.rs:72-84 [week_day], 85-97 [month_day]: the element at index [self.week], if the
    conversion to usize succeeds and is in range. *)
Definition week_day (t : time_t) : option str :=
  if t_week t <? 0 then None else nth_error WEEKS (Z.to_nat (t_week t)).
(** src/time.rs:85-97 [month] *)
Definition month_day (t : time_t) : option str :=
  if t_month t <? 0 then None else nth_error MONTHS (Z.to_nat (t_month t)).

(** src/time.rs:42-66 [Time::format] *)
Definition time_format (t : time_t) : str :=
  match month_day t with
  | Some md =>
      match week_day t with
      | Some wd =>
          let date := pad_zero (t_day t) ++ [SP] ++ md ++ [SP] ++ show_Z (t_year t) in
          let time := pad_zero (t_hour t) ++ B ":" ++ pad_zero (t_min t) ++ B ":"
                        ++ pad_zero (t_sec t) in
          wd ++ B "," ++ [SP] ++ date ++ [SP] ++ time ++ [SP] ++ B "GMT"
      | None => []
      end
  | None => []
  end.
