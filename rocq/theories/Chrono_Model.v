(** Model of typed_python/lib/datetime/chrono.py.

    Python's [//] and [%] on integers are [Z.div] and [Z.modulo] (all divisors here
    are positive literals).  Integers are unbounded: typed_python's [int] is 64 bits
    wide, so the model speaks about day numbers whose intermediate products stay
    below 2^63 (|days| < 10^13 or so); overflow is not modelled. *)
From Verif Require Import Base.
Open Scope Z_scope.

(** [Chrono.div], chrono.py:85-88. *)
Definition chrono_div (a b : Z) : Z :=
  if 0 <? a then a / b else - ((- a) / b).

(** [Chrono.is_leap_year], chrono.py:186-195. *)
Definition is_leap_year (year : Z) : bool :=
  ((year mod 4 =? 0) && negb (year mod 100 =? 0)) || (year mod 400 =? 0).

(** [Chrono.days_from_civil], chrono.py:23-57.  [year -= month <= 2] subtracts the
    boolean as 0/1. *)
Definition days_from_civil (year0 month day : Z) : Z :=
  let year := year0 - (if month <=? 2 then 1 else 0) in
  let era := chrono_div (if 0 <=? year then year else year - 399) 400 in
  let yoe := year - era * 400 in
  let doy := (153 * (if 2 <? month then month - 3 else month + 9) + 2) / 5 + day - 1 in
  let doe := yoe * 365 + yoe / 4 - yoe / 100 + doy in
  era * 146097 + doe - 719468.

(** [Chrono.day_of_year], chrono.py:59-83. *)
Definition day_of_year (year month day : Z) : Z :=
  let doy := (153 * (if 2 <? month then month - 3 else month + 9) + 2) / 5 + day - 1 + 60 in
  let doy := if 365 <? doy then doy mod 365 else doy in
  if (2 <? month) && is_leap_year year then doy + 1 else doy.

(** [Chrono.civil_from_days], chrono.py:90-124.  The named tuple (year, month, day)
    is a triple. *)
Definition civil_from_days (days_since_epoch0 : Z) : Z * Z * Z :=
  let days := days_since_epoch0 + 719468 in
  let era := chrono_div (if 0 <=? days then days else days - 146096) 146097 in
  let doe := days - era * 146097 in
  let yoe := (doe - doe / 1460 + doe / 36524 - doe / 146096) / 365 in
  let y := yoe + era * 400 in
  let doy := doe - (365 * yoe + yoe / 4 - yoe / 100) in
  let mp := (5 * doy + 2) / 153 in
  let d := doy - (153 * mp + 2) / 5 + 1 in
  let m := if mp <? 10 then mp + 3 else mp - 9 in
  (y + (if m <=? 2 then 1 else 0), m, d).

(** [Chrono.weekday_difference], chrono.py:126-138. *)
Definition weekday_difference (day1 day2 : Z) : Z :=
  let day1 := day1 - day2 in
  if (0 <=? day1) && (day1 <=? 6) then day1 else day1 + 7.

(** [Chrono.weekday_from_days], chrono.py:140-154. *)
Definition weekday_from_days (days : Z) : Z :=
  if -4 <=? days then (days + 4) mod 7 else (days + 5) mod 7 + 6.

(** [Chrono.get_nth_dow_of_month], chrono.py:156-184. *)
Definition get_nth_dow_of_month (n dow month year : Z) : result Z :=
  if (n <? 1) || (4 <? n) then Err ValueError
  else if (dow <? 0) || (6 <? dow) then Err ValueError
  else if (month <? 1) || (12 <? month) then Err ValueError
  else
    let weekday := weekday_from_days (days_from_civil year month 1) in
    Ok (days_from_civil year month (weekday_difference dow weekday + 1 + (n - 1) * 7)).

(** [Chrono.is_valid_time], chrono.py:197-208.  Seconds are whole numbers here; the
    code's seconds are doubles. *)
Definition is_valid_time (hour minute second : Z) : bool :=
  (0 <=? hour) && (hour <? 24) && (0 <=? minute) && (minute <? 60)
  && (0 <=? second) && (second <? 60).

(** [Chrono.is_valid_date], chrono.py:210-253. *)
Definition is_valid_date (year month day : Z) : bool :=
  let hasYear := -1 <? year in
  let hasMonth := -1 <? month in
  let hasDay := -1 <? day in
  if negb hasYear then false
  else if hasMonth && negb hasYear then false
  else if hasDay && negb hasMonth then false
  else if hasMonth && ((month <? 1) || (12 <? month)) then false
  else if hasDay then
    if day <? 1 then false
    else if (month =? 1) || (month =? 3) || (month =? 5) || (month =? 7)
            || (month =? 8) || (month =? 10) || (month =? 12) then day <? 32
    else if (month =? 4) || (month =? 6) || (month =? 9) || (month =? 11) then day <? 31
    else if month =? 2 then
      if ((year mod 4 =? 0) && negb (year mod 100 =? 0)) || (year mod 400 =? 0)
      then day <? 30 else day <? 29
    else true
  else true.
