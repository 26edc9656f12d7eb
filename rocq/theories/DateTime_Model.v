(** Model of typed_python/lib/datetime/date_time.py and date_time_util.py.

    Simplifications: seconds and timestamps are whole numbers of seconds ([float] in
    the code) and zone offsets are whole numbers of seconds ([offset_hours * 3600] in
    the code), so that no rounding occurs; Python integers are unbounded. *)
From Verif Require Import Base Chrono_Model.
Open Scope Z_scope.
Open Scope result_scope.

(** class Date, date_time.py:109-117. *)
Record date := Date { year : Z; month : Z; day : Z }.

(** [Date.__init__], date_time.py:119-126. *)
Definition mk_date (y m d : Z) : result date :=
  if is_valid_date y m d then Ok (Date y m d) else Err NonexistentDate.

(** [Date.__eq__], date_time.py:137-145. *)
Definition date_eqb (a b : date) : bool :=
  (year a =? year b) && (month a =? month b) && (day a =? day b).

(** [Date.__lt__], date_time.py:147-157. *)
Definition date_ltb (a b : date) : bool :=
  if negb (year a =? year b) then year a <? year b
  else if negb (month a =? month b) then month a <? month b
  else if negb (day a =? day b) then day a <? day b
  else false.

(** [Date.__gt__], date_time.py:159-169. *)
Definition date_gtb (a b : date) : bool :=
  if negb (year b =? year a) then year b <? year a
  else if negb (month b =? month a) then month b <? month a
  else if negb (day b =? day a) then day b <? day a
  else false.

(** [Date.__le__], [Date.__ge__], date_time.py:171-175. *)
Definition date_leb (a b : date) : bool := date_eqb a b || date_ltb a b.
Definition date_geb (a b : date) : bool := date_eqb a b || date_gtb a b.

(** [Date.daysSinceEpoch], date_time.py:191-193. *)
Definition daysSinceEpoch (a : date) : Z := days_from_civil (year a) (month a) (day a).

(** [Date.__sub__], date_time.py:177-189. *)
Definition date_sub (a b : date) : Z := daysSinceEpoch a - daysSinceEpoch b.

(** [Date.weekday], date_time.py:195-206. *)
Definition weekday (a : date) : Z := weekday_from_days (daysSinceEpoch a).

(** [Date.weekdayString], date_time.py:208-225.  The names are abbreviated to the
    number they stand for; only which branch is taken matters. *)
Definition weekdayString (a : date) : result Z :=
  let w := weekday a in
  if (w =? 0) || (w =? 1) || (w =? 2) || (w =? 3) || (w =? 4) || (w =? 5) || (w =? 6)
  then Ok w else Err GenericError.

(** [Date.dayOfYear], date_time.py:227-229. *)
Definition dayOfYear (a : date) : Z := day_of_year (year a) (month a) (day a).

(** [Date.nextMonthStart], date_time.py:231-241. *)
Definition nextMonthStart (a : date) (step : Z) : result date :=
  let months := (month a - 1) + step in
  let m := months mod 12 + 1 in
  mk_date (year a + months / 12) m 1.

(** [Date.fromDaysSinceEpoch], date_time.py:256-261. *)
Definition fromDaysSinceEpoch (n : Z) : result date :=
  let '(y, m, d) := civil_from_days n in mk_date y m d.

(** [Date.lastDayOfMonth], date_time.py:243-245. *)
Definition lastDayOfMonth (a : date) : result date :=
  nx <- nextMonthStart a 1 ;;
  fromDaysSinceEpoch (daysSinceEpoch nx - 1).

(** [Date.daysUntilEndOfMonth], date_time.py:247-248. *)
Definition daysUntilEndOfMonth (a : date) : result Z :=
  l <- lastDayOfMonth a ;; Ok (date_sub l a).

(** [Date.lastDayOfYear], [Date.daysUntilEndOfYear], date_time.py:250-254. *)
Definition lastDayOfYear (a : date) : result date := mk_date (year a) 12 31.
Definition daysUntilEndOfYear (a : date) : result Z :=
  l <- lastDayOfYear a ;; Ok (date_sub l a).

(** [Date.daysInMonth], date_time.py:263-265. *)
Definition daysInMonth (a : date) : result Z :=
  l <- lastDayOfMonth a ;;
  f <- mk_date (year a) (month a) 1 ;;
  Ok (date_sub l f + 1).

(** [Date.firstOfMonth], date_time.py:267-269. *)
Definition firstOfMonth (a : date) : result date := mk_date (year a) (month a) 1.

(** [Date.quarterOfYear], date_time.py:271-272. *)
Definition quarterOfYear (a : date) : Z := (month a - 1) / 3 + 1.

(** [Date.next], date_time.py:274-282. *)
Definition next (a : date) (step : Z) : result date :=
  fromDaysSinceEpoch (daysSinceEpoch a + step).

(** [Date.previous], date_time.py:284-297. *)
Definition previous (a : date) (step : Z) : result date :=
  if step <? 0 then Err GenericError else next a (- step).

(** [Date.nextWeekday], date_time.py:299-309. *)
Definition nextWeekday (a : date) (wd : Z) : result date :=
  next a ((wd - weekday a) mod 7).

(** [Date.lastWeekday], date_time.py:311-321. *)
Definition lastWeekday (a : date) (wd : Z) : result date :=
  previous a ((wd - weekday a) mod 7).

(** [Date.nextMonth], date_time.py:323-349. *)
Definition nextMonth (a : date) (stepSize dayOverride : Z) : result date :=
  nms <- nextMonthStart a stepSize ;;
  dim <- daysInMonth nms ;;
  mk_date (year nms) (month nms)
          (Z.min dim (if dayOverride =? 0 then day a else dayOverride)).

(** [Date.nextYear], date_time.py:351-366. *)
Definition nextYear (a : date) (stepSize dayOverride : Z) : result date :=
  let y := year a + stepSize in
  f <- mk_date y (month a) 1 ;;
  dim <- daysInMonth f ;;
  mk_date y (month a) (Z.min dim (if dayOverride =? 0 then day a else dayOverride)).

(** [last_weekday_of_month], date_time.py:1188-1204. *)
Definition last_weekday_of_month (y m wd : Z) : result date :=
  f <- mk_date y m 1 ;;
  monthEnd <- lastDayOfMonth f ;;
  fromDaysSinceEpoch (daysSinceEpoch monthEnd - (weekday monthEnd - wd) mod 7).

(** class TimeOfDay, date_time.py:29-61. *)
Record time := Time { hour : Z; minute : Z; second : Z }.
Definition mk_time (h m s : Z) : result time :=
  if is_valid_time h m s then Ok (Time h m s) else Err GenericError.
Definition secondsSinceMidnight (t : time) : Z := second t + minute t * 60 + hour t * 3600.

(** [TimeOfDay.__eq__], [__lt__], [__gt__], date_time.py:63-95. *)
Definition time_eqb (a b : time) : bool :=
  (hour a =? hour b) && (minute a =? minute b) && (second a =? second b).
Definition time_ltb (a b : time) : bool :=
  if negb (hour a =? hour b) then hour a <? hour b
  else if negb (minute a =? minute b) then minute a <? minute b
  else if negb (second a =? second b) then second a <? second b
  else false.
Definition time_gtb (a b : time) : bool :=
  if negb (hour b =? hour a) then hour b <? hour a
  else if negb (minute b =? minute a) then minute b <? minute a
  else if negb (second b =? second a) then second b <? second a
  else false.

(** class DateTime, date_time.py:374-388. *)
Record datetime := DateTime { dt_date : date; dt_time : time }.
Definition mk_datetime (y m d h mi s : Z) : result datetime :=
  dd <- mk_date y m d ;; tt <- mk_time h mi s ;; Ok (DateTime dd tt).

(** [DateTime.__eq__], [__lt__], [__gt__], date_time.py:390-394, 420-436. *)
Definition datetime_eqb (a b : datetime) : bool :=
  date_eqb (dt_date a) (dt_date b) && time_eqb (dt_time a) (dt_time b).
Definition datetime_ltb (a b : datetime) : bool :=
  if negb (date_eqb (dt_date a) (dt_date b)) then date_ltb (dt_date a) (dt_date b)
  else if negb (time_eqb (dt_time a) (dt_time b)) then time_ltb (dt_time a) (dt_time b)
  else false.
Definition datetime_gtb (a b : datetime) : bool :=
  if negb (date_eqb (dt_date b) (dt_date a)) then date_ltb (dt_date b) (dt_date a)
  else if negb (time_eqb (dt_time b) (dt_time a)) then time_ltb (dt_time b) (dt_time a)
  else false.

(** [Timezone._datetimeFromTimestampAndOffset], date_time.py:509-535. *)
Definition datetimeFromTimestampAndOffset (timestamp offset : Z) : result datetime :=
  let ts := timestamp + offset in
  let dayn := ts / 86400 in
  let ssm := ts mod 86400 in
  let '(y, m, d) := civil_from_days dayn in
  let h := ssm / 3600 in
  let secs := ssm mod 3600 in
  mk_datetime y m d h (secs / 60) (secs mod 60).

(** [Timezone._timestampFromDatetimeAndOffset], date_time.py:537-555. *)
Definition timestampFromDatetimeAndOffset (dt : datetime) (offset : Z) : Z :=
  daysSinceEpoch (dt_date dt) * 86400 - offset + secondsSinceMidnight (dt_time dt).

(** class FixedOffsetTimezone, date_time.py:822-831.  The fold flag is ignored. *)
Definition fixed_timestamp (offset : Z) (dt : datetime) (afterFold : bool) : result Z :=
  Ok (timestampFromDatetimeAndOffset dt offset).
Definition fixed_datetime (offset timestamp : Z) : result datetime :=
  datetimeFromTimestampAndOffset timestamp offset.

(** [DateTime.__sub__], [DateTime.__add__], date_time.py:450-454, 1020. *)
Definition datetime_sub (a : datetime) (seconds : Z) : result datetime :=
  ts <- fixed_timestamp 0 a false ;; fixed_datetime 0 (ts - seconds).
Definition datetime_add (a : datetime) (seconds : Z) : result datetime :=
  ts <- fixed_timestamp 0 a false ;; fixed_datetime 0 (ts + seconds).

(** The daylight-savings boundary rules, date_time.py:558-731.  A rule gives the start
    and end of daylight savings in a year. *)
Inductive dst_rule :=
| NthWeekdayRule (nStart wdStart mStart nEnd wdEnd mEnd : Z)      (* 569-629 *)
| LastWeekdayRule (wdStart mStart wdEnd mEnd : Z)                 (* 632-662 *)
| NthToLastWeekdayRule (nStart wdStart mStart wdEnd mEnd : Z)     (* 665-709 *)
| DateTimeRule (dtStart dtEnd : datetime).                        (* 712-731 *)

(** [DateTime(date=date, timeOfDay=TimeOfDay(2, 0, 0))] *)
Definition two_am (d : date) : datetime := DateTime d (Time 2 0 0).

Definition nth_dow_date (n dow m y : Z) : result date :=
  k <- get_nth_dow_of_month n dow m y ;; fromDaysSinceEpoch k.

Definition getDaylightSavingsStart (r : dst_rule) (y : Z) : result datetime :=
  match r with
  | NthWeekdayRule n wd m _ _ _ => d <- nth_dow_date n wd m y ;; Ok (two_am d)
  | LastWeekdayRule wd m _ _ => d <- last_weekday_of_month y m wd ;; Ok (two_am d)
  | NthToLastWeekdayRule n wd m _ _ => d <- nth_dow_date n wd m y ;; Ok (two_am d)
  | DateTimeRule s _ => if negb (y =? year (dt_date s)) then Err GenericError else Ok s
  end.

Definition getDaylightSavingsEnd (r : dst_rule) (y : Z) : result datetime :=
  match r with
  | NthWeekdayRule _ _ _ n wd m => d <- nth_dow_date n wd m y ;; Ok (two_am d)
  | LastWeekdayRule _ _ wd m => d <- last_weekday_of_month y m wd ;; Ok (two_am d)
  | NthToLastWeekdayRule _ _ _ wd m => d <- last_weekday_of_month y m wd ;; Ok (two_am d)
  | DateTimeRule _ e => if negb (y =? year (dt_date e)) then Err GenericError else Ok e
  end.

(** [DaylightSavingsTimezone.timestamp], date_time.py:766-792. *)
Definition dst_timestamp (dst_offset st_offset : Z) (r : dst_rule)
           (dt : datetime) (afterFold : bool) : result Z :=
  let y := year (dt_date dt) in
  ds_start <- getDaylightSavingsStart r y ;;
  ds_end <- getDaylightSavingsEnd r y ;;
  let is_daylight_savings :=
    negb ((datetime_gtb dt ds_end || datetime_ltb dt ds_start) || afterFold) in
  if afterFold && (negb (date_eqb (dt_date dt) (dt_date ds_end)) || datetime_gtb dt ds_end)
  then Err OneFoldOnlyError
  else if date_eqb (dt_date dt) (dt_date ds_start)
          && (hour (dt_time dt) =? hour (dt_time ds_start))
  then Err NonexistentDateTime
  else Ok (timestampFromDatetimeAndOffset dt
             (if is_daylight_savings then dst_offset else st_offset)).

(** [DaylightSavingsTimezone.datetime], date_time.py:794-819. *)
Definition dst_datetime (dst_offset st_offset : Z) (r : dst_rule) (timestamp : Z)
  : result datetime :=
  let '(y, _, _) := civil_from_days (timestamp / 86400) in
  startDT <- getDaylightSavingsStart r y ;;
  endDT <- getDaylightSavingsEnd r y ;;
  let ts_start := daysSinceEpoch (dt_date startDT) * 86400 - st_offset
                  + secondsSinceMidnight (dt_time startDT) in
  let ts_end := daysSinceEpoch (dt_date endDT) * 86400 - dst_offset
                + secondsSinceMidnight (dt_time endDT) in
  datetimeFromTimestampAndOffset timestamp
    (if (timestamp <? ts_start) || (ts_end <? timestamp) then st_offset else dst_offset).

(** class SwitchOffsetTimezone, date_time.py:834-890. *)
Definition switch_timestamp (before after : Z) (switch : datetime)
           (dt : datetime) (afterFold : bool) : result Z :=
  let is_after := datetime_gtb dt switch || afterFold in
  let jumps_forward := before <? after in
  if afterFold && (negb (date_eqb (dt_date dt) (dt_date switch))
                   || datetime_gtb dt switch || jumps_forward)
  then Err OneFoldOnlyError
  else if jumps_forward && date_eqb (dt_date dt) (dt_date switch)
          && (hour (dt_time dt) =? hour (dt_time switch))
  then Err NonexistentDateTime
  else Ok (timestampFromDatetimeAndOffset dt (if is_after then after else before)).

Definition switch_datetime (before after : Z) (switch : datetime) (timestamp : Z)
  : result datetime :=
  let ts_switch := daysSinceEpoch (dt_date switch) * 86400 - before
                   + secondsSinceMidnight (dt_time switch) in
  datetimeFromTimestampAndOffset timestamp
    (if timestamp <? ts_switch then before else after).

(** [daterange], date_time_util.py:5-83: the stepping function ... *)
Inductive step_kind := Days | Weeks | Months | Years.

Definition range_iterate (k : step_kind) (reversed : bool) (stepSize maxDay : Z)
           (d : date) : result date :=
  match k with
  | Days => if reversed then previous d stepSize else next d stepSize          (* 23-32 *)
  | Weeks => if reversed then previous d (stepSize * 7) else next d (stepSize * 7) (* 34-43 *)
  | Months => nextMonth d stepSize maxDay                                      (* 45-55 *)
  | Years => nextYear d stepSize maxDay                                        (* 57-67 *)
  end.

(** ... and the two loops, date_time_util.py:72-83, on fuel. *)
Fixpoint range_forward (fuel : nat) (it : date -> result date) (start stop : date)
  : result (list date) :=
  match fuel with
  | O => Err OutOfFuel
  | S f =>
      if date_ltb start stop then
        s' <- it start ;; rest <- range_forward f it s' stop ;; Ok (start :: rest)
      else Ok []
  end.

Fixpoint range_reversed (fuel : nat) (it : date -> result date) (start stop : date)
  : result (list date) :=
  match fuel with
  | O => Err OutOfFuel
  | S f =>
      if date_ltb start stop then
        e' <- it stop ;; rest <- range_reversed f it start e' ;; Ok (stop :: rest)
      else Ok []
  end.

Definition daterange (fuel : nat) (start stop : date) (k : step_kind) (stepSize : Z)
           (reversed : bool) : result (list date) :=
  match k, reversed with
  | Months, true | Years, true => Err NotImplementedError                     (* 49-50, 61-62 *)
  | _, _ =>
      let it := range_iterate k reversed stepSize (day start) in
      if reversed then range_reversed fuel it start stop
      else range_forward fuel it start stop
  end.
