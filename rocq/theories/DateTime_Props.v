(** Property theorems for the calendar, date and time zone code: C23-C26, C38-C40. *)
From Verif Require Import Base Chrono_Model Calendar_Spec Chrono_Proofs
  DateTime_Model DateTime_Spec DateTime_Proofs Timezone_Proofs.
Open Scope Z_scope.

(** C23: day numbers and real calendar dates are in bijection, day 0 is 1970-01-01 and
    the day after day [n] is the calendar's next day. *)
Theorem C23_civil_of_days : forall y m d,
  real_date y m d -> civil_from_days (days_from_civil y m d) = (y, m, d).
Proof. exact civil_of_days_id. Qed.
Print Assumptions C23_civil_of_days.

Theorem C23_days_of_civil : forall n,
  let '(y, m, d) := civil_from_days n in
  real_date y m d /\ days_from_civil y m d = n.
Proof. exact civil_correct. Qed.
Print Assumptions C23_days_of_civil.

Theorem C23_consecutive_days :
  civil_from_days 0 = (1970, 1, 1) /\
  forall n, civil_from_days (n + 1) = next_day (civil_from_days n).
Proof. exact (conj civil_epoch civil_step). Qed.
Print Assumptions C23_consecutive_days.

Theorem C23_leap_year : forall y, is_leap_year y = true <-> leap y.
Proof. exact (fun y => eq_ind_r (fun b => b = true <-> leap y) (leapb_leap y) (is_leap_year_leapb y)). Qed.
Print Assumptions C23_leap_year.

Theorem C23_day_of_year : forall y m d,
  real_date y m d ->
  day_of_year y m d = days_from_civil y m d - days_from_civil y 1 1 + 1.
Proof. exact day_of_year_correct. Qed.
Print Assumptions C23_day_of_year.

Example C23_example : real_date 2000 2 29 /\ ~ real_date 1900 2 29 /\ real_date (-400) 2 29.
Proof.
  split; [vm_compute; intuition discriminate|].
  split; [vm_compute; intuition|vm_compute; intuition discriminate].
Qed.

(** C24: weekdays.  Right from 1969-12-27 on; before that the value returned is out of
    range except on Saturdays (it is then 7 too large). *)
Theorem C24_weekday_partial : forall n,
  -5 <= n -> is_weekday_of (weekday_from_days n) n.
Proof. exact weekday_partial. Qed.
Print Assumptions C24_weekday_partial.

Theorem C24_weekday_exactly_when : forall n,
  is_weekday_of (weekday_from_days n) n <-> (-5 <= n \/ (n + 5) mod 7 = 0).
Proof. exact weekday_wrong_iff. Qed.
Print Assumptions C24_weekday_exactly_when.

Theorem C24_weekday_refuted : exists y m d,
  real_date y m d /\ ~ is_weekday_of (weekday (Date y m d)) (daysSinceEpoch (Date y m d))
  /\ weekday (Date y m d) = 12 /\ weekdayString (Date y m d) = Err GenericError.
Proof.
  exists 1969, 12, 26. split; [vm_compute; intuition discriminate|].
  split; [|split; reflexivity].
  intros [[_ H] _]. vm_compute in H. apply H. reflexivity.
Qed.
Print Assumptions C24_weekday_refuted.

Theorem C24_nth_weekday_partial : forall n dow m y,
  1 <= n <= 4 -> 0 <= dow <= 6 -> 1 <= m <= 12 -> -5 <= days_from_civil y m 1 ->
  exists r, get_nth_dow_of_month n dow m y = Ok r
    /\ is_weekday_of dow r
    /\ (let '(y', m', d') := civil_from_days r in
        y' = y /\ m' = m /\ 7 * (n - 1) + 1 <= d' <= 7 * n).
Proof. exact nth_dow_correct. Qed.
Print Assumptions C24_nth_weekday_partial.

(** The first Sunday of May 1968 is the 5th; the code answers 1968-04-28. *)
Theorem C24_nth_weekday_refuted : exists n dow m y r,
  1 <= n <= 4 /\ 0 <= dow <= 6 /\ 1 <= m <= 12 /\ 0 <= y /\
  get_nth_dow_of_month n dow m y = Ok r /\
  civil_from_days r = (1968, 4, 28) /\ m = 5.
Proof.
  exists 1, 0, 5, 1968. eexists. repeat split; try (vm_compute; discriminate).
Qed.
Print Assumptions C24_nth_weekday_refuted.

(** C25: navigation between dates. *)
Theorem C25_next : forall a k,
  -719528 <= daysSinceEpoch a + k ->
  exists b, next a k = Ok b /\ date_ok b /\ daysSinceEpoch b = daysSinceEpoch a + k.
Proof. exact next_ok. Qed.
Print Assumptions C25_next.

Theorem C25_previous : forall a k,
  0 <= k -> -719528 <= daysSinceEpoch a - k ->
  exists b, previous a k = Ok b /\ date_ok b /\ daysSinceEpoch b = daysSinceEpoch a - k.
Proof. exact previous_ok. Qed.
Print Assumptions C25_previous.

Theorem C25_before_year_zero_raises : forall n,
  n < -719528 -> fromDaysSinceEpoch n = Err NonexistentDate.
Proof. exact fromDays_err. Qed.
Print Assumptions C25_before_year_zero_raises.

Theorem C25_nextMonthStart : forall a step,
  date_ok a -> 0 <= 12 * year a + (month a - 1) + step ->
  exists b, nextMonthStart a step = Ok b /\ date_ok b /\ day b = 1
    /\ 12 * year b + (month b - 1) = 12 * year a + (month a - 1) + step.
Proof. exact nextMonthStart_ok. Qed.
Print Assumptions C25_nextMonthStart.

Theorem C25_lastDayOfMonth : forall a,
  date_ok a ->
  lastDayOfMonth a = Ok (Date (year a) (month a) (month_length (year a) (month a))).
Proof. exact lastDayOfMonth_ok. Qed.
Print Assumptions C25_lastDayOfMonth.

Theorem C25_daysInMonth : forall a,
  date_ok a -> daysInMonth a = Ok (month_length (year a) (month a)).
Proof. exact daysInMonth_ok. Qed.
Print Assumptions C25_daysInMonth.

Theorem C25_daysUntilEndOfMonth : forall a,
  date_ok a -> daysUntilEndOfMonth a = Ok (month_length (year a) (month a) - day a).
Proof. exact daysUntilEndOfMonth_ok. Qed.
Print Assumptions C25_daysUntilEndOfMonth.

Theorem C25_daysUntilEndOfYear : forall a,
  date_ok a -> exists n, daysUntilEndOfYear a = Ok n
   /\ n + dayOfYear a = (if leapb (year a) then 366 else 365).
Proof. exact daysUntilEndOfYear_ok. Qed.
Print Assumptions C25_daysUntilEndOfYear.

Theorem C25_nextMonth : forall a step override,
  date_ok a -> 0 <= override -> 0 <= 12 * year a + (month a - 1) + step ->
  exists b, nextMonth a step override = Ok b /\ date_ok b
    /\ 12 * year b + (month b - 1) = 12 * year a + (month a - 1) + step
    /\ day b = Z.min (month_length (year b) (month b))
                     (if override =? 0 then day a else override).
Proof. exact nextMonth_ok. Qed.
Print Assumptions C25_nextMonth.

Theorem C25_nextYear : forall a step override,
  date_ok a -> 0 <= override -> 0 <= year a + step ->
  exists b, nextYear a step override = Ok b /\ date_ok b
    /\ year b = year a + step /\ month b = month a
    /\ day b = Z.min (month_length (year b) (month b))
                     (if override =? 0 then day a else override).
Proof. exact nextYear_ok. Qed.
Print Assumptions C25_nextYear.

Theorem C25_nextWeekday : forall a wd,
  date_ok a -> 0 <= wd <= 6 ->
  exists b, nextWeekday a wd = Ok b /\ date_ok b
    /\ is_weekday_of wd (daysSinceEpoch b)
    /\ daysSinceEpoch a <= daysSinceEpoch b < daysSinceEpoch a + 7.
Proof. exact nextWeekday_ok. Qed.
Print Assumptions C25_nextWeekday.

Theorem C25_last_weekday_of_month : forall y m wd,
  0 <= y -> 1 <= m <= 12 -> 0 <= wd <= 6 ->
  exists b, last_weekday_of_month y m wd = Ok b /\ date_ok b
    /\ year b = y /\ month b = m
    /\ is_weekday_of wd (daysSinceEpoch b)
    /\ month_length y m - 7 < day b.
Proof. exact last_weekday_of_month_ok. Qed.
Print Assumptions C25_last_weekday_of_month.

Theorem C25_quarterOfYear : forall a,
  date_ok a -> 1 <= quarterOfYear a <= 4
    /\ 3 * (quarterOfYear a - 1) < month a <= 3 * quarterOfYear a.
Proof. exact quarter_ok. Qed.
Print Assumptions C25_quarterOfYear.

(** [lastWeekday] should mirror [nextWeekday].  It stays within the last seven days but
    lands on the requested weekday only if the date already is on that weekday. *)
Theorem C25_lastWeekday_partial : forall a wd,
  date_ok a -> 0 <= wd <= 6 -> -719522 <= daysSinceEpoch a ->
  exists b, lastWeekday a wd = Ok b /\ date_ok b
    /\ daysSinceEpoch a - 7 < daysSinceEpoch b <= daysSinceEpoch a
    /\ (is_weekday_of wd (daysSinceEpoch b) <-> is_weekday_of wd (daysSinceEpoch a)).
Proof. exact lastWeekday_actual. Qed.
Print Assumptions C25_lastWeekday_partial.

Theorem C25_lastWeekday_refuted : exists a wd b,
  date_ok a /\ 0 <= wd <= 6 /\ lastWeekday a wd = Ok b /\
  ~ is_weekday_of wd (daysSinceEpoch b).
Proof.
  (* Saturday 2023-01-14, asking for the last Monday, gives Thursday 2023-01-12 *)
  exists (Date 2023 1 14), 1, (Date 2023 1 12).
  split; [vm_compute; intuition discriminate|]. split; [lia|]. split; [reflexivity|].
  intros [_ [k Hk]]. change (daysSinceEpoch (Date 2023 1 12)) with 19369 in Hk. lia.
Qed.
Print Assumptions C25_lastWeekday_refuted.

Example C25_example :
  date_ok (Date 2024 1 31) /\ nextMonth (Date 2024 1 31) 1 0 = Ok (Date 2024 2 29)
  /\ nextWeekday (Date 2023 1 14) 2 = Ok (Date 2023 1 17)
  /\ last_weekday_of_month 1965 2 6 = Ok (Date 1965 2 27).
Proof. vm_compute. intuition discriminate. Qed.

(** C26: time zones.  [datetime_ok] is a real date with a valid time of day. *)
Theorem C26_fixed_offset : forall off ts,
  first_second <= ts + off ->
  exists dt, fixed_datetime off ts = Ok dt /\ datetime_ok dt
             /\ forall fold, fixed_timestamp off dt fold = Ok ts.
Proof. exact fixed_roundtrip. Qed.
Print Assumptions C26_fixed_offset.

Theorem C26_fixed_offset_back : forall off dt fold,
  datetime_ok dt ->
  exists ts, fixed_timestamp off dt fold = Ok ts /\ fixed_datetime off ts = Ok dt.
Proof. exact fixed_roundtrip_dt. Qed.
Print Assumptions C26_fixed_offset_back.

Theorem C26_dst_roundtrip : forall st r ts,
  -86400 < st -> st + 3600 < 86400 ->
  rule_wf r ->
  jan1 (rule_first_year r + 1) <= ts / 86400 ->
  exists dt fold,
    dst_datetime (st + 3600) st r ts = Ok dt /\ datetime_ok dt
    /\ dst_timestamp (st + 3600) st r dt fold = Ok ts.
Proof. exact dst_roundtrip_wf. Qed.
Print Assumptions C26_dst_roundtrip.

Theorem C26_dst_reading : forall dst st r ts y s e,
  rule_at r y s e ->
  jan1 y <= ts / 86400 < jan1 (y + 1) ->
  first_second <= ts + st -> first_second <= ts + dst ->
  exists dt, dst_datetime dst st r ts = Ok dt /\ datetime_ok dt
    /\ (wall (two_am s) <= ts + st /\ ts + dst <= wall (two_am e) -> wall dt = ts + dst)
    /\ (ts + st < wall (two_am s) \/ wall (two_am e) < ts + dst -> wall dt = ts + st).
Proof. exact dst_reading. Qed.
Print Assumptions C26_dst_reading.

Theorem C26_rule_dates : forall r y,
  rule_wf r -> rule_first_year r <= y ->
  exists s e, rule_at r y s e /\ rule_dates r y s e.
Proof. exact rule_dates_ok. Qed.
Print Assumptions C26_rule_dates.

Theorem C26_skipped_hour_rejected : forall dst st r dt fold s e,
  datetime_ok dt -> rule_at r (year (dt_date dt)) s e ->
  daysSinceEpoch s * 86400 + 7200 <= wall dt < daysSinceEpoch s * 86400 + 10800 ->
  exists err, dst_timestamp dst st r dt fold = Err err.
Proof. exact dst_skipped. Qed.
Print Assumptions C26_skipped_hour_rejected.

Theorem C26_switch_roundtrip : forall before after sw ts,
  datetime_ok sw -> first_second <= ts + before -> first_second <= ts + after ->
  (after = before + 3600 /\ wall sw mod 3600 = 0
   \/ after < before /\ before - after <= wall sw mod 86400) ->
  exists dt fold, switch_datetime before after sw ts = Ok dt /\ datetime_ok dt
    /\ switch_timestamp before after sw dt fold = Ok ts.
Proof. exact switch_roundtrip. Qed.
Print Assumptions C26_switch_roundtrip.

(** The current US rule (second Sunday of March to first Sunday of November). *)
Example C26_us_rule : rule_wf (NthWeekdayRule 2 0 3 1 0 11).
Proof. cbn. lia. Qed.
Example C26_us_rule_2023 :
  rule_at (NthWeekdayRule 2 0 3 1 0 11) 2023 (Date 2023 3 12) (Date 2023 11 5).
Proof. vm_compute. intuition discriminate. Qed.

(** The fold flag is accepted for wall clock times that do not repeat: 00:30 on the day
    daylight savings ends occurs once, yet asking for its second occurrence yields an
    instant at which the clock reads 01:30. *)
Theorem C26_fold_rejected_refuted : exists dt ts dt',
  datetime_ok dt /\
  dst_timestamp (-14400) (-18000) (NthWeekdayRule 2 0 3 1 0 11) dt true = Ok ts /\
  dst_datetime (-14400) (-18000) (NthWeekdayRule 2 0 3 1 0 11) ts = Ok dt' /\
  dt' <> dt /\ dt_time dt = Time 0 30 0 /\ dt_time dt' = Time 1 30 0.
Proof.
  exists (DateTime (Date 2023 11 5) (Time 0 30 0)). eexists. eexists.
  split; [vm_compute; intuition discriminate|].
  split; [vm_compute; reflexivity|]. split; [vm_compute; reflexivity|].
  split; [discriminate|]. split; reflexivity.
Qed.
Print Assumptions C26_fold_rejected_refuted.

(** C38: what the Date constructor accepts.  With positive month and day numbers it
    accepts exactly the real dates of non-negative years; negative month and day numbers
    slip through. *)
Theorem C38_date_constructor_partial : forall y m d,
  -1 < m -> -1 < d ->
  (is_ok (mk_date y m d) = true <-> 0 <= y /\ real_date y m d).
Proof.
  exact (fun y m d Hm Hd =>
    eq_ind_r (fun b => b = true <-> _) (is_valid_date_real y m d Hm Hd)
      (match is_valid_date y m d as b return is_ok (if b then Ok (Date y m d) else Err NonexistentDate) = b with
       | true => eq_refl | false => eq_refl end)).
Qed.
Print Assumptions C38_date_constructor_partial.

Theorem C38_date_constructor_refuted :
  mk_date 2020 (-1) (-5) = Ok (Date 2020 (-1) (-5)) /\ ~ real_date 2020 (-1) (-5).
Proof. split; [reflexivity|]. intros [H _]. lia. Qed.
Print Assumptions C38_date_constructor_refuted.

(** C39: the order on dates is chronological, [a - b] counts days, and the order on
    date-times is the order of the instants they denote in any fixed zone. *)
Theorem C39_date_order : forall a b,
  date_ok a -> date_ok b ->
  (date_ltb a b = true <-> daysSinceEpoch a < daysSinceEpoch b).
Proof. exact date_ltb_days. Qed.
Print Assumptions C39_date_order.

Theorem C39_date_order_lex : forall a b,
  date_ltb a b = true <-> date_lt (year a, month a, day a) (year b, month b, day b).
Proof. exact date_ltb_spec. Qed.
Print Assumptions C39_date_order_lex.

Theorem C39_datetime_order : forall a b,
  datetime_ok a -> datetime_ok b -> (datetime_ltb a b = true <-> wall a < wall b).
Proof. exact datetime_ltb_wall. Qed.
Print Assumptions C39_datetime_order.

Example C39_example : date_ok (Date 1999 12 31) /\ date_ok (Date 2000 1 1)
  /\ date_ltb (Date 1999 12 31) (Date 2000 1 1) = true
  /\ date_sub (Date 2000 1 1) (Date 1999 12 31) = 1.
Proof. vm_compute. intuition discriminate. Qed.

(** C40: date ranges.  [date_of n] is the date of day number [n]; [month_date t d] is
    day [d], clipped, of month number [t]; fuel bounds the number of loop turns and is
    large enough in each case. *)
Theorem C40_range_days : forall k w step start stop fuel,
  date_ok start -> date_ok stop -> 0 < step ->
  (k = Days /\ w = 1 \/ k = Weeks /\ w = 7) ->
  let n := (daysSinceEpoch stop - daysSinceEpoch start + step * w - 1) / (step * w) in
  (Z.to_nat n < fuel)%nat ->
  daterange fuel start stop k step false =
  Ok (map (fun i => date_of (daysSinceEpoch start + Z.of_nat i * (step * w)))
          (seq 0 (Z.to_nat n))).
Proof. exact daterange_days. Qed.
Print Assumptions C40_range_days.

Theorem C40_range_months : forall step start stop fuel,
  date_ok start -> date_ok stop -> 0 < step ->
  (Z.to_nat (month_index stop - month_index start + 1) < fuel)%nat ->
  exists n,
    let f := fun i => month_date (month_index start + Z.of_nat i * step) (day start) in
    daterange fuel start stop Months step false = Ok (map f (seq 0 n))
    /\ (forall i, (i < n)%nat -> date_ltb (f i) stop = true)
    /\ date_ltb (f n) stop = false.
Proof. exact daterange_months. Qed.
Print Assumptions C40_range_months.

Theorem C40_range_years : forall step start stop fuel,
  date_ok start -> date_ok stop -> 0 < step ->
  (Z.to_nat (year stop - year start + 1) < fuel)%nat ->
  exists n,
    let f := fun i => year_date (year start + Z.of_nat i * step) (month start) (day start) in
    daterange fuel start stop Years step false = Ok (map f (seq 0 n))
    /\ (forall i, (i < n)%nat -> date_ltb (f i) stop = true)
    /\ date_ltb (f n) stop = false.
Proof. exact daterange_years. Qed.
Print Assumptions C40_range_years.

Example C40_example :
  daterange 10 (Date 2022 1 31) (Date 2022 5 1) Months 1 false
  = Ok [Date 2022 1 31; Date 2022 2 28; Date 2022 3 31; Date 2022 4 30].
Proof. vm_compute. reflexivity. Qed.

(** "Include this start date, exclude this end date" fails when [reversed=True]: the end
    date is included and the start date excluded. *)
Theorem C40_reversed_refuted : exists start stop l,
  date_ok start /\ date_ok stop /\
  daterange 10 start stop Days 1 true = Ok l /\ In stop l /\ ~ In start l.
Proof.
  exists (Date 2022 1 1), (Date 2022 1 4), [Date 2022 1 4; Date 2022 1 3; Date 2022 1 2].
  split; [vm_compute; intuition discriminate|].
  split; [vm_compute; intuition discriminate|].
  split; [vm_compute; reflexivity|]. split; [cbn; auto|].
  cbn. intuition discriminate.
Qed.
Print Assumptions C40_reversed_refuted.
