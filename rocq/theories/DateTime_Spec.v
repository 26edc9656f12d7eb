(** Vocabulary in which the date and time zone properties are stated. *)
From Verif Require Import Base Chrono_Model Calendar_Spec DateTime_Model.
Open Scope Z_scope.

(** A date object that denotes a real calendar date with a non-negative year. *)
Definition date_ok (a : date) : Prop :=
  0 <= year a /\ real_date (year a) (month a) (day a).

Definition date_of (n : Z) : date :=
  let '(y, m, d) := civil_from_days n in Date y m d.

(** [month_date t d]: the day [d] (clipped to the month's length) of month number [t],
    counted from January of year 0. *)
Definition month_date (t d : Z) : date :=
  Date (t / 12) (t mod 12 + 1) (Z.min (month_length (t / 12) (t mod 12 + 1)) d).

Definition month_index (a : date) : Z := 12 * year a + (month a - 1).

Definition year_date (y m d : Z) : date := Date y m (Z.min (month_length y m) d).

Definition time_ok (t : time) : Prop :=
  0 <= hour t < 24 /\ 0 <= minute t < 60 /\ 0 <= second t < 60.
Definition datetime_ok (a : datetime) : Prop := date_ok (dt_date a) /\ time_ok (dt_time a).

(** Seconds on the wall clock since 1970-01-01 00:00. *)
Definition wall (a : datetime) : Z :=
  daysSinceEpoch (dt_date a) * 86400 + secondsSinceMidnight (dt_time a).

Definition first_second : Z := -719528 * 86400.

Definition jan1 (y : Z) : Z := days_from_civil y 1 1.

(** [rule_at r y s e]: in year [y] daylight savings starts at 02:00 on [s] and ends at
    02:00 on [e], and both lie at least two days inside the year. *)
Definition rule_at (r : dst_rule) (y : Z) (s e : date) : Prop :=
  getDaylightSavingsStart r y = Ok (two_am s) /\
  getDaylightSavingsEnd r y = Ok (two_am e) /\
  date_ok s /\ date_ok e /\ year s = y /\ year e = y /\
  jan1 y + 2 <= daysSinceEpoch s /\
  daysSinceEpoch s < daysSinceEpoch e /\
  daysSinceEpoch e + 2 < jan1 (y + 1).

(** Months of the rules the code uses: both inside February..November, start first. *)
Definition rule_wf (r : dst_rule) : Prop :=
  match r with
  | NthWeekdayRule n1 w1 m1 n2 w2 m2 =>
      1 <= n1 <= 4 /\ 1 <= n2 <= 4 /\ 0 <= w1 <= 6 /\ 0 <= w2 <= 6 /\ 2 <= m1 < m2 /\ m2 <= 11
  | LastWeekdayRule w1 m1 w2 m2 =>
      0 <= w1 <= 6 /\ 0 <= w2 <= 6 /\ 2 <= m1 < m2 /\ m2 <= 11
  | NthToLastWeekdayRule n1 w1 m1 w2 m2 =>
      1 <= n1 <= 4 /\ 0 <= w1 <= 6 /\ 0 <= w2 <= 6 /\ 2 <= m1 < m2 /\ m2 <= 11
  | DateTimeRule _ _ => False
  end.

Definition rule_first_year (r : dst_rule) : Z :=
  match r with LastWeekdayRule _ _ _ _ => 0 | _ => 1970 end.

(** The dates a rule names: the n-th or the last given weekday of a month. *)
Definition nth_weekday_in (n wd m y : Z) (d : date) : Prop :=
  date_ok d /\ year d = y /\ month d = m /\ is_weekday_of wd (daysSinceEpoch d)
  /\ 7 * (n - 1) + 1 <= day d <= 7 * n.
Definition last_weekday_in (wd m y : Z) (d : date) : Prop :=
  date_ok d /\ year d = y /\ month d = m /\ is_weekday_of wd (daysSinceEpoch d)
  /\ month_length y m - 7 < day d.

Definition rule_dates (r : dst_rule) (y : Z) (s e : date) : Prop :=
  match r with
  | NthWeekdayRule n1 w1 m1 n2 w2 m2 => nth_weekday_in n1 w1 m1 y s /\ nth_weekday_in n2 w2 m2 y e
  | LastWeekdayRule w1 m1 w2 m2 => last_weekday_in w1 m1 y s /\ last_weekday_in w2 m2 y e
  | NthToLastWeekdayRule n1 w1 m1 w2 m2 => nth_weekday_in n1 w1 m1 y s /\ last_weekday_in w2 m2 y e
  | DateTimeRule a b => s = dt_date a /\ e = dt_date b
  end.

