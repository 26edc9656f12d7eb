(** The proleptic Gregorian calendar, specified without reference to the code: month
    lengths, the leap year rule, and "the next day". *)
From Verif Require Import Base.
Open Scope Z_scope.

(** A year is a leap year when divisible by 4, except centuries not divisible by 400. *)
Definition leap (y : Z) : Prop :=
  (y mod 4 = 0 /\ y mod 100 <> 0) \/ y mod 400 = 0.

Definition leapb (y : Z) : bool :=
  if y mod 400 =? 0 then true else if y mod 100 =? 0 then false else y mod 4 =? 0.

(** Length of a month. *)
Definition month_length (y m : Z) : Z :=
  match m with
  | 2 => if leapb y then 29 else 28
  | 4 | 6 | 9 | 11 => 30
  | _ => 31
  end.

(** A real calendar date. *)
Definition real_date (y m d : Z) : Prop :=
  1 <= m <= 12 /\ 1 <= d <= month_length y m.

(** The day after a date. *)
Definition next_day (ymd : Z * Z * Z) : Z * Z * Z :=
  let '(y, m, d) := ymd in
  if d <? month_length y m then (y, m, d + 1)
  else if m <? 12 then (y, m + 1, 1)
  else (y + 1, 1, 1).

(** Lexicographic order of dates. *)
Definition date_lt (a b : Z * Z * Z) : Prop :=
  let '(y1, m1, d1) := a in
  let '(y2, m2, d2) := b in
  y1 < y2 \/ (y1 = y2 /\ (m1 < m2 \/ (m1 = m2 /\ d1 < d2))).

(** [is_weekday_of wd n]: [wd] (0 = Sunday) is the weekday of the day [n] days after
    1970-01-01, which was a Thursday (4); each following day is the next weekday. *)
Definition is_weekday_of (wd n : Z) : Prop :=
  0 <= wd <= 6 /\ exists weeks, n + 4 = 7 * weeks + wd.
