(** Proofs about the date_time.py model: dates. *)
From Verif Require Import Base Chrono_Model Calendar_Spec Chrono_Proofs DateTime_Model DateTime_Spec.
Require Import ZifyBool ZifyNat ZifyN.
Ltac Zify.zify_post_hook ::= Z.div_mod_to_equations.
Open Scope Z_scope.

Lemma mk_date_ok y m d :
  0 <= y -> real_date y m d -> mk_date y m d = Ok (Date y m d).
Proof.
  intros Hy Hr. unfold mk_date.
  replace (is_valid_date y m d) with true; [reflexivity|].
  symmetry. apply is_valid_date_real; destruct Hr; try lia. split; [lia|split; lia].
Qed.

Lemma mk_date_neg y m d : y < 0 -> mk_date y m d = Err NonexistentDate.
Proof.
  intros Hy. unfold mk_date, is_valid_date.
  replace (-1 <? y) with false by lia. reflexivity.
Qed.

Lemma mk_date_inv y m d a :
  mk_date y m d = Ok a -> 1 <= m -> 1 <= d -> a = Date y m d /\ date_ok a.
Proof.
  unfold mk_date. destruct (is_valid_date y m d) eqn:E; [|discriminate].
  intros H Hm Hd. injection H as <-. split; [reflexivity|].
  apply is_valid_date_real in E; try lia. exact E.
Qed.

Lemma date_ltb_spec a b :
  date_ltb a b = true <-> date_lt (year a, month a, day a) (year b, month b, day b).
Proof.
  unfold date_ltb, date_lt.
  destruct (Z.eqb_spec (year a) (year b)); destruct (Z.eqb_spec (month a) (month b));
    destruct (Z.eqb_spec (day a) (day b)); cbn [negb]; lia.
Qed.

Lemma date_eqb_spec a b : date_eqb a b = true <-> a = b.
Proof.
  destruct a as [y1 m1 d1], b as [y2 m2 d2]. unfold date_eqb; cbn.
  rewrite !andb_true_iff, !Z.eqb_eq. split.
  - intros [[-> ->] ->]. reflexivity.
  - intros H; injection H as -> -> ->. auto.
Qed.

Lemma date_gtb_ltb a b : date_gtb a b = date_ltb b a.
Proof. reflexivity. Qed.

Lemma date_ltb_days a b :
  date_ok a -> date_ok b ->
  (date_ltb a b = true <-> daysSinceEpoch a < daysSinceEpoch b).
Proof.
  intros [_ Ha] [_ Hb]. rewrite date_ltb_spec. unfold daysSinceEpoch.
  symmetry. apply days_lt_iff; assumption.
Qed.

Lemma days_inj_date a b :
  date_ok a -> date_ok b -> daysSinceEpoch a = daysSinceEpoch b -> a = b.
Proof.
  intros [_ Ha] [_ Hb] H. unfold daysSinceEpoch in H.
  apply days_inj in H; try assumption.
  destruct a, b; cbn in *; congruence.
Qed.

(** The first representable day is 0000-01-01. *)
Lemma days_year_nonneg y m d :
  real_date y m d -> (0 <= y <-> -719528 <= days_from_civil y m d).
Proof.
  intros Hr.
  assert (H0 : days_from_civil 0 1 1 = -719528) by reflexivity.
  assert (Hr0 : real_date 0 1 1) by (split; cbn; lia).
  split; intros H.
  - destruct (Z.eq_dec y 0) as [->|Hne].
    + destruct Hr as [Hm Hd]. 
      destruct (Z_lt_dec (days_from_civil 0 m d) (days_from_civil 0 1 1)) as [Hlt|]; [|lia].
      apply days_lt_iff in Hlt; [|split; assumption|assumption]. unfold date_lt in Hlt. lia.
    + pose proof (days_mono 0 1 1 y m d Hr0 Hr) as Hm. unfold date_lt in Hm. lia.
  - destruct (Z_lt_dec y 0) as [Hlt|]; [|lia].
    pose proof (days_mono y m d 0 1 1 Hr Hr0) as Hm. unfold date_lt in Hm. lia.
Qed.

Lemma fromDays_ok n :
  -719528 <= n ->
  exists a, fromDaysSinceEpoch n = Ok a /\ date_ok a /\ daysSinceEpoch a = n.
Proof.
  intros Hn. unfold fromDaysSinceEpoch.
  pose proof (civil_correct n) as Hc.
  destruct (civil_from_days n) as [[y m] d]. destruct Hc as [Hr He].
  assert (Hy : 0 <= y) by (apply (days_year_nonneg y m d Hr); lia).
  exists (Date y m d). rewrite mk_date_ok by assumption.
  repeat split; cbn; try assumption; destruct Hr; lia.
Qed.

Lemma fromDays_err n : n < -719528 -> fromDaysSinceEpoch n = Err NonexistentDate.
Proof.
  intros Hn. unfold fromDaysSinceEpoch.
  pose proof (civil_correct n) as Hc.
  destruct (civil_from_days n) as [[y m] d]. destruct Hc as [Hr He].
  apply mk_date_neg. pose proof (days_year_nonneg y m d Hr). lia.
Qed.

Lemma fromDays_daysSinceEpoch a :
  date_ok a -> fromDaysSinceEpoch (daysSinceEpoch a) = Ok a.
Proof.
  intros [Hy Hr]. unfold fromDaysSinceEpoch, daysSinceEpoch.
  rewrite civil_of_days_id by exact Hr.
  rewrite mk_date_ok by assumption. destruct a; reflexivity.
Qed.

Lemma date_ok_lower a : date_ok a -> -719528 <= daysSinceEpoch a.
Proof. intros [Hy Hr]. apply (days_year_nonneg _ _ _ Hr). exact Hy. Qed.

Lemma next_ok a k :
  -719528 <= daysSinceEpoch a + k ->
  exists b, next a k = Ok b /\ date_ok b /\ daysSinceEpoch b = daysSinceEpoch a + k.
Proof. intros H. apply fromDays_ok. exact H. Qed.

Lemma previous_ok a k :
  0 <= k -> -719528 <= daysSinceEpoch a - k ->
  exists b, previous a k = Ok b /\ date_ok b /\ daysSinceEpoch b = daysSinceEpoch a - k.
Proof.
  intros Hk H. unfold previous. replace (k <? 0) with false by lia.
  destruct (next_ok a (- k)) as [b [E [Hb He]]]; [lia|].
  exists b. split; [exact E|]. split; [exact Hb|]. lia.
Qed.

Lemma nextMonthStart_ok a step :
  date_ok a ->
  0 <= 12 * year a + (month a - 1) + step ->
  exists b, nextMonthStart a step = Ok b /\ date_ok b /\ day b = 1
    /\ 12 * year b + (month b - 1) = 12 * year a + (month a - 1) + step.
Proof.
  intros [Hy [Hm Hd]] H. unfold nextMonthStart. cbv zeta.
  assert (Hr : real_date (year a + (month a - 1 + step) / 12) ((month a - 1 + step) mod 12 + 1) 1).
  { split; [lia|].
    pose proof (month_length_bounds (year a + (month a - 1 + step) / 12) ((month a - 1 + step) mod 12 + 1)).
    lia. }
  rewrite mk_date_ok; [| lia | exact Hr].
  eexists; split; [reflexivity|]. cbn [year month day].
  split; [split; [cbn; lia|exact Hr]|]. split; [reflexivity|]. lia.
Qed.

Lemma nextMonthStart_err a step :
  1 <= month a ->
  12 * year a + (month a - 1) + step < 0 -> nextMonthStart a step = Err NonexistentDate.
Proof. intros Hm H. unfold nextMonthStart. apply mk_date_neg. lia. Qed.

Lemma days_next_month y m y' m' :
  1 <= m <= 12 -> 1 <= m' <= 12 ->
  12 * y' + (m' - 1) = 12 * y + (m - 1) + 1 ->
  days_from_civil y' m' 1 = days_from_civil y m 1 + month_length y m.
Proof.
  intros Hm Hm' He.
  pose proof (month_length_bounds y m Hm) as Hb.
  assert (Hr : real_date y m (month_length y m)) by (split; lia).
  pose proof (days_next_day y m (month_length y m) Hr) as Hn.
  cbn [next_day] in Hn. rewrite Z.ltb_irrefl in Hn.
  assert (Hl : days_from_civil y m (month_length y m)
               = days_from_civil y m 1 + month_length y m - 1)
    by (rewrite !days_closed; lia).
  destruct (Z.ltb_spec m 12).
  - replace y' with y by lia. replace m' with (m + 1) by lia. lia.
  - replace y' with (y + 1) by lia. replace m' with 1 by lia. lia.
Qed.

Lemma lastDayOfMonth_ok a :
  date_ok a ->
  lastDayOfMonth a = Ok (Date (year a) (month a) (month_length (year a) (month a))).
Proof.
  intros Ha. pose proof Ha as [Hy [Hm Hd]]. unfold lastDayOfMonth.
  destruct (nextMonthStart_ok a 1 Ha) as [b [E [Hb [Hd1 He]]]]; [lia|].
  rewrite E. cbn [bind].
  destruct Hb as [Hyb [Hmb Hdb]].
  assert (Hr : real_date (year a) (month a) (month_length (year a) (month a)))
    by (split; lia).
  assert (Hdays : daysSinceEpoch b - 1
                  = days_from_civil (year a) (month a) (month_length (year a) (month a))).
  { unfold daysSinceEpoch. rewrite Hd1.
    rewrite (days_next_month (year a) (month a)) by lia.
    rewrite !days_closed. lia. }
  rewrite Hdays. unfold fromDaysSinceEpoch. rewrite civil_of_days_id by exact Hr.
  apply mk_date_ok; assumption.
Qed.

Lemma daysInMonth_ok a :
  date_ok a -> daysInMonth a = Ok (month_length (year a) (month a)).
Proof.
  intros Ha. unfold daysInMonth. rewrite lastDayOfMonth_ok by exact Ha. cbn [bind].
  destruct Ha as [Hy [Hm Hd]].
  rewrite mk_date_ok; [| lia | split; [lia|pose proof (month_length_bounds (year a) (month a)); lia]].
  cbn [bind]. f_equal. unfold date_sub, daysSinceEpoch. cbn [year month day].
  rewrite !days_closed. lia.
Qed.

Lemma nextMonth_ok a step override :
  date_ok a -> 0 <= override ->
  0 <= 12 * year a + (month a - 1) + step ->
  exists b, nextMonth a step override = Ok b /\ date_ok b
    /\ 12 * year b + (month b - 1) = 12 * year a + (month a - 1) + step
    /\ day b = Z.min (month_length (year b) (month b))
                     (if override =? 0 then day a else override).
Proof.
  intros Ha Ho H. unfold nextMonth.
  destruct (nextMonthStart_ok a step Ha H) as [b [E [Hb [Hd1 He]]]].
  rewrite E. cbn [bind]. rewrite daysInMonth_ok by exact Hb. cbn [bind].
  destruct Hb as [Hyb [Hmb Hdb]]. destruct Ha as [Hya [Hma Hda]].
  pose proof (month_length_bounds (year b) (month b) Hmb) as Hml.
  assert (Hr : real_date (year b) (month b)
                 (Z.min (month_length (year b) (month b))
                        (if override =? 0 then day a else override))).
  { split; [exact Hmb|]. destruct (Z.eqb_spec override 0); lia. }
  rewrite mk_date_ok by assumption.
  eexists; split; [reflexivity|]. cbn [year month day].
  split; [split; [exact Hyb|exact Hr]|]. split; [exact He|reflexivity].
Qed.

Lemma nextYear_ok a step override :
  date_ok a -> 0 <= override ->
  0 <= year a + step ->
  exists b, nextYear a step override = Ok b /\ date_ok b
    /\ year b = year a + step /\ month b = month a
    /\ day b = Z.min (month_length (year b) (month b))
                     (if override =? 0 then day a else override).
Proof.
  intros Ha Ho H. unfold nextYear. cbv zeta.
  destruct Ha as [Hya [Hma Hda]].
  pose proof (month_length_bounds (year a + step) (month a) Hma) as Hml.
  rewrite mk_date_ok; [|lia|split; lia]. cbn [bind].
  rewrite daysInMonth_ok by (split; [cbn; lia|split; cbn [year month day]; lia]).
  cbn [bind year month day].
  assert (Hr : real_date (year a + step) (month a)
                 (Z.min (month_length (year a + step) (month a))
                        (if override =? 0 then day a else override))).
  { split; [exact Hma|]. destruct (Z.eqb_spec override 0); lia. }
  rewrite mk_date_ok by assumption.
  eexists; split; [reflexivity|]. cbn [year month day].
  split; [split; [exact H|exact Hr]|]. repeat split; reflexivity.
Qed.

Lemma nextWeekday_ok a wd :
  date_ok a -> 0 <= wd <= 6 ->
  exists b, nextWeekday a wd = Ok b /\ date_ok b
    /\ is_weekday_of wd (daysSinceEpoch b)
    /\ daysSinceEpoch a <= daysSinceEpoch b < daysSinceEpoch a + 7.
Proof.
  intros Ha Hwd. unfold nextWeekday.
  pose proof (date_ok_lower a Ha) as Hlow.
  assert (Hmod : 0 <= (wd - weekday a) mod 7 < 7) by lia.
  destruct (next_ok a ((wd - weekday a) mod 7)) as [b [E [Hb He]]]; [lia|].
  exists b. split; [exact E|]. split; [exact Hb|]. split; [|lia].
  split; [exact Hwd|]. rewrite He. unfold weekday in *.
  pose proof (weekday_mod (daysSinceEpoch a)) as Hm.
  exists ((daysSinceEpoch a + (wd - weekday_from_days (daysSinceEpoch a)) mod 7 + 4 - wd) / 7).
  lia.
Qed.

(** [lastWeekday]: what the code really does. *)
Lemma lastWeekday_actual a wd :
  date_ok a -> 0 <= wd <= 6 -> -719522 <= daysSinceEpoch a ->
  exists b, lastWeekday a wd = Ok b /\ date_ok b
    /\ daysSinceEpoch a - 7 < daysSinceEpoch b <= daysSinceEpoch a
    /\ (is_weekday_of wd (daysSinceEpoch b) <-> is_weekday_of wd (daysSinceEpoch a)).
Proof.
  intros Ha Hwd Hlow. unfold lastWeekday.
  assert (Hmod : 0 <= (wd - weekday a) mod 7 < 7) by lia.
  destruct (previous_ok a ((wd - weekday a) mod 7)) as [b [E [Hb He]]]; [lia|lia|].
  exists b. split; [exact E|]. split; [exact Hb|]. split; [lia|].
  unfold weekday in *.
  pose proof (weekday_mod (daysSinceEpoch a)) as Hm.
  unfold is_weekday_of. rewrite He. split.
  - intros [_ [k Hk]]. split; [exact Hwd|].
    exists ((daysSinceEpoch a + 4 - wd) / 7). lia.
  - intros [_ [k Hk]]. split; [exact Hwd|].
    exists k. lia.
Qed.

Lemma last_weekday_of_month_ok y m wd :
  0 <= y -> 1 <= m <= 12 -> 0 <= wd <= 6 ->
  exists b, last_weekday_of_month y m wd = Ok b /\ date_ok b
    /\ year b = y /\ month b = m
    /\ is_weekday_of wd (daysSinceEpoch b)
    /\ month_length y m - 7 < day b.
Proof.
  intros Hy Hm Hwd. unfold last_weekday_of_month.
  pose proof (month_length_bounds y m Hm) as Hml.
  assert (Hr1 : real_date y m 1) by (split; lia).
  rewrite mk_date_ok by assumption. cbn [bind].
  rewrite lastDayOfMonth_ok by (split; assumption). cbn [bind year month].
  set (e := Date y m (month_length y m)).
  set (k := (weekday e - wd) mod 7).
  assert (Hk : 0 <= k < 7) by (unfold k; lia).
  assert (Hr : real_date y m (month_length y m - k)) by (split; lia).
  assert (Hd : daysSinceEpoch e - k = days_from_civil y m (month_length y m - k)).
  { unfold daysSinceEpoch, e; cbn [year month day]. rewrite !days_closed. lia. }
  rewrite Hd. unfold fromDaysSinceEpoch. rewrite civil_of_days_id by exact Hr.
  rewrite mk_date_ok by assumption.
  eexists; split; [reflexivity|]. cbn [year month day].
  split; [split; assumption|]. repeat split; try lia.
  unfold daysSinceEpoch; cbn [year month day]. rewrite <- Hd.
  pose proof (weekday_mod (daysSinceEpoch e)) as Hmod. fold (weekday e) in Hmod.
  unfold k.
  exists ((daysSinceEpoch e - (weekday e - wd) mod 7 + 4 - wd) / 7). lia.
Qed.

Lemma quarter_ok a :
  date_ok a -> 1 <= quarterOfYear a <= 4
    /\ 3 * (quarterOfYear a - 1) < month a <= 3 * quarterOfYear a.
Proof. intros [_ [Hm _]]. unfold quarterOfYear. lia. Qed.

Lemma daysUntilEndOfMonth_ok a :
  date_ok a -> daysUntilEndOfMonth a = Ok (month_length (year a) (month a) - day a).
Proof.
  intros Ha. unfold daysUntilEndOfMonth. rewrite lastDayOfMonth_ok by exact Ha.
  cbn [bind]. f_equal. unfold date_sub, daysSinceEpoch; cbn [year month day].
  rewrite !days_closed. lia.
Qed.

Lemma daysUntilEndOfYear_ok a :
  date_ok a -> exists n, daysUntilEndOfYear a = Ok n
   /\ n + dayOfYear a = (if leapb (year a) then 366 else 365).
Proof.
  intros [Hy Hr]. unfold daysUntilEndOfYear, lastDayOfYear.
  rewrite mk_date_ok; [|exact Hy|split; cbn; lia]. cbn [bind].
  eexists; split; [reflexivity|].
  unfold dayOfYear. rewrite day_of_year_correct by exact Hr.
  unfold date_sub, daysSinceEpoch; cbn [year month day].
  assert (Hspan : days_from_civil (year a) 12 31 - days_from_civil (year a) 1 1 + 1
                  = if leapb (year a) then 366 else 365).
  { rewrite !days_closed. unfold march_year, march_month, year_days.
    cbn [Z.leb Z.compare Pos.compare Pos.compare_cont].
    destruct (leapb (year a)) eqn:El;
       [ assert (Hl : leap (year a)) by (apply leapb_leap; exact El)
       | assert (Hl : ~ leap (year a)) by (intros Hc; apply leapb_leap in Hc; congruence) ];
       unfold leap in Hl; lia. }
  lia.
Qed.

(** Ranges of dates. *)
Lemma range_forward_steps fuel it : forall start stop n (f : nat -> date),
  (n < fuel)%nat ->
  f O = start ->
  (forall i, (i < n)%nat -> it (f i) = Ok (f (S i)) /\ date_ltb (f i) stop = true) ->
  date_ltb (f n) stop = false ->
  range_forward fuel it start stop = Ok (map f (seq 0 n)).
Proof.
  induction fuel as [|fuel IH]; intros start stop n f Hf H0 Hs He; [lia|].
  cbn [range_forward]. subst start.
  destruct n as [|n].
  - rewrite He. reflexivity.
  - destruct (Hs O) as [H1 H2]; [lia|]. rewrite H2, H1. cbn [bind].
    rewrite (IH (f 1%nat) stop n (fun i => f (S i))); [|lia|reflexivity| |exact He].
    + cbn [bind map seq]. f_equal. f_equal.
      rewrite <- seq_shift, map_map. reflexivity.
    + intros i Hi. apply Hs. lia.
Qed.

Lemma range_reversed_steps fuel it : forall start stop n (f : nat -> date),
  (n < fuel)%nat ->
  f O = stop ->
  (forall i, (i < n)%nat -> it (f i) = Ok (f (S i)) /\ date_ltb start (f i) = true) ->
  date_ltb start (f n) = false ->
  range_reversed fuel it start stop = Ok (map f (seq 0 n)).
Proof.
  induction fuel as [|fuel IH]; intros start stop n f Hf H0 Hs He; [lia|].
  cbn [range_reversed]. subst stop.
  destruct n as [|n].
  - rewrite He. reflexivity.
  - destruct (Hs O) as [H1 H2]; [lia|]. rewrite H2, H1. cbn [bind].
    rewrite (IH start (f 1%nat) n (fun i => f (S i))); [|lia|reflexivity| |exact He].
    + cbn [bind map seq]. f_equal. f_equal.
      rewrite <- seq_shift, map_map. reflexivity.
    + intros i Hi. apply Hs. lia.
Qed.

(** A hint on the order of unfolding only: it keeps conversion from computing these. *)
Strategy opaque [civil_from_days Z.div Z.modulo].

Lemma date_of_ok n : -719528 <= n ->
  fromDaysSinceEpoch n = Ok (date_of n) /\ date_ok (date_of n) /\ daysSinceEpoch (date_of n) = n.
Proof.
  intros Hn. destruct (fromDays_ok n Hn) as [a [E [Ha Hd]]].
  assert (Heq : date_of n = a).
  { unfold date_of, fromDaysSinceEpoch, mk_date in *.
    destruct (civil_from_days n) as [[y m] d].
    destruct (is_valid_date y m d); congruence. }
  rewrite Heq. auto.
Qed.

(** Ranges by days (and weeks, with a step of 7 times as much). *)
Lemma daterange_days k w step start stop fuel :
  date_ok start -> date_ok stop -> 0 < step ->
  (k = Days /\ w = 1 \/ k = Weeks /\ w = 7) ->
  let n := (daysSinceEpoch stop - daysSinceEpoch start + step * w - 1) / (step * w) in
  (Z.to_nat n < fuel)%nat ->
  daterange fuel start stop k step false =
  Ok (map (fun i => date_of (daysSinceEpoch start + Z.of_nat i * (step * w)))
          (seq 0 (Z.to_nat n))).
Proof.
  intros Hs He Hstep Hkw n Hfuel.
  pose proof (date_ok_lower _ Hs) as Hlow.
  assert (Hw : 0 < step * w) by (destruct Hkw as [[_ ->]|[_ ->]]; lia).
  assert (Hit : forall d, range_iterate k false step (day start) d = next d (step * w)).
  { intros d. destruct Hkw as [[-> ->]|[-> ->]]; cbn [range_iterate].
    - rewrite Z.mul_1_r. reflexivity.
    - reflexivity. }
  assert (Hgoal : range_forward fuel (range_iterate k false step (day start)) start stop =
          Ok (map (fun i => date_of (daysSinceEpoch start + Z.of_nat i * (step * w)))
          (seq 0 (Z.to_nat n)))).
  { set (sw := step * w) in *. clearbody sw.
    assert (Hn1 : forall i : Z, 0 <= i -> (i < n <-> i * sw < daysSinceEpoch stop - daysSinceEpoch start)).
    { intros i Hi. unfold n.
      pose proof (Z.div_mod (daysSinceEpoch stop - daysSinceEpoch start + sw - 1) sw ltac:(lia)) as Hdm.
      pose proof (Z.mod_pos_bound (daysSinceEpoch stop - daysSinceEpoch start + sw - 1) sw ltac:(lia)) as Hmb.
      set (q := (daysSinceEpoch stop - daysSinceEpoch start + sw - 1) / sw) in *.
      set (r := (daysSinceEpoch stop - daysSinceEpoch start + sw - 1) mod sw) in *.
      clearbody q r. split; intros; nia. }
    apply range_forward_steps.
    - exact Hfuel.
    - rewrite Z.mul_0_l, Z.add_0_r.
      destruct (date_of_ok (daysSinceEpoch start) Hlow) as [_ [H1 H2]].
      apply days_inj_date; assumption.
    - intros i Hi. rewrite Hit.
      assert (Hp : 0 <= Z.of_nat i * sw) by nia.
      destruct (date_of_ok (daysSinceEpoch start + Z.of_nat i * sw)) as [_ [H1 H2]]; [lia|].
      split.
      + unfold next. rewrite H2.
        replace (daysSinceEpoch start + Z.of_nat i * sw + sw)
          with (daysSinceEpoch start + Z.of_nat (S i) * sw) by lia.
        apply date_of_ok. lia.
      + apply date_ltb_days; [assumption..|]. rewrite H2.
        specialize (Hn1 (Z.of_nat i) ltac:(lia)). lia.
    - assert (Hp : 0 <= Z.of_nat (Z.to_nat n) * sw) by nia.
      destruct (date_of_ok (daysSinceEpoch start + Z.of_nat (Z.to_nat n) * sw)) as [_ [H1 H2]]; [lia|].
      destruct (date_ltb _ _) eqn:E; [|reflexivity].
      apply date_ltb_days in E; [|assumption..]. rewrite H2 in E.
      destruct (Z_lt_dec n 0) as [Hneg|].
      + specialize (Hn1 0 ltac:(lia)). lia.
      + specialize (Hn1 n ltac:(lia)). rewrite Z2Nat.id in E by lia. lia. }
  destruct Hkw as [[-> ->]|[-> ->]]; exact Hgoal.
Qed.

(** Ranges by months and years. *)
Lemma least_false (p : nat -> bool) N :
  p N = false ->
  exists n, (n <= N)%nat /\ p n = false /\ forall i, (i < n)%nat -> p i = true.
Proof.
  induction N as [|N IH] in p |- *; intros HN.
  - exists O. repeat split; [lia|exact HN|lia].
  - destruct (p O) eqn:E0.
    + destruct (IH (fun i => p (S i)) HN) as [n [H1 [H2 H3]]].
      exists (S n). repeat split; [lia|exact H2|].
      intros [|i] Hi; [exact E0|]. apply H3. lia.
    + exists O. repeat split; [lia|exact E0|lia].
Qed.

Lemma month_date_ok t d : 0 <= t -> 1 <= d -> date_ok (month_date t d).
Proof.
  intros Ht Hd. unfold month_date. split; cbn [year month day]; [lia|].
  pose proof (month_length_bounds (t / 12) (t mod 12 + 1)). split; lia.
Qed.

Lemma month_date_self a : date_ok a -> month_date (month_index a) (day a) = a.
Proof.
  intros [Hy [Hm Hd]]. unfold month_date, month_index.
  replace ((12 * year a + (month a - 1)) / 12) with (year a) by lia.
  replace ((12 * year a + (month a - 1)) mod 12 + 1) with (month a) by lia.
  rewrite Z.min_r by lia. destruct a; reflexivity.
Qed.

Lemma month_date_index t d : month_index (month_date t d) = t.
Proof. unfold month_date, month_index; cbn [year month]. lia. Qed.

Lemma date_ltb_index a b :
  date_ok a -> date_ok b -> date_ltb a b = true -> month_index a <= month_index b.
Proof.
  intros [_ [Hm1 _]] [_ [Hm2 _]] H. apply date_ltb_spec in H.
  unfold date_lt in H. unfold month_index. lia.
Qed.

Lemma nextMonth_month_date t step d :
  0 <= t -> 1 <= d -> 0 <= t + step ->
  nextMonth (month_date t d) step d = Ok (month_date (t + step) d).
Proof.
  intros Ht Hd Hs.
  destruct (nextMonth_ok (month_date t d) step d) as [b [E [Hb [Hi Hday]]]].
  - apply month_date_ok; assumption.
  - lia.
  - pose proof (month_date_index t d) as Hx. unfold month_index in Hx. lia.
  - rewrite E. f_equal.
    pose proof (month_date_index t d) as Hx. unfold month_index in Hx. rewrite Hx in Hi.
    replace (d =? 0) with false in Hday by lia.
    destruct b as [y m dd]; cbn [year month day] in *.
    destruct Hb as [_ [Hm _]]; cbn [month] in Hm.
    assert (Hy : y = (t + step) / 12) by lia.
    assert (Hmm : m = (t + step) mod 12 + 1) by lia.
    subst y m. unfold month_date. rewrite <- Hday. reflexivity.
Qed.

(** Every element of the range is the right month, the range is cut exactly at [stop]. *)
Lemma daterange_months step start stop fuel :
  date_ok start -> date_ok stop -> 0 < step ->
  (Z.to_nat (month_index stop - month_index start + 1) < fuel)%nat ->
  exists n,
    let f := fun i => month_date (month_index start + Z.of_nat i * step) (day start) in
    daterange fuel start stop Months step false = Ok (map f (seq 0 n))
    /\ (forall i, (i < n)%nat -> date_ltb (f i) stop = true)
    /\ date_ltb (f n) stop = false.
Proof.
  intros Hs He Hstep Hfuel.
  pose proof Hs as [Hy [Hm Hd]].
  assert (Ht : 0 <= month_index start) by (unfold month_index; lia).
  set (f := fun i => month_date (month_index start + Z.of_nat i * step) (day start)).
  set (N := Z.to_nat (month_index stop - month_index start + 1)).
  assert (HN : date_ltb (f N) stop = false).
  { destruct (date_ltb (f N) stop) eqn:E; [|reflexivity].
    apply date_ltb_index in E; [|apply month_date_ok; nia|exact He].
    unfold f in E. rewrite month_date_index in E. unfold N in E. nia. }
  destruct (least_false (fun i => date_ltb (f i) stop) N HN) as [n [Hn [Hf Hb]]].
  exists n. cbv zeta. fold f. split; [|split; assumption].
  unfold daterange. apply range_forward_steps.
  - lia.
  - unfold f. rewrite Z.mul_0_l, Z.add_0_r. apply month_date_self. exact Hs.
  - intros i Hi. split; [|apply Hb; exact Hi].
    cbn [range_iterate]. unfold f.
    rewrite nextMonth_month_date by nia. f_equal. f_equal. lia.
  - exact Hf.
Qed.

Lemma nextYear_year_date y m d step :
  0 <= y -> 1 <= m <= 12 -> 1 <= d -> 0 <= y + step ->
  nextYear (year_date y m d) step d = Ok (year_date (y + step) m d).
Proof.
  intros Hy Hm Hd Hs.
  pose proof (month_length_bounds y m Hm) as Hml.
  destruct (nextYear_ok (year_date y m d) step d) as [b [E [Hb [Hyb [Hmb Hdb]]]]].
  - split; cbn [year_date year month day]; [lia|split; lia].
  - lia.
  - cbn. lia.
  - rewrite E. f_equal. replace (d =? 0) with false in Hdb by lia.
    cbn [year_date year month] in *. destruct b as [y' m' d']; cbn [year month day] in *.
    subst y' m' d'. reflexivity.
Qed.

Lemma daterange_years step start stop fuel :
  date_ok start -> date_ok stop -> 0 < step ->
  (Z.to_nat (year stop - year start + 1) < fuel)%nat ->
  exists n,
    let f := fun i => year_date (year start + Z.of_nat i * step) (month start) (day start) in
    daterange fuel start stop Years step false = Ok (map f (seq 0 n))
    /\ (forall i, (i < n)%nat -> date_ltb (f i) stop = true)
    /\ date_ltb (f n) stop = false.
Proof.
  intros Hs He Hstep Hfuel.
  pose proof Hs as [Hy [Hm Hd]].
  set (f := fun i => year_date (year start + Z.of_nat i * step) (month start) (day start)).
  set (N := Z.to_nat (year stop - year start + 1)).
  assert (HN : date_ltb (f N) stop = false).
  { destruct (date_ltb (f N) stop) eqn:E; [|reflexivity].
    apply date_ltb_spec in E. unfold f, date_lt, year_date in E. cbn [year month day] in E.
    unfold N in E. nia. }
  destruct (least_false (fun i => date_ltb (f i) stop) N HN) as [n [Hn [Hf Hb]]].
  exists n. cbv zeta. fold f. split; [|split; assumption].
  unfold daterange. apply range_forward_steps.
  - lia.
  - unfold f. rewrite Z.mul_0_l, Z.add_0_r. unfold year_date.
    rewrite Z.min_r by lia. destruct start; reflexivity.
  - intros i Hi. split; [|apply Hb; exact Hi].
    cbn [range_iterate]. unfold f.
    rewrite nextYear_year_date by nia. f_equal. f_equal. lia.
  - exact Hf.
Qed.
