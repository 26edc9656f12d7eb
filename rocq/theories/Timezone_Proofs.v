(** Proofs about the date_time.py model: time zones. *)
From Verif Require Import Base Chrono_Model Calendar_Spec Chrono_Proofs DateTime_Model DateTime_Spec DateTime_Proofs.
Require Import ZifyBool ZifyNat ZifyN.
Ltac Zify.zify_post_hook ::= Z.div_mod_to_equations.
Open Scope Z_scope.

Lemma ssm_bounds t : time_ok t -> 0 <= secondsSinceMidnight t < 86400.
Proof. intros [H1 [H2 H3]]. unfold secondsSinceMidnight. lia. Qed.

Lemma ssm_inj t u :
  time_ok t -> time_ok u -> secondsSinceMidnight t = secondsSinceMidnight u -> t = u.
Proof.
  intros [H1 [H2 H3]] [G1 [G2 G3]] H. destruct t as [h m s], u as [h' m' s'].
  unfold secondsSinceMidnight in H; cbn in *.
  assert (h = h') by lia. assert (m = m') by lia. assert (s = s') by lia. congruence.
Qed.

Lemma time_ltb_ssm t u :
  time_ok t -> time_ok u ->
  (time_ltb t u = true <-> secondsSinceMidnight t < secondsSinceMidnight u).
Proof.
  intros [H1 [H2 H3]] [G1 [G2 G3]]. unfold time_ltb, secondsSinceMidnight.
  destruct (Z.eqb_spec (hour t) (hour u)); destruct (Z.eqb_spec (minute t) (minute u));
    destruct (Z.eqb_spec (second t) (second u)); cbn [negb]; lia.
Qed.

Lemma time_eqb_spec a b : time_eqb a b = true <-> a = b.
Proof.
  destruct a as [y1 m1 d1], b as [y2 m2 d2]. unfold time_eqb; cbn.
  rewrite !andb_true_iff, !Z.eqb_eq. split.
  - intros [[-> ->] ->]. reflexivity.
  - intros H; injection H as -> -> ->. auto.
Qed.

Lemma datetime_ltb_wall a b :
  datetime_ok a -> datetime_ok b -> (datetime_ltb a b = true <-> wall a < wall b).
Proof.
  intros [Ha Ta] [Hb Tb]. unfold datetime_ltb, wall.
  pose proof (ssm_bounds _ Ta). pose proof (ssm_bounds _ Tb).
  destruct (date_eqb (dt_date a) (dt_date b)) eqn:E; cbn [negb].
  - apply date_eqb_spec in E. rewrite E.
    destruct (time_eqb (dt_time a) (dt_time b)) eqn:E2; cbn [negb].
    + apply time_eqb_spec in E2. rewrite E2. split; [discriminate|lia].
    + rewrite time_ltb_ssm by assumption. lia.
  - rewrite date_ltb_days by assumption.
    assert (Hne : daysSinceEpoch (dt_date a) <> daysSinceEpoch (dt_date b)).
    { intros He. apply days_inj_date in He; try assumption.
      apply date_eqb_spec in He. congruence. }
    lia.
Qed.

Lemma datetime_gtb_ltb a b : datetime_gtb a b = datetime_ltb b a.
Proof. reflexivity. Qed.

Lemma wall_inj a b : datetime_ok a -> datetime_ok b -> wall a = wall b -> a = b.
Proof.
  intros [Ha Ta] [Hb Tb] H. unfold wall in H.
  pose proof (ssm_bounds _ Ta). pose proof (ssm_bounds _ Tb).
  assert (Hd : dt_date a = dt_date b) by (apply days_inj_date; try assumption; lia).
  assert (Ht : dt_time a = dt_time b) by (apply ssm_inj; try assumption; rewrite Hd in H; lia).
  destruct a, b; cbn in *; congruence.
Qed.

(** A hint on the order of unfolding only: it keeps conversion from computing these. *)
Strategy opaque [civil_from_days Z.div Z.modulo].

Lemma from_ts_ok ts off :
  first_second <= ts + off ->
  exists dt, datetimeFromTimestampAndOffset ts off = Ok dt /\ datetime_ok dt
             /\ wall dt = ts + off.
Proof.
  intros H. unfold first_second in H. unfold datetimeFromTimestampAndOffset. cbv zeta.
  set (n := (ts + off) / 86400).
  assert (Hn : -719528 <= n) by (unfold n; lia).
  destruct (date_of_ok n Hn) as [E [Hok Hd]].
  unfold fromDaysSinceEpoch in E. unfold date_of in *.
  destruct (civil_from_days n) as [[y m] d].
  unfold mk_datetime. rewrite E. cbn [bind]. unfold mk_time.
  set (s := (ts + off) mod 86400).
  assert (Hs : 0 <= s < 86400) by (unfold s; lia).
  assert (Hv : is_valid_time (s / 3600) (s mod 3600 / 60) (s mod 3600 mod 60) = true)
    by (unfold is_valid_time; lia).
  rewrite Hv. cbn [bind]. eexists; split; [reflexivity|].
  split; [split; cbn [dt_date dt_time]; [exact Hok|]|].
  - unfold time_ok; cbn [hour minute second]. lia.
  - unfold wall; cbn [dt_date dt_time]. rewrite Hd.
    unfold secondsSinceMidnight; cbn [hour minute second]. unfold n, s. lia.
Qed.

Lemma from_ts_err ts off :
  ts + off < first_second -> datetimeFromTimestampAndOffset ts off = Err NonexistentDate.
Proof.
  intros H. unfold first_second in H. unfold datetimeFromTimestampAndOffset. cbv zeta.
  set (n := (ts + off) / 86400).
  assert (Hn : n < -719528) by (unfold n; lia).
  pose proof (fromDays_err n Hn) as E. unfold fromDaysSinceEpoch in E.
  destruct (civil_from_days n) as [[y m] d].
  unfold mk_datetime. rewrite E. reflexivity.
Qed.

Lemma to_ts_wall dt off : timestampFromDatetimeAndOffset dt off = wall dt - off.
Proof. unfold timestampFromDatetimeAndOffset, wall. lia. Qed.

Lemma wall_lower dt : datetime_ok dt -> first_second <= wall dt.
Proof.
  intros [Hd Ht]. unfold wall, first_second.
  pose proof (date_ok_lower _ Hd). pose proof (ssm_bounds _ Ht). lia.
Qed.

Lemma fixed_roundtrip off ts :
  first_second <= ts + off ->
  exists dt, fixed_datetime off ts = Ok dt /\ datetime_ok dt
             /\ forall fold, fixed_timestamp off dt fold = Ok ts.
Proof.
  intros H. destruct (from_ts_ok ts off H) as [dt [E [Hok Hw]]].
  exists dt. split; [exact E|]. split; [exact Hok|]. intros fold.
  unfold fixed_timestamp. rewrite to_ts_wall. f_equal. lia.
Qed.

Lemma fixed_roundtrip_dt off dt fold :
  datetime_ok dt ->
  exists ts, fixed_timestamp off dt fold = Ok ts /\ fixed_datetime off ts = Ok dt.
Proof.
  intros H. unfold fixed_timestamp. eexists; split; [reflexivity|].
  rewrite to_ts_wall. unfold fixed_datetime.
  pose proof (wall_lower dt H).
  destruct (from_ts_ok (wall dt - off) off) as [dt' [E [Hok Hw]]]; [lia|].
  rewrite E. f_equal. apply wall_inj; try assumption. lia.
Qed.

(** Day numbers and years. *)
Lemma jan1_step y : jan1 y + 365 <= jan1 (y + 1) <= jan1 y + 366.
Proof.
  unfold jan1. rewrite !days_closed. unfold march_year, march_month, year_days.
  cbn [Z.leb Z.compare Pos.compare Pos.compare_cont]. lia.
Qed.

Lemma jan1_mono y z : y <= z -> jan1 y <= jan1 z.
Proof.
  intros H. unfold jan1. rewrite !days_closed. unfold march_year, march_month, year_days.
  cbn [Z.leb Z.compare Pos.compare Pos.compare_cont]. lia.
Qed.

Lemma year_iff y m d z :
  real_date y m d -> (jan1 z <= days_from_civil y m d < jan1 (z + 1) <-> y = z).
Proof.
  intros Hr.
  assert (R : forall y, real_date y 1 1) by (intros; split; cbn; lia).
  assert (Hlow : jan1 y <= days_from_civil y m d).
  { destruct (Z_lt_dec (days_from_civil y m d) (jan1 y)) as [Hlt|]; [|lia].
    apply days_lt_iff in Hlt; [|exact Hr|apply R]. destruct Hr. unfold date_lt in Hlt. lia. }
  assert (Hhigh : days_from_civil y m d < jan1 (y + 1)).
  { apply days_mono; [exact Hr|apply R|]. unfold date_lt. lia. }
  split.
  - intros H. destruct (Z.lt_trichotomy y z) as [Hlt|[He|Hgt]]; [|exact He|].
    + pose proof (jan1_mono (y + 1) z). lia.
    + pose proof (jan1_mono (z + 1) y). lia.
  - intros <-. lia.
Qed.

Lemma civil_year n y :
  jan1 y <= n < jan1 (y + 1) -> exists m d, civil_from_days n = (y, m, d).
Proof.
  intros H. pose proof (civil_correct n) as Hc.
  destruct (civil_from_days n) as [[y' m] d]. destruct Hc as [Hr He].
  rewrite <- He in H. apply year_iff in H; [|exact Hr]. subst. eauto.
Qed.

Lemma two_am_ok d : date_ok d -> datetime_ok (two_am d).
Proof. intros H. split; [exact H|]. unfold two_am, time_ok; cbn. lia. Qed.

Lemma two_am_wall d : wall (two_am d) = daysSinceEpoch d * 86400 + 7200.
Proof. reflexivity. Qed.

(** The zone, with everything expressed in seconds. *)
Lemma dst_datetime_eq dst st r ts y s e :
  rule_at r y s e ->
  jan1 y <= ts / 86400 < jan1 (y + 1) ->
  dst_datetime dst st r ts =
  datetimeFromTimestampAndOffset ts
    (if (ts <? daysSinceEpoch s * 86400 + 7200 - st)
        || (daysSinceEpoch e * 86400 + 7200 - dst <? ts) then st else dst).
Proof.
  intros (H1 & H2 & _) Hy. unfold dst_datetime.
  destruct (civil_year _ _ Hy) as [m [d E]]. rewrite E, H1, H2. cbn [bind].
  change (dt_date (two_am s)) with s. change (dt_date (two_am e)) with e.
  change (secondsSinceMidnight (dt_time (two_am s))) with 7200.
  change (secondsSinceMidnight (dt_time (two_am e))) with 7200.
  replace (daysSinceEpoch s * 86400 - st + 7200)
    with (daysSinceEpoch s * 86400 + 7200 - st) by lia.
  replace (daysSinceEpoch e * 86400 - dst + 7200)
    with (daysSinceEpoch e * 86400 + 7200 - dst) by lia.
  reflexivity.
Qed.

Lemma date_eqb_days a b :
  date_ok a -> date_ok b -> (date_eqb a b = true <-> daysSinceEpoch a = daysSinceEpoch b).
Proof.
  intros Ha Hb. rewrite date_eqb_spec. split; [intros ->; reflexivity|].
  apply days_inj_date; assumption.
Qed.

Lemma wall_day dt : datetime_ok dt -> daysSinceEpoch (dt_date dt) = wall dt / 86400.
Proof. intros [Hd Ht]. pose proof (ssm_bounds _ Ht). unfold wall. lia. Qed.

Lemma wall_hour dt : datetime_ok dt -> hour (dt_time dt) = wall dt mod 86400 / 3600.
Proof.
  intros [Hd [H1 [H2 H3]]]. unfold wall, secondsSinceMidnight. lia.
Qed.

Lemma dst_timestamp_eq dst st r dt fold s e :
  datetime_ok dt ->
  rule_at r (year (dt_date dt)) s e ->
  dst_timestamp dst st r dt fold =
  (let S := daysSinceEpoch s * 86400 + 7200 in
   let E := daysSinceEpoch e * 86400 + 7200 in
   if fold && (negb (wall dt / 86400 =? daysSinceEpoch e) || (E <? wall dt))
   then Err OneFoldOnlyError
   else if (wall dt / 86400 =? daysSinceEpoch s) && (wall dt mod 86400 / 3600 =? 2)
   then Err NonexistentDateTime
   else Ok (wall dt - (if negb (((E <? wall dt) || (wall dt <? S)) || fold) then dst else st))).
Proof.
  intros Hok (H1 & H2 & Hs & He & _).
  unfold dst_timestamp. rewrite H1, H2. cbn [bind]. cbv zeta.
  rewrite datetime_gtb_ltb.
  assert (A1 : datetime_ltb (two_am e) dt = (daysSinceEpoch e * 86400 + 7200 <? wall dt)).
  { apply eq_true_iff_eq. rewrite (datetime_ltb_wall _ _ (two_am_ok _ He) Hok), two_am_wall. lia. }
  assert (A2 : datetime_ltb dt (two_am s) = (wall dt <? daysSinceEpoch s * 86400 + 7200)).
  { apply eq_true_iff_eq. rewrite (datetime_ltb_wall _ _ Hok (two_am_ok _ Hs)), two_am_wall. lia. }
  assert (A3 : date_eqb (dt_date dt) (dt_date (two_am e)) = (wall dt / 86400 =? daysSinceEpoch e)).
  { apply eq_true_iff_eq. destruct Hok as [Hd Ht].
    rewrite date_eqb_days by assumption. rewrite wall_day by (split; assumption). cbn. lia. }
  assert (A4 : date_eqb (dt_date dt) (dt_date (two_am s)) = (wall dt / 86400 =? daysSinceEpoch s)).
  { apply eq_true_iff_eq. destruct Hok as [Hd Ht].
    rewrite date_eqb_days by assumption. rewrite wall_day by (split; assumption). cbn. lia. }
  rewrite A1, A2, A3, A4. rewrite (wall_hour dt Hok).
  change (hour (dt_time (two_am s))) with 2.
  rewrite to_ts_wall. reflexivity.
Qed.

Lemma dt_year_iff dt z :
  datetime_ok dt -> (jan1 z <= wall dt / 86400 < jan1 (z + 1) <-> year (dt_date dt) = z).
Proof.
  intros Hok. rewrite <- (wall_day dt Hok). destruct Hok as [[_ Hr] _].
  unfold daysSinceEpoch. apply year_iff. exact Hr.
Qed.

(** The round trip for one-hour daylight savings. *)
Lemma dst_roundtrip st r ts y :
  let dst := st + 3600 in
  -86400 < st -> dst < 86400 ->
  jan1 y <= ts / 86400 < jan1 (y + 1) ->
  first_second <= ts + st ->
  (forall z, y - 1 <= z <= y + 1 -> exists s e, rule_at r z s e) ->
  exists dt fold,
    dst_datetime dst st r ts = Ok dt /\ datetime_ok dt
    /\ dst_timestamp dst st r dt fold = Ok ts.
Proof.
  intros dst Hst Hdst Hy Hfirst Hrule.
  destruct (Hrule y ltac:(lia)) as [s [e Hse]].
  rewrite (dst_datetime_eq dst st r ts y s e Hse Hy).
  set (S := daysSinceEpoch s * 86400 + 7200).
  set (E := daysSinceEpoch e * 86400 + 7200).
  set (off := if (ts <? S - st) || (E - dst <? ts) then st else dst).
  assert (Hoff : off = st \/ off = dst) by (unfold off; destruct (_ || _); auto).
  destruct (from_ts_ok ts off) as [dt [Edt [Hok Hw]]]; [lia|].
  exists dt, ((E - dst <? ts) && (ts <=? E - st)).
  split; [exact Edt|]. split; [exact Hok|].
  destruct Hse as (R1 & R2 & Rs & Re & Rys & Rye & RA & RB & RC).
  destruct (Z.eq_dec (year (dt_date dt)) y) as [Heq|Hne].
  - assert (Hse' : rule_at r (year (dt_date dt)) s e)
      by (rewrite Heq; repeat split; try assumption; try apply Rs; try apply Re).
    rewrite (dst_timestamp_eq dst st r dt _ s e Hok Hse'). cbv zeta.
    fold S E. rewrite Hw.
    unfold off, dst in *. clear Hoff.
    destruct (Z.ltb_spec ts (S - st)); destruct (Z.ltb_spec (E - (st + 3600)) ts);
      destruct (Z.leb_spec ts (E - st)); cbn [orb andb negb] in *;
      unfold S, E in *; clear S E;
      repeat match goal with
      | |- context [?a =? ?b] => destruct (Z.eqb_spec a b); cbn [negb orb andb]
      | |- context [?a <? ?b] => destruct (Z.ltb_spec a b); cbn [negb orb andb]
      end; try (exfalso; lia); try (f_equal; lia).
  - assert (Hyear : jan1 (year (dt_date dt)) <= (ts + off) / 86400 < jan1 (year (dt_date dt) + 1)).
    { rewrite <- Hw. apply dt_year_iff; [exact Hok|reflexivity]. }
    set (z := year (dt_date dt)) in *.
    pose proof (jan1_step (y - 1)) as J0. pose proof (jan1_step y) as J1.
    pose proof (jan1_step (y + 1)) as J2.
    replace (y - 1 + 1) with y in J0 by lia.
    assert (Hz : z = y - 1 \/ z = y + 1).
    { destruct (Z_lt_dec z (y - 1)) as [Hl|].
      - pose proof (jan1_mono (z + 1) (y - 1)). unfold dst in *. lia.
      - destruct (Z_lt_dec (y + 1) z) as [Hg|].
        + pose proof (jan1_mono (y + 1 + 1) z). unfold dst in *. lia.
        + lia. }
    destruct (Hrule z ltac:(lia)) as [s' [e' Hse']].
    rewrite (dst_timestamp_eq dst st r dt _ s' e' Hok Hse'). cbv zeta. rewrite Hw.
    destruct Hse' as (R1' & R2' & Rs' & Re' & Rys' & Rye' & RA' & RB' & RC').
    unfold off, S, E, dst in *. clear off S E.
    destruct Hz as [Hz|Hz]; rewrite Hz in *;
      [replace (y - 1 + 1) with y in * by lia|];
      destruct (Z.ltb_spec ts (daysSinceEpoch s * 86400 + 7200 - st));
      destruct (Z.ltb_spec (daysSinceEpoch e * 86400 + 7200 - (st + 3600)) ts);
      destruct (Z.leb_spec ts (daysSinceEpoch e * 86400 + 7200 - st)); cbn [orb andb negb] in *;
      try (exfalso; lia);
      repeat match goal with
      | |- context [?a =? ?b] => destruct (Z.eqb_spec a b); cbn [negb orb andb]
      | |- context [?a <? ?b] => destruct (Z.ltb_spec a b); cbn [negb orb andb]
      end; try (exfalso; lia); try (f_equal; lia).
Qed.

(** Skipped wall clock times. *)
Lemma dst_skipped dst st r dt fold s e :
  datetime_ok dt -> rule_at r (year (dt_date dt)) s e ->
  daysSinceEpoch s * 86400 + 7200 <= wall dt < daysSinceEpoch s * 86400 + 10800 ->
  exists err, dst_timestamp dst st r dt fold = Err err.
Proof.
  intros Hok Hr Hw. rewrite (dst_timestamp_eq dst st r dt fold s e Hok Hr). cbv zeta.
  destruct (fold && _); [eauto|].
  replace (wall dt / 86400 =? daysSinceEpoch s) with true by lia.
  replace (wall dt mod 86400 / 3600 =? 2) with true by lia.
  cbn. eauto.
Qed.

(** Rules that satisfy [rule_at] in every year. *)
Lemma nth_dow_date_ok n wd m y :
  1 <= n <= 4 -> 0 <= wd <= 6 -> 1 <= m <= 12 -> 1970 <= y ->
  exists d, nth_dow_date n wd m y = Ok d /\ date_ok d /\ year d = y /\ month d = m
            /\ is_weekday_of wd (daysSinceEpoch d)
            /\ 7 * (n - 1) + 1 <= day d <= 7 * n.
Proof.
  intros Hn Hwd Hm Hy. unfold nth_dow_date.
  assert (Hge : -5 <= days_from_civil y m 1).
  { assert (R : forall y m, 1 <= m <= 12 -> real_date y m 1)
      by (intros y' m' H'; split; [exact H'|pose proof (month_length_bounds y' m' H'); lia]).
    assert (H0 : days_from_civil 1970 1 1 = 0) by reflexivity.
    destruct (Z_lt_dec (days_from_civil y m 1) (days_from_civil 1970 1 1)) as [Hlt|]; [|lia].
    apply days_lt_iff in Hlt; [|apply R; lia|apply R; lia]. unfold date_lt in Hlt. lia. }
  destruct (nth_dow_correct n wd m y Hn Hwd Hm Hge) as [k [E [Hwk Hc]]].
  rewrite E. cbn [bind]. unfold fromDaysSinceEpoch.
  pose proof (civil_correct k) as Hcc.
  destruct (civil_from_days k) as [[y' m'] d']. destruct Hc as [-> [-> Hd]].
  destruct Hcc as [Hr He].
  rewrite mk_date_ok; [|lia|exact Hr].
  eexists; split; [reflexivity|]. cbn [year month day].
  split; [split; [cbn; lia|exact Hr]|]. repeat split; try lia.
  unfold daysSinceEpoch; cbn [year month day]. rewrite He. apply Hwk.
Qed.

Lemma days_inside d :
  date_ok d -> 2 <= month d <= 11 ->
  jan1 (year d) + 2 <= daysSinceEpoch d /\ daysSinceEpoch d + 2 < jan1 (year d + 1).
Proof.
  intros [Hy [Hm Hd]] Hmm. unfold daysSinceEpoch, jan1.
  assert (R1 : real_date (year d) 1 3) by (split; cbn; lia).
  assert (R2 : real_date (year d) 12 1) by (split; cbn; lia).
  pose proof (days_mono (year d) 1 3 (year d) (month d) (day d) R1 (conj Hm Hd)) as A.
  pose proof (days_mono (year d) (month d) (day d) (year d) 12 1 (conj Hm Hd) R2) as B.
  unfold date_lt in A, B.
  assert (A' : days_from_civil (year d) 1 3 = days_from_civil (year d) 1 1 + 2)
    by (rewrite !days_closed; lia).
  assert (B' : days_from_civil (year d + 1) 1 1 = days_from_civil (year d) 12 1 + 31).
  { rewrite !days_closed. unfold march_year, march_month, year_days.
    cbn [Z.leb Z.compare Pos.compare Pos.compare_cont]. lia. }
  lia.
Qed.

Lemma days_month_lt a b :
  date_ok a -> date_ok b -> year a = year b -> month a < month b ->
  daysSinceEpoch a < daysSinceEpoch b.
Proof.
  intros [_ Ha] [_ Hb] Hy Hm. unfold daysSinceEpoch.
  apply days_mono; [assumption..|]. unfold date_lt. lia.
Qed.

Lemma rule_wf_at r y :
  rule_wf r -> rule_first_year r <= y -> exists s e, rule_at r y s e.
Proof.
  intros Hwf Hy. destruct r as [n1 w1 m1 n2 w2 m2|w1 m1 w2 m2|n1 w1 m1 w2 m2|]; cbn in *;
    [| | |contradiction].
  - destruct Hwf as (A & B & C & D & E & F).
    destruct (nth_dow_date_ok n1 w1 m1 y) as (s & Es & Hs & Hys & Hms & _); try lia.
    destruct (nth_dow_date_ok n2 w2 m2 y) as (e & Ee & He & Hye & Hme & _); try lia.
    exists s, e. unfold rule_at. cbn [getDaylightSavingsStart getDaylightSavingsEnd].
    rewrite Es, Ee. cbn [bind].
    pose proof (days_inside s Hs ltac:(lia)). pose proof (days_inside e He ltac:(lia)).
    rewrite Hys in *. rewrite Hye in *.
    repeat split; try apply Hs; try apply He; try lia.
    apply days_month_lt; try assumption; congruence || lia.
  - destruct Hwf as (C & D & E & F).
    destruct (last_weekday_of_month_ok y m1 w1) as (s & Es & Hs & Hys & Hms & _); try lia.
    destruct (last_weekday_of_month_ok y m2 w2) as (e & Ee & He & Hye & Hme & _); try lia.
    exists s, e. unfold rule_at. cbn [getDaylightSavingsStart getDaylightSavingsEnd].
    rewrite Es, Ee. cbn [bind].
    pose proof (days_inside s Hs ltac:(lia)). pose proof (days_inside e He ltac:(lia)).
    rewrite Hys in *. rewrite Hye in *.
    repeat split; try apply Hs; try apply He; try lia.
    apply days_month_lt; try assumption; congruence || lia.
  - destruct Hwf as (A & C & D & E & F).
    destruct (nth_dow_date_ok n1 w1 m1 y) as (s & Es & Hs & Hys & Hms & _); try lia.
    destruct (last_weekday_of_month_ok y m2 w2) as (e & Ee & He & Hye & Hme & _); try lia.
    exists s, e. unfold rule_at. cbn [getDaylightSavingsStart getDaylightSavingsEnd].
    rewrite Es, Ee. cbn [bind].
    pose proof (days_inside s Hs ltac:(lia)). pose proof (days_inside e He ltac:(lia)).
    rewrite Hys in *. rewrite Hye in *.
    repeat split; try apply Hs; try apply He; try lia.
    apply days_month_lt; try assumption; congruence || lia.
Qed.

Lemma dst_roundtrip_wf st r ts :
  -86400 < st -> st + 3600 < 86400 ->
  rule_wf r ->
  jan1 (rule_first_year r + 1) <= ts / 86400 ->
  exists dt fold,
    dst_datetime (st + 3600) st r ts = Ok dt /\ datetime_ok dt
    /\ dst_timestamp (st + 3600) st r dt fold = Ok ts.
Proof.
  intros H1 H2 Hwf Hts.
  pose proof (civil_correct (ts / 86400)) as Hc.
  destruct (civil_from_days (ts / 86400)) as [[y m] d]. destruct Hc as [Hr He].
  assert (Hy : jan1 y <= ts / 86400 < jan1 (y + 1))
    by (rewrite <- He; apply year_iff; [exact Hr|reflexivity]).
  assert (Hy1 : rule_first_year r + 1 <= y).
  { destruct (Z_lt_dec y (rule_first_year r + 1)) as [Hlt|]; [|lia].
    pose proof (jan1_mono (y + 1) (rule_first_year r + 1)). lia. }
  apply (dst_roundtrip st r ts y); try assumption.
  - assert (H0 : jan1 1 = -719162) by reflexivity.
    assert (0 <= rule_first_year r) by (destruct r; cbn; lia).
    pose proof (jan1_mono 1 (rule_first_year r + 1)). unfold first_second. lia.
  - intros z Hz. apply rule_wf_at; [exact Hwf|lia].
Qed.

(** SwitchOffsetTimezone *)
Lemma switch_datetime_eq before after sw ts :
  switch_datetime before after sw ts =
  datetimeFromTimestampAndOffset ts (if ts <? wall sw - before then before else after).
Proof.
  unfold switch_datetime, wall. cbv zeta.
  replace (daysSinceEpoch (dt_date sw) * 86400 - before + secondsSinceMidnight (dt_time sw))
    with (daysSinceEpoch (dt_date sw) * 86400 + secondsSinceMidnight (dt_time sw) - before) by lia.
  reflexivity.
Qed.

Lemma switch_timestamp_eq before after sw dt fold :
  datetime_ok dt -> datetime_ok sw ->
  switch_timestamp before after sw dt fold =
  (if fold && (negb (wall dt / 86400 =? wall sw / 86400) || (wall sw <? wall dt) || (before <? after))
   then Err OneFoldOnlyError
   else if (before <? after) && (wall dt / 86400 =? wall sw / 86400)
           && (wall dt mod 86400 / 3600 =? wall sw mod 86400 / 3600)
   then Err NonexistentDateTime
   else Ok (wall dt - (if (wall sw <? wall dt) || fold then after else before))).
Proof.
  intros Hok Hsw. unfold switch_timestamp. cbv zeta. rewrite datetime_gtb_ltb.
  assert (A1 : datetime_ltb sw dt = (wall sw <? wall dt)).
  { apply eq_true_iff_eq. rewrite (datetime_ltb_wall _ _ Hsw Hok). lia. }
  assert (A3 : date_eqb (dt_date dt) (dt_date sw) = (wall dt / 86400 =? wall sw / 86400)).
  { apply eq_true_iff_eq. 
    rewrite date_eqb_days by (apply Hok || apply Hsw).
    rewrite !wall_day by assumption. lia. }
  rewrite A1, A3, !wall_hour by assumption. rewrite to_ts_wall. reflexivity.
Qed.

Lemma switch_roundtrip before after sw ts :
  datetime_ok sw -> first_second <= ts + before -> first_second <= ts + after ->
  (* one hour forward at the start of an hour, or backward without crossing midnight *)
  (after = before + 3600 /\ wall sw mod 3600 = 0
   \/ after < before /\ before - after <= wall sw mod 86400) ->
  exists dt fold, switch_datetime before after sw ts = Ok dt /\ datetime_ok dt
    /\ switch_timestamp before after sw dt fold = Ok ts.
Proof.
  intros Hsw F1 F2 Hcase. rewrite switch_datetime_eq.
  set (off := if ts <? wall sw - before then before else after).
  destruct (from_ts_ok ts off) as [dt [E [Hok Hw]]];
    [unfold off; destruct (_ <? _); assumption|].
  exists dt, ((wall sw - before <=? ts) && (ts <=? wall sw - after) && (after <? before)).
  split; [exact E|]. split; [exact Hok|].
  rewrite switch_timestamp_eq by assumption. rewrite Hw. unfold off. clear off E Hw.
  destruct (Z.ltb_spec ts (wall sw - before)); destruct (Z.leb_spec (wall sw - before) ts);
    destruct (Z.leb_spec ts (wall sw - after)); destruct (Z.ltb_spec after before);
    destruct (Z.ltb_spec before after); cbn [orb andb negb]; try (exfalso; lia);
    repeat match goal with
      | |- context [?a =? ?b] => destruct (Z.eqb_spec a b); cbn [negb orb andb]
      | |- context [?a <? ?b] => destruct (Z.ltb_spec a b); cbn [negb orb andb]
      end; try (exfalso; lia); try (f_equal; lia).
Qed.

(** Which offset applies. *)
Lemma dst_reading dst st r ts y s e :
  rule_at r y s e ->
  jan1 y <= ts / 86400 < jan1 (y + 1) ->
  first_second <= ts + st -> first_second <= ts + dst ->
  exists dt, dst_datetime dst st r ts = Ok dt /\ datetime_ok dt
    /\ (wall (two_am s) <= ts + st /\ ts + dst <= wall (two_am e) -> wall dt = ts + dst)
    /\ (ts + st < wall (two_am s) \/ wall (two_am e) < ts + dst -> wall dt = ts + st).
Proof.
  intros Hr Hy F1 F2. rewrite (dst_datetime_eq dst st r ts y s e Hr Hy).
  rewrite !two_am_wall.
  destruct (Z.ltb_spec ts (daysSinceEpoch s * 86400 + 7200 - st));
    destruct (Z.ltb_spec (daysSinceEpoch e * 86400 + 7200 - dst) ts); cbn [orb].
  1-3: destruct (from_ts_ok ts st F1) as [dt [E [Hok Hw]]].
  4: destruct (from_ts_ok ts dst F2) as [dt [E [Hok Hw]]].
  all: exists dt; split; [exact E|]; split; [exact Hok|]; split; lia.
Qed.

Lemma rule_dates_ok r y :
  rule_wf r -> rule_first_year r <= y ->
  exists s e, rule_at r y s e /\ rule_dates r y s e.
Proof.
  intros Hwf Hy. destruct (rule_wf_at r y Hwf Hy) as (s & e & Hr).
  exists s, e. split; [exact Hr|]. destruct Hr as (R1 & R2 & _).
  assert (T : forall d d', Ok (two_am d) = Ok (two_am d') -> d = d')
    by (intros d d' Heq; injection Heq; auto).
  destruct r as [n1 w1 m1 n2 w2 m2|w1 m1 w2 m2|n1 w1 m1 w2 m2|]; cbn in *; [| | |contradiction].
  - destruct Hwf as (A & B & C & D & E & F).
    destruct (nth_dow_date_ok n1 w1 m1 y) as (s' & Es & Hs); try lia.
    destruct (nth_dow_date_ok n2 w2 m2 y) as (e' & Ee & He); try lia.
    rewrite Es in R1. rewrite Ee in R2. cbn [bind] in *.
    apply T in R1, R2. subst. split; assumption.
  - destruct Hwf as (C & D & E & F).
    destruct (last_weekday_of_month_ok y m1 w1) as (s' & Es & Hs); try lia.
    destruct (last_weekday_of_month_ok y m2 w2) as (e' & Ee & He); try lia.
    rewrite Es in R1. rewrite Ee in R2. cbn [bind] in *.
    apply T in R1, R2. subst. split; assumption.
  - destruct Hwf as (A & C & D & E & F).
    destruct (nth_dow_date_ok n1 w1 m1 y) as (s' & Es & Hs); try lia.
    destruct (last_weekday_of_month_ok y m2 w2) as (e' & Ee & He); try lia.
    rewrite Es in R1. rewrite Ee in R2. cbn [bind] in *.
    apply T in R1, R2. subst. split; assumption.
Qed.
