(** Proofs about the chrono.py model. *)
From Verif Require Import Base Chrono_Model Calendar_Spec.
Require Import ZifyBool ZifyNat ZifyN.
Ltac Zify.zify_post_hook ::= Z.div_mod_to_equations.
Open Scope Z_scope.

Lemma leapb_leap y : leapb y = true <-> leap y.
Proof.
  unfold leapb, leap.
  destruct (Z.eqb_spec (y mod 400) 0); destruct (Z.eqb_spec (y mod 100) 0);
    destruct (Z.eqb_spec (y mod 4) 0); intuition (try discriminate; try lia).
Qed.

Lemma is_leap_year_leapb y : is_leap_year y = leapb y.
Proof.
  unfold is_leap_year, leapb.
  destruct (Z.eqb_spec (y mod 400) 0); destruct (Z.eqb_spec (y mod 100) 0);
    destruct (Z.eqb_spec (y mod 4) 0); cbn; try reflexivity; lia.
Qed.

Lemma chrono_div_floor a b :
  0 < b -> chrono_div (if 0 <=? a then a else a - (b - 1)) b = a / b.
Proof.
  intros Hb. unfold chrono_div.
  destruct (Z.leb_spec 0 a).
  - destruct (Z.ltb_spec 0 a); [reflexivity|].
    replace a with 0 by lia. reflexivity.
  - destruct (Z.ltb_spec 0 (a - (b - 1))); [lia|]. nia.
Qed.

(** The day number in closed form, with the year starting in March. *)
Definition march_year (y m : Z) : Z := if m <=? 2 then y - 1 else y.
Definition march_month (m : Z) : Z := if m <=? 2 then m + 9 else m - 3.
Definition year_days (y : Z) : Z := 365 * y + y / 4 - y / 100 + y / 400.

Lemma days_closed y m d :
  days_from_civil y m d =
  year_days (march_year y m) + (153 * march_month m + 2) / 5 + d - 1 - 719468.
Proof.
  unfold days_from_civil, year_days, march_year, march_month.
  cbv zeta.
  set (y' := y - (if m <=? 2 then 1 else 0)).
  change 399 with (400 - 1). rewrite (chrono_div_floor y' 400) by lia.
  replace (if m <=? 2 then y - 1 else y) with y'
    by (unfold y'; destruct (m <=? 2); lia).
  replace (if 2 <? m then m - 3 else m + 9) with (if m <=? 2 then m + 9 else m - 3)
    by (destruct (Z.leb_spec m 2); destruct (Z.ltb_spec 2 m); lia).
  clearbody y'. destruct (m <=? 2); lia.
Qed.

Lemma month_cases m (P : Z -> Prop) :
  1 <= m <= 12 ->
  P 1 -> P 2 -> P 3 -> P 4 -> P 5 -> P 6 -> P 7 -> P 8 -> P 9 -> P 10 -> P 11 -> P 12 -> P m.
Proof.
  intros Hm; intros.
  assert (H12: m = 1 \/ m = 2 \/ m = 3 \/ m = 4 \/ m = 5 \/ m = 6 \/ m = 7 \/ m = 8
               \/ m = 9 \/ m = 10 \/ m = 11 \/ m = 12) by lia.
  intuition (subst; assumption).
Qed.

Lemma days_next_day y m d :
  real_date y m d ->
  let '(y', m', d') := next_day (y, m, d) in
  days_from_civil y' m' d' = days_from_civil y m d + 1.
Proof.
  intros [Hm Hd]. cbn [next_day].
  pose proof (leapb_leap y) as HL. unfold leap in HL.
  destruct (Z.ltb_spec d (month_length y m)).
  - rewrite !days_closed. lia.
  - assert (Hdl : d = month_length y m) by lia. clear H Hd.
    revert Hdl. pattern m. apply month_cases; [exact Hm|..];
      intros Hdl; cbn in Hdl; cbn [Z.ltb Z.compare Pos.compare Pos.compare_cont Z.add Pos.add Pos.succ];
      rewrite !days_closed; unfold march_year, march_month, year_days; cbn [Z.leb Z.compare Pos.compare Pos.compare_cont];
      try (subst d; lia).
    (* february *)
    destruct (leapb y) eqn:El.
    + assert (Hl : leap y) by (apply leapb_leap; exact El). unfold leap in Hl. subst d. lia.
    + assert (Hl : ~ leap y) by (intros Hc; apply leapb_leap in Hc; congruence).
      unfold leap in Hl. subst d. lia.
Qed.

Lemma month_length_bounds y m : 1 <= m <= 12 -> 28 <= month_length y m <= 31.
Proof.
  intros Hm. pattern m; apply month_cases; [exact Hm|..]; cbn; try lia.
  destruct (leapb y); lia.
Qed.

Lemma next_day_real y m d :
  real_date y m d ->
  let '(y', m', d') := next_day (y, m, d) in real_date y' m' d'.
Proof.
  intros [Hm Hd]. cbn [next_day].
  destruct (Z.ltb_spec d (month_length y m)).
  - split; lia.
  - destruct (Z.ltb_spec m 12).
    + split; [lia|]. pose proof (month_length_bounds y (m + 1)). lia.
    + split; [lia|]. cbn. lia.
Qed.

(** Days strictly increase along the date order. *)
Lemma days_year_mono y1 y2 m1 d1 m2 d2 :
  real_date y1 m1 d1 -> real_date y2 m2 d2 -> y1 < y2 ->
  days_from_civil y1 m1 d1 < days_from_civil y2 m2 d2.
Proof.
  intros [Hm1 Hd1] [Hm2 Hd2] Hlt.
  assert (H1 : days_from_civil y1 m1 d1 <= days_from_civil y1 12 31).
  { revert Hd1. pattern m1. apply month_cases; [exact Hm1|..]; intros Hd1;
      cbn in Hd1; rewrite !days_closed; unfold march_year, march_month, year_days;
      cbn [Z.leb Z.compare Pos.compare Pos.compare_cont]; try lia.
    destruct (leapb y1); lia. }
  assert (H2 : days_from_civil y2 1 1 <= days_from_civil y2 m2 d2).
  { revert Hd2. pattern m2. apply month_cases; [exact Hm2|..]; intros Hd2;
      cbn in Hd2; rewrite !days_closed; unfold march_year, march_month, year_days;
      cbn [Z.leb Z.compare Pos.compare Pos.compare_cont]; try lia. }
  assert (H3 : days_from_civil y1 12 31 < days_from_civil y2 1 1).
  { rewrite !days_closed; unfold march_year, march_month, year_days;
      cbn [Z.leb Z.compare Pos.compare Pos.compare_cont]. lia. }
  lia.
Qed.

Lemma days_month_mono y m1 d1 m2 d2 :
  real_date y m1 d1 -> real_date y m2 d2 -> m1 < m2 ->
  days_from_civil y m1 d1 < days_from_civil y m2 d2.
Proof.
  intros [Hm1 Hd1] [Hm2 Hd2] Hlt.
  assert (H1 : days_from_civil y m1 d1 < days_from_civil y (m1 + 1) 1).
  { assert (Hm1' : 1 <= m1 <= 12) by lia.
    assert (Hm1'' : m1 <> 12) by lia. clear Hlt.
    revert Hd1 Hm1''. pattern m1. apply month_cases; [exact Hm1'|..];
      intros Hd1 Hne;
      cbn in Hd1; rewrite !days_closed; unfold march_year, march_month, year_days;
      cbn [Z.leb Z.compare Pos.compare Pos.compare_cont Z.add Pos.add Pos.succ]; try lia.
    destruct (leapb y) eqn:El.
    + assert (Hl : leap y) by (apply leapb_leap; exact El). unfold leap in Hl. lia.
    + assert (Hl : ~ leap y) by (intros Hc; apply leapb_leap in Hc; congruence).
      unfold leap in Hl. lia. }
  assert (H2 : days_from_civil y (m1 + 1) 1 <= days_from_civil y m2 d2).
  { rewrite !days_closed; unfold march_year, march_month.
    assert (Hmm : 2 <= m1 + 1 <= m2) by lia.
    destruct (Z.leb_spec (m1 + 1) 2); destruct (Z.leb_spec m2 2);
      unfold year_days; lia. }
  lia.
Qed.

Lemma days_mono y1 m1 d1 y2 m2 d2 :
  real_date y1 m1 d1 -> real_date y2 m2 d2 ->
  date_lt (y1, m1, d1) (y2, m2, d2) ->
  days_from_civil y1 m1 d1 < days_from_civil y2 m2 d2.
Proof.
  intros H1 H2 [Hy | [-> [Hm | [-> Hd]]]].
  - apply days_year_mono; assumption.
  - apply days_month_mono; assumption.
  - rewrite !days_closed. lia.
Qed.

Lemma days_inj y1 m1 d1 y2 m2 d2 :
  real_date y1 m1 d1 -> real_date y2 m2 d2 ->
  days_from_civil y1 m1 d1 = days_from_civil y2 m2 d2 ->
  (y1, m1, d1) = (y2, m2, d2).
Proof.
  intros H1 H2 He.
  destruct (Z.lt_trichotomy y1 y2) as [Hy | [Hy | Hy]].
  - pose proof (days_mono y1 m1 d1 y2 m2 d2 H1 H2). cbn in H. lia.
  - subst. destruct (Z.lt_trichotomy m1 m2) as [Hm | [Hm | Hm]].
    + pose proof (days_mono y2 m1 d1 y2 m2 d2 H1 H2). cbn in H. lia.
    + subst. rewrite !days_closed in He. replace d1 with d2 by lia. reflexivity.
    + pose proof (days_mono y2 m2 d2 y2 m1 d1 H2 H1). cbn in H. lia.
  - pose proof (days_mono y2 m2 d2 y1 m1 d1 H2 H1). cbn in H. lia.
Qed.

Lemma days_lt_iff y1 m1 d1 y2 m2 d2 :
  real_date y1 m1 d1 -> real_date y2 m2 d2 ->
  (days_from_civil y1 m1 d1 < days_from_civil y2 m2 d2 <-> date_lt (y1, m1, d1) (y2, m2, d2)).
Proof.
  intros H1 H2; split; [|apply days_mono; assumption].
  intros Hlt.
  destruct (Z.lt_trichotomy y1 y2) as [Hy | [Hy | Hy]]; [left; exact Hy | |].
  - subst. right; split; [reflexivity|].
    destruct (Z.lt_trichotomy m1 m2) as [Hm | [Hm | Hm]]; [left; exact Hm | |].
    + subst. right; split; [reflexivity|]. rewrite !days_closed in Hlt. lia.
    + pose proof (days_mono y2 m2 d2 y2 m1 d1 H2 H1). cbn in H. lia.
  - pose proof (days_mono y2 m2 d2 y1 m1 d1 H2 H1). cbn in H. lia.
Qed.

(** The inverse direction: first within one 400-year era, then for every day number by
    the period. *)
Definition civil_of_doe (doe : Z) : Z * Z * Z :=
  let yoe := (doe - doe / 1460 + doe / 36524 - doe / 146096) / 365 in
  let doy := doe - (365 * yoe + yoe / 4 - yoe / 100) in
  let mp := (5 * doy + 2) / 153 in
  let d := doy - (153 * mp + 2) / 5 + 1 in
  let m := if mp <? 10 then mp + 3 else mp - 9 in
  (yoe + (if m <=? 2 then 1 else 0), m, d).

Lemma yoe_ok doe : 0 <= doe < 146097 ->
  let yoe := (doe - doe / 1460 + doe / 36524 - doe / 146096) / 365 in
  0 <= yoe <= 399 /\ 365 * yoe + yoe / 4 - yoe / 100 <= doe /\
  doe < 365 * (yoe + 1) + (yoe + 1) / 4 - (yoe + 1) / 100 + (if yoe =? 399 then 1 else 0).
Proof.
  intros H yoe.
  assert (Hb : doe / 36524 = 0 \/ doe / 36524 = 1 \/ doe / 36524 = 2
               \/ doe / 36524 = 3 \/ doe / 36524 = 4) by lia.
  assert (Hc : doe / 146096 = 0 \/ doe / 146096 = 1) by lia.
  unfold yoe.
  destruct Hb as [Hb|[Hb|[Hb|[Hb|Hb]]]]; destruct Hc as [Hc|Hc]; rewrite Hb, Hc; clear yoe;
    (set (yoe := (doe - doe / 1460 + _ - _) / 365));
    assert (Hy : 0 <= yoe <= 399) by (unfold yoe; lia); (split; [exact Hy|]);
    destruct (Z.eqb_spec yoe 399); unfold yoe in *; clear yoe; (split; [lia|lia]).
Qed.

Lemma doe_ok doe : 0 <= doe < 146097 ->
  let '(y, m, d) := civil_of_doe doe in
  real_date y m d /\ days_from_civil y m d + 719468 = doe.
Proof.
  intros Hdoe. unfold civil_of_doe. cbv zeta.
  pose proof (yoe_ok doe Hdoe) as Hy. cbv zeta in Hy.
  set (yoe := (doe - doe / 1460 + doe / 36524 - doe / 146096) / 365) in *. clearbody yoe.
  destruct Hy as (Hy & Hlo & Hhi).
  set (doy := doe - (365 * yoe + yoe / 4 - yoe / 100)).
  assert (Hdoy : 0 <= doy <= 365) by (unfold doy; destruct (Z.eqb_spec yoe 399); lia).
  assert (Hleap : doy = 365 -> leap (yoe + 1))
    by (unfold doy, leap; destruct (Z.eqb_spec yoe 399); lia).
  assert (Hdoe' : doe = 365 * yoe + yoe / 4 - yoe / 100 + yoe / 400 + doy)
    by (unfold doy; lia).
  clearbody doy. clear Hhi Hlo Hdoe.
  set (mp := (5 * doy + 2) / 153).
  assert (Hmp : mp = 0 \/ mp = 1 \/ mp = 2 \/ mp = 3 \/ mp = 4 \/ mp = 5 \/ mp = 6 \/ mp = 7
                \/ mp = 8 \/ mp = 9 \/ mp = 10 \/ mp = 11) by (unfold mp; lia).
  assert (Hrng : 153 * mp <= 5 * doy + 2 < 153 * mp + 153) by (unfold mp; lia).
  clearbody mp.
  rewrite days_closed. unfold real_date, march_year, march_month.
  assert (HL : leapb (yoe + 1) = true <-> leap (yoe + 1)) by apply leapb_leap.
  set (m := if mp <? 10 then mp + 3 else mp - 9).
  repeat (destruct Hmp as [Hmp|Hmp]);
    subst mp; cbv in m; subst m;
    match goal with |- context [?k <=? 2] =>
      let b := eval vm_compute in (k <=? 2) in change (k <=? 2) with b end;
    cbn [month_length]; rewrite ?Z.add_0_r; unfold year_days; try lia.
  (* february *)
  destruct (leapb (yoe + 1)) eqn:El; try lia.
  assert (doy <> 365) by (intros E; apply Hleap in E; apply HL in E; congruence).
  lia.
Qed.

Lemma civil_shift n :
  civil_from_days n =
  (let era := (n + 719468) / 146097 in
   let '(y, m, d) := civil_of_doe ((n + 719468) mod 146097) in
   (y + era * 400, m, d)).
Proof.
  unfold civil_from_days. cbv zeta.
  change (n + 719468 - 146096) with (n + 719468 - (146097 - 1)).
  rewrite (chrono_div_floor (n + 719468) 146097) by lia.
  replace (n + 719468 - (n + 719468) / 146097 * 146097)
    with ((n + 719468) mod 146097) by lia.
  unfold civil_of_doe. cbv zeta.
  f_equal. f_equal. lia.
Qed.

Lemma leapb_shift y e : leapb (y + e * 400) = leapb y.
Proof.
  destruct (leapb y) eqn:E1; destruct (leapb (y + e * 400)) eqn:E2; try reflexivity; exfalso.
  - apply leapb_leap in E1. assert (~ leap (y + e * 400)) by (intros Hc; apply leapb_leap in Hc; congruence).
    unfold leap in *. lia.
  - apply leapb_leap in E2. assert (~ leap y) by (intros Hc; apply leapb_leap in Hc; congruence).
    unfold leap in *. lia.
Qed.

Lemma month_length_shift y e m : month_length (y + e * 400) m = month_length y m.
Proof. unfold month_length. rewrite leapb_shift. reflexivity. Qed.

Lemma days_shift y e m d :
  days_from_civil (y + e * 400) m d = days_from_civil y m d + e * 146097.
Proof.
  rewrite !days_closed. unfold march_year, year_days.
  destruct (m <=? 2); lia.
Qed.

Lemma civil_correct n :
  let '(y, m, d) := civil_from_days n in
  real_date y m d /\ days_from_civil y m d = n.
Proof.
  rewrite civil_shift. cbv zeta.
  assert (Hr : 0 <= (n + 719468) mod 146097 < 146097) by (apply Z.mod_pos_bound; lia).
  pose proof (doe_ok _ Hr) as Hok.
  destruct (civil_of_doe ((n + 719468) mod 146097)) as [[y m] d].
  destruct Hok as [Hrd Hdays]. unfold real_date in *. rewrite month_length_shift, days_shift.
  split; [exact Hrd|lia].
Qed.

Lemma civil_of_days_id y m d :
  real_date y m d -> civil_from_days (days_from_civil y m d) = (y, m, d).
Proof.
  intros H. pose proof (civil_correct (days_from_civil y m d)) as Hc.
  destruct (civil_from_days (days_from_civil y m d)) as [[y' m'] d'].
  destruct Hc as [Hr He]. apply days_inj; assumption.
Qed.

Lemma civil_step n : civil_from_days (n + 1) = next_day (civil_from_days n).
Proof.
  pose proof (civil_correct n) as Hc.
  destruct (civil_from_days n) as [[y m] d]. destruct Hc as [Hr He].
  pose proof (days_next_day y m d Hr) as Hn.
  pose proof (next_day_real y m d Hr) as Hnr.
  destruct (next_day (y, m, d)) as [[y' m'] d'].
  rewrite He in Hn. rewrite <- Hn. apply civil_of_days_id. exact Hnr.
Qed.

Lemma civil_epoch : civil_from_days 0 = (1970, 1, 1).
Proof. vm_compute. reflexivity. Qed.

(** Weekdays. *)
Lemma weekday_mod n : (weekday_from_days n - (n + 4)) mod 7 = 0.
Proof. unfold weekday_from_days. destruct (-4 <=? n); lia. Qed.

Lemma weekday_partial n : -5 <= n -> is_weekday_of (weekday_from_days n) n.
Proof.
  intros Hn. unfold is_weekday_of, weekday_from_days.
  destruct (Z.leb_spec (-4) n).
  - split; [lia|]. exists ((n + 4) / 7). lia.
  - replace n with (-5) by lia. split; [cbn; lia|]. exists (-1). reflexivity.
Qed.

Lemma weekday_wrong_iff n :
  is_weekday_of (weekday_from_days n) n <-> (-5 <= n \/ (n + 5) mod 7 = 0).
Proof.
  split.
  - intros [Hr [w Hw]]. unfold weekday_from_days in *.
    destruct (Z.leb_spec (-4) n); [left; lia|]. right. lia.
  - intros [H | H]; [apply weekday_partial; exact H|].
    unfold weekday_from_days, is_weekday_of.
    destruct (Z.leb_spec (-4) n).
    + split; [lia|]. exists ((n + 4) / 7). lia.
    + split; [lia|]. exists ((n + 5) / 7 - 1). lia.
Qed.

Lemma is_weekday_of_unique w1 w2 n :
  is_weekday_of w1 n -> is_weekday_of w2 n -> w1 = w2.
Proof. intros [H1 [k1 E1]] [H2 [k2 E2]]. lia. Qed.

(** is_valid_date *)
Lemma is_valid_date_real y m d :
  -1 < m -> -1 < d ->
  (is_valid_date y m d = true <-> 0 <= y /\ real_date y m d).
Proof.
  intros Hm Hd. unfold is_valid_date.
  replace (-1 <? m) with true by lia. replace (-1 <? d) with true by lia.
  cbn [negb andb].
  fold (is_leap_year y). rewrite is_leap_year_leapb.
  destruct (Z.ltb_spec (-1) y) as [Hy|Hy]; cbn [negb andb].
  2: { split; [discriminate|lia]. }
  destruct ((m <? 1) || (12 <? m)) eqn:Em.
  1: { split; [discriminate|]. intros [_ [H _]]. lia. }
  assert (Hm' : 1 <= m <= 12) by lia.
  destruct (Z.ltb_spec d 1).
  1: { split; [discriminate|]. intros [_ [_ H1]]. lia. }
  unfold real_date.
  clear Em Hm. pattern m.
  apply month_cases; [exact Hm'|..]; cbn; try lia.
  destruct (leapb y); lia.
Qed.

(** day_of_year *)
Lemma day_of_year_correct y m d :
  real_date y m d ->
  day_of_year y m d = days_from_civil y m d - days_from_civil y 1 1 + 1.
Proof.
  intros [Hm Hd]. rewrite !days_closed.
  unfold day_of_year. cbv zeta. rewrite is_leap_year_leapb.
  revert Hd. pattern m. apply month_cases; [exact Hm|..]; intros Hd; cbn in Hd;
    unfold march_year, march_month, year_days;
    cbn [Z.leb Z.ltb Z.compare Pos.compare Pos.compare_cont Z.add Pos.add Pos.succ andb].
  2: { assert (Hd' : 1 <= d <= 29) by (destruct (leapb y); lia). clear Hd.
       match goal with |- context [365 <? ?x] => destruct (Z.ltb_spec 365 x) end; lia. }
  1: { match goal with |- context [365 <? ?x] => destruct (Z.ltb_spec 365 x) end; lia. }
  all: destruct (leapb y) eqn:El;
       [ assert (Hl : leap y) by (apply leapb_leap; exact El)
       | assert (Hl : ~ leap y) by (intros Hc; apply leapb_leap in Hc; congruence) ];
       unfold leap in Hl;
       match goal with |- context [365 <? ?x] => destruct (Z.ltb_spec 365 x) end; lia.
Qed.

(** nth weekday of the month *)
Lemma nth_dow_correct n dow m y :
  1 <= n <= 4 -> 0 <= dow <= 6 -> 1 <= m <= 12 ->
  -5 <= days_from_civil y m 1 ->
  exists r, get_nth_dow_of_month n dow m y = Ok r
    /\ is_weekday_of dow r
    /\ (let '(y', m', d') := civil_from_days r in
        y' = y /\ m' = m /\ 7 * (n - 1) + 1 <= d' <= 7 * n).
Proof.
  intros Hn Hdow Hm Hge. unfold get_nth_dow_of_month.
  replace ((n <? 1) || (4 <? n)) with false by lia.
  replace ((dow <? 0) || (6 <? dow)) with false by lia.
  replace ((m <? 1) || (12 <? m)) with false by lia.
  pose proof (weekday_partial _ Hge) as [Hw [k Hk]].
  set (wd := weekday_from_days (days_from_civil y m 1)) in *.
  set (diff := weekday_difference dow wd).
  assert (Hdiff : 0 <= diff <= 6 /\ (diff = dow - wd \/ diff = dow - wd + 7)).
  { unfold diff, weekday_difference.
    destruct ((0 <=? dow - wd) && (dow - wd <=? 6)) eqn:E; lia. }
  eexists; split; [reflexivity|].
  assert (Hd : days_from_civil y m (diff + 1 + (n - 1) * 7)
               = days_from_civil y m 1 + diff + (n - 1) * 7).
  { rewrite !days_closed. lia. }
  split.
  - split; [lia|]. rewrite Hd.
    destruct Hdiff as [_ [->| ->]]; [exists (k + (n - 1)) | exists (k + n)]; lia.
  - rewrite civil_of_days_id.
    + repeat split; lia.
    + split; [lia|]. pose proof (month_length_bounds y m Hm). lia.
Qed.
