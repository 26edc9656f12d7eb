(** C27: dates survive being written and read back.  C55: well-formed texts are read as the instant they denote.
    C56: parsing accepts only dates that exist. *)
From Coq Require Import String Ascii.
From Verif Require Import Base Chrono_Model Calendar_Spec Chrono_Proofs DateTime_Model DateTime_Spec DateTime_Proofs Timezone_Proofs
  DateText_Model DateText_Spec DateText_Format_Proofs DateText_Token_Proofs DateText_Parse_Proofs DateText_Written_Proofs DateText_Accept_Proofs.
From Coq Require Import ZifyBool ZifyNat.
Open Scope string_scope.
Open Scope Z_scope.
Open Scope list_scope.
Open Scope result_scope.

(** Every name in [pytz.all_timezones] has a capital letter, and the zones EST and NYC may be anything. *)
Definition pytz_names (pytz_name : text -> bool) : Prop := forall t, pytz_name t = true -> ~ lowercase t.

Definition afternoon : datetime := DateTime (Date 2020 2 29) (Time 14 30 5).
Lemma afternoon_ok : datetime_ok afternoon.
Proof. unfold afternoon, datetime_ok, date_ok, time_ok, real_date. cbn. repeat split; try lia; vm_compute; discriminate. Qed.
Lemma no_pytz : pytz_names (fun _ => false).
Proof. intros t H. discriminate H. Qed.

(** ** C27 *)

(** The text of a date has, for each character of the format, that character, and for each directive, what it
    stands for: numbers of fixed width, names of months and days. *)
Theorem C27_format (dt : datetime) (fmt : text) :
  datetime_ok dt -> year (dt_date dt) <= 9999 -> only all_letters fmt -> weekday_fine dt fmt ->
  exists ts, format dt fmt = Ok (List.concat ts) /\ Forall2 (means dt) (pieces fmt) ts.
Proof. exact (fun ok small => format_ok dt ok small fmt). Qed.
Print Assumptions C27_format.
Example C27_format_example :
  let fmt := chars "%A %d %B %Y, %I:%M %p" in
  only all_letters fmt /\ weekday_fine afternoon fmt /\ format afternoon fmt = Ok (chars "Saturday 29 February 2020, 02:30 PM").
Proof. split; [apply only_check; reflexivity|]. split; [left; vm_compute; discriminate|vm_compute; reflexivity]. Qed.

(** Where the format says everything about the date and time, reading the text with it gives them back: in UTC, *)
Theorem C27_round_trip (est nyc : zone) (pytz_name : text -> bool) (dt : datetime) (fmt : text) :
  pytz_names pytz_name -> datetime_ok dt -> year (dt_date dt) <= 9999 ->
  only (read_letters false) fmt -> determines fmt dt -> ~ noon fmt dt ->
  exists t, format dt fmt = Ok t /\ parse_with_format est nyc pytz_name t fmt = utc dt.
Proof. exact (fun P ok small => parse_with_format_ok est nyc pytz_name P dt ok small fmt). Qed.
Print Assumptions C27_round_trip.

(** and in any zone that the caller names. *)
Theorem C27_round_trip_zone (est nyc : zone) (pytz_name : text -> bool) (dt : datetime) (fmt : text) (z : zone) :
  pytz_names pytz_name -> datetime_ok dt -> year (dt_date dt) <= 9999 ->
  only (read_letters true) fmt -> determines fmt dt -> ~ noon fmt dt ->
  exists t, format dt fmt = Ok t /\ parse_with_format_and_timezone est nyc pytz_name t fmt z = z dt.
Proof. exact (fun P ok small => parse_with_format_and_timezone_ok est nyc pytz_name P dt ok small z fmt). Qed.
Print Assumptions C27_round_trip_zone.
Example C27_round_trip_example :
  let fmt := chars "%d %b %Y %I:%M:%S%p" in
  only (read_letters true) fmt /\ determines fmt afternoon /\ ~ noon fmt afternoon /\ format afternoon fmt = Ok (chars "29 Feb 2020 02:30:05PM").
Proof.
  cbv zeta. split; [apply only_check; reflexivity|]. split.
  - unfold determines. cbv zeta. rewrite !uses_usesb. vm_compute. intuition discriminate.
  - split; [intros [_ H]; discriminate H|vm_compute; reflexivity].
Qed.

(** An instant in a zone with a fixed offset survives formatting and parsing. *)
Theorem C27_instant (est nyc : zone) (pytz_name : text -> bool) (offset ts : Z) (dt : datetime) :
  pytz_names pytz_name -> first_second <= ts + offset -> fixed_datetime offset ts = Ok dt -> year (dt_date dt) <= 9999 ->
  exists t, format dt (chars "%Y-%m-%d %H:%M:%S") = Ok t
    /\ parse_with_format_and_timezone est nyc pytz_name t (chars "%Y-%m-%d %H:%M:%S") (fixed offset) = Ok ts.
Proof.
  intros P F E S. destruct (fixed_roundtrip offset ts F) as (dt' & E' & ok & R). rewrite E in E'. injection E' as <-.
  destruct (C27_round_trip_zone est nyc pytz_name dt (chars "%Y-%m-%d %H:%M:%S") (fixed offset) P ok S) as (t & Ef & Ep).
  - apply only_check. reflexivity.
  - unfold determines. cbv zeta. rewrite !uses_usesb. vm_compute (usesb _ _). intuition discriminate.
  - intros [U _]. rewrite uses_usesb in U. discriminate U.
  - exists t. split; [exact Ef|]. rewrite Ep. apply R.
Qed.
Print Assumptions C27_instant.
Example C27_instant_example : fixed_datetime (-18000) 1582986605 = Ok (DateTime (Date 2020 2 29) (Time 9 30 5)) /\ first_second <= 1582986605 + -18000.
Proof. split; vm_compute; [reflexivity|discriminate]. Qed.

(** [isoformat] gives the ISO 8601 text, and the parser without a format reads it. *)
Theorem C27_isoformat (est nyc : zone) (pytz_name : text -> bool) (dt : datetime) :
  pytz_names pytz_name -> datetime_ok dt -> year (dt_date dt) <= 9999 ->
  exists t,
    isoformat dt = Ok t
    /\ t = digits 4 (year (dt_date dt)) ++ chars "-" ++ digits 2 (month (dt_date dt)) ++ chars "-" ++ digits 2 (day (dt_date dt))
           ++ chars "T" ++ digits 2 (hour (dt_time dt)) ++ chars ":" ++ digits 2 (minute (dt_time dt)) ++ chars ":" ++ digits 2 (second (dt_time dt))
    /\ parse est nyc pytz_name t = utc dt.
Proof.
  intros P ok small. pose proof (bounds dt ok small) as B. destruct B as (By & Bm & Bd & Bh & Bmi & Bs).
  eexists. split.
  { unfold isoformat, format. change (text_eqb (chars "%Y-%m-%dT%H:%M:%S") (chars "")) with false.
    destruct (format_ok dt ok small (chars "%Y-%m-%dT%H:%M:%S")) as (ts & E & M).
    { apply only_check. reflexivity. }
    { right. rewrite !uses_usesb. vm_compute. intuition discriminate. }
    unfold format in E. rewrite E. f_equal.
    assert (forall l t d, chars l = [d] -> means dt (Directive d) t -> In (l, t) (meaning dt)) as Look.
    { intros l t d Hl (l' & Hc & I). rewrite (chars_inj_letter l l' d Hl Hc). exact I. }
    assert (forall l t v, In (l, t) (meaning dt) -> find (fun p => String.eqb (fst p) l) (meaning dt) = Some (l, v) ->
              NoDup (map fst (meaning dt)) -> t = v) as Only.
    { intros l t v I F N. apply find_some in F as [F _].
      clear -I F N. induction (meaning dt) as [|[k w] M IH]; [destruct I|]. cbn [map fst] in N. inversion N as [|? ? Nk N']; subst.
      destruct I as [I|I], F as [F|F].
      - congruence.
      - exfalso. apply Nk. injection I as -> ->. apply (in_map fst) in F. exact F.
      - exfalso. apply Nk. injection F as -> ->. apply (in_map fst) in I. exact I.
      - apply IH; assumption. }
    assert (NoDup (map fst (meaning dt))) as N.
    { unfold meaning. cbn [map fst]. repeat constructor; cbn; intuition discriminate. }
    vm_compute (pieces _) in M.
    repeat match goal with H : Forall2 _ (_ :: _) _ |- _ => inversion H; clear H; subst end.
    match goal with H : Forall2 _ [] _ |- _ => inversion H; clear H; subst end.
    cbn [means] in *. subst. cbn [List.concat].
    repeat match goal with
    | H : exists letter, chars letter = [?d] /\ In (letter, ?t) (meaning dt) |- _ =>
        first [apply (Look "Y" t d eq_refl) in H; apply (fun I => Only "Y" t _ I eq_refl N) in H
              |apply (Look "m" t d eq_refl) in H; apply (fun I => Only "m" t _ I eq_refl N) in H
              |apply (Look "d" t d eq_refl) in H; apply (fun I => Only "d" t _ I eq_refl N) in H
              |apply (Look "H" t d eq_refl) in H; apply (fun I => Only "H" t _ I eq_refl N) in H
              |apply (Look "M" t d eq_refl) in H; apply (fun I => Only "M" t _ I eq_refl N) in H
              |apply (Look "S" t d eq_refl) in H; apply (fun I => Only "S" t _ I eq_refl N) in H]
    end.
    subst. rewrite app_nil_r. reflexivity. }
  split; [reflexivity|].
  assert (forall n, 0 <= n < 100 -> numeral (digits 2 n) n) as N2 by (intros n H; apply digits_numeral; exact H).
  assert (iso_date_text (digits 4 (year (dt_date dt)) ++ [45] ++ digits 2 (month (dt_date dt)) ++ [45] ++ digits 2 (day (dt_date dt)))
            (Date (year (dt_date dt)) (month (dt_date dt)) (day (dt_date dt)))) as Ia.
  { apply iso_day; [left; reflexivity|split; [apply digits_numeral; exact By|apply digits_length]|apply N2; lia..]. }
  assert (iso_time_text ([84] ++ digits 2 (hour (dt_time dt)) ++ chars ":" ++ digits 2 (minute (dt_time dt)) ++ chars ":" ++ digits 2 (second (dt_time dt)))
            (Time (hour (dt_time dt)) (minute (dt_time dt)) (second (dt_time dt)))) as Ib.
  { apply iso_second; [left; reflexivity|apply N2; lia..]. }
  pose proof (parse_iso_datetime est nyc pytz_name P None _ _ [] _ _ utc Ia Ib (no_zone est nyc)) as E.
  destruct dt as [[y m d] [h mi s]]. destruct ok as [Dok Tok]. cbn [dt_date dt_time year month day hour minute second] in *.
  specialize (E Dok Tok (or_introl eq_refl) eq_refl). rewrite app_nil_r, <- !app_assoc in E.
  unfold parse. match goal with |- match parse_iso _ _ _ _ ?t with _ => _ end = _ =>
    assert (parse_iso est nyc pytz_name None t = utc (DateTime (Date y m d) (Time h mi s))) as -> by exact E end. reflexivity.
Qed.
Print Assumptions C27_isoformat.

(** Noon written with AM and PM cannot be read. *)
Theorem C27_noon_refuted :
  ~ (forall est nyc dt, datetime_ok dt -> exists t, format dt (chars "%Y-%m-%d %I:%M:%S %p") = Ok t
       /\ parse_with_format est nyc (fun _ => false) t (chars "%Y-%m-%d %I:%M:%S %p") = utc dt).
Proof.
  intros H. destruct (H utc utc (DateTime (Date 2020 2 29) (Time 12 0 0))) as (t & E & P).
  - unfold datetime_ok, date_ok, time_ok, real_date. cbn. repeat split; try lia; vm_compute; discriminate.
  - vm_compute in E. injection E as <-. vm_compute in P. discriminate P.
Qed.
Print Assumptions C27_noon_refuted.
(** The directives for the zone always say UTC: an instant written in another zone is read as another instant. *)
Theorem C27_offset_refuted :
  ~ (forall est nyc offset ts dt, fixed_datetime offset ts = Ok dt -> exists t, format dt (chars "%Y-%m-%dT%H:%M:%S%z") = Ok t
       /\ parse_with_format est nyc (fun _ => false) t (chars "%Y-%m-%dT%H:%M:%S%z") = Ok ts).
Proof.
  intros H. destruct (H utc utc (-18000) 1582986605 (DateTime (Date 2020 2 29) (Time 9 30 5)) ltac:(vm_compute; reflexivity)) as (t & E & P).
  vm_compute in E. injection E as <-. vm_compute in P. discriminate P.
Qed.
Print Assumptions C27_offset_refuted.
(** The weekday of an earlier date cannot be written. *)
Theorem C27_weekday_refuted :
  ~ (forall dt, datetime_ok dt -> is_ok (format dt (chars "%a")) = true).
Proof.
  intros H. specialize (H (DateTime (Date 1969 12 26) (Time 0 0 0))). vm_compute in H.
  assert (false = true) as C; [|discriminate C]. apply H. repeat split; discriminate.
Qed.
Print Assumptions C27_weekday_refuted.
(** A year of five digits is written with five, and read with four. *)
Theorem C27_long_year_refuted :
  ~ (forall est nyc dt, datetime_ok dt -> exists t, format dt (chars "%Y-%m-%d") = Ok t
       /\ is_ok (parse_with_format est nyc (fun _ => false) t (chars "%Y-%m-%d")) = true).
Proof.
  intros H. destruct (H utc utc (DateTime (Date 12345 2 28) (Time 0 0 0))) as (t & E & P).
  - unfold datetime_ok, date_ok, time_ok, real_date. cbn. repeat split; try lia; vm_compute; discriminate.
  - vm_compute in E. injection E as <-. vm_compute in P. discriminate P.
Qed.
Print Assumptions C27_long_year_refuted.
(** A percent sign is written with %% and cannot be read with it. *)
Theorem C27_percent_refuted :
  ~ (forall est nyc dt, datetime_ok dt -> exists t, format dt (chars "%Y-%m-%d%%") = Ok t
       /\ is_ok (parse_with_format est nyc (fun _ => false) t (chars "%Y-%m-%d%%")) = true).
Proof.
  intros H. destruct (H utc utc afternoon afternoon_ok) as (t & E & P).
  vm_compute in E. injection E as <-. vm_compute in P. discriminate P.
Qed.
Print Assumptions C27_percent_refuted.

(** ** C55 *)

(** An ISO 8601 date and time, with an offset to the east, the name of a zone or neither, is read as the instant
    at which the clocks of that zone show it. *)
Theorem C55_iso_partial (est nyc : zone) (pytz_name : text -> bool) (a b c : text) (d : date) (t : time) (z : zone) :
  pytz_names pytz_name ->
  iso_date_text a d -> iso_time_text b t -> iso_zone_text est nyc c z -> date_ok d -> time_ok t ->
  is_ok (z (DateTime d t)) = true ->
  parse est nyc pytz_name (a ++ b ++ c) = z (DateTime d t).
Proof.
  intros P Ha Hb Hc Hd Ht Hz. unfold parse.
  rewrite (parse_iso_datetime est nyc pytz_name P None a b c d t z) by (assumption || (left; reflexivity) || reflexivity).
  destruct (z (DateTime d t)); [reflexivity|discriminate Hz].
Qed.
Print Assumptions C55_iso_partial.

(** A date alone is its midnight. *)
Theorem C55_iso_date (est nyc : zone) (pytz_name : text -> bool) (a : text) (d : date) :
  iso_date_text a d -> date_ok d -> parse est nyc pytz_name a = utc (DateTime d (Time 0 0 0)).
Proof. intros Ha Hd. unfold parse. rewrite (parse_iso_date est nyc pytz_name None a d Ha Hd). reflexivity. Qed.
Print Assumptions C55_iso_date.

(** With a zone as an argument, it is the zone's clocks that count, unless midnight does not exist that day. *)
Theorem C55_iso_zone_partial (est nyc : zone) (pytz_name : text -> bool) (a b : text) (d : date) (t : time) (z : zone) :
  pytz_names pytz_name ->
  iso_date_text a d -> iso_time_text b t -> date_ok d -> time_ok t ->
  is_ok (z (DateTime d (Time 0 0 0))) = true -> is_ok (z (DateTime d t)) = true ->
  parse_with_timezone est nyc pytz_name a z = z (DateTime d (Time 0 0 0))
  /\ parse_with_timezone est nyc pytz_name (a ++ b) z = z (DateTime d t).
Proof.
  intros P Ha Hb Hd Ht Hm Hz. unfold parse_with_timezone. split.
  - rewrite (parse_iso_date est nyc pytz_name (Some z) a d Ha Hd). cbn [chosen].
    destruct (z (DateTime d (Time 0 0 0))); [reflexivity|discriminate Hm].
  - pose proof (parse_iso_datetime est nyc pytz_name P (Some z) a b [] d t utc Ha Hb (no_zone est nyc) Hd Ht (or_intror eq_refl) Hm) as E.
    rewrite app_nil_r in E. rewrite E. destruct (z (DateTime d t)); [reflexivity|discriminate Hz].
Qed.
Print Assumptions C55_iso_zone_partial.

(** A date with the name of the month, or with the year last, and a time on a clock of twelve or of twenty-four hours. *)
Theorem C55_written_partial (est nyc : zone) (pytz_name : text -> bool) (a b : text) (d : date) (t : time) :
  written_date_text a d -> written_time_text b t -> date_ok d -> time_ok t ->
  parse est nyc pytz_name (a ++ b) = utc (DateTime d t)
  /\ forall z, parse_with_timezone est nyc pytz_name (a ++ b) z = z (DateTime d t).
Proof.
  intros Ha Hb Hd Ht. split; [apply parse_written_utc|intros z; apply parse_written_zone]; assumption.
Qed.
Print Assumptions C55_written_partial.

Lemma numeral_check t n : forallb is_digit t = true -> t <> [] -> number t = n -> numeral t n.
Proof.
  intros H N <-. clear - H N. induction t as [|c t IH] using rev_ind; [congruence|].
  rewrite forallb_app in H. apply andb_true_iff in H as [H Hc]. cbn [forallb] in Hc. unfold is_digit in Hc.
  replace c with (48 + (c - 48)) by lia. destruct t as [|x t].
  - cbn [app]. replace (number [48 + (c - 48)]) with (c - 48) by (unfold number; cbn [fold_left]; lia). constructor. lia.
  - rewrite number_snoc. replace (number (x :: t) * 10 + (48 + (c - 48) - 48)) with (10 * number (x :: t) + (c - 48)) by lia.
    constructor; [apply IH; [exact H|discriminate]|lia].
Qed.
Ltac a_numeral := apply numeral_check; [reflexivity|discriminate|reflexivity].
Example C55_iso_example (est nyc : zone) :
  iso_date_text (chars "2020-02-29") (Date 2020 2 29) /\ iso_time_text (chars "T14:30:05") (Time 14 30 5)
  /\ iso_zone_text est nyc (chars "+05:30") (fixed 19800) /\ datetime_ok afternoon.
Proof.
  split; [apply (iso_day 45 (chars "2020") (chars "02") (chars "29")); [left; reflexivity|split; [a_numeral|reflexivity]|a_numeral..]|].
  split; [apply (iso_second 84 (chars "14") (chars "30") (chars "05")); [left; reflexivity|a_numeral..]|].
  split; [|exact afternoon_ok].
  apply (zone_minutes est nyc (chars ":") (chars "05") (chars "30") 5 30); [left; reflexivity|split; [a_numeral|reflexivity]..].
Qed.
Example C55_written_example :
  written_date_text (chars "February 29, 2020") (Date 2020 2 29) /\ written_time_text (chars " 2:30:05 pm") (Time 14 30 5).
Proof.
  split.
  - apply (month_day_year (chars "February") (chars "29") (chars "2020") (chars ",")).
    + split; [lia|]. left. reflexivity.
    + split; [a_numeral|cbn; lia].
    + split; [a_numeral|reflexivity].
    + left. reflexivity.
  - apply (after_noon (chars "2:30:05") (chars " ") (chars "pm") 2 30 5).
    + apply (clock_second (chars "2") (chars "30") (chars "05")); a_numeral.
    + right. left. reflexivity.
    + reflexivity.
    + lia.
Qed.

(** An offset to the west is not read at all: the minus sign is taken for a separator. *)
Theorem C55_west_refuted (est nyc : zone) :
  parse est nyc (fun _ => false) (chars "2020-01-01T10:00-05:00") = utc (DateTime (Date 2020 1 1) (Time 0 0 0))
  /\ parse est nyc (fun _ => false) (chars "2020-01-01T10-05") = utc (DateTime (Date 2020 1 1) (Time 10 5 0)).
Proof. split; vm_compute; reflexivity. Qed.
Print Assumptions C55_west_refuted.
(** Half past twelve in the afternoon is an error, *)
Theorem C55_noon_refuted (est nyc : zone) :
  parse est nyc (fun _ => false) (chars "Jan 5, 2020 12:30 pm") = Err ValueError.
Proof. vm_compute. reflexivity. Qed.
Print Assumptions C55_noon_refuted.
(** so is a blank before the name of the zone, and behind a written date the zone is passed over. *)
Theorem C55_zone_refuted (est nyc : zone) :
  parse est nyc (fun _ => false) (chars "2020-02-29 10:00 UTC") = Err ValueError
  /\ parse est nyc (fun _ => false) (chars "Jan 5, 2020 2:30pm est") = utc (DateTime (Date 2020 1 5) (Time 14 30 0)).
Proof. split; vm_compute; reflexivity. Qed.
Print Assumptions C55_zone_refuted.
(** An offset right behind a date is taken for a time. *)
Theorem C55_date_offset_refuted (est nyc : zone) :
  parse est nyc (fun _ => false) (chars "2020-01-01+05:00") = utc (DateTime (Date 2020 1 1) (Time 5 0 0)).
Proof. vm_compute. reflexivity. Qed.
Print Assumptions C55_date_offset_refuted.
(** With a zone in which that day has no midnight, a time of day that does exist is refused. *)
Theorem C55_no_midnight_refuted :
  ~ (forall est nyc (z : zone), is_ok (z (DateTime (Date 2020 2 29) (Time 10 0 0))) = true ->
       is_ok (parse_with_timezone est nyc (fun _ => false) (chars "2020-02-29T10:00") z) = true).
Proof.
  intros H. specialize (H utc utc (fun dt => if hour (dt_time dt) =? 0 then Err NonexistentDateTime else utc dt)).
  vm_compute in H. discriminate (H eq_refl).
Qed.
Print Assumptions C55_no_midnight_refuted.

(** ** C56 *)

(** With a format, parsing raises ValueError or gives the timestamp of a date and time that exist, in a zone that the
    text names or in UTC; *)
Theorem C56_format (est nyc : zone) (pytz_name : text -> bool) (t fmt : text) :
  pytz_names pytz_name -> accepts_only [ValueError] (named_zone est nyc) (parse_with_format est nyc pytz_name t fmt).
Proof. intros P. apply format_accepts. exact P. Qed.
Print Assumptions C56_format.
(** with a zone as an argument, in that zone; the directives for a zone are then refused with another error. *)
Theorem C56_format_zone (est nyc : zone) (pytz_name : text -> bool) (t fmt : text) (z : zone) :
  pytz_names pytz_name -> accepts_only [ValueError; GenericError] (eq z) (parse_with_format_and_timezone est nyc pytz_name t fmt z).
Proof. intros P. apply format_zone_accepts. exact P. Qed.
Print Assumptions C56_format_zone.
(** Without a format there is one more error, IndexError.  [NotImplementedError] stands for fractions of a second,
    which the model does not have. *)
Theorem C56_parse_partial (est nyc : zone) (pytz_name : text -> bool) (t : text) :
  pytz_names pytz_name ->
  accepts_only [ValueError; NotImplementedError; IndexError] (named_zone est nyc) (parse est nyc pytz_name t).
Proof. intros P. apply parse_accepts. exact P. Qed.
Print Assumptions C56_parse_partial.
Theorem C56_parse_zone_partial (est nyc : zone) (pytz_name : text -> bool) (t : text) (z : zone) :
  pytz_names pytz_name ->
  accepts_only [ValueError; NotImplementedError; IndexError] (eq z) (parse_with_timezone est nyc pytz_name t z).
Proof. intros P. apply parse_zone_accepts. exact P. Qed.
Print Assumptions C56_parse_zone_partial.
(** So the 30th of February and the 25th hour are refused, however they are written. *)
Example C56_example (est nyc : zone) :
  parse est nyc (fun _ => false) (chars "2021-02-29") = Err ValueError
  /\ parse est nyc (fun _ => false) (chars "30 Feb 2020") = Err ValueError
  /\ parse_with_format est nyc (fun _ => false) (chars "2020-02-29 25:00") (chars "%Y-%m-%d %H:%M") = Err ValueError
  /\ parse est nyc (fun _ => false) (chars "") = Err ValueError.
Proof. repeat split; vm_compute; reflexivity. Qed.

(** Eight digits that are no date raise IndexError. *)
Theorem C56_eight_digits_refuted :
  ~ (forall est nyc t, accepts_only [ValueError] (named_zone est nyc) (parse est nyc (fun _ => false) t)).
Proof.
  intros H. specialize (H utc utc (chars "20201301")).
  assert (parse utc utc (fun _ => false) (chars "20201301") = Err IndexError) as E by (vm_compute; reflexivity). rewrite E in H.
  destruct H as [(e & [<-|[]] & X)|(z & dt & [->|[->|[off ->]]] & _ & X)]; discriminate X.
Qed.
Print Assumptions C56_eight_digits_refuted.
(** What the format says besides directives is not compared with the text, and a text may go on behind the format. *)
Theorem C56_literals_refuted (est nyc : zone) :
  parse_with_format est nyc (fun _ => false) (chars "2020x02y29zz") (chars "%Y-%m-%d") = utc (DateTime (Date 2020 2 29) (Time 0 0 0)).
Proof. vm_compute. reflexivity. Qed.
Print Assumptions C56_literals_refuted.
(** Times with too many or too few parts are read as midnight. *)
Theorem C56_bad_time_refuted (est nyc : zone) :
  Forall (fun t => parse est nyc (fun _ => false) (chars t) = utc (DateTime (Date 2020 2 29) (Time 0 0 0)))
    ["2020-02-29T123"; "2020-02-29T1:2:3:4"; "2020-02-29T"].
Proof. repeat constructor; vm_compute; reflexivity. Qed.
Print Assumptions C56_bad_time_refuted.
