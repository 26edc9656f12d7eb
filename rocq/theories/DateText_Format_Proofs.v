(** Proofs about the formatter, and about parsing with the same format. *)
From Coq Require Import String Ascii.
From Verif Require Import Base Chrono_Model Calendar_Spec Chrono_Proofs DateTime_Model DateTime_Spec DateTime_Proofs DateText_Model DateText_Spec.
From Coq Require Import ZifyBool ZifyNat.
Open Scope string_scope.
Open Scope Z_scope.
Open Scope list_scope.
Open Scope result_scope.

(** ** Numbers *)

Lemma below (p : Z -> bool) (n : nat) :
  forallb p (map Z.of_nat (seq 0 n)) = true -> forall k, 0 <= k < Z.of_nat n -> p k = true.
Proof.
  intros H k Hk. rewrite forallb_forall in H. apply H.
  replace k with (Z.of_nat (Z.to_nat k)) by lia. apply in_map, in_seq. lia.
Qed.

Lemma text_eqb_eq a b : text_eqb a b = true <-> a = b.
Proof.
  revert b; induction a as [|x a IH]; intros [|y b]; cbn [text_eqb]; try (split; congruence).
  rewrite andb_true_iff, Z.eqb_eq, IH. split; [intros [-> ->]; reflexivity|intros H; injection H; auto].
Qed.

Lemma f2d_ok n : 0 <= n < 100 -> f2d n = digits 2 n.
Proof. intros H. apply text_eqb_eq. apply (below (fun n => text_eqb (f2d n) (digits 2 n)) 100); [vm_compute; reflexivity|lia]. Qed.
Lemma f3d_ok n : 0 <= n < 1000 -> f3d n = digits 3 n.
Proof. intros H. apply text_eqb_eq. apply (below (fun n => text_eqb (f3d n) (digits 3 n)) 1000); [vm_compute; reflexivity|lia]. Qed.
Lemma f4d_ok n : 0 <= n < 10000 -> f4d n = digits 4 n.
Proof.
  intros H. apply text_eqb_eq.
  apply (below (fun n => text_eqb (f4d n) (digits 4 n)) (Z.to_nat 10000)); [vm_compute; reflexivity|rewrite Z2Nat.id; lia].
Qed.
Lemma str_digit n : 0 <= n < 10 -> str n = digits 1 n.
Proof. intros H. apply text_eqb_eq. apply (below (fun n => text_eqb (str n) (digits 1 n)) 10); [vm_compute; reflexivity|lia]. Qed.

Lemma digits_length w n : List.length (digits w n) = w.
Proof. revert n; induction w as [|w IH]; intros n; cbn [digits]; [reflexivity|]. rewrite app_length, IH. cbn. lia. Qed.

Lemma digit_is_digit k : 0 <= k < 10 -> is_digit (48 + k) = true.
Proof. unfold is_digit. lia. Qed.

Lemma digits_are w n : forallb is_digit (digits w n) = true.
Proof.
  revert n; induction w as [|w IH]; intros n; cbn [digits]; [reflexivity|].
  rewrite forallb_app, IH. cbn [forallb]. rewrite digit_is_digit; [reflexivity|].
  apply Z.mod_pos_bound. lia.
Qed.

Lemma number_snoc t c : number (t ++ [c]) = number t * 10 + (c - 48).
Proof. unfold number. rewrite fold_left_app. reflexivity. Qed.

Lemma number_digits w n : 0 <= n < 10 ^ Z.of_nat w -> number (digits w n) = n.
Proof.
  revert n; induction w as [|w IH]; intros n H.
  - replace (10 ^ Z.of_nat 0) with 1 in H by reflexivity. cbn. lia.
  - cbn [digits]. rewrite number_snoc.
    replace (10 ^ Z.of_nat (S w)) with (10 * 10 ^ Z.of_nat w) in H
      by (rewrite Nat2Z.inj_succ, Z.pow_succ_r; lia).
    rewrite IH by (split; [apply Z.div_pos; lia|apply Z.div_lt_upper_bound; lia]).
    pose proof (Z.div_mod n 10 ltac:(lia)). lia.
Qed.

Lemma all_digits w n : (w <> 0)%nat -> all is_digit (digits w n) = true.
Proof.
  intros H. unfold all. pose proof (digits_are w n) as E. pose proof (digits_length w n) as L.
  destruct (digits w n); [cbn in L; lia|exact E].
Qed.

Lemma int_of_digits w n : (w <> 0)%nat -> 0 <= n < 10 ^ Z.of_nat w -> int_of (digits w n) = Ok n.
Proof. intros H Hn. unfold int_of. rewrite all_digits by exact H. rewrite number_digits by exact Hn. reflexivity. Qed.

Lemma firstn_exact {A} (a b : list A) : firstn (List.length a) (a ++ b) = a.
Proof. rewrite firstn_app, Nat.sub_diag, firstn_all. cbn. apply app_nil_r. Qed.
Lemma skipn_exact {A} (a b : list A) : skipn (List.length a) (a ++ b) = b.
Proof. rewrite skipn_app, Nat.sub_diag, skipn_all. reflexivity. Qed.
Lemma firstn_digits w n b : firstn w (digits w n ++ b) = digits w n.
Proof. rewrite <- (digits_length w n) at 1. apply firstn_exact. Qed.
Lemma skipn_digits w n b : skipn w (digits w n ++ b) = b.
Proof. rewrite <- (digits_length w n) at 1. apply skipn_exact. Qed.

Lemma two_digits_ok n rest : 0 <= n < 100 -> two_digits (digits 2 n ++ rest) = Ok (n, rest).
Proof.
  intros H. unfold two_digits, is2d. rewrite firstn_digits, skipn_digits, digits_length, all_digits by lia.
  cbn [Nat.eqb andb]. rewrite int_of_digits by lia. reflexivity.
Qed.

Lemma lower_digits w n : lower (digits w n) = digits w n.
Proof.
  pose proof (digits_are w n) as H. unfold lower. induction (digits w n) as [|c t IH]; [reflexivity|].
  cbn [forallb] in H. cbn [map]. rewrite IH by lia. f_equal.
  unfold lower_char, is_upper, is_digit in *. destruct ((65 <=? c) && (c <=? 90)) eqn:E; lia.
Qed.

Lemma lower_app a b : lower (a ++ b) = lower a ++ lower b.
Proof. apply map_app. Qed.

Lemma lower_lower t : lower (lower t) = lower t.
Proof.
  unfold lower. rewrite map_map. apply map_ext. intros c. unfold lower_char, is_upper.
  destruct ((65 <=? c) && (c <=? 90)) eqn:E; [|rewrite E; reflexivity].
  destruct ((65 <=? c + 32) && (c + 32 <=? 90)) eqn:E'; lia.
Qed.

Lemma lower_lowercase t : lowercase (lower t).
Proof.
  unfold lowercase, lower. induction t as [|c t IH]; [reflexivity|]. cbn [map forallb]. rewrite IH.
  unfold lower_char. destruct (is_upper c) eqn:E; [|rewrite E; reflexivity].
  unfold is_upper in *. lia.
Qed.

(** ** Formats *)

Lemma fmt_ind (P : text -> Prop) :
  P [] -> (forall c, P [c]) ->
  (forall d r, P r -> P (37 :: d :: r)) ->
  (forall c d r, c <> 37 -> P (d :: r) -> P (c :: d :: r)) ->
  forall fmt, P fmt.
Proof.
  intros H0 H1 H2 H3 fmt.
  enough (forall n fmt, (List.length fmt <= n)%nat -> P fmt) as E by (eapply E; apply le_n).
  clear fmt. intros n; induction n as [|n IH]; intros [|c [|d r]] L; cbn [List.length] in L; auto; try lia.
  destruct (Z.eq_dec c 37) as [->|N]; [apply H2|apply H3; [exact N|]]; apply IH; cbn [List.length]; lia.
Qed.

Lemma is_iff d l : is d l = true <-> chars l = [d].
Proof. unfold is. rewrite text_eqb_eq. split; congruence. Qed.

Section Range.
  Variable dt : datetime.
  Hypothesis ok : datetime_ok dt.
  Hypothesis small : year (dt_date dt) <= 9999.

  Lemma bounds : 0 <= year (dt_date dt) < 10000 /\ 1 <= month (dt_date dt) <= 12 /\ 1 <= day (dt_date dt) <= 31
                 /\ 0 <= hour (dt_time dt) < 24 /\ 0 <= minute (dt_time dt) < 60 /\ 0 <= second (dt_time dt) < 60.
  Proof.
    destruct ok as [[Hy [Hm Hd]] [Hh [Hmi Hs]]]. repeat split; try lia.
    pose proof (month_length_bounds (year (dt_date dt)) _ Hm). lia.
  Qed.

  (** The day of the year and the weekday. *)
  Lemma weekday_ok : -5 <= daysSinceEpoch (dt_date dt) -> weekday (dt_date dt) = (daysSinceEpoch (dt_date dt) + 4) mod 7.
  Proof.
    intros H. unfold weekday, weekday_from_days.
    destruct (-4 <=? daysSinceEpoch (dt_date dt)) eqn:E; [reflexivity|].
    replace (daysSinceEpoch (dt_date dt)) with (-5) by lia. reflexivity.
  Qed.

  Lemma month_cases (P : Z -> Prop) :
    P 1 -> P 2 -> P 3 -> P 4 -> P 5 -> P 6 -> P 7 -> P 8 -> P 9 -> P 10 -> P 11 -> P 12 -> P (month (dt_date dt)).
  Proof.
    intros. pose proof bounds as B. set (m := month (dt_date dt)) in *.
    assert (m = 1 \/ m = 2 \/ m = 3 \/ m = 4 \/ m = 5 \/ m = 6 \/ m = 7 \/ m = 8 \/ m = 9 \/ m = 10 \/ m = 11 \/ m = 12) as E by lia.
    repeat (destruct E as [->|E]; [assumption|]). rewrite E. assumption.
  Qed.

  Lemma dayOfYear_ok :
    dayOfYear (dt_date dt) = daysSinceEpoch (dt_date dt) - daysSinceEpoch (Date (year (dt_date dt)) 1 1) + 1
    /\ 0 <= dayOfYear (dt_date dt) < 1000.
  Proof.
    pose proof bounds as B. split.
    - unfold dayOfYear, daysSinceEpoch. apply day_of_year_correct. apply ok.
    - unfold dayOfYear, day_of_year.
      set (m := month (dt_date dt)) in *. set (d := day (dt_date dt)) in *.
      assert (0 <= (153 * (if 2 <? m then m - 3 else m + 9) + 2) / 5 <= 400).
      { split; [apply Z.div_pos; destruct (2 <? m) eqn:E; lia|].
        apply Z.div_le_upper_bound; destruct (2 <? m) eqn:E; lia. }
      set (x := (153 * _ + 2) / 5) in *.
      set (doy := if 365 <? x + d - 1 + 60 then _ else _).
      assert (0 <= doy <= 600); [|destruct ((2 <? m) && _); lia].
      unfold doy. destruct (365 <? _); [|lia].
      pose proof (Z.mod_pos_bound (x + d - 1 + 60) 365 ltac:(lia)). lia.
  Qed.

  Definition plain (letter : string) : Prop := ~ In letter ["a"; "A"; "w"; "u"].

  Lemma twelve h : 0 <= h < 24 -> convert_to_12h h = (h + 11) mod 12 + 1.
  Proof.
    intros H. apply Z.eqb_eq.
    apply (below (fun h => convert_to_12h h =? (h + 11) mod 12 + 1) 24); [vm_compute; reflexivity|lia].
  Qed.

  Lemma directive_ok letter d t :
    In (letter, t) (meaning dt) -> chars letter = [d] ->
    (plain letter \/ -5 <= daysSinceEpoch (dt_date dt)) ->
    format_directive dt d = Ok t.
  Proof.
    intros Hin Hc Hw. pose proof bounds as B. destruct dayOfYear_ok as [Hj Hjb].
    assert (In letter ["a"; "A"; "w"; "u"] -> weekday (dt_date dt) = (daysSinceEpoch (dt_date dt) + 4) mod 7) as W.
    { intros Hl. destruct Hw as [Hp|Hw]; [elim (Hp Hl)|apply weekday_ok, Hw]. }
    pose proof (Z.mod_pos_bound (daysSinceEpoch (dt_date dt) + 4) 7 ltac:(lia)) as Wb.
    pose proof (Z.mod_pos_bound (hour (dt_time dt) + 11) 12 ltac:(lia)) as Hb.
    pose proof (Z.mod_pos_bound (year (dt_date dt)) 100 ltac:(lia)) as Yb.
    assert (0 <= year (dt_date dt) / 100 < 100) as Cb by (split; [apply Z.div_pos|apply Z.div_lt_upper_bound]; lia).
    unfold meaning in Hin. cbn [In] in Hin.
    set (w := (daysSinceEpoch (dt_date dt) + 4) mod 7) in *.
    assert (w = 0 \/ w = 1 \/ w = 2 \/ w = 3 \/ w = 4 \/ w = 5 \/ w = 6) as Wc by lia.
    repeat (destruct Hin as [Hin|Hin]; [injection Hin as <- <-; injection Hc as <-; unfold format_directive; cbn [is text_eqb chars];
      cbn -[f2d f3d f4d digits weekday dayOfYear month_name day_name daysSinceEpoch convert_to_12h lookup str firstn]|]); try (destruct Hin).
    all: try (rewrite ?f2d_ok, ?f4d_ok by lia; reflexivity).
    all: try (pattern (month (dt_date dt)); apply month_cases; reflexivity).
    all: try (rewrite Hj in *; rewrite f3d_ok by lia; reflexivity).
    all: try (rewrite twelve, f2d_ok by lia; reflexivity).
    all: try (rewrite W by (cbn; tauto); destruct Wc as [->|[->|[->|[->|[->|[->| ->]]]]]]; reflexivity).
    all: try (destruct (hour (dt_time dt) <? 12); reflexivity).
    all: reflexivity.
  Qed.
End Range.

(** ** Formatting *)

Lemma chars_inj_letter a b d : chars a = [d] -> chars b = [d] -> a = b.
Proof.
  unfold chars. intros Ha Hb. destruct a as [|x [|x' a]]; try discriminate. destruct b as [|y [|y' b]]; try discriminate.
  cbn in Ha, Hb. injection Ha as Ha. injection Hb as Hb.
  assert (N_of_ascii x = N_of_ascii y) as E by lia.
  apply (f_equal ascii_of_N) in E. rewrite !ascii_N_embedding in E. congruence.
Qed.

Lemma letter_meaning dt letter : In letter all_letters -> exists t, In (letter, t) (meaning dt).
Proof.
  intros H. unfold all_letters in H. cbn [In] in H. unfold meaning. cbn [In].
  repeat (destruct H as [<-|H]; [eexists; tauto|]). destruct H.
Qed.

Section Format.
  Variable dt : datetime.
  Hypothesis ok : datetime_ok dt.
  Hypothesis small : year (dt_date dt) <= 9999.

  Lemma only_tail letters p fmt fmt' : pieces fmt = p :: pieces fmt' -> only letters fmt -> only letters fmt'.
  Proof. intros E H d Hd. apply H. rewrite E. right. exact Hd. Qed.
  Lemma uses_tail p fmt fmt' l : pieces fmt = p :: pieces fmt' -> uses fmt' l -> uses fmt l.
  Proof. intros E (d & Hc & Hd). exists d. split; [exact Hc|]. rewrite E. right. exact Hd. Qed.

  Lemma format_loop_ok fmt :
    only all_letters fmt -> weekday_fine dt fmt ->
    exists ts, format_loop dt fmt = Ok (List.concat ts) /\ Forall2 (means dt) (pieces fmt) ts.
  Proof.
    induction fmt as [|c|d r IH|c d r N IH] using fmt_ind; intros Ho Hw.
    - exists []. split; [reflexivity|constructor].
    - exists [[c]]. split; [reflexivity|repeat constructor].
    - assert (pieces (37 :: d :: r) = Directive d :: pieces r) as E by reflexivity.
      destruct (Ho d ltac:(rewrite E; left; reflexivity)) as (l & Hl & Hc).
      destruct (letter_meaning dt l Hl) as (t & Ht).
      destruct IH as (ts & Hf & Hm).
      { eapply only_tail; eassumption. }
      { destruct Hw as [Hw|Hw]; [left; exact Hw|right]. intros H. apply Hw.
        repeat (destruct H as [H|H]; [apply (uses_tail _ _ _ _ E) in H; tauto|]). apply (uses_tail _ _ _ _ E) in H. tauto. }
      exists (t :: ts). split.
      + cbn [format_loop]. rewrite Z.eqb_refl. rewrite (directive_ok dt ok small l d t Ht Hc).
        * cbn [bind]. rewrite Hf. reflexivity.
        * destruct Hw as [Hw|Hw]; [right; exact Hw|left]. intros Hin. apply Hw.
          assert (uses (37 :: d :: r) l) as U by (exists d; split; [exact Hc|rewrite E; left; reflexivity]).
          cbn [In] in Hin. destruct Hin as [<-|[<-|[<-|[<-|[]]]]]; tauto.
      + rewrite E. constructor; [|exact Hm]. exists l. split; assumption.
    - assert (pieces (c :: d :: r) = Literal c :: pieces (d :: r)) as E.
      { cbn [pieces]. destruct (Z.eqb_spec c 37); [contradiction|reflexivity]. }
      destruct IH as (ts & Hf & Hm).
      { eapply only_tail; eassumption. }
      { destruct Hw as [Hw|Hw]; [left; exact Hw|right]. intros H. apply Hw.
        repeat (destruct H as [H|H]; [apply (uses_tail _ _ _ _ E) in H; tauto|]). apply (uses_tail _ _ _ _ E) in H. tauto. }
      exists ([c] :: ts). split.
      + cbn [format_loop]. cbn [format_loop] in Hf. destruct (Z.eqb_spec c 37); [contradiction|]. rewrite Hf. reflexivity.
      + rewrite E. constructor; [reflexivity|exact Hm].
  Qed.

  (** The short cuts give what the loop gives. *)
  Lemma format_is_loop fmt : format dt fmt = format_loop dt fmt.
  Proof using ok small.
    unfold format. cbv zeta.
    destruct (text_eqb fmt (chars "%Y-%m-%d")) eqn:E.
    { apply text_eqb_eq in E as ->.
      cbn -[f2d f4d weekday dayOfYear]. rewrite ?app_nil_r, <- ?app_assoc. reflexivity. }
    destruct (text_eqb fmt (chars "%Y-%m-%d %H:%M:%S")) eqn:E'; [|reflexivity].
    apply text_eqb_eq in E' as ->.
    cbn -[f2d f4d weekday dayOfYear]. rewrite ?app_nil_r, <- ?app_assoc. reflexivity.
  Qed.

  Lemma format_ok fmt :
    only all_letters fmt -> weekday_fine dt fmt ->
    exists ts, format dt fmt = Ok (List.concat ts) /\ Forall2 (means dt) (pieces fmt) ts.
  Proof. rewrite format_is_loop. apply format_loop_ok. Qed.
End Format.

(** ** Parsing what was formatted *)

Section RoundTrip.
  Variables est nyc : zone.
  Variable pytz_name : text -> bool.
  (** Every name in pytz.all_timezones has a capital letter. *)
  Hypothesis pytz_capital : forall t, pytz_name t = true -> ~ lowercase t.
  Variable dt : datetime.
  Hypothesis ok : datetime_ok dt.
  Hypothesis small : year (dt_date dt) <= 9999.

  (** What reading a directive leaves behind. *)
  Definition after (f : fields) (d : Z) : fields :=
    let '(Fields y m dd h mi s tz ap) := f in
    if is d "Y" then Fields (year (dt_date dt)) m dd h mi s tz ap
    else if is d "m" || is d "b" || is d "B" then Fields y (month (dt_date dt)) dd h mi s tz ap
    else if is d "d" then Fields y m (day (dt_date dt)) h mi s tz ap
    else if is d "H" then Fields y m dd (hour (dt_time dt)) mi s tz ap
    else if is d "I" then Fields y m dd ((hour (dt_time dt) + 11) mod 12 + 1) mi s tz ap
    else if is d "M" then Fields y m dd h (minute (dt_time dt)) s tz ap
    else if is d "S" then Fields y m dd h mi (second (dt_time dt)) tz ap
    else if is d "p" then Fields y m dd h mi s tz (if hour (dt_time dt) <? 12 then chars "am" else chars "pm")
    else if is d "Z" then Fields y m dd h mi s (chars "utc") ap
    else Fields y m dd h mi s (chars "+0000") ap.

  Lemma longest_month_ok n rest :
    1 <= n <= 12 ->
    longest_month [9; 8; 7; 6; 5; 4; 3]%nat (lower (month_name n) ++ rest) = Ok (n, rest).
  Proof.
    intros H.
    assert (n = 1 \/ n = 2 \/ n = 3 \/ n = 4 \/ n = 5 \/ n = 6 \/ n = 7 \/ n = 8 \/ n = 9 \/ n = 10 \/ n = 11 \/ n = 12) as E by lia.
    repeat (destruct E as [->|E]); [..|subst n].
    all: do 6 (destruct rest as [|? rest]; [reflexivity|]); reflexivity.
  Qed.

  Lemma first_zone_utc rest :
    lowercase rest ->
    first_zone est nyc pytz_name [4; 4; 3; 2]%nat (chars "utc" ++ rest) = Ok (chars "utc", rest).
  Proof.
    intros Hr. destruct rest as [|c rest]; [reflexivity|].
    assert (is_valid_timezone est nyc pytz_name (firstn 4 (chars "utc" ++ c :: rest)) = false) as E.
    { change (firstn 4 (chars "utc" ++ c :: rest)) with [117; 116; 99; c].
      unfold lowercase in Hr. cbn [forallb] in Hr. apply andb_true_iff in Hr as [Hc _].
      unfold is_valid_timezone.
      replace (lower [117; 116; 99; c]) with [117; 116; 99; c]
        by (cbn; unfold lower_char; destruct (is_upper c); [discriminate|reflexivity]).
      cbn. destruct (pytz_name [117; 116; 99; c]) eqn:P; [|reflexivity].
      elim (pytz_capital _ P). unfold lowercase. cbn. rewrite Hc. reflexivity. }
    cbn [first_zone]. rewrite E. reflexivity.
  Qed.

  Lemma parse_directive_ok zg f d l t rest :
    lowercase rest -> In l (read_letters zg) -> chars l = [d] -> In (l, t) (meaning dt) ->
    parse_directive est nyc pytz_name zg f (lower t ++ rest) d = Ok (after f d, rest).
  Proof.
    intros Hr Hl Hc Ht. pose proof (bounds dt ok small) as B.
    pose proof (Z.mod_pos_bound (hour (dt_time dt) + 11) 12 ltac:(lia)) as Hb.
    destruct f as [y m dd h mi s tz ap].
    unfold meaning in Ht. cbn [In] in Ht.
    repeat (destruct Ht as [Ht|Ht]; [apply pair_equal_spec in Ht as [<- <-]; injection Hc as <-|]); try (destruct Ht).
    all: try (exfalso; clear - Hl; destruct zg; cbn in Hl; intuition discriminate).
    all: rewrite ?lower_digits.
    all: unfold parse_directive, after;
      repeat match goal with |- context [is ?d ?l] => let b := eval vm_compute in (is d l) in change (is d l) with b end;
      cbn match; cbn [orb].
    all: try (rewrite two_digits_ok by lia; reflexivity).
    - unfold is4d. rewrite firstn_digits, skipn_digits, digits_length, all_digits by lia.
      cbn [Nat.eqb andb]. rewrite int_of_digits by lia. reflexivity.
    - pattern (month (dt_date dt)). apply month_cases; try assumption; reflexivity.
    - rewrite longest_month_ok by lia. reflexivity.
    - destruct (hour (dt_time dt) <? 12); reflexivity.
    - destruct zg; [cbn in Hl; intuition discriminate|].
      change (lower (chars "UTC")) with (chars "utc"). rewrite first_zone_utc by exact Hr. reflexivity.
    - destruct zg; [cbn in Hl; intuition discriminate|]. reflexivity.
  Qed.

  Definition after_piece (f : fields) (p : piece) : fields := match p with Directive d => after f d | Literal _ => f end.

  Lemma parse_loop_ok zg fmt f ts :
    only (read_letters zg) fmt -> Forall2 (means dt) (pieces fmt) ts ->
    parse_loop est nyc pytz_name zg f fmt (lower (List.concat ts)) = Ok (fold_left after_piece (pieces fmt) f, []).
  Proof.
    revert f ts. induction fmt as [|c|d r IH|c d r N IH] using fmt_ind; intros f ts Ho Hm.
    - inversion Hm. reflexivity.
    - inversion Hm as [|p t ps ts' H1 H2]; subst. inversion H2; subst. cbn in H1. subst t. reflexivity.
    - assert (pieces (37 :: d :: r) = Directive d :: pieces r) as E by reflexivity.
      rewrite E in Hm. inversion Hm as [|p t ps ts' H1 H2]; subst.
      destruct (Ho d ltac:(rewrite E; left; reflexivity)) as (l & Hl & Hc).
      destruct H1 as (l' & Hc' & Ht). assert (l' = l) as -> by (eapply chars_inj_letter; eassumption).
      cbn [List.concat parse_loop]. rewrite Z.eqb_refl, lower_app.
      rewrite (parse_directive_ok zg f d l t) by (assumption || apply lower_lowercase).
      cbn [bind]. rewrite IH by (assumption || (eapply only_tail; eassumption)). reflexivity.
    - assert (pieces (c :: d :: r) = Literal c :: pieces (d :: r)) as E.
      { cbn [pieces]. destruct (Z.eqb_spec c 37); [contradiction|reflexivity]. }
      rewrite E in *. inversion Hm as [|p t ps ts' H1 H2]; subst. cbn in H1. subst t.
      specialize (IH f ts' (only_tail _ _ _ _ E Ho) H2).
      cbn [fold_left after_piece]. rewrite <- IH.
      cbn [List.concat]. rewrite lower_app. cbn [parse_loop].
      destruct (Z.eqb_spec c 37); [contradiction|]. reflexivity.
  Qed.

  (** A field after the loop. *)
  Lemma field_after {A} (pi : fields -> A) (q : Z -> Prop) (v : A) ps f :
    (forall d f, In (Directive d) ps -> q d -> pi (after f d) = v) ->
    (forall d f, In (Directive d) ps -> ~ q d -> pi (after f d) = pi f) ->
    (forall d, q d \/ ~ q d) ->
    (exists d, In (Directive d) ps /\ q d) /\ pi (fold_left after_piece ps f) = v
    \/ ~ (exists d, In (Directive d) ps /\ q d) /\ pi (fold_left after_piece ps f) = pi f.
  Proof using Type.
    intros H1 H2 Hq. revert f. induction ps as [|p ps IH] using rev_ind; intros f.
    - right. split; [|reflexivity]. intros (d & [] & _).
    - rewrite fold_left_app. cbn [fold_left].
      assert (forall d, In (Directive d) ps -> In (Directive d) (ps ++ [p])) as I by (intros; apply in_or_app; tauto).
      destruct p as [c|d]; cbn [after_piece].
      + destruct (IH ltac:(eauto) ltac:(eauto) f) as [[(d & Hd & Hqd) E]|[Hn E]].
        * left. split; [exists d; split; [apply I|]; assumption|exact E].
        * right. split; [|exact E]. intros (d & Hd & Hqd). apply Hn. exists d. split; [|exact Hqd].
          apply in_app_or in Hd as [Hd|[Hd|[]]]; [exact Hd|discriminate].
      + assert (In (Directive d) (ps ++ [Directive d])) as L by (apply in_or_app; right; left; reflexivity).
        destruct (Hq d) as [Hd|Hd].
        * left. split; [exists d; split; assumption|apply H1; assumption].
        * rewrite (H2 d _ L Hd). destruct (IH ltac:(eauto) ltac:(eauto) f) as [[(d' & Hd' & Hqd) E]|[Hn E]].
          -- left. split; [exists d'; split; [apply I|]; assumption|exact E].
          -- right. split; [|exact E]. intros (d' & Hd' & Hqd). apply Hn. exists d'. split; [|exact Hqd].
             apply in_app_or in Hd' as [Hd'|[Hd'|[]]]; [exact Hd'|congruence].
  Qed.

  Lemma mk_datetime_ok : mk_datetime (year (dt_date dt)) (month (dt_date dt)) (day (dt_date dt))
                           (hour (dt_time dt)) (minute (dt_time dt)) (second (dt_time dt)) = Ok dt.
  Proof using ok small.
    destruct ok as [[Hy Hd] Ht]. unfold mk_datetime. rewrite mk_date_ok by assumption. cbn [bind].
    unfold mk_time, is_valid_time. replace (_ && _) with true by (unfold time_ok in Ht; lia).
    destruct dt as [[y m d] [h mi s]]. reflexivity.
  Qed.

  Lemma finish_ok zg F z :
    f_year F = year (dt_date dt) ->
    (f_month F = month (dt_date dt) \/ f_month F = -1 /\ month (dt_date dt) = 1 /\ f_day F = -1) ->
    (f_day F = day (dt_date dt) \/ f_day F = -1 /\ day (dt_date dt) = 1) ->
    (f_ampm F = [] /\ f_hour F = hour (dt_time dt)
     \/ f_ampm F = (if hour (dt_time dt) <? 12 then chars "am" else chars "pm")
        /\ f_hour F = (hour (dt_time dt) + 11) mod 12 + 1 /\ hour (dt_time dt) <> 12) ->
    f_minute F = minute (dt_time dt) -> f_second F = second (dt_time dt) ->
    match zg with Some z' => z' = z | None => get_timezone_from_string est nyc pytz_name (f_zone F) = Ok z end ->
    finish est nyc pytz_name zg F = z dt.
  Proof.
    pose proof (bounds dt ok small) as B. destruct F as [y m d h mi s tz ap]. cbn [f_year f_month f_day f_hour f_minute f_second f_zone f_ampm].
    intros -> Hm Hd Hh -> -> Hz. unfold finish.
    assert (match ap with
         | [] => Ok h
         | _ :: _ =>
             if (12 <? h) || (h <? 1) then Err ValueError
             else Ok (if text_eqb ap (chars "am") && (h =? 12) then 0 else if text_eqb ap (chars "pm") then h + 12 else h)
         end = Ok (hour (dt_time dt))) as ->.
    { destruct Hh as [[-> ->]|(-> & -> & Hn)]; [reflexivity|].
      set (k := hour (dt_time dt)) in *. clearbody k.
      assert (0 <= k < Z.of_nat 24) as Hk by lia.
      pose proof (below (fun k => (k =? 12) || match (match (if k <? 12 then chars "am" else chars "pm") with
         | [] => Ok ((k + 11) mod 12 + 1)
         | _ :: _ =>
             if (12 <? (k + 11) mod 12 + 1) || ((k + 11) mod 12 + 1 <? 1) then Err ValueError
             else Ok (if text_eqb (if k <? 12 then chars "am" else chars "pm") (chars "am") && ((k + 11) mod 12 + 1 =? 12) then 0
                      else if text_eqb (if k <? 12 then chars "am" else chars "pm") (chars "pm") then (k + 11) mod 12 + 1 + 12 else (k + 11) mod 12 + 1)
         end) with Ok x => x =? k | Err _ => false end) 24 ltac:(vm_compute; reflexivity) k Hk) as E.
      cbv beta in E. apply orb_true_iff in E as [E|E]; [lia|].
      destruct (match (if k <? 12 then chars "am" else chars "pm") with [] => _ | _ => _ end); [|discriminate].
      apply Z.eqb_eq in E as ->. reflexivity. }
    cbn [bind].
    assert (is_valid_date (year (dt_date dt)) m d = true) as ->.
    { destruct ok as [[Hy Hr] _].
      destruct Hd as [->|[-> Ed]].
      - destruct Hm as [->|(-> & _ & Hd)]; [|lia]. apply is_valid_date_real; try lia. split; assumption.
      - unfold is_valid_date. replace (-1 <? year (dt_date dt)) with true by lia.
        replace (-1 <? -1) with false by reflexivity. rewrite ?andb_false_r, ?andb_true_r. cbn [negb andb].
        destruct Hm as [->|(-> & _ & _)]; [|reflexivity].
        replace ((month (dt_date dt) <? 1) || (12 <? month (dt_date dt))) with false by lia.
        rewrite andb_false_r. reflexivity. }
    replace (is_valid_time (hour (dt_time dt)) (minute (dt_time dt)) (second (dt_time dt))) with true by (unfold is_valid_time; lia).
    cbn [negb].
    replace (if m =? -1 then 1 else m) with (month (dt_date dt)) by (destruct Hm as [->|(-> & -> & _)]; [destruct (_ =? _) eqn:E; lia|reflexivity]).
    replace (if d =? -1 then 1 else d) with (day (dt_date dt)) by (destruct Hd as [->|(-> & ->)]; [destruct (_ =? _) eqn:E; lia|reflexivity]).
    replace (match zg with Some z => Ok z | None => get_timezone_from_string est nyc pytz_name tz end) with (Ok z)
      by (destruct zg; [subst; reflexivity|symmetry; exact Hz]).
    cbn [bind]. rewrite mk_datetime_ok. reflexivity.
  Qed.

  Lemma uses_iff ps fmt l : pieces fmt = ps -> uses fmt l <-> exists d, In (Directive d) ps /\ is d l = true.
  Proof using Type.
    intros <-. unfold uses. split; intros (d & H1 & H2); exists d; split; try assumption; apply is_iff; assumption.
  Qed.

  Lemma is_unique d a b : is d a = true -> is d b = true -> a = b.
  Proof using Type. rewrite !is_iff. apply chars_inj_letter. Qed.

  Ltac field := match goal with f : fields |- _ => destruct f end; unfold after;
    repeat match goal with |- context [if ?b then _ else _] => destruct b end; reflexivity.
  Lemma after_year d f : f_year (after f d) = if is d "Y" then year (dt_date dt) else f_year f.
  Proof using Type. field. Qed.
  Lemma other_letter d a b : is d a = true -> a <> b -> is d b = false.
  Proof using Type. intros Ha N. destruct (is d b) eqn:E; [|reflexivity]. elim N. eapply is_unique; eassumption. Qed.
  Lemma after_month d f :
    f_month (after f d) = if is d "m" || is d "b" || is d "B" then month (dt_date dt) else f_month f.
  Proof using Type.
    destruct (is d "Y") eqn:E; [|destruct f; unfold after; rewrite E; repeat match goal with |- context [if ?b then _ else _] => destruct b end; reflexivity].
    destruct f. unfold after. rewrite E.
    rewrite (other_letter d "Y" "m"), (other_letter d "Y" "b"), (other_letter d "Y" "B") by (assumption || discriminate). reflexivity.
  Qed.

  (** Directives are one letter: the tests for two different letters do not both succeed. *)
  Ltac letters d :=
    match goal with
    | |- context [is d ?l] =>
        let E := fresh "E" in
        destruct (is d l) eqn:E;
        [repeat match goal with
                | |- context [is d ?l'] => rewrite (other_letter d l l' E) by discriminate
                end; cbn [orb]; cbn match|cbn [orb]]
    end.
  Ltac field' d := match goal with f : fields |- _ => destruct f end; unfold after; repeat letters d; reflexivity.
  Lemma after_day d f : f_day (after f d) = if is d "d" then day (dt_date dt) else f_day f.
  Proof using Type. field' d. Qed.
  Lemma after_minute d f : f_minute (after f d) = if is d "M" then minute (dt_time dt) else f_minute f.
  Proof using Type. field' d. Qed.
  Lemma after_second d f : f_second (after f d) = if is d "S" then second (dt_time dt) else f_second f.
  Proof using Type. field' d. Qed.
  Lemma after_hour d f :
    f_hour (after f d) = if is d "H" then hour (dt_time dt) else if is d "I" then (hour (dt_time dt) + 11) mod 12 + 1 else f_hour f.
  Proof using Type. field' d. Qed.
  Lemma after_ampm d f :
    f_ampm (after f d) = if is d "p" then (if hour (dt_time dt) <? 12 then chars "am" else chars "pm") else f_ampm f.
  Proof using Type.
    destruct f; unfold after; repeat letters d; reflexivity.
  Qed.

  Definition utc_name (t : text) : Prop := t = [] \/ t = chars "utc" \/ t = chars "+0000".
  Lemma after_zone ps f : utc_name (f_zone f) -> utc_name (f_zone (fold_left after_piece ps f)).
  Proof using Type.
    revert f. induction ps as [|[c|d] ps IH]; intros f H; cbn [fold_left after_piece]; [exact H|apply IH, H|].
    apply IH. unfold utc_name in *. destruct f as [y m dd h mi s tz ap]. cbn [f_zone] in H. unfold after.
    repeat match goal with |- context [if ?b then _ else _] => destruct b end; cbn [f_zone];
      first [exact H|right; left; reflexivity|right; right; reflexivity].
  Qed.
  Lemma utc_name_ok t : utc_name t -> get_timezone_from_string est nyc pytz_name t = Ok utc.
  Proof using Type. intros [->|[->| ->]]; reflexivity. Qed.

  Lemma used {A} (pi : fields -> A) l v fmt f :
    (forall d f, In (Directive d) (pieces fmt) -> pi (after f d) = if is d l then v else pi f) ->
    uses fmt l /\ pi (fold_left after_piece (pieces fmt) f) = v
    \/ ~ uses fmt l /\ pi (fold_left after_piece (pieces fmt) f) = pi f.
  Proof using Type.
    intros H. rewrite (uses_iff _ fmt l eq_refl).
    apply (field_after pi (fun d => is d l = true)).
    - intros d g Hin Hd. rewrite H, Hd by exact Hin. reflexivity.
    - intros d g Hin Hd. rewrite H by exact Hin. destruct (is d l); [elim Hd; reflexivity|reflexivity].
    - intros d. destruct (is d l); [left; reflexivity|right; discriminate].
  Qed.

  Lemma round_trip zg z fmt ts :
    match zg with Some z' => z' = z | None => z = utc end ->
    only (read_letters (match zg with Some _ => true | None => false end)) fmt ->
    determines fmt dt -> ~ noon fmt dt ->
    Forall2 (means dt) (pieces fmt) ts ->
    ('(f, _) <- parse_loop est nyc pytz_name (match zg with Some _ => true | None => false end) no_fields fmt (lower (List.concat ts)) ;;
     finish est nyc pytz_name zg f) = z dt.
  Proof.
    intros Hz Ho Hd Hn Hm. rewrite parse_loop_ok by assumption. cbn [bind].
    set (F := fold_left after_piece (pieces fmt) no_fields).
    destruct Hd as (HY & HM & HD & HH & HMi & HS).
    apply finish_ok.
    - destruct (used f_year "Y" (year (dt_date dt)) fmt no_fields) as [[_ E]|[N _]]; [intros; apply after_year|exact E|contradiction].
    - destruct (field_after f_month (fun d => is d "m" || is d "b" || is d "B" = true) (month (dt_date dt)) (pieces fmt) no_fields) as [[_ E]|[N E]].
      + intros d f _ H. rewrite after_month, H. reflexivity.
      + intros d f _ H. rewrite after_month. destruct (is d "m" || is d "b" || is d "B"); [elim H|]; reflexivity.
      + intros d. destruct (is d "m" || is d "b" || is d "B"); [left|right]; congruence.
      + left. exact E.
      + right. split; [exact E|].
        destruct HM as [HM|[-> HM]].
        * exfalso. apply N. rewrite !(uses_iff _ fmt _ eq_refl) in HM.
          destruct HM as [(d & Hin & H)|[(d & Hin & H)|(d & Hin & H)]]; exists d; (split; [exact Hin|]); rewrite H, ?orb_true_r; reflexivity.
        * split; [reflexivity|].
          destruct (used f_day "d" (day (dt_date dt)) fmt no_fields) as [[N' _]|[_ E']]; [intros; apply after_day|contradiction|exact E'].
    - destruct (used f_day "d" (day (dt_date dt)) fmt no_fields) as [[_ E]|[N E]]; [intros; apply after_day|left; exact E|].
      right. split; [exact E|]. tauto.
    - destruct (used f_ampm "p" (if hour (dt_time dt) <? 12 then chars "am" else chars "pm") fmt no_fields) as [[U E]|[N E]];
        [intros; apply after_ampm|right|left]; (split; [exact E|]).
      + split; [|intros H; apply Hn; split; assumption].
        assert (uses fmt "I" /\ ~ uses fmt "H") as [HI HnH] by tauto.
        destruct (used f_hour "I" ((hour (dt_time dt) + 11) mod 12 + 1) fmt no_fields) as [[_ E']|[N _]]; [|exact E'|contradiction].
        intros d f Hin. rewrite after_hour. destruct (is d "H") eqn:EH; [|reflexivity].
        elim HnH. apply (uses_iff _ fmt _ eq_refl). exists d. split; assumption.
      + assert (~ uses fmt "I") as HnI by tauto.
        destruct (used f_hour "H" (hour (dt_time dt)) fmt no_fields) as [[_ E']|[N' E']].
        * intros d f Hin. rewrite after_hour. destruct (is d "H") eqn:EH; [reflexivity|].
          destruct (is d "I") eqn:EI; [|reflexivity]. elim HnI. apply (uses_iff _ fmt _ eq_refl). exists d. split; assumption.
        * exact E'.
        * transitivity 0; [exact E'|]. symmetry. tauto.
    - destruct (used f_minute "M" (minute (dt_time dt)) fmt no_fields) as [[_ E]|[N E]]; [intros; apply after_minute|exact E|].
      transitivity 0; [exact E|]. symmetry. tauto.
    - destruct (used f_second "S" (second (dt_time dt)) fmt no_fields) as [[_ E]|[N E]]; [intros; apply after_second|exact E|].
      transitivity 0; [exact E|]. symmetry. tauto.
    - destruct zg; [exact Hz|]. subst z. apply utc_name_ok, after_zone. left. reflexivity.
  Qed.

  Lemma read_all zg fmt : only (read_letters zg) fmt -> only all_letters fmt.
  Proof using Type.
    intros H d Hd. destruct (H d Hd) as (l & Hl & Hc). exists l. split; [|exact Hc].
    destruct zg; cbn in *; tauto.
  Qed.
  Lemma read_plain zg fmt : only (read_letters zg) fmt -> weekday_fine dt fmt.
  Proof using Type.
    intros H. right. intros U.
    assert (forall l, uses fmt l -> In l (read_letters zg)) as I.
    { intros l (d & Hc & Hd). destruct (H d Hd) as (l' & Hl & Hc'). rewrite (chars_inj_letter l l' d); assumption. }
    destruct U as [U|[U|[U|U]]]; apply I in U; destruct zg; cbn in U; intuition discriminate.
  Qed.

  Lemma parse_with_format_ok fmt :
    only (read_letters false) fmt -> determines fmt dt -> ~ noon fmt dt ->
    exists t, format dt fmt = Ok t /\ parse_with_format est nyc pytz_name t fmt = utc dt.
  Proof.
    intros Ho Hd Hn. destruct (format_ok dt ok small fmt (read_all _ _ Ho) (read_plain _ _ Ho)) as (ts & E & Hm).
    exists (List.concat ts). split; [exact E|]. apply (round_trip None utc); auto.
  Qed.
  Lemma parse_with_format_and_timezone_ok z fmt :
    only (read_letters true) fmt -> determines fmt dt -> ~ noon fmt dt ->
    exists t, format dt fmt = Ok t /\ parse_with_format_and_timezone est nyc pytz_name t fmt z = z dt.
  Proof.
    intros Ho Hd Hn. destruct (format_ok dt ok small fmt (read_all _ _ Ho) (read_plain _ _ Ho)) as (ts & E & Hm).
    exists (List.concat ts). split; [exact E|]. apply (round_trip (Some z) z); auto.
  Qed.
End RoundTrip.

(** ** Deciding what a format uses *)

Definition usesb (fmt : text) (letter : string) : bool :=
  existsb (fun p => match p with Directive d => text_eqb (chars letter) [d] | Literal _ => false end) (pieces fmt).
Lemma uses_usesb fmt letter : uses fmt letter <-> usesb fmt letter = true.
Proof.
  unfold uses, usesb. rewrite existsb_exists. split.
  - intros (d & E & I). exists (Directive d). split; [exact I|]. apply text_eqb_eq, E.
  - intros ([c|d] & I & E); [discriminate E|]. exists d. apply text_eqb_eq in E. split; assumption.
Qed.
Lemma only_check letters fmt :
  forallb (fun p => match p with Directive d => existsb (fun l => text_eqb (chars l) [d]) letters | Literal _ => true end) (pieces fmt) = true ->
  only letters fmt.
Proof.
  intros H d I. rewrite forallb_forall in H. specialize (H _ I). cbn in H. apply existsb_exists in H as (l & Il & E).
  exists l. split; [exact Il|]. apply text_eqb_eq, E.
Qed.
Lemma digits_numeral w n : 0 <= n < 10 ^ Z.of_nat (S w) -> numeral (digits (S w) n) n.
Proof.
  revert n; induction w as [|w IH]; intros n H.
  - cbn [digits app]. change (10 ^ Z.of_nat 1) with 10 in H. rewrite Z.mod_small by lia. constructor. lia.
  - change (digits (S (S w)) n) with (digits (S w) (n / 10) ++ [48 + n mod 10]).
    pose proof (Z.div_mod n 10 ltac:(lia)) as E. rewrite E at 3. pose proof (Z.mod_pos_bound n 10 ltac:(lia)). constructor; [|lia]. apply IH.
    rewrite (Nat2Z.inj_succ (S w)), Z.pow_succ_r in H by lia.
    split; [apply Z.div_pos; lia|]. apply Z.div_lt_upper_bound; lia.
Qed.
