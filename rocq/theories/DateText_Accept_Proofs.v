(** Proofs that the parsers accept only dates that exist. *)
From Coq Require Import String Ascii.
From Verif Require Import Base Chrono_Model Calendar_Spec Chrono_Proofs DateTime_Model DateTime_Spec DateTime_Proofs
  DateText_Model DateText_Spec DateText_Format_Proofs DateText_Token_Proofs DateText_Parse_Proofs.
From Coq Require Import ZifyBool ZifyNat.
Open Scope string_scope.
Open Scope Z_scope.
Open Scope list_scope.
Open Scope result_scope.

(** A result whose errors and values are known. *)
Definition yields {A} (errors : list exn) (P : A -> Prop) (r : result A) : Prop :=
  match r with Ok a => P a | Err e => In e errors end.
Lemma yields_bind {A B} errors (P : A -> Prop) (Q : B -> Prop) r k :
  yields errors P r -> (forall a, P a -> yields errors Q (k a)) -> yields errors Q (x <- r ;; k x).
Proof. destruct r as [a|e]; cbn; auto. Qed.
Lemma yields_more {A} errors errors' (P Q : A -> Prop) r :
  yields errors P r -> incl errors errors' -> (forall a, P a -> Q a) -> yields errors' Q r.
Proof. destruct r as [a|e]; cbn; auto. Qed.

Lemma number_nonneg t : forallb is_digit t = true -> 0 <= number t.
Proof.
  induction t as [|c t IH] using rev_ind; [cbn; lia|]. rewrite forallb_app, number_snoc. cbn [forallb]. unfold is_digit.
  intros H. apply andb_true_iff in H as [H1 H2]. specialize (IH H1). lia.
Qed.
Lemma int_yields t errors : In ValueError errors -> yields errors (fun n => 0 <= n) (int_of t).
Proof.
  intros I. unfold int_of. destruct (all is_digit t) eqn:E; [|exact I]. cbn. apply number_nonneg. unfold all in E. destruct t; [discriminate|exact E].
Qed.
Lemma float_yields t errors : In ValueError errors -> In NotImplementedError errors -> yields errors (fun _ => True) (float_of t).
Proof.
  intros I J. unfold float_of. destruct (match strip t with [] => _ | _ => _ end) as [s u].
  destruct (all is_digit u); [exact Logic.I|]. destruct (_ && _); assumption.
Qed.

Lemma valid_date y m d : 0 <= m -> 0 <= d -> is_valid_date y m d = true -> date_ok (Date y m d).
Proof. intros Hm Hd H. apply is_valid_date_real in H; [|lia..]. exact H. Qed.
Lemma valid_time h m s : is_valid_time h m s = true -> time_ok (Time h m s).
Proof. unfold is_valid_time, time_ok. cbn. lia. Qed.
Lemma mk_datetime_valid y m d h mi s :
  date_ok (Date y m d) -> time_ok (Time h mi s) -> mk_datetime y m d h mi s = Ok (DateTime (Date y m d) (Time h mi s)).
Proof. intros Hd Ht. exact (mk_datetime_real _ _ Hd Ht). Qed.

Lemma lowercase_lower t : lowercase t -> lower t = t.
Proof.
  unfold lowercase. induction t as [|c t IH]; [reflexivity|]. cbn [forallb lower map]. intros H. apply andb_true_iff in H as [H1 H2].
  fold (lower t). rewrite IH by exact H2. unfold lower_char. destruct (is_upper c); [discriminate H1|reflexivity].
Qed.
Lemma lowercase_firstn k t : lowercase t -> lowercase (firstn k t).
Proof.
  unfold lowercase. revert t; induction k as [|k IH]; intros [|c t] H; try reflexivity. cbn [firstn forallb] in *.
  apply andb_true_iff in H as [H1 H2]. rewrite H1. apply IH, H2.
Qed.
Lemma lowercase_skipn k t : lowercase t -> lowercase (skipn k t).
Proof.
  unfold lowercase. revert t; induction k as [|k IH]; intros [|c t] H; try exact H. cbn [skipn forallb] in *.
  apply andb_true_iff in H as [H1 H2]. apply IH, H2.
Qed.

Section Accept.
  Variables est nyc : zone.
  Variable pytz_name : text -> bool.
  Hypothesis pytz_capital : forall t, pytz_name t = true -> ~ lowercase t.

  Lemma timezones_named t z : timezones est nyc t = Some z -> named_zone est nyc z.
  Proof.
    unfold timezones, named_zone. repeat (destruct (text_eqb t _)); intros H; try discriminate H; injection H as <-; auto;
      right; right; exists 0; reflexivity.
  Qed.
  Lemma valid_zone t : lowercase t -> is_valid_timezone est nyc pytz_name t = true -> exists z, timezones est nyc t = Some z.
  Proof.
    intros L H. unfold is_valid_timezone in H. rewrite (lowercase_lower t L) in H.
    destruct (timezones est nyc t) as [z|]; [eauto|]. exfalso. exact (pytz_capital t H L).
  Qed.
  Lemma zone_yields t : lowercase t -> yields [ValueError; NotImplementedError] (named_zone est nyc) (get_timezone_from_string est nyc pytz_name t).
  Proof.
    intros L. unfold get_timezone_from_string. destruct (is_valid_timezone est nyc pytz_name t) eqn:V.
    - destruct (valid_zone t L V) as (z & E). rewrite E. cbn. exact (timezones_named t z E).
    - destruct t as [|c comp]; [discriminate V|]. destruct (_ || _); [|left; reflexivity].
      apply (yields_bind _ (fun _ => True)).
      + destruct (List.length comp) as [|[|[|[|[|[|[|]]]]]]]; try (left; reflexivity);
        repeat (eapply yields_bind; [apply float_yields; cbn; tauto|intros ? _]); exact I.
      + intros off _. cbn. right. right. eexists. reflexivity.
  Qed.

  (** ** With a format *)

  Definition sound_fields (f : fields) : Prop :=
    -1 <= f_month f /\ -1 <= f_day f /\ exists z, timezones est nyc (f_zone f) = Some z.

  Lemma two_yields rest errors : In ValueError errors -> lowercase rest ->
    yields errors (fun p => 0 <= fst p /\ lowercase (snd p)) (two_digits rest).
  Proof.
    intros I L. unfold two_digits. destruct (is2d _); [|exact I].
    eapply yields_bind; [apply int_yields, I|]. intros n Hn. split; [exact Hn|apply lowercase_skipn, L].
  Qed.
  Lemma month_bound t n : month_number t = Some n -> 1 <= n <= 12.
  Proof.
    unfold month_number. destruct (find _ month_table) as [[w k]|] eqn:F; [|discriminate]. intros H. injection H as <-.
    apply find_some in F as [I _].
    assert (forallb (fun p => (1 <=? snd p) && (snd p <=? 12)) month_table = true) as B by reflexivity.
    rewrite forallb_forall in B. specialize (B _ I). cbn [snd] in B. lia.
  Qed.
  Lemma longest_yields ks rest errors : In ValueError errors -> lowercase rest ->
    yields errors (fun p => 0 <= fst p /\ lowercase (snd p)) (longest_month ks rest).
  Proof.
    intros I L. induction ks as [|k ks IH]; cbn [longest_month]; [exact I|].
    destruct (month_number (firstn k rest)) as [n|] eqn:E; [|exact IH]. apply month_bound in E. split; [cbn; lia|apply lowercase_skipn, L].
  Qed.
  Lemma first_zone_yields ks rest errors : In ValueError errors -> lowercase rest ->
    yields errors (fun p => (exists z, timezones est nyc (fst p) = Some z) /\ lowercase (snd p)) (first_zone est nyc pytz_name ks rest).
  Proof.
    intros I L. induction ks as [|k ks IH]; cbn [first_zone]; [exact I|].
    destruct (is_valid_timezone est nyc pytz_name (firstn k rest)) eqn:E; [|exact IH].
    split; [apply valid_zone; [apply lowercase_firstn, L|exact E]|apply lowercase_skipn, L].
  Qed.

  Definition format_errors (zone_given : bool) : list exn := if zone_given then [ValueError; GenericError] else [ValueError].

  Lemma directive_yields zg f rest d :
    sound_fields f -> lowercase rest ->
    yields (format_errors zg) (fun p => sound_fields (fst p) /\ lowercase (snd p)) (parse_directive est nyc pytz_name zg f rest d).
  Proof.
    intros S L. destruct f as [y m dd h mi s tz ap]. destruct S as (Hm & Hd & Hz). cbn [f_month f_day f_zone] in *.
    assert (In ValueError (format_errors zg)) as V by (destruct zg; left; reflexivity).
    assert (forall k, lowercase (skipn k rest)) as Ls by (intros k; apply lowercase_skipn, L).
    unfold parse_directive.
    destruct (is d "Y").
    { destruct (is4d _); [|exact V]. eapply yields_bind; [apply int_yields, V|]. intros n Hn. split; [repeat split; cbn; assumption|apply Ls]. }
    destruct (is d "m"). { eapply yields_bind; [apply two_yields; assumption|]. intros [n r] [Hn Lr]. split; [repeat split; cbn in *; try assumption; lia|exact Lr]. }
    destruct (is d "d"). { eapply yields_bind; [apply two_yields; assumption|]. intros [n r] [Hn Lr]. split; [repeat split; cbn in *; try assumption; lia|exact Lr]. }
    destruct (is d "H"). { eapply yields_bind; [apply two_yields; assumption|]. intros [n r] [Hn Lr]. split; [repeat split; cbn in *; try assumption; lia|exact Lr]. }
    destruct (is d "I"). { eapply yields_bind; [apply two_yields; assumption|]. intros [n r] [Hn Lr]. split; [repeat split; cbn in *; try assumption; lia|exact Lr]. }
    destruct (is d "M"). { eapply yields_bind; [apply two_yields; assumption|]. intros [n r] [Hn Lr]. split; [repeat split; cbn in *; try assumption; lia|exact Lr]. }
    destruct (is d "S"). { eapply yields_bind; [apply two_yields; assumption|]. intros [n r] [Hn Lr]. split; [repeat split; cbn in *; try assumption; lia|exact Lr]. }
    destruct (is d "b").
    { destruct (month_number (firstn 3 rest)) as [n|] eqn:E; [|exact V]. apply month_bound in E. split; [repeat split; cbn in *; try assumption; lia|apply Ls]. }
    destruct (is d "B"). { eapply yields_bind; [apply longest_yields; assumption|]. intros [n r] [Hn Lr]. split; [repeat split; cbn in *; try assumption; lia|exact Lr]. }
    destruct (is d "Z").
    { destruct zg; [right; left; reflexivity|]. eapply yields_bind; [apply first_zone_yields; assumption|]. intros [z r] [Hn Lr]. split; [repeat split; cbn in *; assumption|exact Lr]. }
    destruct (is d "z").
    { destruct zg; [right; left; reflexivity|]. eapply yields_bind; [apply first_zone_yields; assumption|]. intros [z r] [Hn Lr]. split; [repeat split; cbn in *; assumption|exact Lr]. }
    destruct (is d "p"); [|exact V].
    cbv zeta. destruct (_ || _); [|exact V]. split; [repeat split; cbn in *; assumption|apply Ls].
  Qed.

  Lemma loop_yields zg fmt : forall f rest, sound_fields f -> lowercase rest ->
    yields (format_errors zg) (fun p => sound_fields (fst p)) (parse_loop est nyc pytz_name zg f fmt rest).
  Proof.
    induction fmt as [|c|d r IH|c d r N IH] using fmt_ind; intros f rest S L.
    - exact S.
    - exact S.
    - cbn [parse_loop]. change (37 =? 37) with true. cbn match.
      eapply yields_bind; [apply directive_yields; assumption|]. intros [f' r'] [Sf Lr]. apply IH; assumption.
    - cbn [parse_loop]. replace (c =? 37) with false by lia. apply (IH f (skipn 1 rest)); [exact S|apply lowercase_skipn, L].
  Qed.

  Definition the_zone (zg : option zone) : zone -> Prop := match zg with Some z => eq z | None => named_zone est nyc end.

  Lemma finish_accepts zg f : sound_fields f -> accepts_only [ValueError] (the_zone zg) (finish est nyc pytz_name zg f).
  Proof.
    intros S. destruct f as [y m d h mi s tz ap]. destruct S as (Hm & Hd & z0 & Hz). cbn [f_month f_day f_zone] in *.
    assert (forall h', accepts_only [ValueError] (the_zone zg)
      (if negb (is_valid_date y m d) then Err ValueError
       else if negb (is_valid_time h' mi s) then Err ValueError
       else let m := if m =? -1 then 1 else m in let d := if d =? -1 then 1 else d in
            z <- match zg with Some z => Ok z | None => get_timezone_from_string est nyc pytz_name tz end ;;
            dt <- mk_datetime y m d h' mi s ;; z dt)) as G.
    { intros h'. destruct (is_valid_date y m d) eqn:V; cbn [negb]; [|left; exists ValueError; split; [left|]; reflexivity].
      destruct (is_valid_time h' mi s) eqn:T; cbn [negb]; [|left; exists ValueError; split; [left|]; reflexivity].
      cbv zeta. right.
      assert (date_ok (Date y (if m =? -1 then 1 else m) (if d =? -1 then 1 else d))) as Dok.
      { destruct (Z.eqb_spec m (-1)) as [->|]; destruct (Z.eqb_spec d (-1)) as [->|].
        - unfold is_valid_date in V. apply valid_date; [lia|lia|]. unfold is_valid_date. destruct (-1 <? y); [reflexivity|discriminate V].
        - exfalso. unfold is_valid_date in V. replace (-1 <? d) with true in V by lia. destruct (-1 <? y); discriminate V.
        - apply valid_date; [lia|lia|]. unfold is_valid_date in V |- *. replace (-1 <? m) with true in * by lia.
          destruct (-1 <? y); [|discriminate V]. cbn [negb andb] in *. change (-1 <? 1) with true. change (-1 <? -1) with false in V. cbn [negb andb] in *.
          destruct ((m <? 1) || (12 <? m)); [discriminate V|]. change (1 <? 1) with false. change (1 <? 32) with true. change (1 <? 31) with true.
          change (1 <? 30) with true. change (1 <? 29) with true. do 2 (destruct (_ || _); [reflexivity|]). destruct (m =? 2); [|reflexivity]. destruct (_ || _); reflexivity.
        - apply valid_date; [lia|lia|exact V]. }
      rewrite (mk_datetime_valid _ _ _ _ _ _ Dok (valid_time _ _ _ T)).
      destruct zg as [z|].
      - cbn [bind]. exists z. eexists. split; [reflexivity|]. split; [|reflexivity]. split; [exact Dok|exact (valid_time _ _ _ T)].
      - assert (get_timezone_from_string est nyc pytz_name tz = Ok z0 \/ exists z, get_timezone_from_string est nyc pytz_name tz = Ok z /\ named_zone est nyc z) as E.
        { left. unfold get_timezone_from_string, is_valid_timezone. pose proof Hz as Hl. unfold timezones in Hl.
          assert (lower tz = tz) as ->.
          { repeat match type of Hl with (if text_eqb tz ?w then _ else _) = _ => destruct (text_eqb tz w) eqn:?E in Hl;
              [match goal with H : text_eqb tz _ = true |- _ => apply text_eqb_eq in H; rewrite H; reflexivity end|] end. discriminate Hl. }
          rewrite Hz. reflexivity. }
        destruct E as [->|(z & -> & Hn)]; cbn [bind];
          [exists z0|exists z]; eexists; (split; [first [exact (timezones_named tz z0 Hz)|exact Hn]|]); (split; [|reflexivity]); (split; [exact Dok|exact (valid_time _ _ _ T)]). }
    unfold finish. destruct ap as [|c ap]; cbn [bind]; [apply G|].
    destruct ((12 <? h) || (h <? 1)); cbn [bind]; [left; exists ValueError; split; [left|]; reflexivity|apply G].
  Qed.

  Lemma no_fields_sound : sound_fields no_fields.
  Proof. unfold sound_fields, no_fields. cbn. repeat split; try lia. eexists. reflexivity. Qed.

  Lemma format_accepts t fmt : accepts_only [ValueError] (named_zone est nyc) (parse_with_format est nyc pytz_name t fmt).
  Proof.
    unfold parse_with_format. pose proof (loop_yields false fmt no_fields (lower t) no_fields_sound (lower_lowercase t)) as Y.
    destruct (parse_loop _ _ _ false no_fields fmt (lower t)) as [[f r]|e]; cbn [bind yields fst] in *.
    - apply (finish_accepts None f Y).
    - left. exists e. split; [exact Y|reflexivity].
  Qed.
  Lemma format_zone_accepts t fmt z :
    accepts_only [ValueError; GenericError] (eq z) (parse_with_format_and_timezone est nyc pytz_name t fmt z).
  Proof.
    unfold parse_with_format_and_timezone. pose proof (loop_yields true fmt no_fields (lower t) no_fields_sound (lower_lowercase t)) as Y.
    destruct (parse_loop _ _ _ true no_fields fmt (lower t)) as [[f r]|e]; cbn [bind yields fst] in *.
    - destruct (finish_accepts (Some z) f Y) as [(e & He & E)|H]; [left|right; exact H]. exists e. split; [|exact E].
      destruct He as [<-|[]]. left. reflexivity.
    - left. exists e. split; [exact Y|reflexivity].
  Qed.

  (** ** ISO 8601 *)

  Definition some_errors := [ValueError; NotImplementedError].
  Lemma iso_date_yields ts errors : In ValueError errors -> yields errors (fun p => let '(y, m, d) := p in date_ok (Date y m d)) (iso_date ts).
  Proof.
    intros V. unfold iso_date.
    apply (yields_bind _ (fun p => let '(y, m, d) := p in (0 <= m /\ 0 <= d) \/ y = -1)).
    - assert (forall a b c, yields errors (fun p => let '(y, m, d) := p in (0 <= m /\ 0 <= d) \/ y = -1)
        (y <- int_of a ;; m <- int_of b ;; d <- int_of c ;; Ok (y, m, d))) as I3.
      { intros a b c. repeat (eapply yields_bind; [apply int_yields, V|intros ? ?]). cbv beta in *; cbn [yields]. lia. }
      assert (forall a b, yields errors (fun p => let '(y, m, d) := p in (0 <= m /\ 0 <= d) \/ y = -1)
        (y <- int_of a ;; m <- int_of b ;; Ok (y, m, 1))) as I2.
      { intros a b. repeat (eapply yields_bind; [apply int_yields, V|intros ? ?]). cbv beta in *; cbn [yields]. lia. }
      destruct ts as [|a [|b [|c [|]]]]; [exact V| | | |exact V].
      + destruct (List.length a) as [|[|[|[|[|[|[|[|[|]]]]]]]]];
          first [apply I3|apply I2|cbv beta in *; cbn [yields]; lia|eapply yields_bind; [apply int_yields, V|intros; cbv beta in *; cbn [yields]; lia]].
      + destruct (is4d a); [apply I2|exact V].
      + destruct (is4d a); [apply I3|exact V].
    - intros [[y m] d] H. destruct (is_valid_date y m d) eqn:E; [|exact V]. destruct H as [[Hm Hd]| ->]; [|discriminate E].
      apply valid_date; assumption.
  Qed.
  Lemma iso_time_yields ts : yields some_errors (fun p => let '(h, m, s) := p in time_ok (Time h m s)) (iso_time ts).
  Proof.
    assert (In ValueError some_errors /\ In NotImplementedError some_errors) as [V N] by (unfold some_errors; cbn; tauto).
    unfold iso_time. apply (yields_bind _ (fun _ => True)).
    - destruct ts as [|a [|b [|c [|]]]]; try exact I; try (destruct (List.length a) as [|[|[|[|[|[|[|]]]]]]]);
        try exact I; repeat (eapply yields_bind; [first [apply int_yields, V|apply float_yields; assumption]|intros ? ?]); exact I.
    - intros [[h m] s] _. destruct (is_valid_time h m s) eqn:E; [|exact V]. exact (valid_time _ _ _ E).
  Qed.
  Lemma time_tokens_yields zg ts errors : In ValueError errors ->
    yields errors (fun p => incl (snd p) ts) (time_tokens zg ts).
  Proof.
    intros V. induction ts as [|t ts IH]; cbn [time_tokens]; [cbn; apply incl_refl|].
    destruct (text_eqb t (chars "t")); [cbn; apply incl_tl, incl_refl|].
    destruct (_ || _); [cbn; apply incl_refl|]. destruct (all is_alpha t).
    - destruct zg; [exact V|cbn; apply incl_refl].
    - eapply yields_bind; [exact IH|]. intros [a b] H. cbn in *. apply incl_tl, H.
  Qed.
  Lemma date_tokens_incl ts : incl (snd (date_tokens ts)) ts.
  Proof.
    induction ts as [|t ts IH]; cbn [date_tokens]; [apply incl_refl|]. destruct (_ || _); [cbn; apply incl_tl, incl_refl|].
    destruct (date_tokens ts) as [a b]. cbn in *. apply incl_tl, IH.
  Qed.

  Lemma span_in p t : forall c, In c (fst (span p t)) \/ In c (snd (span p t)) -> In c t.
  Proof.
    induction t as [|x t IH]; cbn [span]; [tauto|]. intros c. destruct (p x); [|cbn; tauto].
    destruct (span p t) as [a b]. cbn in *. specialize (IH c). tauto.
  Qed.
  Lemma get_tokens_in skip fuel : forall t ts, get_tokens fuel skip t = Ok ts -> forall u c, In u ts -> In c u -> In c t \/ c = 32.
  Proof.
    induction fuel as [|fuel IH]; intros t ts H u c Hu Hc.
    - destruct t; [|discriminate H]. injection H as <-. destruct Hu.
    - destruct t as [|x t']; [injection H as <-; destruct Hu|]. set (t := x :: t') in *. cbn [get_tokens] in H.
      change (match t with [] => Ok [] | _ :: _ => ?y end) with y in H. subst t. set (t := x :: t') in *.
      destruct (span is_alpha t) as [a t1] eqn:E1. destruct (span in_number t1) as [n t2] eqn:E2.
      destruct (span is_space t2) as [b t3] eqn:E3. destruct (span in_separator t3) as [o t4] eqn:E4.
      pose proof (span_in is_alpha t c) as S1. pose proof (span_in in_number t1 c) as S2. pose proof (span_in is_space t2 c) as S3.
      pose proof (span_in in_separator t3 c) as S4. rewrite E1 in S1. rewrite E2 in S2. rewrite E3 in S3. rewrite E4 in S4. cbn [fst snd] in *.
      destruct (get_tokens fuel skip t4) as [rest|] eqn:Er; [|discriminate H]. cbn [bind] in H. injection H as <-.
      rewrite !in_app_iff in Hu.
      assert (forall v, In u (nonempty v) -> In c v) as Nv by (intros v Hv; destruct v; [destruct Hv|destruct Hv as [<-|[]]; exact Hc]).
      destruct Hu as [Hu|[Hu|[Hu|[Hu|Hu]]]].
      + apply Nv in Hu. tauto.
      + apply Nv in Hu. tauto.
      + destruct (contains skip (chars " ")); [destruct Hu|]. destruct b; [destruct Hu|]. destruct Hu as [<-|[]]. destruct Hc as [<-|[]]. right. reflexivity.
      + destruct (contains skip o); [destruct Hu|]. apply Nv in Hu. tauto.
      + destruct (IH _ _ Er u c Hu Hc) as [K|K]; tauto.
  Qed.

  Lemma iso_accepts zg t : accepts_only some_errors (the_zone zg) (parse_iso est nyc pytz_name zg t).
  Proof.
    assert (In ValueError some_errors) as V by (left; reflexivity).
    assert (forall e, In e some_errors -> accepts_only some_errors (the_zone zg) (Err e)) as Fail by (intros e He; left; exists e; auto).
    unfold parse_iso. rewrite replace_blank. destruct (tokens_of (chars "/-:") (map iso_char t)) as [ts|e] eqn:Et.
    2:{ rewrite tokens_of_toks in Et. discriminate Et. }
    cbn [bind].
    assert (forall us, incl us ts -> lowercase (List.concat us)) as Low.
    { intros us Hi. unfold lowercase. apply forallb_forall. intros c Hc. apply in_concat in Hc as (u & Hu & Hc).
      destruct (get_tokens_in _ _ _ _ Et u c (Hi _ Hu) Hc) as [K| ->]; [|reflexivity].
      apply in_map_iff in K as (x & <- & _). unfold iso_char. destruct (x =? 32); [reflexivity|]. unfold lower_char, is_upper.
      destruct ((65 <=? x) && (x <=? 90)) eqn:U; lia. }
    pose proof (date_tokens_incl ts) as I1. destruct (date_tokens ts) as [dts rest]. cbn [snd] in I1.
    pose proof (iso_date_yields dts some_errors V) as Y. destruct (iso_date dts) as [[[y m] d]|e]; cbn [bind]; [|apply Fail, Y]. cbn [yields] in Y.
    set (z := match zg with Some z => z | None => utc end).
    assert (the_zone zg z) as Zz by (unfold z; destruct zg; [reflexivity|right; right; exists 0; reflexivity]).
    rewrite (mk_datetime_valid y m d 0 0 0 Y midnight_ok). cbn [bind].
    assert (accepts_only some_errors (the_zone zg) (z (DateTime (Date y m d) (Time 0 0 0)))) as Mid.
    { right. exists z. eexists. split; [exact Zz|]. split; [|reflexivity]. split; [exact Y|exact midnight_ok]. }
    destruct (z (DateTime (Date y m d) (Time 0 0 0))) as [ts0|e] eqn:Ez; cbn [bind]; [|exact Mid].
    destruct rest as [|r0 rest]; [exact Mid|]. clear Mid Ez.
    pose proof (time_tokens_yields (match zg with Some _ => true | None => false end) (r0 :: rest) some_errors V) as T.
    destruct (time_tokens _ (r0 :: rest)) as [[tts zts]|e]; cbn [bind]; [|apply Fail, T]. cbn [yields snd] in T.
    pose proof (iso_time_yields tts) as Yt. destruct (iso_time tts) as [[[h mi] s]|e]; cbn [bind]; [|apply Fail, Yt]. cbn [yields] in Yt.
    rewrite (mk_datetime_valid y m d h mi s Y Yt). cbn [bind].
    assert (accepts_only some_errors (the_zone zg) (z (DateTime (Date y m d) (Time h mi s)))) as Done.
    { right. exists z. eexists. split; [exact Zz|]. split; [|reflexivity]. split; [exact Y|exact Yt]. }
    destruct zg as [z'|]; [exact Done|]. destruct zts as [|u zts]; [exact Done|].
    pose proof (zone_yields (List.concat (u :: zts))) as Zy. specialize (Zy (Low _ (incl_tran T I1))).
    destruct (get_timezone_from_string est nyc pytz_name (List.concat (u :: zts))) as [z'|e]; cbn [bind]; [|apply Fail, Zy].
    right. exists z'. eexists. split; [exact Zy|]. split; [|reflexivity]. split; [exact Y|exact Yt].
  Qed.

  (** ** Other texts *)

  Definition all_errors := [ValueError; NotImplementedError; IndexError].
  Definition natural_date (p : Z * Z * Z * list text) : Prop := let '(y, m, d, _) := p in 0 <= m /\ 0 <= d.

  Lemma month_yields t : is_month t = true -> yields all_errors (fun n => 0 <= n) (month_to_int t).
  Proof.
    unfold is_month, month_to_int. destruct (month_number t) as [n|] eqn:E; [|discriminate]. intros _. apply month_bound in E. cbn. lia.
  Qed.
  Lemma non_iso_date_yields ts : yields all_errors natural_date (non_iso_date ts).
  Proof.
    assert (In ValueError all_errors) as V by (left; reflexivity).
    assert (forall y m d (rest : list text), yields all_errors (fun _ => True) y -> yields all_errors (fun n => 0 <= n) m -> yields all_errors (fun n => 0 <= n) d ->
      yields all_errors natural_date (yv <- y ;; mv <- m ;; dv <- d ;; Ok (yv, mv, dv, rest))) as K.
    { intros y m d rest Hy Hm Hd. eapply yields_bind; [exact Hy|]. intros yv _. eapply yields_bind; [exact Hm|]. intros mv Hmv.
      eapply yields_bind; [exact Hd|]. intros dv Hdv. split; assumption. }
    assert (forall t, yields all_errors (fun n => 0 <= n) (int_of t)) as In_ by (intros t; apply int_yields, V).
    assert (forall t, yields all_errors (fun _ => True) (int_of t)) as It.
    { intros t. eapply yields_more; [apply In_|apply incl_refl|auto]. }
    unfold non_iso_date. cbv zeta.
    assert (forall b y m d rest (r : result (Z * Z * Z * list text)),
      (b = true -> yields all_errors (fun _ => True) y /\ yields all_errors (fun n => 0 <= n) m /\ yields all_errors (fun n => 0 <= n) d) ->
      yields all_errors natural_date r ->
      yields all_errors natural_date (if (b : bool) then (yv <- y ;; mv <- m ;; dv <- d ;; Ok (yv, mv, dv, rest)) else r)) as Branch.
    { intros b y m d rest r H Hr. destruct b; [destruct (H eq_refl) as (? & ? & ?); apply K; assumption|exact Hr]. }
    destruct ((5 <=? List.length ts)%nat && is4d (nth 4 ts [])).
    { apply Branch. { intros H. split; [apply It|]. split; [|apply In_]. apply month_yields. lia. }
      apply Branch. { intros H. split; [apply It|]. split; [|apply In_]. apply month_yields. lia. }
      apply Branch. { intros H. split; [apply It|]. split; [|apply In_]. apply month_yields. lia. }
      destruct (_ || _); [|exact V]. eapply yields_bind; [apply In_|]. intros first _. destruct (12 <? first); apply K; (apply It || apply In_). }
    apply Branch. { intros H. split; [apply It|]. split; [|apply In_]. apply month_yields. lia. }
    apply Branch. { intros H. split; [apply It|]. split; [|apply In_]. apply month_yields. lia. }
    apply Branch. { intros H. split; [apply It|]. split; [|apply In_]. apply month_yields. lia. }
    apply Branch. { intros H. split; [apply It|]. split; [|apply In_]. apply month_yields. lia. }
    apply Branch. { intros H. split; [apply It|]. split; apply In_. }
    apply (yields_bind _ (fun _ => True)).
    { destruct (_ && _ && _); [|exact I]. destruct (nth_error ts 1); [exact I|]. right. right. left. reflexivity. }
    intros together _. apply Branch. { intros H. split; [apply It|]. split; apply In_. }
    destruct (_ && _ && _ && _ && _) eqn:B; [|exact V].
    eapply yields_bind; [apply K; [apply It|apply month_yields; lia|apply In_]|]. intros [[[y m] d] rest] H. exact H.
  Qed.
  Lemma non_iso_time_yields ts : yields [ValueError] (fun p => let '(h, m, s) := p in time_ok (Time h m s)) (non_iso_time ts).
  Proof.
    assert (In ValueError [ValueError]) as V by (left; reflexivity).
    destruct ts as [|t ts]; [exact midnight_ok|]. unfold non_iso_time. destruct (split_ampm (t :: ts)) as [a b].
    apply (yields_bind _ (fun _ => True)).
    - destruct a as [|a [|b' [|c [|d [|e [|]]]]]]; try exact V.
      + destruct (_ && _ && _); [|exact V]. repeat (eapply yields_bind; [apply int_yields, V|intros ? ?]). exact I.
      + destruct (_ && _ && _); [|exact V]. destruct (_ && _); [|exact V]. repeat (eapply yields_bind; [apply int_yields, V|intros ? ?]). exact I.
    - intros [[h m] s] _. apply (yields_bind _ (fun _ => True)).
      + destruct b as [|p b]; [exact I|]. destruct (_ || _); [exact V|exact I].
      + intros h' _. destruct (is_valid_time h' m s) eqn:E; [exact (valid_time _ _ _ E)|exact V].
  Qed.
  Lemma non_iso_accepts z t : accepts_only all_errors (eq z) (parse_non_iso z t).
  Proof.
    assert (forall e, In e all_errors -> accepts_only all_errors (eq z) (Err e)) as Fail by (intros e He; left; exists e; auto).
    unfold parse_non_iso. rewrite tokens_of_toks. cbn [bind]. set (ts := toks _ _).
    pose proof (non_iso_date_yields ts) as Y. destruct (non_iso_date ts) as [[[[y m] d] rest]|e]; cbn [bind]; [|apply Fail, Y].
    destruct Y as [Hm Hd]. destruct (is_valid_date y m d) eqn:E; cbn [negb]; [|apply Fail; left; reflexivity].
    pose proof (valid_date y m d Hm Hd E) as Dok.
    pose proof (non_iso_time_yields rest) as T. destruct (non_iso_time rest) as [[[h mi] s]|e]; cbn [bind].
    2:{ apply Fail. destruct T as [<-|[]]. left. reflexivity. }
    rewrite (mk_datetime_valid _ _ _ _ _ _ Dok T). cbn [bind]. right. exists z. eexists. split; [reflexivity|]. split; [|reflexivity]. split; assumption.
  Qed.

  Lemma accepts_more errors errors' (zs zs' : zone -> Prop) r :
    accepts_only errors zs r -> incl errors errors' -> (forall z, zs z -> zs' z) -> accepts_only errors' zs' r.
  Proof.
    intros [(e & I & E)|(z & dt & Z & O & E)] H K; [left; exists e; auto|right; exists z, dt; auto].
  Qed.
  Lemma parse_accepts t : accepts_only all_errors (named_zone est nyc) (parse est nyc pytz_name t).
  Proof.
    unfold parse. pose proof (iso_accepts None t) as A.
    pose proof (accepts_more _ all_errors _ (named_zone est nyc) _ (non_iso_accepts utc t) (incl_refl _)) as B.
    assert (forall z, utc = z -> named_zone est nyc z) as U by (intros z <-; right; right; exists 0; reflexivity). specialize (B U).
    assert (incl some_errors all_errors) as Inc by (intros e [<-|[<-|[]]]; cbn; tauto).
    pose proof (accepts_more _ all_errors _ (named_zone est nyc) _ A Inc (fun z Z => Z)) as A'.
    destruct (parse_iso est nyc pytz_name None t) as [ts|[]]; try exact A'; exact B.
  Qed.
  Lemma parse_zone_accepts t z : accepts_only all_errors (eq z) (parse_with_timezone est nyc pytz_name t z).
  Proof.
    unfold parse_with_timezone. pose proof (iso_accepts (Some z) t) as A. pose proof (non_iso_accepts z t) as B.
    assert (incl some_errors all_errors) as Inc by (intros e [<-|[<-|[]]]; cbn; tauto).
    pose proof (accepts_more _ all_errors _ (eq z) _ A Inc (fun z Z => Z)) as A'.
    destruct (parse_iso est nyc pytz_name (Some z) t) as [ts|[]]; try exact A'; exact B.
  Qed.
End Accept.
