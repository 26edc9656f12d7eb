(** Proofs about parsing without a format. *)
From Coq Require Import String Ascii.
From Verif Require Import Base Chrono_Model Calendar_Spec Chrono_Proofs DateTime_Model DateTime_Spec DateTime_Proofs
  DateText_Model DateText_Spec DateText_Format_Proofs DateText_Token_Proofs.
From Coq Require Import ZifyBool ZifyNat.
Open Scope string_scope.
Open Scope Z_scope.
Open Scope list_scope.
Open Scope result_scope.

(** ** Numerals and names *)

Lemma numeral_digits t n : numeral t n -> t <> [] /\ forallb is_digit t = true /\ number t = n /\ 0 <= n.
Proof.
  intros H. induction H as [k Hk|t n k _ (N & D & E & P) Hk].
  - repeat split; [discriminate|cbn [forallb]; rewrite digit_is_digit by lia; reflexivity|unfold number; cbn [fold_left]; lia|lia].
  - repeat split; [destruct t; discriminate|rewrite forallb_app, D; cbn [forallb]; rewrite digit_is_digit by lia; reflexivity| |lia].
    rewrite number_snoc. lia.
Qed.
Lemma numeral_all t n : numeral t n -> all is_digit t = true.
Proof. intros H. apply numeral_digits in H as (N & D & _). unfold all. destruct t; [congruence|exact D]. Qed.
Lemma numeral_int t n : numeral t n -> int_of t = Ok n.
Proof. intros H. unfold int_of. rewrite (numeral_all _ _ H). apply numeral_digits in H as (_ & _ & -> & _). reflexivity. Qed.

Lemma digit_facts c : is_digit c = true -> class c = 1%nat /\ c <> 46 /\ is_alpha c = false /\ lower_char c = c /\ is_space c = false /\ c <> 32 /\ c <> 43 /\ c <> 45.
Proof.
  intros H. unfold class, lower_char. rewrite H. unfold is_digit, is_alpha, is_upper, is_space in *.
  replace ((65 <=? c) && (c <=? 90)) with false by lia.
  replace (false || (97 <=? c) && (c <=? 122)) with false by lia. repeat split; lia.
Qed.

Lemma digits_run t : t <> [] -> forallb is_digit t = true -> run 1 t.
Proof.
  intros N D. split; [exact N|]. apply Forall_forall. intros c Hc. rewrite forallb_forall in D.
  destruct (digit_facts c (D c Hc)) as (? & ? & _). split; assumption.
Qed.
Lemma numeral_run t n : numeral t n -> run 1 t.
Proof. intros H. apply numeral_digits in H as (N & D & _). apply digits_run; assumption. Qed.

(** The text in which [parse_iso_str] looks for tokens: small letters, and "t" for a blank. *)
Definition iso_char (c : Z) : Z := if c =? 32 then 116 else lower_char c.
Lemma replace_blank t : replace (lower t) (chars " ") (chars "t") = map iso_char t.
Proof.
  unfold replace. change (chars " ") with [32]. change (chars "t") with [116].
  induction t as [|c t IH]; [reflexivity|]. cbn [lower map]. fold (lower t).
  cbn [replace_from]. cbn [prefix]. rewrite andb_true_r.
  assert ((32 =? lower_char c) = (c =? 32)) as E.
  { unfold lower_char, is_upper. destruct ((65 <=? c) && (c <=? 90)) eqn:U; lia. }
  unfold iso_char at 1. rewrite E. destruct (c =? 32); cbn [List.length Nat.sub app]; rewrite IH; reflexivity.
Qed.

Lemma digits_lower t : forallb is_digit t = true -> lower t = t.
Proof.
  intros D. induction t as [|c t IH]; [reflexivity|]. cbn [forallb] in D. apply andb_true_iff in D as [Hc D].
  cbn [lower map]. fold (lower t). rewrite IH by exact D. destruct (digit_facts c Hc) as (_ & _ & _ & -> & _). reflexivity.
Qed.
Lemma digits_iso t : forallb is_digit t = true -> map iso_char t = t.
Proof.
  intros D. induction t as [|c t IH]; [reflexivity|]. cbn [forallb] in D. apply andb_true_iff in D as [Hc D].
  cbn [map]. rewrite IH by exact D. destruct (digit_facts c Hc) as (_ & _ & _ & E & _ & N & _).
  unfold iso_char. rewrite E. destruct (Z.eqb_spec c 32); [contradiction|reflexivity].
Qed.
Lemma numeral_lower t n : numeral t n -> lower t = t.
Proof. intros H. apply digits_lower. apply numeral_digits in H. tauto. Qed.
Lemma numeral_iso t n : numeral t n -> map iso_char t = t.
Proof. intros H. apply digits_iso. apply numeral_digits in H. tauto. Qed.

Lemma numeral_app a b n m : numeral a n -> numeral b m -> numeral (a ++ b) (number (a ++ b)).
Proof.
  intros Ha Hb. induction Hb as [k Hk|b m k Hb IH Hk].
  - rewrite number_snoc. replace (number a * 10 + (48 + k - 48)) with (10 * number a + k) by lia.
    apply numeral_more; [|exact Hk]. apply numeral_digits in Ha as H. destruct H as (_ & _ & -> & _). exact Ha.
  - rewrite app_assoc, number_snoc. replace (number (a ++ b) * 10 + (48 + k - 48)) with (10 * number (a ++ b) + k) by lia.
    apply numeral_more; assumption.
Qed.

(** A numeral is no word. *)
Lemma numeral_word t n w : numeral t n -> forallb is_digit w = false -> text_eqb t w = false.
Proof.
  intros H Hw. destruct (text_eqb t w) eqn:E; [|reflexivity]. apply text_eqb_eq in E. subst w.
  apply numeral_digits in H as (_ & D & _). congruence.
Qed.
Definition stop (t : text) : bool := text_eqb t (chars "t") || text_eqb t (chars "+") || text_eqb t (chars "-").
Lemma numeral_stop t n : numeral t n -> stop t = false.
Proof. intros H. unfold stop. rewrite !(numeral_word t n) by (exact H || reflexivity). reflexivity. Qed.

Lemma date_tokens_stop dts s rest :
  Forall (fun t => stop t = false) dts -> stop s = true -> date_tokens (dts ++ s :: rest) = (dts, rest).
Proof.
  intros H Hs. induction H as [|t dts Ht _ IH]; cbn [app date_tokens].
  - fold (stop s). rewrite Hs. reflexivity.
  - fold (stop t). rewrite Ht, IH. reflexivity.
Qed.
Lemma date_tokens_end dts : Forall (fun t => stop t = false) dts -> date_tokens dts = (dts, []).
Proof.
  intros H. induction H as [|t dts Ht _ IH]; cbn [app date_tokens]; [reflexivity|]. fold (stop t). rewrite Ht, IH. reflexivity.
Qed.

Lemma time_tokens_app zg tts zts :
  Forall (fun t => stop t = false /\ all is_alpha t = false) tts ->
  time_tokens zg (tts ++ zts) = ('(a, b) <- time_tokens zg zts ;; Ok (tts ++ a, b)).
Proof.
  intros H. induction H as [|t tts [Hs Ha] _ IH]; cbn [app].
  - destruct (time_tokens zg zts) as [[a b]|]; reflexivity.
  - cbn [time_tokens]. unfold stop in Hs. apply orb_false_iff in Hs as [Hs Hs3]. apply orb_false_iff in Hs as [Hs1 Hs2].
    rewrite Hs1, Hs2, Hs3, Ha, IH. cbn [orb]. destruct (time_tokens zg zts) as [[a b]|]; reflexivity.
Qed.

Lemma numeral_time t n : numeral t n -> stop t = false /\ all is_alpha t = false.
Proof.
  intros H. split; [eapply numeral_stop; eassumption|].
  apply numeral_digits in H as (N & D & _). destruct t as [|c t]; [congruence|]. cbn [forallb] in D. apply andb_true_iff in D as [Hc _].
  unfold all. cbn [forallb]. destruct (digit_facts c Hc) as (_ & _ & -> & _). reflexivity.
Qed.

(** ** ISO dates *)

Definition iso_toks := toks (chars "/-:").

Lemma wide_cut t w n b : wide w t n -> firstn w (t ++ b) = t /\ skipn w (t ++ b) = b.
Proof. intros [_ <-]. split; [apply firstn_exact|apply skipn_exact]. Qed.
Lemma wide_cut' t w n : wide w t n -> firstn w t = t /\ skipn w t = [].
Proof. intros [_ <-]. split; [apply firstn_all|apply skipn_all]. Qed.

Lemma wide_is4d t n : wide 4 t n -> is4d t = true.
Proof. intros [H L]. unfold is4d. rewrite L, (numeral_all _ _ H). reflexivity. Qed.

(** One sign between numerals. *)
Definition sign (c : Z) : Prop := class c = 3%nat /\ c <> 46.
Lemma sign_run c : sign c -> run 3 [c].
Proof. intros H. split; [discriminate|repeat constructor; apply H]. Qed.
Lemma t_run : run 0 [116].
Proof. split; [discriminate|repeat constructor; discriminate]. Qed.
Ltac all_runs :=
  repeat (apply Forall_cons || apply Forall_nil); cbn [fst snd];
  first [exact t_run|apply sign_run; assumption|eapply numeral_run; eassumption].
Lemma separator_sign c : In c (chars "-/") -> sign c /\ contains (chars "/-:") [c] = true /\ iso_char c = c /\ contains (chars " ,") [c] = false.
Proof. intros [<-|[<-|[]]]; repeat split; discriminate. Qed.
Lemma colon_sign : sign 58 /\ contains (chars "/-:") [58] = true /\ iso_char 58 = 58.
Proof. repeat split; discriminate. Qed.

Lemma date_ok_valid y m d : date_ok (Date y m d) -> is_valid_date y m d = true.
Proof. intros [Hy Hr]. destruct Hr as [Hm Hd]. apply is_valid_date_real; cbn in *; try lia. repeat split; cbn; lia. Qed.

Lemma iso_date_runs a d :
  iso_date_text a d -> date_ok d ->
  exists dts, Forall (fun t => stop t = false) dts /\ iso_date dts = Ok (year d, month d, day d)
    /\ forall rest, head_not 1 rest -> dotless rest -> iso_toks (map iso_char a ++ rest) = dts ++ iso_toks rest.
Proof.
  intros H Hok. unfold iso_toks.
  destruct H as [sep ty tm td y m d Hs Hy Hm Hd|sep ty tm y m Hs Hy Hm|ty tm td y m d Hy Hm Hd|ty tm y m Hy Hm|ty y Hy].
  - destruct (separator_sign sep Hs) as (S & Sk & Si & _). destruct Hy as [Hy Ly].
    exists [ty; tm; td]. split; [repeat constructor; eapply numeral_stop; eassumption|]. split.
    + unfold iso_date. rewrite (wide_is4d ty y) by (split; assumption).
      rewrite (numeral_int ty y), (numeral_int tm m), (numeral_int td d) by assumption. cbn [bind year month day].
      rewrite (date_ok_valid _ _ _ Hok). reflexivity.
    + intros rest Hr Hd'. rewrite !map_app, (numeral_iso ty y), (numeral_iso tm m), (numeral_iso td d) by assumption.
      cbn [map]. rewrite Si.
      pose proof (toks_runs (chars "/-:") [(1%nat, ty); (3%nat, [sep]); (1%nat, tm); (3%nat, [sep]); (1%nat, td)] rest) as E.
      cbn [map fst snd List.concat] in E. rewrite app_nil_r, <- !app_assoc in E. rewrite <- !app_assoc. rewrite E.
      * cbn [keep]. rewrite !Sk. reflexivity.
      * all_runs.
      * reflexivity.
      * exact Hr.
      * exact Hd'.
  - destruct (separator_sign sep Hs) as (S & Sk & Si & _). destruct Hy as [Hy Ly].
    exists [ty; tm]. split; [repeat constructor; eapply numeral_stop; eassumption|]. split.
    + unfold iso_date. rewrite (wide_is4d ty y) by (split; assumption).
      rewrite (numeral_int ty y), (numeral_int tm m) by assumption. cbn [bind year month day].
      rewrite (date_ok_valid _ _ _ Hok). reflexivity.
    + intros rest Hr Hd'. rewrite !map_app, (numeral_iso ty y), (numeral_iso tm m) by assumption.
      cbn [map]. rewrite Si.
      pose proof (toks_runs (chars "/-:") [(1%nat, ty); (3%nat, [sep]); (1%nat, tm)] rest) as E.
      cbn [map fst snd List.concat] in E. rewrite app_nil_r, <- !app_assoc in E. rewrite <- !app_assoc. rewrite E.
      * cbn [keep]. rewrite !Sk. reflexivity.
      * all_runs.
      * reflexivity.
      * exact Hr.
      * exact Hd'.
  - assert (numeral (ty ++ tm ++ td) (number (ty ++ tm ++ td))) as Hn.
    { eapply numeral_app; [apply Hy|]. eapply numeral_app; [apply Hm|apply Hd]. }
    exists [ty ++ tm ++ td]. split; [repeat constructor; eapply numeral_stop; eassumption|]. split.
    + unfold iso_date.
      assert (List.length (ty ++ tm ++ td) = 8%nat) as -> by (rewrite !app_length; destruct Hy as [_ ->], Hm as [_ ->], Hd as [_ ->]; reflexivity).
      cbn match.
      destruct (wide_cut ty 4 y (tm ++ td) Hy) as [-> E]. rewrite E.
      destruct (wide_cut tm 2 m td Hm) as [-> E'].
      replace (skipn 6 (ty ++ tm ++ td)) with td.
      2:{ symmetry. rewrite app_assoc. apply (wide_cut (ty ++ tm) 6 (number (ty ++ tm)) td). split; [eapply numeral_app; [apply Hy|apply Hm]|].
          rewrite app_length. destruct Hy as [_ ->], Hm as [_ ->]. reflexivity. }
      destruct (wide_cut' td 2 d Hd) as [-> _].
      rewrite (numeral_int ty y), (numeral_int tm m), (numeral_int td d) by (apply Hy || apply Hm || apply Hd). cbn [bind year month day].
      rewrite (date_ok_valid _ _ _ Hok). reflexivity.
    + intros rest Hr Hd'. rewrite (numeral_iso _ _ Hn). apply (toks_run (chars "/-:") 1); [lia|eapply numeral_run; eassumption|assumption..].
  - assert (numeral (ty ++ tm) (number (ty ++ tm))) as Hn.
    { eapply numeral_app; [apply Hy|apply Hm]. }
    exists [ty ++ tm]. split; [repeat constructor; eapply numeral_stop; eassumption|]. split.
    + unfold iso_date.
      assert (List.length (ty ++ tm) = 6%nat) as -> by (rewrite !app_length; destruct Hy as [_ ->], Hm as [_ ->]; reflexivity).
      cbn match.
      destruct (wide_cut ty 4 y tm Hy) as [-> E]. rewrite E.
      destruct (wide_cut' tm 2 m Hm) as [-> _].
      rewrite (numeral_int ty y), (numeral_int tm m) by (apply Hy || apply Hm). cbn [bind year month day].
      rewrite (date_ok_valid _ _ _ Hok). reflexivity.
    + intros rest Hr Hd'. rewrite (numeral_iso _ _ Hn). apply (toks_run (chars "/-:") 1); [lia|eapply numeral_run; eassumption|assumption..].
  - exists [ty]. split; [repeat constructor; eapply numeral_stop; apply Hy|]. split.
    + unfold iso_date. assert (List.length ty = 4%nat) as -> by apply Hy. cbn match.
      destruct (wide_cut' ty 4 y Hy) as [-> _]. rewrite (numeral_int ty y) by apply Hy. cbn [bind year month day].
      rewrite (date_ok_valid _ _ _ Hok). reflexivity.
    + intros rest Hr Hd'. rewrite (numeral_iso _ _ (proj1 Hy)). apply (toks_run (chars "/-:") 1); [lia|eapply numeral_run; apply Hy|assumption..].
Qed.

(** ** ISO times *)

Lemma numeral_float t n : numeral t n -> float_of t = Ok n.
Proof.
  intros H. pose proof (numeral_all _ _ H) as A. apply numeral_digits in H as (N & D & E & _).
  assert (forall u, forallb is_digit u = true -> drop_spaces u = u) as Dr.
  { intros [|c u] Hu; [reflexivity|]. cbn [forallb] in Hu. apply andb_true_iff in Hu as [Hc _].
    cbn [drop_spaces]. destruct (digit_facts c Hc) as (_ & _ & _ & _ & -> & _). reflexivity. }
  assert (strip t = t) as S.
  { unfold strip. rewrite (Dr t D), Dr; [apply rev_involutive|].
    rewrite forallb_forall in *. intros c Hc. apply D, in_rev, Hc. }
  unfold float_of. rewrite S. destruct t as [|c t]; [congruence|].
  assert (is_digit c = true) as Hc by (cbn [forallb] in D; apply andb_true_iff in D; tauto).
  destruct (digit_facts c Hc) as (_ & _ & _ & _ & _ & _ & H43 & H45).
  destruct (Z.eqb_spec c 43); [contradiction|]. destruct (Z.eqb_spec c 45); [contradiction|].
  rewrite A, E. f_equal. lia.
Qed.

Lemma time_ok_valid h m s : time_ok (Time h m s) -> is_valid_time h m s = true.
Proof. unfold time_ok, is_valid_time. cbn. lia. Qed.

Lemma t_sign c : In c (chars "Tt ") -> iso_char c = 116.
Proof. intros [<-|[<-|[<-|[]]]]; reflexivity. Qed.

Lemma iso_time_runs b t :
  iso_time_text b t -> time_ok t ->
  exists tts, Forall (fun t => stop t = false /\ all is_alpha t = false) tts /\ tts <> [] /\ iso_time tts = Ok (hour t, minute t, second t)
    /\ head_not 1 (map iso_char b) /\ dotless (map iso_char b)
    /\ forall rest, head_not 1 rest -> dotless rest -> iso_toks (map iso_char b ++ rest) = chars "t" :: tts ++ iso_toks rest.
Proof.
  intros H Hok. unfold iso_toks. destruct colon_sign as (S & Sk & Si).
  destruct H as [sep th tm ts h m s Hs Hh Hm Hse|sep th tm h m Hs Hh Hm|sep th tm ts h m s Hs Hh Hm Hse|sep th tm h m Hs Hh Hm|sep th h Hs Hh];
    pose proof (t_sign sep Hs) as St.
  - exists [th; tm; ts]. split; [repeat constructor; eapply numeral_time; eassumption|]. split; [discriminate|]. split.
    { unfold iso_time. rewrite (numeral_int th h), (numeral_int tm m), (numeral_float ts s) by assumption. cbn [bind hour minute second].
      rewrite (time_ok_valid _ _ _ Hok). reflexivity. }
    rewrite !map_app. cbn [map]. rewrite St. split; [discriminate|]. split; [discriminate|]. intros rest Hr Hd.
    rewrite (numeral_iso th h), (numeral_iso tm m), (numeral_iso ts s) by assumption.
    change (map iso_char (chars ":")) with [58].
    pose proof (toks_runs (chars "/-:") [(0%nat, [116]); (1%nat, th); (3%nat, [58]); (1%nat, tm); (3%nat, [58]); (1%nat, ts)] rest) as E.
    cbn [map fst snd List.concat] in E. rewrite app_nil_r, <- !app_assoc in E. rewrite <- !app_assoc. rewrite E.
    + cbn [keep]. rewrite !Sk. reflexivity.
    + all_runs.
    + reflexivity.
    + exact Hr.
    + exact Hd.
  - exists [th; tm]. split; [repeat constructor; eapply numeral_time; eassumption|]. split; [discriminate|]. split.
    { unfold iso_time. rewrite (numeral_int th h), (numeral_int tm m) by assumption. cbn [bind hour minute second].
      rewrite (time_ok_valid _ _ _ Hok). reflexivity. }
    rewrite !map_app. cbn [map]. rewrite St. split; [discriminate|]. split; [discriminate|]. intros rest Hr Hd.
    rewrite (numeral_iso th h), (numeral_iso tm m) by assumption.
    change (map iso_char (chars ":")) with [58].
    pose proof (toks_runs (chars "/-:") [(0%nat, [116]); (1%nat, th); (3%nat, [58]); (1%nat, tm)] rest) as E.
    cbn [map fst snd List.concat] in E. rewrite app_nil_r, <- !app_assoc in E. rewrite <- !app_assoc. rewrite E.
    + cbn [keep]. rewrite !Sk. reflexivity.
    + all_runs.
    + reflexivity.
    + exact Hr.
    + exact Hd.
  - assert (numeral (th ++ tm ++ ts) (number (th ++ tm ++ ts))) as Hn.
    { eapply numeral_app; [apply Hh|]. eapply numeral_app; [apply Hm|apply Hse]. }
    exists [th ++ tm ++ ts]. split; [repeat constructor; eapply numeral_time; eassumption|]. split; [discriminate|]. split.
    { unfold iso_time.
      assert (List.length (th ++ tm ++ ts) = 6%nat) as -> by (rewrite !app_length; destruct Hh as [_ ->], Hm as [_ ->], Hse as [_ ->]; reflexivity).
      cbn match. destruct (wide_cut th 2 h (tm ++ ts) Hh) as [-> E]. rewrite E.
      destruct (wide_cut tm 2 m ts Hm) as [-> _].
      replace (skipn 4 (th ++ tm ++ ts)) with ts.
      2:{ symmetry. rewrite app_assoc. apply (wide_cut (th ++ tm) 4 (number (th ++ tm)) ts). split; [eapply numeral_app; [apply Hh|apply Hm]|].
          rewrite app_length. destruct Hh as [_ ->], Hm as [_ ->]. reflexivity. }
      destruct (wide_cut' ts 2 s Hse) as [-> _].
      rewrite (numeral_int th h), (numeral_int tm m), (numeral_float ts s) by (apply Hh || apply Hm || apply Hse). cbn [bind hour minute second].
      rewrite (time_ok_valid _ _ _ Hok). reflexivity. }
    rewrite map_app. cbn [map]. rewrite St. split; [discriminate|]. split; [discriminate|]. intros rest Hr Hd.
    rewrite (numeral_iso _ _ Hn).
    pose proof (toks_runs (chars "/-:") [(0%nat, [116]); (1%nat, th ++ tm ++ ts)] rest) as E.
    cbn [map fst snd List.concat] in E. rewrite app_nil_r, <- !app_assoc in E. rewrite <- !app_assoc. rewrite E.
    + reflexivity.
    + all_runs.
    + reflexivity.
    + exact Hr.
    + exact Hd.
  - assert (numeral (th ++ tm) (number (th ++ tm))) as Hn.
    { eapply numeral_app; [apply Hh|apply Hm]. }
    exists [th ++ tm]. split; [repeat constructor; eapply numeral_time; eassumption|]. split; [discriminate|]. split.
    { unfold iso_time.
      assert (List.length (th ++ tm) = 4%nat) as -> by (rewrite !app_length; destruct Hh as [_ ->], Hm as [_ ->]; reflexivity).
      cbn match. destruct (wide_cut th 2 h tm Hh) as [-> E]. rewrite E.
      destruct (wide_cut' tm 2 m Hm) as [-> _].
      rewrite (numeral_int th h), (numeral_int tm m) by (apply Hh || apply Hm). cbn [bind hour minute second].
      rewrite (time_ok_valid _ _ _ Hok). reflexivity. }
    rewrite map_app. cbn [map]. rewrite St. split; [discriminate|]. split; [discriminate|]. intros rest Hr Hd.
    rewrite (numeral_iso _ _ Hn).
    pose proof (toks_runs (chars "/-:") [(0%nat, [116]); (1%nat, th ++ tm)] rest) as E.
    cbn [map fst snd List.concat] in E. rewrite app_nil_r, <- !app_assoc in E. rewrite <- !app_assoc. rewrite E.
    + reflexivity.
    + all_runs.
    + reflexivity.
    + exact Hr.
    + exact Hd.
  - exists [th]. split; [repeat constructor; eapply numeral_time; apply Hh|]. split; [discriminate|]. split.
    { unfold iso_time. assert (List.length th = 2%nat) as -> by apply Hh. cbn match.
      destruct (wide_cut' th 2 h Hh) as [-> _]. rewrite (numeral_int th h) by apply Hh. cbn [bind hour minute second].
      rewrite (time_ok_valid _ _ _ Hok). reflexivity. }
    rewrite map_app. cbn [map]. rewrite St. split; [discriminate|]. split; [discriminate|]. intros rest Hr Hd.
    rewrite (numeral_iso _ _ (proj1 Hh)).
    pose proof (toks_runs (chars "/-:") [(0%nat, [116]); (1%nat, th)] rest) as E.
    cbn [map fst snd List.concat] in E. rewrite app_nil_r, <- !app_assoc in E. rewrite <- !app_assoc. rewrite E.
    + reflexivity.
    + destruct Hh as [Hh _]; all_runs.
    + reflexivity.
    + exact Hr.
    + exact Hd.
Qed.

(** ** Zones *)

Lemma lower_plain_iso t w : lower t = w -> forallb (fun c => negb (c =? 32)) w = true -> map iso_char t = w.
Proof.
  intros <-. induction t as [|c t IH]; [reflexivity|]. cbn [lower map forallb]. fold (lower t).
  intros H. apply andb_true_iff in H as [Hc H]. rewrite IH by exact H. f_equal. unfold iso_char.
  destruct (Z.eqb_spec c 32) as [->|]; [discriminate Hc|reflexivity].
Qed.

Lemma plus_run : run 3 [43].
Proof. split; [discriminate|repeat constructor; discriminate]. Qed.
Lemma colon_run : run 3 [58].
Proof. split; [discriminate|repeat constructor; discriminate]. Qed.

Lemma wide2 t n : wide 2 t n -> exists a b, t = [a; b] /\ is_digit a = true /\ is_digit b = true.
Proof.
  intros [H L]. apply numeral_digits in H as (_ & D & _). destruct t as [|a [|b [|]]]; try discriminate L.
  cbn [forallb] in D. exists a, b. repeat split; lia.
Qed.

Section Zones.
  Variables est nyc : zone.
  Variable pytz_name : text -> bool.
  Hypothesis pytz_capital : forall t, pytz_name t = true -> ~ lowercase t.

  Lemma pytz_small t : lower t = t -> pytz_name t = false.
  Proof using pytz_capital.
    intros H. destruct (pytz_name t) eqn:E; [|reflexivity]. exfalso. apply (pytz_capital t E). rewrite <- H. apply lower_lowercase.
  Qed.

  Lemma plus_zone t n : numeral t n -> chars "+" ++ t <> chars "+0000" ->
    is_valid_timezone est nyc pytz_name (chars "+" ++ t) = false.
  Proof using pytz_capital.
    intros H N. unfold is_valid_timezone.
    assert (lower (chars "+" ++ t) = chars "+" ++ t) as L by (rewrite lower_app, (numeral_lower _ _ H); reflexivity).
    rewrite L. unfold timezones.
    destruct (text_eqb (chars "+" ++ t) (chars "+0000")) eqn:E; [apply text_eqb_eq in E; contradiction|].
    change (text_eqb (chars "+" ++ t) (chars "")) with false. change (text_eqb (chars "+" ++ t) (chars "utc")) with false.
    change (text_eqb (chars "+" ++ t) (chars "z")) with false. change (text_eqb (chars "+" ++ t) (chars "est")) with false.
    change (text_eqb (chars "+" ++ t) (chars "nyc")) with false. cbn match. apply (pytz_small _ L).
  Qed.

  Lemma iso_zone_runs c z :
    iso_zone_text est nyc c z ->
    head_not 1 (map iso_char c) /\ dotless (map iso_char c)
    /\ exists zts, iso_toks (map iso_char c) = zts /\ time_tokens false zts = Ok ([], zts)
       /\ match zts with [] => z = utc | _ => get_timezone_from_string est nyc pytz_name (List.concat zts) = Ok z end.
  Proof using pytz_capital.
    intros H. unfold iso_toks.
    assert (forall w z', c <> [] -> lower c = w -> run 0 w -> forallb (fun c => negb (c =? 32)) w = true -> text_eqb w (chars "t") = false ->
      get_timezone_from_string est nyc pytz_name w = Ok z' ->
      head_not 1 (map iso_char c) /\ dotless (map iso_char c)
      /\ exists zts, toks (chars "/-:") (map iso_char c) = zts /\ time_tokens false zts = Ok ([], zts)
         /\ match zts with [] => z' = utc | _ => get_timezone_from_string est nyc pytz_name (List.concat zts) = Ok z' end) as Word.
    { intros w z' Nc Ew Rw Bw Tw Gw. rewrite (lower_plain_iso c w Ew Bw).
      destruct Rw as [Nw Fw]. destruct w as [|x w]; [congruence|].
      assert (class x = 0%nat /\ x <> 46) as [Cx Dx] by (inversion Fw; assumption).
      split; [cbn; lia|]. split; [exact Dx|]. exists [x :: w].
      split. { rewrite <- (app_nil_r (x :: w)) at 1. rewrite (toks_run (chars "/-:") 0 (x :: w) []); [rewrite toks_nil; reflexivity|lia|split; assumption|exact I|exact I]. }
      split.
      - cbn [time_tokens]. rewrite Tw.
        assert (all is_alpha (x :: w) = true) as ->.
        { unfold all. apply forallb_forall. intros y Hy. rewrite Forall_forall in Fw. destruct (Fw y Hy) as [Cy _].
          unfold class in Cy. destruct (is_alpha y); [reflexivity|]. destruct (is_digit y); [discriminate|]. destruct (is_space y); discriminate. }
        destruct (_ || _); reflexivity.
      - cbn [List.concat]. rewrite app_nil_r. exact Gw. }
    destruct H as [|t [E|E]|t E|t E|th h Hh|col th tm h m Hc Hh Hm|col th tm ts h m s Hc Hh Hm Hs].
    - split; [exact I|]. split; [exact I|]. exists []. split; [apply toks_nil|]. split; reflexivity.
    - apply (Word (chars "z") utc); [intros ->; discriminate E|exact E|split; [discriminate|repeat constructor; discriminate]|reflexivity..].
    - apply (Word (chars "utc") utc); [intros ->; discriminate E|exact E|split; [discriminate|repeat constructor; discriminate]|reflexivity..].
    - apply (Word (chars "est") est); [intros ->; discriminate E|exact E|split; [discriminate|repeat constructor; discriminate]|reflexivity..].
    - apply (Word (chars "nyc") nyc); [intros ->; discriminate E|exact E|split; [discriminate|repeat constructor; discriminate]|reflexivity..].
    - rewrite map_app, (numeral_iso _ _ (proj1 Hh)). change (map iso_char (chars "+")) with [43].
      split; [discriminate|]. split; [discriminate|]. exists [[43]; th]. split.
      { pose proof (toks_runs (chars "/-:") [(3%nat, [43]); (1%nat, th)] []) as E.
        cbn [map fst snd List.concat] in E. rewrite !app_nil_r in E. rewrite E; [reflexivity| |reflexivity|exact I|exact I].
        repeat (apply Forall_cons || apply Forall_nil); cbn [fst snd]; first [exact plus_run|eapply numeral_run; apply Hh]. }
      split; [reflexivity|]. cbn [List.concat]. rewrite app_nil_r. change ([43] ++ th) with (chars "+" ++ th).
      unfold get_timezone_from_string. rewrite (plus_zone th h).
      2: apply Hh. 2:{ destruct (wide2 _ _ Hh) as (a & b & -> & _). discriminate. }
      change (chars "+" ++ th) with (43 :: th). cbn match. change ((43 =? 43) || (43 =? 45)) with true. cbn match.
      assert (List.length th = 2%nat) as -> by apply Hh. rewrite (numeral_float th h) by apply Hh. reflexivity.
    - assert (numeral (th ++ tm) (number (th ++ tm))) as Hn by (eapply numeral_app; [apply Hh|apply Hm]).
      assert (map iso_char (chars "+" ++ th ++ col ++ tm) = [43] ++ th ++ col ++ tm) as Ei.
      { rewrite !map_app, (numeral_iso _ _ (proj1 Hh)), (numeral_iso _ _ (proj1 Hm)). destruct Hc as [<-|[<-|[]]]; reflexivity. }
      rewrite Ei. split; [discriminate|]. split; [discriminate|].
      assert (exists zts, toks (chars "/-:") ([43] ++ th ++ col ++ tm) = [43] :: zts /\ List.concat zts = th ++ tm) as (zts & E & Ec).
      { destruct Hc as [<-|[<-|[]]].
        - exists [th; tm]. pose proof (toks_runs (chars "/-:") [(3%nat, [43]); (1%nat, th); (3%nat, [58]); (1%nat, tm)] []) as E.
          cbn [map fst snd List.concat] in E. rewrite !app_nil_r in E. split; [|cbn [List.concat]; rewrite app_nil_r; reflexivity].
          change (chars ":") with [58]. rewrite E; [reflexivity| |reflexivity|exact I|exact I].
          repeat (apply Forall_cons || apply Forall_nil); cbn [fst snd]; first [exact plus_run|exact colon_run|eapply numeral_run; apply Hh|eapply numeral_run; apply Hm].
        - exists [th ++ tm]. pose proof (toks_runs (chars "/-:") [(3%nat, [43]); (1%nat, th ++ tm)] []) as E.
          cbn [map fst snd List.concat] in E. rewrite !app_nil_r in E. split; [|cbn [List.concat]; rewrite app_nil_r; reflexivity].
          cbn [app] in *. rewrite E; [reflexivity| |reflexivity|exact I|exact I].
          repeat (apply Forall_cons || apply Forall_nil); cbn [fst snd]; first [exact plus_run|eapply numeral_run; exact Hn]. }
      exists ([43] :: zts). split; [exact E|]. split; [reflexivity|]. cbn [List.concat]. rewrite Ec. clear E Ec zts Ei.
      assert (List.length (th ++ tm) = 4%nat) as L by (rewrite app_length; destruct Hh as [_ ->], Hm as [_ ->]; reflexivity).
      change ([43] ++ th ++ tm) with (chars "+" ++ (th ++ tm)).
      destruct (text_eqb (chars "+" ++ (th ++ tm)) (chars "+0000")) eqn:Z0.
      + apply text_eqb_eq in Z0.
        assert (th = chars "00" /\ tm = chars "00") as [-> ->].
        { destruct (wide2 _ _ Hh) as (a & b & -> & _), (wide2 _ _ Hm) as (a' & b' & -> & _). cbn in Z0. injection Z0 as -> -> -> ->. split; reflexivity. }
        assert (h = 0) as -> by (destruct Hh as [Hh _]; apply numeral_digits in Hh as (_ & _ & <- & _); reflexivity).
        assert (m = 0) as -> by (destruct Hm as [Hm _]; apply numeral_digits in Hm as (_ & _ & <- & _); reflexivity).
        reflexivity.
      + unfold get_timezone_from_string. rewrite (plus_zone (th ++ tm) _ Hn).
        2:{ intros Q. apply text_eqb_eq in Q. congruence. }
        change (chars "+" ++ (th ++ tm)) with (43 :: (th ++ tm)). cbn match. change ((43 =? 43) || (43 =? 45)) with true. cbn match.
        rewrite L. destruct (wide_cut th 2 h tm Hh) as [-> ->].
        rewrite (numeral_float th h), (numeral_float tm m) by (apply Hh || apply Hm). reflexivity.
    - assert (numeral (th ++ tm ++ ts) (number (th ++ tm ++ ts))) as Hn
        by (eapply numeral_app; [apply Hh|eapply numeral_app; [apply Hm|apply Hs]]).
      assert (map iso_char (chars "+" ++ th ++ col ++ tm ++ col ++ ts) = [43] ++ th ++ col ++ tm ++ col ++ ts) as Ei.
      { rewrite !map_app, (numeral_iso _ _ (proj1 Hh)), (numeral_iso _ _ (proj1 Hm)), (numeral_iso _ _ (proj1 Hs)). destruct Hc as [<-|[<-|[]]]; reflexivity. }
      rewrite Ei. split; [discriminate|]. split; [discriminate|].
      assert (exists zts, toks (chars "/-:") ([43] ++ th ++ col ++ tm ++ col ++ ts) = [43] :: zts /\ List.concat zts = th ++ tm ++ ts) as (zts & E & Ec).
      { destruct Hc as [<-|[<-|[]]].
        - exists [th; tm; ts]. pose proof (toks_runs (chars "/-:") [(3%nat, [43]); (1%nat, th); (3%nat, [58]); (1%nat, tm); (3%nat, [58]); (1%nat, ts)] []) as E.
          cbn [map fst snd List.concat] in E. rewrite !app_nil_r in E. split; [|cbn [List.concat]; rewrite app_nil_r; reflexivity].
          change (chars ":") with [58]. rewrite E; [reflexivity| |reflexivity|exact I|exact I].
          repeat (apply Forall_cons || apply Forall_nil); cbn [fst snd]; first [exact plus_run|exact colon_run|eapply numeral_run; apply Hh|eapply numeral_run; apply Hm|eapply numeral_run; apply Hs].
        - exists [th ++ tm ++ ts]. pose proof (toks_runs (chars "/-:") [(3%nat, [43]); (1%nat, th ++ tm ++ ts)] []) as E.
          cbn [map fst snd List.concat] in E. rewrite !app_nil_r in E. split; [|cbn [List.concat]; rewrite app_nil_r; reflexivity].
          cbn [app] in *. rewrite E; [reflexivity| |reflexivity|exact I|exact I].
          repeat (apply Forall_cons || apply Forall_nil); cbn [fst snd]; first [exact plus_run|eapply numeral_run; exact Hn]. }
      exists ([43] :: zts). split; [exact E|]. split; [reflexivity|]. cbn [List.concat]. rewrite Ec. clear E Ec zts Ei.
      assert (List.length (th ++ tm ++ ts) = 6%nat) as L by (rewrite !app_length; destruct Hh as [_ ->], Hm as [_ ->], Hs as [_ ->]; reflexivity).
      change ([43] ++ th ++ tm ++ ts) with (chars "+" ++ (th ++ tm ++ ts)).
      unfold get_timezone_from_string. rewrite (plus_zone (th ++ tm ++ ts) _ Hn).
      2:{ intros Q. apply (f_equal (@List.length Z)) in Q. rewrite app_length, L in Q. discriminate Q. }
      change (chars "+" ++ (th ++ tm ++ ts)) with (43 :: (th ++ tm ++ ts)). cbn match. change ((43 =? 43) || (43 =? 45)) with true. cbn match.
      rewrite L. destruct (wide_cut th 2 h (tm ++ ts) Hh) as [-> ->]. destruct (wide_cut tm 2 m ts Hm) as [-> _].
      replace (skipn 4 (th ++ tm ++ ts)) with ts.
      2:{ symmetry. rewrite app_assoc. apply (wide_cut (th ++ tm) 4 (number (th ++ tm)) ts). split; [eapply numeral_app; [apply Hh|apply Hm]|].
          rewrite app_length. destruct Hh as [_ ->], Hm as [_ ->]. reflexivity. }
      rewrite (numeral_float th h), (numeral_float tm m), (numeral_float ts s) by (apply Hh || apply Hm || apply Hs). reflexivity.
  Qed.

  (** ** ISO 8601 as a whole *)

  Lemma mk_datetime_real d t : date_ok d -> time_ok t ->
    mk_datetime (year d) (month d) (day d) (hour t) (minute t) (second t) = Ok (DateTime d t).
  Proof using Type.
    intros [Hy Hd] Ht. unfold mk_datetime. rewrite mk_date_ok by assumption. cbn [bind].
    unfold mk_time, is_valid_time. replace (_ && _) with true by (unfold time_ok in Ht; lia).
    destruct d, t. reflexivity.
  Qed.
  Lemma midnight_ok : time_ok (Time 0 0 0).
  Proof using Type. unfold time_ok. cbn. lia. Qed.

  Lemma mk_midnight d : date_ok d -> mk_datetime (year d) (month d) (day d) 0 0 0 = Ok (DateTime d (Time 0 0 0)).
  Proof using Type. intros Hd. exact (mk_datetime_real d (Time 0 0 0) Hd midnight_ok). Qed.

  Definition chosen (zg : option zone) : zone := match zg with Some z => z | None => utc end.

  Lemma parse_iso_date zg a d :
    iso_date_text a d -> date_ok d -> parse_iso est nyc pytz_name zg a = chosen zg (DateTime d (Time 0 0 0)).
  Proof using Type.
    intros Ha Hd. destruct (iso_date_runs a d Ha Hd) as (dts & Hs & Ed & Et).
    unfold parse_iso. rewrite replace_blank, tokens_of_toks. cbn [bind].
    specialize (Et [] I I). unfold iso_toks in Et. rewrite app_nil_r, toks_nil, app_nil_r in Et. rewrite Et.
    rewrite date_tokens_end by exact Hs. rewrite Ed. cbn [bind].
    rewrite (mk_midnight d Hd). cbn [bind]. fold (chosen zg).
    destruct (chosen zg _); reflexivity.
  Qed.

  Lemma parse_iso_datetime zg a b c d t z :
    iso_date_text a d -> iso_time_text b t -> iso_zone_text est nyc c z -> date_ok d -> time_ok t ->
    (zg = None \/ c = []) -> is_ok (chosen zg (DateTime d (Time 0 0 0))) = true ->
    parse_iso est nyc pytz_name zg (a ++ b ++ c) = (match zg with Some z' => z' | None => z end) (DateTime d t).
  Proof using pytz_capital.
    intros Ha Hb Hc Hd Ht Hz Hm. destruct (iso_date_runs a d Ha Hd) as (dts & Hs & Ed & Et).
    destruct (iso_time_runs b t Hb Ht) as (tts & Fs & Nt & Ei & Hh & Hdt & Eb).
    destruct (iso_zone_runs c z Hc) as (Hch & Hcd & zts & Ez & Tz & Gz).
    unfold parse_iso. rewrite replace_blank, tokens_of_toks. cbn [bind].
    change (toks (chars "/-:")) with iso_toks. rewrite !map_app.
    assert (b <> []) as Nb by (destruct Hb; discriminate).
    rewrite Et.
    2:{ destruct b; [congruence|exact Hh]. }
    2:{ destruct b; [congruence|exact Hdt]. }
    rewrite (Eb _ Hch Hcd), Ez. rewrite date_tokens_stop by (exact Hs || reflexivity).
    rewrite Ed. cbn [bind]. rewrite (mk_midnight d Hd). cbn [bind]. fold (chosen zg).
    destruct (chosen zg (DateTime d (Time 0 0 0))) as [ts0|]; [|discriminate Hm]. cbn [bind].
    assert (time_tokens (match zg with Some _ => true | None => false end) zts = Ok ([], zts)) as Tz'.
    { destruct Hz as [->| ->]; [exact Tz|]. cbn [map] in Ez. unfold iso_toks in Ez. rewrite toks_nil in Ez. subst zts. reflexivity. }
    destruct (tts ++ zts) as [|u us] eqn:Eu.
    { destruct tts; [congruence|discriminate Eu]. }
    rewrite <- Eu. clear Eu u us. rewrite time_tokens_app by exact Fs. rewrite Tz'. cbn [bind]. rewrite app_nil_r, Ei. cbn [bind].
    rewrite (mk_datetime_real d t Hd Ht). cbn [bind].
    destruct zg as [z'|].
    - reflexivity.
    - destruct zts as [|x zts]; [subst z; reflexivity|]. rewrite Gz. reflexivity.
  Qed.
End Zones.
