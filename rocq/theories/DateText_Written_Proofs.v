(** Proofs about parsing dates with the name of the month, or with the year last. *)
From Coq Require Import String Ascii.
From Verif Require Import Base Chrono_Model Calendar_Spec Chrono_Proofs DateTime_Model DateTime_Spec DateTime_Proofs
  DateText_Model DateText_Spec DateText_Format_Proofs DateText_Token_Proofs DateText_Parse_Proofs.
From Coq Require Import ZifyBool ZifyNat.
Open Scope string_scope.
Open Scope Z_scope.
Open Scope list_scope.
Open Scope result_scope.

(** ** Words *)

Definition word (w : text) (m : Z) : Prop := In (w, m) month_table.
Lemma names_word t m : names_month t m -> word (lower t) m.
Proof.
  intros [Hm H]. unfold word.
  assert (m = 1 \/ m = 2 \/ m = 3 \/ m = 4 \/ m = 5 \/ m = 6 \/ m = 7 \/ m = 8 \/ m = 9 \/ m = 10 \/ m = 11 \/ m = 12) as C by lia.
  destruct H as [->|[->|[-> ->]]]; [| |vm_compute; tauto];
    repeat (destruct C as [->|C]; [vm_compute; tauto|]); subst m; vm_compute; tauto.
Qed.

Definition plain_word (w : text) : bool :=
  forallb is_alpha w && forallb (fun c => negb (c =? 32)) w && forallb (fun c => negb (c =? 46)) w && negb (all is_digit w) && negb (stop w)
  && negb (stop (w ++ chars "t")) && negb (text_eqb w []).
Lemma words_plain : forallb (fun p => plain_word (fst p) && match month_number (fst p) with Some n => n =? snd p | None => false end) month_table = true.
Proof. vm_compute. reflexivity. Qed.
Lemma word_facts w m : word w m -> plain_word w = true /\ month_number w = Some m.
Proof.
  intros H. pose proof words_plain as P. rewrite forallb_forall in P. specialize (P _ H). cbn [fst snd] in P.
  apply andb_true_iff in P as [P1 P2]. split; [exact P1|]. destruct (month_number w); [|discriminate]. apply Z.eqb_eq in P2. congruence.
Qed.

Lemma alpha_class c : is_alpha c = true -> class c = 0%nat.
Proof. intros H. unfold class. rewrite H. reflexivity. Qed.
Lemma letters_run w : w <> [] -> forallb is_alpha w = true -> run 0 w.
Proof.
  intros N H. split; [exact N|]. apply Forall_forall. intros c Hc. rewrite forallb_forall in H. specialize (H c Hc).
  split; [apply alpha_class, H|]. intros ->. discriminate H.
Qed.

Section Word.
  Variables (w : text) (m : Z).
  Hypothesis Hw : word w m.
  Lemma plain_parts : forallb is_alpha w = true /\ forallb (fun c => negb (c =? 32)) w = true /\ forallb (fun c => negb (c =? 46)) w = true
    /\ all is_digit w = false /\ stop w = false /\ stop (w ++ chars "t") = false /\ w <> [].
  Proof using Hw.
    destruct (word_facts w m Hw) as [P _]. unfold plain_word in P.
    apply andb_true_iff in P as [P P7]. apply andb_true_iff in P as [P P6]. apply andb_true_iff in P as [P P5]. apply andb_true_iff in P as [P P4].
    apply andb_true_iff in P as [P P3]. apply andb_true_iff in P as [P1 P2]. apply negb_true_iff in P4, P5, P6.
    repeat split; try assumption. intros ->. discriminate P7.
  Qed.
  Lemma word_is_month : is_month w = true.
  Proof using Hw. unfold is_month. destruct (word_facts w m Hw) as [_ ->]. reflexivity. Qed.
  Lemma word_to_int : month_to_int w = Ok m.
  Proof using Hw. unfold month_to_int. destruct (word_facts w m Hw) as [_ ->]. reflexivity. Qed.
  Lemma word_digit : all is_digit w = false.
  Proof using Hw. apply plain_parts. Qed.
  Lemma word_4d : is4d w = false.
  Proof using Hw. unfold is4d. rewrite word_digit. apply andb_false_r. Qed.
  Lemma word_2d : is2d w = false.
  Proof using Hw. unfold is2d. rewrite word_digit. apply andb_false_r. Qed.
  Lemma word_run : run 0 w.
  Proof using Hw. destruct plain_parts as (? & _ & _ & _ & _ & _ & ?). apply letters_run; assumption. Qed.
  Lemma word_run_t : run 0 (w ++ chars "t").
  Proof using Hw.
    destruct plain_parts as (A & _ & _ & _ & _ & _ & N). apply letters_run; [destruct w; discriminate|]. rewrite forallb_app, A. reflexivity.
  Qed.
  Lemma t_word_run u : forallb is_alpha u = true -> run 0 (chars "t" ++ w ++ u).
  Proof using Hw.
    intros U. destruct plain_parts as (A & _). apply letters_run; [discriminate|]. rewrite !forallb_app, A, U. reflexivity.
  Qed.
  Lemma t_word u : stop (chars "t" ++ w ++ u) = false /\ all is_digit (chars "t" ++ w ++ u) = false.
  Proof using Hw.
    split; [|reflexivity]. destruct plain_parts as (_ & _ & _ & _ & _ & _ & N). destruct w as [|x w']; [congruence|]. reflexivity.
  Qed.
  Lemma word_lower_iso t : lower t = w -> map iso_char t = w.
  Proof using Hw. intros E. apply lower_plain_iso; [exact E|]. apply plain_parts. Qed.
End Word.

Lemma numeral_not_month t n : numeral t n -> is_month t = false.
Proof.
  intros H. unfold is_month, month_number.
  destruct (find _ month_table) as [[w k]|] eqn:F; [|reflexivity]. apply find_some in F as [I E]. cbn [fst] in E.
  apply text_eqb_eq in E. subst w. pose proof (word_digit t k I). rewrite (numeral_all _ _ H) in *. discriminate.
Qed.
Lemma short_4d t n : short t n -> is4d t = false.
Proof. intros [_ L]. unfold is4d. destruct (Nat.eqb_spec (List.length t) 4); [lia|reflexivity]. Qed.

Lemma wide2_bound t n : wide 2 t n -> n < 100.
Proof.
  intros H. destruct (wide2 t n H) as (a & b & -> & Ea & Eb). destruct H as [H _]. apply numeral_digits in H as (_ & _ & <- & _).
  unfold number, is_digit in *. cbn [fold_left]. lia.
Qed.

(** ** They are no ISO dates *)

Lemma numeral_head t n r : numeral t n -> head_not 0 (t ++ r) /\ dotless (t ++ r).
Proof.
  intros H. apply numeral_run in H as [N F]. destruct t as [|c t]; [congruence|]. inversion F as [|? ? [C D] _]. subst.
  cbn. split; [lia|exact D].
Qed.
Lemma sep_head s c r : In s (chars "-/") -> (c < 3)%nat -> head_not c (s :: r) /\ dotless (s :: r).
Proof. intros [<-|[<-|[]]] H; (split; [cbn; lia|discriminate]). Qed.
Lemma sep_iso s : In s (chars "-/") -> map iso_char [s] = [s].
Proof. intros [<-|[<-|[]]]; reflexivity. Qed.
Lemma sep_run s : In s (chars "-/") -> run 3 [s].
Proof. intros H. apply sign_run. destruct (separator_sign s H). assumption. Qed.

(** Two tokens at the front that make no date. *)
Definition no_date (x y : text) : Prop :=
  stop x = false /\ stop y = false /\ (is4d x = false \/ is4d x = true /\ all is_digit y = false).
Lemma iso_date_none x y l : is4d x = false \/ is4d x = true /\ all is_digit y = false -> iso_date (x :: y :: l) = Err ValueError.
Proof.
  intros [H|[H Hy]]; unfold iso_date; destruct l as [|u [|]]; rewrite ?H; try reflexivity;
    unfold is4d in H; apply andb_true_iff in H as [_ Hx]; unfold int_of at 1; rewrite Hx; cbn [bind]; unfold int_of at 1; rewrite Hy; reflexivity.
Qed.
Lemma parse_iso_none est nyc pytz_name zg t x y l :
  iso_toks (map iso_char t) = x :: y :: l -> no_date x y -> parse_iso est nyc pytz_name zg t = Err ValueError.
Proof.
  intros E (Sx & Sy & H). unfold parse_iso. rewrite replace_blank, tokens_of_toks. cbn [bind].
  change (toks (chars "/-:")) with iso_toks. rewrite E. cbn [date_tokens]. fold (stop x) (stop y). rewrite Sx, Sy.
  destruct (date_tokens l) as [a b]. rewrite iso_date_none by exact H. reflexivity.
Qed.

Ltac run_list := repeat (apply Forall_cons || apply Forall_nil); cbn [fst snd];
  first [eapply numeral_run; eassumption|apply sep_run; assumption|eapply word_run; eassumption|eapply word_run_t; eassumption
        |eapply t_word_run; [eassumption|reflexivity]].

Lemma written_not_iso a d b :
  written_date_text a d -> exists x y l, iso_toks (map iso_char (a ++ b)) = x :: y :: l /\ no_date x y.
Proof.
  intros H. unfold iso_toks.
  assert (forall ps rest l, runs ps -> alternate (map fst ps) = true -> head_not (last (map fst ps) 9%nat) rest -> dotless rest ->
     List.concat (map (fun kp => keep (chars "/-:") (fst kp) (snd kp)) ps) = l ->
     toks (chars "/-:") (List.concat (map snd ps) ++ rest) = l ++ toks (chars "/-:") rest) as T.
  { intros ps rest l R A Hh Hd <-. apply toks_runs; try assumption. destruct ps; [exact I|exact Hh]. }
  destruct H as [tm td ty comma y m d Hm [Hd Ld] Hy Hc|tm td ty comma y m d Hm [Hd Ld] Hy Hc|tm td ty y m d Hm [Hd Ld] Hy
    |sep tm td ty y m d Hs Hm [Hd Ld] Hy|sep tm td ty y m d Hs Hm [Hd Ld] Hy|sep tm td ty y m d Hs Hm [Hd Ld] Hy
    |sep tm td ty y m d Hs [Hm Lm] [Hd Ld] Hy Hc|sep tm td ty y m d Hs [Hm Lm] [Hd Ld] Hy Hc|sep tm td ty y m d Hs Hm Hd Hy].
  - pose proof (names_word _ _ Hm) as W. set (w := lower tm) in *. rewrite !map_app, (word_lower_iso w m W tm eq_refl), (numeral_iso _ _ Hd).
    change (map iso_char (chars " ")) with (chars "t"). set (rest := map iso_char comma ++ chars "t" ++ _).
    exists (w ++ chars "t"), td, (toks (chars "/-:") ((map iso_char comma ++ chars "t" ++ map iso_char ty) ++ map iso_char b)). split.
    + pose proof (T [(0%nat, w ++ chars "t"); (1%nat, td)] ((map iso_char comma ++ chars "t" ++ map iso_char ty) ++ map iso_char b) [w ++ chars "t"; td]) as E.
      cbn [map fst snd List.concat] in E. rewrite app_nil_r in E. subst rest. rewrite <- !app_assoc in *. apply E.
      * run_list.
      * reflexivity.
      * destruct Hc as [<-|[<-|[]]]; discriminate.
      * destruct Hc as [<-|[<-|[]]]; discriminate.
      * reflexivity.
    + destruct (plain_parts w m W) as (_ & _ & _ & _ & _ & S & N). split; [exact S|]. split; [eapply numeral_stop; exact Hd|].
      left. unfold is4d, all. destruct (w ++ chars "t") eqn:E; [destruct w; discriminate E|]. rewrite <- E, forallb_app, andb_false_r.
      apply andb_false_r.
  - pose proof (names_word _ _ Hm) as W. set (w := lower tm) in *. rewrite !map_app, (word_lower_iso w m W tm eq_refl), (numeral_iso _ _ Hd), (numeral_iso _ _ (proj1 Hy)).
    change (map iso_char (chars " ")) with (chars "t").
    destruct Hc as [<-|[<-|[]]].
    + change (map iso_char (chars ",")) with [44].
      exists td, (chars "t" ++ w ++ []), (toks (chars "/-:") (([44] ++ chars "t" ++ ty) ++ map iso_char b)). split.
      * pose proof (T [(1%nat, td); (0%nat, chars "t" ++ w ++ [])] (([44] ++ chars "t" ++ ty) ++ map iso_char b) [td; chars "t" ++ w ++ []]) as E.
        cbn [map fst snd List.concat] in E. rewrite !app_nil_r in *. rewrite <- !app_assoc in *. apply E.
        -- pose proof (t_word_run w m W [] eq_refl) as R. rewrite app_nil_r in R. repeat (apply Forall_cons || apply Forall_nil); cbn [fst snd]; [eapply numeral_run; exact Hd|exact R].
        -- reflexivity.
        -- discriminate.
        -- discriminate.
        -- reflexivity.
      * split; [eapply numeral_stop; exact Hd|]. split; [apply (t_word w m W [])|]. left. apply (short_4d td d). split; assumption.
    + exists td, (chars "t" ++ w ++ chars "t"), (toks (chars "/-:") (ty ++ map iso_char b)). split.
      * pose proof (T [(1%nat, td); (0%nat, chars "t" ++ w ++ chars "t")] (ty ++ map iso_char b) [td; chars "t" ++ w ++ chars "t"]) as E.
        cbn [map fst snd List.concat] in E. rewrite !app_nil_r in *. cbn [map]. rewrite <- !app_assoc in *. apply E.
        -- run_list.
        -- reflexivity.
        -- apply (numeral_head _ _ _ (proj1 Hy)).
        -- apply (numeral_head _ _ _ (proj1 Hy)).
        -- reflexivity.
      * split; [eapply numeral_stop; exact Hd|]. split; [apply (t_word w m W (chars "t"))|]. left. apply (short_4d td d). split; assumption.
  - pose proof (names_word _ _ Hm) as W. set (w := lower tm) in *. destruct Hy as [Hy Ly].
    rewrite !map_app, (word_lower_iso w m W tm eq_refl), (numeral_iso _ _ Hd), (numeral_iso _ _ Hy).
    change (map iso_char (chars " ")) with (chars "t").
    exists ty, (chars "t" ++ w ++ chars "t"), (toks (chars "/-:") (td ++ map iso_char b)). split.
    + pose proof (T [(1%nat, ty); (0%nat, chars "t" ++ w ++ chars "t")] (td ++ map iso_char b) [ty; chars "t" ++ w ++ chars "t"]) as E.
      cbn [map fst snd List.concat] in E. rewrite !app_nil_r in *. rewrite <- !app_assoc in *. apply E.
      * run_list.
      * reflexivity.
      * apply (numeral_head _ _ _ Hd).
      * apply (numeral_head _ _ _ Hd).
      * reflexivity.
    + split; [eapply numeral_stop; exact Hy|]. split; [apply (t_word w m W (chars "t"))|]. right.
      split; [apply (wide_is4d ty y); split; assumption|]. apply (t_word w m W (chars "t")).
  - pose proof (names_word _ _ Hm) as W. set (w := lower tm) in *. destruct (separator_sign sep Hs) as (_ & Sk & _).
    rewrite !map_app, (word_lower_iso w m W tm eq_refl), (numeral_iso _ _ Hd), !(sep_iso sep Hs).
    exists td, w, (toks (chars "/-:") ([sep] ++ map iso_char ty ++ map iso_char b)). split.
    + pose proof (T [(1%nat, td); (3%nat, [sep]); (0%nat, w)] ([sep] ++ map iso_char ty ++ map iso_char b) [td; w]) as E.
      cbn [map fst snd List.concat] in E. rewrite !app_nil_r in *. rewrite <- !app_assoc in *. apply E.
      * run_list.
      * reflexivity.
      * apply sep_head; [exact Hs|cbn; lia].
      * apply (sep_head sep 0); [exact Hs|lia].
      * cbn [keep]. rewrite Sk. reflexivity.
    + split; [eapply numeral_stop; exact Hd|]. split; [apply (plain_parts w m W)|]. left. apply (short_4d td d). split; assumption.
  - pose proof (names_word _ _ Hm) as W. set (w := lower tm) in *. destruct (separator_sign sep Hs) as (_ & Sk & _).
    rewrite !map_app, (word_lower_iso w m W tm eq_refl), (numeral_iso _ _ Hd), !(sep_iso sep Hs).
    exists w, td, (toks (chars "/-:") ([sep] ++ map iso_char ty ++ map iso_char b)). split.
    + pose proof (T [(0%nat, w); (3%nat, [sep]); (1%nat, td)] ([sep] ++ map iso_char ty ++ map iso_char b) [w; td]) as E.
      cbn [map fst snd List.concat] in E. rewrite !app_nil_r in *. rewrite <- !app_assoc in *. apply E.
      * run_list.
      * reflexivity.
      * apply sep_head; [exact Hs|cbn; lia].
      * apply (sep_head sep 0); [exact Hs|lia].
      * cbn [keep]. rewrite Sk. reflexivity.
    + split; [apply (plain_parts w m W)|]. split; [eapply numeral_stop; exact Hd|]. left. apply (word_4d w m W).
  - pose proof (names_word _ _ Hm) as W. set (w := lower tm) in *. destruct (separator_sign sep Hs) as (_ & Sk & _). destruct Hy as [Hy Ly].
    rewrite !map_app, (word_lower_iso w m W tm eq_refl), (numeral_iso _ _ Hy), !(sep_iso sep Hs).
    exists ty, w, (toks (chars "/-:") ([sep] ++ map iso_char td ++ map iso_char b)). split.
    + pose proof (T [(1%nat, ty); (3%nat, [sep]); (0%nat, w)] ([sep] ++ map iso_char td ++ map iso_char b) [ty; w]) as E.
      cbn [map fst snd List.concat] in E. rewrite !app_nil_r in *. rewrite <- !app_assoc in *. apply E.
      * run_list.
      * reflexivity.
      * apply sep_head; [exact Hs|cbn; lia].
      * apply (sep_head sep 0); [exact Hs|lia].
      * cbn [keep]. rewrite Sk. reflexivity.
    + split; [eapply numeral_stop; exact Hy|]. split; [apply (plain_parts w m W)|]. right.
      split; [apply (wide_is4d ty y); split; assumption|apply (word_digit w m W)].
  - destruct (separator_sign sep Hs) as (_ & Sk & _).
    rewrite !map_app, (numeral_iso _ _ Hm), (numeral_iso _ _ Hd), !(sep_iso sep Hs).
    exists tm, td, (toks (chars "/-:") ([sep] ++ map iso_char ty ++ map iso_char b)). split.
    + pose proof (T [(1%nat, tm); (3%nat, [sep]); (1%nat, td)] ([sep] ++ map iso_char ty ++ map iso_char b) [tm; td]) as E.
      cbn [map fst snd List.concat] in E. rewrite !app_nil_r in *. rewrite <- !app_assoc in *. apply E.
      * run_list.
      * reflexivity.
      * apply sep_head; [exact Hs|cbn; lia].
      * apply (sep_head sep 0); [exact Hs|lia].
      * cbn [keep]. rewrite Sk. reflexivity.
    + split; [eapply numeral_stop; exact Hm|]. split; [eapply numeral_stop; exact Hd|]. left. apply (short_4d tm m). split; assumption.
  - destruct (separator_sign sep Hs) as (_ & Sk & _).
    rewrite !map_app, (numeral_iso _ _ Hm), (numeral_iso _ _ Hd), !(sep_iso sep Hs).
    exists td, tm, (toks (chars "/-:") ([sep] ++ map iso_char ty ++ map iso_char b)). split.
    + pose proof (T [(1%nat, td); (3%nat, [sep]); (1%nat, tm)] ([sep] ++ map iso_char ty ++ map iso_char b) [td; tm]) as E.
      cbn [map fst snd List.concat] in E. rewrite !app_nil_r in *. rewrite <- !app_assoc in *. apply E.
      * run_list.
      * reflexivity.
      * apply sep_head; [exact Hs|cbn; lia].
      * apply (sep_head sep 0); [exact Hs|lia].
      * cbn [keep]. rewrite Sk. reflexivity.
    + split; [eapply numeral_stop; exact Hd|]. split; [eapply numeral_stop; exact Hm|]. left. apply (short_4d td d). split; assumption.
  - pose proof (names_word _ _ Hm) as W. set (w := lower tm) in *. destruct (separator_sign sep Hs) as (_ & Sk & _). destruct Hd as [Hd Ld].
    rewrite !map_app, (word_lower_iso w m W tm eq_refl), (numeral_iso _ _ Hd), !(sep_iso sep Hs).
    exists td, w, (toks (chars "/-:") ([sep] ++ map iso_char ty ++ map iso_char b)). split.
    + pose proof (T [(1%nat, td); (3%nat, [sep]); (0%nat, w)] ([sep] ++ map iso_char ty ++ map iso_char b) [td; w]) as E.
      cbn [map fst snd List.concat] in E. rewrite !app_nil_r in *. rewrite <- !app_assoc in *. apply E.
      * run_list.
      * reflexivity.
      * apply sep_head; [exact Hs|cbn; lia].
      * apply (sep_head sep 0); [exact Hs|lia].
      * cbn [keep]. rewrite Sk. reflexivity.
    + split; [eapply numeral_stop; exact Hd|]. split; [apply (plain_parts w m W)|]. left. apply (short_4d td d). split; [assumption|lia].
Qed.

(** ** Texts without dots *)

Definition undotted (t : text) : bool := forallb (fun c => negb (c =? 46)) t.
Lemma prefix_in p t c : prefix p t = true -> In c p -> In c t.
Proof.
  revert t; induction p as [|x p IH]; intros t H I; [destruct I|]. destruct t as [|y t]; [discriminate H|].
  cbn [prefix] in H. apply andb_true_iff in H as [E H]. destruct I as [<-|I]; [left; lia|right; apply IH; assumption].
Qed.
Lemma replace_undotted t old new : undotted t = true -> In 46 old -> replace t old new = t.
Proof.
  intros H I. unfold replace. induction t as [|c t IH]; [reflexivity|]. cbn [undotted forallb] in H.
  cbn [replace_from]. destruct (prefix old (c :: t)) eqn:P.
  - exfalso. pose proof (prefix_in _ _ _ P I) as D. unfold undotted in H. cbn [forallb] in H.
    change (forallb (fun c => negb (c =? 46)) (c :: t) = true) in H. rewrite forallb_forall in H. specialize (H _ D). discriminate H.
  - f_equal. apply IH. apply andb_true_iff in H. apply H.
Qed.
Lemma numeral_undotted t n : numeral t n -> undotted t = true.
Proof.
  intros H. apply numeral_run in H as [_ F]. apply forallb_forall. intros c Hc. rewrite Forall_forall in F. destruct (F c Hc). lia.
Qed.
Lemma word_undotted w m : word w m -> undotted w = true.
Proof. intros H. apply (plain_parts w m H). Qed.
Lemma sep_undotted s : In s (chars "-/") -> undotted [s] = true.
Proof. intros [<-|[<-|[]]]; reflexivity. Qed.
Lemma sep_lower s : In s (chars "-/") -> lower [s] = [s].
Proof. intros [<-|[<-|[]]]; reflexivity. Qed.
Lemma undotted_app a b : undotted (a ++ b) = undotted a && undotted b.
Proof. apply forallb_app. Qed.

(** ** The tokens of a written date, and the date they make *)

Definition written_toks := toks (chars " ,").
Lemma sep_kept s : In s (chars "-/") -> contains (chars " ,") [s] = false.
Proof. intros [<-|[<-|[]]]; reflexivity. Qed.
Lemma blank_run : run 2 (chars " ").
Proof. split; [discriminate|repeat constructor; discriminate]. Qed.
Lemma comma_run : run 3 (chars ",").
Proof. split; [discriminate|repeat constructor; discriminate]. Qed.
Ltac run_list2 := repeat (apply Forall_cons || apply Forall_nil); cbn [fst snd];
  first [eapply numeral_run; eassumption|apply sep_run; assumption|eapply word_run; eassumption|exact blank_run|exact comma_run|exact colon_run].

Ltac decide_date :=
  unfold non_iso_date, slashes, dashes; cbn [nth List.length app skipn Nat.leb andb].

Lemma written_tokens a d :
  written_date_text a d ->
  undotted (lower a) = true /\ exists dts,
    (forall rest, head_not 1 rest -> dotless rest -> written_toks (lower a ++ rest) = dts ++ written_toks rest)
    /\ forall tts, is4d (nth 1 tts []) = false -> non_iso_date (dts ++ tts) = Ok (year d, month d, day d, tts).
Proof.
  intros H. unfold written_toks.
  assert (forall ps rest l, runs ps -> alternate (map fst ps) = true -> head_not (last (map fst ps) 9%nat) rest -> dotless rest ->
     List.concat (map (fun kp => keep (chars " ,") (fst kp) (snd kp)) ps) = l ->
     toks (chars " ,") (List.concat (map snd ps) ++ rest) = l ++ toks (chars " ,") rest) as T.
  { intros ps rest l R A Hh Hd <-. apply toks_runs; try assumption. destruct ps; [exact I|exact Hh]. }
  destruct H as [tm td ty comma y m d Hm Sd Hy Hc|tm td ty comma y m d Hm Sd Hy Hc|tm td ty y m d Hm Sd Hy
    |sep tm td ty y m d Hs Hm Sd Hy|sep tm td ty y m d Hs Hm Sd Hy|sep tm td ty y m d Hs Hm Sd Hy
    |sep tm td ty y m d Hs Sm Sd Hy Hc|sep tm td ty y m d Hs Sm Sd Hy Hc|sep tm td ty y m d Hs Hm Hd Hy];
    try (pose proof (names_word _ _ Hm) as W; set (w := lower tm) in *;
         pose proof (word_is_month w m W) as Wm; pose proof (word_to_int w m W) as Wi; pose proof (word_digit w m W) as Wd;
         pose proof (word_4d w m W) as W4);
    try (assert (is4d ty = true) as Y4 by (apply (wide_is4d ty y); exact Hy));
    try (pose proof (short_4d _ _ Sd) as D4; destruct Sd as [Hd Ld]); try (pose proof (short_4d _ _ Sm) as M4; destruct Sm as [Hm Lm]).
  1-8: destruct Hy as [Hy Ly]; pose proof (numeral_int _ _ Hy) as Yi; pose proof (numeral_all _ _ Hy) as Ya;
       pose proof (numeral_int _ _ Hd) as Di; pose proof (numeral_all _ _ Hd) as Da; pose proof (numeral_not_month _ _ Hd) as Dm;
       pose proof (numeral_not_month _ _ Hy) as Ym.
  - assert (undotted (lower comma) = true /\ lower comma = comma) as [Uc Lc] by (destruct Hc as [<-|[<-|[]]]; split; reflexivity).
    rewrite !lower_app. fold w. rewrite (numeral_lower _ _ Hd), (numeral_lower _ _ Hy). change (lower (chars " ")) with (chars " ").
    split. { rewrite !undotted_app, (word_undotted w m W), (numeral_undotted _ _ Hd), (numeral_undotted _ _ Hy), Uc. reflexivity. }
    exists [w; td; ty]. split.
    + intros rest Hr Hdr. rewrite Lc. destruct Hc as [<-|[<-|[]]].
      * pose proof (T [(0%nat, w); (2%nat, chars " "); (1%nat, td); (3%nat, chars ","); (2%nat, chars " "); (1%nat, ty)] rest [w; td; ty]) as E.
        cbn [map fst snd List.concat] in E. rewrite !app_nil_r in E. rewrite <- !app_assoc in *. apply E; [run_list2|reflexivity|exact Hr|exact Hdr|reflexivity].
      * pose proof (T [(0%nat, w); (2%nat, chars " "); (1%nat, td); (2%nat, chars " "); (1%nat, ty)] rest [w; td; ty]) as E.
        cbn [map fst snd List.concat] in E. rewrite !app_nil_r in E. rewrite <- !app_assoc in *. apply E; [run_list2|reflexivity|exact Hr|exact Hdr|reflexivity].
    + intros [|t0 [|t1 tts]] Ht; cbn [nth] in Ht; decide_date; rewrite ?Ht, ?W4, ?Wm, ?Da, ?Y4, ?Yi, ?Wi, ?Di; cbn [andb bind]; reflexivity.
  - assert (undotted (lower comma) = true /\ lower comma = comma) as [Uc Lc] by (destruct Hc as [<-|[<-|[]]]; split; reflexivity).
    rewrite !lower_app. fold w. rewrite (numeral_lower _ _ Hd), (numeral_lower _ _ Hy). change (lower (chars " ")) with (chars " ").
    split. { rewrite !undotted_app, (word_undotted w m W), (numeral_undotted _ _ Hd), (numeral_undotted _ _ Hy), Uc. reflexivity. }
    exists [td; w; ty]. split.
    + intros rest Hr Hdr. rewrite Lc. destruct Hc as [<-|[<-|[]]].
      * pose proof (T [(1%nat, td); (2%nat, chars " "); (0%nat, w); (3%nat, chars ","); (2%nat, chars " "); (1%nat, ty)] rest [td; w; ty]) as E.
        cbn [map fst snd List.concat] in E. rewrite !app_nil_r in E. rewrite <- !app_assoc in *. apply E; [run_list2|reflexivity|exact Hr|exact Hdr|reflexivity].
      * pose proof (T [(1%nat, td); (2%nat, chars " "); (0%nat, w); (2%nat, chars " "); (1%nat, ty)] rest [td; w; ty]) as E.
        cbn [map fst snd List.concat] in E. rewrite !app_nil_r in E. rewrite <- !app_assoc in *. apply E; [run_list2|reflexivity|exact Hr|exact Hdr|reflexivity].
    + intros [|t0 [|t1 tts]] Ht; cbn [nth] in Ht; decide_date; rewrite ?Ht, ?D4, ?Dm, ?Wm, ?Da, ?Y4, ?Yi, ?Wi, ?Di; cbn [andb bind]; reflexivity.
  - rewrite !lower_app. fold w. rewrite (numeral_lower _ _ Hd), (numeral_lower _ _ Hy). change (lower (chars " ")) with (chars " ").
    split. { rewrite !undotted_app, (word_undotted w m W), (numeral_undotted _ _ Hd), (numeral_undotted _ _ Hy). reflexivity. }
    exists [ty; w; td]. split.
    + intros rest Hr Hdr. pose proof (T [(1%nat, ty); (2%nat, chars " "); (0%nat, w); (2%nat, chars " "); (1%nat, td)] rest [ty; w; td]) as E.
      cbn [map fst snd List.concat] in E. rewrite !app_nil_r in E. rewrite <- !app_assoc in *. apply E; [run_list2|reflexivity|exact Hr|exact Hdr|reflexivity].
    + intros [|t0 [|t1 tts]] Ht; cbn [nth] in Ht; decide_date; rewrite ?Ht, ?Y4, ?Dm, ?Ym, ?Wm, ?Ya, ?D4, ?Da, ?Yi, ?Wi, ?Di; cbn [andb bind]; reflexivity.
  - rewrite !lower_app. fold w. rewrite (numeral_lower _ _ Hd), (numeral_lower _ _ Hy), !(sep_lower sep Hs).
    split. { rewrite !undotted_app, (word_undotted w m W), (numeral_undotted _ _ Hd), (numeral_undotted _ _ Hy), (sep_undotted sep Hs). reflexivity. }
    exists [td; [sep]; w; [sep]; ty]. split.
    + intros rest Hr Hdr. pose proof (T [(1%nat, td); (3%nat, [sep]); (0%nat, w); (3%nat, [sep]); (1%nat, ty)] rest [td; [sep]; w; [sep]; ty]) as E.
      cbn [map fst snd List.concat] in E. rewrite !app_nil_r in E. rewrite <- !app_assoc in *.
      apply E; [run_list2|reflexivity|exact Hr|exact Hdr|cbn [keep]; rewrite (sep_kept sep Hs); reflexivity].
    + intros tts _. decide_date. rewrite Y4, Wm, Yi, Wi, Di. destruct Hs as [<-|[<-|[]]]; reflexivity.
  - rewrite !lower_app. fold w. rewrite (numeral_lower _ _ Hd), (numeral_lower _ _ Hy), !(sep_lower sep Hs).
    split. { rewrite !undotted_app, (word_undotted w m W), (numeral_undotted _ _ Hd), (numeral_undotted _ _ Hy), (sep_undotted sep Hs). reflexivity. }
    exists [w; [sep]; td; [sep]; ty]. split.
    + intros rest Hr Hdr. pose proof (T [(0%nat, w); (3%nat, [sep]); (1%nat, td); (3%nat, [sep]); (1%nat, ty)] rest [w; [sep]; td; [sep]; ty]) as E.
      cbn [map fst snd List.concat] in E. rewrite !app_nil_r in E. rewrite <- !app_assoc in *.
      apply E; [run_list2|reflexivity|exact Hr|exact Hdr|cbn [keep]; rewrite (sep_kept sep Hs); reflexivity].
    + intros tts _. decide_date. rewrite Y4, Dm, Wm, Da, Yi, Wi, Di. destruct Hs as [<-|[<-|[]]]; reflexivity.
  - rewrite !lower_app. fold w. rewrite (numeral_lower _ _ Hd), (numeral_lower _ _ Hy), !(sep_lower sep Hs).
    split. { rewrite !undotted_app, (word_undotted w m W), (numeral_undotted _ _ Hd), (numeral_undotted _ _ Hy), (sep_undotted sep Hs). reflexivity. }
    exists [ty; [sep]; w; [sep]; td]. split.
    + intros rest Hr Hdr. pose proof (T [(1%nat, ty); (3%nat, [sep]); (0%nat, w); (3%nat, [sep]); (1%nat, td)] rest [ty; [sep]; w; [sep]; td]) as E.
      cbn [map fst snd List.concat] in E. rewrite !app_nil_r in E. rewrite <- !app_assoc in *.
      apply E; [run_list2|reflexivity|exact Hr|exact Hdr|cbn [keep]; rewrite (sep_kept sep Hs); reflexivity].
    + intros tts _. decide_date. rewrite D4, Y4, Wm, Da, Yi, Wi, Di. destruct Hs as [<-|[<-|[]]]; reflexivity.
  - pose proof (numeral_int _ _ Hm) as Mi. pose proof (numeral_all _ _ Hm) as Ma. pose proof (numeral_not_month _ _ Hm) as Mm.
    rewrite !lower_app, (numeral_lower _ _ Hd), (numeral_lower _ _ Hy), (numeral_lower _ _ Hm), !(sep_lower sep Hs).
    split. { rewrite !undotted_app, (numeral_undotted _ _ Hm), (numeral_undotted _ _ Hd), (numeral_undotted _ _ Hy), (sep_undotted sep Hs). reflexivity. }
    exists [tm; [sep]; td; [sep]; ty]. split.
    + intros rest Hr Hdr. pose proof (T [(1%nat, tm); (3%nat, [sep]); (1%nat, td); (3%nat, [sep]); (1%nat, ty)] rest [tm; [sep]; td; [sep]; ty]) as E.
      cbn [map fst snd List.concat] in E. rewrite !app_nil_r in E. rewrite <- !app_assoc in *.
      apply E; [run_list2|reflexivity|exact Hr|exact Hdr|cbn [keep]; rewrite (sep_kept sep Hs); reflexivity].
    + intros tts _. decide_date. rewrite Y4, Dm, Mm, Da, Ma, Yi, Mi, Di. cbn [andb bind]. rewrite (proj2 (Z.ltb_ge 12 m) Hc).
      destruct Hs as [<-|[<-|[]]]; reflexivity.
  - pose proof (numeral_int _ _ Hm) as Mi. pose proof (numeral_all _ _ Hm) as Ma. pose proof (numeral_not_month _ _ Hm) as Mm.
    rewrite !lower_app, (numeral_lower _ _ Hd), (numeral_lower _ _ Hy), (numeral_lower _ _ Hm), !(sep_lower sep Hs).
    split. { rewrite !undotted_app, (numeral_undotted _ _ Hm), (numeral_undotted _ _ Hd), (numeral_undotted _ _ Hy), (sep_undotted sep Hs). reflexivity. }
    exists [td; [sep]; tm; [sep]; ty]. split.
    + intros rest Hr Hdr. pose proof (T [(1%nat, td); (3%nat, [sep]); (1%nat, tm); (3%nat, [sep]); (1%nat, ty)] rest [td; [sep]; tm; [sep]; ty]) as E.
      cbn [map fst snd List.concat] in E. rewrite !app_nil_r in E. rewrite <- !app_assoc in *.
      apply E; [run_list2|reflexivity|exact Hr|exact Hdr|cbn [keep]; rewrite (sep_kept sep Hs); reflexivity].
    + intros tts _. decide_date. rewrite Y4, Dm, Mm, Da, Ma, Yi, Mi, Di. cbn [andb bind]. rewrite (proj2 (Z.ltb_lt 12 d) Hc).
      destruct Hs as [<-|[<-|[]]]; reflexivity.
  - destruct Hy as [Hy Ly], Hd as [Hd Ld]. pose proof (numeral_int _ _ Hy) as Yi. pose proof (numeral_all _ _ Hy) as Ya.
    pose proof (numeral_int _ _ Hd) as Di. pose proof (numeral_all _ _ Hd) as Da. pose proof (numeral_not_month _ _ Hd) as Dm.
    rewrite !lower_app. fold w. rewrite (numeral_lower _ _ Hd), (numeral_lower _ _ Hy), !(sep_lower sep Hs).
    split. { rewrite !undotted_app, (word_undotted w m W), (numeral_undotted _ _ Hd), (numeral_undotted _ _ Hy), (sep_undotted sep Hs). reflexivity. }
    exists [td; [sep]; w; [sep]; ty]. split.
    + intros rest Hr Hdr. pose proof (T [(1%nat, td); (3%nat, [sep]); (0%nat, w); (3%nat, [sep]); (1%nat, ty)] rest [td; [sep]; w; [sep]; ty]) as E.
      cbn [map fst snd List.concat] in E. rewrite !app_nil_r in E. rewrite <- !app_assoc in *.
      apply E; [run_list2|reflexivity|exact Hr|exact Hdr|cbn [keep]; rewrite (sep_kept sep Hs); reflexivity].
    + intros tts _.
      assert (is4d ty = false) as Y4 by (unfold is4d; rewrite Ly; reflexivity).
      assert (is4d td = false) as D4 by (unfold is4d; rewrite Ld; reflexivity).
      assert (is2d ty = true) as Y2 by (unfold is2d; rewrite Ly, Ya; reflexivity).
      assert (is2d td = true) as D2 by (unfold is2d; rewrite Ld, Da; reflexivity).
      assert (is_month [sep] = false) as Sm by (destruct Hs as [<-|[<-|[]]]; reflexivity).
      assert (y < 1900) as Hlt.
      { pose proof (wide2_bound ty y (conj Hy Ly)). clear - H. lia. }
      decide_date. rewrite Y4, D4, Y2, D2, Dm, Sm, Wm, Yi, Wi, Di, Ld. cbn [andb bind Nat.eqb].
      rewrite (proj2 (Z.leb_gt 1900 y) Hlt). cbn [year month day]. rewrite (Z.add_comm 2000 y).
      destruct Hs as [<-|[<-|[]]]; reflexivity.
Qed.

(** ** The tokens of a time, and the time they make *)

Lemma numeral_not_ampm t n : numeral t n -> is_ampm t = false.
Proof. intros H. unfold is_ampm. rewrite !(numeral_word t n) by (exact H || reflexivity). reflexivity. Qed.

(** The tokens of a clock's face. *)
Definition face (cts : list text) (c : time) : Prop :=
  is4d (nth 1 cts []) = false /\ cts <> [] /\ forall half,
    half = [] \/ half = [chars "am"] \/ half = [chars "pm"] ->
    is4d (nth 1 (cts ++ half) []) = false /\
    non_iso_time (cts ++ half) =
      (h <- match half with
            | [] => Ok (hour c)
            | p :: _ => if (12 <? hour c) || (hour c <? 1) then Err ValueError
                        else Ok (if text_eqb p (chars "am") && (hour c =? 12) then 0 else if text_eqb p (chars "pm") then hour c + 12 else hour c)
            end ;;
       if is_valid_time h (minute c) (second c) then Ok (h, minute c, second c) else Err ValueError).

Lemma clock_tokens t c :
  clock_text t c ->
  lower t = t /\ undotted t = true /\ (exists x r, t = x :: r /\ class x = 1%nat /\ x <> 46) /\ exists cts, face cts c
  /\ forall rest, head_not 1 rest -> dotless rest -> written_toks (t ++ rest) = cts ++ written_toks rest.
Proof.
  intros H. unfold written_toks.
  destruct H as [th tm h m Hh Hm|th tm ts h m s Hh Hm Hs];
    pose proof (numeral_int _ _ Hh) as Ih; pose proof (numeral_all _ _ Hh) as Ah; pose proof (numeral_not_ampm _ _ Hh) as Ph;
    pose proof (numeral_int _ _ Hm) as Im; pose proof (numeral_all _ _ Hm) as Am; pose proof (numeral_not_ampm _ _ Hm) as Pm.
  - rewrite !lower_app, (numeral_lower _ _ Hh), (numeral_lower _ _ Hm). split; [reflexivity|].
    split. { rewrite !undotted_app, (numeral_undotted _ _ Hh), (numeral_undotted _ _ Hm). reflexivity. }
    split. { destruct (numeral_run _ _ Hh) as [N F]. destruct th as [|x r]; [congruence|]. inversion F as [|? ? [C D] _]. eexists x, _. repeat split; assumption. }
    exists [th; chars ":"; tm]. split.
    + split; [reflexivity|]. split; [discriminate|]. intros half Hf. split; [reflexivity|].
      unfold non_iso_time. cbn [app split_ampm]. rewrite Ph, Pm. change (is_ampm (chars ":")) with false. cbn match.
      destruct Hf as [->|[->| ->]]; cbn [split_ampm];
        [|change (is_ampm (chars "am")) with true|change (is_ampm (chars "pm")) with true]; cbn match;
        rewrite Ah, Am; change (colon (chars ":")) with true; cbn [andb]; rewrite Ih, Im; reflexivity.
    + intros rest Hr Hd. pose proof (toks_runs (chars " ,") [(1%nat, th); (3%nat, chars ":"); (1%nat, tm)] rest) as E.
      cbn [map fst snd List.concat] in E. rewrite !app_nil_r in E. rewrite <- !app_assoc in *. rewrite E; [reflexivity|run_list2|reflexivity|exact Hr|exact Hd].
  - pose proof (numeral_int _ _ Hs) as Is; pose proof (numeral_all _ _ Hs) as As; pose proof (numeral_not_ampm _ _ Hs) as Ps.
    rewrite !lower_app, (numeral_lower _ _ Hh), (numeral_lower _ _ Hm), (numeral_lower _ _ Hs). split; [reflexivity|].
    split. { rewrite !undotted_app, (numeral_undotted _ _ Hh), (numeral_undotted _ _ Hm), (numeral_undotted _ _ Hs). reflexivity. }
    split. { destruct (numeral_run _ _ Hh) as [N F]. destruct th as [|x r]; [congruence|]. inversion F as [|? ? [C D] _]. eexists x, _. repeat split; assumption. }
    exists [th; chars ":"; tm; chars ":"; ts]. split.
    + split; [reflexivity|]. split; [discriminate|]. intros half Hf. split; [reflexivity|].
      unfold non_iso_time. cbn [app split_ampm]. rewrite Ph, Pm, Ps. change (is_ampm (chars ":")) with false. cbn match.
      destruct Hf as [->|[->| ->]]; cbn [split_ampm];
        [|change (is_ampm (chars "am")) with true|change (is_ampm (chars "pm")) with true]; cbn match;
        rewrite Ah, Am, As; change (colon (chars ":")) with true; cbn [andb]; rewrite Ih, Im, Is; reflexivity.
    + intros rest Hr Hd. pose proof (toks_runs (chars " ,") [(1%nat, th); (3%nat, chars ":"); (1%nat, tm); (3%nat, chars ":"); (1%nat, ts)] rest) as E.
      cbn [map fst snd List.concat] in E. rewrite !app_nil_r in E. rewrite <- !app_assoc in *. rewrite E; [reflexivity|run_list2|reflexivity|exact Hr|exact Hd].
Qed.

Lemma half_run w : w = chars "am" \/ w = chars "pm" -> run 0 w.
Proof. intros [->| ->]; (split; [discriminate|repeat constructor; discriminate]). Qed.

Lemma written_time_tokens b t :
  written_time_text b t -> time_ok t ->
  undotted (lower b) = true /\ head_not 1 (lower b) /\ dotless (lower b) /\ exists tts,
    written_toks (lower b) = tts /\ is4d (nth 1 tts []) = false /\ non_iso_time tts = Ok (hour t, minute t, second t).
Proof.
  intros H Hok.
  assert (forall t c gap w, clock_text t c -> In gap [[]; chars " "] -> w = chars "am" \/ w = chars "pm" ->
    exists cts, face cts c /\ written_toks (chars " " ++ t ++ gap ++ w) = cts ++ [w]) as Half.
  { intros t0 c gap w Hc Hg Hw. destruct (clock_tokens t0 c Hc) as (_ & _ & (x & r & Ex & Cx & Dx) & cts & F & E).
    exists cts. split; [exact F|]. unfold written_toks in *.
    rewrite (toks_run (chars " ,") 2 (chars " ")); [|lia|exact blank_run|rewrite Ex; cbn; lia|rewrite Ex; exact Dx].
    change (keep (chars " ,") 2 (chars " ")) with (@nil text). cbn [app]. rewrite E.
    2:{ destruct Hg as [<-|[<-|[]]]; [destruct Hw as [->| ->]; discriminate|discriminate]. }
    2:{ destruct Hg as [<-|[<-|[]]]; [destruct Hw as [->| ->]; discriminate|discriminate]. }
    f_equal.
    assert (toks (chars " ,") w = [w]) as Ew.
    { rewrite <- (app_nil_r w) at 1. rewrite (toks_run (chars " ,") 0 w []); [reflexivity|lia|apply half_run, Hw|exact I|exact I]. }
    destruct Hg as [<-|[<-|[]]]; [exact Ew|].
    rewrite (toks_run (chars " ,") 2 (chars " ") w); [exact Ew|lia|exact blank_run|destruct Hw as [->| ->]; discriminate|destruct Hw as [->| ->]; discriminate]. }
  destruct H as [|t c Hc|t gap half h m s Hc Hg Hl Hh|t gap half h m s Hc Hg Hl Hh].
  - split; [reflexivity|]. split; [exact I|]. split; [exact I|]. exists []. split; [apply toks_nil|]. split; reflexivity.
  - destruct (clock_tokens t c Hc) as (L & U & (x & r & Ex & Cx & Dx) & cts & (F4 & Fn & F) & E). rewrite lower_app, L.
    split; [rewrite undotted_app; exact U|]. split; [discriminate|]. split; [discriminate|].
    exists cts. split.
    { unfold written_toks in *. change (lower (chars " ")) with (chars " ").
      rewrite (toks_run (chars " ,") 2 (chars " ")); [|lia|exact blank_run|rewrite Ex; cbn; lia|rewrite Ex; exact Dx].
      change (keep (chars " ,") 2 (chars " ")) with (@nil text). cbn [app].
      specialize (E [] I I). rewrite !app_nil_r in E. exact E. }
    split; [exact F4|]. destruct (F [] (or_introl eq_refl)) as [_ Fe]. rewrite app_nil_r in Fe. rewrite Fe. cbn [bind].
    destruct c as [h m s]. cbn [hour minute second]. rewrite (time_ok_valid _ _ _ Hok). reflexivity.
  - destruct (clock_tokens t _ Hc) as (L & U & _).
    assert (lower gap = gap /\ undotted gap = true) as [Lg Ug] by (destruct Hg as [<-|[<-|[]]]; split; reflexivity).
    rewrite !lower_app, L, Lg, Hl. change (lower (chars " ")) with (chars " ").
    split; [rewrite !undotted_app, U, Ug; reflexivity|]. split; [discriminate|]. split; [discriminate|].
    destruct (Half t _ gap (chars "am") Hc Hg (or_introl eq_refl)) as (cts & (_ & _ & F) & E). exists (cts ++ [chars "am"]). split; [exact E|].
    destruct (F [chars "am"] (or_intror (or_introl eq_refl))) as [F4 Fe]. split; [exact F4|]. rewrite Fe. cbn [hour minute second].
    replace ((12 <? h) || (h <? 1)) with false by lia. change (text_eqb (chars "am") (chars "am")) with true.
    change (text_eqb (chars "am") (chars "pm")) with false. cbn [andb bind].
    replace (if h =? 12 then 0 else h) with (h mod 12).
    2:{ destruct (Z.eqb_spec h 12) as [->|]; [reflexivity|]. apply Z.mod_small. lia. }
    rewrite (time_ok_valid _ _ _ Hok). reflexivity.
  - destruct (clock_tokens t _ Hc) as (L & U & _).
    assert (lower gap = gap /\ undotted gap = true) as [Lg Ug] by (destruct Hg as [<-|[<-|[]]]; split; reflexivity).
    rewrite !lower_app, L, Lg, Hl. change (lower (chars " ")) with (chars " ").
    split; [rewrite !undotted_app, U, Ug; reflexivity|]. split; [discriminate|]. split; [discriminate|].
    destruct (Half t _ gap (chars "pm") Hc Hg (or_intror eq_refl)) as (cts & (_ & _ & F) & E). exists (cts ++ [chars "pm"]). split; [exact E|].
    destruct (F [chars "pm"] (or_intror (or_intror eq_refl))) as [F4 Fe]. split; [exact F4|]. rewrite Fe. cbn [hour minute second].
    replace ((12 <? h) || (h <? 1)) with false by lia. change (text_eqb (chars "pm") (chars "am")) with false.
    change (text_eqb (chars "pm") (chars "pm")) with true. cbn [andb bind].
    rewrite (time_ok_valid _ _ _ Hok). reflexivity.
Qed.

(** ** As a whole *)

Lemma parse_written z a b d t :
  written_date_text a d -> written_time_text b t -> date_ok d -> time_ok t -> parse_non_iso z (a ++ b) = z (DateTime d t).
Proof.
  intros Ha Hb Hd Ht. destruct (written_tokens a d Ha) as (Ua & dts & Ea & Na).
  destruct (written_time_tokens b t Hb Ht) as (Ub & Hh & Hdt & tts & Eb & N4 & Nt).
  unfold parse_non_iso. rewrite lower_app.
  assert (undotted (lower a ++ lower b) = true) as U by (rewrite undotted_app, Ua, Ub; reflexivity).
  rewrite (replace_undotted _ (chars "a.m.")) by (exact U || (right; left; reflexivity)).
  rewrite (replace_undotted _ (chars "p.m.")) by (exact U || (right; left; reflexivity)).
  rewrite tokens_of_toks. cbn [bind]. change (toks (chars " ,")) with written_toks.
  rewrite (Ea _ Hh Hdt), Eb, (Na tts N4). cbn [bind]. destruct d as [y m dd]. cbn [year month day].
  rewrite (date_ok_valid _ _ _ Hd). cbn [negb]. rewrite Nt. cbn [bind].
  pose proof (mk_datetime_real (Date y m dd) t Hd Ht) as E. cbn [year month day] in E. rewrite E. reflexivity.
Qed.

Lemma parse_written_utc est nyc pytz_name a b d t :
  written_date_text a d -> written_time_text b t -> date_ok d -> time_ok t ->
  parse est nyc pytz_name (a ++ b) = utc (DateTime d t).
Proof.
  intros Ha Hb Hd Ht. unfold parse. destruct (written_not_iso a d b Ha) as (x & y & l & E & N).
  rewrite (parse_iso_none est nyc pytz_name None _ x y l E N). apply parse_written; assumption.
Qed.
Lemma parse_written_zone est nyc pytz_name z a b d t :
  written_date_text a d -> written_time_text b t -> date_ok d -> time_ok t ->
  parse_with_timezone est nyc pytz_name (a ++ b) z = z (DateTime d t).
Proof.
  intros Ha Hb Hd Ht. unfold parse_with_timezone. destruct (written_not_iso a d b Ha) as (x & y & l & E & N).
  rewrite (parse_iso_none est nyc pytz_name (Some z) _ x y l E N). apply parse_written; assumption.
Qed.
