(** Proofs about questions. *)
From Coq Require Import List ZArith Lia ZifyBool ZifyNat.
From Verif Require Import Base Text_Model TextAsk_Model TextAsk_Table TextAsk_Spec.
Import ListNotations.
Open Scope Z_scope.
Open Scope list_scope.

(** ** Runs *)

Definition expand (runs : list (Z * Z)) : list Z := flat_map (fun '(v, n) => repeat v (Z.to_nat n)) runs.
Definition proper (runs : list (Z * Z)) : Prop := Forall (fun '(v, n) => 0 <= n) runs.
Lemma expand_app : forall a b, expand (a ++ b) = expand a ++ expand b.
Proof. intros. apply flat_map_app. Qed.
Lemma expand_one : forall v n, expand [(v, n)] = repeat v (Z.to_nat n).
Proof. intros. apply app_nil_r. Qed.

Lemma value_nth : forall runs c, proper runs -> 0 <= c < zlen (expand runs) -> value_at runs c = nth (Z.to_nat c) (expand runs) 0.
Proof.
  unfold zlen. induction runs as [|[v n] r IH]; intros c P R; [cbn in R; lia|]. apply Forall_inv_tail in P as PR. apply Forall_inv in P.
  cbn [value_at]. change (expand ((v, n) :: r)) with (repeat v (Z.to_nat n) ++ expand r) in *.
  rewrite app_length, repeat_length in R. destruct (c <? n) eqn:L.
  - rewrite app_nth1 by (rewrite repeat_length; lia). symmetry. assert (K : (Z.to_nat c < Z.to_nat n)%nat) by lia. revert K.
    generalize (Z.to_nat c) (Z.to_nat n). clear. intros i m. revert i. induction m as [|m IH]; intros [|i] K; cbn; try lia.
    apply IH. lia.
  - rewrite app_nth2 by (rewrite repeat_length; lia). rewrite repeat_length, IH by (auto; lia). f_equal. lia.
Qed.

Lemma fill_run_right : forall size n v cur a, 0 <= cur -> cur + Z.of_nat n <= size ->
  exists a', fill_run size n v cur a = Ok (cur + Z.of_nat n, a') /\
    forall i, a' i = if (cur <=? i) && (i <? cur + Z.of_nat n) then v else a i.
Proof.
  induction n as [|n IH]; intros v cur a C L; cbn [fill_run].
  - exists a. split; [do 2 f_equal; lia|]. intros i. replace ((cur <=? i) && _) with false by lia. reflexivity.
  - replace (cur <? size) with true by lia. destruct (IH v (cur + 1) (fun i => if i =? cur then v else a i)) as (a' & E & A); [lia|lia|].
    exists a'. split; [rewrite E; do 2 f_equal; lia|]. intros i. rewrite A.
    destruct ((cur + 1 <=? i) && (i <? cur + 1 + Z.of_nat n)) eqn:X.
    + replace ((cur <=? i) && (i <? cur + Z.of_nat (S n))) with true by lia. reflexivity.
    + destruct (i =? cur) eqn:Y.
      * replace ((cur <=? i) && (i <? cur + Z.of_nat (S n))) with true by lia. reflexivity.
      * replace ((cur <=? i) && (i <? cur + Z.of_nat (S n))) with false by lia. reflexivity.
Qed.

Lemma initialize_loop_right : forall size entries k runs cur a, 0 <= cur -> (k + entries = length runs)%nat ->
  cur + zlen (expand (skipn k runs)) <= size ->
  exists a', initialize_loop size entries k runs cur a = Ok a' /\
    forall i, a' i = if (cur <=? i) && (i <? cur + zlen (expand (skipn k runs))) then nth (Z.to_nat (i - cur)) (expand (skipn k runs)) 0 else a i.
Proof.
  unfold zlen. intros size. induction entries as [|entries IH]; intros k runs cur a C L B; cbn [initialize_loop].
  - exists a. split; [reflexivity|]. intros i. rewrite skipn_all2 by lia. cbn [expand flat_map length].
    replace ((cur <=? i) && (i <? cur + Z.of_nat 0)) with false by lia. reflexivity.
  - destruct (nth_error runs k) as [[v n]|] eqn:N; [|apply nth_error_None in N; lia].
    assert (SK : skipn k runs = (v, n) :: skipn (S k) runs).
    { clear - N. revert k N. induction runs as [|x r IHr]; intros [|k] N; try discriminate; cbn [nth_error] in N; [injection N as ->; reflexivity|].
      cbn [skipn]. rewrite (IHr k N). reflexivity. }
    rewrite SK in B |- *. change (expand ((v, n) :: skipn (S k) runs)) with (repeat v (Z.to_nat n) ++ expand (skipn (S k) runs)) in *.
    rewrite app_length, repeat_length in *.
    destruct (fill_run_right size (Z.to_nat n) v cur a C) as (a1 & -> & A1); [lia|]. cbn [bind].
    destruct (IH (S k) runs (cur + Z.of_nat (Z.to_nat n)) a1) as (a2 & -> & A2); [lia|lia|lia|]. exists a2. split; [reflexivity|].
    intros i. rewrite A2, A1. set (m := Z.to_nat n) in *. set (q := length (expand (skipn (S k) runs))) in *.
    destruct ((cur + Z.of_nat m <=? i) && (i <? cur + Z.of_nat m + Z.of_nat q)) eqn:X.
    + replace ((cur <=? i) && (i <? cur + Z.of_nat (m + q))) with true by lia. rewrite app_nth2 by (rewrite repeat_length; lia).
      rewrite repeat_length. f_equal. lia.
    + destruct ((cur <=? i) && (i <? cur + Z.of_nat m)) eqn:Y.
      * replace ((cur <=? i) && (i <? cur + Z.of_nat (m + q))) with true by lia. rewrite app_nth1 by (rewrite repeat_length; lia).
        symmetry. assert (K : (Z.to_nat (i - cur) < m)%nat) by lia. revert K. generalize (Z.to_nat (i - cur)) m. clear.
        intros j m. revert j. induction m as [|m IH]; intros [|j] K; cbn; try lia. apply IH. lia.
      * replace ((cur <=? i) && (i <? cur + Z.of_nat (m + q))) with false by lia. reflexivity.
Qed.
Theorem initialize_right : forall size runs, proper runs -> zlen (expand runs) = size ->
  exists a, initialize_uprops size (zlen runs) runs = Ok a /\ forall c, 0 <= c < size -> a c = value_at runs c.
Proof.
  intros size runs P L. unfold initialize_uprops. unfold zlen at 1.
  destruct (initialize_loop_right size (Z.to_nat (Z.of_nat (length runs))) 0 runs 0 (fun _ => 0)) as (a & E & A);
    [lia|lia|cbn [skipn]; lia|]. exists a. split; [exact E|]. intros c C. rewrite A. cbn [skipn].
  replace ((0 <=? c) && (c <? 0 + zlen (expand runs))) with true by lia. rewrite value_nth by (auto; lia). f_equal. lia.
Qed.

(** ** The generator *)

Fixpoint count_up (n : nat) (i : Z) : list Z := match n with O => nil | S n => i :: count_up n (i + 1) end.
Lemma count_up_length : forall n i, length (count_up n i) = n.
Proof. induction n as [|n IH]; intros i; cbn [count_up length]; [reflexivity|]. now rewrite IH. Qed.
Lemma count_up_nth : forall n i k, (k < n)%nat -> nth k (count_up n i) 0 = i + Z.of_nat k.
Proof.
  induction n as [|n IH]; intros i k L; [lia|]. destruct k as [|k]; cbn [count_up nth]; [lia|]. rewrite IH by lia. lia.
Qed.
Definition short (runs : list (Z * Z)) : Prop := Forall (fun '(v, n) => 0 <= n <= 65535) runs.
Lemma generate_loop_right : forall flags n i v count out, 0 <= count < 65535 -> short out ->
  exists w count' out', generate_loop n i flags (Some v) count out = (Some w, count', out') /\ 0 <= count' < 65535 /\ short out' /\
    expand (out' ++ [(w, count')]) = expand (out ++ [(v, count)]) ++ map flags (count_up n i) /\
    (forall u m, In (u, m) (out' ++ [(w, count')]) -> In (u, m) out \/ u = v \/ exists j, u = flags j).
Proof.
  intros flags. induction n as [|n IH]; intros i v count out C SH; cbn [generate_loop].
  - exists v, count, out. cbn [count_up map]. rewrite app_nil_r. repeat split; auto; try lia. intros u m I. apply in_app_or in I.
    destruct I as [I|[I|[]]]; [now left|]. injection I as <- <-. right. now left.
  - destruct (flags i =? v) eqn:F; cbn [negb].
    + apply Z.eqb_eq in F. destruct (count + 1 =? 65535) eqn:T.
      * destruct (IH (i + 1) v 0 (out ++ [(v, count + 1)])) as (w & c' & o' & E & C' & S' & X & V); [lia| |].
        { apply Forall_app. split; [exact SH|]. constructor; [lia|constructor]. }
        exists w, c', o'. split; [exact E|]. split; [exact C'|]. split; [exact S'|]. split.
        -- rewrite X. cbn [count_up map]. rewrite F, !expand_app, !expand_one. cbn [Z.to_nat repeat]. rewrite app_nil_r, <- !app_assoc.
           f_equal. replace (Z.to_nat (count + 1)) with (Z.to_nat count + 1)%nat by lia. rewrite repeat_app, <- app_assoc. reflexivity.
        -- intros u m I. destruct (V u m I) as [J|J]; [|now right]. apply in_app_or in J. destruct J as [J|[J|[]]]; [now left|].
           injection J as <- _. right. now left.
      * destruct (IH (i + 1) v (count + 1) out) as (w & c' & o' & E & C' & S' & X & V); [lia|exact SH|].
        exists w, c', o'. split; [exact E|]. split; [exact C'|]. split; [exact S'|]. split; [|exact V].
        rewrite X. cbn [count_up map]. rewrite F, !expand_app, !expand_one, <- !app_assoc. f_equal.
        replace (Z.to_nat (count + 1)) with (Z.to_nat count + 1)%nat by lia. rewrite repeat_app, <- app_assoc. reflexivity.
    + destruct (IH (i + 1) (flags i) 1 (out ++ [(v, count)])) as (w & c' & o' & E & C' & S' & X & V); [lia| |].
      { apply Forall_app. split; [exact SH|]. constructor; [lia|constructor]. }
      exists w, c', o'. split; [exact E|]. split; [exact C'|]. split; [exact S'|]. split.
      * rewrite X. cbn [count_up map]. rewrite expand_app, (expand_one (flags i) 1), <- app_assoc. reflexivity.
      * intros u m I. destruct (V u m I) as [J|[J|J]]; [|right; right; now exists i|right; now right].
        apply in_app_or in J. destruct J as [J|[J|[]]]; [now left|]. injection J as <- _. right. now left.
Qed.
Theorem generate_right : forall last flags, 0 <= last -> exists runs, generate last flags = Ok runs /\
  short runs /\ (forall u m, In (u, m) runs -> exists j, u = flags j) /\ expand runs = map flags (count_up (Z.to_nat (last + 1)) 0).
Proof.
  intros last flags L. unfold generate. destruct (Z.to_nat (last + 1)) as [|n] eqn:N; [lia|]. cbn [generate_loop].
  destruct (generate_loop_right flags n (0 + 1) (flags 0) 1 nil) as (w & c' & o' & E & C' & S' & X & V); [lia|constructor|].
  rewrite E. eexists. split; [reflexivity|]. split; [apply Forall_app; split; [exact S'|constructor; [lia|constructor]]|].
  split.
  - intros u m I. destruct (V u m I) as [[]|[J|J]]; [now exists 0|exact J].
  - rewrite X. reflexivity.
Qed.

(** ** Bits *)

Definition sum_flags (l : list (bool * Z)) : Z := fold_right (fun '(b, v) t => (if b : bool then v else 0) + t) 0 l.
Fixpoint all_choices (vs : list Z) : list (list (bool * Z)) :=
  match vs with nil => [nil] | v :: r => flat_map (fun l => [(true, v) :: l; (false, v) :: l]) (all_choices r) end.
Lemma in_choices : forall l, In l (all_choices (map snd l)).
Proof.
  induction l as [|[b v] l IH]; cbn [map snd all_choices]; [now left|]. apply in_flat_map. exists l. split; [exact IH|].
  destruct b; [now left|right; now left].
Qed.
Definition all_bits : list Z := [ALPHA; LOWER; UPPER; DECIMAL; DIGIT; NUMERIC; SPACE; PRINTABLE; TITLE].
Lemma bits_right : forall l, map snd l = all_bits ->
  Forall (fun '(b, v) => has (sum_flags l) v = b) l /\ 0 <= sum_flags l < 512.
Proof.
  intros l E. assert (I := in_choices l). rewrite E in I.
  assert (K : forallb (fun l => forallb (fun '(b, v) => Bool.eqb (has (sum_flags l) v) b) l && (0 <=? sum_flags l) && (sum_flags l <? 512))
    (all_choices all_bits) = true) by (vm_compute; reflexivity).
  rewrite forallb_forall in K. specialize (K l I). rewrite !Bool.andb_true_iff, forallb_forall in K. destruct K as [[K A] B]. split; [|lia].
  rewrite Forall_forall. intros [b v] J. specialize (K (b, v) J). cbv beta iota in K. now apply Bool.eqb_prop in K.
Qed.
Definition bits_of (p : python) (c : Z) : list (bool * Z) :=
  [(is_alpha p c, ALPHA); (is_lower p c, LOWER); (is_upper p c, UPPER); (is_decimal p c, DECIMAL); (is_digit p c, DIGIT);
   (is_numeric p c, NUMERIC); (is_space p c, SPACE); (is_printable p c, PRINTABLE); (is_title p c && negb (is_upper p c), TITLE)].
Lemma flags_sum : forall p c, flags_of p c = sum_flags (bits_of p c).
Proof. intros p c. unfold flags_of, sum_flags, bits_of. cbn [fold_right]. lia. Qed.
Lemma has_flags : forall p c, let f := flags_of p c in
  has f ALPHA = is_alpha p c /\ has f LOWER = is_lower p c /\ has f UPPER = is_upper p c /\ has f DECIMAL = is_decimal p c /\
  has f DIGIT = is_digit p c /\ has f NUMERIC = is_numeric p c /\ has f SPACE = is_space p c /\ has f PRINTABLE = is_printable p c /\
  has f TITLE = is_title p c && negb (is_upper p c).
Proof.
  intros p c. cbv zeta. rewrite flags_sum. destruct (bits_right (bits_of p c) eq_refl) as [K _]. rewrite Forall_forall in K.
  assert (K' : forall b v, In (b, v) (bits_of p c) -> has (sum_flags (bits_of p c)) v = b) by (intros b v I; exact (K _ I)). clear K.
  split; [apply K'; now left|]. split; [apply K'; right; now left|]. split; [apply K'; do 2 right; now left|].
  split; [apply K'; do 3 right; now left|]. split; [apply K'; do 4 right; now left|]. split; [apply K'; do 5 right; now left|].
  split; [apply K'; do 6 right; now left|]. split; [apply K'; do 7 right; now left|apply K'; do 8 right; now left].
Qed.
Lemma flags_small : forall p c, 0 <= flags_of p c < 512.
Proof. intros p c. rewrite flags_sum. exact (proj2 (bits_right (bits_of p c) eq_refl)). Qed.

(** ** Answers *)

Section Answers.
Variables (p : python) (uprops : Z -> Z).
Hypothesis T : table_of p uprops.
Let inside (c : Z) : Prop := 0 <= c < 1114112.

Lemma uprop_right : forall c, inside c -> uprop uprops c = Ok (flags_of p c).
Proof. intros c C. unfold uprop. unfold inside in C. replace ((0 <=? c) && (c <? 1114112)) with true by lia. now rewrite T. Qed.
Lemma each_right : forall ok said, (forall c, ok (flags_of p c) = said c) -> forall cs, Forall inside cs ->
  answers (each_point uprops ok cs) (Forall (fun c => said c = true) cs).
Proof.
  intros ok said O. induction cs as [|c r IH]; intros F; cbn [each_point].
  - exists true. split; [reflexivity|]. split; [constructor|reflexivity].
  - rewrite uprop_right by exact (Forall_inv F). cbn [bind]. rewrite O. destruct (said c) eqn:S; cbn [negb].
    + destruct (IH (Forall_inv_tail F)) as (b & E & B). exists b. split; [exact E|]. rewrite B. split; [constructor; assumption|].
      intros X. exact (Forall_inv_tail X).
    + exists false. split; [reflexivity|]. split; [discriminate|]. intros X. apply Forall_inv in X. congruence.
Qed.
Lemma slen_nil : forall s, (slen s =? 0) = true <-> sdata s = nil.
Proof.
  intros s. unfold slen, zlen. destruct (sdata s) as [|c r]; [split; reflexivity|]. cbn [length]. split; [|discriminate]. intros H. exfalso. lia.
Qed.
Lemma ask_right : forall ok said, (forall c, ok (flags_of p c) = said c) -> forall s, points_of s ->
  answers (ask false uprops ok s) (all_of said (sdata s)).
Proof.
  intros ok said O s F. unfold ask. destruct (slen s =? 0) eqn:L.
  - apply slen_nil in L. exists false. split; [reflexivity|]. split; [discriminate|]. intros [N _]. congruence.
  - destruct (each_right ok said O (sdata s) F) as (b & E & B). exists b. split; [exact E|]. rewrite B. unfold all_of. split; [|tauto].
    intros A. split; [|exact A]. intros N. apply slen_nil in N. congruence.
Qed.
Ltac bit := intros c; pose proof (has_flags p c) as H; cbv zeta in H; destruct H as (H1 & H2 & H3 & H4 & H5 & H6 & H7 & H8 & H9).
Theorem isalpha_right : forall s, points_of s -> answers (isalpha uprops s) (says_isalpha p (sdata s)).
Proof. apply ask_right. bit. exact H1. Qed.
Theorem isalnum_right : nested p -> forall s, points_of s -> answers (isalnum uprops s) (says_isalnum p (sdata s)).
Proof.
  intros N. apply ask_right. bit. rewrite H1, H4, H5, H6. destruct (N c) as [A B].
  destruct (is_alpha p c), (is_decimal p c), (is_digit p c), (is_numeric p c); try reflexivity; try (specialize (A eq_refl); discriminate);
    specialize (B eq_refl); discriminate.
Qed.
Theorem isdecimal_right : forall s, points_of s -> answers (isdecimal uprops s) (says_isdecimal p (sdata s)).
Proof. apply ask_right. bit. exact H4. Qed.
Theorem isdigit_right : nested p -> forall s, points_of s -> answers (isdigit uprops s) (says_isdigit p (sdata s)).
Proof.
  intros N. apply ask_right. bit. rewrite H4, H5. destruct (N c) as [A B].
  destruct (is_decimal p c), (is_digit p c); try reflexivity; specialize (A eq_refl); discriminate.
Qed.
Theorem isnumeric_right : nested p -> forall s, points_of s -> answers (isnumeric uprops s) (says_isnumeric p (sdata s)).
Proof.
  intros N. apply ask_right. bit. rewrite H4, H5, H6. destruct (N c) as [A B].
  destruct (is_decimal p c), (is_digit p c), (is_numeric p c); try reflexivity; try (specialize (A eq_refl); discriminate);
    specialize (B eq_refl); discriminate.
Qed.
Theorem isspace_right : forall s, points_of s -> answers (isspace uprops s) (says_isspace p (sdata s)).
Proof. apply ask_right. bit. exact H7. Qed.
Theorem isprintable_right : forall s, points_of s -> answers (isprintable uprops s) (says_isprintable p (sdata s)).
Proof.
  intros s F. unfold isprintable, ask. destruct (slen s =? 0) eqn:L.
  - apply slen_nil in L. exists true. split; [reflexivity|]. unfold says_isprintable. rewrite L. split; [constructor|reflexivity].
  - apply (each_right _ (is_printable p)); [bit; exact H8|exact F].
Qed.

Lemma cased_right : forall bad good isbad isgood,
  (forall c, has (flags_of p c) bad = isbad c) -> (forall c, has (flags_of p c) good = isgood c) ->
  forall cs found, Forall inside cs ->
  answers (cased_loop uprops bad good cs found)
    ((found = true \/ Exists (fun c => isgood c = true) cs) /\ Forall (fun c => isbad c = false /\ (is_title p c = true -> is_upper p c = true)) cs).
Proof.
  intros bad good isbad isgood B G. induction cs as [|c r IH]; intros found F; cbn [cased_loop].
  - exists found. split; [reflexivity|]. split; [intros ->; split; [now left|constructor]|]. intros [[E|E] _]; [exact E|inversion E].
  - rewrite uprop_right by exact (Forall_inv F). cbn [bind]. rewrite B, G. destruct (isbad c) eqn:X.
    + exists false. split; [reflexivity|]. split; [discriminate|]. intros [_ A]. apply Forall_inv in A. destruct A; congruence.
    + assert (H9 : has (flags_of p c) TITLE = is_title p c && negb (is_upper p c)).
      { pose proof (has_flags p c) as H. cbv zeta in H. apply H. }
      rewrite H9. destruct (is_title p c && negb (is_upper p c)) eqn:Y.
      * exists false. split; [reflexivity|]. split; [discriminate|]. intros [_ A]. apply Forall_inv in A. destruct A as [_ A].
        apply Bool.andb_true_iff in Y. destruct Y as [Y Y']. rewrite (A Y) in Y'. discriminate.
      * destruct (IH (if isgood c then true else found) (Forall_inv_tail F)) as (b & E & Q). exists b. split; [exact E|]. rewrite Q.
        assert (U : is_title p c = true -> is_upper p c = true).
        { intros Z. rewrite Z in Y. destruct (is_upper p c); [reflexivity|discriminate]. }
        destruct (isgood c) eqn:Z.
        -- split; [intros [_ A]; split; [right; now constructor|constructor; auto]|]. intros [_ A]. split; [now left|exact (Forall_inv_tail A)].
        -- split.
           ++ intros [[E1|E1] A]; (split; [|constructor; auto]); [now left|right; now constructor].
           ++ intros [[E1|E1] A]; (split; [|exact (Forall_inv_tail A)]); [now left|]. right. inversion E1; subst; [congruence|assumption].
Qed.
Theorem islower_right : forall s, points_of s -> answers (islower uprops s) (says_islower p (sdata s)).
Proof.
  intros s F. unfold islower. destruct (slen s =? 0) eqn:L.
  - apply slen_nil in L. exists false. split; [reflexivity|]. unfold says_islower. rewrite L. split; [discriminate|]. intros [E _]. inversion E.
  - destruct (cased_right UPPER LOWER (is_upper p) (is_lower p)) with (cs := sdata s) (found := false) as (b & E & B);
      [bit; exact H3|bit; exact H2|exact F|]. exists b. split; [exact E|]. rewrite B. unfold says_islower. split.
    + intros [[E1|E1] A]; [discriminate|]. split; [exact E1|]. revert A. apply Forall_impl. intros c [U Q]. split; [exact U|].
      destruct (is_title p c); [specialize (Q eq_refl); congruence|reflexivity].
    + intros [E1 A]. split; [now right|]. revert A. apply Forall_impl. intros c [U Q]. split; [exact U|congruence].
Qed.
Theorem isupper_right : forall s, points_of s -> answers (isupper uprops s) (says_isupper p (sdata s)).
Proof.
  intros s F. unfold isupper. destruct (slen s =? 0) eqn:L.
  - apply slen_nil in L. exists false. split; [reflexivity|]. unfold says_isupper. rewrite L. split; [discriminate|]. intros [E _]. inversion E.
  - destruct (cased_right LOWER UPPER (is_lower p) (is_upper p)) with (cs := sdata s) (found := false) as (b & E & B);
      [bit; exact H2|bit; exact H3|exact F|]. exists b. split; [exact E|]. rewrite B. unfold says_isupper. split.
    + intros [[E1|E1] A]; [discriminate|]. split; assumption.
    + intros [E1 A]. split; [now right|assumption].
Qed.

Lemma after_snoc : forall l d, after_cased p (l ++ [d]) <-> cased p d.
Proof.
  intros l d. split; [|intros C; now exists l, d]. intros (l' & d' & E & C). apply app_inj_tail in E. destruct E as [_ ->]. exact C.
Qed.
Lemma title_right : forall cs last found before, Forall inside cs -> (last = true <-> after_cased p before) ->
  answers (title_loop uprops cs last found)
    ((found = true \/ Exists (cased p) cs) /\
     forall b c after, cs = b ++ c :: after ->
       (is_upper p c = true \/ is_title p c = true -> ~ after_cased p (before ++ b)) /\ (is_lower p c = true -> after_cased p (before ++ b))).
Proof.
  induction cs as [|c r IH]; intros last found before F LA; cbn [title_loop].
  - exists found. split; [reflexivity|]. split.
    + intros ->. split; [now left|]. intros b d after E. destruct b; discriminate.
    + intros [[E|E] _]; [exact E|inversion E].
  - rewrite uprop_right by exact (Forall_inv F). cbn [bind]. pose proof (has_flags p c) as H. cbv zeta in H.
    destruct H as (_ & H2 & H3 & _ & _ & _ & _ & _ & H9). rewrite H2, H3, H9. clear H2 H3 H9. cbv zeta.
    assert (NO : forall (Q : Prop), ((is_upper p c = true \/ is_title p c = true -> ~ after_cased p before) /\ (is_lower p c = true -> after_cased p before) -> False) ->
      answers (Ok false) (Q /\ forall b d after, c :: r = b ++ d :: after ->
       (is_upper p d = true \/ is_title p d = true -> ~ after_cased p (before ++ b)) /\ (is_lower p d = true -> after_cased p (before ++ b)))).
    { intros Q N. exists false. split; [reflexivity|]. split; [discriminate|]. intros [_ A]. destruct N. specialize (A nil c r eq_refl).
      rewrite app_nil_r in A. exact A. }
    destruct (is_upper p c && last) eqn:A1.
    { apply NO. intros [N _]. apply Bool.andb_true_iff in A1. destruct A1 as [U ->]. apply N; [now left|now apply LA]. }
    destruct (is_lower p c && negb last) eqn:A2.
    { apply NO. intros [_ N]. apply Bool.andb_true_iff in A2. destruct A2 as [U A2]. apply N, LA in U. rewrite U in A2. discriminate. }
    destruct (is_title p c && negb (is_upper p c) && last) eqn:A3.
    { apply NO. intros [N _]. rewrite !Bool.andb_true_iff in A3. destruct A3 as [[U _] ->]. apply N; [now right|now apply LA]. }
    set (now_cased := is_upper p c || is_lower p c || is_title p c && negb (is_upper p c)) in *.
    assert (NC : now_cased = true <-> cased p c).
    { unfold now_cased, cased. destruct (is_upper p c), (is_lower p c), (is_title p c); cbn; tauto. }
    destruct (IH now_cased (if now_cased then true else found) (before ++ [c]) (Forall_inv_tail F)) as (b & E & B).
    { rewrite after_snoc. exact NC. }
    exists b. split; [exact E|]. rewrite B. split.
    + intros [X Y]. split.
      * destruct X as [X|X]; [|right; now constructor 2]. destruct now_cased eqn:N; [right; constructor; now apply NC|now left].
      * intros b' d after E'. destruct b' as [|x b']; cbn [app] in E'.
        -- injection E' as <- <-. rewrite app_nil_r. split.
           ++ intros U A. apply LA in A. subst last. destruct U as [U|U]; rewrite U in *; [discriminate|].
              destruct (is_upper p c); [discriminate|]. discriminate.
           ++ intros U. apply LA. rewrite U in A2. destruct last; [reflexivity|discriminate].
        -- injection E' as <- E'. specialize (Y b' d after E'). rewrite <- app_assoc in Y. exact Y.
    + intros [X Y]. split.
      * destruct now_cased eqn:N; [now left|]. destruct X as [X|X]; [now left|]. right. inversion X; subst; [|assumption]. apply NC in H0. discriminate.
      * intros b' d after E'. rewrite <- app_assoc. cbn [app]. apply (Y (c :: b') d after). cbn [app]. now rewrite E'.
Qed.
Theorem istitle_right : forall s, points_of s -> answers (istitle uprops s) (says_istitle p (sdata s)).
Proof.
  intros s F. unfold istitle. destruct (slen s =? 0) eqn:L.
  - apply slen_nil in L. exists false. split; [reflexivity|]. unfold says_istitle. rewrite L. split; [discriminate|]. intros [E _]. inversion E.
  - destruct (title_right (sdata s) false false nil F) as (b & E & B).
    { split; [discriminate|]. intros (l & d & X & _). destruct l; discriminate. }
    exists b. split; [exact E|]. rewrite B. cbn [app]. unfold says_istitle. split.
    + intros [[X|X] Y]; [discriminate|]. now split.
    + intros [X Y]. split; [now right|exact Y].
Qed.
End Answers.

(** ** Bytes *)

Lemma each_byte_right : forall ok bs, each_byte ok bs = true <-> Forall (fun c => ok c = true) bs.
Proof.
  intros ok. induction bs as [|c r IH]; cbn [each_byte]; [split; constructor|]. destruct (ok c) eqn:O; cbn [negb].
  - rewrite IH. split; [constructor; assumption|apply Forall_inv_tail].
  - split; [discriminate|]. intros F. apply Forall_inv in F. congruence.
Qed.
Lemma ask_bytes_right : forall ok x, ask_bytes ok x = true <-> all_of ok (bdata x).
Proof.
  intros ok x. unfold ask_bytes, all_of, blen, zlen. rewrite <- each_byte_right. destruct (bdata x) as [|c r]; cbn [length].
  - split; [discriminate|]. intros [N _]. congruence.
  - replace (Z.of_nat (S (length r)) =? 0) with false by lia. split; [|tauto]. intros F. split; [discriminate|exact F].
Qed.
Lemma cased_bytes_right : forall good bad, (forall c, good c = true -> bad c = false) -> forall bs found,
  cased_bytes good bad bs found = true <->
  (found = true \/ Exists (fun c => good c = true) bs) /\ Forall (fun c => bad c = false) bs.
Proof.
  intros good bad X. induction bs as [|c r IH]; intros found; cbn [cased_bytes].
  - split; [intros ->; split; [now left|constructor]|]. intros [[E|E] _]; [exact E|inversion E].
  - destruct (good c) eqn:G.
    + rewrite IH. split; [intros [_ A]; split; [right; now constructor|constructor; auto]|].
      intros [_ A]. split; [now left|exact (Forall_inv_tail A)].
    + destruct (bad c) eqn:B.
      * split; [discriminate|]. intros [_ A]. apply Forall_inv in A. congruence.
      * rewrite IH. split; (intros [[E|E] A]; split; [now left| |right|]); try (constructor; assumption); try exact (Forall_inv_tail A).
        inversion E; subst; [congruence|assumption].
Qed.

(** The loop over bytes is the one over text, with the table of ASCII. *)
Definition ascii_table (c : Z) : Z := flags_of ascii c.
Lemma title_same : forall bs last found, Forall (fun c => 0 <= c < 1114112) bs ->
  title_loop ascii_table bs last found = Ok (title_bytes bs last found).
Proof.
  induction bs as [|c r IH]; intros last found F; cbn [title_loop title_bytes]; [reflexivity|].
  rewrite (uprop_right ascii) by (try exact (Forall_inv F); intros ? _; reflexivity). cbn [bind].
  pose proof (has_flags ascii c) as H. cbv zeta in H. destruct H as (_ & H2 & H3 & _ & _ & _ & _ & _ & H9). rewrite H2, H3, H9. cbv zeta.
  cbn [is_lower is_upper is_title ascii]. replace (ascii_upper c && negb (ascii_upper c)) with false by (destruct (ascii_upper c); reflexivity).
  cbn [andb]. rewrite Bool.orb_false_r. destruct (ascii_upper c && last); [reflexivity|]. destruct (ascii_lower c && negb last); [reflexivity|].
  apply IH. exact (Forall_inv_tail F).
Qed.

(** ** The table that is shipped *)

Definition total (runs : list (Z * Z)) : Z := fold_right (fun '(_, n) t => n + t) 0 runs.
Lemma zlen_expand : forall runs, proper runs -> zlen (expand runs) = total runs.
Proof.
  unfold zlen. induction runs as [|[v n] r IH]; intros P; [reflexivity|]. apply Forall_inv_tail in P as PR. apply Forall_inv in P.
  change (expand ((v, n) :: r)) with (repeat v (Z.to_nat n) ++ expand r). rewrite app_length, repeat_length. cbn [total fold_right].
  specialize (IH PR). unfold total in IH. lia.
Qed.
Lemma value_in : forall runs c, proper runs -> 0 <= c < total runs -> exists n, In (value_at runs c, n) runs.
Proof.
  induction runs as [|[v n] r IH]; intros c P R; cbn [total fold_right] in R; [lia|]. cbn [value_at]. destruct (c <? n) eqn:L.
  - exists n. now left.
  - destruct (IH (c - n)) as [m I]; [exact (Forall_inv_tail P)|unfold total; lia|]. exists m. now right.
Qed.
Lemma shipped_proper : proper uprops_runlength.
Proof.
  assert (E : forallb (fun '(v, n) => 0 <=? n) uprops_runlength = true) by (vm_compute; reflexivity).
  unfold proper. rewrite Forall_forall. rewrite forallb_forall in E. intros [v n] I. specialize (E (v, n) I). cbn in E. lia.
Qed.
Lemma shipped_total : total uprops_runlength = 1114112.
Proof. vm_compute. reflexivity. Qed.
Lemma shipped_all : forall check, forallb (fun '(v, n) => check v) uprops_runlength = true ->
  forall c, 0 <= c < 1114112 -> check (shipped_flags c) = true.
Proof.
  intros check E c C. destruct (value_in uprops_runlength c shipped_proper) as [n I]; [rewrite shipped_total; exact C|].
  rewrite forallb_forall in E. exact (E _ I).
Qed.

Theorem shipped_initialize : exists a, initialize_uprops 1114112 3261 uprops_runlength = Ok a /\
  forall c, 0 <= c < 1114112 -> a c = shipped_flags c.
Proof.
  assert (L : zlen uprops_runlength = 3261) by (vm_compute; reflexivity).
  rewrite <- L. apply initialize_right; [exact shipped_proper|]. rewrite zlen_expand by exact shipped_proper. exact shipped_total.
Qed.

Definition rebuilt (v : Z) : Z :=
  let flag b w := if b : bool then w else 0 in
  flag (has v ALPHA) ALPHA + flag (has v LOWER) LOWER + flag (has v UPPER) UPPER + flag (has v DECIMAL) DECIMAL +
  flag (has v DIGIT) DIGIT + flag (has v NUMERIC) NUMERIC + flag (has v SPACE) SPACE + flag (has v PRINTABLE) PRINTABLE +
  flag ((has v TITLE || has v UPPER) && negb (has v UPPER)) TITLE.
Lemma rebuilt_right : forall f c, flags_of (python_of f) c = rebuilt (f c).
Proof. reflexivity. Qed.
Theorem shipped_table : exists a, initialize_uprops 1114112 3261 uprops_runlength = Ok a /\ table_of shipped a.
Proof.
  destruct shipped_initialize as (a & E & A). exists a. split; [exact E|]. intros c C. rewrite (A c C).
  unfold shipped. rewrite rebuilt_right. symmetry. apply Z.eqb_eq.
  apply (shipped_all (fun v => rebuilt v =? v)); [vm_compute; reflexivity|exact C].
Qed.
Theorem shipped_nested : forall c, 0 <= c < 1114112 ->
  (is_decimal shipped c = true -> is_digit shipped c = true) /\ (is_digit shipped c = true -> is_numeric shipped c = true) /\
  (is_upper shipped c = true -> is_lower shipped c = false) /\ (is_title shipped c = true -> is_lower shipped c = false) /\
  (is_numeric shipped c = true -> is_space shipped c = false) /\ (is_space shipped c = true -> is_alpha shipped c = false).
Proof.
  intros c C. unfold shipped. cbn [is_decimal is_digit is_numeric is_upper is_lower is_title is_space is_alpha python_of].
  assert (K := shipped_all (fun v => implb (has v DECIMAL) (has v DIGIT) && implb (has v DIGIT) (has v NUMERIC) &&
    implb (has v UPPER) (negb (has v LOWER)) && implb (has v TITLE || has v UPPER) (negb (has v LOWER)) &&
    implb (has v NUMERIC) (negb (has v SPACE)) && implb (has v SPACE) (negb (has v ALPHA)))).
  specialize (K ltac:(vm_compute; reflexivity) c C). cbv beta in K. rewrite !Bool.andb_true_iff in K.
  destruct K as [[[[[K1 K2] K3] K4] K5] K6]. repeat split; intros H; rewrite H in *; cbn [implb] in *; auto using Bool.negb_true_iff.
  - now apply Bool.negb_true_iff.
  - now apply Bool.negb_true_iff.
  - now apply Bool.negb_true_iff.
  - now apply Bool.negb_true_iff.
Qed.

Fixpoint with_bit (bit start : Z) (runs : list (Z * Z)) : list Z :=
  match runs with
  | nil => nil
  | (v, n) :: r => (if has v bit then count_up (Z.to_nat n) start else nil) ++ with_bit bit (start + n) r
  end.
Lemma count_up_in : forall n i c, In c (count_up n i) <-> i <= c < i + Z.of_nat n.
Proof.
  induction n as [|n IH]; intros i c; cbn [count_up In]; [lia|]. rewrite IH. lia.
Qed.
Lemma with_bit_right : forall bit runs start c, proper runs -> has 0 bit = false -> start <= c ->
  (In c (with_bit bit start runs) <-> c < start + total runs /\ has (value_at runs (c - start)) bit = true).
Proof.
  intros bit. induction runs as [|[v n] r IH]; intros start c P Z0 L; cbn [with_bit value_at total fold_right]; [cbn [In]; lia|].
  apply Forall_inv_tail in P as PR. apply Forall_inv in P. rewrite in_app_iff. change (fold_right _ 0 r) with (total r).
  assert (T : 0 <= total r). { rewrite <- zlen_expand by exact PR. unfold zlen. lia. }
  assert (FAR : c < start + n -> In c (with_bit bit (start + n) r) -> False).
  { clear - PR. intros X. assert (G : forall runs s, proper runs -> In c (with_bit bit s runs) -> s <= c).
    { clear. induction runs as [|[v n] r IH]; intros s P I; cbn [with_bit] in I; [destruct I|]. apply Forall_inv_tail in P as PR. apply Forall_inv in P.
      apply in_app_or in I. destruct I as [I|I]; [destruct (has v bit); [apply count_up_in in I; lia|destruct I]|]. apply IH in I; [lia|exact PR]. }
    intros I. apply G in I; [lia|exact PR]. }
  assert (NEAR : In c (if has v bit then count_up (Z.to_nat n) start else nil) <-> c < start + n /\ has v bit = true).
  { destruct (has v bit); [rewrite count_up_in|cbn [In]]; split; intros H; lia. }
  rewrite NEAR. destruct (c - start <? n) eqn:X.
  - split; intros H.
    + destruct H as [[_ H]|H]; [split; [lia|exact H]|]. exfalso. apply FAR; [lia|exact H].
    + left. destruct H as [_ H]. split; [lia|exact H].
  - rewrite IH by (auto; lia). replace (c - (start + n)) with (c - start - n) by lia. split; intros H.
    + destruct H as [[H _]|[H H']]; [lia|]. split; [lia|exact H'].
    + right. destruct H as [H H']. split; [lia|exact H'].
Qed.
Theorem shipped_spaces : forall c, 0 <= c < 1114112 -> is_space shipped c = true <-> In c unicode_spaces.
Proof.
  intros c C. assert (E : with_bit SPACE 0 uprops_runlength = unicode_spaces) by (vm_compute; reflexivity).
  rewrite <- E, with_bit_right; [|exact shipped_proper|reflexivity|lia]. rewrite shipped_total. replace (c - 0) with c by lia.
  unfold shipped. cbn [is_space python_of]. unfold shipped_flags. intuition lia.
Qed.

Theorem shipped_ascii : forall c, 0 <= c < 128 ->
  is_alpha shipped c = is_alpha ascii c /\ is_lower shipped c = is_lower ascii c /\ is_upper shipped c = is_upper ascii c /\
  is_decimal shipped c = is_decimal ascii c /\ is_digit shipped c = is_digit ascii c /\ is_numeric shipped c = is_numeric ascii c /\
  is_printable shipped c = is_printable ascii c /\ is_title shipped c = is_title ascii c.
Proof.
  intros c C. assert (I : In c (count_up 128 0)) by (apply count_up_in; lia).
  assert (E : forallb (fun c => Bool.eqb (is_alpha shipped c) (is_alpha ascii c) && Bool.eqb (is_lower shipped c) (is_lower ascii c) &&
    Bool.eqb (is_upper shipped c) (is_upper ascii c) && Bool.eqb (is_decimal shipped c) (is_decimal ascii c) &&
    Bool.eqb (is_digit shipped c) (is_digit ascii c) && Bool.eqb (is_numeric shipped c) (is_numeric ascii c) &&
    Bool.eqb (is_printable shipped c) (is_printable ascii c) && Bool.eqb (is_title shipped c) (is_title ascii c)) (count_up 128 0) = true)
    by (vm_compute; reflexivity).
  rewrite forallb_forall in E. specialize (E c I). cbv beta in E. rewrite !Bool.andb_true_iff, !Bool.eqb_true_iff in E. tauto.
Qed.

(** ** Agreement *)

Local Opaque shipped_flags.

Lemma answers_eq : forall r r' c c', answers r c -> answers r' c' -> (c <-> c') -> r = r'.
Proof.
  intros r r' c c' (b & -> & B) (b' & -> & B') E. f_equal. destruct b, b'; try reflexivity; exfalso.
  - assert (X : c) by now apply B. apply E, B' in X. discriminate.
  - assert (X : c') by now apply B'. apply E, B in X. discriminate.
Qed.
Lemma answers_bytes : forall b c, (b = true <-> c) -> answers (Ok b) c.
Proof. intros b c B. now exists b. Qed.
Lemma all_of_same : forall f g cs, (forall c, In c cs -> f c = g c) -> all_of f cs <-> all_of g cs.
Proof.
  intros f g cs E. unfold all_of. rewrite !Forall_forall. split; intros [N F]; (split; [exact N|]); intros c I; [rewrite <- E|rewrite E]; auto.
Qed.
Lemma ascii_exclusive : forall c, ascii_lower c = true -> ascii_upper c = false.
Proof. intros c. unfold ascii_lower, ascii_upper. lia. Qed.
Lemma ascii_exclusive' : forall c, ascii_upper c = true -> ascii_lower c = false.
Proof. intros c. unfold ascii_lower, ascii_upper. lia. Qed.

(** Bytes answer what the definitions for text say with the ASCII characters. *)
Theorem bytes_right : forall x,
  (bytes_isalpha x = true <-> says_isalpha ascii (bdata x)) /\ (bytes_isalnum x = true <-> says_isalnum ascii (bdata x)) /\
  (bytes_isdigit x = true <-> says_isdigit ascii (bdata x)) /\ (bytes_isspace x = true <-> says_isspace ascii (bdata x)) /\
  (bytes_islower x = true <-> says_islower ascii (bdata x)) /\ (bytes_isupper x = true <-> says_isupper ascii (bdata x)).
Proof.
  intros x. split; [|split; [|split; [|split; [|split]]]]; try exact (ask_bytes_right _ x).
  - unfold bytes_isalnum. rewrite ask_bytes_right. apply all_of_same. intros c _. cbn [is_alpha is_numeric ascii].
    destruct (ascii_upper c), (ascii_lower c), (ascii_digit c); reflexivity.
  - unfold bytes_isspace. rewrite ask_bytes_right. apply all_of_same. intros c _. cbn [is_space ascii existsb]. lia.
  - unfold bytes_islower. rewrite cased_bytes_right by exact ascii_exclusive. unfold says_islower. cbn [is_lower is_upper is_title ascii]. split.
    + intros [[E|E] A]; [discriminate|]. split; [exact E|]. revert A. apply Forall_impl. auto.
    + intros [E A]. split; [now right|]. revert A. apply Forall_impl. tauto.
  - unfold bytes_isupper. rewrite cased_bytes_right by exact ascii_exclusive'. unfold says_isupper. cbn [is_lower is_upper is_title ascii]. split.
    + intros [[E|E] A]; [discriminate|]. split; [exact E|]. revert A. apply Forall_impl. auto.
    + intros [E A]. split; [now right|]. revert A. apply Forall_impl. tauto.
Qed.
Theorem bytes_istitle_right : forall x, Forall (fun c => 0 <= c < 256) (bdata x) -> bytes_istitle x = true <-> says_istitle ascii (bdata x).
Proof.
  intros x F. assert (F' : Forall (fun c => 0 <= c < 1114112) (bdata x)) by (revert F; apply Forall_impl; lia).
  destruct (istitle_right ascii ascii_table ltac:(intros ? _; reflexivity) (Some (mk_slayout 1 (bdata x))) F') as (b & E & B).
  cbn [sdata codepoints] in B. rewrite <- B. unfold istitle, slen in E. cbn [sdata codepoints] in E. unfold bytes_istitle, blen.
  destruct (zlen (bdata x) =? 0).
  - injection E as <-. tauto.
  - rewrite title_same in E by exact F'. injection E as <-. tauto.
Qed.

Lemma nested_ascii : nested ascii.
Proof. intros c. cbn. tauto. Qed.

(** Text of ASCII characters is answered as the bytes of the same characters. *)
Theorem text_like_bytes : forall a s x, table_of shipped a -> sdata s = bdata x -> Forall (fun c => 0 <= c < 128) (bdata x) ->
  isalpha a s = Ok (bytes_isalpha x) /\ isalnum a s = Ok (bytes_isalnum x) /\ isdigit a s = Ok (bytes_isdigit x) /\
  islower a s = Ok (bytes_islower x) /\ isupper a s = Ok (bytes_isupper x) /\ istitle a s = Ok (bytes_istitle x).
Proof.
  intros a s x T E F. assert (PS : points_of s) by (unfold points_of; rewrite E; revert F; apply Forall_impl; lia).
  assert (A : forall c, In c (bdata x) -> _) by (intros c I; exact (shipped_ascii c (proj1 (Forall_forall _ _) F c I))).
  destruct (bytes_right x) as (B1 & B2 & B3 & B4 & B5 & B6).
  assert (N : forall c, In c (bdata x) -> 0 <= c < 1114112) by (intros c I; rewrite Forall_forall in F; specialize (F c I); lia).
  (* the table need only be nested on the characters at hand *)
  assert (R : forall ok said, (forall c, In c (bdata x) -> ok (flags_of shipped c) = said c) -> answers (ask false a ok s) (all_of said (sdata s))).
  { intros ok said O. destruct (ask_right shipped a T ok (fun c => ok (flags_of shipped c)) ltac:(reflexivity) s PS) as (b & Q & B).
    exists b. split; [exact Q|]. rewrite B, E. apply all_of_same. exact O. }
  repeat split.
  - eapply answers_eq; [exact (isalpha_right shipped a T s PS)|exact (answers_bytes _ _ B1)|]. rewrite E. apply all_of_same. intros c I. exact (proj1 (A c I)).
  - eapply answers_eq; [apply (R _ (fun c => is_alpha ascii c || is_numeric ascii c))|exact (answers_bytes _ _ B2)|rewrite E; reflexivity].
    intros c I. pose proof (has_flags shipped c) as H. cbv zeta in H. destruct H as (H1 & _ & _ & H4 & H5 & H6 & _). rewrite H1, H4, H5, H6.
    destruct (A c I) as (A1 & _ & _ & A4 & A5 & A6 & _). rewrite A1, A4, A5, A6. cbn [is_alpha is_decimal is_digit is_numeric ascii].
    destruct (ascii_upper c), (ascii_lower c), (ascii_digit c); reflexivity.
  - eapply answers_eq; [apply (R _ (is_digit ascii))|exact (answers_bytes _ _ B3)|rewrite E; reflexivity].
    intros c I. pose proof (has_flags shipped c) as H. cbv zeta in H. destruct H as (_ & _ & _ & H4 & H5 & _). rewrite H4, H5.
    destruct (A c I) as (_ & _ & _ & A4 & A5 & _). rewrite A4, A5. cbn [is_decimal is_digit ascii]. destruct (ascii_digit c); reflexivity.
  - eapply answers_eq; [exact (islower_right shipped a T s PS)|exact (answers_bytes _ _ B5)|]. rewrite E. unfold says_islower.
    rewrite !Exists_exists, !Forall_forall. split; intros [(c & I & L) G]; (split; [exists c; split; [exact I|]; destruct (A c I) as (_ & A2 & _); congruence|]);
      intros d J; specialize (G d J); destruct (A d J) as (_ & _ & A3 & _ & _ & _ & _ & A8); rewrite ?A3, ?A8 in *; try exact G; rewrite <- ?A3, <- ?A8 in *; exact G.
  - eapply answers_eq; [exact (isupper_right shipped a T s PS)|exact (answers_bytes _ _ B6)|]. rewrite E. unfold says_isupper.
    rewrite !Exists_exists, !Forall_forall. split; intros [(c & I & L) G]; (split; [exists c; split; [exact I|]; destruct (A c I) as (_ & _ & A3 & _); congruence|]);
      intros d J; specialize (G d J); destruct (A d J) as (_ & A2 & A3 & _ & _ & _ & _ & A8); rewrite ?A2, ?A3, ?A8 in *; try exact G; rewrite <- ?A2, <- ?A3, <- ?A8 in *; exact G.
  - eapply answers_eq; [exact (istitle_right shipped a T s PS)| |].
    + apply answers_bytes. apply bytes_istitle_right. revert F. apply Forall_impl. lia.
    + rewrite E. assert (CS : forall c, In c (bdata x) -> cased shipped c <-> cased ascii c).
      { intros c I. destruct (A c I) as (_ & A2 & A3 & _ & _ & _ & _ & A8). unfold cased. rewrite A2, A3, A8. tauto. }
      assert (AF : forall b c r, bdata x = b ++ c :: r -> after_cased shipped b <-> after_cased ascii b).
      { intros b c r Q. unfold after_cased. split; intros (l & d & -> & D); exists l, d; (split; [reflexivity|]); apply CS; auto;
          rewrite Q, <- app_assoc; apply in_or_app; right; now left. }
      unfold says_istitle. rewrite !Exists_exists. split; intros [(c & I & L) G].
      * split; [exists c; split; [exact I|]; now apply CS|]. intros b d r Q. specialize (G b d r Q).
        assert (J : In d (bdata x)) by (rewrite Q; apply in_or_app; right; now left).
        destruct (A d J) as (_ & A2 & A3 & _ & _ & _ & _ & A8). rewrite A2, A3, A8, (AF b d r Q) in G. exact G.
      * split; [exists c; split; [exact I|]; now apply CS|]. intros b d r Q. specialize (G b d r Q).
        assert (J : In d (bdata x)) by (rewrite Q; apply in_or_app; right; now left).
        destruct (A d J) as (_ & A2 & A3 & _ & _ & _ & _ & A8). rewrite A2, A3, A8, (AF b d r Q). exact G.
Qed.
