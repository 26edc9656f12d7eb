(** Proofs about numbers in text. *)
From Coq Require Import List ZArith Lia Bool ZifyBool ZifyNat.
From Verif Require Import Base Text_Model TextAsk_Model TextAsk_Spec Utf8_Model Utf8_Spec Utf8_Proofs TextNum_Model TextNum_Spec.
Import ListNotations.
Open Scope Z_scope.
Open Scope list_scope.

(** ** Digits *)

Lemma ascii_value_some : forall c v, ascii_value c = Some v -> 0 <= v <= 9 /\ c = 48 + v.
Proof. intros c v H. unfold ascii_value in H. destruct (_ && _) eqn:E; [|discriminate]. injection H as <-. lia. Qed.
Lemma ascii_value_digit : forall v, 0 <= v <= 9 -> ascii_value (48 + v) = Some v.
Proof. intros v H. unfold ascii_value. rewrite (proj2 (andb_true_iff _ _)) by lia. f_equal. lia. Qed.

Section Grouped.
Variable digit : Z -> option Z.
Lemma grouped_snoc : forall r vs, grouped digit r vs -> forall c v, digit c = Some v ->
  grouped digit (r ++ [c]) (vs ++ [v]) /\ grouped digit (r ++ [95; c]) (vs ++ [v]).
Proof.
  induction 1 as [c v D|c v r vs D G IH|c v r vs D G IH]; intros c' v' D'; cbn [app].
  - split; [apply next_digit|apply next_group]; auto; now apply last_digit.
  - destruct (IH c' v' D') as (A & B). split; now apply next_digit.
  - destruct (IH c' v' D') as (A & B). split; now apply next_group.
Qed.
Lemma grouped_nonempty : forall r vs, grouped digit r vs -> r <> nil /\ vs <> nil.
Proof. destruct 1; split; discriminate. Qed.
End Grouped.

Lemma number_snoc : forall vs v, number (vs ++ [v]) = number vs * 10 + v.
Proof. intros vs v. unfold number. now rewrite fold_left_app. Qed.

(** ** Wrapping around *)

Lemma wrap64_mod : forall x, exists k, wrap_s 64 x = x + k * 2 ^ 64.
Proof.
  intros x. unfold wrap_s. cbv zeta. assert (D := Z.div_mod x (2 ^ 64) ltac:(lia)).
  destruct (_ <? _); [exists (- (x / 2 ^ 64))|exists (- (x / 2 ^ 64) - 1)]; lia.
Qed.
Lemma wrap64_congr : forall x y k, x = y + k * 2 ^ 64 -> wrap_s 64 x = wrap_s 64 y.
Proof. intros x y k ->. unfold wrap_s. now rewrite Z_mod_plus_full. Qed.
Lemma wrap64_step : forall x d, wrap_s 64 (wrap_s 64 (wrap_s 64 x * 10) + d) = wrap_s 64 (x * 10 + d).
Proof.
  intros x d. destruct (wrap64_mod x) as (k & ->). destruct (wrap64_mod ((x + k * 2 ^ 64) * 10)) as (j & ->).
  apply (wrap64_congr _ _ (k * 10 + j)). ring.
Qed.
Lemma wrap64_sign : forall x n, wrap_s 64 (wrap_s 64 x * (if n : bool then -1 else 1)) = wrap_s 64 (with_sign n x).
Proof.
  intros x n. destruct (wrap64_mod x) as (k & ->). unfold with_sign. apply (wrap64_congr _ _ (if n then - k else k)). destruct n; ring.
Qed.
Lemma wrap64_small : forall x, - 2 ^ 63 <= x < 2 ^ 63 -> wrap_s 64 x = x.
Proof.
  intros x H. unfold wrap_s. cbv zeta. change (2 ^ (64 - 1)) with 9223372036854775808. change (2 ^ 64) with 18446744073709551616. change (2 ^ 63) with 9223372036854775808 in H.
  destruct (Z_lt_le_dec x 0) as [N | N].
  - rewrite <- (Z.mod_unique x 18446744073709551616 (-1) (x + 18446744073709551616)) by lia. destruct (_ <? _) eqn:E; lia.
  - rewrite Z.mod_small by lia. destruct (_ <? _) eqn:E; lia.
Qed.

(** ** [int(text)] *)

Section Int.
Variables (uprops : Z -> Z) (space : Z -> Prop).
Hypotheses (T : spaces_of uprops space) (U : usual_spaces space).

Lemma lookup : forall c, 0 <= c < 1114112 -> uprop uprops c = Ok (uprops c).
Proof. intros c C. unfold uprop. now rewrite (proj2 (andb_true_iff _ _)) by lia. Qed.
Lemma no_space : forall c, 0 <= c < 1114112 -> 43 <= c <= 122 -> has (uprops c) SPACE = false.
Proof.
  intros c C D. destruct (has (uprops c) SPACE) eqn:E; [|reflexivity]. apply T in E; [|exact C]. apply U in E. lia.
Qed.

Lemma int_spaces : forall l r st v sg, Forall (fun c => 0 <= c < 1114112) l -> Forall space l -> st = LeftSpace \/ st = RightSpace ->
  int_loop uprops (l ++ r) st v sg = int_loop uprops r st v sg.
Proof.
  induction l as [|c l IH]; intros r st v sg B F S; [reflexivity|]. cbn [app int_loop]. rewrite lookup by exact (Forall_inv B). cbn [bind].
  rewrite (proj2 (T c (Forall_inv B)) (Forall_inv F)).
  rewrite <- (IH r st v sg (Forall_inv_tail B) (Forall_inv_tail F) S). destruct S as [-> | ->]; reflexivity.
Qed.
Lemma int_digit : forall c d r st v sg, ascii_value c = Some d -> st <> RightSpace ->
  int_loop uprops (c :: r) st v sg = int_loop uprops r Digit (wrap_s 64 (wrap_s 64 (v * 10) + d)) sg.
Proof.
  intros c d r st v sg D S. apply ascii_value_some in D. cbn [int_loop]. rewrite lookup by lia. cbn [bind]. rewrite no_space by lia.
  replace ((c =? 43) || (c =? 45)) with false by lia. replace ((c <? 128) && (48 <=? c) && (c <=? 57)) with true by lia.
  replace (c - 48) with d by lia. destruct st; congruence.
Qed.
Lemma int_digits : forall b vs, grouped ascii_value b vs -> forall r st x sg, st <> RightSpace ->
  int_loop uprops (b ++ r) st (wrap_s 64 x) sg = int_loop uprops r Digit (wrap_s 64 (fold_left (fun n v => n * 10 + v) vs x)) sg.
Proof.
  induction 1 as [c v D|c v b vs D G IH|c v b vs D G IH]; intros r st x sg S; cbn [app fold_left].
  - rewrite (int_digit c v) by assumption. now rewrite wrap64_step.
  - rewrite (int_digit c v) by assumption. rewrite wrap64_step. now apply IH.
  - rewrite (int_digit c v) by assumption. rewrite wrap64_step. cbn [int_loop]. rewrite lookup by lia. cbn [bind]. rewrite no_space by lia.
    change ((95 =? 43) || (95 =? 45)) with false. change ((95 <? 128) && (48 <=? 95) && (95 <=? 57)) with false. change (95 =? 95) with true. cbn iota.
    now apply IH.
Qed.

Lemma int_reads : forall cs v, Forall (fun c => 0 <= c < 1114112) cs -> says_int space ascii_value cs v ->
  to_int64 uprops cs = Ok (Some (wrap_s 64 v)).
Proof.
  intros cs v B (before & sign & body & after & n & vs & -> & FB & FA & S & G & ->).
  rewrite !Forall_app in B. destruct B as (BB & BS & BG & BA). unfold to_int64. rewrite int_spaces by auto.
  assert (X : exists st, int_loop uprops (sign ++ body ++ after) LeftSpace 0 1 = int_loop uprops (body ++ after) st 0 (if n then -1 else 1) /\ st <> RightSpace).
  { destruct S; [exists LeftSpace|exists Sign|exists Sign]; (split; [|discriminate]); cbn [app]; [reflexivity|..]; cbn [int_loop]; rewrite lookup by lia; cbn [bind];
      rewrite no_space by lia; reflexivity. }
  destruct X as (st & -> & N). change 0 with (wrap_s 64 0) at 1. rewrite (int_digits body vs G) by exact N.
  fold (number vs).
  assert (Y : exists st', int_loop uprops after Digit (wrap_s 64 (number vs)) (if n then -1 else 1) = Ok (Some (st', wrap_s 64 (number vs), if n then -1 else 1)) /\
    (st' = Digit \/ st' = RightSpace)).
  { destruct after as [|c a]; [exists Digit; cbn [int_loop]; auto|]. exists RightSpace. split; [|auto].
    cbn [int_loop]. rewrite lookup by exact (Forall_inv BA). cbn [bind]. rewrite (proj2 (T c (Forall_inv BA)) (Forall_inv FA)).
    rewrite <- (app_nil_r a). rewrite int_spaces by (auto; eapply Forall_inv_tail; eauto). reflexivity. }
  destruct Y as (st' & -> & S'). cbn [bind]. rewrite <- wrap64_sign. destruct S' as [-> | ->]; reflexivity.
Qed.

(** What has been read when the loop is in a state. *)
Inductive int_read : int_state -> Z -> Z -> list Z -> Prop :=
| read_left : forall l, Forall space l -> int_read LeftSpace 0 1 l
| read_sign : forall l s n, Forall space l -> signed s n -> s <> nil -> int_read Sign 0 (if n then -1 else 1) (l ++ s)
| read_digit : forall l s n b vs, Forall space l -> signed s n -> grouped ascii_value b vs ->
    int_read Digit (wrap_s 64 (number vs)) (if n then -1 else 1) (l ++ s ++ b)
| read_underscore : forall l s n b vs, Forall space l -> signed s n -> grouped ascii_value b vs ->
    int_read Underscore (wrap_s 64 (number vs)) (if n then -1 else 1) (l ++ s ++ b ++ [95])
| read_right : forall l s n b vs a, Forall space l -> Forall space a -> signed s n -> grouped ascii_value b vs ->
    int_read RightSpace (wrap_s 64 (number vs)) (if n then -1 else 1) (l ++ s ++ b ++ a).

Lemma int_loop_sound : forall cs st v sg p, Forall (fun c => 0 <= c < 1114112) cs -> int_read st v sg p ->
  int_loop uprops cs st v sg = Ok None \/ exists st' v' sg', int_loop uprops cs st v sg = Ok (Some (st', v', sg')) /\ int_read st' v' sg' (p ++ cs).
Proof.
  induction cs as [|c r IH]; intros st v sg p B R.
  - right. exists st, v, sg. rewrite app_nil_r. auto.
  - assert (C := Forall_inv B). assert (B' := Forall_inv_tail B). cbn [int_loop]. rewrite lookup by exact C. cbn [bind].
    replace (p ++ c :: r) with ((p ++ [c]) ++ r) by now rewrite <- app_assoc.
    destruct (has (uprops c) SPACE) eqn:E.
    + apply T in E; [|exact C].
      destruct R as [l F|l s n F S N|l s n b vs F S G|l s n b vs F S G|l s n b vs a F FA S G]; try (now left).
      * apply IH; [exact B'|]. apply read_left. apply Forall_app. auto.
      * apply IH; [exact B'|]. rewrite <- !app_assoc. now apply read_right; auto.
      * apply IH; [exact B'|]. rewrite <- !app_assoc. apply read_right; auto. apply Forall_app. auto.
    + destruct ((c =? 43) || (c =? 45)) eqn:PM.
      * destruct R as [l F|l s n F S N|l s n b vs F S G|l s n b vs F S G|l s n b vs a F FA S G]; try (now left).
        apply IH; [exact B'|]. destruct (Z.eqb_spec c 45) as [-> | NE].
        -- apply (read_sign l [45] true); auto; [constructor|discriminate].
        -- assert (c = 43) as -> by lia. apply (read_sign l [43] false); auto; [constructor|discriminate].
      * destruct ((c <? 128) && (48 <=? c) && (c <=? 57)) eqn:D.
        -- assert (DV : ascii_value c = Some (c - 48)) by (unfold ascii_value; now rewrite (proj2 (andb_true_iff _ _)) by lia).
           destruct R as [l F|l s n F S N|l s n b vs F S G|l s n b vs F S G|l s n b vs a F FA S G]; try (now left).
           ++ apply IH; [exact B'|]. change 0 with (wrap_s 64 0) at 1. rewrite wrap64_step. apply (read_digit l nil false [c] [c - 48]); auto; constructor; auto.
           ++ apply IH; [exact B'|]. change 0 with (wrap_s 64 0) at 1. rewrite wrap64_step. rewrite <- app_assoc. apply (read_digit l s n [c] [c - 48]); auto; constructor; auto.
           ++ apply IH; [exact B'|]. rewrite wrap64_step, <- number_snoc. rewrite <- !app_assoc. apply read_digit; auto. now apply (grouped_snoc _ b vs).
           ++ apply IH; [exact B'|]. rewrite wrap64_step, <- number_snoc. rewrite <- !app_assoc. apply read_digit; auto. now apply (grouped_snoc _ b vs).
        -- destruct (Z.eqb_spec c 95) as [-> | _]; [|now left].
           destruct R as [l F|l s n F S N|l s n b vs F S G|l s n b vs F S G|l s n b vs a F FA S G]; try (now left).
           apply IH; [exact B'|]. rewrite <- !app_assoc. now apply read_underscore.
Qed.

Lemma int_sound : forall cs, Forall (fun c => 0 <= c < 1114112) cs ->
  to_int64 uprops cs = Ok None \/ exists v, to_int64 uprops cs = Ok (Some (wrap_s 64 v)) /\ says_int space ascii_value cs v.
Proof.
  intros cs B. unfold to_int64.
  destruct (int_loop_sound cs LeftSpace 0 1 nil B (read_left nil (Forall_nil _))) as [-> | (st & v & sg & -> & R)]; [now left|].
  cbn [bind app] in *. destruct R as [l F|l s n F S N|l s n b vs F S G|l s n b vs F S G|l s n b vs a F FA S G]; try (now left).
  - right. exists (with_sign n (number vs)). rewrite wrap64_sign. split; [reflexivity|]. exists l, s, b, nil, n, vs. rewrite app_nil_r. auto 10.
  - right. exists (with_sign n (number vs)). rewrite wrap64_sign. split; [reflexivity|]. exists l, s, b, a, n, vs. auto 10.
Qed.
End Int.

(** ** [str(int)] *)

Lemma print_digits_right : forall fuel n after, 0 <= n -> (Z.to_nat (Z.log2 n) < fuel)%nat -> exists vs,
  print_digits fuel n after = map (Z.add 48) vs ++ after /\ Forall (fun v => 0 <= v <= 9) vs /\ vs <> nil /\ number vs = n /\
  (forall v r, vs = v :: r -> r <> nil -> v <> 0) /\ zlen vs <= 1 + Z.log2 n.
Proof.
  induction fuel as [|fuel IH]; intros n after N L; [lia|]. cbn [print_digits]. destruct (Z.ltb_spec n 10) as [S | S].
  - exists [n]. repeat split; [|discriminate| |].
    + constructor; [lia|constructor].
    + intros v r E. injection E as _ <-. congruence.
    + change (zlen [n]) with 1. assert (X := Z.log2_nonneg n). lia.
  - assert (D := Z.div_mod n 10 ltac:(lia)). assert (M := Z.mod_pos_bound n 10 ltac:(lia)).
    assert (Q : 1 <= n / 10) by (apply Z.div_le_lower_bound; lia).
    assert (K : Z.log2 (n / 10) < Z.log2 n).
    { apply Z.log2_lt_pow2; [lia|]. assert (X := Z.log2_spec n ltac:(lia)). apply Z.div_lt_upper_bound; [lia|].
      assert (Y : 2 ^ Z.succ (Z.log2 n) = 2 * 2 ^ Z.log2 n) by (apply Z.pow_succ_r; apply Z.log2_nonneg). lia. }
    assert (K0 := Z.log2_nonneg (n / 10)).
    destruct (IH (n / 10) (48 + n mod 10 :: after)) as (vs & E & F & NE & V & H & Len); [lia|lia|].
    exists (vs ++ [n mod 10]). rewrite E, map_app, <- app_assoc. cbn [map app]. repeat apply conj.
    + reflexivity.
    + apply Forall_app. split; [exact F|]. constructor; [lia|constructor].
    + destruct vs; discriminate.
    + rewrite number_snoc, V. lia.
    + intros v r X R. destruct vs as [|a vs]; [congruence|]. injection X as -> <-. destruct vs as [|b vs].
      * intros ->. cbn in V. lia.
      * apply (H v (b :: vs)); [reflexivity|discriminate].
    + unfold zlen in *. rewrite app_length. cbn [length]. lia.
Qed.

Lemma number_bound : forall vs, Forall (fun v => 0 <= v <= 9) vs -> (forall v r, vs = v :: r -> r <> nil -> v <> 0) ->
  (2 <= length vs)%nat -> 10 ^ (zlen vs - 1) <= number vs.
Proof.
  assert (X : forall vs x, Forall (fun v => 0 <= v <= 9) vs -> 0 <= x -> x * 10 ^ zlen vs <= fold_left (fun n v => n * 10 + v) vs x).
  { induction vs as [|v r IH]; intros x F N; cbn [fold_left]; [change (zlen (@nil Z)) with 0; lia|].
    assert (V := Forall_inv F). cbv beta in V. etransitivity; [|apply IH; [exact (Forall_inv_tail F)|lia]].
    unfold zlen. cbn [length]. rewrite Nat2Z.inj_succ, Z.pow_succ_r by lia. assert (0 <= 10 ^ Z.of_nat (length r)) by (apply Z.pow_nonneg; lia). nia. }
  intros [|v r] F H L; [cbn in L; lia|]. cbn [length] in L. assert (V := Forall_inv F). cbv beta in V.
  assert (N : v <> 0) by (apply (H v r); [reflexivity|destruct r; [cbn in L; lia|discriminate]]).
  unfold number. cbn [fold_left]. specialize (X r (0 * 10 + v) (Forall_inv_tail F) ltac:(lia)).
  replace (zlen (v :: r) - 1) with (zlen r) by (unfold zlen; cbn [length]; lia).
  assert (0 <= 10 ^ zlen r) by (apply Z.pow_nonneg; lia). nia.
Qed.

(** The usual way to write a number: no zero in front. *)
Lemma print_unsigned_right : forall n, 0 <= n < 2 ^ 64 -> exists vs, print_unsigned n = map (Z.add 48) vs /\ Forall (fun v => 0 <= v <= 9) vs /\
  vs <> nil /\ number vs = n /\ (forall v r, vs = v :: r -> r <> nil -> v <> 0) /\ zlen vs <= 20 /\ (n <= 2 ^ 63 -> zlen vs <= 19).
Proof.
  intros n N. destruct (print_digits_right (S (Z.to_nat (Z.log2 n))) n nil) as (vs & E & F & NE & V & H & _); [lia|lia|].
  exists vs. unfold print_unsigned. rewrite E, app_nil_r. repeat apply conj; auto.
  - destruct (Z_le_gt_dec (zlen vs) 20) as [L | L]; [exact L|exfalso]. assert (X := number_bound vs F H). rewrite V in X.
    assert (Y : 10 ^ 20 <= 10 ^ (zlen vs - 1)) by (apply Z.pow_le_mono_r; lia). change (2 ^ 64) with 18446744073709551616 in N.
    change (10 ^ 20) with 100000000000000000000 in Y. unfold zlen in *. lia.
  - intros B. destruct (Z_le_gt_dec (zlen vs) 19) as [L | L]; [exact L|exfalso]. assert (X := number_bound vs F H). rewrite V in X.
    assert (Y : 10 ^ 19 <= 10 ^ (zlen vs - 1)) by (apply Z.pow_le_mono_r; lia). change (2 ^ 63) with 9223372036854775808 in B.
    change (10 ^ 19) with 10000000000000000000 in Y. unfold zlen in *. lia.
Qed.
Lemma digits_grouped : forall vs, Forall (fun v => 0 <= v <= 9) vs -> vs <> nil -> grouped ascii_value (map (Z.add 48) vs) vs.
Proof.
  induction vs as [|v r IH]; intros F N; [congruence|]. assert (V := Forall_inv F). cbv beta in V. cbn [map]. destruct r as [|w r].
  - apply last_digit. now apply ascii_value_digit.
  - apply next_digit; [now apply ascii_value_digit|]. apply IH; [exact (Forall_inv_tail F)|discriminate].
Qed.

Lemma create_ascii : forall cs, Forall (fun c => 0 <= c < 128) cs -> exists s, create_from_utf8 cs (zlen cs) = Ok s /\ sdata s = cs /\ holds s.
Proof.
  intros cs F. assert (E : flat_map utf8 cs = cs).
  { induction F as [|c r C F IH]; [reflexivity|]. cbn [flat_map]. rewrite IH. unfold utf8. now rewrite (proj2 (Z.ltb_lt c 128)) by lia. }
  assert (X := create_right cs). rewrite E in X. apply X. revert F. apply Forall_impl. intros c C. unfold points. lia.
Qed.

Lemma digits_ascii : forall vs, Forall (fun v => 0 <= v <= 9) vs -> Forall (fun c => 0 <= c < 128) (map (Z.add 48) vs).
Proof. intros vs F. apply Forall_forall. intros c J. apply in_map_iff in J. destruct J as (v & <- & J). rewrite Forall_forall in F. specialize (F v J). lia. Qed.

Lemma int64_text : forall i, - 2 ^ 63 <= i < 2 ^ 63 -> exists s, int64_to_string i = Ok s /\ usual_text i (sdata s) /\ holds s.
Proof.
  intros i I. change (2 ^ 63) with 9223372036854775808 in I. unfold int64_to_string, print_signed.
  assert (X : exists cs, (if i <? 0 then 45 :: print_unsigned (- i) else print_unsigned i) = cs /\ usual_text i cs /\ zlen cs <= 20 /\
    Forall (fun c => 0 <= c < 128) cs).
  { eexists. split; [reflexivity|]. destruct (Z.ltb_spec i 0) as [N | N].
    - destruct (print_unsigned_right (- i)) as (vs & E & F & NE & V & H & _ & L); [change (2 ^ 64) with 18446744073709551616; lia|].
      change (2 ^ 63) with 9223372036854775808 in L. specialize (L ltac:(lia)). rewrite E. repeat apply conj.
      + exists [45], true, vs. cbn [with_sign]. repeat split; auto; try lia.
      + unfold zlen in *. cbn [length]. rewrite map_length. lia.
      + constructor; [lia|now apply digits_ascii].
    - destruct (print_unsigned_right i) as (vs & E & F & NE & V & H & _ & L); [change (2 ^ 64) with 18446744073709551616; lia|].
      change (2 ^ 63) with 9223372036854775808 in L. specialize (L ltac:(lia)). rewrite E. repeat apply conj.
      + exists nil, false, vs. cbn [with_sign]. repeat split; auto; try discriminate; try lia.
      + unfold zlen in *. rewrite map_length. lia.
      + now apply digits_ascii. }
  destruct X as (cs & -> & U & L & A). unfold sprintf. rewrite (proj2 (Z.leb_le _ _)) by lia. cbn [bind].
  destruct (create_ascii cs A) as (s & E & D & HO). exists s. rewrite D. auto.
Qed.
Lemma uint64_text : forall i, 0 <= i < 2 ^ 64 -> exists s cs, uint64_to_string i = Ok s /\ sdata s = cs ++ [117; 54; 52] /\ usual_text i cs /\ holds s.
Proof.
  intros i I. unfold uint64_to_string. destruct (print_unsigned_right i I) as (vs & E & F & NE & V & H & L & _). rewrite E.
  unfold sprintf. rewrite (proj2 (Z.leb_le _ _)) by (unfold zlen in *; rewrite app_length, map_length; cbn [length]; lia). cbn [bind].
  destruct (create_ascii (map (Z.add 48) vs ++ [117; 54; 52])) as (s & C & D & HO).
  { apply Forall_app. split; [now apply digits_ascii|]. repeat constructor; lia. }
  exists s, (map (Z.add 48) vs). rewrite D. split; [exact C|]. split; [reflexivity|]. split; [|exact HO]. exists nil, false, vs. cbn [with_sign]. repeat split; auto; try discriminate; try lia.
Qed.
Lemma usual_says : forall space n cs, usual_text n cs -> says_int space ascii_value cs n.
Proof.
  intros space n cs (sign & negative & vs & -> & S & F & NE & V & _). exists nil, sign, (map (Z.add 48) vs), nil, negative, vs.
  rewrite app_nil_r. repeat split; auto; [subst sign; destruct negative; constructor|now apply digits_grouped].
Qed.
Lemma usual_points : forall n cs, usual_text n cs -> Forall (fun c => 0 <= c < 1114112) cs.
Proof.
  intros n cs (sign & negative & vs & -> & S & F & _). apply Forall_app. split; [subst sign; destruct negative; repeat constructor; lia|].
  apply digits_ascii in F. revert F. apply Forall_impl. intros c C. lia.
Qed.

(** ** [float(text)] *)

Ltac lengths := repeat match goal with
  | H : context [length (_ ++ _)] |- _ => rewrite app_length in H
  | H : context [length (map _ _)] |- _ => rewrite map_length in H
  | |- context [length (_ ++ _)] => rewrite app_length
  | |- context [length (map _ _)] => rewrite map_length
  end.
Ltac len := unfold zlen in *; lengths; cbn [length] in *; lengths; cbn [length] in *; lia.

Section Float.
Variables (uprops : Z -> Z) (space : Z -> Prop).
Hypotheses (T : spaces_of uprops space) (U : usual_spaces space).

(** One step that is not the last, for a character that is kept, or not. *)
Lemma float_keep : forall c r st st' buf, 43 <= c <= 122 -> float_step false st c = (st', true) -> st' <> Failed -> zlen buf < 48 ->
  float_loop uprops (c :: r) st buf = float_loop uprops r st' (buf ++ [c]).
Proof.
  intros c r st st' buf C E N L. cbn [float_loop]. rewrite lookup by lia. cbn [bind]. rewrite (no_space uprops space T U) by lia.
  rewrite E. rewrite (proj2 (Z.ltb_lt (zlen buf) MAX_FLOAT_STR)) by exact L. cbn [andb]. destruct st'; congruence.
Qed.
Lemma float_under : forall r st st' buf, float_step false st 95 = (st', false) -> st' <> Failed ->
  float_loop uprops (95 :: r) st buf = float_loop uprops r st' buf.
Proof.
  intros r st st' buf E N. cbn [float_loop]. rewrite lookup by lia. cbn [bind]. rewrite (no_space uprops space T U) by lia.
  rewrite E. cbn [andb]. destruct st'; congruence.
Qed.
Lemma float_space : forall c r st st' buf, 0 <= c < 1114112 -> space c -> float_step true st c = (st', false) -> st' <> Failed ->
  float_loop uprops (c :: r) st buf = float_loop uprops r st' buf.
Proof.
  intros c r st st' buf C S E N. cbn [float_loop]. rewrite lookup by lia. cbn [bind]. rewrite (proj2 (T c C) S).
  rewrite E. cbn [andb]. destruct st'; congruence.
Qed.
Lemma float_spaces : forall l r st buf, Forall (fun c => 0 <= c < 1114112) l -> Forall space l -> In st [FLeft; FRight; FIdentifierRight] ->
  float_loop uprops (l ++ r) st buf = float_loop uprops r st buf.
Proof.
  induction l as [|c l IH]; intros r st buf B F S; [reflexivity|]. cbn [app].
  rewrite (float_space c (l ++ r) st st buf (Forall_inv B) (Forall_inv F)).
  - apply IH; [exact (Forall_inv_tail B)|exact (Forall_inv_tail F)|exact S].
  - cbn [In] in S. destruct S as [<- | [<- | [<- | []]]]; reflexivity.
  - cbn [In] in S. destruct S as [<- | [<- | [<- | []]]]; discriminate.
Qed.

(** Digits: [ready] are the states before a digit, [past] those after one. *)
Lemma float_digits : forall (ready past : float_state -> Prop),
  (forall st c, ready st -> is_digit c = true -> exists st', float_step false st c = (st', true) /\ past st') ->
  (forall st, past st -> ready st /\ st <> Failed /\ exists st', float_step false st 95 = (st', false) /\ ready st') ->
  (forall st, ready st -> st <> Failed) ->
  forall b vs, grouped ascii_value b vs -> forall r st buf, ready st -> zlen buf + zlen vs <= 48 ->
  exists st', past st' /\ float_loop uprops (b ++ r) st buf = float_loop uprops r st' (buf ++ map (Z.add 48) vs).
Proof.
  intros ready past H1 H2 H3 b vs G. induction G as [c v D|c v b vs D G IH|c v b vs D G IH]; intros r st buf R L; cbn [app map].
  - apply ascii_value_some in D. destruct D as (V & ->). destruct (H1 st (48 + v) R) as (st' & E & P); [unfold is_digit; lia|].
    exists st'. split; [exact P|]. apply float_keep; [lia|exact E|now apply H2|unfold zlen in *; cbn [length] in L; lia].
  - apply ascii_value_some in D. destruct D as (V & ->). destruct (H1 st (48 + v) R) as (st' & E & P); [unfold is_digit; lia|].
    assert (L' : zlen buf + (1 + zlen vs) <= 48) by (unfold zlen in *; cbn [length] in L; lia). assert (Q : 0 <= zlen vs) by (unfold zlen; lia).
    rewrite (float_keep (48 + v) (b ++ r) st st' buf) by (try lia; try exact E; now apply H2).
    destruct (IH r st' (buf ++ [48 + v])) as (st2 & P2 & ->).
    + now apply H2.
    + unfold zlen in *. rewrite app_length. cbn [length]. lia.
    + exists st2. split; [exact P2|]. now rewrite <- app_assoc.
  - apply ascii_value_some in D. destruct D as (V & ->). destruct (H1 st (48 + v) R) as (st' & E & P); [unfold is_digit; lia|].
    assert (L' : zlen buf + (1 + zlen vs) <= 48) by (unfold zlen in *; cbn [length] in L; lia). assert (Q : 0 <= zlen vs) by (unfold zlen; lia).
    rewrite (float_keep (48 + v) (95 :: b ++ r) st st' buf) by (try lia; try exact E; now apply H2).
    destruct (H2 st' P) as (_ & _ & st1 & E1 & R1). rewrite (float_under (b ++ r) st' st1) by (auto; exact E1).
    destruct (IH r st1 (buf ++ [48 + v]) R1) as (st2 & P2 & ->).
    + unfold zlen in *. rewrite app_length. cbn [length]. lia.
    + exists st2. split; [exact P2|]. now rewrite <- app_assoc.
Qed.

(** The three places of digits. *)
Lemma float_whole : forall b vs, grouped ascii_value b vs -> forall r st buf, In st [FLeft; FSign] -> zlen buf + zlen vs <= 48 ->
  float_loop uprops (b ++ r) st buf = float_loop uprops r FWhole (buf ++ map (Z.add 48) vs).
Proof.
  intros b vs G r st buf S L.
  destruct (float_digits (fun st => In st [FLeft; FSign; FWhole; FUnder]) (fun st => st = FWhole)) with (b := b) (vs := vs) (r := r) (st := st) (buf := buf) as (st' & -> & E); auto.
  - intros s c R D. exists FWhole. split; [|reflexivity]. unfold float_step. rewrite D. replace ((c =? 43) || (c =? 45)) with false by (unfold is_digit in D; lia).
    cbn [In] in R. destruct R as [<- | [<- | [<- | [<- | []]]]]; reflexivity.
  - intros s ->. cbn [In]. repeat split; auto; [discriminate|]. exists FUnder. split; [reflexivity|auto].
  - intros s R. cbn [In] in R. destruct R as [<- | [<- | [<- | [<- | []]]]]; discriminate.
  - cbn [In] in *. tauto.
Qed.
Lemma float_fraction : forall b vs, grouped ascii_value b vs -> forall r buf, zlen buf + zlen vs <= 48 ->
  exists st', In st' [FMantissa; FWhole] /\ float_loop uprops (b ++ r) FDecimal buf = float_loop uprops r st' (buf ++ map (Z.add 48) vs).
Proof.
  intros b vs G r buf L.
  apply (float_digits (fun st => In st [FDecimal; FMantissa; FUnderMantissa; FWhole; FUnder]) (fun st => In st [FMantissa; FWhole])); auto.
  - intros s c R D. unfold float_step. rewrite D. replace ((c =? 43) || (c =? 45)) with false by (unfold is_digit in D; lia).
    cbn [In] in R. destruct R as [<- | [<- | [<- | [<- | [<- | []]]]]]; eexists; (split; [reflexivity|cbn [In]; tauto]).
  - intros s R. cbn [In] in R. destruct R as [<- | [<- | []]]; cbn [In]; (split; [tauto|split; [discriminate|]]); eexists; (split; [reflexivity|cbn [In]; tauto]).
  - intros s R. cbn [In] in R. destruct R as [<- | [<- | [<- | [<- | [<- | []]]]]]; discriminate.
  - cbn [In]. tauto.
Qed.
Lemma float_exponent : forall b vs, grouped ascii_value b vs -> forall r st buf, In st [FExp; FExpSign] -> zlen buf + zlen vs <= 48 ->
  exists st', In st' [FExponent; FWhole] /\ float_loop uprops (b ++ r) st buf = float_loop uprops r st' (buf ++ map (Z.add 48) vs).
Proof.
  intros b vs G r st buf S L.
  apply (float_digits (fun st => In st [FExp; FExpSign; FExponent; FUnderExponent; FWhole; FUnder]) (fun st => In st [FExponent; FWhole])); auto.
  - intros s c R D. unfold float_step. rewrite D. replace ((c =? 43) || (c =? 45)) with false by (unfold is_digit in D; lia).
    cbn [In] in R. destruct R as [<- | [<- | [<- | [<- | [<- | [<- | []]]]]]]; eexists; (split; [reflexivity|cbn [In]; tauto]).
  - intros s R. cbn [In] in R. destruct R as [<- | [<- | []]]; cbn [In]; (split; [tauto|split; [discriminate|]]); eexists; (split; [reflexivity|cbn [In]; tauto]).
  - intros s R. cbn [In] in R. destruct R as [<- | [<- | [<- | [<- | [<- | [<- | []]]]]]]; discriminate.
  - cbn [In] in *. tauto.
Qed.

(** The texts without spaces and underscores. *)
Definition keep (c : Z) : bool := negb (has (uprops c) SPACE) && negb (c =? 95).
Lemma keep_char : forall c, 43 <= c <= 122 -> c <> 95 -> keep c = true.
Proof. intros c C N. unfold keep. rewrite (no_space uprops space T U) by lia. cbn [negb andb]. lia. Qed.
Lemma keep_spaces : forall l, Forall (fun c => 0 <= c < 1114112) l -> Forall space l -> filter keep l = nil.
Proof.
  induction l as [|c l IH]; intros B F; [reflexivity|]. cbn [filter]. unfold keep at 1. rewrite (proj2 (T c (Forall_inv B)) (Forall_inv F)). cbn [negb andb].
  apply IH; [exact (Forall_inv_tail B)|exact (Forall_inv_tail F)].
Qed.
Lemma keep_digits : forall b vs, grouped ascii_value b vs -> filter keep b = map (Z.add 48) vs.
Proof.
  induction 1 as [c v D|c v b vs D G IH|c v b vs D G IH]; apply ascii_value_some in D; destruct D as (V & ->); cbn [filter map];
    rewrite keep_char by lia; [reflexivity|now rewrite IH|]. replace (keep 95) with false; [now rewrite IH|]. unfold keep. now rewrite andb_false_r.
Qed.
Lemma keep_sign : forall s n, signed s n -> filter keep s = s.
Proof. destruct 1; cbn [filter]; [reflexivity|..]; now rewrite keep_char by lia. Qed.

Lemma float_sign : forall s n r, signed s n -> exists st, In st [FLeft; FSign] /\ float_loop uprops (s ++ r) FLeft nil = float_loop uprops r st s.
Proof.
  intros s n r S. destruct S; cbn [app].
  - exists FLeft. cbn [In]. auto.
  - exists FSign. split; [cbn [In]; auto|]. apply (float_keep 43 r FLeft FSign nil); [lia|reflexivity|discriminate|reflexivity].
  - exists FSign. split; [cbn [In]; auto|]. apply (float_keep 45 r FLeft FSign nil); [lia|reflexivity|discriminate|reflexivity].
Qed.

Lemma zlen_nonneg : forall A (l : list A), 0 <= zlen l.
Proof. intros A l. unfold zlen. lia. Qed.
Lemma float_mantissa : forall m vs us, mantissa ascii_value m vs us -> forall r st buf, In st [FLeft; FSign] -> zlen buf + zlen (filter keep m) <= 48 ->
  exists st', In st' [FWhole; FDecimal; FMantissa] /\ float_loop uprops (m ++ r) st buf = float_loop uprops r st' (buf ++ filter keep m).
Proof.
  assert (K46 : keep 46 = true) by (apply keep_char; lia).
  intros m vs us M r st buf SS L. destruct M as [w vs G|w vs G|w vs f us G G'|f us G'].
  - rewrite (keep_digits w vs G) in *. exists FWhole. split; [cbn [In]; auto|]. apply float_whole; auto. len.
  - rewrite filter_app, (keep_digits w vs G) in *. cbn [filter] in *. rewrite K46 in *. rewrite <- app_assoc.
    rewrite (float_whole w vs G) by (auto; len). cbn [app].
    exists FDecimal. split; [cbn [In]; auto|]. rewrite (float_keep 46 r FWhole FDecimal) by (try lia; try reflexivity; try discriminate; len). now rewrite <- app_assoc.
  - rewrite filter_app in *. cbn [filter] in *. rewrite K46 in *. rewrite (keep_digits w vs G), (keep_digits f us G') in *. rewrite <- app_assoc.
    rewrite (float_whole w vs G) by (auto; len). cbn [app].
    rewrite (float_keep 46 (f ++ r) FWhole FDecimal) by (try lia; try reflexivity; try discriminate; len).
    destruct (float_fraction f us G' r ((buf ++ map (Z.add 48) vs) ++ [46])) as (st' & SS' & ->); [len|].
    exists st'. split; [cbn [In] in *; tauto|]. now rewrite <- !app_assoc.
  - cbn [filter] in *. rewrite K46 in *. rewrite (keep_digits f us G') in *. cbn [app].
    rewrite (float_keep 46 (f ++ r) st FDecimal).
    + destruct (float_fraction f us G' r (buf ++ [46])) as (st' & SS' & ->); [len|]. exists st'. split; [cbn [In] in *; tauto|]. now rewrite <- !app_assoc.
    + lia.
    + cbn [In] in SS. destruct SS as [<- | [<- | []]]; reflexivity.
    + discriminate.
    + len.
Qed.
Lemma float_power : forall x e, power ascii_value x e -> forall r st buf, In st [FWhole; FDecimal; FMantissa] -> zlen buf + zlen (filter keep x) <= 48 ->
  exists st', In st' [FWhole; FDecimal; FMantissa; FExponent] /\ float_loop uprops (x ++ r) st buf = float_loop uprops r st' (buf ++ filter keep x).
Proof.
  intros x e P r st buf SS L. destruct P as [|ec sign n x vs E SI G].
  - exists st. cbn [filter app]. rewrite app_nil_r. split; [cbn [In] in *; tauto|reflexivity].
  - assert (KE : keep ec = true) by (apply keep_char; lia).
    cbn [filter] in *. rewrite KE in *. rewrite filter_app, (keep_sign sign n SI), (keep_digits x vs G) in *. cbn [app]. rewrite <- app_assoc.
    rewrite (float_keep ec (sign ++ x ++ r) st FExp).
    + assert (X : exists st1, In st1 [FExp; FExpSign] /\ float_loop uprops (sign ++ x ++ r) FExp (buf ++ [ec]) = float_loop uprops (x ++ r) st1 ((buf ++ [ec]) ++ sign)).
      { destruct SI; cbn [app].
        - exists FExp. rewrite app_nil_r. split; [cbn [In]; auto|reflexivity].
        - exists FExpSign. split; [cbn [In]; auto|]. apply float_keep; [lia|reflexivity|discriminate|len].
        - exists FExpSign. split; [cbn [In]; auto|]. apply float_keep; [lia|reflexivity|discriminate|len]. }
      destruct X as (st1 & S1 & ->).
      destruct (float_exponent x vs G r st1 ((buf ++ [ec]) ++ sign) S1) as (st' & SS' & ->); [len|].
      exists st'. split; [cbn [In] in *; tauto|]. now rewrite <- !app_assoc.
    + lia.
    + cbn [In] in SS. destruct E as [-> | ->]; destruct SS as [<- | [<- | [<- | []]]]; reflexivity.
    + discriminate.
    + len.
Qed.
Lemma float_after : forall l st buf, Forall (fun c => 0 <= c < 1114112) l -> Forall space l ->
  (In st [FWhole; FDecimal; FMantissa; FExponent] -> exists st', In st' [FWhole; FDecimal; FMantissa; FExponent; FRight] /\ float_loop uprops l st buf = Ok (st', buf)) /\
  (st = FIdentifier -> exists st', In st' [FIdentifier; FIdentifierRight] /\ float_loop uprops l st buf = Ok (st', buf)).
Proof.
  intros l st buf B F. split; intros SS.
  - destruct l as [|c r]; [exists st; cbn [float_loop]; split; [cbn [In] in *; tauto|reflexivity]|].
    exists FRight. split; [cbn [In]; tauto|]. rewrite (float_space c r st FRight buf (Forall_inv B) (Forall_inv F)).
    + rewrite <- (app_nil_r r). rewrite float_spaces; [reflexivity|exact (Forall_inv_tail B)|exact (Forall_inv_tail F)|cbn [In]; tauto].
    + cbn [In] in SS. destruct SS as [<- | [<- | [<- | [<- | []]]]]; reflexivity.
    + discriminate.
  - subst st. destruct l as [|c r]; [exists FIdentifier; cbn [float_loop In]; auto|].
    exists FIdentifierRight. split; [cbn [In]; tauto|]. rewrite (float_space c r FIdentifier FIdentifierRight buf (Forall_inv B) (Forall_inv F)); [|reflexivity|discriminate].
    rewrite <- (app_nil_r r). rewrite float_spaces; [reflexivity|exact (Forall_inv_tail B)|exact (Forall_inv_tail F)|cbn [In]; tauto].
Qed.
End Float.

(** *** [strtod] *)

Lemma c_string_same : forall cs, Forall (fun c => c <> 0) cs -> c_string cs = cs.
Proof. induction 1 as [|c r C F IH]; [reflexivity|]. cbn [c_string]. destruct (Z.eqb_spec c 0); [congruence|now rewrite IH]. Qed.
Lemma digits_of_map : forall vs r, Forall (fun v => 0 <= v <= 9) vs -> (forall c q, r = c :: q -> is_digit c = false) ->
  digits_of (map (Z.add 48) vs ++ r) = (map (Z.add 48) vs, r).
Proof.
  induction vs as [|v vs IH]; intros r F N; cbn [map app digits_of].
  - destruct r as [|c q]; [reflexivity|]. cbn [digits_of]. now rewrite (N c q eq_refl).
  - assert (V := Forall_inv F). cbv beta in V. replace (is_digit (48 + v)) with true by (unfold is_digit; lia).
    now rewrite (IH r (Forall_inv_tail F) N).
Qed.
Lemma value_of_map : forall vs, value_of (map (Z.add 48) vs) = number vs.
Proof.
  intros vs. unfold value_of, number. generalize 0. induction vs as [|v vs IH]; intros x; cbn [map fold_left]; [reflexivity|].
  rewrite IH. do 2 f_equal. lia.
Qed.
Lemma grouped_range : forall b vs, grouped ascii_value b vs -> Forall (fun v => 0 <= v <= 9) vs.
Proof.
  induction 1 as [c v D|c v b vs D G IH|c v b vs D G IH]; apply ascii_value_some in D; constructor; try tauto; constructor.
Qed.

(** The text of a power, without underscores. *)
Inductive power_text : list Z -> Z -> Prop :=
| no_power_text : power_text nil 0
| a_power_text : forall e s n vs, e = 101 \/ e = 69 -> signed s n -> Forall (fun v => 0 <= v <= 9) vs -> vs <> nil ->
    power_text (e :: s ++ map (Z.add 48) vs) (with_sign n (number vs)).
Lemma power_text_head : forall x e, power_text x e -> forall c q, x = c :: q -> is_digit c = false /\ c <> 46.
Proof. destruct 1 as [|ec s n vs E S F N]; intros c q X; [discriminate|]. injection X as -> _. unfold is_digit. lia. Qed.
Lemma exponent_of_text : forall x e, power_text x e -> exponent_of x = e.
Proof.
  destruct 1 as [|ec s n vs E S F N]; [reflexivity|]. cbn [exponent_of]. replace ((ec =? 101) || (ec =? 69)) with true by lia.
  assert (X : sign_of (s ++ map (Z.add 48) vs) = (n, map (Z.add 48) vs)).
  { destruct S; cbn [app]; [|reflexivity|reflexivity]. destruct vs as [|v vs]; [congruence|]. cbn [map sign_of]. assert (V := Forall_inv F). cbv beta in V.
    replace (48 + v =? 43) with false by lia. replace (48 + v =? 45) with false by lia. reflexivity. }
  rewrite X. rewrite <- (app_nil_r (map (Z.add 48) vs)). rewrite digits_of_map by (auto; discriminate). rewrite value_of_map. reflexivity.
Qed.

Lemma strtod_finite : forall s n vs us point x e, signed s n -> Forall (fun v => 0 <= v <= 9) vs -> Forall (fun v => 0 <= v <= 9) us ->
  power_text x e -> (point = false -> us = nil) -> vs ++ us <> nil ->
  strtod (s ++ map (Z.add 48) vs ++ (if point : bool then 46 :: map (Z.add 48) us else nil) ++ x) = Finite n (map (Z.add 48) (vs ++ us)) (e - zlen us).
Proof.
  intros s n vs us point x e S FV FU P PT N.
  set (body := map (Z.add 48) vs ++ (if point then 46 :: map (Z.add 48) us else nil) ++ x).
  assert (H : exists c q, body = c :: q /\ (48 <= c <= 57 \/ c = 46)).
  { unfold body. destruct vs as [|v vs]; cbn [map app].
    - destruct point; [eexists _, _; split; [reflexivity|auto]|]. rewrite (PT eq_refl) in N. cbn in N. congruence.
    - assert (V := Forall_inv FV). cbv beta in V. eexists _, _. split; [reflexivity|lia]. }
  destruct H as (c & q & HB & HC).
  assert (NZ : Forall (fun c => c <> 0) (s ++ body)).
  { assert (D : forall l, Forall (fun v => 0 <= v <= 9) l -> Forall (fun c => c <> 0) (map (Z.add 48) l)).
    { intros l F. apply Forall_forall. intros d J. apply in_map_iff in J. destruct J as (v & <- & J). rewrite Forall_forall in F. specialize (F v J). lia. }
    assert (SG : forall l m, signed l m -> Forall (fun c => c <> 0) l) by (intros l m X; destruct X; repeat constructor; lia).
    unfold body. rewrite !Forall_app. split; [eauto|]. split; [now apply D|]. split.
    - destruct point; [constructor; [lia|now apply D]|constructor].
    - destruct P as [|ec s' n' xs E S' F' N']; [constructor|]. constructor; [lia|]. apply Forall_app. split; [eauto|now apply D]. }
  unfold strtod. rewrite (c_string_same _ NZ).
  assert (SG : sign_of (skip_spaces (s ++ body)) = (n, body)).
  { rewrite HB. destruct S; cbn [app skip_spaces].
    - replace ((c =? 32) || ((9 <=? c) && (c <=? 13))) with false by lia. cbn [sign_of]. replace (c =? 43) with false by lia. replace (c =? 45) with false by lia. reflexivity.
    - reflexivity.
    - reflexivity. }
  rewrite SG.
  assert (ST : starts inf body = false /\ starts nan body = false).
  { rewrite HB. cbn [inf nan starts]. unfold c_tolower. replace ((65 <=? c) && (c <=? 90)) with false by lia. split; lia. }
  destruct ST as (-> & ->). unfold body.
  rewrite digits_of_map; [|exact FV|].
  - assert (R : (match (if point then 46 :: map (Z.add 48) us else nil) ++ x with c :: r => if c =? 46 then digits_of r else (nil, c :: r) | nil => (nil, nil) end) =
      (map (Z.add 48) us, x)).
    { destruct point; cbn [app].
      - rewrite Z.eqb_refl. apply digits_of_map; [exact FU|]. intros c' q' X. now apply (power_text_head x e P c' q').
      - rewrite (PT eq_refl). destruct x as [|c' q']; [reflexivity|]. destruct (power_text_head _ _ P c' q' eq_refl) as (_ & X).
        destruct (Z.eqb_spec c' 46); [congruence|reflexivity]. }
    replace (match (if point then 46 :: map (Z.add 48) us else nil) ++ x with c :: r => if c =? 46 then digits_of r else (nil, (if point then 46 :: map (Z.add 48) us else nil) ++ x)
      | nil => (nil, (if point then 46 :: map (Z.add 48) us else nil) ++ x) end) with (map (Z.add 48) us, x)
      by (rewrite <- R; destruct ((if point then 46 :: map (Z.add 48) us else nil) ++ x); reflexivity).
    rewrite <- map_app. rewrite (exponent_of_text x e P).
    replace (zlen (map (Z.add 48) us)) with (zlen us) by (unfold zlen; now rewrite map_length).
    destruct (vs ++ us) as [|v w]; [congruence|reflexivity].
  - intros c' q' X. destruct point; [injection X as <- _; reflexivity|]. cbn [app] in X. now apply (power_text_head x e P c' q').
Qed.

(** *** Numbers are read *)

Section Reads.
Variables (uprops : Z -> Z) (space : Z -> Prop).
Hypotheses (T : spaces_of uprops space) (U : usual_spaces space).

Lemma mantissa_text : forall m vs us, mantissa ascii_value m vs us -> exists point : bool,
  filter (keep uprops) m = map (Z.add 48) vs ++ (if point then 46 :: map (Z.add 48) us else nil) /\ (point = false -> us = nil) /\
  Forall (fun v => 0 <= v <= 9) vs /\ Forall (fun v => 0 <= v <= 9) us /\ vs ++ us <> nil.
Proof.
  assert (K46 : keep uprops 46 = true) by (apply (keep_char uprops space T U); lia).
  intros m vs us M. destruct M as [w vs G|w vs G|w vs f us G G'|f us G'].
  - exists false. rewrite (keep_digits uprops space T U w vs G), !app_nil_r. repeat split; auto; [now apply (grouped_range w)|now apply (grouped_nonempty ascii_value w)].
  - exists true. rewrite filter_app, (keep_digits uprops space T U w vs G). cbn [filter]. rewrite K46. cbn [map]. rewrite app_nil_r.
    repeat split; auto; [now apply (grouped_range w)|now apply (grouped_nonempty ascii_value w)].
  - exists true. rewrite filter_app, (keep_digits uprops space T U w vs G). cbn [filter]. rewrite K46, (keep_digits uprops space T U f us G').
    repeat split; try discriminate; [now apply (grouped_range w)|now apply (grouped_range f)|]. intros X. apply app_eq_nil in X. destruct X as (X & _).
    now apply (grouped_nonempty ascii_value w vs) in G.
  - exists true. cbn [filter map app]. rewrite K46, (keep_digits uprops space T U f us G').
    repeat split; try discriminate; [constructor|now apply (grouped_range f)|now apply (grouped_nonempty ascii_value f)].
Qed.
Lemma power_keep : forall x e, power ascii_value x e -> power_text (filter (keep uprops) x) e.
Proof.
  intros x e P. destruct P as [|ec sign n x vs E SI G]; [constructor|]. cbn [filter]. rewrite (keep_char uprops space T U) by lia.
  rewrite filter_app, (keep_sign uprops space T U sign n SI), (keep_digits uprops space T U x vs G).
  constructor; auto; [now apply (grouped_range x)|now apply (grouped_nonempty ascii_value x)].
Qed.

(** The letters of the words. *)
Definition letter (c : Z) : bool := existsb (Z.eqb (c_tolower c)) [105; 110; 102; 116; 121; 97].
Lemma letter_range : forall c, letter c = true -> 65 <= c <= 122 /\ c <> 95 /\ is_digit c = false /\ c <> 101 /\ c <> 69 /\ (c <= 90 \/ 97 <= c).
Proof.
  intros c L. unfold letter, c_tolower in L. unfold is_digit. cbn [existsb] in L. destruct ((65 <=? c) && (c <=? 90)) eqn:E; lia.
Qed.
Lemma spelled_letters : forall word cs, In word [inf; infinity; nan] -> spelled word cs -> Forall (fun c => letter c = true) cs /\ cs <> nil /\ zlen cs <= 8.
Proof.
  intros word cs W E. unfold spelled in E. split; [|split].
  - apply Forall_forall. intros c J. unfold letter. assert (K : In (c_tolower c) word) by (rewrite <- E; now apply in_map).
    apply existsb_exists. exists (c_tolower c). split; [|apply Z.eqb_refl]. cbn [In] in W. destruct W as [<- | [<- | [<- | []]]]; cbn [inf infinity nan In] in *; intuition.
  - intros ->. cbn [In] in W. destruct W as [<- | [<- | [<- | []]]]; discriminate.
  - assert (K : zlen cs = zlen word) by (rewrite <- E; unfold zlen; now rewrite map_length). rewrite K.
    cbn [In] in W. destruct W as [<- | [<- | [<- | []]]]; cbv; discriminate.
Qed.
Lemma float_letters : forall cs r st buf, Forall (fun c => letter c = true) cs -> In st [FLeft; FSign; FIdentifier] -> cs <> nil -> zlen buf + zlen cs <= 48 ->
  float_loop uprops (cs ++ r) st buf = float_loop uprops r FIdentifier (buf ++ cs).
Proof.
  induction cs as [|c cs IH]; intros r st buf F SS N L; [congruence|]. cbn [app].
  assert (R := letter_range c (Forall_inv F)).
  rewrite (float_keep uprops space T U c (cs ++ r) st FIdentifier).
  - destruct cs as [|d cs]; [reflexivity|]. rewrite (IH r FIdentifier (buf ++ [c]) (Forall_inv_tail F)); [now rewrite <- app_assoc|cbn [In]; tauto|discriminate|len].
  - lia.
  - unfold float_step. destruct R as (R1 & R2 & -> & R4 & R5 & R6). replace ((c =? 43) || (c =? 45)) with false by lia. replace (c =? 46) with false by lia.
    replace ((c =? 101) || (c =? 69)) with false by lia. replace (c =? 95) with false by lia. replace (c <? 128) with true by lia.
    cbn [In] in SS. destruct SS as [<- | [<- | [<- | []]]]; reflexivity.
  - discriminate.
  - len.
Qed.
Lemma identify_word : forall s n word cs, signed s n -> In word [inf; infinity; nan] -> spelled word cs -> identify (s ++ cs) = Some (s ++ word).
Proof.
  intros s n word cs SS W E. destruct (spelled_letters word cs W E) as (F & N & L).
  assert (NZ : c_string cs = cs).
  { apply c_string_same. revert F. apply Forall_impl. intros c C. apply letter_range in C. lia. }
  assert (X : identify (s ++ cs) = let start := map c_tolower (c_string cs) in
    if negb (same start inf) && negb (same start infinity) && negb (same start nan) then None else Some (s ++ start)).
  { unfold identify. destruct SS; cbn [app]; [|reflexivity|reflexivity]. destruct cs as [|c cs]; [congruence|].
    assert (R := letter_range c (Forall_inv F)). replace ((c =? 43) || (c =? 45)) with false by lia. reflexivity. }
  rewrite X, NZ. unfold spelled in E. rewrite E. cbn [In] in W. destruct W as [<- | [<- | [<- | []]]]; reflexivity.
Qed.

Theorem float_reads : forall cs l, Forall (fun c => 0 <= c < 1114112) cs -> says_float space ascii_value cs l -> zlen (filter (keep uprops) cs) <= 48 ->
  to_float64 uprops cs = Ok (Some l).
Proof.
  intros cs l B H L. unfold to_float64.
  assert (WORD : forall before sign word after n w, Forall (fun c => 0 <= c < 1114112) (before ++ sign ++ word ++ after) ->
    Forall space before -> Forall space after -> signed sign n -> In w [inf; infinity; nan] -> spelled w word ->
    (' (state, buf) <- float_loop uprops (before ++ sign ++ word ++ after) FLeft nil ;;
     match state with
     | FIdentifier | FIdentifierRight => match identify buf with Some buf => Ok (Some (strtod buf)) | None => Ok None end
     | FWhole | FDecimal | FMantissa | FExponent | FRight => Ok (Some (strtod buf))
     | _ => Ok None
     end)%result = Ok (Some (strtod (sign ++ w)))).
  { clear B H L cs l. intros before sign word after n w B FB FA SI W E. rewrite !Forall_app in B. destruct B as (BB & BS & BW & BA).
    rewrite (float_spaces uprops space T) by (auto; cbn [In]; tauto).
    destruct (float_sign uprops space T U sign n (word ++ after) SI) as (st & SS & ->).
    destruct (spelled_letters w word W E) as (F & N & L).
    rewrite float_letters; [|exact F|cbn [In] in *; tauto|exact N|destruct SI; len].
    destruct (float_after uprops space T after FIdentifier (sign ++ word) BA FA) as (_ & X). destruct (X eq_refl) as (st' & S' & ->).
    cbn [bind]. rewrite (identify_word sign n w word SI W E). cbn [In] in S'. destruct S' as [<- | [<- | []]]; reflexivity. }
  destruct H as [before sign m x after n vs us e FB FA SI M P|before sign word after n FB FA SI W|before sign word after n FB FA SI W].
  - rewrite !Forall_app in B. destruct B as (BB & BS & BM & BX & BA).
    rewrite !filter_app, (keep_spaces uprops space T before BB FB), (keep_spaces uprops space T after BA FA), (keep_sign uprops space T U sign n SI), app_nil_r in L. cbn [app] in L.
    rewrite (float_spaces uprops space T) by (auto; cbn [In]; tauto).
    destruct (float_sign uprops space T U sign n (m ++ x ++ after) SI) as (st & SS & ->).
    destruct (float_mantissa uprops space T U m vs us M (x ++ after) st sign SS) as (st1 & S1 & ->); [len|].
    destruct (float_power uprops space T U x e P after st1 (sign ++ filter (keep uprops) m) S1) as (st2 & S2 & ->); [len|].
    destruct (float_after uprops space T after st2 ((sign ++ filter (keep uprops) m) ++ filter (keep uprops) x) BA FA) as (Y & _).
    destruct (Y S2) as (st3 & S3 & ->). cbn [bind].
    destruct (mantissa_text m vs us M) as (point & -> & PT & RV & RU & N).
    assert (Z1 := strtod_finite sign n vs us point _ e SI RV RU (power_keep x e P) PT N). rewrite <- !app_assoc in *. rewrite Z1.
    cbn [In] in S3. destruct S3 as [<- | [<- | [<- | [<- | [<- | []]]]]]; reflexivity.
  - destruct W as [W | W].
    + rewrite (WORD before sign word after n inf) by (auto; cbn [In]; tauto). destruct SI; reflexivity.
    + rewrite (WORD before sign word after n infinity) by (auto; cbn [In]; tauto). destruct SI; reflexivity.
  - rewrite (WORD before sign word after n nan) by (auto; cbn [In]; tauto). destruct SI; reflexivity.
Qed.
End Reads.

(** ** Only numbers are read, from tidy texts *)

Section Sound.
Variables (uprops : Z -> Z) (space : Z -> Prop).
Hypotheses (T : spaces_of uprops space) (U : usual_spaces space).

(** The parts of a number that a state has behind it. *)
Definition digits q := exists vs, grouped ascii_value q vs.
Definition pointed q := q = [46] \/ exists w, digits w /\ q = w ++ [46].
Definition fractional q := exists m f, pointed m /\ digits f /\ q = m ++ f.
Definition marked q := exists m e, (digits m \/ pointed m \/ fractional m) /\ (e = 101 \/ e = 69) /\ q = m ++ [e].
Definition prepared q := exists m sg n, marked m /\ signed sg n /\ q = m ++ sg.
Definition powered q := exists m x, prepared m /\ digits x /\ q = m ++ x.
Definition under (P : list Z -> Prop) q := exists q0, P q0 /\ q = q0 ++ [95].
Definition whole q := digits q \/ fractional q \/ powered q.
Definition done q := digits q \/ pointed q \/ fractional q \/ powered q.
Definition wordy c := has (uprops c) SPACE = false /\ c <> 95 /\ c <> 43 /\ c <> 45 /\ c <> 0.
Definition word q := Forall wordy q.
Definition spaced (P : list Z -> Prop) q := exists q0 after, P q0 /\ Forall space after /\ q = q0 ++ after.

Definition core (st : float_state) (q : list Z) : Prop :=
  match st with
  | FSign => q = nil
  | FWhole => whole q
  | FUnder => under whole q
  | FDecimal => pointed q
  | FMantissa => fractional q
  | FUnderMantissa => under fractional q
  | FExp => marked q
  | FExpSign => prepared q
  | FExponent => powered q
  | FUnderExponent => under powered q
  | FRight => spaced done q
  | FIdentifier => word q
  | FIdentifierRight => spaced word q
  | _ => False
  end.
Definition reading (st : float_state) (p : list Z) : Prop :=
  match st with
  | FLeft => Forall space p
  | _ => exists before sign n q, Forall space before /\ signed sign n /\ p = before ++ sign ++ q /\ core st q
  end.

Lemma digit_value : forall c, is_digit c = true -> ascii_value c = Some (c - 48).
Proof. intros c H. unfold is_digit in H. unfold ascii_value. now replace ((48 <=? c) && (c <=? 57)) with true by lia. Qed.
Lemma digits_one : forall c, is_digit c = true -> digits [c].
Proof. intros c H. exists [c - 48]. constructor. now apply digit_value. Qed.
Lemma digits_more : forall q c, digits q -> is_digit c = true -> digits (q ++ [c]) /\ digits ((q ++ [95]) ++ [c]).
Proof.
  intros q c (vs & G) H. destruct (grouped_snoc _ q vs G c (c - 48) (digit_value c H)) as (A & B). rewrite <- app_assoc. split; eexists; eauto.
Qed.
Lemma fractional_more : forall q c, fractional q -> is_digit c = true -> fractional (q ++ [c]) /\ fractional ((q ++ [95]) ++ [c]).
Proof.
  intros q c (m & f & P & F & ->) H. destruct (digits_more f c F H) as (A & B). rewrite <- !app_assoc in *. cbn [app] in *.
  split; [exists m, (f ++ [c])|exists m, (f ++ [95; c])]; auto.
Qed.
Lemma powered_more : forall q c, powered q -> is_digit c = true -> powered (q ++ [c]) /\ powered ((q ++ [95]) ++ [c]).
Proof.
  intros q c (m & f & P & F & ->) H. destruct (digits_more f c F H) as (A & B). rewrite <- !app_assoc in *. cbn [app] in *.
  split; [exists m, (f ++ [c])|exists m, (f ++ [95; c])]; auto.
Qed.
Lemma whole_more : forall q c, whole q -> is_digit c = true -> whole (q ++ [c]) /\ whole ((q ++ [95]) ++ [c]).
Proof.
  intros q c [W | [W | W]] H; unfold whole.
  - destruct (digits_more q c W H). auto.
  - destruct (fractional_more q c W H). auto.
  - destruct (powered_more q c W H). auto.
Qed.

Lemma pointed_in : forall q, pointed q -> In 46 q.
Proof. intros q [-> | (w & _ & ->)]; [now left|apply in_or_app; right; now left]. Qed.
Lemma fractional_in : forall q, fractional q -> In 46 q.
Proof. intros q (m & f & P & _ & ->). apply in_or_app. left. now apply pointed_in. Qed.
Lemma powered_in : forall q, powered q -> In 101 q \/ In 69 q.
Proof.
  intros q (m & x & (m' & sg & n & (m0 & e & _ & E & ->) & _ & ->) & _ & ->).
  destruct E as [-> | ->]; [left|right]; rewrite !in_app_iff; cbn [In]; tauto.
Qed.

Lemma core_step : forall st q c st' acc, core st q -> has (uprops c) SPACE = false \/ 0 <= c < 1114112 -> follows q c ->
  float_step (has (uprops c) SPACE) st c = (st', acc) -> st' <> Failed -> core st' (q ++ [c]).
Proof.
  intros st q c st' acc H B (F1 & F2 & F3) E N. unfold float_step in E. destruct (has (uprops c) SPACE) eqn:SP.
  - assert (S1 : space c) by (apply T; [intuition discriminate|exact SP]).
    assert (D : forall P : list Z -> Prop, P q -> spaced P (q ++ [c])) by (intros P HP; exists q, [c]; auto).
    assert (D' : forall P : list Z -> Prop, spaced P q -> spaced P (q ++ [c])).
    { intros P (q0 & a & HP & FA & ->). exists q0, (a ++ [c]). rewrite <- app_assoc. repeat split; auto. apply Forall_app. auto. }
    unfold whole, done in *.
    destruct st; cbn [core] in H; try contradiction; injection E as <- <-; try congruence; cbn [core]; auto; apply D; unfold done, whole in *; tauto.
  - destruct ((c =? 43) || (c =? 45)) eqn:E1.
    { destruct st; cbn [core] in H; try contradiction; injection E as <- <-; try congruence. cbn [core].
      exists q, [c], (c =? 45). repeat split; auto. destruct (c =? 45) eqn:E2; [replace c with 45 by lia|replace c with 43 by lia]; constructor. }
    destruct (is_digit c) eqn:E2.
    { destruct st; cbn [core] in H; try contradiction; injection E as <- <-; try congruence; cbn [core].
      - subst q. left. now apply digits_one.
      - now apply whole_more.
      - destruct H as (q0 & W & ->). now apply whole_more.
      - exists q, [c]. repeat split; auto. now apply digits_one.
      - right. left. now apply fractional_more.
      - destruct H as (q0 & W & ->). now apply fractional_more.
      - exists q, [c]. repeat split; auto; [|now apply digits_one]. exists q, nil, false. rewrite app_nil_r. repeat split; auto. constructor.
      - right. right. exists q, [c]. repeat split; auto. now apply digits_one.
      - right. right. now apply powered_more.
      - destruct H as (q0 & W & ->). now apply powered_more. }
    destruct (c =? 46) eqn:E3.
    { apply Z.eqb_eq in E3. subst c. destruct (F1 eq_refl) as (A & B1 & B2).
      destruct st; cbn [core] in H; try contradiction; injection E as <- <-; try congruence; cbn [core].
      - subst q. now left.
      - destruct H as [H | [H | H]]; [|now apply fractional_in in H|apply powered_in in H; tauto]. right. exists q. auto. }
    destruct ((c =? 101) || (c =? 69)) eqn:E4.
    { assert (C : c = 101 \/ c = 69) by lia. destruct (F2 C) as (B1 & B2).
      destruct st; cbn [core] in H; try contradiction; injection E as <- <-; try congruence; cbn [core]; exists q, c; repeat split; auto.
      destruct H as [H | [H | H]]; auto. apply powered_in in H. tauto. }
    destruct (c =? 95) eqn:E5.
    { apply Z.eqb_eq in E5. subst c. destruct st; cbn [core] in H; try contradiction; injection E as <- <-; try congruence; cbn [core]; exists q; auto. }
    destruct (c <? 128) eqn:E6; [|congruence].
    assert (W : wordy c) by (unfold wordy; repeat split; auto; lia).
    destruct st; cbn [core] in H; try contradiction; injection E as <- <-; try congruence; cbn [core].
    + subst q. constructor; auto.
    + apply Forall_app. auto.
Qed.

Lemma reading_step : forall st p c st' acc, reading st p -> 0 <= c < 1114112 -> follows p c ->
  float_step (has (uprops c) SPACE) st c = (st', acc) -> st' <> Failed -> reading st' (p ++ [c]).
Proof.
  intros st p c st' acc H B F E N.
  assert (GO : forall before sign n q st0, Forall space before -> signed sign n -> p = before ++ sign ++ q -> core st0 q -> st' <> FLeft ->
    float_step (has (uprops c) SPACE) st0 c = (st', acc) -> reading st' (p ++ [c])).
  { intros before sign n q st0 FB SI -> C NL E0. assert (Fq : follows q c).
    { destruct F as (F1 & F2 & F3). assert (I : forall x, In x q -> In x (before ++ sign ++ q)) by (intros x J; rewrite !in_app_iff; auto).
      split; [|split; [|exact F3]]; intros K; [destruct (F1 K) as (A & A1 & A2); split; [|split]|destruct (F2 K) as (A & A1); split]; intros J; apply I in J; contradiction. }
    assert (R := core_step st0 q c st' acc C (or_intror B) Fq E0 N).
    assert (X : exists before0 sign0 n0 q0, Forall space before0 /\ signed sign0 n0 /\ (before ++ sign ++ q) ++ [c] = before0 ++ sign0 ++ q0 /\ core st' q0).
    { exists before, sign, n, (q ++ [c]). rewrite <- !app_assoc. auto. }
    destruct st'; try congruence; exact X. }
  destruct st; cbn [reading] in H;
    try (destruct H as (before & sign & n & q & FB & SI & -> & C); refine (GO before sign n q _ FB SI eq_refl C _ E);
         intros ->; unfold float_step in E; repeat match type of E with context [if ?b then _ else _] => destruct b end; cbn [core] in C; congruence).
  destruct (has (uprops c) SPACE) eqn:SP.
  - cbn in E. injection E as <- <-. cbn [reading]. apply Forall_app. split; [exact H|]. constructor; [|constructor]. now apply T.
  - destruct ((c =? 43) || (c =? 45)) eqn:E1.
    + unfold float_step in E. rewrite E1 in E. injection E as <- <-. cbn [reading core]. exists p, [c], (c =? 45), nil.
      repeat split; auto. destruct (c =? 45) eqn:E2; [replace c with 45 by lia|replace c with 43 by lia]; constructor.
    + assert (X : float_step false FSign c = (st', acc)).
      { rewrite <- E. unfold float_step. rewrite E1. destruct (is_digit c), (c =? 46), ((c =? 101) || (c =? 69)), (c =? 95), (c <? 128); reflexivity. }
      apply (GO p nil false nil FSign); auto; [constructor|now rewrite app_nil_r|reflexivity|].
      intros ->. unfold float_step in X. repeat match type of X with context [if ?b then _ else _] => destruct b end; congruence.
Qed.

Lemma reading_loop : forall r p st buf st' buf', Forall (fun c => 0 <= c < 1114112) r -> reading st p ->
  (forall a c b, p ++ r = a ++ c :: b -> follows a c) ->
  float_loop uprops r st buf = Ok (st', buf') -> st' <> Failed -> reading st' (p ++ r).
Proof.
  induction r as [|c r IH]; intros p st buf st' buf' B H F E N.
  - injection E as <- <-. now rewrite app_nil_r.
  - cbn [float_loop] in E. rewrite lookup in E by exact (Forall_inv B). cbn [bind] in E.
    destruct (float_step _ st c) as (st1, acc) eqn:E1.
    assert (N1 : st1 <> Failed) by (intros ->; injection E as <- <-; congruence).
    assert (H1 : reading st1 (p ++ [c])).
    { apply (reading_step st p c st1 acc H (Forall_inv B)); auto. apply (F p c r eq_refl). }
    replace (p ++ c :: r) with ((p ++ [c]) ++ r) by now rewrite <- app_assoc.
    refine (IH (p ++ [c]) st1 _ st' buf' (Forall_inv_tail B) H1 _ _ N).
    + intros a x b X. apply (F a x b). rewrite <- app_assoc in X. exact X.
    + destruct st1; try congruence; exact E.
Qed.

Lemma loop_buffer : forall r st buf st' buf', Forall (fun c => 0 <= c < 1114112) r -> zlen buf + zlen (filter (keep uprops) r) <= 48 ->
  float_loop uprops r st buf = Ok (st', buf') -> st' <> Failed -> buf' = buf ++ filter (keep uprops) r.
Proof.
  induction r as [|c r IH]; intros st buf st' buf' B L E N.
  - injection E as <- <-. now rewrite app_nil_r.
  - cbn [float_loop] in E. rewrite lookup in E by exact (Forall_inv B). cbn [bind] in E.
    destruct (float_step _ st c) as (st1, acc) eqn:E1.
    assert (N1 : st1 <> Failed) by (intros ->; injection E as <- <-; congruence).
    assert (A : acc = keep uprops c).
    { unfold keep. unfold float_step in E1. destruct (has (uprops c) SPACE); cbn [negb andb]; [now injection E1 as _ <-|].
      destruct (c =? 95) eqn:E5; cbn [negb].
      - replace ((c =? 43) || (c =? 45)) with false in E1 by lia. replace (is_digit c) with false in E1 by (unfold is_digit; lia).
        replace (c =? 46) with false in E1 by lia. replace ((c =? 101) || (c =? 69)) with false in E1 by lia. now injection E1 as _ <-.
      - repeat match type of E1 with context [if ?b then _ else _] => destruct b end; injection E1 as _ <-; reflexivity. }
    cbn [filter] in *. subst acc. assert (E' : float_loop uprops r st1 (if keep uprops c && (zlen buf <? MAX_FLOAT_STR) then buf ++ [c] else buf) = Ok (st', buf'))
      by (destruct st1; try congruence; exact E). clear E.
    destruct (keep uprops c); cbn [andb] in E'.
    + assert (zlen buf < 48) by len. rewrite (proj2 (Z.ltb_lt (zlen buf) MAX_FLOAT_STR)) in E' by assumption.
      rewrite (IH st1 (buf ++ [c]) st' buf' (Forall_inv_tail B)); auto; [now rewrite <- app_assoc|len].
    + now apply (IH st1 buf st' buf' (Forall_inv_tail B)).
Qed.

(** A point that has no digits is read as nothing. *)
Lemma nothing_read : forall sign n x, signed sign n -> x = nil \/ (exists e r, x = e :: r /\ (e = 101 \/ e = 69)) -> strtod (sign ++ 46 :: x) = Nothing.
Proof. intros sign n x SI X. destruct SI; destruct X as [-> | (e & r & -> & [-> | ->])]; reflexivity. Qed.

Lemma done_says : forall before sign n q after, Forall (fun c => 0 <= c < 1114112) (before ++ sign ++ q ++ after) ->
  Forall space before -> signed sign n -> done q -> Forall space after ->
  strtod (filter (keep uprops) (before ++ sign ++ q ++ after)) = Nothing \/ exists l, says_float space ascii_value (before ++ sign ++ q ++ after) l.
Proof.
  intros before sign n q after B FB SI D FA.
  assert (MP : forall m x e, digits m \/ (pointed m) \/ fractional m -> power ascii_value x e -> q = m ++ x ->
    strtod (filter (keep uprops) (before ++ sign ++ q ++ after)) = Nothing \/ exists l, says_float space ascii_value (before ++ sign ++ q ++ after) l).
  { intros m x e M P ->.
    assert (FIN : forall vs us, mantissa ascii_value m vs us -> exists l, says_float space ascii_value (before ++ sign ++ (m ++ x) ++ after) l).
    { intros vs us MM. eexists. rewrite <- (app_assoc m). eapply finite; eauto. }
    destruct M as [(vs & G) | [[-> | (w & (vs & G) & ->)] | (m0 & f & [-> | (w & (vs & G) & ->)] & (us & G') & ->)]].
    - right. apply (FIN vs nil). now constructor.
    - left. rewrite !Forall_app in B. destruct B as (BB & BS & BM & BA).
      rewrite !filter_app, (keep_spaces uprops space T before BB FB), (keep_spaces uprops space T after BA FA), (keep_sign uprops space T U sign n SI).
      cbn [filter app]. rewrite app_nil_r, (keep_char uprops space T U 46) by lia. cbn [app].
      apply (nothing_read sign n); [exact SI|]. destruct P as [|e sg ng x vs Ee SG G]; [now left|right].
      cbn [filter]. rewrite (keep_char uprops space T U) by lia. eauto.
    - right. apply (FIN vs nil). now constructor.
    - right. apply (FIN nil us). now constructor.
    - right. apply (FIN vs us). rewrite <- app_assoc. now constructor. }
  assert (NP := no_power ascii_value).
  destruct D as [D | [D | [D | (m & x & (m' & sg & ng & (m0 & e & D & Ee & ->) & SG & ->) & (vs & G) & ->)]]].
  - apply (MP q nil 0); auto. now rewrite app_nil_r.
  - apply (MP q nil 0); auto. now rewrite app_nil_r.
  - apply (MP q nil 0); auto. now rewrite app_nil_r.
  - eapply (MP m0 (e :: sg ++ x)); [exact D|now constructor; eauto|]. rewrite <- !app_assoc. reflexivity.
Qed.

Lemma word_says : forall before sign n q after b, Forall (fun c => 0 <= c < 1114112) (before ++ sign ++ q ++ after) ->
  Forall space before -> signed sign n -> word q -> Forall space after -> identify (filter (keep uprops) (before ++ sign ++ q ++ after)) = Some b ->
  exists l, says_float space ascii_value (before ++ sign ++ q ++ after) l.
Proof.
  intros before sign n q after b B FB SI W FA E. rewrite !Forall_app in B. destruct B as (BB & BS & BM & BA).
  rewrite !filter_app, (keep_spaces uprops space T before BB FB), (keep_spaces uprops space T after BA FA), (keep_sign uprops space T U sign n SI) in E.
  assert (K : filter (keep uprops) q = q).
  { clear - W. induction W as [|c q (C1 & C2 & _) W IH]; [reflexivity|]. cbn [filter]. unfold keep at 1. rewrite C1. replace (c =? 95) with false by lia.
    cbn [negb andb]. now rewrite IH. }
  rewrite K, app_nil_r in E. cbn [app] in E.
  assert (CS : c_string q = q) by (apply c_string_same; revert W; apply Forall_impl; intros c C; apply C).
  assert (X : identify (sign ++ q) = let start := map c_tolower (c_string q) in
    if negb (same start inf) && negb (same start infinity) && negb (same start nan) then None else Some (sign ++ start)).
  { unfold identify. destruct SI; cbn [app]; [|reflexivity|reflexivity]. destruct q as [|c q]; [reflexivity|].
    assert (R := Forall_inv W). unfold wordy in R. replace ((c =? 43) || (c =? 45)) with false by lia. reflexivity. }
  rewrite X, CS in E. cbv zeta in E. unfold same in E.
  destruct (list_eq_dec Z.eq_dec (map c_tolower q) inf) as [E1|_]; [eexists; apply (infinite space ascii_value before sign q after n); auto|].
  destruct (list_eq_dec Z.eq_dec (map c_tolower q) infinity) as [E1|_]; [eexists; apply (infinite space ascii_value before sign q after n); auto|].
  destruct (list_eq_dec Z.eq_dec (map c_tolower q) nan) as [E1|_]; [eexists; apply (not_a_number space ascii_value before sign q after n); auto|].
  discriminate.
Qed.

Theorem float_sound : forall cs l, Forall (fun c => 0 <= c < 1114112) cs -> zlen (filter (keep uprops) cs) <= 48 ->
  tidy cs -> to_float64 uprops cs = Ok (Some l) -> l = Nothing \/ says_float space ascii_value cs l.
Proof.
  intros cs l B L F E.
  enough (X : l = Nothing \/ exists l', says_float space ascii_value cs l').
  { destruct X as [X | (l' & X)]; [now left|right]. assert (Y := float_reads uprops space T U cs l' B X L). congruence. }
  unfold to_float64 in E. destruct (float_loop uprops cs FLeft nil) as [(st, buf)|] eqn:E1; [|discriminate]. cbn [bind] in E.
  assert (N : st <> Failed) by (intros ->; discriminate).
  assert (R := reading_loop cs nil FLeft nil st buf B (Forall_nil _) F E1 N). cbn [app] in R.
  assert (K := loop_buffer cs FLeft nil st buf B L E1 N). cbn [app] in K. subst buf.
  assert (NUM : forall q before sign n, Forall space before -> signed sign n -> cs = before ++ sign ++ q -> spaced done q ->
    Some (strtod (filter (keep uprops) cs)) = Some l -> l = Nothing \/ exists l', says_float space ascii_value cs l').
  { intros q before sign n FB SI -> (q0 & after & D & FA & ->) X. injection X as <-. now apply (done_says before sign n). }
  assert (NOW : forall q, done q -> spaced done q) by (intros q D; exists q, nil; rewrite app_nil_r; auto).
  assert (WORD : forall q before sign n, Forall space before -> signed sign n -> cs = before ++ sign ++ q -> spaced word q ->
    match identify (filter (keep uprops) cs) with Some buf => Ok (Some (strtod buf)) | None => Ok None end = Ok (Some l) -> l = Nothing \/ exists l', says_float space ascii_value cs l').
  { intros q before sign n FB SI -> (q0 & after & D & FA & ->) X. right. destruct (identify _) as [b|] eqn:E2; [|discriminate]. now apply (word_says before sign n q0 after b). }
  destruct st; cbn [reading] in R; try discriminate; destruct R as (before & sign & n & q & FB & SI & EQ & C); cbn [core] in C.
  - apply (NUM q before sign n); auto; [|congruence]. apply NOW. unfold done. destruct C as [C | [C | C]]; auto.
  - apply (NUM q before sign n); auto; [|congruence]. apply NOW. unfold done. auto.
  - apply (NUM q before sign n); auto; [|congruence]. apply NOW. unfold done. auto.
  - apply (NUM q before sign n); auto; [|congruence]. apply NOW. unfold done. auto.
  - apply (NUM q before sign n); auto; congruence.
  - apply (WORD q before sign n); auto. exists q, nil. rewrite app_nil_r. auto.
  - apply (WORD q before sign n); auto.
Qed.
End Sound.

(** ** Trailing zeros *)

(** The zeros at the end of the digits after the point. *)
Lemma trailing : forall us : list Z, exists a k, us = a ++ repeat 48 k /\ (a = nil \/ exists b d, a = b ++ [d] /\ d <> 48).
Proof.
  intros us. induction us as [|d us IH] using rev_ind; [exists nil, 0%nat; auto|].
  destruct (Z.eq_dec d 48) as [-> | N].
  - destruct IH as (a & k & -> & H). exists a, (S k). split; [|exact H]. rewrite <- app_assoc. f_equal. rewrite <- repeat_cons. reflexivity.
  - exists (us ++ [d]), 0%nat. cbn [repeat]. rewrite app_nil_r. split; [reflexivity|]. right. eauto.
Qed.

(** Without a point, and past a character that is no zero. *)
Lemma zeros_head : forall b r cur, ~ In 46 b -> zeros_loop (b ++ r) cur None None = zeros_loop r (cur + length b) None None.
Proof.
  induction b as [|c b IH]; intros r cur N; cbn [app length zeros_loop]; [now rewrite Nat.add_0_r|]. cbn [In] in N.
  replace (c =? 46) with false by lia. rewrite !andb_false_r. rewrite IH by tauto. f_equal. lia.
Qed.
Lemma zeros_past : forall b x r cur d z, ~ In 46 b -> ~ In 101 b -> x <> 46 -> x <> 48 -> x <> 101 ->
  zeros_loop (b ++ x :: r) cur (Some d) z = zeros_loop r (S (cur + length b)) (Some d) None.
Proof.
  induction b as [|c b IH]; intros x r cur d z N1 N2 X1 X2 X3; cbn [app length zeros_loop].
  - replace (x =? 46) with false by lia. replace (x =? 48) with false by lia. replace (x =? 101) with false by lia. cbn [andb]. f_equal. lia.
  - cbn [In] in N1, N2. replace (c =? 46) with false by lia. replace (c =? 101) with false by lia. cbn [andb].
    destruct ((c =? 48) && true); (rewrite IH by tauto; f_equal; lia).
Qed.
Lemma zeros_zeros : forall k cur r d firstzero, (0 < k)%nat ->
  zeros_loop (repeat 48 k ++ r) cur (Some d) firstzero = zeros_loop r (cur + k) (Some d) (Some (match firstzero with None => cur | Some z => z end)).
Proof.
  induction k as [|k IH]; intros cur r d firstzero K; [lia|]. cbn [repeat app zeros_loop]. change (48 =? 46) with false. change (48 =? 48) with true. cbn [andb].
  destruct k as [|k].
  - cbn [repeat app]. replace (cur + 1)%nat with (S cur) by lia. destruct firstzero; reflexivity.
  - rewrite IH by lia. f_equal; [lia|]. destruct firstzero; reflexivity.
Qed.


Lemma zeros_digits : forall a k r cur d, ended a -> Forall (fun c => is_digit c = true) a ->
  zeros_loop ((a ++ repeat 48 k) ++ r) cur (Some d) None =
  zeros_loop r (cur + length a + k) (Some d) (if Nat.eqb k 0 then None else Some (cur + length a)%nat).
Proof.
  intros a k r cur d E D.
  assert (X : forall q, zeros_loop (a ++ q) cur (Some d) None = zeros_loop q (cur + length a) (Some d) None).
  { intros q. destruct E as [-> | (b & x & -> & N)]; [cbn [app length]; now rewrite Nat.add_0_r|].
    apply Forall_app in D. destruct D as (D & Dx). apply Forall_inv in Dx. rewrite <- app_assoc. cbn [app].
    rewrite zeros_past; try lia.
    - rewrite app_length. cbn [length]. f_equal. lia.
    - intros J. rewrite Forall_forall in D. apply D in J. discriminate.
    - intros J. rewrite Forall_forall in D. apply D in J. discriminate.
    - unfold is_digit in Dx. lia.
    - unfold is_digit in Dx. lia. }
  rewrite <- app_assoc, X. destruct k as [|k]; [cbn [repeat app Nat.eqb]; now rewrite Nat.add_0_r|].
  rewrite zeros_zeros by lia. reflexivity.
Qed.

(** With decimals only. *)
Theorem zeros_fixed : forall h a k, ~ In 46 h -> ended a -> Forall (fun c => is_digit c = true) a ->
  remove_trailing_zeros (h ++ 46 :: a ++ repeat 48 k) = h ++ 46 :: a ++ (match a, k with nil, S _ => [48] | _, _ => nil end).
Proof.
  intros h a k N E D. unfold remove_trailing_zeros. rewrite zeros_head by exact N. cbn [zeros_loop]. change (46 =? 46) with true. cbv iota.
  rewrite <- (app_nil_r (a ++ repeat 48 k)) at 1. rewrite zeros_digits by auto. cbn [zeros_loop Nat.add].
  destruct k as [|k].
  - cbn [Nat.eqb repeat]. now destruct a.
  - cbn [Nat.eqb].
    assert (NE : nth_error (h ++ 46 :: a ++ repeat 48 (S k)) (S (length h + length a + S k)) = None).
    { apply nth_error_None. rewrite app_length. cbn [length]. rewrite app_length, repeat_length. lia. }
    rewrite NE. destruct (Nat.eqb (S (length h + length a) - length h) 1) eqn:E1.
    + apply Nat.eqb_eq in E1. assert (a = nil) as -> by (apply length_zero_iff_nil; lia). cbn [length app].
      destruct (Nat.ltb _ _) eqn:E2.
      * rewrite firstn_app. rewrite firstn_all2 by lia. replace (S (S (length h + 0)) - length h)%nat with 2%nat by lia. reflexivity.
      * apply Nat.ltb_ge in E2. replace k with 0%nat by lia. reflexivity.
    + apply Nat.eqb_neq in E1. assert (NA : a <> nil) by (intros ->; cbn [length] in E1; lia).
      rewrite (proj2 (Nat.ltb_lt _ _)) by lia. rewrite firstn_app. rewrite firstn_all2 by lia.
      replace (S (length h + length a) - length h)%nat with (S (length a)) by lia. cbn [firstn].
      rewrite firstn_app, firstn_all2, Nat.sub_diag by lia. cbn [firstn]. rewrite app_nil_r. f_equal. f_equal. destruct a; [congruence|now rewrite app_nil_r].
Qed.

(** With an exponent: the zeros before it go, with the point if nothing is left behind it. *)
Theorem zeros_exponent : forall h a k x, ~ In 46 h -> ended a -> Forall (fun c => is_digit c = true) a -> (0 < k)%nat ->
  remove_trailing_zeros (h ++ 46 :: (a ++ repeat 48 k) ++ 101 :: x) = h ++ (match a with nil => nil | _ => 46 :: a end) ++ 101 :: x.
Proof.
  intros h a k x N E D K. unfold remove_trailing_zeros. rewrite zeros_head by exact N. cbn [zeros_loop]. change (46 =? 46) with true. cbv iota.
  rewrite zeros_digits by auto. replace (Nat.eqb k 0) with false by (symmetry; apply Nat.eqb_neq; lia). cbn [zeros_loop Nat.add].
  change (101 =? 46) with false. change (101 =? 48) with false. change (101 =? 101) with true. cbv iota beta. cbn [andb].
  assert (LN : length (h ++ 46 :: a ++ repeat 48 k) = S (length h + length a + k)%nat) by (rewrite app_length; cbn [length]; rewrite app_length, repeat_length; lia).
  replace (h ++ 46 :: (a ++ repeat 48 k) ++ 101 :: x) with ((h ++ 46 :: a ++ repeat 48 k) ++ 101 :: x) by (rewrite <- !app_assoc; cbn [app]; now rewrite <- !app_assoc).
  rewrite (nth_error_app2 _ _) by (rewrite LN; cbn [Nat.add]; lia). rewrite LN. cbn [Nat.add]. rewrite Nat.sub_diag. cbn [nth_error].
  replace (skipn _ _) with (101 :: x) by (rewrite <- LN, skipn_app, skipn_all, Nat.sub_diag; reflexivity).
  destruct (Nat.eqb (S (length h + length a) - length h) 1) eqn:E1.
  - apply Nat.eqb_eq in E1. assert (a = nil) as -> by (apply length_zero_iff_nil; lia). cbn [length app].
    replace (S (length h + 0) - 1)%nat with (length h) by lia. rewrite <- app_assoc, firstn_app, firstn_all, Nat.sub_diag. cbn [firstn]. now rewrite app_nil_r.
  - apply Nat.eqb_neq in E1. destruct a as [|d a]; [cbn [length] in E1; lia|].
    replace ((h ++ 46 :: (d :: a) ++ repeat 48 k) ++ 101 :: x) with ((h ++ 46 :: d :: a) ++ repeat 48 k ++ 101 :: x) by (rewrite <- !app_assoc; cbn [app]; now rewrite <- !app_assoc).
    rewrite firstn_app. replace (S (length h + length (d :: a))) with (length (h ++ 46 :: d :: a)) by (rewrite app_length; cbn [length]; lia).
    rewrite firstn_all, Nat.sub_diag. cbn [firstn]. rewrite app_nil_r, <- app_assoc. reflexivity.
Qed.
(** Without such zeros nothing happens, unless the exponent ends with a zero. *)
Theorem zeros_none : forall h a x y, ~ In 46 h -> ended a -> Forall (fun c => is_digit c = true) a -> ~ In 46 x -> ~ In 101 x -> y <> 46 -> y <> 48 -> y <> 101 ->
  remove_trailing_zeros (h ++ 46 :: a ++ 101 :: x ++ [y]) = h ++ 46 :: a ++ 101 :: x ++ [y].
Proof.
  intros h a x y N E D X1 X2 Y1 Y2 Y3. unfold remove_trailing_zeros. rewrite zeros_head by exact N. cbn [zeros_loop]. change (46 =? 46) with true. cbv iota.
  replace (a ++ 101 :: x ++ [y]) with ((a ++ repeat 48 0) ++ 101 :: x ++ [y]) at 1 by (cbn [repeat]; now rewrite app_nil_r).
  rewrite zeros_digits by auto. cbn [Nat.eqb zeros_loop]. change (101 =? 46) with false. change (101 =? 48) with false. change (101 =? 101) with true. cbv iota beta. cbn [andb].
  rewrite zeros_past by auto. reflexivity.
Qed.
Theorem zeros_lost : forall h a x k, ~ In 46 h -> ended a -> Forall (fun c => is_digit c = true) a -> ~ In 46 x -> ~ In 101 x -> (exists b y, x = b ++ [y] /\ y <> 48) -> a <> nil ->
  remove_trailing_zeros (h ++ 46 :: a ++ 101 :: x ++ repeat 48 k) = h ++ 46 :: a ++ 101 :: x.
Proof.
  intros h a x k N E D X1 X2 (b & y & -> & Y) NA. unfold remove_trailing_zeros. rewrite zeros_head by exact N. cbn [zeros_loop]. change (46 =? 46) with true. cbv iota.
  replace (a ++ 101 :: (b ++ [y]) ++ repeat 48 k) with ((a ++ repeat 48 0) ++ 101 :: b ++ y :: repeat 48 k) at 1 by (cbn [repeat]; rewrite app_nil_r, <- !app_assoc; reflexivity).
  rewrite zeros_digits by auto. cbn [Nat.eqb zeros_loop]. change (101 =? 46) with false. change (101 =? 48) with false. change (101 =? 101) with true. cbv iota beta. cbn [andb].
  rewrite in_app_iff in X1, X2. cbn [In] in X1, X2.
  rewrite zeros_past by tauto. destruct k as [|k]; [cbn [repeat zeros_loop]; now rewrite app_nil_r|].
  rewrite <- (app_nil_r (repeat 48 (S k))) at 1. rewrite zeros_zeros by lia. cbn [zeros_loop].
  assert (L1 : (0 < length a)%nat) by (destruct a; [congruence|cbn [length]; lia]).
  assert (LN : length (h ++ 46 :: a ++ 101 :: b ++ [y]) = S (S (S (length h + 0 + length a + 0) + length b))).
  { rewrite app_length. cbn [length]. rewrite app_length. cbn [length]. rewrite app_length. cbn [length]. lia. }
  replace (h ++ 46 :: a ++ 101 :: (b ++ [y]) ++ repeat 48 (S k)) with ((h ++ 46 :: a ++ 101 :: b ++ [y]) ++ repeat 48 (S k))
    by (repeat (rewrite <- ?app_assoc; cbn [app]); reflexivity).
  cbn [Nat.add] in *. rewrite (proj2 (nth_error_None _ _)) by (rewrite app_length, repeat_length, LN; lia).
  replace (Nat.eqb _ 1) with false by (symmetry; apply Nat.eqb_neq; lia). rewrite (proj2 (Nat.ltb_lt _ _)) by lia.
  rewrite firstn_app, firstn_all2 by (rewrite LN; lia). rewrite LN. replace (_ - _)%nat with 0%nat by lia. cbn [firstn]. now rewrite app_nil_r.
Qed.
