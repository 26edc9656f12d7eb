(** Proofs about upcasts. *)
From Coq Require Import Floats.SpecFloat QArith Qpower ZifyBool.
From Verif Require Import Base Arith_Model Arith_Spec Arith_Proofs Upcast_Model Upcast_Spec.
Open Scope Z_scope.
Open Scope result_scope.

(** ** Digits *)
Lemma digits_spec m : 2 ^ (Zpos (digits2_pos m) - 1) <= Zpos m < 2 ^ Zpos (digits2_pos m).
Proof.
  induction m as [m IH|m IH|]; cbn [digits2_pos]; [| |cbn; lia].
  all: rewrite Pos2Z.inj_succ; replace (Z.succ (Zpos (digits2_pos m)) - 1) with (Z.succ (Zpos (digits2_pos m) - 1)) by lia;
    rewrite !Z.pow_succ_r by lia; lia.
Qed.
Lemma digits_unique m d : 0 < d -> 2 ^ (d - 1) <= Zpos m < 2 ^ d -> Zpos (digits2_pos m) = d.
Proof.
  intros D H. pose proof (digits_spec m) as S. set (k := Zpos (digits2_pos m)) in *. assert (0 < k) by lia.
  destruct (Z.lt_trichotomy k d) as [L|[E|L]]; [exfalso|exact E|exfalso].
  - pose proof (Z.pow_le_mono_r 2 k (d - 1) ltac:(lia) ltac:(lia)). lia.
  - pose proof (Z.pow_le_mono_r 2 d (k - 1) ltac:(lia) ltac:(lia)). lia.
Qed.
Lemma digits_bound m d : 0 <= d -> Zpos m < 2 ^ d -> Zpos (digits2_pos m) <= d.
Proof.
  intros D H. pose proof (digits_spec m). destruct (Z.le_gt_cases (Zpos (digits2_pos m)) d) as [L|L]; [exact L|].
  pose proof (Z.pow_le_mono_r 2 d (Zpos (digits2_pos m) - 1) ltac:(lia) ltac:(lia)). lia.
Qed.
Lemma shift_pos_spec d m : Zpos (shift_pos d m) = Zpos m * 2 ^ Zpos d.
Proof. change (Zpos (shift_pos d m) = Zpos m * Z.pow_pos 2 d). rewrite <- (Z.mul_comm (Z.pow_pos 2 d)). apply shift_pos_correct. Qed.

(** ** Shifting to the right *)
Lemma iter_pos_iter {A} (f : A -> A) p : forall x, SpecFloat.iter_pos f p x = Nat.iter (Pos.to_nat p) f x.
Proof.
  assert (forall n k x, Nat.iter n f (Nat.iter k f x) = Nat.iter (n + k) f x) as C
    by (induction n; intros; [reflexivity|cbn [Nat.add]; cbn; f_equal; apply IHn]).
  induction p as [p IH|p IH|]; intros x; cbn [SpecFloat.iter_pos]; rewrite ?IH.
  - rewrite Pos2Nat.inj_xI. rewrite C. change (f x) with (Nat.iter 1 f x). rewrite C. f_equal. lia.
  - rewrite Pos2Nat.inj_xO. rewrite C. f_equal. lia.
  - reflexivity.
Qed.
Lemma shr_1_div r : 0 <= shr_m r -> shr_m (shr_1 r) = shr_m r / 2.
Proof.
  destruct r as [m ? ?]. cbn [shr_m]. intros H. unfold shr_1. rewrite <- Z.div2_div. destruct m as [|[m|m|]|]; try reflexivity. lia.
Qed.
Lemma iter_shr_div n : forall r, 0 <= shr_m r -> shr_m (Nat.iter n shr_1 r) = shr_m r / 2 ^ Z.of_nat n.
Proof.
  induction n as [|n IH]; intros r H; [now rewrite Z.div_1_r|]. change (Nat.iter (S n) shr_1 r) with (shr_1 (Nat.iter n shr_1 r)).
  assert (0 < 2 ^ Z.of_nat n) by (apply Z.pow_pos_nonneg; lia).
  rewrite shr_1_div; rewrite IH by exact H; [|apply Z.div_pos; lia]. rewrite Z.div_div by lia. f_equal. rewrite Nat2Z.inj_succ, Z.pow_succ_r by lia. lia.
Qed.
Lemma iter_shr_exact n : forall m, 0 < m ->
  Nat.iter n shr_1 (Build_shr_record (m * 2 ^ Z.of_nat n) false false) = Build_shr_record m false false.
Proof.
  induction n as [|n IH]; intros m H; [cbn; f_equal; lia|]. change (Nat.iter (S n) shr_1 ?r) with (shr_1 (Nat.iter n shr_1 r)).
  replace (m * 2 ^ Z.of_nat (S n)) with (2 * m * 2 ^ Z.of_nat n) by (rewrite Nat2Z.inj_succ, Z.pow_succ_r by lia; lia).
  rewrite IH by lia. destruct m; try lia. reflexivity.
Qed.
Lemma shr_small r e n : n <= 0 -> shr r e n = (r, e).
Proof. destruct n; intros; try reflexivity. lia. Qed.
Lemma shr_large r e n : 0 < n -> shr r e n = (Nat.iter (Z.to_nat n) shr_1 r, e + n).
Proof. destruct n; intros; try lia. cbn [shr]. now rewrite iter_pos_iter. Qed.

Section Rounding.
Variables (prec emax : Z).
Hypothesis prec_pos : 0 < prec.

(** A mantissa with its own exponent is not changed. *)
Lemma round_canonical s m e : fexp prec emax (Zpos (digits2_pos m) + e) = e -> e <= emax - prec ->
  binary_round_aux prec emax s (Zpos m) e loc_Exact = S754_finite s m e.
Proof.
  intros H L. unfold binary_round_aux, shr_fexp. cbn [Zdigits2]. rewrite H. rewrite shr_small by lia.
  cbn [shr_record_of_loc loc_of_shr_record shr_m round_nearest_even Zdigits2]. rewrite H. rewrite shr_small by lia. cbn [shr_m].
  change (Zle_bool e (emax - prec)) with (e <=? emax - prec). destruct (Z.leb_spec e (emax - prec)); [reflexivity|lia].
Qed.
(** A number the format contains is not changed. *)
Lemma round_exact s m e f : f = fexp prec emax (Zpos (digits2_pos m) + e) -> f <= emax - prec ->
  (e < f -> exists q, Zpos m = q * 2 ^ (f - e)) ->
  exists m', binary_round prec emax s m e = S754_finite s m' f /\
    fexp prec emax (Zpos (digits2_pos m') + f) = f /\
    Zpos m' * 2 ^ (f - Z.min e f) = Zpos m * 2 ^ (e - Z.min e f).
Proof.
  intros F L D. unfold binary_round. rewrite <- F. unfold shl_align. pose proof (digits_spec m) as S.
  destruct (Z.lt_ge_cases e f) as [G|G].
  - destruct (D G) as [q Q]. assert (0 < 2 ^ (f - e)) by (apply Z.pow_pos_nonneg; lia).
    destruct q as [|q|q]; [lia| |lia].
    assert (Zpos (digits2_pos m) - (f - e) = Zpos (digits2_pos q)) as Dq.
    { assert (0 < Zpos (digits2_pos m) - (f - e)).
      { destruct (Z.lt_ge_cases 0 (Zpos (digits2_pos m) - (f - e))) as [X|X]; [exact X|exfalso].
        pose proof (Z.pow_le_mono_r 2 (Zpos (digits2_pos m)) (f - e) ltac:(lia) ltac:(lia)). nia. }
      symmetry. apply digits_unique; [assumption|].
      replace (Zpos (digits2_pos m) - 1) with ((Zpos (digits2_pos m) - (f - e) - 1) + (f - e)) in S by lia.
      replace (2 ^ Zpos (digits2_pos m)) with (2 ^ ((Zpos (digits2_pos m) - (f - e)) + (f - e))) in S by (f_equal; lia).
      rewrite !Z.pow_add_r in S by lia. rewrite Q in S. nia. }
    assert (Zpos (digits2_pos q) + f = Zpos (digits2_pos m) + e) as Eq by lia.
    exists q. rewrite Eq, <- F. split; [|split; [reflexivity|]].
    + destruct (f - e) as [|d|d] eqn:X; try lia. cbn [fst snd].
      unfold binary_round_aux. unfold shr_fexp at 1. cbn [Zdigits2 shr_record_of_loc]. rewrite <- F, X.
      rewrite shr_large by lia.
      assert (Nat.iter (Z.to_nat (Zpos d)) shr_1 (Build_shr_record (Zpos m) false false) = Build_shr_record (Zpos q) false false) as ->
        by (rewrite Q; rewrite <- (Z2Nat.id (Zpos d)) at 2 by lia; apply iter_shr_exact; lia). cbn [loc_of_shr_record round_nearest_even shr_m].
      replace (e + Zpos d) with f by lia. unfold shr_fexp. cbn [Zdigits2]. rewrite Eq, <- F. rewrite shr_small by lia.
      cbn [shr_record_of_loc shr_m]. change (Zle_bool f (emax - prec)) with (f <=? emax - prec).
      destruct (Z.leb_spec f (emax - prec)); [reflexivity|lia].
    + rewrite Z.min_l by lia. rewrite Z.sub_diag, Q. lia.
  - rewrite Z.min_r by lia. rewrite Z.sub_diag. 
    destruct (f - e) as [|d|d] eqn:X; [|lia|].
    + assert (f = e) as Y by lia. rewrite Y in *. exists m. rewrite <- F. split; [|split; [reflexivity|rewrite Z.sub_diag; reflexivity]].
      apply round_canonical; [symmetry; exact F|lia].
    + exists (shift_pos d m).
      assert (Zpos (digits2_pos (shift_pos d m)) = Zpos (digits2_pos m) + Zpos d) as Dq.
      { apply digits_unique; [lia|]. rewrite shift_pos_spec.
        replace (Zpos (digits2_pos m) + Zpos d - 1) with ((Zpos (digits2_pos m) - 1) + Zpos d) by lia.
        rewrite !Z.pow_add_r by lia. assert (0 < 2 ^ Zpos d) by (apply Z.pow_pos_nonneg; lia). nia. }
      assert (fexp prec emax (Zpos (digits2_pos (shift_pos d m)) + f) = f) as Y by (rewrite Dq, F; f_equal; rewrite <- F; lia).
      split; [|split; [exact Y|]].
      * apply round_canonical; assumption.
      * rewrite shift_pos_spec. replace (e - f) with (Zpos d) by lia. lia.
Qed.
(** Mantissas have no more than [prec] digits. *)
Lemma round_bound s m e s' m' e' : binary_round prec emax s m e = S754_finite s' m' e' -> s' = s /\ Zpos m' < 2 ^ prec.
Proof.
  unfold binary_round. destruct (shl_align _ _ _) as [mz ez]. unfold binary_round_aux.
  destruct (shr_fexp prec emax (Zpos mz) ez loc_Exact) as [r1 e1] eqn:E1.
  assert (0 <= shr_m r1) as P1.
  { unfold shr_fexp in E1. cbn [shr_record_of_loc] in E1. destruct (Z.le_gt_cases (fexp prec emax (Zdigits2 (Zpos mz) + ez) - ez) 0).
    - rewrite shr_small in E1 by assumption. inversion E1. cbn. lia.
    - rewrite shr_large in E1 by lia. inversion E1. rewrite iter_shr_div by (cbn; lia). apply Z.div_pos; [cbn; lia|apply Z.pow_pos_nonneg; lia]. }
  set (m1 := round_nearest_even (shr_m r1) (loc_of_shr_record r1)).
  assert (0 <= m1) as Pm by (unfold m1, round_nearest_even; destruct (loc_of_shr_record r1) as [|[]]; try destruct (Z.even _); lia).
  destruct (shr_fexp prec emax m1 e1 loc_Exact) as [r2 e2] eqn:E2. 
  assert (shr_m r2 < 2 ^ prec) as B.
  { assert (0 <= m1 < 2 ^ Zdigits2 m1) as D.
    { destruct m1 as [|p|p]; [cbn; lia| |lia]. cbn [Zdigits2]. pose proof (digits_spec p). lia. }
    unfold shr_fexp in E2. cbn [shr_record_of_loc] in E2. unfold fexp in E2. 
    assert (0 < 2 ^ prec) by (apply Z.pow_pos_nonneg; lia).
    destruct (Z.le_gt_cases (Z.max (Zdigits2 m1 + e1 - prec) (emin prec emax) - e1) 0).
    - rewrite shr_small in E2 by assumption. inversion E2. cbn. pose proof (Z.pow_le_mono_r 2 (Zdigits2 m1) prec ltac:(lia) ltac:(lia)). lia.
    - rewrite shr_large in E2 by lia. inversion E2. rewrite iter_shr_div by (cbn; lia). cbn [shr_m].
      set (n := Z.max (Zdigits2 m1 + e1 - prec) (emin prec emax) - e1) in *. rewrite Z2Nat.id by lia.
      assert (0 < 2 ^ n) by (apply Z.pow_pos_nonneg; lia). apply Z.div_lt_upper_bound; [lia|]. rewrite <- Z.pow_add_r by lia.
      assert (Zdigits2 m1 <= n + prec) by lia. pose proof (Z.pow_le_mono_r 2 (Zdigits2 m1) (n + prec) ltac:(lia) ltac:(lia)). lia. }
  destruct (shr_m r2); try discriminate. destruct (Zle_bool e2 _); try discriminate. intros X. inversion X; subst. auto.
Qed.
End Rounding.

(** ** Numbers *)
Lemma two_ne : ~ (2 == 0)%Q.
Proof. discriminate. Qed.
Lemma scale m m' e f : m' * 2 ^ (f - Z.min e f) = m * 2 ^ (e - Z.min e f) -> (inject_Z m' * Qpower 2 f == inject_Z m * Qpower 2 e)%Q.
Proof.
  intros H. set (c := Z.min e f) in *.
  assert (forall x k, c <= k -> (inject_Z x * Qpower 2 k == inject_Z (x * 2 ^ (k - c)) * Qpower 2 c)%Q) as S.
  { intros x k K. rewrite inject_Z_mult, Zpower_Qpower by lia. rewrite <- Qmult_assoc. change (inject_Z 2) with 2%Q.
    rewrite <- Qpower_plus by exact two_ne. now replace (k - c + c) with k by lia. }
  rewrite (S m' f), (S m e) by lia. now rewrite H.
Qed.
Lemma signed_scale (s : bool) m m' e f : Zpos m' * 2 ^ (f - Z.min e f) = Zpos m * 2 ^ (e - Z.min e f) ->
  (inject_Z (if s then Zneg m' else Zpos m') * Qpower 2 f == inject_Z (if s then Zneg m else Zpos m) * Qpower 2 e)%Q.
Proof.
  intros H. apply scale. destruct s; [|exact H]. change (Zneg m') with (- Zpos m'). change (Zneg m) with (- Zpos m). lia.
Qed.

Lemma round_to_eq t m e : is_float t = true -> round_to t m e = binary_normalize (precision t) (max_exponent t) m e false.
Proof. destruct t; try discriminate; reflexivity. Qed.
Lemma precision_pos t : 0 < precision t.
Proof. destruct t; cbn; lia. Qed.

(** Rounding a number the type contains. *)
Lemma round_to_exact t m e f (s : bool) : is_float t = true ->
  f = fexp (precision t) (max_exponent t) (Zpos (digits2_pos m) + e) -> f <= max_exponent t - precision t ->
  (e < f -> exists q, Zpos m = q * 2 ^ (f - e)) ->
  let v := Float (round_to t (if s then Zneg m else Zpos m) e) in
  has_type t v /\ same_number (number_of v) (Finite (inject_Z (if s then Zneg m else Zpos m) * Qpower 2 e)).
Proof.
  intros T F L D v. destruct (round_exact (precision t) (max_exponent t) s m e f F L D) as (m' & R & C & V).
  assert (v = Float (S754_finite s m' f)) as -> by (unfold v; rewrite round_to_eq by exact T; destruct s; cbn [binary_normalize]; now rewrite R).
  split.
  - split; [exact T|]. cbn [valid_binary]. unfold bounded, canonical_mantissa. rewrite C. rewrite <- Zeq_is_eq_bool || idtac.
    assert (Zeq_bool f f = true) as -> by now apply Zeq_is_eq_bool. cbn [andb]. apply Z.leb_le. exact L.
  - cbn [number_of same_number]. now apply signed_scale.
Qed.

Lemma sign_cases x : x <> 0 -> exists (s : bool) m, x = (if s then Zneg m else Zpos m) /\ Z.abs x = Zpos m.
Proof. destruct x as [|m|m]; intros; [contradiction|exists false, m; auto|exists true, m; auto]. Qed.
Lemma inject_inj x y : (inject_Z x == inject_Z y)%Q -> x = y.
Proof. unfold Qeq, inject_Z. cbn. lia. Qed.

Lemma int_to_float_exact t x : is_float t = true -> Z.abs x < 2 ^ 64 ->
  let v := Float (round_to t x 0) in
  (contains t x -> has_type t v /\ same_number (Finite (inject_Z x)) (number_of v)) /\
  (same_number (Finite (inject_Z x)) (number_of v) -> contains t x).
Proof.
  intros T B v. destruct (Z.eq_dec x 0) as [->|N].
  - unfold v. rewrite round_to_eq by exact T. cbn [binary_normalize]. split; [intros _; split; [split; [exact T|reflexivity]|reflexivity]|].
    intros _. exists 0, 0. split; [lia|]. split; [|reflexivity]. apply Z.pow_pos_nonneg; [lia|]. pose proof (precision_pos t). lia.
  - destruct (sign_cases x N) as (s & m & E & A). pose proof (digits_spec m) as S. pose proof (precision_pos t) as P. split.
    + intros (c & k & K & C & X).
      set (f := fexp (precision t) (max_exponent t) (Zpos (digits2_pos m) + 0)).
      assert (Zpos (digits2_pos m) <= 64) as D by (apply digits_bound; lia).
      assert (f <= max_exponent t - precision t) as L by (unfold f, fexp, emin; destruct t; try discriminate; cbn [precision max_exponent]; lia).
      assert (0 < f -> exists q, Zpos m = q * 2 ^ (f - 0)) as Q.
      { intros G. assert (f = Zpos (digits2_pos m) - precision t) as F
          by (unfold f, fexp, emin in *; destruct t; try discriminate; cbn [precision max_exponent] in *; lia).
        assert (f <= k) as FK.
        { destruct (Z.le_gt_cases f k) as [Y|Y]; [exact Y|exfalso].
          assert (Z.abs x = Z.abs c * 2 ^ k) as Ax by (rewrite X, Z.abs_mul, (Z.abs_eq (2 ^ k)); [reflexivity|apply Z.pow_nonneg; lia]).
          assert (Zpos m < 2 ^ (precision t + k)) as M.
          { rewrite <- A, Ax, Z.pow_add_r by lia. assert (0 < 2 ^ k) by (apply Z.pow_pos_nonneg; lia). nia. }
          apply digits_bound in M; lia. }
        exists (Z.abs c * 2 ^ (k - f)). rewrite Z.sub_0_r, <- Z.mul_assoc, <- Z.pow_add_r by lia. replace (k - f + f) with k by lia.
        rewrite <- A, X, Z.abs_mul, (Z.abs_eq (2 ^ k)); [reflexivity|apply Z.pow_nonneg; lia]. }
      destruct (round_to_exact t m 0 f s T eq_refl L Q) as [H V]. rewrite <- E in H, V. split; [exact H|].
      unfold v. destruct (number_of (Float (round_to t x 0))) as [q| |]; cbn [same_number] in V |- *; try contradiction.
      rewrite V. change (Qpower 2 0) with 1%Q. now rewrite Qmult_1_r.
    + unfold v. rewrite round_to_eq by exact T. intros V.
      assert (binary_normalize (precision t) (max_exponent t) x 0 false = binary_round (precision t) (max_exponent t) s m 0) as R
        by (rewrite E; destruct s; reflexivity). rewrite R in V.
      destruct (binary_round (precision t) (max_exponent t) s m 0) as [s'|s'| |s' m' e'] eqn:Y; cbn [number_of same_number] in V; try contradiction.
      * apply inject_inj in V. contradiction.
      * apply round_bound in Y; [|exact P]. destruct Y as [-> M]. set (z := if s then Zneg m' else Zpos m') in *.
        assert (Z.abs z < 2 ^ precision t) as Az by (unfold z; destruct s; lia).
        destruct (Z.le_gt_cases 0 e') as [G|G].
        -- exists z, e'. split; [exact G|]. split; [exact Az|]. apply inject_inj. rewrite V, inject_Z_mult, Zpower_Qpower by lia. reflexivity.
        -- exists x, 0. split; [lia|]. split; [|lia].
           assert (x * 2 ^ (- e') = z) as Z1.
           { apply inject_inj. rewrite inject_Z_mult, Zpower_Qpower, V by lia. change (inject_Z 2) with 2%Q. rewrite <- Qmult_assoc, <- Qpower_plus by exact two_ne.
             replace (e' + - e') with 0 by lia. change (Qpower 2 0) with 1%Q. now rewrite Qmult_1_r. }
           assert (0 < 2 ^ (- e')) by (apply Z.pow_pos_nonneg; lia). rewrite <- Z1, Z.abs_mul in Az. nia.
Qed.

(** ** Upcasts *)
Lemma in_range_64 a x : in_range a x -> Z.abs x < 2 ^ 64.
Proof. destruct a; cbn [in_range]; lia. Qed.
Lemma valid_is_upcast a b l : at_least_implicit l = false -> valid_conversion a b l = true -> valid_upcast a b = true.
Proof.
  unfold valid_conversion. intros -> H. cbn [orb] in H. destruct (reg_eqb a b) eqn:E; [destruct a, b; try discriminate E; reflexivity|].
  cbn [orb] in H. apply andb_prop in H. apply H.
Qed.
Lemma upcast_range a b x : valid_upcast a b = true -> is_float b = false -> in_range a x -> in_range b x.
Proof. destruct a, b; intros V F; try discriminate V; try discriminate F; cbn [in_range]; lia. Qed.
Lemma cast_same b x : is_float b = false -> in_range b x -> cast b x = x.
Proof. intros F R. destruct (is_int b) eqn:I; [now apply cast_in_range|]. destruct b; try discriminate. destruct R as [->| ->]; reflexivity. Qed.

Lemma same_number_refl n : same_number n n.
Proof. destruct n; cbn; try reflexivity; exact I. Qed.
Lemma same_number_sym n n' : same_number n n' -> same_number n' n.
Proof. destruct n, n'; cbn; intros; try contradiction; try (now symmetry); exact I. Qed.

Lemma construct_total : forall a b l v, has_type a v -> at_least_implicit l = false -> valid_conversion a b l = true ->
  exists w, construct a b l v = Ok w.
Proof.
  intros a b l v T L V. pose proof (valid_is_upcast _ _ _ L V) as U. unfold construct. rewrite V. destruct v as [x|f]; cbn [convert].
  - destruct (is_float b); eauto.
  - destruct T as [F _]. destruct (reg_eqb a b); [eauto|]. destruct (is_float b) eqn:B; [eauto|]. destruct a, b; discriminate.
Qed.

Lemma widen (s : bool) m e : bounded 24 128 m e = true ->
  let v := Float (round_to F64 (if s then Zneg m else Zpos m) e) in
  has_type F64 v /\ same_number (number_of (Float (S754_finite s m e))) (number_of v).
Proof.
  unfold bounded, canonical_mantissa. intros B. apply andb_prop in B. destruct B as [C L]. apply Zeq_is_eq_bool in C. apply Z.leb_le in L.
  unfold fexp, emin in C. pose proof (digits_spec m) as S.
  set (f := fexp 53 1024 (Zpos (digits2_pos m) + e)).
  assert (f <= e /\ f <= 1024 - 53) as [F1 F2] by (unfold f, fexp, emin; lia).
  destruct (round_to_exact F64 m e f s eq_refl eq_refl F2 ltac:(lia)) as [H V]. split; [exact H|]. apply same_number_sym. exact V.
Qed.

Lemma upcast_exact : forall a b l v w, has_type a v -> at_least_implicit l = false -> construct a b l v = Ok w ->
  (fits b v -> has_type b w) /\ (same_number (number_of v) (number_of w) <-> fits b v).
Proof.
  intros a b l v w T L C. unfold construct in C. destruct (valid_conversion a b l) eqn:V; [|discriminate].
  pose proof (valid_is_upcast _ _ _ L V) as U. destruct v as [x|f]; cbn [convert] in C.
  - cbn [has_type] in T. destruct (is_float b) eqn:F; inversion C; subst w; cbn [fits].
    + destruct (int_to_float_exact b x F (in_range_64 a x T)) as [H1 H2]. split; [intros X; apply H1, X, F|].
      split; [intros X _; exact (H2 X)|]. intros X. apply H1. exact (X F).
    + pose proof (upcast_range a b x U F T) as R. rewrite cast_same by assumption. split; [intros _; exact R|]. split; [rewrite F; discriminate|]. intros _. apply same_number_refl.
  - destruct T as [F T]. cbn [fits]. destruct (reg_eqb a b) eqn:E.
    + inversion C; subst w. assert (a = b) as <- by (destruct a, b; try discriminate E; reflexivity).
      split; [intros _; split; assumption|]. split; [auto|]. intros _. apply same_number_refl.
    + destruct (is_float b) eqn:B; [|discriminate]. inversion C; subst w. clear C.
      assert (a = F32 /\ b = F64) as [-> ->] by (destruct a, b; try discriminate; auto). cbn [precision max_exponent] in T.
      destruct f as [s|s| |s m e]; try (split; [intros _; split; reflexivity|split; [auto|intros _; apply same_number_refl]]).
      destruct (widen s m e T) as [H1 H2]. split; [intros _; exact H1|]. split; [auto|intros _; exact H2].
Qed.
Lemma small_contained t x : Z.abs x < 2 ^ precision t -> contains t x.
Proof. intros H. exists x, 0. split; [lia|]. split; [exact H|lia]. Qed.
Lemma exact_fits a b v : valid_upcast a b = true -> exact_upcast a b = true -> has_type a v -> fits b v.
Proof.
  intros U E T. destruct v as [x|]; [|exact I]. intros F. cbn [has_type] in T. apply small_contained.
  destruct a, b; try discriminate U; try discriminate E; try discriminate F; cbn [in_range precision] in *; lia.
Qed.
Lemma odd_not_contained t x : is_float t = true -> Z.odd x = true -> 2 ^ precision t <= Z.abs x -> ~ contains t x.
Proof.
  intros T O B (m & k & K & M & E). destruct (Z.eq_dec k 0) as [->|N]; [rewrite Z.mul_1_r in E; subst; lia|].
  subst x. rewrite Z.odd_mul in O. replace k with (Z.succ (k - 1)) in O by lia. rewrite Z.pow_succ_r, Z.odd_mul in O by lia.
  cbn [Z.odd andb] in O. rewrite andb_false_r in O. discriminate.
Qed.
Lemma inexact_loses : forall a b, valid_upcast a b = true -> exact_upcast a b = false ->
  exists v w, has_type a v /\ construct a b Upcast v = Ok w /\ ~ same_number (number_of v) (number_of w).
Proof.
  intros a b U E.
  assert (is_float b = true /\ in_range a (2 ^ precision b + 1)) as [F R]
    by (destruct a, b; try discriminate E; split; try reflexivity; cbn [in_range precision]; lia).
  set (x := 2 ^ precision b + 1) in *. exists (Int x).
  assert (valid_conversion a b Upcast = true) as V by (unfold valid_conversion; cbn [at_least_upcast andb]; rewrite U; apply orb_true_r).
  destruct (construct_total a b Upcast (Int x) R eq_refl V) as [w W]. exists w. split; [exact R|]. split; [exact W|].
  destruct (upcast_exact a b Upcast (Int x) w R eq_refl W) as [_ X]. rewrite X. intros Y. cbn [fits] in Y.
  apply (odd_not_contained b x F); [unfold x; destruct b; try discriminate F; reflexivity|unfold x; pose proof (precision_pos b); lia|exact (Y F)].
Qed.

(** Python integers *)
Lemma python_int_exact : forall b l x w, at_least_implicit l = false -> construct_python_int b l x = Ok w ->
  (same_number (Finite (inject_Z x)) (number_of w) <-> in_range b x).
Proof.
  intros b l x w L C. unfold construct_python_int in C. destruct (valid_conversion I64 b l) eqn:V; [|discriminate].
  pose proof (valid_is_upcast _ _ _ L V) as U. destruct b; try discriminate U; try discriminate C. cbn [is_float negb andb] in C.
  assert (exists y, w = Int y /\ reduced I64 x y) as (y & -> & R & k & K).
  { destruct ((- 2 ^ 63 <=? x) && (x <? 2 ^ 63)).
    - exists (cast I64 x). split; [congruence|now apply cast_reduced].
    - exists (cast I64 (wrap_u 64 x)). split; [congruence|]. rewrite cast_wrap_u64 by reflexivity. now apply cast_reduced. }
  cbn [number_of same_number]. split; [intros E; apply inject_inj in E; now subst x|]. intros X.
  rewrite (in_range_width I64 x y k eq_refl X R K). reflexivity.
Qed.
