(** Proofs about arithmetic on integer register types. *)
From Verif Require Import Base Arith_Model Arith_Spec Wire_Proofs Serial_Data_Proofs.
From Coq Require Import ZifyBool Znumtheory.
Open Scope Z_scope.
Open Scope result_scope.

(** ** Conversions *)
Lemma wrap_s_eq w x : 0 < w -> exists k, wrap_s w x = x + k * 2 ^ w.
Proof.
  intros H. unfold wrap_s. pose proof (Z.div_mod x (2 ^ w) ltac:(pose proof (Z.pow_pos_nonneg 2 w); lia)).
  destruct (x mod 2 ^ w <? 2 ^ (w - 1)); [exists (- (x / 2 ^ w))|exists (- (x / 2 ^ w) - 1)]; lia.
Qed.
Lemma wrap_u_eq w x : 0 <= w -> exists k, wrap_u w x = x + k * 2 ^ w.
Proof.
  intros H. unfold wrap_u. pose proof (Z.div_mod x (2 ^ w) ltac:(pose proof (Z.pow_pos_nonneg 2 w); lia)).
  exists (- (x / 2 ^ w)). lia.
Qed.
Lemma wrap_s_range w x : 0 < w -> - 2 ^ (w - 1) <= wrap_s w x < 2 ^ (w - 1).
Proof.
  intros H. unfold wrap_s. pose proof (Z.mod_pos_bound x (2 ^ w) ltac:(apply Z.pow_pos_nonneg; lia)).
  assert (2 ^ w = 2 * 2 ^ (w - 1)) by (rewrite <- Z.pow_succ_r by lia; f_equal; lia).
  destruct (Z.ltb_spec (x mod 2 ^ w) (2 ^ (w - 1))); lia.
Qed.
Lemma cast_reduced t x : is_int t = true -> reduced t x (cast t x).
Proof.
  intros H. split.
  - destruct t; try discriminate; cbn [cast is_signed bits in_range];
      try (match goal with |- context [wrap_s ?w x] => pose proof (wrap_s_range w x ltac:(lia)) as R; cbn in R |- *; lia end);
      match goal with |- context [wrap_u ?w x] => pose proof (Z.mod_pos_bound x (2 ^ w) ltac:(reflexivity)) as R; exact R end.
  - destruct t; try discriminate; cbn [cast is_signed bits]; first [apply wrap_s_eq; lia|apply wrap_u_eq; lia].
Qed.
Lemma in_range_width t x y k : is_int t = true -> in_range t x -> in_range t y -> y = x + k * 2 ^ bits t -> x = y.
Proof.
  intros H Rx Ry ->. destruct t; try discriminate; cbn [in_range bits] in *;
    match goal with |- context [2 ^ ?w] => let v := eval vm_compute in (2 ^ w) in change (2 ^ w) with v in * end; cbn in Rx, Ry; lia.
Qed.
Lemma reduced_unique t x y z : is_int t = true -> reduced t x y -> reduced t x z -> y = z.
Proof. intros H [R1 [k1 E1]] [R2 [k2 E2]]. apply (in_range_width t y z (k2 - k1)); auto. lia. Qed.
Lemma cast_in_range t x : is_int t = true -> in_range t x -> cast t x = x.
Proof. intros H R. apply (reduced_unique t x); auto; [now apply cast_reduced|]. split; [exact R|exists 0; lia]. Qed.
Lemma cast_congruent t x y k : is_int t = true -> y = x + k * 2 ^ bits t -> cast t y = cast t x.
Proof.
  intros H E. apply (reduced_unique t x); auto; [|now apply cast_reduced]. destruct (cast_reduced t y H) as [R [j J]].
  split; [exact R|]. exists (j + k). lia.
Qed.
Lemma pow_bits t : is_int t = true -> exists m, 2 ^ 64 = m * 2 ^ bits t.
Proof. intros H. exists (2 ^ (64 - bits t)). rewrite <- Z.pow_add_r by (destruct t; cbn; lia). f_equal. lia. Qed.
Lemma cast_wrap_s64 t x : is_int t = true -> cast t (wrap_s 64 x) = cast t x.
Proof.
  intros H. destruct (pow_bits t H) as [m M]. destruct (wrap_s_eq 64 x ltac:(lia)) as [k K]. rewrite M in K.
  eapply (cast_congruent t x _ (k * m)); auto. lia.
Qed.
Lemma cast_wrap_u64 t x : is_int t = true -> cast t (wrap_u 64 x) = cast t x.
Proof.
  intros H. destruct (pow_bits t H) as [m M]. destruct (wrap_u_eq 64 x ltac:(lia)) as [k K]. rewrite M in K.
  eapply (cast_congruent t x _ (k * m)); auto. lia.
Qed.

Lemma agrees_cast t x y : is_int t = true -> agrees t (Ok (cast t x)) (Ok y) <-> cast t x = cast t y.
Proof.
  intros H. cbn [agrees]. split; [intros R; exact (reduced_unique t y _ _ H R (cast_reduced t y H))|]. intros ->. now apply cast_reduced.
Qed.

Definition i64 (x : Z) : Prop := - 2 ^ 63 <= x < 2 ^ 63.
Definition u64 (x : Z) : Prop := 0 <= x < 2 ^ 64.
Lemma signed_range t x : is_signed t = true -> in_range t x -> i64 x.
Proof. unfold i64. destruct t; try discriminate; cbn [in_range]; lia. Qed.
Lemma signed_narrow t x : is_signed t = true -> in_range t x -> x = - 2 ^ 63 -> t = I64.
Proof. destruct t; try discriminate; cbn [in_range]; try lia. reflexivity. Qed.
Lemma unsigned_range t x : is_int t = true -> is_signed t = false -> in_range t x -> u64 x.
Proof. unfold u64. destruct t; try discriminate; cbn [in_range]; lia. Qed.

Lemma small64 x : i64 x -> wrap_s 64 x = x.
Proof. intros H. apply wrap_s_small; [lia|exact H]. Qed.
Lemma neg64_small x : - 2 ^ 63 < x <= 2 ^ 63 -> x <> 2 ^ 63 -> neg64 x = - x.
Proof. intros H H'. apply small64. unfold i64. lia. Qed.
Lemma neg64_least : neg64 (- 2 ^ 63) = - 2 ^ 63.
Proof. reflexivity. Qed.
Lemma wrap64_up x : 2 ^ 63 <= x < 2 ^ 64 -> wrap_s 64 x = x - 2 ^ 64.
Proof.
  intros H. unfold wrap_s. rewrite Z.mod_small by lia. change (64 - 1) with 63. destruct (Z.ltb_spec x (2 ^ 63)); lia.
Qed.
Lemma wrap64_down x : - 2 ^ 64 <= x < - 2 ^ 63 -> wrap_s 64 x = x + 2 ^ 64.
Proof.
  intros H. unfold wrap_s. rewrite <- (Z.mod_add x 1 (2 ^ 64)) by lia. rewrite Z.mod_small by lia. change (64 - 1) with 63.
  destruct (Z.ltb_spec (x + 1 * 2 ^ 64) (2 ^ 63)); lia.
Qed.
Lemma rem64_ok l r : r <> 0 -> r <> -1 -> rem64 l r = Ok (Z.rem l r).
Proof. intros H H'. unfold rem64. destruct (Z.eqb_spec r 0); [lia|]. destruct (Z.eqb_spec r (-1)); [lia|]. now rewrite andb_false_r. Qed.

(** ** Modulus *)
Lemma mod_neg_pos l r : 0 < r -> (r - l mod r) mod r = (- l) mod r.
Proof. intros H. rewrite Zminus_mod_idemp_r. replace (r - l) with (- l + 1 * r) by lia. apply Z.mod_add. lia. Qed.
Lemma rem_neg_pos l r : 0 < l -> 0 < r -> Z.rem (- l) r = - (l mod r).
Proof. intros H H'. rewrite Z.rem_opp_l by lia. rewrite Z.rem_mod_nonneg by lia. reflexivity. Qed.

(** The remainder of a positive number for a negative divisor, and the reverse. *)
Lemma mod_of_neg l r : 0 < r -> l < 0 -> l mod r = r - ((- l - 1) mod r + 1).
Proof.
  intros H H'. pose proof (Z.mod_pos_bound (- l - 1) r H). symmetry. apply (Z.mod_unique_pos l r (- ((- l - 1) / r) - 1)); [lia|].
  pose proof (Z.div_mod (- l - 1) r ltac:(lia)). nia.
Qed.
Lemma mod_by_neg l r : r < 0 -> l mod r = - ((- l) mod (- r)).
Proof. intros H. rewrite <- (Z.opp_involutive l) at 1. rewrite <- (Z.opp_involutive r) at 1. apply Z.mod_opp_opp. lia. Qed.

Definition the_mod_is_wrong (l r : Z) : Prop := l = - 2 ^ 63 /\ r < 0 /\ l mod r <> 0.

Lemma py_mod_i64_right l r : i64 l -> i64 r -> r <> 0 -> ~ the_mod_is_wrong l r -> py_mod_i64 l r = Ok (l mod r).
Proof.
  unfold i64, the_mod_is_wrong, py_mod_i64. intros Hl Hr Nz Ok_.
  destruct (Z.eqb_spec r 1) as [->|]; [rewrite Z.mod_1_r; reflexivity|].
  destruct (Z.eqb_spec r (-1)) as [->|]; [cbn [orb]; f_equal; rewrite (mod_by_neg l (-1)) by lia; change (- -1) with 1; rewrite Z.mod_1_r; reflexivity|].
  destruct (Z.eqb_spec l 0) as [->|]; [cbn [orb]; rewrite Z.mod_0_l by exact Nz; reflexivity|].
  cbn [orb]. destruct (Z.eqb_spec r 0); [contradiction|]. destruct (Z.ltb_spec r 0).
  - destruct (Z.ltb_spec l 0).
    + destruct (Z.eq_dec l (- 2 ^ 63)) as [El|Nl].
      * (* the remainder is zero *)
        assert (l mod r = 0) as M by (destruct (Z.eq_dec (l mod r) 0); [assumption|tauto]).
        destruct (Z.eq_dec r (- 2 ^ 63)) as [Er|Nr].
        -- subst l r. reflexivity.
        -- subst l. rewrite neg64_least, (neg64_small r) by lia. rewrite rem64_ok by lia. cbn [bind].
           rewrite (rem_neg_pos (2 ^ 63) (- r)) by lia. rewrite (mod_by_neg (- 2 ^ 63) r), Z.opp_involutive in M by lia. rewrite (mod_by_neg (- 2 ^ 63) r), Z.opp_involutive by lia. 
           assert (2 ^ 63 mod (- r) = 0) as -> by lia. reflexivity.
      * rewrite (neg64_small l) by lia. destruct (Z.eq_dec r (- 2 ^ 63)) as [Er|Nr].
        -- subst r. rewrite neg64_least. rewrite rem64_ok by lia. cbn [bind]. f_equal.
           change (- 2 ^ 63) with (- (2 ^ 63)). rewrite Z.rem_opp_r, Z.rem_small by lia. rewrite neg64_small by lia.
           rewrite mod_by_neg by lia. rewrite !Z.opp_involutive. rewrite Z.mod_small by lia. lia.
        -- rewrite (neg64_small r) by lia. rewrite rem64_ok by lia. cbn [bind]. f_equal. rewrite Z.rem_mod_nonneg by lia.
           rewrite (mod_by_neg l r) by lia. pose proof (Z.mod_pos_bound (- l) (- r) ltac:(lia)). apply neg64_small; lia.
    + rewrite (neg64_small l) by lia. destruct (Z.eq_dec r (- 2 ^ 63)) as [Er|Nr].
      * subst r. rewrite neg64_least. rewrite rem64_ok by lia. cbn [bind].
        change (- 2 ^ 63) with (- (2 ^ 63)). rewrite Z.rem_opp_r, Z.rem_opp_l, Z.rem_small by lia.
        rewrite wrap64_down by lia. rewrite rem64_ok by lia. cbn [bind]. f_equal. rewrite Z.rem_opp_r, Z.rem_small by lia.
        rewrite neg64_small by lia. rewrite mod_by_neg by lia. rewrite Z.opp_involutive. rewrite mod_of_neg by lia. rewrite Z.opp_involutive.
        rewrite Z.mod_small by lia. lia.
      * rewrite (neg64_small r) by lia. rewrite rem64_ok by lia. cbn [bind].
        rewrite rem_neg_pos by lia. pose proof (Z.mod_pos_bound l (- r) ltac:(lia)).
        rewrite small64 by (unfold i64; lia). rewrite rem64_ok by lia. cbn [bind]. f_equal.
        rewrite Z.rem_mod_nonneg by lia. replace (- r + - (l mod - r)) with (- r - l mod - r) by lia.
        rewrite mod_neg_pos by lia. rewrite (mod_by_neg l r) by lia. pose proof (Z.mod_pos_bound (- l) (- r) ltac:(lia)). apply neg64_small; lia.
  - destruct (Z.ltb_spec l 0).
    + rewrite rem64_ok by lia. cbn [bind]. replace l with (- (- l)) at 1 by lia. rewrite rem_neg_pos by lia.
      pose proof (Z.mod_pos_bound (- l) r ltac:(lia)). rewrite small64 by (unfold i64; lia). rewrite rem64_ok by lia. f_equal.
      rewrite Z.rem_mod_nonneg by lia. replace (r + - (- l mod r)) with (r - - l mod r) by lia. rewrite mod_neg_pos by lia. f_equal. lia.
    + rewrite rem64_ok by lia. f_equal. apply Z.rem_mod_nonneg; lia.
Qed.
Lemma wrong_mod_case r : i64 r -> r < 0 -> (- 2 ^ 63) mod r <> 0 -> r <> -1 /\ r <> - 2 ^ 63.
Proof.
  intros H H' N. split; intros ->; apply N; reflexivity.
Qed.
Lemma py_mod_i64_wrong l r : i64 r -> the_mod_is_wrong l r -> py_mod_i64 l r = Ok (- (l mod r)).
Proof.
  unfold the_mod_is_wrong. intros Hr (-> & Lr & N). destruct (wrong_mod_case r Hr Lr N) as [N1 N2]. unfold py_mod_i64.
  destruct (Z.eqb_spec r 1); [lia|]. destruct (Z.eqb_spec r (-1)); [lia|]. destruct (Z.eqb_spec (- 2 ^ 63) 0); [lia|]. cbn [orb].
  destruct (Z.eqb_spec r 0); [lia|]. destruct (Z.ltb_spec r 0); [|lia]. destruct (Z.ltb_spec (- 2 ^ 63) 0); [|lia]. unfold i64 in Hr.
  rewrite neg64_least, (neg64_small r) by lia. rewrite rem64_ok by lia. cbn [bind]. f_equal.
  rewrite (rem_neg_pos (2 ^ 63) (- r)) by lia. rewrite (mod_by_neg (- 2 ^ 63) r) by lia. rewrite !Z.opp_involutive.
  pose proof (Z.mod_pos_bound (2 ^ 63) (- r) ltac:(lia)). rewrite neg64_small by lia. lia.
Qed.

Lemma np_mod_i64_py l r : i64 l -> i64 r -> r <> 0 -> np_mod_i64 l r = py_mod_i64 l r.
Proof.
  intros Hl Hr N. unfold np_mod_i64, py_mod_i64. destruct (Z.eqb_spec r 1); [reflexivity|]. destruct (Z.eqb_spec r (-1)); [reflexivity|].
  destruct (Z.eqb_spec r 0); [contradiction|]. destruct (Z.eqb_spec l 0); [reflexivity|]. cbn [orb].
  destruct (Z.ltb_spec r 0).
  - destruct (Z.ltb_spec l 0); [reflexivity|].
    assert (py_mod_i64 l r = Ok (l mod r)) as X by (apply py_mod_i64_right; auto; intros (-> & _); unfold i64 in Hl; lia).
    unfold py_mod_i64 in X. destruct (Z.eqb_spec r 1); [lia|]. destruct (Z.eqb_spec r (-1)); [lia|]. destruct (Z.eqb_spec r 0); [lia|].
    destruct (Z.eqb_spec l 0); [lia|]. cbn [orb] in X. destruct (Z.ltb_spec r 0); [|lia]. destruct (Z.ltb_spec l 0); [lia|].
    rewrite X. clear X. unfold i64 in *. rewrite small64 by (unfold i64; lia).
    rewrite (mod_by_neg l r) by lia. rewrite (mod_of_neg (- l) (- r)) by lia. rewrite Z.opp_involutive.
    destruct (Z.eq_dec r (- 2 ^ 63)) as [Er|Nr].
    + subst r. rewrite neg64_least. rewrite rem64_ok by lia. cbn [bind]. f_equal.
      change (- 2 ^ 63) with (- (2 ^ 63)). rewrite Z.rem_opp_r, Z.rem_small by lia. rewrite (small64 (l - 1 + 1)) by (unfold i64; lia).
      rewrite wrap64_down by lia. rewrite Z.opp_involutive, Z.mod_small by lia. rewrite neg64_small; lia.
    + rewrite (neg64_small r) by lia. rewrite rem64_ok by lia. cbn [bind]. f_equal. rewrite Z.rem_mod_nonneg by lia.
      pose proof (Z.mod_pos_bound (l - 1) (- r) ltac:(lia)). rewrite (small64 (_ + 1)) by (unfold i64; lia).
      rewrite small64 by (unfold i64; lia). rewrite neg64_small; lia.
  - destruct (Z.ltb_spec l 0); [|reflexivity].
    assert (py_mod_i64 l r = Ok (l mod r)) as X by (apply py_mod_i64_right; auto; intros (_ & ? & _); lia).
    unfold py_mod_i64 in X. destruct (Z.eqb_spec r 1); [lia|]. destruct (Z.eqb_spec r (-1)); [lia|]. destruct (Z.eqb_spec r 0); [lia|].
    destruct (Z.eqb_spec l 0); [lia|]. cbn [orb] in X. destruct (Z.ltb_spec r 0); [lia|]. destruct (Z.ltb_spec l 0); [|lia].
    rewrite X. clear X. unfold i64 in *. rewrite (mod_of_neg l r) by lia.
    assert (wrap_s 64 (neg64 l - 1) = - l - 1) as ->.
    { destruct (Z.eq_dec l (- 2 ^ 63)) as [->|]; [reflexivity|]. rewrite neg64_small by lia. apply small64. unfold i64. lia. }
    rewrite rem64_ok by lia. cbn [bind]. f_equal. rewrite Z.rem_mod_nonneg by lia.
    pose proof (Z.mod_pos_bound (- l - 1) r ltac:(lia)). rewrite (small64 (_ + 1)) by (unfold i64; lia). apply small64. unfold i64. lia.
Qed.

(** ** Floor division *)
Lemma quot64_ok l r : r <> 0 -> ~ (l = - 2 ^ 63 /\ r = -1) -> quot64 l r = Ok (Z.quot l r).
Proof.
  intros H H'. unfold quot64, least64. destruct (Z.eqb_spec r 0); [lia|]. destruct (Z.eqb_spec l (- 2 ^ 63)), (Z.eqb_spec r (-1)); cbn [orb andb]; try reflexivity. tauto.
Qed.
Lemma rem64_ok' l r : r <> 0 -> ~ (l = - 2 ^ 63 /\ r = -1) -> rem64 l r = Ok (Z.rem l r).
Proof.
  intros H H'. unfold rem64, least64. destruct (Z.eqb_spec r 0); [lia|]. destruct (Z.eqb_spec l (- 2 ^ 63)), (Z.eqb_spec r (-1)); cbn [orb andb]; try reflexivity. tauto.
Qed.
Lemma least_test l : i64 l -> (l <? 0) && (l =? neg64 l) = (l =? - 2 ^ 63).
Proof.
  unfold i64. intros H. destruct (Z.eq_dec l (- 2 ^ 63)) as [->|N]; [reflexivity|]. destruct (Z.eqb_spec l (- 2 ^ 63)); [contradiction|].
  destruct (Z.ltb_spec l 0); [|reflexivity]. rewrite neg64_small by lia. cbn [andb]. lia.
Qed.
Lemma same_sign_quot l r : (0 < l /\ 0 < r) \/ (l < 0 /\ r < 0) -> Z.quot l r = l / r.
Proof.
  intros [[H1 H2]|[H1 H2]].
  - apply Z.quot_div_nonneg; lia.
  - rewrite <- (Z.opp_involutive l), <- (Z.opp_involutive r). rewrite Z.quot_opp_opp, Z.div_opp_opp by lia. apply Z.quot_div_nonneg; lia.
Qed.
Lemma floor_of_quot l r : r <> 0 -> ~ ((0 < l /\ 0 < r) \/ (l < 0 /\ r < 0)) -> l / r = if Z.rem l r =? 0 then Z.quot l r else Z.quot l r - 1.
Proof.
  intros N O. destruct (Z.eq_dec l 0) as [->|Nl]; [rewrite Z.div_0_l, Z.rem_0_l, Z.quot_0_l by exact N; reflexivity|].
  pose proof (Z.quot_rem l r N). pose proof (Z.rem_bound_abs l r N).
  assert ((0 < r -> - r < Z.rem l r <= 0) /\ (r < 0 -> 0 <= Z.rem l r < - r)) as [B1 B2].
  { split; intros; [pose proof (Z.rem_nonpos l r N)|pose proof (Z.rem_nonneg l r N)]; lia. }
  destruct (Z.eqb_spec (Z.rem l r) 0) as [E|E]; symmetry.
  - apply Z.div_unique_exact; lia.
  - apply (Z.div_unique l r _ (Z.rem l r + r)); lia.
Qed.
Lemma py_floordiv_i64_right l r : i64 l -> i64 r -> r <> 0 ->
  py_floordiv_i64 l r = Ok (wrap_s 64 (l / r)) /\ np_floordiv_i64 l r = Ok (if (l =? - 2 ^ 63) && (r =? -1) then 1 else l / r).
Proof.
  intros Hl Hr N. unfold py_floordiv_i64, np_floordiv_i64. destruct (Z.eqb_spec r 0); [contradiction|]. rewrite least_test by exact Hl.
  destruct (Z.eqb_spec l (- 2 ^ 63)) as [El|Nl], (Z.eqb_spec r (-1)) as [Er|Nr]; cbn [andb]; [subst; split; reflexivity| | |].
  all: assert (~ (l = - 2 ^ 63 /\ r = -1)) as O by tauto; rewrite !(quot64_ok l r N O), !(rem64_ok' l r N O); unfold i64 in *.
  all: assert (i64 (l / r)) as R by
      (unfold i64; destruct (Z.lt_ge_cases r 0);
       [rewrite <- (Z.opp_involutive l), <- (Z.opp_involutive r), Z.div_opp_opp by lia|];
       match goal with |- _ <= ?a / ?b < _ => pose proof (Z.div_mod a b ltac:(lia)); pose proof (Z.mod_pos_bound a b ltac:(lia)); nia end).
  all: assert (((0 <? l) && (0 <? r) || (l <? 0) && (r <? 0)) = true <-> ((0 < l /\ 0 < r) \/ (l < 0 /\ r < 0))) as S by lia.
  all: rewrite (small64 _ R); destruct ((0 <? l) && (0 <? r) || (l <? 0) && (r <? 0)); cbn [bind];
    [rewrite same_sign_quot by (apply S; reflexivity); split; reflexivity|].
  all: assert (~ ((0 < l /\ 0 < r) \/ (l < 0 /\ r < 0))) as S' by (intros X; apply S in X; discriminate).
  all: rewrite (floor_of_quot l r N S') in *; destruct (Z.rem l r =? 0); rewrite ?(small64 _ R); split; reflexivity.
Qed.

(** ** Shifts *)
Lemma shift_ok_spec r : shift_ok r = true <-> 0 <= r < 64.
Proof. unfold shift_ok. lia. Qed.
Lemma cast_lshift_neg t l r : is_int t = true -> i64 l -> 0 <= r -> cast t (neg64 (wrap_s 64 (neg64 l * 2 ^ r))) = cast t (l * 2 ^ r).
Proof.
  intros H Hl Hr. unfold neg64. rewrite cast_wrap_s64 by exact H.
  destruct (wrap_s_eq 64 (wrap_s 64 (- l) * 2 ^ r) ltac:(lia)) as [k ->]. destruct (wrap_s_eq 64 (- l) ltac:(lia)) as [j ->].
  destruct (pow_bits t H) as [m M]. rewrite M. apply (cast_congruent t _ _ (- (j * m * 2 ^ r) - k * m)); auto. ring.
Qed.
Lemma shl64_ok l r : 0 <= r < 64 -> shl64 l r = Ok (wrap_s 64 (l * 2 ^ r)).
Proof. intros H. unfold shl64. now rewrite (proj2 (shift_ok_spec r) H). Qed.
Lemma shl64_ub l r : 64 <= r -> shl64 l r = Err UndefinedBehaviour.
Proof. intros H. unfold shl64, shift_ok. destruct (Z.ltb_spec r 64); [lia|]. now rewrite andb_false_r. Qed.
Lemma shlu64_ok l r : 0 <= r < 64 -> shlu64 l r = Ok (wrap_u 64 (l * 2 ^ r)).
Proof. intros H. unfold shlu64. now rewrite (proj2 (shift_ok_spec r) H). Qed.
Lemma shlu64_ub l r : 64 <= r -> shlu64 l r = Err UndefinedBehaviour.
Proof. intros H. unfold shlu64, shift_ok. destruct (Z.ltb_spec r 64); [lia|]. now rewrite andb_false_r. Qed.
Lemma shr64_ok l r : 0 <= r < 64 -> shr64 l r = Ok (l / 2 ^ r).
Proof. intros H. unfold shr64. now rewrite (proj2 (shift_ok_spec r) H). Qed.
Lemma shr64_ub l r : 64 <= r -> shr64 l r = Err UndefinedBehaviour.
Proof. intros H. unfold shr64, shift_ok. destruct (Z.ltb_spec r 64); [lia|]. now rewrite andb_false_r. Qed.

Lemma pow_ge a b : 0 <= a <= b -> 2 ^ a <= 2 ^ b.
Proof. intros. apply Z.pow_le_mono_r; lia. Qed.
Lemma self_neg l : i64 l -> l < 0 -> (l =? neg64 l) = (l =? - 2 ^ 63).
Proof. intros H H'. rewrite <- (least_test l H). destruct (Z.ltb_spec l 0); [reflexivity|lia]. Qed.

(** What a right shift of a negative number gives. *)
Definition shifted (l r : Z) : Z := if 2 ^ r <=? - l then - ((- l) / 2 ^ r) else -1.
Lemma rshift_neg l r : i64 l -> l < 0 -> 0 < r < 64 ->
  (m <- shr64 (neg64 l) r ;; if m =? 0 then Ok (-1) else if l =? neg64 l then Ok m else Ok (neg64 m)) = Ok (shifted l r).
Proof.
  intros H N R. rewrite shr64_ok by lia. cbn [bind]. rewrite self_neg by assumption. unfold shifted. unfold i64 in H.
  assert (0 < 2 ^ r) by (apply Z.pow_pos_nonneg; lia). assert (2 ^ r <= 2 ^ 63) by (apply pow_ge; lia).
  destruct (Z.eqb_spec l (- 2 ^ 63)) as [->|Nl].
  - rewrite neg64_least. destruct (Z.leb_spec (2 ^ r) (- - 2 ^ 63)); [|lia].
    assert (2 ^ 63 = 2 ^ (63 - r) * 2 ^ r) as E by (rewrite <- Z.pow_add_r by lia; f_equal; lia).
    assert (0 < 2 ^ (63 - r)) by (apply Z.pow_pos_nonneg; lia).
    rewrite Z.opp_involutive. replace (- 2 ^ 63) with ((- 2 ^ (63 - r)) * 2 ^ r) by lia. rewrite E.
    rewrite !Z.div_mul by lia. destruct (Z.eqb_spec (- 2 ^ (63 - r)) 0); [lia|reflexivity].
  - rewrite neg64_small by lia. pose proof (Z.div_mod (- l) (2 ^ r) ltac:(lia)). pose proof (Z.mod_pos_bound (- l) (2 ^ r) ltac:(lia)).
    destruct (Z.leb_spec (2 ^ r) (- l)).
    + assert (0 < - l / 2 ^ r) by (apply Z.div_str_pos; lia). assert (- l / 2 ^ r <= - l) by (apply Z.div_le_upper_bound; nia).
      destruct (Z.eqb_spec (- l / 2 ^ r) 0); [lia|]. rewrite neg64_small by lia. reflexivity.
    + rewrite Z.div_small by lia. reflexivity.
Qed.
Lemma shifted_right l r : l < 0 -> 0 < r -> (shifted l r = l / 2 ^ r <-> ~ (2 ^ r <= - l /\ l mod 2 ^ r <> 0)).
Proof.
  intros N R. unfold shifted. assert (0 < 2 ^ r) by (apply Z.pow_pos_nonneg; lia).
  destruct (Z.leb_spec (2 ^ r) (- l)).
  - destruct (Z.eq_dec (l mod 2 ^ r) 0) as [E|E].
    + rewrite Z.div_opp_l_z by lia. split; [intros _; tauto|lia].
    + rewrite Z.div_opp_l_nz by lia. split; [lia|tauto].
  - split; [lia|]. intros _. apply (Z.div_unique l (2 ^ r) (-1) (l + 2 ^ r)); lia.
Qed.
Lemma shifted_i64 l r : i64 l -> l < 0 -> 0 < r -> l <= shifted l r < 0.
Proof.
  unfold i64, shifted. intros H N R. assert (0 < 2 ^ r) by (apply Z.pow_pos_nonneg; lia).
  destruct (Z.leb_spec (2 ^ r) (- l)); [|lia]. assert (0 < - l / 2 ^ r) by (apply Z.div_str_pos; lia). 
  assert (- l / 2 ^ r <= - l) by (apply Z.div_le_upper_bound; nia). lia.
Qed.
Lemma range_toward t l x : is_int t = true -> is_signed t = true -> in_range t l -> l <= x < 0 -> in_range t x.
Proof. destruct t; try discriminate; cbn [in_range]; lia. Qed.
Lemma range_toward_zero t l x : is_int t = true -> in_range t l -> 0 <= x <= l -> in_range t x.
Proof. destruct t; try discriminate; cbn [in_range]; lia. Qed.
Lemma floor_toward l r : 0 <= r -> l < 0 -> l <= l / 2 ^ r < 0.
Proof.
  intros R N. assert (0 < 2 ^ r) by (apply Z.pow_pos_nonneg; lia). pose proof (Z.div_mod l (2 ^ r) ltac:(lia)).
  pose proof (Z.mod_pos_bound l (2 ^ r) ltac:(lia)). nia.
Qed.
Lemma floor_toward_zero l r : 0 <= r -> 0 <= l -> 0 <= l / 2 ^ r <= l.
Proof.
  intros R N. assert (0 < 2 ^ r) by (apply Z.pow_pos_nonneg; lia). split; [apply Z.div_pos; lia|].
  apply Z.div_le_upper_bound; nia.
Qed.

Lemma agrees_in_range t x y : is_int t = true -> in_range t x -> in_range t y -> (agrees t (Ok (cast t x)) (Ok y) <-> x = y).
Proof. intros H Rx Ry. rewrite agrees_cast by exact H. now rewrite !cast_in_range by assumption. Qed.

(** ** The interpreter *)
Lemma mod_range t l r : is_int t = true -> in_range t l -> in_range t r -> r <> 0 -> in_range t (l mod r).
Proof.
  intros H Hl Hr N. destruct (Z.lt_ge_cases r 0).
  - pose proof (Z.mod_neg_bound l r ltac:(lia)). destruct t; try discriminate; cbn [in_range] in *; lia.
  - pose proof (Z.mod_pos_bound l r ltac:(lia)). destruct t; try discriminate; cbn [in_range] in *; lia.
Qed.
Lemma wrong_mod_dec l r : {the_mod_is_wrong l r} + {~ the_mod_is_wrong l r}.
Proof.
  unfold the_mod_is_wrong. destruct (Z.eq_dec l (- 2 ^ 63)), (Z_lt_dec r 0), (Z.eq_dec (l mod r) 0); try (right; tauto). left; tauto.
Qed.
Lemma mod_wrong_eq t l r : is_signed t = true -> in_range t l -> (mod_wrong t l r <-> the_mod_is_wrong l r).
Proof.
  intros S R. unfold mod_wrong, the_mod_is_wrong. split; [tauto|]. intros (E & H). split; [|tauto]. now apply (signed_narrow t l).
Qed.
Lemma signed_int t : is_signed t = true -> is_int t = true.
Proof. destruct t; cbn; congruence. Qed.
Lemma div_range t l r : is_int t = true -> is_signed t = false -> in_range t l -> in_range t r -> r <> 0 -> in_range t (l / r).
Proof.
  intros I S Hl Hr N. pose proof (unsigned_range _ _ I S Hl) as Ul. pose proof (unsigned_range _ _ I S Hr) as Ur. unfold u64 in *.
  apply (range_toward_zero t l); auto. split; [apply Z.div_pos; lia|]. apply Z.div_le_upper_bound; nia.
Qed.

Lemma interpreted_mod t l r : is_int t = true -> in_range t l -> in_range t r ->
  (agrees t (interpreted Mod t l r) (python Mod l r) <-> ~ mod_wrong t l r).
Proof.
  intros H Hl Hr. cbn [interpreted python]. destruct (Z.eqb_spec r 0) as [->|N].
  - cbn [agrees]. unfold mod_wrong. split; [lia|reflexivity].
  - destruct (is_signed t) eqn:S.
    + rewrite mod_wrong_eq by assumption. pose proof (signed_range _ _ S Hl) as Bl. pose proof (signed_range _ _ S Hr) as Br.
      destruct (wrong_mod_dec l r) as [W|W].
      * rewrite py_mod_i64_wrong by assumption. cbn [bind].
        assert (t = I64) as -> by (destruct W as (E & _); now apply (signed_narrow t l)).
        pose proof (mod_range I64 l r H Hl Hr N) as M. destruct W as (El & Lr & Nz). 
        pose proof (Z.mod_neg_bound l r Lr). unfold i64 in *. rewrite agrees_in_range; [|reflexivity|cbn [in_range]; lia|exact M].
        split; [intros E; exfalso; lia|]. intros X. exfalso. apply X. repeat split; assumption.
      * rewrite py_mod_i64_right by assumption. cbn [bind]. rewrite agrees_cast by exact H. tauto.
    + unfold py_mod_u64. destruct (Z.eqb_spec r 0); [contradiction|]. cbn [bind]. rewrite agrees_cast by exact H.
      unfold mod_wrong. split; [intros _ (-> & _); discriminate|reflexivity].
Qed.
Lemma interpreted_floordiv t l r : is_int t = true -> in_range t l -> in_range t r ->
  agrees t (interpreted FloorDiv t l r) (python FloorDiv l r).
Proof.
  intros H Hl Hr. cbn [interpreted python]. destruct (Z.eqb_spec r 0) as [->|N]; [reflexivity|]. destruct (is_signed t) eqn:S.
  - rewrite (proj1 (py_floordiv_i64_right l r (signed_range _ _ S Hl) (signed_range _ _ S Hr) N)). cbn [bind].
    rewrite agrees_cast by exact H. apply cast_wrap_s64; exact H.
  - unfold py_floordiv_u64. destruct (Z.eqb_spec r 0); [contradiction|]. cbn [bind]. now apply agrees_cast.
Qed.
Lemma lshift_ok t l r : is_int t = true -> is_signed t = true -> in_range t l -> 0 <= r < 64 ->
  exists x, (if 0 <=? l then shl64 l r else m <- shl64 (neg64 l) r ;; Ok (neg64 m)) = Ok x /\ cast t x = cast t (l * 2 ^ r).
Proof.
  intros H S Hl R. destruct (0 <=? l).
  - eexists; split; [apply shl64_ok; exact R|]. now apply cast_wrap_s64.
  - rewrite shl64_ok by exact R. cbn [bind]. eexists; split; [reflexivity|]. apply cast_lshift_neg; auto; [now apply (signed_range t)|lia].
Qed.
Lemma interpreted_lshift t l r : is_int t = true -> in_range t l -> in_range t r ->
  (agrees t (interpreted LShift t l r) (python LShift l r) <-> ~ 64 <= r).
Proof.
  intros H Hl Hr. cbn [interpreted python]. destruct (is_signed t) eqn:S.
  - unfold py_lshift_i64. destruct (Z.ltb_spec r 0); [cbn [bind agrees]; split; [lia|reflexivity]|].
    pose proof (signed_range _ _ S Hr) as Br. unfold i64, ssize_max in *.
    destruct (Z.le_gt_cases 64 r) as [G|L].
    + assert (exists e, (if (l =? 0) && (2 ^ 63 - 1 <? r) || negb (l =? 0) && (1024 <=? r) then Err ValueError
               else if 0 <=? l then shl64 l r else m <- shl64 (neg64 l) r ;; Ok (neg64 m)) = Err e) as [e ->].
      { rewrite !shl64_ub by exact G. destruct (_ || _); [eauto|]. destruct (0 <=? l); cbn [bind]; eauto. }
      cbn [bind agrees]. split; [contradiction|lia].
    + assert ((l =? 0) && (2 ^ 63 - 1 <? r) || negb (l =? 0) && (1024 <=? r) = false) as -> by lia.
      destruct (lshift_ok t l r H S Hl ltac:(lia)) as (x & -> & E). cbn [bind]. rewrite agrees_cast by exact H. split; [lia|intros _; exact E].
  - pose proof (unsigned_range _ _ H S Hr) as Br. unfold u64 in Br. destruct (Z.ltb_spec r 0); [lia|]. unfold py_lshift_u64, ssize_max.
    destruct (Z.le_gt_cases 64 r) as [G|L].
    + rewrite shlu64_ub by exact G. destruct (_ || _); cbn [bind agrees]; (split; [contradiction|lia]).
    + assert ((l =? 0) && (2 ^ 63 - 1 <? r) || negb (l =? 0) && (1024 <=? r) = false) as -> by lia.
      rewrite shlu64_ok by lia. cbn [bind]. rewrite agrees_cast by exact H. split; [lia|intros _; now apply cast_wrap_u64].
Qed.
Lemma large_shift l r : u64 l -> 64 <= r -> l / 2 ^ r = 0.
Proof. unfold u64. intros H R. apply Z.div_small. pose proof (pow_ge 64 r ltac:(lia)). lia. Qed.
Lemma rshift_value t l r : is_int t = true -> is_signed t = true -> in_range t l -> 0 < r < 64 ->
  exists x, (if 0 <=? l then shr64 l r
    else m <- shr64 (neg64 l) r ;; if m =? 0 then Ok (-1) else if l =? neg64 l then Ok m else Ok (neg64 m)) = Ok x
    /\ in_range t x /\ (x = l / 2 ^ r <-> ~ (l < 0 /\ 2 ^ r <= - l /\ l mod 2 ^ r <> 0)).
Proof.
  intros H S Hl R. pose proof (signed_range _ _ S Hl) as Bl. destruct (Z.leb_spec 0 l).
  - rewrite shr64_ok by lia. exists (l / 2 ^ r). split; [reflexivity|]. split; [apply (range_toward_zero t l); auto; apply floor_toward_zero; lia|].
    split; [lia|reflexivity].
  - rewrite rshift_neg by (auto; lia). exists (shifted l r). split; [reflexivity|].
    split; [apply (range_toward t l); auto; apply shifted_i64; auto; lia|]. rewrite shifted_right by lia. tauto.
Qed.
Lemma shift_range t l r : is_int t = true -> in_range t l -> 0 <= r -> in_range t (l / 2 ^ r).
Proof.
  intros H Hl R. destruct (Z.lt_ge_cases l 0).
  - apply (range_toward t l); auto; [destruct t; try discriminate; cbn [in_range] in Hl; try lia; reflexivity|now apply floor_toward].
  - apply (range_toward_zero t l); auto. apply floor_toward_zero; lia.
Qed.
Lemma interpreted_rshift t l r : is_int t = true -> in_range t l -> in_range t r ->
  (agrees t (interpreted RShift t l r) (python RShift l r) <-> ~ rshift_wrong t l r).
Proof.
  intros H Hl Hr. cbn [interpreted python]. unfold rshift_wrong. destruct (is_signed t) eqn:S.
  - unfold py_rshift_i64. destruct (Z.ltb_spec r 0); [cbn [bind agrees]; split; [lia|reflexivity]|].
    pose proof (signed_range _ _ S Hr) as Br. pose proof (signed_range _ _ S Hl) as Bl. unfold i64, ssize_max in *.
    destruct (Z.ltb_spec (2 ^ 63 - 1) r); [lia|]. destruct (Z.eqb_spec r 0) as [->|N].
    + cbn [bind]. rewrite Z.div_1_r. rewrite agrees_cast by exact H. split; [|reflexivity]. intros _ [X|(_ & _ & _ & X)]; [lia|]. apply X, Z.mod_1_r.
    + destruct (Z.le_gt_cases 64 r) as [G|L].
      * rewrite !shr64_ub by exact G. destruct (0 <=? l); cbn [bind agrees]; (split; [contradiction|lia]).
      * destruct (rshift_value t l r H S Hl ltac:(lia)) as (x & -> & Rx & E). cbn [bind].
        rewrite agrees_in_range; auto; [|apply shift_range; auto]. rewrite E. split; [|tauto]. intros X [?|?]; [lia|tauto].
  - pose proof (unsigned_range _ _ H S Hr) as Br. pose proof (unsigned_range _ _ H S Hl) as Bl. unfold py_rshift_u64, ssize_max.
    destruct (Z.ltb_spec r 0); [unfold u64 in Br; lia|]. destruct (Z.ltb_spec (2 ^ 63 - 1) r); [cbn [bind agrees]; split; [contradiction|lia]|].
    assert ((if r =? 0 then Ok l else if 64 <=? r then Ok 0 else shr64 l r) = Ok (l / 2 ^ r)) as ->.
    { destruct (Z.eqb_spec r 0) as [->|]; [now rewrite Z.div_1_r|]. destruct (Z.leb_spec 64 r); [now rewrite large_shift|]. apply shr64_ok. lia. }
    cbn [bind]. rewrite agrees_cast by exact H. split; [lia|reflexivity].
Qed.

Lemma interpreted_exact : forall o t l r, is_int t = true -> integer_op o = true -> in_range t l -> in_range t r ->
  (agrees t (interpreted o t l r) (python o l r) <-> ~ interpreter_wrong o t l r).
Proof.
  intros o t l r H I Hl Hr. destruct o; try discriminate I; cbn [interpreter_wrong].
  1-3,8-10: cbn [interpreted python]; rewrite agrees_cast by exact H; tauto.
  - split; [tauto|intros _; now apply interpreted_floordiv].
  - now apply interpreted_mod.
  - now apply interpreted_lshift.
  - now apply interpreted_rshift.
Qed.

(** ** Compiled code *)
Lemma compiled_lshift_same t l r : is_int t = true -> in_range t l -> in_range t r ->
  (compiled LShift t l r = interpreted LShift t l r <-> ~ they_differ LShift t l r).
Proof.
  intros H Hl Hr. cbn [compiled interpreted they_differ]. destruct (is_signed t) eqn:S.
  - unfold np_lshift_i64, py_lshift_i64. pose proof (signed_range _ _ S Hr) as Br. unfold i64, ssize_max in *.
    destruct (Z.ltb_spec r 0); [cbn [bind]; split; [lia|reflexivity]|].
    destruct (Z.eqb_spec l 0) as [->|N]; cbn [negb andb orb].
    + destruct (Z.ltb_spec (2 ^ 63 - 1) r); [lia|]. cbn [Z.leb Z.compare]. destruct (Z.le_gt_cases 64 r).
      * rewrite shl64_ub by assumption. cbn [bind]. split; [discriminate|lia].
      * rewrite shl64_ok by lia. cbn [bind]. rewrite !cast_wrap_s64 by exact H. rewrite Z.mul_0_l. split; [lia|reflexivity].
    + destruct (Z.leb_spec 1024 r); [cbn [bind]; split; [discriminate|lia]|].
      split; [lia|]. intros _. destruct (if 0 <=? l then shl64 l r else _); cbn [bind]; [|reflexivity]. now rewrite cast_wrap_s64.
  - unfold np_lshift_u64, py_lshift_u64, ssize_max. pose proof (unsigned_range _ _ H S Hr) as Br. unfold u64 in Br.
    assert ((l =? 0) && (2 ^ 63 - 1 <? r) || negb (l =? 0) && (1024 <=? r) = true <-> (l <> 0 /\ 1024 <= r \/ l = 0 /\ 2 ^ 63 <= r)) as E by lia.
    destruct (_ || _); cbn [bind].
    + split; [discriminate|]. intros X. exfalso. apply X, E. reflexivity.
    + split; [|intros _; destruct (shlu64 l r); cbn [bind]; [now rewrite cast_wrap_s64|reflexivity]]. intros _ X. apply E in X. discriminate.
Qed.
Lemma compiled_rshift_same t l r : is_int t = true -> in_range t l -> in_range t r ->
  (compiled RShift t l r = interpreted RShift t l r <-> ~ 2 ^ 63 <= r).
Proof.
  intros H Hl Hr. cbn [compiled interpreted]. destruct (is_signed t) eqn:S.
  - unfold np_rshift_i64, py_rshift_i64. pose proof (signed_range _ _ S Hr) as Br. unfold i64, ssize_max in *.
    destruct (Z.ltb_spec (2 ^ 63 - 1) r); [lia|]. split; [lia|]. intros _. destruct (r <? 0); [reflexivity|].
    destruct (if r =? 0 then Ok l else _); cbn [bind]; [now rewrite cast_wrap_s64|reflexivity].
  - unfold np_rshift_u64, py_rshift_u64, ssize_max. destruct (Z.ltb_spec (2 ^ 63 - 1) r); [cbn [bind]; split; [discriminate|lia]|].
    split; [lia|]. intros _. destruct (if r =? 0 then Ok l else _); cbn [bind]; [now rewrite cast_wrap_s64|reflexivity].
Qed.
Lemma compiled_mod_same t l r : is_int t = true -> in_range t l -> in_range t r -> compiled Mod t l r = interpreted Mod t l r.
Proof.
  intros H Hl Hr. cbn [compiled interpreted]. destruct (Z.eqb_spec r 0) as [->|N]; [reflexivity|]. destruct (is_signed t) eqn:S.
  - rewrite np_mod_i64_py; auto; now apply (signed_range t).
  - unfold np_mod_u64, py_mod_u64. pose proof (unsigned_range _ _ H S Hr) as Br. unfold u64 in Br. destruct (Z.eqb_spec r 0); [contradiction|].
    destruct (Z.eqb_spec r 1) as [->|]; [now rewrite Z.mod_1_r|]. destruct (Z.eqb_spec l 0) as [->|]; [now rewrite Z.mod_0_l|].
    cbn [orb bind]. now rewrite cast_wrap_s64.
Qed.
Lemma compiled_floordiv_same t l r : is_int t = true -> in_range t l -> in_range t r ->
  (compiled FloorDiv t l r = interpreted FloorDiv t l r <-> ~ (t = I64 /\ l = - 2 ^ 63 /\ r = -1)).
Proof.
  intros H Hl Hr. cbn [compiled interpreted]. destruct (is_signed t) eqn:S.
  - destruct (Z.eqb_spec r 0) as [->|N]; [cbn; split; [lia|reflexivity]|].
    destruct (py_floordiv_i64_right l r (signed_range _ _ S Hl) (signed_range _ _ S Hr) N) as [-> ->]. cbn [bind].
    destruct (Z.eqb_spec l (- 2 ^ 63)) as [El|Nl], (Z.eqb_spec r (-1)) as [Er|Nr]; cbn [andb]; [|rewrite cast_wrap_s64 by exact H; split; [tauto|reflexivity]..].
    assert (t = I64) as -> by now apply (signed_narrow t l). subst. split; [discriminate|tauto].
  - destruct (Z.eqb_spec r 0) as [->|N]; [split; [intros _ (-> & _); discriminate|reflexivity]|]. unfold py_floordiv_u64.
    destruct (Z.eqb_spec r 0); [contradiction|]. cbn [bind]. rewrite cast_in_range by (auto using div_range). split; [intros _ (-> & _); discriminate|reflexivity].
Qed.
Lemma compiled_same : forall o t l r, is_int t = true -> integer_op o = true -> in_range t l -> in_range t r ->
  (compiled o t l r = interpreted o t l r <-> ~ they_differ o t l r).
Proof.
  intros o t l r H I Hl Hr. destruct o; try discriminate I.
  1-3,8-10: cbn [interpreted compiled they_differ]; tauto.
  - now apply compiled_floordiv_same.
  - cbn [they_differ]. split; [tauto|intros _; now apply compiled_mod_same].
  - now apply compiled_lshift_same.
  - now apply compiled_rshift_same.
Qed.

Lemma compiled_exact : forall o t l r, is_int t = true -> integer_op o = true -> in_range t l -> in_range t r ->
  (agrees t (compiled o t l r) (python o l r) <-> ~ compiled_wrong o t l r).
Proof.
  intros o t l r H I Hl Hr. pose proof (compiled_same o t l r H I Hl Hr) as D. pose proof (interpreted_exact o t l r H I Hl Hr) as E.
  destruct o; try discriminate I; cbn [they_differ interpreter_wrong compiled_wrong] in *.
  1-3,5,8-10: rewrite (proj2 D) by tauto; exact E.
  - assert ({t = I64 /\ l = - 2 ^ 63 /\ r = -1} + {~ (t = I64 /\ l = - 2 ^ 63 /\ r = -1)}) as [X|X].
    { destruct (Z.eq_dec l (- 2 ^ 63)), (Z.eq_dec r (-1)); try (right; tauto). destruct t; try (right; intros (? & _); discriminate). left; tauto. }
    + destruct X as (-> & -> & ->). split; [|tauto]. change (agrees I64 (Ok 1) (Ok (2 ^ 63)) -> ~ (I64 = I64 /\ - 2 ^ 63 = - 2 ^ 63 /\ -1 = -1)).
      intros [_ [k K]]. cbn [bits] in K. exfalso. lia.
    + rewrite (proj2 D X). tauto.
  - destruct (Z.le_gt_cases 64 r) as [G|L].
    + cbn [compiled python]. destruct (Z.ltb_spec r 0); [lia|]. destruct (is_signed t) eqn:S.
      * unfold np_lshift_i64. destruct (Z.ltb_spec r 0); [lia|]. destruct (Z.eqb_spec l 0) as [->|N].
        -- cbn [bind]. rewrite cast_wrap_s64, agrees_cast by exact H. rewrite Z.mul_0_l. split; [intros _ (_ & X); now apply X|reflexivity].
        -- rewrite !shl64_ub by exact G. split; [|intros X; exfalso; apply X; split; [exact G|intros _; exact N]].
           destruct (1024 <=? r), (0 <=? l); cbn [bind agrees]; contradiction.
      * unfold np_lshift_u64. rewrite shlu64_ub by exact G. split; [|intros X; exfalso; apply X; split; [exact G|discriminate]].
        destruct (_ || _); cbn [bind agrees]; contradiction.
    + rewrite (proj2 D); [rewrite E; split; intros; lia|]. destruct (is_signed t); lia.
  - destruct (Z.le_gt_cases (2 ^ 63) r) as [G|L]; [|rewrite (proj2 D) by lia; exact E].
    destruct (is_signed t) eqn:S; [pose proof (signed_range _ _ S Hr) as X; unfold i64 in X; lia|].
    unfold rshift_wrong. rewrite S. split; [|lia]. cbn [compiled python]. rewrite S. unfold np_rshift_u64, ssize_max.
    destruct (Z.ltb_spec (2 ^ 63 - 1) r); [|lia]. destruct (Z.ltb_spec r 0); [lia|]. cbn [bind agrees]. contradiction.
Qed.
