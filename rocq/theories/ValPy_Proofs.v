(** Proofs about comparisons with Python values.  Property C52. *)
From Coq Require Import ZifyBool ZifyNat.
From Verif Require Import Base ConstDict_Model Arith_Model Arith_Spec Arith_Proofs Arith_Mixed_Proofs.
From Verif Require Import Val_Model Val_Spec Val_Proofs ValPy_Model ValPy_Spec.
Open Scope Z_scope.
Open Scope result_scope.

(** ** Induction *)

Lemma tval_ind2 (P : tval -> Prop) :
  P TvNone -> (forall r z, P (TvReg r z)) -> (forall b, P (TvFloat b)) -> (forall p w l, P (TvStr p w l)) ->
  (forall l, P (TvBytes l)) -> (forall vs, Forall P vs -> P (TvTupleOf vs)) -> (forall vs, Forall P vs -> P (TvListOf vs)) ->
  (forall vs, Forall P vs -> P (TvTuple vs)) -> (forall i v, P v -> P (TvOneOf i v)) -> (forall v, P v -> P (TvConst v)) ->
  forall v, P v.
Proof.
  intros H1 H2 H3 H4 H5 H6 H7 H8 H9 H10.
  fix F 1; intros v; destruct v as [|r z|b|p w l|l|vs|vs|vs|i v|v].
  - exact H1.
  - exact (H2 r z).
  - exact (H3 b).
  - exact (H4 p w l).
  - exact (H5 l).
  - apply H6; induction vs; constructor; [apply F | assumption].
  - apply H7; induction vs; constructor; [apply F | assumption].
  - apply H8; induction vs; constructor; [apply F | assumption].
  - exact (H9 i v (F v)).
  - exact (H10 v (F v)).
Qed.

(** ** Doubles *)

Definition num_value (x : num) : option Z :=
  match x with NaN => None | MinusInfinity => Some (- 2 ^ 2098) | Finite x => Some x | Infinity => Some (2 ^ 2098) end.
Lemma float_num_value bits : num_value (float_num bits) = float_value bits.
Proof.
  unfold float_num, float_value, num_value.
  destruct (_ =? 2047); [destruct (_ =? 0); [destruct (_ <=? bits)|]; reflexivity|].
  destruct (_ =? 0); reflexivity.
Qed.
Lemma float_num_bound bits : match float_num bits with Finite x => - 2 ^ 2098 < x < 2 ^ 2098 | _ => True end.
Proof.
  unfold float_num. assert (B := Z.mod_pos_bound (bits / 2 ^ 52) (2 ^ 11) ltac:(lia)).
  assert (C := Z.mod_pos_bound bits (2 ^ 52) ltac:(lia)).
  set (e := bits / 2 ^ 52 mod 2 ^ 11) in *; set (m := bits mod 2 ^ 52) in *; clearbody e m.
  destruct (Z.eqb_spec e 2047); [destruct (_ =? 0); [destruct (_ <=? _)|]; exact I|].
  assert (H : 0 <= (if e =? 0 then m else (2 ^ 52 + m) * 2 ^ (e - 1)) < 2 ^ 2098).
  { destruct (Z.eqb_spec e 0).
    - split; [lia|]. apply Z.lt_le_trans with (2 ^ 52); [lia|]. apply Z.pow_le_mono_r; lia.
    - assert (0 < 2 ^ (e - 1)) by (apply Z.pow_pos_nonneg; lia). split; [lia|].
      apply Z.lt_le_trans with (2 ^ 53 * 2 ^ (e - 1)); [apply Z.mul_lt_mono_pos_r; lia|].
      rewrite <- Z.pow_add_r by lia. apply Z.pow_le_mono_r; lia. }
  destruct (_ <=? _); lia.
Qed.
Lemma num_compare_value op a b : num_compare op (float_num a) (float_num b) =
  match float_value a, float_value b with
  | Some x, Some y => cmp_result op (sign x y)
  | _, _ => match op with NE => true | _ => false end
  end.
Proof.
  rewrite <- !float_num_value.
  generalize (float_num_bound a) (float_num_bound b).
  destruct (float_num a) as [| |x|], (float_num b) as [| |y|]; intros Ba Bb; cbn [num_value]; try (destruct op; reflexivity).
  - set (M := 2 ^ 2098) in *; clearbody M. replace (sign (- M) y) with (-1) by (pose proof (sign_cases (- M) y); lia). destruct op; reflexivity.
  - set (M := 2 ^ 2098) in *; clearbody M. replace (sign x (- M)) with 1 by (pose proof (sign_cases x (- M)); lia). destruct op; reflexivity.
  - clear. unfold sign. destruct op; cbn [num_compare num_lt num_eq cmp_result];
      destruct (Z.ltb_spec x y), (Z.ltb_spec y x); try lia; destruct (Z.eqb_spec x y); try lia; reflexivity.
  - set (M := 2 ^ 2098) in *; clearbody M. replace (sign x M) with (-1) by (pose proof (sign_cases x M); lia). destruct op; reflexivity.
  - set (M := 2 ^ 2098) in *; clearbody M. replace (sign M y) with 1 by (pose proof (sign_cases M y); lia). destruct op; reflexivity.
Qed.
Lemma c_compare_num op a b : 0 <= a < 2 ^ 64 -> 0 <= b < 2 ^ 64 ->
  c_compare op a b = num_compare op (float_num a) (float_num b).
Proof.
  intros Ha Hb; rewrite num_compare_value, !float_value_place by auto; unfold c_compare.
  destruct (float_place a), (float_place b); rewrite ?spread_signed_sign; reflexivity.
Qed.

Lemma double_small z : Z.abs z <= 2 ^ 53 -> 0 <= double_of_int z < 2 ^ 64 /\ float_num (double_of_int z) = Finite (z * unit_).
Proof.
  intros H. destruct (Z.eq_dec z 0) as [->|N]; [vm_compute; repeat split; congruence|].
  destruct (Z.eq_dec z (2 ^ 53)) as [->|N1]; [vm_compute; repeat split; congruence|].
  destruct (Z.eq_dec z (- 2 ^ 53)) as [->|N2]; [vm_compute; repeat split; congruence|].
  unfold double_of_int. replace (z =? 0) with false by lia.
  set (n := Z.abs z) in *. assert (Hn : 0 < n < 2 ^ 53) by lia.
  destruct (Z.log2_spec n) as [L1 L2]; [lia|].
  assert (K0 := Z.log2_nonneg n). assert (K1 : Z.log2 n < 53) by (apply Z.log2_lt_pow2; lia).
  set (k := Z.log2 n) in *; clearbody k. replace (k <=? 52) with true by lia.
  assert (P : 2 ^ k * 2 ^ (52 - k) = 2 ^ 52) by (rewrite <- Z.pow_add_r by lia; f_equal; lia).
  rewrite Z.pow_succ_r in L2 by lia.
  assert (Q : 0 < 2 ^ (52 - k)) by (apply Z.pow_pos_nonneg; lia).
  set (f := n * 2 ^ (52 - k)).
  assert (F : 2 ^ 52 <= f < 2 ^ 53) by (subst f; nia).
  assert (G : f * 2 ^ (k + 1022) = n * unit_).
  { subst f; unfold unit_. rewrite <- Z.mul_assoc, <- Z.pow_add_r by lia. do 2 f_equal; lia. }
  clearbody f. set (s := if z <? 0 then 2 ^ 63 else 0).
  set (bits := s + (k + 1023) * 2 ^ 52 + (f - 2 ^ 52)).
  assert (B1 : bits mod 2 ^ 52 = f - 2 ^ 52).
  { subst bits s. destruct (z <? 0); lia. }
  assert (B2 : bits / 2 ^ 52 mod 2 ^ 11 = k + 1023).
  { subst bits s. destruct (z <? 0); lia. }
  assert (B3 : (2 ^ 63 <=? bits) = (z <? 0)).
  { subst bits s. destruct (z <? 0); lia. }
  split; [subst bits s; destruct (z <? 0); lia|].
  unfold float_num; rewrite B1, B2, B3.
  replace (k + 1023 =? 2047) with false by lia. replace (k + 1023 =? 0) with false by lia.
  replace (2 ^ 52 + (f - 2 ^ 52)) with f by lia. replace (k + 1023 - 1) with (k + 1022) by lia. rewrite G.
  f_equal. subst n. destruct (Z.ltb_spec z 0); nia.
Qed.

(** ** Integers *)

Lemma unit_pos : 0 < unit_.
Proof. reflexivity. Qed.
Lemma compare_num op x y : Arith_Model.compare (to_cmp op) x y = num_compare op (Finite (x * unit_)) (Finite (y * unit_)).
Proof.
  pose proof unit_pos as U. set (u := unit_) in *; clearbody u.
  assert (L : forall a b, (a * u <? b * u) = (a <? b)) by (intros a b; destruct (Z.ltb_spec a b), (Z.ltb_spec (a * u) (b * u)); nia).
  assert (E : forall a b, (a * u =? b * u) = (a =? b)) by (intros a b; destruct (Z.eqb_spec a b), (Z.eqb_spec (a * u) (b * u)); nia).
  destruct op; cbn [to_cmp Arith_Model.compare num_compare num_lt num_eq]; rewrite ?L, ?E; lia.
Qed.
Lemma c_integer_compare op r x z : is_float r = false -> in_range r x -> exact_numbers (TvReg r x) (PInt z) ->
  (let (s, y) := c_integer z in interpreted_compare (to_cmp op) r s x y) = num_compare op (Finite (x * unit_)) (Finite (z * unit_)).
Proof.
  intros F X E; cbn in E; rewrite <- compare_num; unfold c_integer.
  destruct ((_ <=? z) && (z <? _)) eqn:R.
  - destruct E as [E|E]; [|lia]. destruct E as [E1 E2].
    destruct r; try discriminate F; unfold interpreted_compare; cbn [promotes_to];
      rewrite !cast_in_range by (cbn in *; lia); reflexivity.
  - destruct E as [E|[-> E]]; [lia|]. replace (wrap_u 64 z) with z by (unfold wrap_u; lia).
    unfold interpreted_compare; cbn [promotes_to]. rewrite !cast_in_range by (cbn in *; lia). reflexivity.
Qed.
Lemma bool_compare op r x b : is_float r = false -> in_range r x ->
  interpreted_compare (to_cmp op) r Bool x (Z.b2z b) = num_compare op (Finite (x * unit_)) (Finite (Z.b2z b * unit_)).
Proof.
  intros F X; rewrite <- compare_num. apply compare_exact; auto.
  - destruct r; try discriminate F; reflexivity.
  - destruct r; try discriminate F; reflexivity.
  - destruct b; cbn; auto.
Qed.

(** ** Strings *)

Lemma points_eq_iff : forall l r, points_eq l r = true <-> l = r.
Proof.
  induction l as [|x l IH]; intros [|y r]; cbn; split; try congruence.
  - rewrite andb_true_iff, IH, Z.eqb_eq. intros [-> ->]; reflexivity.
  - intros [= -> ->]; rewrite andb_true_iff, IH, Z.eqb_eq; auto.
Qed.
Lemma points_eq_refl l : points_eq l l = true.
Proof. apply points_eq_iff; reflexivity. Qed.
Lemma points_eq_sym l r : points_eq l r = points_eq r l.
Proof. apply eq_true_iff_eq; rewrite !points_eq_iff; split; auto. Qed.
(** The sign of the dictionary order *)
Fixpoint points_sign (l r : list Z) : Z :=
  match l, r with
  | [], [] => 0 | [], _ => -1 | _, [] => 1
  | x :: l, y :: r => if x <? y then -1 else if y <? x then 1 else points_sign l r
  end.
Lemma points_sign_lt : forall l r, points_lt l r = (points_sign l r <? 0) /\ points_lt r l = (0 <? points_sign l r) /\
  points_eq l r = (points_sign l r =? 0).
Proof.
  induction l as [|x l IH]; intros [|y r]; cbn; auto.
  destruct (IH r) as (I1 & I2 & I3); rewrite I1, I2, I3.
  destruct (Z.ltb_spec x y), (Z.ltb_spec y x); try lia;
    destruct (Z.eqb_spec x y), (Z.eqb_spec y x); try lia; cbn; auto.
Qed.
Lemma points_compare_sign op l r : points_compare op l r = cmp_result op (points_sign l r).
Proof. destruct (points_sign_lt l r) as (I1 & I2 & I3). destruct op; cbn; rewrite ?I1, ?I2, ?I3; lia. Qed.
Lemma points_sign_array l r :
  points_sign l r = (let res := array_compare l r in if negb (res =? 0) then res else sign (Z.of_nat (length l)) (Z.of_nat (length r))).
Proof.
  cbv zeta. revert r; induction l as [|x l IH]; intros [|y r]; cbn [array_compare points_sign].
  - reflexivity.
  - cbn. unfold sign; cbn [length]. destruct (Z.ltb_spec 0 (Z.of_nat (S (length r)))); lia.
  - cbn. unfold sign; cbn [length]. destruct (Z.ltb_spec (Z.of_nat (S (length l))) 0), (Z.ltb_spec 0 (Z.of_nat (S (length l)))); lia.
  - destruct (x <? y); [reflexivity|]. destruct (y <? x); [reflexivity|]. rewrite IH.
    destruct (negb _); [reflexivity|]. cbn [length]. set (a := length l); set (b := length r).
    pose proof (sign_cases (Z.of_nat a) (Z.of_nat b)); pose proof (sign_cases (Z.of_nat (S a)) (Z.of_nat (S b))). lia.
Qed.

Lemma memcmp_refl l : memcmp l l = 0.
Proof. induction l as [|x l IH]; cbn; rewrite ?Z.eqb_refl; auto. Qed.
Lemma memcmp_spec : forall l r, Forall (fun x => 0 <= x < 256) l -> Forall (fun x => 0 <= x < 256) r -> length l = length r ->
  (wrap_s 8 (memcmp l r) =? 0) = points_eq l r.
Proof.
  induction l as [|x l IH]; intros [|y r] Hl Hr; cbn [length]; try discriminate; [reflexivity|].
  inversion_clear Hl as [|? ? Bx Bl]; inversion_clear Hr as [|? ? By Br]. intros [= L].
  cbn [memcmp points_eq]. destruct (Z.eqb_spec x y) as [->|N]; cbn [andb]; auto.
  unfold wrap_s; cbv zeta. destruct (Z.ltb_spec ((x - y) mod 2 ^ 8) (2 ^ (8 - 1))); lia.
Qed.

Lemma le_bytes_length n z : length (le_bytes n z) = n.
Proof. revert z; induction n as [|n IH]; intros z; cbn; f_equal; auto. Qed.
Lemma le_bytes_range : forall n z, Forall (fun x => 0 <= x < 256) (le_bytes n z).
Proof. induction n as [|n IH]; intros z; cbn [le_bytes]; constructor; auto. apply Z.mod_pos_bound; lia. Qed.
Lemma le_bytes_inj : forall n x y, 0 <= x < 256 ^ Z.of_nat n -> 0 <= y < 256 ^ Z.of_nat n -> le_bytes n x = le_bytes n y -> x = y.
Proof.
  induction n as [|n IH]; intros x y Hx Hy; [cbn in *; lia|].
  rewrite Nat2Z.inj_succ, Z.pow_succ_r in * by lia. cbn [le_bytes]. intros [= E1 E2].
  assert (D : x / 256 = y / 256).
  { apply IH; auto; split; try (apply Z.div_pos; lia); apply Z.div_lt_upper_bound; lia. }
  rewrite (Z.div_mod x 256), (Z.div_mod y 256) by lia. congruence.
Qed.
Lemma string_bytes_length w : forall l, length (string_bytes w l) = (Z.to_nat w * length l)%nat.
Proof.
  unfold string_bytes. induction l as [|x l IH]; cbn [map concat length]; [lia|].
  rewrite app_length, IH, le_bytes_length; lia.
Qed.
Lemma string_bytes_range w l : Forall (fun x => 0 <= x < 256) (string_bytes w l).
Proof.
  unfold string_bytes; induction l as [|x l IH]; cbn [map concat]; [constructor|].
  apply Forall_app; split; auto using le_bytes_range.
Qed.
Lemma string_bytes_inj w : 0 <= w -> forall l r, Forall (fun x => 0 <= x < 256 ^ w) l -> Forall (fun x => 0 <= x < 256 ^ w) r ->
  length l = length r -> string_bytes w l = string_bytes w r -> l = r.
Proof.
  intros W; unfold string_bytes; induction l as [|x l IH]; intros [|y r] Hl Hr; cbn [length map concat]; try discriminate; auto.
  inversion_clear Hl as [|? ? Bx Bl]; inversion_clear Hr as [|? ? By Br]. intros [= L] E.
  assert (A : le_bytes (Z.to_nat w) x = le_bytes (Z.to_nat w) y /\
              concat (map (le_bytes (Z.to_nat w)) l) = concat (map (le_bytes (Z.to_nat w)) r)).
  { assert (Lx := le_bytes_length (Z.to_nat w) x); assert (Ly := le_bytes_length (Z.to_nat w) y).
    assert (A1 := f_equal (firstn (Z.to_nat w)) E); assert (A2 := f_equal (skipn (Z.to_nat w)) E).
    rewrite !firstn_app, !Lx, !Ly, Nat.sub_diag in A1. rewrite !skipn_app, !Lx, !Ly, Nat.sub_diag in A2.
    cbn [firstn skipn] in A1, A2.
    rewrite !app_nil_r, !firstn_all2 in A1 by lia. rewrite !skipn_all2 in A2 by lia. auto. }
  destruct A as [A1 A2]. f_equal; auto. apply (le_bytes_inj (Z.to_nat w)); rewrite ?Z2Nat.id by lia; auto.
Qed.

Lemma kind_bound points : Forall (fun x => 0 <= x < 0x110000) points -> Forall (fun x => 0 <= x < 256 ^ kind points) points.
Proof.
  intros H; unfold kind. destruct (forallb _ points) eqn:E1; [|clear E1; destruct (forallb _ points) eqn:E2].
  - rewrite forallb_forall in E1. rewrite Forall_forall in *. intros x I. specialize (E1 x I); specialize (H x I). lia.
  - rewrite forallb_forall in E2. rewrite Forall_forall in *. intros x I. specialize (E2 x I); specialize (H x I). lia.
  - rewrite Forall_forall in *. intros x I. specialize (H x I). lia.
Qed.
Lemma length_differ (l r : list Z) : length l <> length r -> points_eq l r = false.
Proof. intros N. destruct (points_eq l r) eqn:E; auto. apply points_eq_iff in E as ->; congruence. Qed.

(** Equality with a string is right, and so is any operator if the widths differ. *)
Lemma string_data_right p l r : (p = 0 -> l = []) -> (p = 0 -> r <> []) -> string_data_sign p l r = points_sign l r.
Proof.
  intros H1 H2; unfold string_data_sign. destruct (Z.eqb_spec p 0) as [E|E].
  - rewrite (H1 E). destruct r; [exfalso; apply (H2 E); reflexivity|reflexivity].
  - symmetry; apply points_sign_array.
Qed.
Lemma string_right op p width l r : well_formed (TvStr p width l) -> Forall (fun x => 0 <= x < 0x110000) r ->
  op = EQ \/ op = NE \/ l = r \/ kind r <> (if p =? 0 then 1 else width) ->
  compare_string p width l (PStr r) op = Ok (points_compare op l r).
Proof.
  intros (H1 & H2 & H3) Hr Ho; unfold compare_string; f_equal.
  set (w := if p =? 0 then 1 else width) in *.
  destruct (Z.eqb_spec (kind r) w) as [K|K]; cbn [negb].
  - assert (S : op = EQ \/ op = NE \/ l = r) by (destruct Ho as [Ho|[Ho|[Ho|Ho]]]; auto; contradiction). clear Ho.
    assert (Bl : Forall (fun x => 0 <= x < 256 ^ w) l).
    { subst w. destruct (Z.eqb_spec p 0) as [E|E]; auto. rewrite (H1 E). constructor. }
    assert (Br := kind_bound r Hr). rewrite K in Br.
    assert (W : 0 <= w) by (subst w; destruct (p =? 0); [lia|]; cbn in H2; lia).
    clearbody w.
    destruct (Z.ltb_spec (Z.of_nat (length r)) (Z.of_nat (length l))) as [L|L].
    { assert (E := length_differ l r ltac:(lia)). destruct S as [->|[->| ->]]; cbn; rewrite ?E; try reflexivity. lia. }
    destruct (Z.ltb_spec (Z.of_nat (length l)) (Z.of_nat (length r))) as [L'|L'].
    { assert (E := length_differ l r ltac:(lia)). destruct S as [->|[->| ->]]; cbn; rewrite ?E; try reflexivity. lia. }
    assert (Len : length r = length l) by lia.
    assert (M : (wrap_s 8 (memcmp (string_bytes w r) (string_bytes w l)) =? 0) = points_eq l r).
    { rewrite memcmp_spec; auto using string_bytes_range; [|rewrite !string_bytes_length; lia].
      apply eq_true_iff_eq; rewrite !points_eq_iff. split; [|congruence].
      intros E; symmetry; apply (string_bytes_inj w W); auto. }
    destruct S as [->|[->| ->]]; cbn [cmp_result points_compare]; rewrite ?M; auto.
    rewrite memcmp_refl, points_compare_sign. destruct (points_sign_lt r r) as (_ & _ & Z3).
    rewrite points_eq_refl in Z3. replace (points_sign r r) with 0 by lia. reflexivity.
  - rewrite points_compare_sign. f_equal. apply string_data_right; auto.
    intros E ->; apply K; subst w. rewrite E; reflexivity.
Qed.
Lemma bytes_right op l r : Forall (fun x => 0 <= x < 256) l -> Forall (fun x => 0 <= x < 256) r ->
  op = EQ \/ op = NE \/ l = r -> compare_bytes l (PBytes r) op = Ok (points_compare op l r).
Proof.
  intros Bl Br S; unfold compare_bytes; f_equal.
  destruct (Z.ltb_spec (Z.of_nat (length r)) (Z.of_nat (length l))) as [L|L].
  { assert (E := length_differ l r ltac:(lia)). destruct S as [->|[->| ->]]; cbn; rewrite ?E; try reflexivity. lia. }
  destruct (Z.ltb_spec (Z.of_nat (length l)) (Z.of_nat (length r))) as [L'|L'].
  { assert (E := length_differ l r ltac:(lia)). destruct S as [->|[->| ->]]; cbn; rewrite ?E; try reflexivity. lia. }
  assert (M : (wrap_s 8 (memcmp r l) =? 0) = points_eq l r) by (rewrite memcmp_spec by (auto; lia); apply points_eq_sym).
  destruct S as [->|[->| ->]]; cbn [cmp_result points_compare]; rewrite ?M; auto.
  rewrite memcmp_refl, points_compare_sign. destruct (points_sign_lt r r) as (_ & _ & Z3).
  rewrite points_eq_refl in Z3. replace (points_sign r r) with 0 by lia. reflexivity.
Qed.
