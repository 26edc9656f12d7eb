(** Properties C28, C29, C30 and C50: arithmetic, result types, upcasts and comparison of register types. *)
From Coq Require Import QArith Floats.SpecFloat.
From Verif Require Import Base Arith_Model Arith_Spec Arith_Proofs Arith_Mixed_Proofs Upcast_Model Upcast_Spec Upcast_Proofs.
Open Scope Z_scope.

(** ** C28: integer operators follow Python *)

(** For two operands of one type the interpreter gives Python's result, or raises Python's exception, except
    for the operands of [interpreter_wrong]; and for those it does not. *)
Theorem C28_interpreted_partial : forall o t l r, is_int t = true -> integer_op o = true -> in_range t l -> in_range t r ->
  (agrees t (interpreted o t l r) (python o l r) <-> ~ interpreter_wrong o t l r).
Proof. exact interpreted_exact. Qed.
Print Assumptions C28_interpreted_partial.
(** The same for compiled code. *)
Theorem C28_compiled_partial : forall o t l r, is_int t = true -> integer_op o = true -> in_range t l -> in_range t r ->
  (agrees t (compiled o t l r) (python o l r) <-> ~ compiled_wrong o t l r).
Proof. exact compiled_exact. Qed.
Print Assumptions C28_compiled_partial.
(** Compiled code and the interpreter give the same result or exception, except for [they_differ]. *)
Theorem C28_compiled_and_interpreted_partial : forall o t l r,
  is_int t = true -> integer_op o = true -> in_range t l -> in_range t r ->
  (compiled o t l r = interpreted o t l r <-> ~ they_differ o t l r).
Proof. exact compiled_same. Qed.
Print Assumptions C28_compiled_and_interpreted_partial.
(** Operands of two types: sums, differences, products and bit operators follow Python for all operands. *)
Theorem C28_mixed_types : forall o a b x y,
  is_int (promotes_to a b) = true -> match o with Add | Sub | Mul | And | Or | Xor => True | _ => False end ->
  agrees (promotes_to a b) (interpreted2 o a b x y) (python o x y).
Proof. intros o a b x y H K. apply mixed_ring; [exact H|]. destruct o; try contradiction; reflexivity. Qed.
Print Assumptions C28_mixed_types.
(** The others do when the promoted type contains both operands. *)
Theorem C28_mixed_types_partial : forall o a b x y, is_int (promotes_to a b) = true -> integer_op o = true ->
  in_range (promotes_to a b) x -> in_range (promotes_to a b) y ->
  (agrees (promotes_to a b) (interpreted2 o a b x y) (python o x y) <-> ~ interpreter_wrong o (promotes_to a b) x y).
Proof. exact mixed_exact. Qed.
Print Assumptions C28_mixed_types_partial.

(** The property as stated fails.  Int32(-3) >> 1 is -1 instead of -2, both ways. *)
Theorem C28_rshift_refuted :
  in_range I32 (-3) /\ in_range I32 1 /\ interpreted RShift I32 (-3) 1 = Ok (-1) /\ compiled RShift I32 (-3) 1 = Ok (-1) /\
  python RShift (-3) 1 = Ok (-2).
Proof. vm_compute. repeat split; congruence. Qed.
Print Assumptions C28_rshift_refuted.
(** The least int modulo -3, compiled. *)
Theorem C28_mod_refuted :
  in_range I64 (- 2 ^ 63) /\ compiled Mod I64 (- 2 ^ 63) (-3) = Ok 2 /\ python Mod (- 2 ^ 63) (-3) = Ok (-2).
Proof. vm_compute. repeat split; congruence. Qed.
Print Assumptions C28_mod_refuted.
(** The least int divided by -1, compiled, is 1; Python's 2^63 reduced to 64 bits is the least int. *)
Theorem C28_floordiv_refuted :
  compiled FloorDiv I64 (- 2 ^ 63) (-1) = Ok 1 /\ python FloorDiv (- 2 ^ 63) (-1) = Ok (2 ^ 63) /\
  interpreted FloorDiv I64 (- 2 ^ 63) (-1) = Ok (- 2 ^ 63).
Proof. vm_compute. repeat split. Qed.
Print Assumptions C28_floordiv_refuted.
(** Shifting by 64 is undefined behaviour, and shifting by 1024 an error, where Python gives 2^64 and 2^1024,
    which are 0 in 32 bits. *)
Theorem C28_lshift_refuted :
  interpreted LShift I32 1 64 = Err UndefinedBehaviour /\ compiled LShift I32 1 64 = Err UndefinedBehaviour /\
  interpreted LShift I32 1 1024 = Err ValueError /\ compiled LShift I32 1 1024 = Err OverflowError /\
  python LShift 1 64 = Ok (2 ^ 64).
Proof. vm_compute. repeat split. Qed.
Print Assumptions C28_lshift_refuted.
(** UInt8(200) // Int8(3) is computed as -56 // 3. *)
Theorem C28_mixed_types_refuted :
  in_range U8 200 /\ in_range I8 3 /\ interpreted2 FloorDiv U8 I8 200 3 = Ok (-19) /\ python FloorDiv 200 3 = Ok 66 /\
  ~ agrees (promotes_to U8 I8) (interpreted2 FloorDiv U8 I8 200 3) (python FloorDiv 200 3).
Proof.
  repeat split; try (cbn; lia). change (~ agrees I8 (Ok (-19)) (Ok 66)). intros [_ [k K]]. cbn [bits] in K. change (2 ^ 8) with 256 in K. lia.
Qed.
Print Assumptions C28_mixed_types_refuted.

Example C28_case : interpreted FloorDiv I16 (-7) 2 = Ok (-4) /\ compiled Mod I16 (-7) 2 = Ok 1 /\ interpreted Mul I8 100 3 = Ok 44
  /\ ~ interpreter_wrong FloorDiv I16 (-7) 2 /\ ~ compiled_wrong Mod I16 (-7) 2 /\ compiled RShift U64 (2 ^ 64 - 1) 60 = Ok 15
  /\ ~ interpreter_wrong RShift I32 (-8) 2 /\ interpreted RShift I32 (-8) 2 = Ok (-2).
Proof.
  repeat split; try reflexivity.
  - intros [].
  - intros [H _]. discriminate.
  - unfold interpreter_wrong, rshift_wrong. cbn [is_signed]. intros [H|(_ & _ & _ & H)]; [lia|]. apply H. reflexivity.
Qed.

(** ** C29: result types *)

(** The two tables of promoted types are the same. *)
Theorem C29_tables_agree : forall a b, result_type a b = Ok (promotes_to a b).
Proof. exact promotion_tables. Qed.
Print Assumptions C29_tables_agree.
(** Promotion does not depend on the order or grouping of operands, and never narrows. *)
Theorem C29_promotion : forall a b c,
  promotes_to a b = promotes_to b a /\
  promotes_to (promotes_to a b) c = promotes_to a (promotes_to b c) /\
  bits a <= bits (promotes_to a b) /\ bits b <= bits (promotes_to a b).
Proof. intros a b c. split; [apply promotion_sym|]. split; [apply promotion_assoc|apply promotion_wide]. Qed.
Print Assumptions C29_promotion.
(** The type of every operator's result is the same in compiled code and in the interpreter, where two values
    of type int, float or bool are left to Python, except for powers of such ints. *)
Theorem C29_result_types_partial : forall o a b,
  (o = Pow -> native a && native b = true -> is_float a || is_float b = true) ->
  compiled_type 4 o a b = if native a && native b then python_type o a b else interpreted_type o a b.
Proof. intros o a b H. destruct o, a, b; try reflexivity; specialize (H eq_refl eq_refl); discriminate H. Qed.
Print Assumptions C29_result_types_partial.
(** A power of two ints is a float in compiled code. *)
Theorem C29_power_refuted : compiled_type 4 Pow I64 I64 = Ok F64 /\ python_type Pow I64 I64 = Ok I64.
Proof. split; reflexivity. Qed.
Print Assumptions C29_power_refuted.
Example C29_case : promotes_to U32 I8 = I32 /\ promotes_to I64 F32 = F64 /\ compiled_type 4 TrueDiv I16 U8 = Ok F32
  /\ interpreted_type TrueDiv I16 U8 = Ok F32 /\ compiled_type 4 LShift F32 I8 = Err TypeError.
Proof. repeat split. Qed.

(** ** C30: upcasts *)

(** An upcast succeeds, and preserves the number exactly when the target type contains it; the result is a
    value of the target type. *)
Theorem C30_upcasts : forall a b l v w, has_type a v -> at_least_implicit l = false -> construct a b l v = Ok w ->
  (fits b v -> has_type b w) /\ (same_number (number_of v) (number_of w) <-> fits b v).
Proof. exact upcast_exact. Qed.
Print Assumptions C30_upcasts.
(** All values survive every upcast but the four from 32-bit integers to Float32 and from 64-bit integers
    to float. *)
Theorem C30_lossless_partial : forall a b v, valid_upcast a b = true -> exact_upcast a b = true -> has_type a v ->
  exists w, construct a b Upcast v = Ok w /\ has_type b w /\ same_number (number_of v) (number_of w).
Proof.
  intros a b v U E T.
  assert (valid_conversion a b Upcast = true) as V by (unfold valid_conversion; cbn [at_least_upcast andb]; rewrite U; apply Bool.orb_true_r).
  destruct (construct_total a b Upcast v T eq_refl V) as [w W]. exists w. split; [exact W|].
  destruct (upcast_exact a b Upcast v w T eq_refl W) as [H1 H2]. pose proof (exact_fits a b v U E T) as F. split; [exact (H1 F)|]. now apply H2.
Qed.
Print Assumptions C30_lossless_partial.
(** Each of the four loses values. *)
Theorem C30_lossless_refuted : forall a b, valid_upcast a b = true -> exact_upcast a b = false ->
  exists v w, has_type a v /\ construct a b Upcast v = Ok w /\ ~ same_number (number_of v) (number_of w).
Proof. exact inexact_loses. Qed.
Print Assumptions C30_lossless_refuted.
(** A Python int counts as an Int64 even if it is not one: it is preserved exactly when it fits. *)
Theorem C30_python_int : forall b l x w, at_least_implicit l = false -> construct_python_int b l x = Ok w ->
  (same_number (Finite (inject_Z x)) (number_of w) <-> in_range b x).
Proof. exact python_int_exact. Qed.
Print Assumptions C30_python_int.
Theorem C30_python_int_refuted : construct_python_int I64 Signature (2 ^ 64 + 5) = Ok (Int 5).
Proof. reflexivity. Qed.
Print Assumptions C30_python_int_refuted.
Example C30_case : valid_upcast I16 F32 = true /\ exact_upcast I16 F32 = true /\ has_type I16 (Int (-5)) /\
  construct I16 F32 Upcast (Int (-5)) = Ok (Float (S754_finite true 10485760 (-21))) /\
  construct I64 F64 Upcast (Int (2 ^ 53 + 1)) = Ok (Float (S754_finite false 4503599627370496 1)) /\
  valid_upcast I32 F32 = true /\ exact_upcast I32 F32 = false /\
  construct U8 I8 Upcast (Int 5) = Err TypeError /\ has_type F32 (Float (S754_finite false 12582912 (-23))) /\
  construct F32 F64 Upcast (Float (S754_finite false 12582912 (-23))) = Ok (Float (S754_finite false 6755399441055744 (-52))).
Proof. vm_compute. repeat split; congruence. Qed.

(** ** C50: comparisons *)

(** Two integers or bools of any two types compare as numbers, unless one type is signed and the other
    unsigned and at least as wide. *)
Theorem C50_comparison_partial : forall c a b x y,
  is_float (promotes_to a b) = false -> mixes_signs a b = false -> in_range a x -> in_range b y ->
  (interpreted_compare c a b x y = true <-> holds c x y).
Proof.
  intros c a b x y F M X Y. rewrite compare_exact by assumption.
  destruct c; cbn [compare holds]; rewrite ?negb_true_iff, ?Z.eqb_neq, ?Z.eqb_eq, ?Z.ltb_lt, ?Z.leb_le; lia.
Qed.
Print Assumptions C50_comparison_partial.
(** For each such pair of types two different numbers compare equal. *)
Theorem C50_comparison_refuted : forall a b, mixes_signs a b = true ->
  exists x y, in_range a x /\ in_range b y /\ x <> y /\ interpreted_compare CEq a b x y = true.
Proof. exact compare_wrong. Qed.
Print Assumptions C50_comparison_refuted.
(** Equality is equality in the bits of the promoted type. *)
Theorem C50_equality : forall a b x y, is_int (promotes_to a b) = true ->
  (interpreted_compare CEq a b x y = true <-> x mod 2 ^ bits (promotes_to a b) = y mod 2 ^ bits (promotes_to a b)).
Proof. exact compare_characterised. Qed.
Print Assumptions C50_equality.
Example C50_case : mixes_signs U8 I16 = false /\ interpreted_compare CLt I16 U8 (-1) 255 = true /\
  mixes_signs U64 I64 = true /\ interpreted_compare CEq U64 I64 (2 ^ 64 - 1) (-1) = true.
Proof. repeat split. Qed.
