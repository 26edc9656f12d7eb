(** Property C52: comparing typed values with ordinary Python values. *)
From Verif Require Import Base ConstDict_Model Arith_Model Arith_Spec Val_Model ValPy_Model ValPy_Spec ValPy_Proofs ValPy_Order_Proofs.
Open Scope Z_scope.

(** [==] and [!=] answer what Python answers, for every typed value and every Python value, unless an integer
    meets an int or a float it cannot be compared with exactly in C (see [exact_numbers]). *)
Theorem C52_equality_partial : forall v q op, op = EQ \/ op = NE ->
  well_formed v -> py_well_formed q -> facing exact_numbers v q ->
  compare v q op = python op (to_python v) q /\ compare_from_right q v op = python op q (to_python v).
Proof.
  intros v q op O W1 W2 P. unfold compare_from_right; rewrite (python_turns op (to_python v) q).
  split; apply equality_right; auto; destruct O as [-> | ->]; reflexivity.
Qed.
Print Assumptions C52_equality_partial.

(** The orderings of a container, including the TypeErrors, answer what Python answers if besides no NaN, no str or
    bytes object (unless it faces itself) and no None that faces something else is involved. *)
Theorem C52_order_partial : forall v q op, op <> EQ -> op <> NE -> is_sequence v ->
  well_formed v -> py_well_formed q -> facing exact_numbers v q -> facing orderable v q ->
  compare v q op = python op (to_python v) q /\ compare_from_right q v op = python op q (to_python v).
Proof.
  intros v q op O1 O2 S W1 W2 P Q. unfold compare_from_right; rewrite (python_turns op (to_python v) q).
  rewrite !order_right; auto; destruct op; try congruence; split; reflexivity.
Qed.
Print Assumptions C52_order_partial.

(** ** A case: a NamedTuple of a TupleOf(OneOf(int, float)), a str, None, bytes and a list *)
Definition one : Z := 0x3FF0000000000000.          (* 1.0 *)
Definition half : Z := 0x3FE0000000000000.         (* 0.5 *)
Definition nan : Z := 0x7FF8000000000000.
Definition mixed : tval :=
  TvTuple [TvTupleOf [TvOneOf 0 (TvReg I64 1); TvOneOf 1 (TvFloat half)]; TvStr 16 2 [104; 0x20AC]; TvNone; TvBytes [1; 200];
           TvListOf [TvReg U8 200; TvConst (TvReg Bool 1)]].
Definition mixed_py (last : pyval) : pyval :=
  PTuple [PTuple [PFloat one; PFloat half]; PStr [104; 0x20AC]; PNone; PBytes [1; 200]; PList [PInt 200; last]].
Ltac solve_case :=
  repeat match goal with
  | |- _ = _ :> result bool => vm_compute; reflexivity
  | |- _ <> _ :> num => vm_compute; congruence
  | |- _ => progress cbn [well_formed py_well_formed facing pairs all exact_numbers orderable is_sequence in_range is_float mixed mixed_py In]
  | |- _ /\ _ => split
  | |- Forall _ _ => constructor
  | |- True => exact I
  | |- _ = _ -> _ => intros; discriminate
  | |- _ \/ _ => first [left; solve_case; fail | right; solve_case; fail]
  | |- _ => first [lia | reflexivity | vm_compute; repeat split; congruence]
  end.
Example C52_case : well_formed mixed /\ py_well_formed (mixed_py (PInt 2)) /\ facing exact_numbers mixed (mixed_py (PInt 2)) /\
  facing orderable mixed (mixed_py (PInt 2)) /\ is_sequence mixed /\
  compare mixed (mixed_py (PInt 1)) EQ = Ok true /\ compare mixed (mixed_py (PInt 2)) EQ = Ok false /\
  compare mixed (mixed_py (PInt 2)) LT = Ok true /\ compare mixed (mixed_py (PFloat half)) LT = Ok false /\
  compare mixed (mixed_py (PStr [])) LT = Err TypeError.
Proof. solve_case. Qed.

(** ** Where the answers are wrong *)

(** bytes are ordered backwards: TupleOf(bytes)((b"a",)) < (b"b",) is False. *)
Theorem C52_bytes_order_refuted : exists v q, is_sequence v /\ well_formed v /\ py_well_formed q /\
  python LT (to_python v) q = Ok true /\ compare v q LT = Ok false /\ compare v q GT = Ok true.
Proof. exists (TvTupleOf [TvBytes [97]]), (PTuple [PBytes [98]]). solve_case. Qed.
Print Assumptions C52_bytes_order_refuted.
(** So are strings of the same width: TupleOf(str)(("b",)) < ("",) is True. *)
Theorem C52_string_order_refuted : exists v q, is_sequence v /\ well_formed v /\ py_well_formed q /\
  python LT (to_python v) q = Ok false /\ compare v q LT = Ok true.
Proof. exists (TvTupleOf [TvStr 16 1 [98]]), (PTuple [PStr []]). solve_case. Qed.
Print Assumptions C52_string_order_refuted.
(** TupleOf(float)((nan,)) >= (nan,) is True. *)
Theorem C52_nan_order_refuted : exists v q, is_sequence v /\ well_formed v /\ py_well_formed q /\
  python GE (to_python v) q = Ok false /\ compare v q GE = Ok true.
Proof. exists (TvTupleOf [TvFloat nan]), (PTuple [PFloat nan]). solve_case. Qed.
Print Assumptions C52_nan_order_refuted.
(** A None or a str that faces something else is ordered instead of raising a TypeError. *)
Theorem C52_unordered_refuted : exists v w q, is_sequence v /\ is_sequence w /\ well_formed v /\ well_formed w /\ py_well_formed q /\
  python GT (to_python v) q = Err TypeError /\ compare v q GT = Ok true /\
  python LT (to_python w) q = Err TypeError /\ compare w q LT = Ok true.
Proof. exists (TvTupleOf [TvNone]), (TvTupleOf [TvStr 16 1 [98]]), (PTuple [PInt 1]). solve_case. Qed.
Print Assumptions C52_unordered_refuted.
(** Only the low 64 bits of an int count: TupleOf(int)((1,)) == (2**64 + 1,). *)
Theorem C52_big_int_refuted : exists v q, is_sequence v /\ well_formed v /\ py_well_formed q /\
  python EQ (to_python v) q = Ok false /\ compare v q EQ = Ok true.
Proof. exists (TvTupleOf [TvReg I64 1]), (PTuple [PInt (2 ^ 64 + 1)]). solve_case. Qed.
Print Assumptions C52_big_int_refuted.
(** Integers lose precision when they face a float: TupleOf(int)((2**53 + 1,)) == (2.0**53,). *)
Theorem C52_precision_refuted : exists v q, is_sequence v /\ well_formed v /\ py_well_formed q /\
  python EQ (to_python v) q = Ok false /\ compare v q EQ = Ok true.
Proof. exists (TvTupleOf [TvReg I64 (2 ^ 53 + 1)]), (PTuple [PFloat 0x4340000000000000]). solve_case. Qed.
Print Assumptions C52_precision_refuted.
