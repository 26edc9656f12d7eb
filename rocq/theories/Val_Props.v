(** C35, C36 and C53: comparing and hashing values. *)
From Coq Require Import ZifyBool ZifyNat.
From Verif Require Import Base HashAcc_Model ConstDict_Model ConstDict_Spec Val_Model Val_Spec Val_Proofs
  Val_Cmp_Proofs Val_Hash_Proofs.
Open Scope Z_scope.
Open Scope result_scope.

(** ** A concrete program: Tree = Alternative("Tree", Leaf={}, Node=dict(name=str, kids=TupleOf(Tree),
    tag=OneOf(None, float, 5))) *)
Definition trees : declarations := {|
  options_of := fun _ => [[]; [TStr; TTupleOf (TAlt 0); TOneOf [TNone; TFloat; TConst (VInt 64 5)]]];
  fields_of := fun _ => [TInt 64 true; TStr]
|}.
Definition leaf (p : Z) : val := VAlt p 0 (VTuple []).
Definition half : val := VFloat 0x3FE0000000000000.
Definition minus_zero : val := VFloat 0x8000000000000000.
Definition node1 : val :=
  VAlt 100 1 (VTuple [VStr 101 1 (-1) [97; 98]; VSeq 102 (-1) [leaf 103; leaf 103]; VOneOf 1 half]).
Definition node2 : val :=
  VAlt 200 1 (VTuple [VStr 201 1 (-1) [97; 98]; VSeq 202 (-1) [leaf 203; node1]; VOneOf 1 minus_zero]).
Definition node3 : val :=
  VAlt 300 1 (VTuple [VStr 301 1 (-1) [97; 98]; VSeq 302 (-1) [leaf 203; node1]; VOneOf 1 (VFloat 0)]).
Definition parts (p : Z) : val :=
  match p with
  | 100 => node1 | 101 => VStr 101 1 (-1) [97; 98] | 102 => VSeq 102 (-1) [leaf 103; leaf 103] | 103 => leaf 103
  | 200 => node2 | 201 => VStr 201 1 (-1) [97; 98] | 202 => VSeq 202 (-1) [leaf 203; node1] | 203 => leaf 203
  | 300 => node3 | 301 => VStr 301 1 (-1) [97; 98] | 302 => VSeq 302 (-1) [leaf 203; node1]
  | _ => VNone
  end.

Ltac check := vm_compute;
  repeat match goal with
  | |- _ /\ _ => split | |- True => exact I
  | |- Forall _ _ => constructor
  | |- _ \/ _ => (left; reflexivity) || right
  | |- (_ = _ -> False) -> _ => let H := fresh in intros H; first [exfalso; apply H; reflexivity | clear H]
  | |- _ -> _ => let H := fresh in intros H; try discriminate H
  | |- _ = _ => reflexivity
  end; try discriminate.

(** ** C36 *)

(** All six operators answer on values of one type, [==] holds exactly for values with the same meaning, and the
    order is the dictionary order of the meanings.
    Partial: the values contain no NaN (as the property asks), no instances of classes, and no empty string or
    bytes object in memory of its own. *)
Theorem C36_order_of_meanings_partial : forall D memory t v w,
  good_value D memory t v -> good_value D memory t w -> everywhere orderable v ->
  (forall op, exists b, cmp v w op = Ok b) /\
  (cmp v w EQ = Ok true <-> meaning v = meaning w) /\
  (cmp v w LT = Ok true <-> earlier (meaning v) (meaning w)).
Proof.
  intros D memory t v w Gv Gw Ov. destruct (cmp_agrees D memory v w t Gv Gw) as (_ & _ & H).
  specialize (H Ov). split; [eauto|]. rewrite !H. unfold means.
  rewrite <- torder_eq, <- torder_lt. pose proof (torder_range (meaning v) (meaning w)).
  split; (split; [intros [= E]; lia | intros E; rewrite E; reflexivity]).
Qed.
Print Assumptions C36_order_of_meanings_partial.

(** Equality also answers when there are instances of classes inside. *)
Theorem C36_equality_of_meanings_partial : forall D memory t v w,
  good_value D memory t v -> good_value D memory t w ->
  (cmp v w EQ = Ok true <-> meaning v = meaning w) /\ (cmp v w NE = Ok true <-> meaning v <> meaning w) /\
  exists b, cmp v w EQ = Ok b /\ cmp v w NE = Ok (negb b).
Proof.
  intros D memory t v w Gv Gw. destruct (cmp_agrees D memory v w t Gv Gw) as (E & N & _).
  rewrite E, N. unfold means. rewrite <- torder_eq.
  destruct (Z.eqb_spec (torder (meaning v) (meaning w)) 0); cbn; repeat split; intros; try congruence; eauto.
Qed.
Print Assumptions C36_equality_of_meanings_partial.

(** Exactly one of [<], [==] and [>] holds, the other operators follow, [<] is transitive and [==] an
    equivalence, for every type. *)
Theorem C36_order_laws_partial : forall D memory t,
  good_comparison (fun op (v w : {v | good_value D memory t v /\ everywhere orderable v}) =>
    answer op (proj1_sig v) (proj1_sig w)).
Proof.
  intros D memory t.
  assert (A : forall op (v w : {v | good_value D memory t v /\ everywhere orderable v}),
             answer op (proj1_sig v) (proj1_sig w) = cmp_result op (means (proj1_sig v) (proj1_sig w))).
  { intros op [v [Gv Ov]] [w [Gw Ow]]; unfold answer; cbn [proj1_sig].
    destruct (cmp_agrees D memory v w t Gv Gw) as (_ & _ & H). rewrite (H Ov); reflexivity. }
  assert (R := fun v w => torder_range (meaning v) (meaning w)).
  assert (O := fun v w => torder_opp (meaning v) (meaning w)).
  constructor; intros; rewrite ?A in *; unfold means in *; cbn [cmp_result] in *.
  - rewrite torder_refl; reflexivity.
  - rewrite O; lia.
  - rewrite Z.eqb_eq, torder_eq in *; congruence.
  - reflexivity.
  - assert (torder (meaning (proj1_sig x)) (meaning (proj1_sig z)) = -1); [|lia].
    apply torder_trans with (meaning (proj1_sig y)).
    + pose proof (R (proj1_sig x) (proj1_sig y)); lia.
    + pose proof (R (proj1_sig y) (proj1_sig z)); lia.
  - rewrite Z.eqb_eq, torder_eq in H. rewrite H; auto.
  - rewrite (O (proj1_sig x) (proj1_sig y)); pose proof (R (proj1_sig x) (proj1_sig y)); lia.
  - lia.
  - rewrite (O (proj1_sig y) (proj1_sig x)); lia.
  - rewrite (O (proj1_sig y) (proj1_sig x)); lia.
Qed.
Print Assumptions C36_order_laws_partial.

(** Trees one within the other are such values, and the answers are as expected: 0.0 equals -0.0. *)
Example C36_trees :
  good_value trees parts (TAlt 0) node1 /\ good_value trees parts (TAlt 0) node2 /\
  good_value trees parts (TAlt 0) node3 /\ everywhere orderable node1 /\ everywhere orderable node2 /\
  cmp node1 node2 LT = Ok true /\ cmp node2 node3 EQ = Ok true /\ cmp (leaf 103) node3 GE = Ok false.
Proof. check. Qed.

(** With NaN [==] is not transitive: NaN equals every float inside a tuple. *)
Theorem C36_nan_equals_everything_refuted :
  exists u v w, has_type trees u (TTuple [TFloat]) /\ has_type trees v (TTuple [TFloat]) /\
    has_type trees w (TTuple [TFloat]) /\
    cmp u v EQ = Ok true /\ cmp v w EQ = Ok true /\ cmp u w EQ = Ok false.
Proof. exists (VTuple [half]), (VTuple [VFloat 0x7FF8000000000000]), (VTuple [VFloat 0]). check. Qed.
Print Assumptions C36_nan_equals_everything_refuted.

(** [b"".join([b""])] in compiled code is empty, yet not equal to [b""] but greater. *)
Theorem C36_two_empty_bytes_refuted :
  let empty := bytes_join 10 (VBytes 0 (-1) []) [VBytes 0 (-1) []] in
  has_type trees empty TBytes /\ meaning empty = meaning (VBytes 0 (-1) []) /\
  cmp empty (VBytes 0 (-1) []) EQ = Ok false /\ cmp empty (VBytes 0 (-1) []) GT = Ok true.
Proof. check. Qed.
Print Assumptions C36_two_empty_bytes_refuted.

(** A tuple with an instance of a class can be compared with [==] but raises on [<] if it comes to that. *)
Theorem C36_instances_have_no_order_refuted :
  exists v w, has_type trees v (TTuple [TObject]) /\ has_type trees w (TTuple [TObject]) /\
    cmp v w EQ = Ok false /\ cmp v w LT = Err TypeError.
Proof. exists (VTuple [VObject 8]), (VTuple [VObject 16]). check. Qed.
Print Assumptions C36_instances_have_no_order_refuted.

(** ** C35 *)

(** Values of one type that compare equal have the same hash.
    Partial: for values without NaN and held class instances, whose strings are stored at the width they need and
    whose remembered hashes are up to date; the theorems below show that each condition is needed. *)
Theorem C35_equal_values_same_hash_partial : forall D memory t v w,
  good_value D memory t v -> good_value D memory t w -> everywhere representable v -> everywhere representable w ->
  cmp v w EQ = Ok true -> hash v = hash w /\ py_hash v = py_hash w.
Proof.
  intros D memory t v w Gv Gw Rv Rw E.
  apply (C36_equality_of_meanings_partial D memory t v w Gv Gw) in E.
  assert (H : hash v = hash w) by (destruct Gv as (Tv & _), Gw as (Tw & _); eapply hash_of_meaning; eauto).
  unfold py_hash; rewrite H; auto.
Qed.
Print Assumptions C35_equal_values_same_hash_partial.

(** Computing a hash does not change it, although it is remembered. *)
Theorem C35_hash_is_stable : forall v, hash (remember v) = hash v.
Proof.
  intros [| | | |p wd c l|p c l|p c vs| | | | | |]; cbn [remember]; auto;
    destruct (Z.eqb_spec p 0) as [E|E]; auto; apply Z.eqb_neq in E; cbn [hash];
    unfold hash_string, hash_bytes, cached, finish_hash; rewrite E;
    repeat match goal with |- context [?x =? ?y] => destruct (Z.eqb_spec x y) end; try lia; congruence.
Qed.
Print Assumptions C35_hash_is_stable.

Example C35_trees :
  everywhere representable node2 /\ everywhere representable node3 /\ cmp node2 node3 EQ = Ok true /\
  hash node2 = hash node3 /\ hash node2 <> hash node1.
Proof. check. Qed.

(** The first character of a string with a wide character, sliced in compiled code, equals "a" but hashes
    differently. *)
Theorem C35_slice_of_wide_string_refuted :
  let s := VStr 10 2 (-1) [97; 0x4E16] in
  let a := str_slice 11 s 0 1 in
  let a' := VStr 12 1 (-1) [97] in
  narrow s /\ narrow a' /\ has_type trees a TStr /\ has_type trees a' TStr /\
  cmp a a' EQ = Ok true /\ py_hash a <> py_hash a'.
Proof. check. Qed.
Print Assumptions C35_slice_of_wide_string_refuted.

(** A ListOf keeps the hash it had before an append. *)
Theorem C35_list_hash_after_append_refuted :
  let l := list_append (remember (VSeq 10 (-1) [VInt 64 1])) (VInt 64 2) in
  let l' := list_append (VSeq 20 (-1) [VInt 64 1]) (VInt 64 2) in
  has_type trees l (TListOf (TInt 64 true)) /\ has_type trees l' (TListOf (TInt 64 true)) /\
  cmp l l' EQ = Ok true /\ py_hash l <> py_hash l'.
Proof. check. Qed.
Print Assumptions C35_list_hash_after_append_refuted.

(** Held class instances are equal by their fields but hashed by their address. *)
Theorem C35_held_instances_refuted :
  let x p := VHeld p [Some (VInt 64 1); None] in
  has_type trees (x 8) (THeld 0) /\ cmp (x 8) (x 16) EQ = Ok true /\ py_hash (x 8) <> py_hash (x 16).
Proof. check. Qed.
Print Assumptions C35_held_instances_refuted.

(** NaN equals 0.5 inside a tuple, but hashes differently. *)
Theorem C35_nan_refuted :
  let nan := VTuple [VFloat 0x7FF8000000000000] in
  has_type trees nan (TTuple [TFloat]) /\ has_type trees (VTuple [half]) (TTuple [TFloat]) /\
  cmp nan (VTuple [half]) EQ = Ok true /\ py_hash nan <> py_hash (VTuple [half]).
Proof. check. Qed.
Print Assumptions C35_nan_refuted.

(** ** C53 *)

(** Compiled code and the interpreter compute the same hash.
    Partial: see [compiles] and the theorems below. *)
Theorem C53_compiled_hash_agrees_partial : forall v, compiles v -> compiled_hash v = Ok (hash v).
Proof. exact compiled_agrees. Qed.
Print Assumptions C53_compiled_hash_agrees_partial.

Example C53_trees :
  compiles node2 /\ compiles (VSeq 5 (-1) [VTuple [VInt 64 (-3); VOneOf 1 half]; VTuple [VInt 64 4; VOneOf 0 VNone]]).
Proof. split; [exact I|]. repeat split; try discriminate. intros _; repeat constructor; vm_compute; discriminate. Qed.

(** TupleOf(int)((4294967295, 5)): the first element's hash is -1, which compiled code replaces by -2. *)
Theorem C53_element_hash_minus_one_refuted :
  let v := VSeq 10 (-1) [VInt 64 4294967295; VInt 64 5] in
  has_type trees v (TTupleOf (TInt 64 true)) /\ exists h, compiled_hash v = Ok h /\ h <> hash v.
Proof. split; [check|]. eexists; split; [vm_compute; reflexivity|]. vm_compute; discriminate. Qed.
Print Assumptions C53_element_hash_minus_one_refuted.

(** The hash of an empty TupleOf is read through a null pointer. *)
Theorem C53_empty_tuple_refuted :
  let v := VSeq 0 (-1) [] in
  has_type trees v (TTupleOf (TInt 64 true)) /\ compiled_hash v = Err UndefinedBehaviour /\ hash v = 0x123.
Proof. check. Qed.
Print Assumptions C53_empty_tuple_refuted.

(** A constant option of a OneOf has a hash only in the interpreter. *)
Theorem C53_constant_option_refuted :
  let v := VOneOf 1 (VConst (VInt 64 5)) in
  has_type trees v (TOneOf [TStr; TConst (VInt 64 5)]) /\ compiled_hash v = Err TypeError /\ hash v = 5.
Proof. check. Qed.
Print Assumptions C53_constant_option_refuted.
