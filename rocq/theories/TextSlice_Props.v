(** C60: items and slices of [str] and [bytes] in compiled code. *)
From Coq Require Import List ZArith Bool Lia ZifyBool.
From Verif Require Import Base PyList Text_Model TextSlice_Model TextSlice_Proofs.
From Verif Require ListOf_Spec.
Import ListNotations.
Open Scope Z_scope.
Open Scope result_scope.

(** The elements of Python's slice [x[lower:upper]]: [ListOf_Spec.slice_positions] transcribes
    the library reference. *)
Definition slice_of (x : list Z) (lower upper : option Z) : list Z :=
  ListOf_Spec.items_at x (ListOf_Spec.slice_positions (Z.of_nat (length x)) lower upper 1).

(** Slices of bytes, whichever operands the compiler knows.  Missing for the full claim: a step,
    and the slice without either bound, which do not compile. *)
Theorem C60_bytes_slice_partial : forall x lower upper, ~ (lower = None /\ upper = None) ->
  bytes_slice x lower upper None =
  Ok (slice_of (bdata (value_of x)) (option_map value_of lower) (option_map value_of upper)).
Proof. exact bytes_slice_ok. Qed.
Print Assumptions C60_bytes_slice_partial.

(** Slices of str, unless the compiler knows the text and the lower bound but not the upper
    one. *)
Theorem C60_str_slice_partial : forall x lower upper, ~ (lower = None /\ upper = None) ->
  (is_constant x = true -> match lower with None => true | Some l => is_constant l end = true ->
   match upper with None => true | Some u => is_constant u end = true) ->
  str_slice x lower upper None =
  Ok (slice_of (sdata (value_of x)) (option_map value_of lower) (option_map value_of upper)).
Proof. exact str_slice_ok. Qed.
Print Assumptions C60_str_slice_partial.

Example C60_slice_case :
  let x := AtRunTime (Some (mk_slayout 2 [955; 49; 50; 51; 52])) in
  str_slice x (Some (Known (-4))) (Some (AtRunTime (-1))) None = Ok [49; 50; 51] /\
  str_slice x (Some (AtRunTime 3)) None None = Ok [51; 52] /\
  str_slice x None (Some (AtRunTime (-9))) None = Ok [] /\
  bytes_slice (Known (Some [97; 98; 99])) None (Some (AtRunTime 2)) None = Ok [97; 98] /\
  slice_of [97; 98; 99] None (Some 2) = [97; 98] /\
  slice_of [955; 49; 50; 51; 52] (Some (-4)) (Some (-1)) = [49; 50; 51].
Proof. vm_compute. repeat split. Qed.

(** ["abcdef"[0:n]] is the whole text whatever [n] is: the fold looks at the lower bound only,
    and reads the upper one as omitted. *)
Theorem C60_str_slice_of_literal_refuted : exists x lower upper,
  str_slice (Known x) (Some (Known lower)) (Some (AtRunTime upper)) None <>
  Ok (slice_of (sdata x) (Some lower) (Some upper)).
Proof.
  exists (Some (mk_slayout 1 [97; 98; 99; 100; 101; 102])), 0, 2. vm_compute. discriminate.
Qed.
Print Assumptions C60_str_slice_of_literal_refuted.

(** The same error for every literal: the upper bound never matters. *)
Theorem C60_str_slice_of_literal : forall x lower upper,
  str_slice (Known x) (Some (Known lower)) (Some (AtRunTime upper)) None =
  Ok (slice_of (sdata x) (Some lower) None).
Proof. reflexivity. Qed.
Print Assumptions C60_str_slice_of_literal.

(** Steps, and slices without bounds, do not compile. *)
Theorem C60_step_refuted : forall x y lower upper k,
  str_slice x lower upper (Some k) = Err GenericError /\
  bytes_slice y lower upper (Some k) = Err NotImplementedError /\
  str_slice x None None None = Err GenericError /\
  bytes_slice y None None None = Err GenericError.
Proof. intros. repeat split. Qed.
Print Assumptions C60_step_refuted.

(** The item at a position: a negative index counts from the end, and an index outside the text
    raises IndexError.  An item of str is a text of one code point, an item of bytes is an
    integer. *)
Definition item_of (x : list Z) (i : Z) (answer : result Z) : Prop :=
  let n := Z.of_nat (length x) in
  (exists before c after, x = before ++ c :: after /\ answer = Ok c /\
     (i = Z.of_nat (length before) \/ i = Z.of_nat (length before) - n)) \/
  ((i < - n \/ n <= i) /\ answer = Err IndexError).

Lemma py_get_item : forall x i, item_of x i (py_get x i).
Proof.
  intros x i. unfold item_of, py_get, py_index. set (n := Z.of_nat (length x)).
  assert (H : forall k, 0 <= k < n -> exists before c after, x = before ++ c :: after /\
    Z.of_nat (length before) = k /\ nth_error x (Z.to_nat k) = Some c).
  { intros k Hk. destruct (nth_error x (Z.to_nat k)) as [c|] eqn:E; [|apply nth_error_None in E; lia].
    destruct (nth_error_split x _ E) as (a & b & -> & L). exists a, c, b. repeat split. lia. }
  destruct ((0 <=? i) && (i <? n)) eqn:A.
  - destruct (H i ltac:(lia)) as (a & c & b & E & L & N). left. exists a, c, b. cbn [bind]. rewrite N.
    repeat split; [exact E|]. left. lia.
  - destruct ((- n <=? i) && (i <? 0)) eqn:B.
    + destruct (H (i + n) ltac:(lia)) as (a & c & b & E & L & N). left. exists a, c, b. cbn [bind].
      rewrite N. repeat split; [exact E|]. right. lia.
    + right. split; [lia|reflexivity].
Qed.

Theorem C60_items :
  (forall x i, item_of (bdata (value_of x)) (value_of i) (bytes_item x i)) /\
  (forall x i, exists r, item_of (sdata (value_of x)) (value_of i) r /\
     str_item x i = (c <- r ;; Ok [c])).
Proof.
  split; intros x i.
  - rewrite bytes_item_ok. apply py_get_item.
  - exists (py_get (sdata (value_of x)) (value_of i)). split; [apply py_get_item|apply str_item_ok].
Qed.
Print Assumptions C60_items.

(** There is only one such answer. *)
Theorem C60_item_is_determined : forall x i r r', item_of x i r -> item_of x i r' -> r = r'.
Proof.
  assert (S : forall (x a b : list Z) c, x = a ++ c :: b ->
    (length a < length x)%nat /\ nth_error x (length a) = Some c).
  { intros x a b c ->. rewrite app_length, nth_error_app2, Nat.sub_diag by lia. cbn [length nth_error].
    split; [lia|reflexivity]. }
  intros x i r r' [(a & c & b & E & -> & L)|[L ->]] [(a' & c' & b' & E' & -> & L')|[L' ->]].
  - apply S in E, E'. destruct E as [E N], E' as [E' N'].
    replace (length a') with (length a) in N' by lia. congruence.
  - apply S in E. lia.
  - apply S in E'. lia.
  - reflexivity.
Qed.
Print Assumptions C60_item_is_determined.

Example C60_item_case :
  bytes_item (AtRunTime (Some [97; 98; 99])) (Known (-1)) = Ok 99 /\
  str_item (AtRunTime (Some (mk_slayout 2 [955; 49]))) (AtRunTime 0) = Ok [955] /\
  str_item (AtRunTime (Some (mk_slayout 1 [97]))) (AtRunTime (-1)) = Ok [97] /\
  str_item (AtRunTime (Some (mk_slayout 1 [97]))) (AtRunTime (-2)) = Err IndexError.
Proof. vm_compute. repeat split. Qed.
