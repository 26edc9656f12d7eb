(** Model of typed_python/lib/sorting.py.

    The list being sorted is a Gallina list that is threaded through; [less] and [eqb] are
    the element type's [<] (through the key, if any) and [==], assumed pure.  The functions
    are entrypoints, so integers are 64-bit. *)
From Verif Require Import Base PyList.
Open Scope Z_scope.
Open Scope result_scope.

Section Sorting.
  Context {A : Type}.
  Variable less : A -> A -> bool.
  Variable eqb : A -> A -> bool.

  (** The loop of [_sortAroundPivot], sorting.py:29-35. *)
  Fixpoint partition_loop (fuel : nat) (values : list A) (stop : Z) (pivot : A) (i j : Z)
    : result (list A * Z) :=
    if stop <? j then Ok (values, i) else
    match fuel with
    | O => Err OutOfFuel
    | S fuel =>
        vj <- py_get values j ;;
        if negb (less pivot vj) then
          vi <- py_get values i ;;
          values <- py_set values j vi ;;
          values <- py_set values i vj ;;
          partition_loop fuel values stop pivot (i + 1) (j + 1)
        else partition_loop fuel values stop pivot i (j + 1)
    end.

  (** [_sortAroundPivot], sorting.py:20-40. *)
  Definition sortAroundPivot (values : list A) (start stop ixPivot : Z) : result (list A * Z) :=
    a <- py_get values start ;;
    b <- py_get values ixPivot ;;
    values <- py_set values start b ;;
    values <- py_set values ixPivot a ;;
    pivot <- py_get values start ;;
    '(values, i) <- partition_loop (Z.to_nat (stop - start)) values stop pivot (start + 1) (start + 1) ;;
    a <- py_get values start ;;
    b <- py_get values (i - 1) ;;
    values <- py_set values start b ;;
    values <- py_set values (i - 1) a ;;
    Ok (values, i - 1).

  (** The two loops over a block of equal values, sorting.py:56-60. *)
  Fixpoint skip_down (fuel : nat) (values : list A) (start i : Z) : result Z :=
    if i <=? start then Ok i else
    match fuel with
    | O => Err OutOfFuel
    | S fuel =>
        a <- py_get values (i - 1) ;;
        b <- py_get values i ;;
        if eqb a b then skip_down fuel values start (i - 1) else Ok i
    end.
  Fixpoint skip_up (fuel : nat) (values : list A) (stop i : Z) : result Z :=
    if stop <=? i then Ok i else
    match fuel with
    | O => Err OutOfFuel
    | S fuel =>
        a <- py_get values i ;;
        b <- py_get values (i + 1) ;;
        if eqb a b then skip_up fuel values stop (i + 1) else Ok i
    end.

  (** [_quicksortBetween], sorting.py:43-63.  [%] is nativepython_runtime_mod_int64_int64
      (_runtime.cpp:1544-1564), which for a positive divisor is [Z.modulo]. *)
  Fixpoint quicksortBetween (fuel : nat) (values : list A) (start stop randomSeed : Z)
    : result (list A) :=
    if stop - start <? 1 then Ok values else
    match fuel with
    | O => Err OutOfFuel
    | S fuel =>
        let newRandomSeed := wrap_s 64 (1013904223 + wrap_s 64 (1664525 * randomSeed)) in
        let ixPivot := start + newRandomSeed mod (stop - start + 1) in
        '(values, i) <- sortAroundPivot values start stop ixPivot ;;
        i_bot <- skip_down (Z.to_nat (i - start)) values start i ;;
        i_top <- skip_up (Z.to_nat (stop - i)) values stop i ;;
        values <- quicksortBetween fuel values start (i_bot - 1) newRandomSeed ;;
        quicksortBetween fuel values (i_top + 1) stop (wrap_s 64 (newRandomSeed + 1))
    end.

  (** [sort], sorting.py:66-75; [less] already contains the key.  The recursion depth is
      bounded by the length ([sort_total] in Sort_Proofs.v: no fuel error). *)
  Definition sort (values : list A) : result (list A) :=
    if Z.of_nat (length values) <=? 1 then Ok values
    else quicksortBetween (length values) values 0 (Z.of_nat (length values) - 1) 1.

  (** [sorted], sorting.py:78-82, over a heap of list objects: the copy is a new object. *)
  Definition sorted (heap : list (list A)) (p : nat) : result (nat * list (list A)) :=
    match nth_error heap p with
    | None => Err GenericError
    | Some values =>
        let q := length heap in
        let heap := heap ++ [values] in
        values <- sort values ;;
        Ok (q, replace_nth q values heap)
    end.

  (** [compare_values], sorting.py:85-94. *)
  Definition compare_values (x y : A) : result Z :=
    if less x y then Ok (-1)
    else if less y x then Ok 1
    else if negb (eqb x y) then Err GenericError
    else Ok 0.

  (** The loop of [searchSorted], sorting.py:106-116. *)
  Fixpoint search_loop (fuel : nat) (item : A) (l : list A) (low high : Z) : result Z :=
    if high <=? low then Ok low else
    match fuel with
    | O => Err OutOfFuel
    | S fuel =>
        let mid := (low + high) / 2 in
        x <- py_get l mid ;;
        c <- compare_values x item ;;
        if c <? 0 then search_loop fuel item l (mid + 1) high
        else if 0 <? c then search_loop fuel item l low mid
        else Ok mid
    end.

  (** [searchSorted], sorting.py:97-116. *)
  Definition searchSorted (item : A) (l : list A) : result Z :=
    search_loop (length l) item l 0 (Z.of_nat (length l)).
End Sorting.

(** [sort(values, key)]: the comparison of sorting.py:75. *)
Definition by_key {A K} (key : A -> K) (less : K -> K -> bool) (x y : A) : bool := less (key x) (key y).
