(** Indexing of Python-style sequences: a non-negative index counts from the front, a
    negative one from the back (TupleOrListOfType, PyTupleOrListOfInstance.cpp:
    an index outside [-len, len) raises IndexError). *)
From Verif Require Import Base.
Open Scope Z_scope.
Open Scope result_scope.

Definition py_index (len i : Z) : result nat :=
  if (0 <=? i) && (i <? len) then Ok (Z.to_nat i)
  else if (- len <=? i) && (i <? 0) then Ok (Z.to_nat (i + len))
  else Err IndexError.

Fixpoint replace_nth {A} (n : nat) (x : A) (l : list A) : list A :=
  match l, n with
  | [], _ => []
  | _ :: l, O => x :: l
  | y :: l, S n => y :: replace_nth n x l
  end.

(** [l[i]] *)
Definition py_get {A} (l : list A) (i : Z) : result A :=
  n <- py_index (Z.of_nat (length l)) i ;;
  match nth_error l n with Some x => Ok x | None => Err IndexError end.

(** [l[i] = x] *)
Definition py_set {A} (l : list A) (i : Z) (x : A) : result (list A) :=
  n <- py_index (Z.of_nat (length l)) i ;; Ok (replace_nth n x l).
