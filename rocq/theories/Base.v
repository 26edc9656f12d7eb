(** Shared vocabulary of the models: Python/C++ exceptions as values. *)
From Coq Require Export List ZArith NArith Bool Lia.
Export ListNotations.

(** Kinds of exception raised by the modelled code.  Messages are not modelled. *)
Inductive exn : Type :=
| KeyError
| IndexError
| ValueError
| TypeError
| GenericError            (* Python's plain [Exception], C++ [std::runtime_error] *)
| NonexistentDate         (* lib/datetime/date_time.py:25 *)
| NonexistentDateTime     (* lib/datetime/date_time.py:17 *)
| OneFoldOnlyError        (* lib/datetime/date_time.py:21 *)
| NotImplementedError
| ZeroDivisionError
| OverflowError
| UndefinedBehaviour      (* the C++ has undefined behaviour here, e.g. an out-of-bounds access *)
| OutOfFuel.              (* never raised by the code: a model loop ran out of fuel *)

Inductive result (A : Type) : Type :=
| Ok (a : A)
| Err (e : exn).
Arguments Ok {A} a.
Arguments Err {A} e.

Definition bind {A B} (r : result A) (f : A -> result B) : result B :=
  match r with Ok a => f a | Err e => Err e end.

Declare Scope result_scope.
Delimit Scope result_scope with result.
Notation "x <- r ;; k" := (bind r (fun x => k))
  (at level 61, r at next level, right associativity) : result_scope.

Notation "' p <- r ;; k" := (bind r (fun p => k))
  (at level 61, p pattern, r at next level, right associativity) : result_scope.

Definition is_ok {A} (r : result A) : bool :=
  match r with Ok _ => true | Err _ => false end.

(** Machine integers: [wrap_u w x] is the unsigned [w]-bit residue, [wrap_s w x] the
    two's complement value.  Both are what a C++ conversion to the type does. *)
Definition wrap_u (w : Z) (x : Z) : Z := (x mod 2 ^ w)%Z.
Definition wrap_s (w : Z) (x : Z) : Z :=
  (let r := x mod 2 ^ w in if r <? 2 ^ (w - 1) then r else r - 2 ^ w)%Z.
