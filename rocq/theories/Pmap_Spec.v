(** What [pmap] is supposed to do: the same as the list comprehension, run by one thread. *)
From Verif Require Import Base PyList Pmap_Model.

Section Spec.
  Context {V E : Type}.

  (** The results in order, or the exception of the first element that raises. *)
  Fixpoint in_order (l : list (outcome E V)) : outcome E (list V) :=
    match l with
    | [] => Good []
    | Bad e :: _ => Bad e
    | Good v :: l => match in_order l with Good r => Good (v :: r) | Bad e => Bad e end
    end.

  (** The result of a computation that is run by one thread, with [[f(x) for x in lst]] for [pmap]. *)
  Fixpoint eval (b : body V E) : outcome E V :=
    match b with
    | Return r => r
    | Pmap bs _ k => eval (k (in_order (map eval bs)))
    end.

  (** The thread is not an executor, and its program is over with the outcome [r]. *)
  Definition finished_with (program : body V E) (r : outcome E V) (th : thread V E) : Prop :=
    executor th = false /\ stack th = [Main program (Running (Return r))].

  Variable cpu : Z.
  Fixpoint moves (schedule : list nat) (s : state V E) : nat :=
    match schedule with
    | [] => O
    | t :: schedule => match step cpu t s with Ok (Some s') => S (moves schedule s') | _ => moves schedule s end
    end.
  Definition stuck (s : state V E) : Prop := forall t, step cpu t s = Ok None.
End Spec.
Definition fair_round (n : nat) (round : list nat) : Prop := forall t, (t < n)%nat -> In t round.
