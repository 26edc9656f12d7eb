(** What it means for a list to be sorted by a comparison. *)
From Verif Require Import Base.
From Coq Require Export Permutation.

(** A strict weak order: a strict partial order in which "neither is less" is an
    equivalence. *)
Record strict_weak_order {A} (less : A -> A -> bool) : Prop := {
  swo_irrefl : forall x, less x x = false;
  swo_trans : forall x y z, less x y = true -> less y z = true -> less x z = true;
  swo_incomp : forall x y z, less x y = false -> less y z = false -> less x z = false }.

(** [==] only identifies values the order does not distinguish. *)
Definition equality_respects_order {A} (less eqb : A -> A -> bool) : Prop :=
  forall x y, eqb x y = true -> less x y = false /\ less y x = false.

(** No element is greater than a later one. *)
Definition nondecreasing {A} (less : A -> A -> bool) (l : list A) : Prop :=
  forall i j x y, (i < j)%nat -> nth_error l i = Some x -> nth_error l j = Some y -> less y x = false.
