(** What a ConstDict is supposed to be. *)
From Verif Require Import Base Sort_Spec Hash_Spec ConstDict_Model.
Open Scope Z_scope.

(** A total order whose ties are exactly the equal values. *)
Definition total_order {A} (lt eqb : A -> A -> bool) : Prop :=
  strict_weak_order lt /\ forall x y, eqb x y = negb (lt x y) && negb (lt y x).

(** What the C++ standard promises about [std::sort]: for a strict weak order the result is a
    rearrangement in which nothing precedes a smaller element.  (Equal elements may end up in any
    order.) *)
Definition std_sort_contract (std_sort : (nat -> nat -> bool) -> list nat -> list nat) : Prop :=
  forall less l, strict_weak_order less ->
  Permutation (std_sort less l) l /\ nondecreasing less (std_sort less l).

Section Meaning.
  Context {K V : Type}.
  Variable lt eqb : K -> K -> bool.

  (** Every key is smaller than every later key; in particular no two keys are equal. *)
  Definition ascending_keys (d : list (K * V)) : Prop :=
    forall i j k1 v1 k2 v2, (i < j)%nat -> nth_error d i = Some (k1, v1) -> nth_error d j = Some (k2, v2) ->
    lt k1 k2 = true.

  (** The value a program's dictionary should give a key: in [a + b] the right operand wins, [a - keys]
      has the keys of [a] that are not listed. *)
  Fixpoint meaning (e : expr K V) (k : K) : option V :=
    match e with
    | Build _ items => m_lookup eqb items k
    | Plus _ a b => match meaning b k with Some v => Some v | None => meaning a k end
    | Minus _ a keys => if existsb (eqb k) keys then None else meaning a k
    end.

  (** Every mapping a ConstDict is constructed from has different keys, after their conversion to the
      key type. *)
  Fixpoint distinct_sources (e : expr K V) : Prop :=
    match e with
    | Build _ items => distinct_keys eqb items
    | Plus _ a b => distinct_sources a /\ distinct_sources b
    | Minus _ a _ => distinct_sources a
    end.

  (** The same program run in other places. *)
  Fixpoint same_program (e1 e2 : expr K V) : Prop :=
    match e1, e2 with
    | Build _ l1, Build _ l2 => l1 = l2
    | Plus _ a1 b1, Plus _ a2 b2 => same_program a1 a2 /\ same_program b1 b2
    | Minus _ a1 k1, Minus _ a2 k2 => same_program a1 a2 /\ k1 = k2
    | _, _ => False
    end.
End Meaning.

(** What the six operators should do on a type: [==] is an equivalence the order respects, exactly one
    of [<], [==] and [>] holds, [<] is transitive, and the others are what their names say. *)
Record good_comparison {A} (test : cmpop -> A -> A -> bool) : Prop := {
  cmp_eq_refl : forall x, test EQ x x = true;
  cmp_eq_sym : forall x y, test EQ x y = test EQ y x;
  cmp_eq_trans : forall x y z, test EQ x y = true -> test EQ y z = true -> test EQ x z = true;
  cmp_ne : forall x y, test NE x y = negb (test EQ x y);
  cmp_lt_trans : forall x y z, test LT x y = true -> test LT y z = true -> test LT x z = true;
  cmp_lt_eq : forall x y z, test EQ x y = true -> test LT x z = test LT y z /\ test LT z x = test LT z y;
  cmp_trichotomy : forall x y,
    (test LT x y = true /\ test EQ x y = false /\ test LT y x = false) \/
    (test LT x y = false /\ test EQ x y = true /\ test LT y x = false) \/
    (test LT x y = false /\ test EQ x y = false /\ test LT y x = true);
  cmp_le : forall x y, test LE x y = test LT x y || test EQ x y;
  cmp_gt : forall x y, test GT x y = test LT y x;
  cmp_ge : forall x y, test GE x y = test LT y x || test EQ x y
}.
