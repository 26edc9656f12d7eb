(** What [all], [any], [min] and [max] of Python answer. *)
From Verif Require Import Base.
Open Scope list_scope.

(** Everything before [a] has the truth [b], and [a] is the first that has another, or fails. *)
Definition first_other {A} (truth : A -> result bool) (b : bool) (l : list A) (a : A) (rest : list A) : Prop :=
  exists before, l = before ++ a :: rest /\ Forall (fun x => truth x = Ok b) before /\ truth a <> Ok b.

(** [all] asks until one is not true, and [any] until one is; nothing behind that is taken from the iterable. *)
Definition asks {A} (truth : A -> result bool) (b : bool) (l : list A) (answer : result bool * list A) : Prop :=
  (Forall (fun x => truth x = Ok b) l /\ answer = (Ok b, nil)) \/
  (exists a rest, first_other truth b l a rest /\ answer = (truth a, rest)).
Definition python_all {A} (truth : A -> result bool) := asks truth true.
Definition python_any {A} (truth : A -> result bool) := asks truth false.

(** An order in which things may be equal, as numbers, text and tuples of these have: [lt x z] puts every [y] behind [x] or before [z]. *)
Record weak_order {A} (lt : A -> A -> Prop) : Prop := WeakOrder {
  never : forall x, ~ lt x x;
  chain : forall x y z, lt x y -> lt y z -> lt x z;
  between : forall x y z, lt x z -> lt x y \/ lt y z
}.
(** A comparison that does not fail and answers by [lt]. *)
Definition answers {A} (lt : A -> A -> Prop) (f : A -> A -> result bool) : Prop :=
  forall x y, exists b, f x y = Ok b /\ (b = true <-> lt x y).

(** [x] is the first of the best: better than all before it, and none behind it is better. *)
Definition first_best {A} (lt : A -> A -> Prop) (l : list A) (x : A) : Prop :=
  exists before behind, l = before ++ x :: behind /\ (forall y, In y before -> lt x y) /\ (forall y, In y behind -> ~ lt y x).

(** What Python does for [min] and [max] whatever the comparison is (min_max of bltinmodule.c): it keeps the best so far, compares each
    item with it, and fails with the first comparison that fails. *)
Inductive keeps {A} (better : A -> A -> result bool) : A -> list A -> result A -> Prop :=
| keeps_end x : keeps better x nil (Ok x)
| keeps_new x e l r : better e x = Ok true -> keeps better e l r -> keeps better x (e :: l) r
| keeps_old x e l r : better e x = Ok false -> keeps better x l r -> keeps better x (e :: l) r
| keeps_fail x e l err : better e x = Err err -> keeps better x (e :: l) (Err err).
