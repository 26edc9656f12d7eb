(** Directed graphs as relations, and the work list of the compiler as a set of markings.  Properties C33
    and C34. *)
From Verif Require Import Base Graph_Model.
From Coq Require Import Permutation.
Open Scope Z_scope.

Section Spec.
  Context {node : Type}.

  (** ** C33 *)

  (** The edges after each call. *)
  Definition edges_step (E : node -> node -> Prop) (op : graph_op node) : node -> node -> Prop :=
    match op with
    | AddEdge a b => fun x y => E x y \/ (x = a /\ y = b)
    | DropEdge a b | DiscardEdge a b => fun x y => E x y /\ ~ (x = a /\ y = b)
    | DropNode n false => fun x y => E x y /\ x <> n /\ y <> n
    | DropNode n true => fun x y => (E x y \/ (E x n /\ E n y)) /\ x <> n /\ y <> n
    end.
  Definition edges_after (ops : list (graph_op node)) : node -> node -> Prop := fold_left edges_step ops (fun _ _ => False).

  Inductive path (E : node -> node -> Prop) : node -> nat -> node -> Prop :=
  | path_refl : forall x, path E x 0 x
  | path_step : forall x y n z, E x y -> path E y n z -> path E x (S n) z.
  Definition acyclic (E : node -> node -> Prop) : Prop := forall x n, ~ path E x (S n) x.

  (** The longest path that ends in [x] has [n] edges. *)
  Definition depth (E : node -> node -> Prop) (x : node) (n : nat) : Prop :=
    (exists y, path E y n x) /\ forall y k, path E y k x -> (k <= n)%nat.
  Definition opposite (reversed : bool) (E : node -> node -> Prop) : node -> node -> Prop :=
    if reversed then fun x y => E y x else E.

  (** Everywhere in the list, [x] comes before [y]. *)
  Definition before (x y : node) (l : list node) : Prop :=
    forall i j, nth_error l i = Some x -> nth_error l j = Some y -> (i < j)%nat.

  (** ** C34 *)

  (** The known functions with the depth at which each was found, the calls, the markings that are
      outstanding, and all that were ever made; a marking is a priority and a function. *)
  Record spec := { known : node -> Z -> Prop; calls : node -> node -> Prop; todo : Z -> node -> Prop; ever : Z -> node -> Prop }.
  Definition new_spec : spec :=
    {| known := fun _ _ => False; calls := fun _ _ => False; todo := fun _ _ => False; ever := fun _ _ => False |}.
  Definition unknown (S : spec) (n : node) : Prop := forall level, ~ known S n level.

  Definition spec_step (op : work_op node) (r : response node) (S : spec) : spec :=
    match op with
    | Root n =>
        let new p x := p = 0 /\ x = n /\ unknown S n in
        {| known := fun x l => known S x l \/ (x = n /\ l = 0 /\ unknown S n); calls := calls S;
           todo := fun p x => todo S p x \/ new p x; ever := fun p x => ever S p x \/ new p x |}
    | Edge a b =>
        let new p x := x = b /\ unknown S b /\ exists l, known S a l /\ p = 1000000 - (l + 1) in
        {| known := fun x l => known S x l \/ (x = b /\ unknown S b /\ known S a (l - 1));
           calls := fun x y => calls S x y \/ (x = a /\ y = b /\ exists l, known S a l);
           todo := fun p x => todo S p x \/ new p x; ever := fun p x => ever S p x \/ new p x |}
    | Drop n =>
        {| known := fun x l => known S x l /\ x <> n; calls := fun x y => calls S x y /\ x <> n /\ y <> n;
           todo := fun p x => todo S p x /\ x <> n; ever := ever S |}
    | MarkDirty n =>
        let new p x := x = n /\ known S n p in
        {| known := known S; calls := calls S; todo := fun p x => todo S p x \/ new p x; ever := fun p x => ever S p x \/ new p x |}
    | MarkLow n =>
        let new p x := x = n /\ known S n (p + 1000000) in
        {| known := known S; calls := calls S; todo := fun p x => todo S p x \/ new p x; ever := fun p x => ever S p x \/ new p x |}
    | Changed n =>
        let new p x := calls S x n /\ known S x p in
        {| known := known S; calls := calls S; todo := fun p x => todo S p x \/ new p x; ever := fun p x => ever S p x \/ new p x |}
    | Next =>
        {| known := known S; calls := calls S; todo := fun p x => todo S p x /\ r <> Given (Some x); ever := ever S |}
    end.
  (** The state after a trace, and the responses that are right in a state. *)
  Definition spec_after (trace : list (work_op node * response node)) (S : spec) : spec :=
    fold_left (fun S e => spec_step (fst e) (snd e) S) trace S.
  Definition right (op : work_op node) (r : response node) (S : spec) : Prop :=
    match op with
    | Edge a _ => (unknown S a /\ r = Done (Err GenericError)) \/ (~ unknown S a /\ r = Done (Ok tt))
    | Next => match r with
              | Given None => forall p n, ~ todo S p n
              | Given (Some n) => exists p, todo S p n
              | Done _ => False
              end
    | _ => r = Done (Ok tt)
    end.
  Fixpoint all_right (trace : list (work_op node * response node)) (S : spec) : Prop :=
    match trace with
    | [] => True
    | (op, r) :: trace => right op r S /\ all_right trace (spec_step op r S)
    end.
  (** Only known functions are marked. *)
  Definition legal_op (op : work_op node) (S : spec) : Prop :=
    match op with
    | MarkDirty n | MarkLow n => ~ unknown S n
    | _ => True
    end.
  Fixpoint legal (trace : list (work_op node * response node)) (S : spec) : Prop :=
    match trace with
    | [] => True
    | (op, r) :: trace => legal_op op S /\ legal trace (spec_step op r S)
    end.
End Spec.
