(** What reference counts must be, and which assignments the theorems are about. *)
From Verif Require Import Base Life_Model.
Open Scope Z_scope.
Open Scope list_scope.

(** The objects a value refers to, each as often as it does. *)
Fixpoint owned (v : val) : list Z :=
  match v with
  | Plain _ | Tag _ => []
  | Ref _ p => match p with Some a => [a] | None => [] end
  | Parts vs => flat_map owned vs
  | OneOf _ v => owned v
  | Members ms | Row ms => flat_map (fun o => match o with Some v => owned v | None => [] end) ms
  end.

Definition times (a : Z) (l : list Z) : Z := Z.of_nat (count_occ Z.eq_dec l a).

(** All references there are: from the variables and from the objects. *)
Definition references (m : mem) : list Z :=
  flat_map (fun o => match o with Some v => owned v | None => [] end) (vars m) ++
  flat_map (fun p => owned (body (snd p))) (objects m).

(** Only strings, bytes, tuples and ConstDicts may be null pointers: that is how they are empty. *)
Fixpoint proper (v : val) : bool :=
  match v with
  | Plain _ | Tag _ | Ref _ (Some _) => true
  | Ref k None => match k with Text | Array | Sorted => true | _ => false end
  | Parts vs => forallb proper vs
  | OneOf _ v => proper v
  | Members ms | Row ms => forallb (fun o => match o with Some v => proper v | None => true end) ms
  end.

(** The state that reference counting must keep: every object has a reference and counts exactly the references to it, and every
    reference is to an object that is allocated. *)
Record sound (m : mem) : Prop := Sound {
  apart_addresses : NoDup (map fst (objects m));
  exact_counts : forall a n, find (objects m) a = Some n -> 1 <= count n /\ count n = times a (references m);
  no_dangling : forall a, In a (references m) -> find (objects m) a <> None;
  no_bad_nulls : forall b v, whole m b = Some v -> proper v = true
}.

(** [m'] is [m] with [x] written to a place, without the objects that were freed, and with other counts. *)
Definition changed (m m' : mem) (p : place) (x : val) : Prop :=
  exists w, write m p x = Ok w /\ vars m' = vars w /\ forall a v, whole m' (At a) = Some v -> whole w (At a) = Some v.

(** An object that a variable other than [b] refers to, or an object other than [b] that is held in this way. *)
Inductive held (m : mem) (b : base) : Z -> Prop :=
| by_variable y v a : Var y <> b -> whole m (Var y) = Some v -> In a (owned v) -> held m b a
| by_object c v a : held m b c -> At c <> b -> whole m (At c) = Some v -> In a (owned v) -> held m b a.

Definition kept (m : mem) (b c : base) : Prop := match c with Var _ => True | At a => held m b a end.

Definition diverge (p q : list nat) : Prop := exists c i j p' q', p = c ++ i :: p' /\ q = c ++ j :: q' /\ i <> j.

(** Neither the memory that is assigned to nor the memory that is assigned from is only there because of the value that goes away. *)
Definition safe (m : mem) (self other : place) : Prop :=
  kept m (root self) (root self) /\
  (root other <> root self /\ kept m (root self) (root other) \/ root other = root self /\ diverge (path self) (path other)).

(** No member of a HeldClass gets a value by the assignment that it did not have, and in the interpreter no alternative without members
    is assigned. *)
Fixpoint settled (compiled : bool) (v w : val) : bool :=
  match v, w with
  | Tag _, _ => compiled
  | Parts vs, Parts ws =>
      (fix all (vs ws : list val) : bool :=
         match vs, ws with
         | v :: vs, w :: ws => settled compiled v w && all vs ws
         | _, _ => true
         end) vs ws
  | OneOf n v, OneOf l w => negb (Nat.eqb n l) || settled compiled v w
  | Members ms, Members ls =>
      (fix all (ms ls : list (option val)) : bool :=
         match ms, ls with
         | o :: ms, q :: ls =>
             match o, q with Some v, Some w => settled compiled v w | None, Some _ => false | _, None => true end && all ms ls
         | _, _ => true
         end) ms ls
  | _, _ => true
  end.

(** No object refers to itself, however indirectly. *)
Definition acyclic (m : mem) : Prop :=
  exists rank : Z -> nat, forall a n b, find (objects m) a = Some n -> In b (owned (body n)) -> (rank b < rank a)%nat.

(** The objects that the variables lead to. *)
Inductive reached (m : mem) : Z -> Prop :=
| from_variable y v a : whole m (Var y) = Some v -> In a (owned v) -> reached m a
| from_object c v a : reached m c -> whole m (At c) = Some v -> In a (owned v) -> reached m a.

Definition no_values (m : mem) : Prop := Forall (fun o => o = None) (vars m).

(** An error that the program may see, not one of memory. *)
Definition harmless (e : exn) : Prop := e <> UndefinedBehaviour /\ e <> OutOfFuel.
