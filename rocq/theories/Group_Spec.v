(** What groups and hashes of objects should be. *)

From Verif Require Import Base Group_Model.
Open Scope list_scope.

Section Spec.
Context {V H : Type} (succ : V -> list V) (const : V -> bool).

(** An object can be reached from another by seeing, through objects that are
    not constants. *)
Inductive reach : V -> V -> Prop :=
| reach_refl : forall v, reach v v
| reach_step : forall u v w,
    reach u v -> In w (succ v) -> const w = false -> reach u w.

(** The two see each other. *)
Definition mutual (v w : V) : Prop := reach v w /\ reach w v.

(** The members are all that see each other. *)
Definition class (ms : list V) : Prop :=
  ms <> [] /\ NoDup ms /\ forall v, In v ms -> forall w, In w ms <-> mutual v w.

(** [ms] and [ns] have the same elements. *)
Definition same (ms ns : list V) : Prop := forall v, In v ms <-> In v ns.

Variables (root_of : list V -> V * bool) (mix : V -> list (ref V H) -> H)
  (sum : list H -> H) (poison : H).

(** How [w] is referred to from the group with members [ord]: by value if it
    is constant, by its position if it is a member, and else by the hash of
    its own group and its position in that. *)
Definition refers (eqb : V -> V -> bool) (ord : list V) (other : V -> group V H) (w : V) : ref V H :=
  if const w then RConst w
  else match index eqb w ord with
       | Some i => RIn i
       | None =>
           match index eqb w (order (other w)) with
           | Some i => ROut (hash (other w)) i
           | None => RConst w
           end
       end.

(** Going through [todo] and, right after each object, through all that it
    sees, gives [ord] after [seen]: each member where it is met first. *)
Inductive walks (ms : list V) : list V -> list V -> list V -> Prop :=
| walks_end : forall seen, walks ms [] seen seen
| walks_skip : forall v todo seen ord,
    ~ In v ms \/ In v seen -> walks ms todo seen ord -> walks ms (v :: todo) seen ord
| walks_new : forall v todo seen ord,
    In v ms -> ~ In v seen ->
    walks ms (succ v ++ todo) (seen ++ [v]) ord -> walks ms (v :: todo) seen ord.

(** The members are in the order of a walk from the root. *)
Definition walk (ord : list V) : Prop := walks ord [fst (root_of ord)] [] ord.

(** The order and the hash that a group has: they come from its members and
    from the groups that these see, and from nothing else. *)
Inductive hashed (eqb : V -> V -> bool) : group V H -> Prop :=
| hashed_group : forall ord (other : V -> group V H),
    class ord -> walk ord ->
    (forall v w, In v ord -> In w (succ v) -> const w = false -> ~ In w ord ->
       In w (order (other w))) ->
    (forall v w, In v ord -> In w (succ v) -> const w = false -> ~ In w ord ->
       hashed eqb (other w)) ->
    hashed eqb
      (Group ord
        (if snd (root_of ord) then poison
         else sum (map (fun v => mix v (map (refers eqb ord other) (succ v))) ord))).

End Spec.

(** How often search [k] goes on. *)
Fixpoint turns {V : Type} (k : nat) (es : list (event (V := V))) : nat :=
  match es with
  | [] => 0
  | Step j :: es => if Nat.eqb j k then S (turns k es) else turns k es
  | Start _ :: es => turns k es
  end.

(** The same reference in another process, where [to] gives the object that
    stands for one of this process. *)
Definition ref_to {V W H : Type} (to : V -> W) (r : ref V H) : ref W H :=
  match r with
  | RConst v => RConst (to v)
  | RIn i => RIn i
  | ROut h i => ROut h i
  end.

(** What is assumed of comparing objects and of choosing roots. *)
Definition sound {V : Type} (eqb : V -> V -> bool) (root_of : list V -> V * bool) : Prop :=
  (forall x y, eqb x y = true <-> x = y) /\
  (forall ms, ms <> [] -> In (fst (root_of ms)) ms) /\
  (forall ms ns, same ms ns -> root_of ms = root_of ns).

(** The hash of the group of an object, and its position there. *)
Definition place {V H : Type} (eqb : V -> V -> bool) (t : table V H) (v : V) : option (H * nat) :=
  match lookup eqb t v with
  | Some g => match index eqb v (order g) with Some i => Some (hash g, i) | None => None end
  | None => None
  end.

(** Hashes that are made from poison are poison. *)
Definition absorbs {V H : Type} (mix : V -> list (ref V H) -> H) (sum : list H -> H) (poison : H) : Prop :=
  (forall v rs i, In (ROut poison i) rs -> mix v rs = poison) /\
  (forall hs, In poison hs -> sum hs = poison).
