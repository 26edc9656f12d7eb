(** What Python says about inheritance: the order of base classes (C3), what an attribute is, and orders of classes in
    general.  Properties C66 and C67. *)
From Verif Require Import Base Class_Model.
From Coq Require Import String.
Open Scope string_scope.
Open Scope list_scope.

(** ** Orders *)

(** [l] without some of its elements. *)
Inductive subsequence {A} : list A -> list A -> Prop :=
| sub_nil : forall l, subsequence nil l
| sub_skip : forall x a l, subsequence a l -> subsequence a (x :: l)
| sub_keep : forall x a l, subsequence a l -> subsequence (x :: a) (x :: l).

(** [out] has every element of the lists once and each list in its order. *)
Definition linearizes (lists : list (list nat)) (out : list nat) : Prop :=
  NoDup out /\ (forall x, In x out <-> exists l, In l lists /\ In x l) /\ forall l, In l lists -> subsequence l out.

(** ** C3 *)

(** The merge of "The Python 2.3 Method Resolution Order": take the head of the first list whose head is in the tail
    of no list, take it away from the lists that begin with it, and go on until the lists are empty. *)
Definition good_head (lists : list (list nat)) (c : nat) : Prop := forall l, In l lists -> ~ In c (tl l).
Definition without_head (c : nat) (l : list nat) : list nat :=
  match l with x :: r => if Nat.eqb x c then r else l | nil => nil end.
Inductive c3_merge : list (list nat) -> list nat -> Prop :=
| c3_done : forall lists, (forall l, In l lists -> l = nil) -> c3_merge lists nil
| c3_take : forall lists earlier c r later out,
    lists = earlier ++ (c :: r) :: later ->
    good_head lists c ->
    (forall x s, In (x :: s) earlier -> ~ good_head lists x) ->
    c3_merge (map (without_head c) lists) out ->
    c3_merge lists (c :: out).

(** The method resolution order of class [c] when [bases] lists the bases of each class. *)
Inductive python_mro (bases : list (list nat)) : nat -> list nat -> Prop :=
| python_mro_intro : forall c bs mros out,
    nth_error bases c = Some bs ->
    Forall2 (python_mro bases) bs mros ->
    c3_merge (mros ++ [bs]) out ->
    python_mro bases c (c :: out).

(** [a] is [c] or a base of a base ... of [c]. *)
Inductive ancestor (bases : list (list nat)) : nat -> nat -> Prop :=
| ancestor_self : forall c bs, nth_error bases c = Some bs -> ancestor bases c c
| ancestor_base : forall c bs b a, nth_error bases c = Some bs -> In b bs -> ancestor bases b a -> ancestor bases c a.

Definition bases_of (w : world) : list (list nat) := map c_bases w.

(** ** Programs *)

(** Programs whose class statements name no base twice.  Python refuses the others ("duplicate base class"). *)
Definition no_base_twice (es : list event) : Prop := forall bs b, In (Define bs b) es -> NoDup bs.

(** The restrictions that typed_python adds to Python's: no base is final or has a class member that the class
    defines anew, at most one base has data members, and the data members have names of their own. *)
Definition has_members (k : cls) : Prop := c_members k <> nil.
Definition redefines_nothing (k : cls) (b : body) : Prop :=
  forall n new old, In (n, new) (b_classmembers b) -> lookup (b_classmembers (c_body k)) n = Some old ->
    new = old \/ In n ["__typed_python_template__"; "__qualname__"; "__module__"; "__classcell__"].
Definition allowed (w : world) (bs : list nat) (b : body) : Prop :=
  (forall c, In c bs -> exists k, nth_error w c = Some k /\ b_final (c_body k) = false /\ redefines_nothing k b) /\
  (forall c d k l, In c bs -> In d bs -> nth_error w c = Some k -> nth_error w d = Some l ->
     has_members k -> has_members l -> c = d) /\
  NoDup (map m_name (b_members b)) /\
  (forall c k m x, In c bs -> nth_error w c = Some k -> In m (c_members k) -> In x (b_members b) -> m_name m <> m_name x).

(** ** Attributes *)

(** What a class body says about a name.  A data member hides the class member that goes with it. *)
Inductive meaning :=
| IsMember
| IsMethod (overloads : list Z)
| IsProperty (overloads : list Z)
| IsObject (object : Z)
| IsClassMethod (overloads : list Z)
| IsStatic (overloads : list Z).
Definition said (b : body) (n : string) (m : meaning) : Prop :=
  match m with
  | IsMember => In n (map m_name (b_members b))
  | IsMethod os => lookup (b_methods b) n = Some os
  | IsProperty os => lookup (b_properties b) n = Some os
  | IsObject o => ~ In n (map m_name (b_members b)) /\ lookup (b_classmembers b) n = Some o
  | IsClassMethod os => lookup (b_classmethods b) n = Some os
  | IsStatic os => lookup (b_statics b) n = Some os
  end.
Definition silent (b : body) (n : string) : Prop := forall m, ~ said b n m.

Inductive kind := KMember | KMethod | KProperty | KObject | KClassMethod | KStatic.
Definition kind_of (m : meaning) : kind :=
  match m with
  | IsMember => KMember
  | IsMethod _ => KMethod
  | IsProperty _ => KProperty
  | IsObject _ => KObject
  | IsClassMethod _ => KClassMethod
  | IsStatic _ => KStatic
  end.

(** Python: the first class of the order that says something about the name decides. *)
Definition python_attribute (bodies : list body) (n : string) (m : meaning) : Prop :=
  exists earlier b later, bodies = earlier ++ b :: later /\ (forall e, In e earlier -> silent e n) /\ said b n m.

(** All that the bodies say about the name is of one kind. *)
Definition one_kind (bodies : list body) (n : string) (k : kind) : Prop :=
  forall b m, In b bodies -> said b n m -> kind_of m = k.

(** A method may be called with the overloads of the class and then with those of its bases. *)
Definition all_overloads (own : body -> functions) (bodies : list body) (n : string) : list Z :=
  flat_map (fun b => match lookup (own b) n with Some os => os | None => nil end) bodies.

(** A body as [ClassMetaclass] hands it over: dicts have each name once, and each data member has its [Member]
    among the class members. *)
Definition well_formed (b : body) : Prop :=
  NoDup (map fst (b_methods b)) /\ NoDup (map fst (b_statics b)) /\ NoDup (map fst (b_properties b)) /\
  NoDup (map fst (b_classmethods b)) /\ NoDup (map fst (b_classmembers b)).
Definition well_formed_program (es : list event) : Prop := forall bs b, In (Define bs b) es -> well_formed b.

(** The bodies of a class and of the classes it inherits from, in the order of search. *)
Definition searched (w : world) (c : nat) : list body :=
  match nth_error w c with Some k => bodies_of w (c_mro k) | None => nil end.

(** Overloads that answer every call alike. *)
Definition same_calls (os ps : list Z) : Prop :=
  forall level (accepts : level -> Z -> bool) levels, call accepts levels os = call accepts levels ps.

(** What an instance of class [c] shows under a name is what Python's search means: the same data member, the same
    object, or a function that has the overloads of all classes in the order of search. *)
Definition found (w : world) (c : nat) (n : string) (m : meaning) (a : attribute) : Prop :=
  let bodies := searched w c in
  match m, a with
  | IsMember, AMember i => exists k x, nth_error w c = Some k /\ nth_error (c_members k) i = Some x /\ m_name x = n
  | IsMethod _, AMethod os => os = all_overloads b_methods bodies n
  | IsProperty _, AProperty os => os = all_overloads b_properties bodies n
  | IsObject o, AObject p => o = p
  | IsClassMethod _, AClassMethod os => os = all_overloads b_classmethods bodies n
  | IsStatic _, AStatic os => same_calls os (all_overloads b_statics bodies n)
  | _, _ => False
  end.

(** Overload [o] runs: it takes the arguments at some level of conversion, no overload of a class that is searched
    earlier and no earlier one of its own class does so at that level, and none at all does so at an earlier level. *)
Definition runs {level} (accepts : level -> Z -> bool) (levels : list level) (own : body -> functions) (bodies : list body)
    (n : string) (o : Z) : Prop :=
  exists before l after earlier b later os1 os2,
    levels = before ++ l :: after /\ bodies = earlier ++ b :: later /\ lookup (own b) n = Some (os1 ++ o :: os2) /\
    accepts l o = true /\
    (forall x, In x os1 -> accepts l x = false) /\
    (forall b' os x, In b' earlier -> lookup (own b') n = Some os -> In x os -> accepts l x = false) /\
    (forall m b' os x, In m before -> In b' bodies -> lookup (own b') n = Some os -> In x os -> accepts m x = false).
