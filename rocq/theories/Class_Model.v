(** Model of the definition of classes: the order in which base classes are searched, what a class inherits, and
    how an attribute of an instance is found.  HeldClassType.hpp, HeldClassType.cpp, PyClassInstance.cpp,
    internals.py ([ClassMetaclass]) and _types.cpp ([MakeClassType]).

    A class is the number of its definition.  Two classes are the same type only if they are one definition
    ([Type::typesEquivalent] of two structurally equal classes is not modelled).  An overload of a function, an
    object that is a class member and the type of a data member are numbers that stand for their identity. *)
From Verif Require Import Base.
From Coq Require Import String.
Open Scope string_scope.
Open Scope list_scope.
Open Scope result_scope.

(** ** Maps from names *)

(** [std::map<std::string, V>]: the entries in the order of insertion, which no result depends on. *)
Fixpoint lookup {V} (m : list (string * V)) (n : string) : option V :=
  match m with
  | nil => None
  | (k, v) :: m' => if String.eqb k n then Some v else lookup m' n
  end.
Fixpoint put {V} (m : list (string * V)) (n : string) (v : V) : list (string * V) :=
  match m with
  | nil => [(n, v)]
  | (k, w) :: m' => if String.eqb k n then (k, v) :: m' else (k, w) :: put m' n v
  end.

(** ** The order in which bases are searched *)

(** [std::set<HeldClass*>], with its members in any order. *)
Definition mem (c : nat) (s : list nat) : bool := existsb (Nat.eqb c) s.
Definition insert (c : nat) (s : list nat) : list nat := if mem c s then s else c :: s.
Definition erase (c : nat) (s : list nat) : list nat := filter (fun x => negb (Nat.eqb c x)) s.

(** One of [chains] with its entry of [chainTails], HeldClassType.hpp:789-805. *)
Definition chain := (list nat * list nat)%type.
Definition to_chain (l : list nat) : chain := (l, fold_left (fun s c => insert c s) (tl l) nil).

(** [isValid], 809-817. *)
Definition is_valid (chains : list chain) (c : nat) : bool :=
  forallb (fun ch => negb (mem c (snd ch))) chains.

(** [pickCls], 819-840. *)
Inductive picked := Picked (c : nat) | Finished | NoOrder.
Fixpoint pick (all chains : list chain) (any_populated : bool) : picked :=
  match chains with
  | nil => if any_populated then NoOrder else Finished
  | (nil, _) :: rest => pick all rest any_populated
  | (c :: _, _) :: rest => if is_valid all c then Picked c else pick all rest true
  end.

(** The inner loop, 851-859: the class is taken from the front of the chains, and it and the new front are taken
    from the tails. *)
Definition advance (c : nat) (ch : chain) : chain :=
  match fst ch with
  | x :: rest =>
      if Nat.eqb x c then
        let tails := erase c (snd ch) in
        (rest, match rest with nil => tails | y :: _ => erase y tails end)
      else ch
  | nil => ch
  end.

(** The outer loop, 842-861.  Each turn shortens a chain, so the sum of their lengths is fuel enough. *)
Fixpoint merge_chains (fuel : nat) (chains : list chain) : result (list nat) :=
  match fuel with
  | O => Err OutOfFuel
  | S fuel =>
      match pick chains chains false with
      | Finished => Ok nil
      | NoOrder => Err TypeError
      | Picked c => rest <- merge_chains fuel (map (advance c) chains) ;; Ok (c :: rest)
      end
  end.

(** [_computeMroSequence], 786-862.  [std::runtime_error] becomes a [TypeError] in [translateExceptionToPyObject]. *)
Definition compute_mro (self : nat) (base_mros : list (list nat)) (bases : list nat) : result (list nat) :=
  let lists := base_mros ++ [bases] in
  rest <- merge_chains (S (List.length (List.concat lists))) (map to_chain lists) ;;
  Ok (self :: rest).

(** ** The body of a class *)

(** [MemberDefinition], HeldClassType.hpp:39-112: name, type, size of the type in bytes and whether the member is
    [nonempty].  Default values are not modelled. *)
Record member := Member { m_name : string; m_type : Z; m_size : Z; m_nonempty : bool }.

(** The overloads of a [Function], in order (FunctionType.hpp, [mOverloads]). *)
Definition functions := list (string * list Z).

(** The arguments of [MakeClassType], _types.cpp:1081-1279, that [ClassMetaclass.__new__] collects from the body,
    internals.py:279-341.  A data member is a class member too, with its [Member] object, 286-287. *)
Record body := Body {
  b_final : bool;
  b_members : list member;
  b_methods : functions;
  b_statics : functions;
  b_properties : functions;
  b_classmethods : functions;
  b_classmembers : list (string * Z)
}.

(** A [HeldClass] after [initializeMRO]: the fields with the same names without [m_]. *)
Record cls := Cls {
  c_bases : list nat;
  c_body : body;
  c_mro : list nat;
  c_members : list member;
  c_methods : functions;
  c_statics : functions;
  c_properties : functions;
  c_classmethods : functions;
  c_classmembers : list (string * Z)
}.

(** The classes that were defined, in order. *)
Definition world := list cls.

(** ** What a class inherits *)

(** [mergeInto], HeldClassType.hpp:1017-1031, with [Function::merge], FunctionType.hpp:1624-1655: the overloads of
    the second function are put after those of the first.  Methods have no closure, so the merge cannot fail. *)
Definition merge_into (target source : functions) : functions :=
  fold_left (fun t e => match lookup t (fst e) with
                        | None => put t (fst e) (snd e)
                        | Some os => put t (fst e) (os ++ snd e)
                        end) source target.

(** The loop over the class members, 878-882. *)
Definition merge_objects (target source : list (string * Z)) : list (string * Z) :=
  fold_left (fun t e => match lookup t (fst e) with None => put t (fst e) (snd e) | Some _ => t end) source target.

(** [mergeOwnFunctionsIntoInheritanceTree], 871-889, for one of the maps.  [start] is the map before the loop: empty
    after [clear], but the static functions are not cleared. *)
Definition merged_functions (start : functions) (own : body -> functions) (bodies : list body) : functions :=
  fold_left (fun t b => merge_into t (own b)) bodies start.
Definition merged_objects (bodies : list body) : list (string * Z) :=
  fold_left (fun t b => merge_objects t (b_classmembers b)) bodies nil.

(** The own maps of the classes of an order. *)
Definition bodies_of (w : world) (order : list nat) : list body :=
  flat_map (fun c => match nth_error w c with Some k => [c_body k] | None => nil end) order.

(** The members, 907-930: those of the last base that has some, then the own ones, whose names must be new. *)
Definition inherited_members (bases : list cls) : list member :=
  fold_left (fun ms b => match c_members b with nil => ms | _ => c_members b end) bases nil.
Fixpoint add_members (ms own : list member) : result (list member) :=
  match own with
  | nil => Ok ms
  | m :: own' => if existsb (fun x => String.eqb (m_name x) (m_name m)) ms then Err TypeError
                 else add_members (ms ++ [m]) own'
  end.

(** ** Definition of a class *)

(** The loop over the base's class members in [HeldClass::Make], HeldClassType.cpp:467-488. *)
Definition free_to_redefine (n : string) : bool :=
  existsb (String.eqb n) ["__typed_python_template__"; "__qualname__"; "__module__"; "__classcell__"].
Definition redefines (base : cls) (b : body) : bool :=
  existsb (fun e => match lookup (b_classmembers (c_body base)) (fst e) with
                    | Some o => negb (Z.eqb o (snd e)) && negb (free_to_redefine (fst e))
                    | None => false
                    end) (b_classmembers b).

Fixpoint get_bases (w : world) (bases : list nat) : result (list cls) :=
  match bases with
  | nil => Ok nil
  | c :: rest => match nth_error w c with
                 | None => Err TypeError       (* _types.cpp:1158-1164 *)
                 | Some k => ks <- get_bases w rest ;; Ok (k :: ks)
                 end
  end.

(** [HeldClass::Make], HeldClassType.cpp:436-530, and [initializeMRO], HeldClassType.hpp:891-960, without the
    dispatch tables and the layout. *)
Definition make (w : world) (bases : list nat) (b : body) : result world :=
  ks <- get_bases w bases ;;
  if existsb (fun k => b_final (c_body k) || redefines k b) ks then Err TypeError
  else if Nat.ltb 1 (List.length (filter (fun k => match c_members k with nil => false | _ => true end) ks)) then Err TypeError
  else
    mro <- compute_mro (List.length w) (map c_mro ks) bases ;;
    let bodies := b :: bodies_of w (tl mro) in
    ms <- add_members (inherited_members ks) (b_members b) ;;
    Ok (w ++ [{|
      c_bases := bases;
      c_body := b;
      c_mro := mro;
      c_members := ms;
      c_methods := merged_functions nil b_methods bodies;
      c_statics := merged_functions nil b_statics bodies;
      c_properties := merged_functions nil b_properties bodies;
      c_classmethods := merged_functions nil b_classmethods bodies;
      c_classmembers := merged_objects bodies
    |}]).

(** [isSubclassOfConcrete], HeldClassType.hpp:1033-1041, and [__subclasscheck__], internals.py:348-358. *)
Definition is_subclass (w : world) (c a : nat) : bool :=
  match nth_error w c with Some k => mem a (c_mro k) | None => false end.

(** [getMroIndex], 1051-1067: [m_ancestor_to_mro_index] was filled by 894-896. *)
Definition index_map (order : list nat) : list (nat * nat) :=
  fold_left (fun t e => (snd e, fst e) :: t) (combine (seq 0 (List.length order)) order) nil.
Fixpoint find_index (t : list (nat * nat)) (a : nat) : option nat :=
  match t with
  | nil => None
  | (k, i) :: t' => if Nat.eqb k a then Some i else find_index t' a
  end.
Definition mro_index (w : world) (c a : nat) : option nat :=
  match nth_error w c with Some k => find_index (index_map (c_mro k)) a | None => None end.

(** ** Attributes *)

(** What an attribute turns out to be. *)
Inductive attribute :=
| AMember (index : nat)
| AMethod (overloads : list Z)
| AProperty (overloads : list Z)
| AObject (object : Z)
| AClassMethod (overloads : list Z)
| AStatic (overloads : list Z).

Fixpoint member_index (ms : list member) (n : string) : option nat :=
  match ms with
  | nil => None
  | m :: ms' => if String.eqb (m_name m) n then Some O else option_map S (member_index ms' n)
  end.

(** [tpGetattrGeneric], PyClassInstance.cpp:540-659, for a class without [__getattribute__] and [__getattr__].  The
    generic lookup at its end finds what [mirrorTypeInformationIntoPyTypeConcrete], 665-822, left in the dict of the
    type: class methods are written there after static functions.  The names that every type has (such as [MRO])
    are not modelled. *)
Definition get_attribute (w : world) (c : nat) (n : string) : option attribute :=
  match nth_error w c with
  | None => None
  | Some k =>
      match member_index (c_members k) n with
      | Some i => Some (AMember i)
      | None =>
      match lookup (c_methods k) n with
      | Some os => Some (AMethod os)
      | None =>
      match lookup (c_properties k) n with
      | Some os => Some (AProperty os)
      | None =>
      match lookup (c_classmembers k) n with
      | Some o => Some (AObject o)
      | None =>
      match lookup (c_classmethods k) n with
      | Some os => Some (AClassMethod os)
      | None => option_map AStatic (lookup (c_statics k) n)
      end end end end end
  end.

(** An attribute of the class itself: the dict of the type, 717-822.  Class members are written after methods,
    static functions after those and class methods last.  A property is not there. *)
Definition get_class_attribute (w : world) (c : nat) (n : string) : option attribute :=
  match nth_error w c with
  | None => None
  | Some k =>
      match lookup (c_classmethods k) n with
      | Some os => Some (AClassMethod os)
      | None =>
      match lookup (c_statics k) n with
      | Some os => Some (AStatic os)
      | None =>
      match lookup (c_classmembers k) n with
      | Some o => Some (AObject o)
      | None => option_map AMethod (lookup (c_methods k) n)
      end end end
  end.

(** The loops of [tryToCallAnyOverload], PyFunctionInstance.cpp:67-96: which overload runs?  [accepts] says whether an
    overload takes the arguments at a level of conversion; property C51 is about these loops. *)
Definition first_accepting (accepts : Z -> bool) (os : list Z) : option Z := find accepts os.
Fixpoint call {level} (accepts : level -> Z -> bool) (levels : list level) (os : list Z) : option Z :=
  match levels with
  | nil => None
  | l :: ls => match first_accepting (accepts l) os with Some o => Some o | None => call accepts ls os end
  end.

(** After deserialization the maps are built again, [mergeOwnFunctionsIntoInheritanceTree] with the static functions
    as they are, 871-889. *)
Definition merge_again (w : world) (c : nat) : world :=
  match nth_error w c with
  | None => w
  | Some k =>
      let bodies := bodies_of w (c_mro k) in
      firstn c w ++ {|
        c_bases := c_bases k;
        c_body := c_body k;
        c_mro := c_mro k;
        c_members := c_members k;
        c_methods := merged_functions nil b_methods bodies;
        c_statics := merged_functions (c_statics k) b_statics bodies;
        c_properties := merged_functions nil b_properties bodies;
        c_classmethods := merged_functions nil b_classmethods bodies;
        c_classmembers := merged_objects bodies
      |} :: skipn (S c) w
  end.

(** A program: classes are defined, and classes that were defined are merged again.  A definition that is refused
    leaves no class behind. *)
Inductive event :=
| Define (bases : list nat) (b : body)
| MergeAgain (c : nat).
Definition happen (w : world) (e : event) : world :=
  match e with
  | Define bases b => match make w bases b with Ok w' => w' | Err _ => w end
  | MergeAgain c => merge_again w c
  end.
Definition history (es : list event) : world := fold_left happen es nil.
