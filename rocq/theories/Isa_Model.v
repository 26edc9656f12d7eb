(** Model of [isinstance] and [issubclass] in compiled code: what the compiler decides when it compiles the question,
    and what the code that it makes asks when it runs.  class_wrapper.py, subclass_of_wrapper.py,
    python_type_object_wrapper.py, isinstance_wrapper.py.

    Types are [Class] and the classes of Class_Model, and [Alternative], the alternatives and their options. *)
From Verif Require Import Base Class_Model.
From Coq Require Import String.
Open Scope string_scope.
Open Scope list_scope.

Inductive type :=
| AnyClass
| AnyAlternative
| TClass (c : nat)
| TAlternative (k : nat)
| TConcrete (k option : nat).
Definition same_type (a b : type) : bool :=
  match a, b with
  | AnyClass, AnyClass | AnyAlternative, AnyAlternative => true
  | TClass c, TClass d | TAlternative c, TAlternative d => Nat.eqb c d
  | TConcrete k i, TConcrete l j => Nat.eqb k l && Nat.eqb i j
  | _, _ => false
  end.

Inductive verdict := Yes | No | Maybe.
Definition to_verdict (b : bool) : verdict := if b then Yes else No.

(** Python's [issubclass] of two types: [__subclasscheck__], internals.py:355-365, for classes; the bases of the type
    object for alternatives. *)
Definition is_a_class (t : type) : bool := match t with AnyClass | TClass _ => true | _ => false end.
Definition is_an_alternative (t : type) : bool := match t with AnyAlternative | TAlternative _ | TConcrete _ _ => true | _ => false end.
Definition subtype (w : world) (a b : type) : bool :=
  match a, b with
  | _, AnyClass => is_a_class a
  | _, AnyAlternative => is_an_alternative a
  | TClass c, TClass d => is_subclass w c d
  | TAlternative k, TAlternative l => Nat.eqb k l
  | TConcrete k _, TAlternative l => Nat.eqb k l
  | TConcrete k i, TConcrete l j => Nat.eqb k l && Nat.eqb i j
  | _, _ => false
  end.

(** The attributes [MRO], [IsFinal], [MemberNames] and [ClassMembers] of a class, PyClassInstance.cpp:665-822. *)
Definition class_mro (w : world) (c : nat) : list nat := match nth_error w c with Some k => c_mro k | None => nil end.
Definition class_final (w : world) (c : nat) : bool := match nth_error w c with Some k => b_final (c_body k) | None => false end.
Definition has_data (w : world) (c : nat) : bool := match nth_error w c with Some k => negb (Nat.eqb (List.length (c_members k)) 0) | None => false end.
Definition class_members (w : world) (c : nat) : list (string * Z) := match nth_error w c with Some k => c_classmembers k | None => nil end.

(** The loop over the names that both have, class_wrapper.py:143-146. *)
Definition ignored (n : string) : bool :=
  existsb (String.eqb n) ["__qualname__"; "__name__"; "__module__"; "__typed_python_template__"; "__classcell__"].
Definition conflict (ms os : list (string * Z)) : bool :=
  existsb (fun e => match lookup ms (fst e), lookup os (fst e) with
                    | Some x, Some y => negb (ignored (fst e)) && negb (Z.eqb x y)
                    | _, _ => false
                    end) ms.

(** [_classCouldBeInstanceOf], class_wrapper.py:93-148.  The cache of [classCouldBeInstanceOf] keeps the first answer;
    no answer about two types changes later. *)
Definition could_be (w : world) (cls other : type) : verdict :=
  match cls with
  | AnyAlternative | TAlternative _ | TConcrete _ _ =>
      if negb (is_an_alternative other) then No
      else if same_type other AnyAlternative then Yes
      else if same_type cls AnyAlternative then Maybe
      else if same_type cls other then Yes
      else match cls, other with
           | TConcrete _ _, _ => to_verdict (subtype w cls other)
           | _, TConcrete _ _ => if subtype w other cls then Maybe else No
           | _, _ => No
           end
  | AnyClass | TClass _ =>
      if negb (is_a_class other) then No
      else match cls, other with
           | _, AnyClass => Yes
           | AnyClass, _ => Maybe
           | TClass c, TClass d =>
               if mem d (class_mro w c) then Yes
               else if mem c (class_mro w d) then Maybe
               else if class_final w c || class_final w d then No
               else if has_data w c && has_data w d then No
               else if conflict (class_members w c) (class_members w d) then No
               else Maybe
           | _, _ => Maybe
           end
  end.

(** Is a final class, or an option of an alternative: [convert_typeof], class_wrapper.py:1499-1506, and
    alternative_wrapper.py:93-105, 250-251, 571-572: the type of such a value is known when the code is compiled. *)
Definition exactly (w : world) (t : type) : bool :=
  match t with TClass c => class_final w c | TConcrete _ _ => true | _ => false end.

(** The operands of a question: a type that the compiler knows, or one that is found when the code runs and of which
    the compiler knows a type that it is a subtype of ([SubclassOf]). *)
Inductive operand := Known (t : type) | SomeSubtype (t : type).

(** [np_typePtrIsSubclass], _runtime.cpp:122-128. *)
Definition ask (w : world) (a b : type) : bool := if same_type a b then true else subtype w a b.

(** [convert_issubclass], subclass_of_wrapper.py:156-214 and python_type_object_wrapper.py:121-137.  [w]: the classes
    when the question is compiled; [later]: when it is asked.  [a], [b]: the types that the operands are then. *)
Definition compiled_issubclass (w later : world) (left right : operand) (a b : type) : bool :=
  match left, right with
  | SomeSubtype s, SomeSubtype t =>
      match could_be w s t with
      | No => false
      | _ => ask later a b
      end
  | SomeSubtype s, Known t =>
      if is_a_class s && negb (is_a_class t) then false
      else match could_be w s t with
           | Yes => true
           | No => false
           | Maybe => if is_a_class t && match t with TClass d => class_final w d | _ => false end then same_type a t else ask later a t
           end
  | Known s, Known t => subtype w s t
  | Known s, SomeSubtype t => subtype w s t
  end.

(** [isinstance], isinstance_wrapper.py:54-65: the type of the value, which the compiler knows as one of [s]. *)
Definition type_operand (w : world) (s : type) : operand := if exactly w s then Known s else SomeSubtype s.
Definition compiled_isinstance (w later : world) (s : type) (right : operand) (a b : type) : bool :=
  compiled_issubclass w later (type_operand w s) right a b.
