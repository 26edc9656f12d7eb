(** What [isinstance] and [issubclass] mean.  Property C70. *)
From Verif Require Import Base Class_Model Class_Spec Isa_Model.
From Coq Require Import String.
Open Scope string_scope.
Open Scope list_scope.

(** [a] is [b] or inherits from it. *)
Definition inherits (w : world) (a b : type) : Prop :=
  match a, b with
  | AnyClass, AnyClass | TClass _, AnyClass => True
  | TClass c, TClass d => ancestor (bases_of w) c d
  | AnyAlternative, AnyAlternative | TAlternative _, AnyAlternative | TConcrete _ _, AnyAlternative => True
  | TAlternative k, TAlternative l => k = l
  | TConcrete k _, TAlternative l => k = l
  | TConcrete k i, TConcrete l j => k = l /\ i = j
  | _, _ => False
  end.

(** Classes exist when the question is compiled. *)
Definition exists_type (w : world) (t : type) : Prop := match t with TClass c => (c < List.length w)%nat | _ => True end.

(** What an operand may be when the question is asked. *)
Definition operand_type (o : operand) : type := match o with Known t | SomeSubtype t => t end.
Definition may_be (w : world) (o : operand) (a : type) : Prop :=
  match o with Known t => a = t | SomeSubtype t => inherits w a t end.

(** Two classes have no different class members under one name, but for names that every class has anew. *)
Definition members_agree (w : world) (a b : type) : Prop :=
  match a, b with
  | TClass c, TClass d =>
      forall k l n x y, nth_error w c = Some k -> nth_error w d = Some l ->
        lookup (c_classmembers k) n = Some x -> lookup (c_classmembers l) n = Some y ->
        x = y \/ In n ["__qualname__"; "__name__"; "__module__"; "__typed_python_template__"; "__classcell__"]
  | _, _ => True
  end.
