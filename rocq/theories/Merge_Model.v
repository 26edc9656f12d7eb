(** Model of typed_python/compiler/merge_type_wrappers.py: the type the compiler infers for an expression
    that has one of several types. *)
From Verif Require Import Base Graph_Model.
Open Scope Z_scope.
Open Scope result_scope.

(** Constants that [Value] types are made of; floats by their bits. *)
Inductive const := CBool (b : bool) | CInt (z : Z) | CFloat (bits : Z) | CStr (s : list Z) | CBytes (s : list Z) | CType (n : Z).
(** Types other than OneOf.  [ClassT]: a [Class], by number; [AlternativeT] and [ConcreteT]: an Alternative and
    one of its concrete alternatives; [OtherT]: every other type (containers, functions, narrow numbers),
    none of which has subtypes. *)
Inductive ty :=
  | Object | NoneT | BoolT | IntT | FloatT | StrT | BytesT
  | ClassT (c : Z) | AlternativeT (a : Z) | ConcreteT (a i : Z) | ValueT (c : const) | OtherT (n : Z).
(** A type as the compiler sees it.  (Wrappers and the types they stand for are the same here, and the caches
    of results are left out.) *)
Inductive typ := Single (t : ty) | OneOf (ts : list ty).
Definition options (t : typ) : list ty := match t with Single t => [t] | OneOf ts => ts end.

Definition const_eqb (a b : const) : bool :=
  match a, b with
  | CBool x, CBool y => Bool.eqb x y
  | CInt x, CInt y | CFloat x, CFloat y | CType x, CType y => x =? y
  | CStr x, CStr y | CBytes x, CBytes y => if list_eq_dec Z.eq_dec x y then true else false
  | _, _ => false
  end.
Definition ty_eqb (a b : ty) : bool :=
  match a, b with
  | Object, Object | NoneT, NoneT | BoolT, BoolT | IntT, IntT | FloatT, FloatT | StrT, StrT | BytesT, BytesT => true
  | ClassT x, ClassT y | AlternativeT x, AlternativeT y | OtherT x, OtherT y => x =? y
  | ConcreteT x i, ConcreteT y j => (x =? y) && (i =? j)
  | ValueT x, ValueT y => const_eqb x y
  | _, _ => false
  end.
Fixpoint list_eqb (a b : list ty) : bool :=
  match a, b with [], [] => true | x :: a, y :: b => ty_eqb x y && list_eqb a b | _, _ => false end.
Definition typ_eqb (a b : typ) : bool :=
  match a, b with Single x, Single y => ty_eqb x y | OneOf x, OneOf y => list_eqb x y | _, _ => false end.

Section Merge.
(** The MRO of a class, with the class itself *)
Variable mro : Z -> list Z.
(** [str] of a type and its [id] *)
Variable name_of : ty -> list Z.
Variable id_of : ty -> Z.

(** Python's [isinstance] of a constant: a bool is an instance of int.  ([__instancecheck__] of classes,
    internals.py:370-380, is false for all constants.) *)
Definition isinstance (c : const) (t : ty) : bool :=
  match t, c with
  | Object, _ => true
  | BoolT, CBool _ | IntT, CBool _ | IntT, CInt _ | FloatT, CFloat _ | StrT, CStr _ | BytesT, CBytes _ => true
  | _, _ => false
  end.
(** [typeSubsumes], 69-83; of [issubclass(smallType, bigType) and issubclass(bigType, Class)] only classes are
    left, see [__subclasscheck__], internals.py:358-368. *)
Definition subsumes (big small : ty) : bool :=
  ty_eqb big small ||
  ty_eqb big Object ||
  match big, small with ClassT b, ClassT s => existsb (Z.eqb b) (mro s) | _, _ => false end ||
  match small with ValueT c => isinstance c big | _ => false end.

(** [typeSortKey], 86-87 *)
Fixpoint str_lt (a b : list Z) : bool :=
  match a, b with
  | [], _ :: _ => true
  | x :: a, y :: b => (x <? y) || ((x =? y) && str_lt a b)
  | _, _ => false
  end.
Definition str_eq (a b : list Z) : bool := if list_eq_dec Z.eq_dec a b then true else false.
Definition rank (t : ty) : Z := match t with ValueT _ => 0 | _ => 1 end.
Definition key_lt (a b : ty) : bool :=
  (rank a <? rank b) ||
  ((rank a =? rank b) && (str_lt (name_of a) (name_of b) || (str_eq (name_of a) (name_of b) && (id_of a <? id_of b)))).

(** The while loop of 102-110 from index [ix]: the types left, and [shouldAdd] *)
Fixpoint scan (t : ty) (types : list ty) : list ty * bool :=
  match types with
  | [] => ([], true)
  | u :: types =>
      if subsumes u t then (u :: types, false)
      else let (rest, add) := scan t types in
           if subsumes t u then (rest, add) else (u :: rest, add)
  end.
Definition add_type (types : list ty) (t : ty) : list ty :=
  let (types, add) := scan t types in if add then types ++ [t] else types.
(** [_mergeTypeWrappers], 90-121; the constructor of OneOfType (OneOfType.hpp:33-35) throws if there are more
    than 255 options. *)
Definition merge_all (ws : list typ) : result typ :=
  match fold_left add_type (concat (map options ws)) [] with
  | [] => Err GenericError
  | [t] => Ok (Single t)
  | types => if 255 <? Z.of_nat (length types) then Err GenericError else Ok (OneOf (sorted_by key_lt types))
  end.
Fixpoint present {A} (l : list (option A)) : list A :=
  match l with [] => [] | Some x :: l => x :: present l | None :: l => present l end.
(** [mergeTypeWrappers], 32-66, and [mergeTypes], 14-29, which agree: [None] is no type. *)
Definition merge_types (ws : list (option typ)) : result (option typ) :=
  match present ws with
  | [] => Ok None
  | [t] => Ok (Some t)
  | [t; u] => if typ_eqb t u then Ok (Some t) else r <- merge_all [t; u] ;; Ok (Some r)
  | ws => r <- merge_all ws ;; Ok (Some r)
  end.
End Merge.
