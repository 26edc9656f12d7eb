(** What the types mean: which objects each admits. *)
From Verif Require Import Base Merge_Model.
Open Scope Z_scope.

(** Objects, as far as types can tell them apart *)
Inductive obj :=
  | ONone | OBool (b : bool) | OInt (z : Z) | OFloat (bits : Z) | OStr (s : list Z) | OBytes (s : list Z) | OType (n : Z)
  | OInstance (c id : Z)          (* of the class [c] itself *)
  | OAlternative (a i id : Z)     (* of the concrete alternative [i] of [a] *)
  | OOther (n id : Z).

Section Meaning.
Variable mro : Z -> list Z.
Definition member (o : obj) (t : ty) : Prop :=
  match t, o with
  | Object, _ => True
  | NoneT, ONone | BoolT, OBool _ | IntT, OInt _ | FloatT, OFloat _ | StrT, OStr _ | BytesT, OBytes _ => True
  | ClassT c, OInstance d _ => In c (mro d)
  | AlternativeT a, OAlternative b _ _ => a = b
  | ConcreteT a i, OAlternative b j _ => a = b /\ i = j
  | ValueT (CBool b), OBool b' => b = b'
  | ValueT (CInt z), OInt z' => z = z'
  | ValueT (CFloat x), OFloat x' => x = x'
  | ValueT (CStr s), OStr s' => s = s'
  | ValueT (CBytes s), OBytes s' => s = s'
  | ValueT (CType n), OType n' => n = n'
  | OtherT n, OOther n' _ => n = n'
  | _, _ => False
  end.
Definition admits (t : typ) (o : obj) : Prop := exists u, In u (options t) /\ member o u.
(** One of the given types admits the object. *)
Definition some_admits (ws : list (option typ)) (o : obj) : Prop := exists t, In (Some t) ws /\ admits t o.
(** Everything [small] admits, [big] admits. *)
Definition within (small big : ty) : Prop := forall o, member o small -> member o big.

(** What Python guarantees of the MROs of classes *)
Record good_mro : Prop := {
  mro_self : forall c, In c (mro c);
  mro_trans : forall a b c, In b (mro a) -> In c (mro b) -> In c (mro a);
  mro_antisym : forall a b, In b (mro a) -> In a (mro b) -> a = b }.
End Meaning.

(** The options of all the given types *)
Definition all_options (ws : list (option typ)) : list ty := concat (map options (present ws)).
Definition nonempty (ws : list (option typ)) : Prop := forall t, In (Some t) ws -> options t <> [].
(** A bool constant together with the type int *)
Definition bool_and_int (ws : list (option typ)) : Prop :=
  In IntT (all_options ws) /\ exists b, In (ValueT (CBool b)) (all_options ws).
