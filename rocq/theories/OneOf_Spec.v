(** What a OneOf should do.  Property C83. *)
From Coq Require Import Floats.SpecFloat.
From Verif Require Import Base Arith_Model Arith_Spec Upcast_Model Upcast_Spec OneOf_Model.
Open Scope Z_scope.

(** ** The options *)

(** The types named by the arguments of [OneOf(...)], with nested ones spelled out. *)
Fixpoint leaves (a : arg) : list ty :=
  match a with Leaf t => [t] | Node l => (fix each (l : list arg) := match l with [] => [] | b :: l => leaves b ++ each l end) l end.
Definition named (args : list arg) : list ty := flat_map leaves args.
(** The standard library's [nodup] keeps the last occurrence of each member; this keeps the first. *)
Definition first_occurrences (l : list ty) : list ty := rev (nodup ty_eq_dec (rev l)).

(** ** The choice *)

(** Levels, from the strictest to the loosest. *)
Definition stricter (l m : level) : Prop := level_number l < level_number m.
Definition no_looser (l m : level) : Prop := level_number l <= level_number m.
(** Option number [i] takes the object at a level, and holds [d] then. *)
Definition takes (w : world) (ts : list ty) (i : nat) (o : obj) (l : level) (d : data) : Prop :=
  exists t, nth_error ts i = Some t /\ could_be w t o l = true /\ convert_one w t o l = Ok d.
(** The first option at the strictest level at which there is any; level New is not used. *)
Definition best (w : world) (ts : list ty) (o : obj) (l : level) (i : nat) (d : data) : Prop :=
  exists s, s <> New /\ no_looser s l /\ takes w ts i o s d
    /\ (forall s' j d', stricter s' s -> ~ takes w ts j o s' d')
    /\ (forall j d', (j < i)%nat -> ~ takes w ts j o s d').

(** ** Round trips *)

(** The type whose instance a Python object is. *)
Definition own_type (o : obj) : ty :=
  match o with
  | ONone => TNone | OBool _ => TReg Bool | OInt _ => TReg I64 | OFloat _ => TReg F64 | OStr _ => TStr | OBytes _ => TBytes
  | OReg t _ => TReg t | OTyped n _ => TTyped n
  end.
(** Objects there are, but for ints of more than 64 bits. *)
Definition is_object (o : obj) : Prop :=
  match o with
  | OInt x => in_range I64 x
  | OFloat f => has_type F64 (Float f)
  | OReg t v => has_type t v /\ t <> Bool /\ t <> I64 /\ t <> F64
  | _ => True
  end.
Definition is_type (t : ty) : Prop := match t with TValue (CReg t v) => has_type t v | _ => True end.
(** The constants which take objects that are not the same: zeros and NaNs, and ints for bools. *)
Definition is_nan (o : obj) : Prop := match o with OReg _ (Float S754_nan) => True | _ => False end.
Definition mistakes (t : ty) (o : obj) : Prop :=
  match t with
  | TValue (CReg _ (Float (S754_zero _))) | TValue (CReg _ (Float S754_nan)) => True
  | TValue (CReg I64 _) => exists b, o = OBool b
  | TValue (CReg F32 _) => is_nan o
  | _ => False
  end.
(** Other types give back what they take at level Signature. *)
Definition faithful (w : world) : Prop :=
  forall n o x, typed_could_be w n o Signature = true -> typed_convert w n o Signature = Ok x -> x = o.

(** ** Numbers *)

(** A number, as a value of a register type; bools count. *)
Definition number_object (o : obj) (a : reg) (v : value) : Prop :=
  match o with
  | OBool b => a = Bool /\ v = Int (if b then 1 else 0)
  | OInt x => a = I64 /\ v = Int x
  | OFloat f => a = F64 /\ v = Float f
  | OReg t u => a = t /\ v = u
  | _ => False
  end.
Definition only_numbers (ts : list ty) : Prop := forall t, In t ts -> exists b, t = TReg b.
