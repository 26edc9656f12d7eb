(** What comparing and hashing values is supposed to mean. *)
From Verif Require Import Base ConstDict_Model Val_Model.
Open Scope Z_scope.

(** ** The meaning of a value *)

(** A value without its representation: numbers and sequences of them.  Addresses, widths and caches are gone. *)
Inductive tree := Num (z : Z) | Node (l : list tree).

(** The number a double stands for, times 2^1074 (which makes it an integer), from its sign, exponent and
    fraction (IEEE 754); the infinities lie beyond every finite double, and NaN stands for no number. *)
Definition float_value (bits : Z) : option Z :=
  let s := if 2 ^ 63 <=? bits then -1 else 1 in
  let e := bits / 2 ^ 52 mod 2 ^ 11 in
  let m := bits mod 2 ^ 52 in
  if e =? 2047 then (if m =? 0 then Some (s * 2 ^ 2098) else None)
  else if e =? 0 then Some (s * m)
  else Some (s * ((2 ^ 52 + m) * 2 ^ (e - 1))).

Fixpoint meaning (v : val) : tree :=
  match v with
  | VNone => Num 0
  | VBool b => Num (Z.b2z b)
  | VInt _ z => Num z
  | VFloat bits => match float_value bits with Some x => Num x | None => Node [] end
  | VStr _ _ _ points => Node (map Num points)
  | VBytes _ _ l => Node (map Num l)
  | VSeq _ _ vs => Node (map meaning vs)
  | VTuple vs => Node (map meaning vs)
  | VOneOf i v => Node [Num (Z.of_nat i); meaning v]
  | VAlt _ i v => Node [Num (Z.of_nat i); meaning v]
  | VConst _ => Num 0                                 (* there is one instance of each such type *)
  | VObject p => Num p                                (* objects are compared by identity *)
  | VHeld _ fields => Node (map (fun f => match f with Some v => Node [meaning v] | None => Node [] end) fields)
  end.

(** Numbers in their order, sequences in dictionary order.  (A number comes before a sequence; this never
    matters for two values of one type.) *)
Inductive earlier : tree -> tree -> Prop :=
  | earlier_num a b : a < b -> earlier (Num a) (Num b)
  | earlier_kind a l : earlier (Num a) (Node l)
  | earlier_end y r : earlier (Node []) (Node (y :: r))
  | earlier_here x y l r : earlier x y -> earlier (Node (x :: l)) (Node (y :: r))
  | earlier_later x l r : earlier (Node l) (Node r) -> earlier (Node (x :: l)) (Node (x :: r)).

(** ** Types *)

Inductive ty :=
  | TNone | TBool | TInt (bits : Z) (signed : bool) | TFloat | TStr | TBytes
  | TTupleOf (t : ty) | TListOf (t : ty) | TTuple (ts : list ty) | TOneOf (ts : list ty)
  | TAlt (name : Z) | TConst (v : val) | TObject | THeld (name : Z).

(** The program's declarations: the fields of the options of each Alternative, and of each held class.  Types
    may refer to themselves through them. *)
Record declarations := {
  options_of : Z -> list (list ty);
  fields_of : Z -> list ty
}.

Definition all2 {A B} (R : A -> B -> Prop) : list A -> list B -> Prop :=
  fix go l r := match l, r with [], [] => True | x :: l, y :: r => R x y /\ go l r | _, _ => False end.
Definition all {A} (P : A -> Prop) : list A -> Prop :=
  fix go l := match l with [] => True | x :: l => P x /\ go l end.

Section Types.
Variable D : declarations.

Definition all_empty (name : Z) : bool := forallb is_empty (options_of D name).

Fixpoint has_type (v : val) (t : ty) {struct v} : Prop :=
  match v, t with
  | VNone, TNone => True
  | VBool _, TBool => True
  | VInt bits z, TInt bits' signed =>
      bits = bits' /\ In bits [8; 16; 32; 64] /\
      if signed : bool then - 2 ^ (bits - 1) <= z < 2 ^ (bits - 1) else 0 <= z < 2 ^ bits
  | VFloat bits, TFloat => 0 <= bits < 2 ^ 64
  | VStr p width _ points, TStr =>
      (p = 0 -> points = []) /\ In width [1; 2; 4] /\ Forall (fun x => 0 <= x < 256 ^ width) points
  | VBytes p _ l, TBytes => (p = 0 -> l = []) /\ Forall (fun x => 0 <= x < 256) l
  | VSeq p _ vs, TTupleOf t => (p = 0 <-> vs = []) /\ all (fun v => has_type v t) vs
  | VSeq p _ vs, TListOf t => p <> 0 /\ all (fun v => has_type v t) vs
  | VTuple vs, TTuple ts => all2 (fun v t => has_type v t) vs ts
  | VOneOf i v, TOneOf ts => match nth_error ts i with Some t => has_type v t | None => False end
  | VAlt p i v, TAlt name =>
      (p = 0 <-> all_empty name = true) /\
      match nth_error (options_of D name) i with Some ts => has_type v (TTuple ts) | None => False end
  | VConst v, TConst v' => v = v'
  | VObject _, TObject => True
  | VHeld _ fields, THeld name =>
      all2 (fun f t => match f with Some v => has_type v t | None => True end) fields (fields_of D name)
  | _, _ => False
  end.
End Types.

(** ** Memory and reachable representations *)

(** The layouts of the values are parts of one memory: what has the same address is the same object. *)
Fixpoint lives_in (memory : Z -> val) (v : val) : Prop :=
  match v with
  | VStr p _ _ _ | VBytes p _ _ => p <> 0 -> memory p = v
  | VSeq p _ vs => (p <> 0 -> memory p = v) /\ all (lives_in memory) vs
  | VTuple vs => all (lives_in memory) vs
  | VOneOf _ w => lives_in memory w
  | VAlt p _ w => (p <> 0 -> memory p = v) /\ lives_in memory w
  | VHeld _ fields => all (fun f => match f with Some w => lives_in memory w | None => True end) fields
  | _ => True
  end.

(** A condition on every part of a value ([VConst] has no parts in memory). *)
Fixpoint everywhere (P : val -> Prop) (v : val) : Prop :=
  P v /\
  match v with
  | VSeq _ _ vs | VTuple vs => all (everywhere P) vs
  | VOneOf _ w | VAlt _ _ w => everywhere P w
  | VHeld _ fields => all (fun f => match f with Some w => everywhere P w | None => True end) fields
  | _ => True
  end.

Definition no_nan (v : val) : Prop := match v with VFloat bits => float_value bits <> None | _ => True end.
(** An empty string or bytes object is the null pointer. *)
Definition null_empties (v : val) : Prop :=
  match v with VStr p _ _ l | VBytes p _ l => l = [] -> p = 0 | _ => True end.
(** Only instances of classes have no order. *)
Definition orderable (v : val) : Prop := match v with VObject _ | VHeld _ _ => False | _ => True end.
Definition not_held (v : val) : Prop := match v with VHeld _ _ => False | _ => True end.
(** A string has the width that its largest code point needs. *)
Definition width_of (points : list Z) : Z :=
  if forallb (fun x => x <? 256) points then 1 else if forallb (fun x => x <? 65536) points then 2 else 4.
Definition narrow (v : val) : Prop :=
  match v with VStr _ width _ points => width = width_of points | _ => True end.
(** A remembered hash is the hash of what is there now. *)
Definition cache_valid (v : val) : Prop :=
  match v with
  | VStr p width cache points => cache <> -1 -> cache = hash (VStr p width (-1) points)
  | VBytes p cache l => cache <> -1 -> cache = hash (VBytes p (-1) l)
  | VSeq p cache vs => cache <> -1 -> cache = hash (VSeq p (-1) vs)
  | _ => True
  end.

(** What an operator answers on a pair of values. *)
Definition answer (op : cmpop) (v w : val) : bool := match cmp v w op with Ok b => b | Err _ => false end.

(** A value of type [t] as it can be compared: it is in the common memory, contains no NaN, and its empty strings
    are null pointers. *)
Definition good_value (D : declarations) (memory : Z -> val) (t : ty) (v : val) : Prop :=
  has_type D v t /\ lives_in memory v /\ everywhere no_nan v /\ everywhere null_empties v.

(** A value as it can be hashed: besides, its strings are stored at the width they need, its remembered hashes are
    up to date, and it contains no instance of a held class. *)
Definition representable (v : val) : Prop :=
  no_nan v /\ null_empties v /\ narrow v /\ cache_valid v /\ not_held v.

(** Values that compiled code hashes like the interpreter: no empty TupleOf, no element of a TupleOf or ListOf
    with hash -1, no constant option of a OneOf and no held class, except inside an Alternative. *)
Fixpoint compiles (v : val) : Prop :=
  match v with
  | VSeq p cache vs => p <> 0 /\ (cache = -1 -> Forall (fun x => hash x <> -1) vs) /\ all compiles vs
  | VTuple vs => all compiles vs
  | VOneOf _ v => compiles v
  | VConst _ | VHeld _ _ => False
  | _ => True
  end.
