(** What Python answers when two ordinary values are compared (Python Language Reference 6.10.1), and the Python
    value a typed value stands for. *)
From Verif Require Import Base ConstDict_Model Arith_Model Arith_Spec Val_Model ValPy_Model.
Open Scope Z_scope.
Open Scope result_scope.

(** ** Numbers: bool, int and float are compared by their exact values *)

Inductive num := NaN | MinusInfinity | Finite (x : Z) | Infinity.   (* the number is [x] / 2^1074 *)
Definition unit_ : Z := 2 ^ 1074.
Definition float_num (bits : Z) : num :=
  let s := if 2 ^ 63 <=? bits then -1 else 1 in
  let e := bits / 2 ^ 52 mod 2 ^ 11 in
  let m := bits mod 2 ^ 52 in
  if e =? 2047 then (if m =? 0 then (if 2 ^ 63 <=? bits then MinusInfinity else Infinity) else NaN)
  else Finite (s * (if e =? 0 then m else (2 ^ 52 + m) * 2 ^ (e - 1))).
Definition number (p : pyval) : option num :=
  match p with
  | PBool b => Some (Finite (Z.b2z b * unit_))
  | PInt z => Some (Finite (z * unit_))
  | PFloat bits => Some (float_num bits)
  | _ => None
  end.
Definition num_lt (x y : num) : bool :=
  match x, y with
  | NaN, _ | _, NaN => false
  | MinusInfinity, MinusInfinity | Infinity, Infinity => false
  | MinusInfinity, _ | _, Infinity => true
  | Finite a, Finite b => a <? b
  | _, _ => false
  end.
Definition num_eq (x y : num) : bool :=
  match x, y with
  | MinusInfinity, MinusInfinity | Infinity, Infinity => true
  | Finite a, Finite b => a =? b
  | _, _ => false
  end.
Definition num_compare (op : cmpop) (x y : num) : bool :=
  match op with
  | LT => num_lt x y | GT => num_lt y x | EQ => num_eq x y | NE => negb (num_eq x y)
  | LE => num_lt x y || num_eq x y | GE => num_lt y x || num_eq x y
  end.

(** ** Sequences of code points or bytes, in dictionary order *)

Fixpoint points_lt (l r : list Z) : bool :=
  match l, r with
  | _, [] => false
  | [], _ => true
  | x :: l, y :: r => (x <? y) || ((x =? y) && points_lt l r)
  end.
Fixpoint points_eq (l r : list Z) : bool :=
  match l, r with [], [] => true | x :: l, y :: r => (x =? y) && points_eq l r | _, _ => false end.
Definition points_compare (op : cmpop) (l r : list Z) : bool :=
  match op with
  | LT => points_lt l r | GT => points_lt r l | EQ => points_eq l r | NE => negb (points_eq l r)
  | LE => negb (points_lt r l) | GE => negb (points_lt l r)
  end.

(** ** The operators.  Two values are taken to be different objects, as they are when one of them was just made
    from a typed value (so a NaN never equals a NaN). *)

Fixpoint py_eq (p q : pyval) {struct p} : bool :=
  let each := fix go l r := match l, r with [], [] => true | x :: l, y :: r => py_eq x y && go l r | _, _ => false end in
  match number p, number q with
  | Some x, Some y => num_eq x y
  | _, _ =>
      match p, q with
      | PNone, PNone => true
      | PStr l, PStr r | PBytes l, PBytes r => points_eq l r
      | PTuple l, PTuple r | PList l, PList r => each l r
      | POther i, POther j => i =? j
      | _, _ => false
      end
  end.

Fixpoint py_order (op : cmpop) (p q : pyval) {struct p} : result bool :=
  (* "the first pair of different items decides; if there is none, the lengths do" *)
  let first := fix go l r :=
    match l, r with
    | x :: l, y :: r => if py_eq x y then go l r else py_order op x y
    | _, _ => Ok (cmp_result op (Z.of_nat (length l) - Z.of_nat (length r)))
    end in
  match number p, number q with
  | Some x, Some y => Ok (num_compare op x y)
  | _, _ =>
      match p, q with
      | PStr l, PStr r | PBytes l, PBytes r => Ok (points_compare op l r)
      | PTuple l, PTuple r | PList l, PList r => first l r
      | _, _ => Err TypeError
      end
  end.

Definition python (op : cmpop) (p q : pyval) : result bool :=
  match op with EQ => Ok (py_eq p q) | NE => Ok (negb (py_eq p q)) | _ => py_order op p q end.

(** ** Typed values *)

(** The Python value a typed value stands for *)
Fixpoint to_python (v : tval) : pyval :=
  match v with
  | TvNone => PNone
  | TvReg Bool z => PBool (negb (z =? 0))
  | TvReg _ z => PInt z
  | TvFloat bits => PFloat bits
  | TvStr _ _ points => PStr points
  | TvBytes l => PBytes l
  | TvTupleOf vs | TvTuple vs => PTuple (map to_python vs)
  | TvListOf vs => PList (map to_python vs)
  | TvOneOf _ v | TvConst v => to_python v
  end.

Definition all {A} (P : A -> Prop) : list A -> Prop :=
  fix go l := match l with [] => True | x :: l => P x /\ go l end.
Fixpoint well_formed (v : tval) : Prop :=
  match v with
  | TvReg r z => is_float r = false /\ in_range r z
  | TvFloat bits => 0 <= bits < 2 ^ 64
  | TvStr p width points =>
      (p = 0 -> points = []) /\ In width [1; 2; 4] /\ Forall (fun x => 0 <= x < 256 ^ width) points
  | TvBytes l => Forall (fun x => 0 <= x < 256) l
  | TvTupleOf vs | TvListOf vs | TvTuple vs => all well_formed vs
  | TvOneOf _ v | TvConst v => well_formed v
  | TvNone => True
  end.
Fixpoint py_well_formed (p : pyval) : Prop :=
  match p with
  | PFloat bits => 0 <= bits < 2 ^ 64
  | PStr points => Forall (fun x => 0 <= x < 0x110000) points
  | PBytes l => Forall (fun x => 0 <= x < 256) l
  | PTuple l | PList l => all py_well_formed l
  | _ => True
  end.

(** ** Conditions on the values that meet in a comparison *)

(** [R] of every typed value that is no container and the Python value at the same place *)
Definition pairs {A B} (R : A -> B -> Prop) : list A -> list B -> Prop :=
  fix go l r := match l, r with x :: l, y :: r => R x y /\ go l r | _, _ => True end.
Fixpoint facing (R : tval -> pyval -> Prop) (v : tval) (q : pyval) {struct v} : Prop :=
  match v with
  | TvTupleOf vs | TvTuple vs => match q with PTuple ws => pairs (facing R) vs ws | _ => True end
  | TvListOf vs => match q with PList ws => pairs (facing R) vs ws | _ => True end
  | TvOneOf _ v | TvConst v => facing R v q
  | _ => R v q
  end.

(** Numbers that C's promotions leave alone: an int faces an int that fits a 64-bit integer (a UInt64 of 2^63 or
    more only faces ints of 2^63 or more), and no integer beyond 2^53 faces a float. *)
Definition exact_numbers (v : tval) (q : pyval) : Prop :=
  match v, q with
  | TvReg r x, PInt z => (x < 2 ^ 63 /\ - 2 ^ 63 <= z < 2 ^ 63) \/ (r = U64 /\ 2 ^ 63 <= z < 2 ^ 64)
  | TvReg r x, PFloat _ => Z.abs x <= 2 ^ 53
  | TvFloat _, PInt z => Z.abs z <= 2 ^ 53
  | _, _ => True
  end.
(** Things that are ordered rightly: no NaN, no None that faces something else, and no str or bytes object that
    faces something else, except a str of another width. *)
Definition orderable (v : tval) (q : pyval) : Prop :=
  match v, q with
  | TvFloat bits, _ => float_num bits <> NaN /\ match q with PFloat b => float_num b <> NaN | _ => True end
  | TvReg _ _, PFloat bits => float_num bits <> NaN
  | TvNone, _ => q = PNone
  | TvStr p width l, PStr r => l = r \/ kind r <> (if p =? 0 then 1 else width)
  | TvStr _ _ _, _ => False
  | TvBytes l, _ => q = PBytes l
  | _, _ => True
  end.
Definition is_sequence (v : tval) : Prop :=
  match v with TvTupleOf _ | TvListOf _ | TvTuple _ => True | _ => False end.
