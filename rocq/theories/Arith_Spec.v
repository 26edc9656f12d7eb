(** What integer arithmetic should give.  Properties C28, C29 and C30. *)
From Verif Require Import Base Arith_Model.
Open Scope Z_scope.

(** The numbers of an integer type. *)
Definition in_range (t : reg) (x : Z) : Prop :=
  match t with
  | Bool => x = 0 \/ x = 1
  | I8 => -128 <= x < 128
  | I16 => - 2 ^ 15 <= x < 2 ^ 15
  | I32 => - 2 ^ 31 <= x < 2 ^ 31
  | I64 => - 2 ^ 63 <= x < 2 ^ 63
  | U8 => 0 <= x < 256
  | U16 => 0 <= x < 2 ^ 16
  | U32 => 0 <= x < 2 ^ 32
  | U64 => 0 <= x < 2 ^ 64
  | F32 | F64 => False
  end.

(** Python's operators on integers.  [/] rounds down and [mod] has the sign of the divisor, as in Python. *)
Definition python (o : op) (l r : Z) : result Z :=
  match o with
  | Add => Ok (l + r)
  | Sub => Ok (l - r)
  | Mul => Ok (l * r)
  | FloorDiv => if r =? 0 then Err ZeroDivisionError else Ok (l / r)
  | Mod => if r =? 0 then Err ZeroDivisionError else Ok (l mod r)
  | LShift => if r <? 0 then Err ValueError else Ok (l * 2 ^ r)
  | RShift => if r <? 0 then Err ValueError else Ok (l / 2 ^ r)
  | And => Ok (Z.land l r)
  | Or => Ok (Z.lor l r)
  | Xor => Ok (Z.lxor l r)
  | TrueDiv | Pow | Compare => Err NotImplementedError
  end.

(** [y] is [x] reduced to the width of the type. *)
Definition reduced (t : reg) (x y : Z) : Prop := in_range t y /\ exists k, y = x + k * 2 ^ bits t.
Definition agrees (t : reg) (r p : result Z) : Prop :=
  match r, p with
  | Ok y, Ok x => reduced t x y
  | Err e, Err e' => e = e'
  | _, _ => False
  end.

(** The operands for which the interpreter is wrong: the least 64-bit integer modulo a negative number
    that does not divide it; shifts by 64 and more; negative numbers shifted to the right when a bit is
    shifted out (unless all are); right shifts of unsigned numbers by 2^63 and more. *)
Definition mod_wrong (t : reg) (l r : Z) : Prop := t = I64 /\ l = - 2 ^ 63 /\ r < 0 /\ l mod r <> 0.
Definition rshift_wrong (t : reg) (l r : Z) : Prop :=
  if is_signed t then 64 <= r \/ (0 <= r /\ l < 0 /\ 2 ^ r <= - l /\ l mod 2 ^ r <> 0) else 2 ^ 63 <= r.
Definition interpreter_wrong (o : op) (t : reg) (l r : Z) : Prop :=
  match o with
  | Mod => mod_wrong t l r
  | LShift => 64 <= r
  | RShift => rshift_wrong t l r
  | _ => False
  end.
(** Compiled code is also wrong about the least 64-bit integer divided by -1, and right about zero shifted
    to the left as a signed number. *)
Definition compiled_wrong (o : op) (t : reg) (l r : Z) : Prop :=
  match o with
  | Mod => mod_wrong t l r
  | FloorDiv => t = I64 /\ l = - 2 ^ 63 /\ r = -1
  | LShift => 64 <= r /\ (is_signed t = true -> l <> 0)
  | RShift => rshift_wrong t l r
  | _ => False
  end.
(** Where the two differ from each other; undefined behaviour counts as the same in both. *)
Definition they_differ (o : op) (t : reg) (l r : Z) : Prop :=
  match o with
  | FloorDiv => t = I64 /\ l = - 2 ^ 63 /\ r = -1
  | LShift => (l <> 0 /\ 1024 <= r) \/ (l = 0 /\ if is_signed t then 64 <= r else 2 ^ 63 <= r)
  | RShift => 2 ^ 63 <= r
  | _ => False
  end.
Definition integer_op (o : op) : bool := match o with TrueDiv | Pow | Compare => false | _ => true end.
(** One type is signed and the other unsigned and at least as wide: no type the operands are promoted to
    contains both. *)
Definition mixes_signs (a b : reg) : bool :=
  (is_signed a && is_unsigned b && (bits a <=? bits b)) || (is_signed b && is_unsigned a && (bits b <=? bits a)).
(** What a comparison of two numbers means *)
Definition holds (c : cmp) (x y : Z) : Prop :=
  match c with CEq => x = y | CNe => x <> y | CLt => x < y | CGt => x > y | CLe => x <= y | CGe => x >= y end.
