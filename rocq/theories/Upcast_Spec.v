(** The number a value stands for, and which values survive an upcast.  Property C30. *)
From Coq Require Import Floats.SpecFloat QArith.
From Verif Require Import Base Arith_Model Arith_Spec Upcast_Model.
Open Scope Z_scope.

Inductive number := Finite (q : Q) | Infinite (negative : bool) | NaN.
Definition number_of (v : value) : number :=
  match v with
  | Int x => Finite (inject_Z x)
  | Float (S754_zero _) => Finite 0
  | Float (S754_infinity s) => Infinite s
  | Float S754_nan => NaN
  | Float (S754_finite s m e) => Finite (inject_Z (if s then Zneg m else Zpos m) * Qpower 2 e)
  end.
Definition same_number (n n' : number) : Prop :=
  match n, n' with
  | Finite q, Finite q' => Qeq q q'
  | Infinite s, Infinite s' => s = s'
  | NaN, NaN => True
  | _, _ => False
  end.

(** The values of a type. *)
Definition precision (t : reg) : Z := match t with F32 => 24 | _ => 53 end.
Definition max_exponent (t : reg) : Z := match t with F32 => 128 | _ => 1024 end.
Definition has_type (t : reg) (v : value) : Prop :=
  match v with
  | Int x => in_range t x
  | Float f => is_float t = true /\ valid_binary (precision t) (max_exponent t) f = true
  end.

(** A number a floating-point type contains: [m * 2^k] with a mantissa of at most 24 or 53 bits. *)
Definition contains (t : reg) (x : Z) : Prop := exists m k, 0 <= k /\ Z.abs m < 2 ^ precision t /\ x = m * 2 ^ k.
Definition fits (t : reg) (v : value) : Prop :=
  match v with Int x => is_float t = true -> contains t x | Float _ => True end.
(** The upcasts all of whose values fit. *)
Definition exact_upcast (a b : reg) : bool :=
  match a, b with I32, F32 | U32, F32 | I64, F64 | U64, F64 => false | _, _ => true end.
