(** Model of conversions between register types: PyRegisterTypeInstance.hpp and RegisterTypes.hpp. *)
From Coq Require Import Floats.SpecFloat.
From Verif Require Import Base Arith_Model.
Open Scope Z_scope.
Open Scope result_scope.

(** A value of an integer type or bool is an integer, one of a floating-point type an IEEE 754 number. *)
Inductive value := Int (x : Z) | Float (f : spec_float).

(** Conversion levels, ConversionLevel.hpp:9-16 *)
Inductive level := Signature | Upcast | UpcastContainers | Implicit | ImplicitContainers | New.
Definition at_least_implicit (l : level) : bool := match l with Implicit | ImplicitContainers | New => true | _ => false end.
Definition at_least_upcast (l : level) : bool := match l with Signature => false | _ => true end.
(** [isValidConversion], RegisterTypes.hpp:70-84 *)
Definition valid_conversion (a b : reg) (l : level) : bool :=
  at_least_implicit l || reg_eqb a b || (at_least_upcast l && valid_upcast a b).

(** Rounding of [m * 2^e] to the nearest number of a floating-point type, ties to even: what C++ does for
    conversions from integers and between floating-point types. *)
Definition round_to (t : reg) (m e : Z) : spec_float :=
  match t with F32 => binary_normalize 24 128 m e false | _ => binary_normalize 53 1024 m e false end.
(** The C++ conversions in the branches of [copyConstructFromPythonInstanceConcrete], PyRegisterTypeInstance.hpp:
    508-551, and the native casts of compiled code, arithmetic_wrapper.py:218-248, 528-550 and 676-694.
    Conversion of a float to an integer type is not an upcast and not modelled. *)
Definition convert (a b : reg) (v : value) : result value :=
  match v with
  | Int x => if is_float b then Ok (Float (round_to b x 0)) else Ok (Int (cast b x))
  | Float f =>
      if reg_eqb a b then Ok v
      else if is_float b then
        Ok (Float (match f with
                   | S754_finite s m e => round_to b (if s then Zneg m else Zpos m) e
                   | f => f
                   end))
      else Err NotImplementedError
  end.
(** [copyConstructFromPythonInstanceConcrete], PyRegisterTypeInstance.hpp:497-553, for a typed value below
    level New; a conversion that is not allowed ends in a TypeError. *)
Definition construct (a b : reg) (l : level) (v : value) : result value :=
  if valid_conversion a b l then convert a b v else Err TypeError.
(** The same for a Python int, 575-606, to an integer type or bool: it counts as an Int64, and one that is
    too big for 64 bits is masked. *)
Definition construct_python_int (b : reg) (l : level) (x : Z) : result value :=
  if valid_conversion I64 b l && negb (is_float b) then
    Ok (Int (cast b (if (- 2 ^ 63 <=? x) && (x <? 2 ^ 63) then x else wrap_u 64 x)))
  else Err TypeError.
