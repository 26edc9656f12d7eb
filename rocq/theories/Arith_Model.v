(** Model of arithmetic on register types: type_promotion.py and PromotesTo.hpp (the type of a result),
    PyRegisterTypeInstance.hpp (the interpreter) and _runtime.cpp with compiler/type_wrappers/
    arithmetic_wrapper.py (compiled code).

    A value of an integer type is an integer in its range.  The C++ is compiled with -fwrapv (Makefile:35,
    and by default for extension modules), so signed arithmetic wraps around; dividing by zero, dividing the
    least number by -1 and shifting by a negative amount or by 64 and more remain undefined. *)
From Verif Require Import Base.
Open Scope Z_scope.
Open Scope result_scope.

(** ** Types *)
Inductive reg := Bool | I8 | I16 | I32 | I64 | U8 | U16 | U32 | U64 | F32 | F64.
Definition reg_eqb (a b : reg) : bool :=
  match a, b with
  | Bool, Bool | I8, I8 | I16, I16 | I32, I32 | I64, I64 | U8, U8 | U16, U16 | U32, U32 | U64, U64 | F32, F32 | F64, F64 => true
  | _, _ => false
  end.

(** [floatness], [bitness], [signedness], type_promotion.py:37-56, and [RegisterTypeProperties::isFloat],
    [bits], [isUnsigned], RegisterTypes.hpp:130-183, which are the same. *)
Definition is_float (t : reg) : bool := match t with F32 | F64 => true | _ => false end.
Definition bits (t : reg) : Z :=
  match t with Bool => 1 | I8 | U8 => 8 | I16 | U16 => 16 | I32 | U32 | F32 => 32 | I64 | U64 | F64 => 64 end.
Definition is_signed (t : reg) : bool := match t with I8 | I16 | I32 | I64 => true | _ => false end.
Definition is_unsigned (t : reg) : bool := match t with Bool | U8 | U16 | U32 | U64 => true | _ => false end.
(** [_intsBySignednessAndBitness], type_promotion.py:25-34 *)
Definition int_type (signed : bool) (w : Z) : option reg :=
  if signed then if w =? 8 then Some I8 else if w =? 16 then Some I16 else if w =? 32 then Some I32 else if w =? 64 then Some I64 else None
  else if w =? 8 then Some U8 else if w =? 16 then Some U16 else if w =? 32 then Some U32 else if w =? 64 then Some U64 else None.
(** [computeArithmeticBinaryResultType], type_promotion.py:71-110; a missing entry is a KeyError. *)
Definition result_type (a b : reg) : result reg :=
  if reg_eqb a Bool && reg_eqb b Bool then Ok Bool
  else if is_float a || is_float b then Ok (if Z.max (bits a) (bits b) =? 32 then F32 else F64)
  else match int_type (is_signed a || is_signed b) (Z.max (bits a) (bits b)) with Some t => Ok t | None => Err KeyError end.

(** [PromotesTo], PromotesTo.hpp:30-150, line by line *)
Definition promotes_to (a b : reg) : reg :=
  match a, b with
    | Bool, Bool => Bool | I8, Bool => I8 | I16, Bool => I16 | I32, Bool => I32 | I64, Bool => I64
    | U8, Bool => U8 | U16, Bool => U16 | U32, Bool => U32 | U64, Bool => U64 | Bool, I8 => I8
    | Bool, I16 => I16 | Bool, I32 => I32 | Bool, I64 => I64 | Bool, U8 => U8 | Bool, U16 => U16
    | Bool, U32 => U32 | Bool, U64 => U64 | F32, Bool => F32 | F32, I8 => F32 | F32, I16 => F32
    | F32, I32 => F32 | F32, I64 => F64 | F32, U8 => F32 | F32, U16 => F32 | F32, U32 => F32 | F32, U64 => F64
    | F64, Bool => F64 | F64, I8 => F64 | F64, I16 => F64 | F64, I32 => F64 | F64, I64 => F64 | F64, U8 => F64
    | F64, U16 => F64 | F64, U32 => F64 | F64, U64 => F64 | Bool, F32 => F32 | I8, F32 => F32 | I16, F32 => F32
    | I32, F32 => F32 | I64, F32 => F64 | U8, F32 => F32 | U16, F32 => F32 | U32, F32 => F32 | U64, F32 => F64
    | Bool, F64 => F64 | I8, F64 => F64 | I16, F64 => F64 | I32, F64 => F64 | I64, F64 => F64 | U8, F64 => F64
    | U16, F64 => F64 | U32, F64 => F64 | U64, F64 => F64 | I8, I8 => I8 | I16, I8 => I16 | I8, I16 => I16
    | I16, I16 => I16 | I32, I8 => I32 | I8, I32 => I32 | I32, I16 => I32 | I16, I32 => I32 | I32, I32 => I32
    | I64, I8 => I64 | I8, I64 => I64 | I64, I16 => I64 | I64, I32 => I64 | I16, I64 => I64 | I32, I64 => I64
    | I64, I64 => I64 | U8, I8 => I8 | U16, I8 => I16 | U8, I16 => I16 | U16, I16 => I16 | U32, I8 => I32
    | U8, I32 => I32 | U32, I16 => I32 | U16, I32 => I32 | U32, I32 => I32 | U64, I8 => I64 | U8, I64 => I64
    | U64, I16 => I64 | U64, I32 => I64 | U16, I64 => I64 | U32, I64 => I64 | U64, I64 => I64 | I8, U8 => I8
    | I16, U8 => I16 | I8, U16 => I16 | I16, U16 => I16 | I32, U8 => I32 | I8, U32 => I32 | I32, U16 => I32
    | I16, U32 => I32 | I32, U32 => I32 | I64, U8 => I64 | I8, U64 => I64 | I64, U16 => I64 | I64, U32 => I64
    | I16, U64 => I64 | I32, U64 => I64 | I64, U64 => I64 | U8, U8 => U8 | U16, U8 => U16 | U8, U16 => U16
    | U16, U16 => U16 | U32, U8 => U32 | U8, U32 => U32 | U32, U16 => U32 | U16, U32 => U32 | U32, U32 => U32
    | U64, U8 => U64 | U8, U64 => U64 | U64, U16 => U64 | U64, U32 => U64 | U16, U64 => U64 | U32, U64 => U64
    | U64, U64 => U64 | F32, F64 => F64 | F64, F32 => F64 | F32, F32 => F32 | F64, F64 => F64
  end.

(** ** Result types of operators *)
Inductive op := Add | Sub | Mul | TrueDiv | FloorDiv | Mod | Pow | LShift | RShift | And | Or | Xor | Compare.
Definition not_for_float (o : op) : bool := match o with LShift | RShift | And | Or | Xor => true | _ => false end.

(** int, float and bool values are Python objects in the interpreter, and two of them never reach
    typed_python ([extractPythonObjectConcrete], PyRegisterTypeInstance.hpp:728-739). *)
Definition native (t : reg) : bool := match t with Bool | I64 | F64 => true | _ => false end.

(** The interpreter, where at least one operand is not native: [pyOperatorConcreteForRegister] and
    [pyOperatorConcreteForRegisterPromoted], PyRegisterTypeInstance.hpp:354-436, and [pyCompare], 872-883.
    [pyFloatDiv] of two floats is a float, [pyPow] a double. *)
Definition interpreted_type (o : op) (a b : reg) : result reg :=
  let t := promotes_to a b in
  match o with
  | Compare => Ok Bool
  | TrueDiv => Ok (promotes_to t F32)
  | Pow => Ok F64
  | _ => if not_for_float o && is_float t then Err TypeError else Ok t
  end.
(** Python, for two native operands.  The type of an integer power is that for a positive exponent. *)
Definition python_type (o : op) (a b : reg) : result reg :=
  match o with
  | Compare => Ok Bool
  | TrueDiv => Ok F64
  | And | Or | Xor => if is_float a || is_float b then Err TypeError else if reg_eqb a Bool && reg_eqb b Bool then Ok Bool else Ok I64
  | LShift | RShift => if is_float a || is_float b then Err TypeError else Ok I64
  | _ => if is_float a || is_float b then Ok F64 else Ok I64
  end.

(** Compiled code: [convert_bin_op] of the three wrappers, arithmetic_wrapper.py:350-508 (IntWrapper),
    588-648 (BoolWrapper) and 778-865 (FloatWrapper).  Each promotes operands of different types and starts
    again, which ends after at most three rounds. *)
Fixpoint compiled_type (fuel : nat) (o : op) (a b : reg) : result reg :=
  match fuel with
  | O => Err OutOfFuel
  | S fuel =>
      if is_float a then
        if negb (reg_eqb a b) then
          t <- match o with Pow => Ok F64 | _ => result_type a b end ;; compiled_type fuel o t t
        else match o with
             | Mod => Ok a                                                    (* Float32: through float and back *)
             | Pow => Ok F64
             | FloorDiv => Ok a
             | Compare => Ok Bool
             | _ => if not_for_float o then Err TypeError else Ok a
             end
      else if reg_eqb a Bool then
        (* line 595 tests [isinstance(right, ArithmeticTypeWrapper)], which is never true *)
        if negb (reg_eqb b Bool) then t <- result_type a b ;; compiled_type fuel o t t
        else match o with
             | And | Or | Xor => Ok Bool
             | Compare => Ok Bool
             | _ => compiled_type fuel o I64 b
             end
      else
        match o with
        | TrueDiv => t <- result_type a b ;; t <- result_type t F32 ;; compiled_type fuel o t t
        | _ =>
            if negb (reg_eqb a b) then
              t <- result_type a b ;;
              t <- match o with Pow => result_type t U64 | _ => Ok t end ;;
              compiled_type fuel o t t
            else match o with
                 | Pow => Ok F64
                 | Compare => Ok Bool
                 | _ => Ok a
                 end
        end
  end.

(** ** Integer values *)
Definition is_int (t : reg) : bool := match t with Bool | F32 | F64 => false | _ => true end.
(** A C++ conversion to an integer type. *)
Definition cast (t : reg) (x : Z) : Z :=
  match t with
  | Bool => if x =? 0 then 0 else 1
  | _ => if is_signed t then wrap_s (bits t) x else wrap_u (bits t) x
  end.

(** ** C++ operators on int64_t and uint64_t *)
Definition least64 : Z := - 2 ^ 63.
Definition neg64 (x : Z) : Z := wrap_s 64 (- x).
Definition rem64 (l r : Z) : result Z := if (r =? 0) || ((l =? least64) && (r =? -1)) then Err UndefinedBehaviour else Ok (Z.rem l r).
Definition quot64 (l r : Z) : result Z := if (r =? 0) || ((l =? least64) && (r =? -1)) then Err UndefinedBehaviour else Ok (Z.quot l r).
Definition shift_ok (r : Z) : bool := (0 <=? r) && (r <? 64).
Definition shl64 (l r : Z) : result Z := if shift_ok r then Ok (wrap_s 64 (l * 2 ^ r)) else Err UndefinedBehaviour.
Definition shr64 (l r : Z) : result Z := if shift_ok r then Ok (l / 2 ^ r) else Err UndefinedBehaviour.
Definition shlu64 (l r : Z) : result Z := if shift_ok r then Ok (wrap_u 64 (l * 2 ^ r)) else Err UndefinedBehaviour.
Definition ssize_max : Z := 2 ^ 63 - 1.

(** ** The interpreter's functions, PyRegisterTypeInstance.hpp *)

(** [pyMod], 77-84 and 87-109 *)
Definition py_mod_u64 (l r : Z) : result Z := if r =? 0 then Err ZeroDivisionError else Ok (l mod r).
Definition py_mod_i64 (l r : Z) : result Z :=
  if (r =? 1) || (r =? -1) || (l =? 0) then Ok 0
  else if r =? 0 then Err ZeroDivisionError
  else if r <? 0 then
    if l <? 0 then m <- rem64 (neg64 l) (neg64 r) ;; Ok (neg64 m)
    else m <- rem64 (neg64 l) (neg64 r) ;;
         m <- rem64 (wrap_s 64 (neg64 r + m)) (neg64 r) ;; Ok (neg64 m)
  else if l <? 0 then m <- rem64 l r ;; rem64 (wrap_s 64 (r + m)) r
  else rem64 l r.
(** [pyFloorDiv], 286-301 and 305-308 *)
Definition py_floordiv_i64 (l r : Z) : result Z :=
  if r =? 0 then Err ZeroDivisionError
  else if (l <? 0) && (l =? neg64 l) && (r =? -1) then Ok l
  else if ((0 <? l) && (0 <? r)) || ((l <? 0) && (r <? 0)) then quot64 l r
  else m <- rem64 l r ;; q <- quot64 l r ;; Ok (if m =? 0 then q else wrap_s 64 (q - 1)).
Definition py_floordiv_u64 (l r : Z) : result Z := if r =? 0 then Err UndefinedBehaviour else Ok (l / r).
(** [pyLshift], 195-212.  [r] is never above SSIZE_MAX in the signed version. *)
Definition py_lshift_i64 (l r : Z) : result Z :=
  if r <? 0 then Err ValueError
  else if ((l =? 0) && (ssize_max <? r)) || (negb (l =? 0) && (1024 <=? r)) then Err ValueError
  else if 0 <=? l then shl64 l r else m <- shl64 (neg64 l) r ;; Ok (neg64 m).
Definition py_lshift_u64 (l r : Z) : result Z :=
  if ((l =? 0) && (ssize_max <? r)) || (negb (l =? 0) && (1024 <=? r)) then Err ValueError else shlu64 l r.
(** [pyRshift], 228-258 *)
Definition py_rshift_u64 (l r : Z) : result Z :=
  if ssize_max <? r then Err ValueError
  else if r =? 0 then Ok l else if 64 <=? r then Ok 0 else shr64 l r.
Definition py_rshift_i64 (l r : Z) : result Z :=
  if r <? 0 then Err ValueError
  else if ssize_max <? r then Err ValueError
  else if r =? 0 then Ok l
  else if 0 <=? l then shr64 l r
  else m <- shr64 (neg64 l) r ;;
       if m =? 0 then Ok (-1) else if l =? neg64 l then Ok m else Ok (neg64 m).

(** [pyOperatorConcreteForRegisterPromoted], 354-421, for operands of one integer type: narrower types go
    through the 64-bit version, and the result is converted to the type. *)
Definition interpreted (o : op) (t : reg) (l r : Z) : result Z :=
  let pick signed unsigned : Z -> Z -> result Z := if is_signed t then signed else unsigned in
  let back (x : result Z) := x <- x ;; Ok (cast t x) in
  match o with
  | Add => Ok (cast t (l + r))
  | Sub => Ok (cast t (l - r))
  | Mul => Ok (cast t (l * r))
  | And => Ok (cast t (Z.land l r))
  | Or => Ok (cast t (Z.lor l r))
  | Xor => Ok (cast t (Z.lxor l r))
  | LShift => back (pick py_lshift_i64 py_lshift_u64 l r)
  | RShift => back (pick py_rshift_i64 py_rshift_u64 l r)
  | FloorDiv => if r =? 0 then Err ZeroDivisionError else back (pick py_floordiv_i64 py_floordiv_u64 l r)
  | Mod => if r =? 0 then Err ZeroDivisionError else back (pick py_mod_i64 py_mod_u64 l r)
  | TrueDiv | Pow | Compare => Err NotImplementedError                        (* not modelled: floats *)
  end.
(** [pyOperatorConcreteForRegister], 423-436: operands of two types are converted to the promoted type. *)
Definition interpreted2 (o : op) (a b : reg) (x y : Z) : result Z :=
  let t := promotes_to a b in interpreted o t (cast t x) (cast t y).

(** ** The functions that compiled code calls, _runtime.cpp *)

(** [mod_int64_int64], 1544-1561, and [mod_uint64_uint64], 1563-1569, whose result is an int64_t *)
Definition np_mod_i64 (l r : Z) : result Z :=
  if (r =? 1) || (r =? -1) || (r =? 0) || (l =? 0) then Ok 0
  else if r <? 0 then
    if l <? 0 then m <- rem64 (neg64 l) (neg64 r) ;; Ok (neg64 m)
    else m <- rem64 (wrap_s 64 (l - 1)) (neg64 r) ;; Ok (neg64 (wrap_s 64 (neg64 r - wrap_s 64 (m + 1))))
  else if l <? 0 then m <- rem64 (wrap_s 64 (neg64 l - 1)) r ;; Ok (wrap_s 64 (r - wrap_s 64 (m + 1)))
  else rem64 l r.
Definition np_mod_u64 (l r : Z) : result Z :=
  if (r =? 1) || (r =? 0) || (l =? 0) then Ok 0 else Ok (wrap_s 64 (l mod r)).
(** [lshift_int64_int64], 1632-1650, for Python 3.7 and later, and [lshift_uint64_uint64], 1653-1660 *)
Definition np_lshift_i64 (l r : Z) : result Z :=
  if r <? 0 then Err ValueError
  else if l =? 0 then Ok 0
  else if 1024 <=? r then Err OverflowError
  else if 0 <=? l then shl64 l r else m <- shl64 (neg64 l) r ;; Ok (neg64 m).
Definition np_lshift_u64 (l r : Z) : result Z :=
  if ((l =? 0) && (ssize_max <? r)) || (negb (l =? 0) && (1024 <=? r)) then Err OverflowError else shlu64 l r.
(** [rshift_uint64_uint64], 1663-1674, and [rshift_int64_int64], 1677-1698 *)
Definition np_rshift_u64 (l r : Z) : result Z :=
  if ssize_max <? r then Err OverflowError
  else if r =? 0 then Ok l else if 64 <=? r then Ok 0 else shr64 l r.
Definition np_rshift_i64 (l r : Z) : result Z :=
  if r <? 0 then Err ValueError
  else if ssize_max <? r then Err OverflowError
  else if r =? 0 then Ok l
  else if 0 <=? l then shr64 l r
  else m <- shr64 (neg64 l) r ;;
       if m =? 0 then Ok (-1) else if l =? neg64 l then Ok m else Ok (neg64 m).
(** [floordiv_int64_int64], 1701-1717 *)
Definition np_floordiv_i64 (l r : Z) : result Z :=
  if r =? 0 then Err ZeroDivisionError
  else if (l <? 0) && (l =? neg64 l) && (r =? -1) then Ok 1
  else if ((0 <? l) && (0 <? r)) || ((l <? 0) && (r <? 0)) then quot64 l r
  else m <- rem64 l r ;; q <- quot64 l r ;; Ok (if m =? 0 then q else wrap_s 64 (q - 1)).

(** [IntWrapper.convert_bin_op], arithmetic_wrapper.py:350-508, for operands of one integer type that are
    not both constants: the operands are extended to 64 bits and the result is converted to the type; the
    other operators are LLVM's add, sub, mul, and, or, xor and udiv on the type. *)
Definition compiled (o : op) (t : reg) (l r : Z) : result Z :=
  let pick signed unsigned : Z -> Z -> result Z := if is_signed t then signed else unsigned in
  let back (x : result Z) := x <- x ;; Ok (cast t x) in
  match o with
  | Add => Ok (cast t (l + r))
  | Sub => Ok (cast t (l - r))
  | Mul => Ok (cast t (l * r))
  | And => Ok (cast t (Z.land l r))
  | Or => Ok (cast t (Z.lor l r))
  | Xor => Ok (cast t (Z.lxor l r))
  | LShift => back (x <- pick np_lshift_i64 np_lshift_u64 l r ;; Ok (wrap_s 64 x))
  | RShift => back (x <- pick np_rshift_i64 np_rshift_u64 l r ;; Ok (wrap_s 64 x))
  | FloorDiv => if is_signed t then back (np_floordiv_i64 l r)
                else if r =? 0 then Err ZeroDivisionError else Ok (l / r)
  | Mod => if r =? 0 then Err ZeroDivisionError else back (pick np_mod_i64 np_mod_u64 l r)
  | TrueDiv | Pow | Compare => Err NotImplementedError                        (* not modelled: floats *)
  end.

(** ** Comparison *)
Inductive cmp := CEq | CNe | CLt | CGt | CLe | CGe.
Definition compare (c : cmp) (x y : Z) : bool :=
  match c with CEq => x =? y | CNe => negb (x =? y) | CLt => x <? y | CGt => y <? x | CLe => x <=? y | CGe => y <=? x end.
(** [pyCompare], PyRegisterTypeInstance.hpp:872-883, for two integer types (or bool) *)
Definition interpreted_compare (c : cmp) (a b : reg) (x y : Z) : bool :=
  let t := promotes_to a b in compare c (cast t x) (cast t y).

(** ** Conversion levels, RegisterTypes.hpp:70-124 *)
Definition valid_upcast (a b : reg) : bool :=
  if reg_eqb a Bool then true
  else if is_float a && negb (is_float b) then false
  else if bits b <? bits a then false
  else if is_float b then true
  else if negb (is_unsigned b) && (bits a <? bits b) then true
  else if negb (eqb (is_unsigned b) (is_unsigned a)) then false
  else true.
