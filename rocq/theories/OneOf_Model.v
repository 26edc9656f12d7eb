(** Model of OneOf types: which options they have, and how a Python object is converted to one of them.
    OneOfType.cpp, OneOfType.hpp, PyOneOfInstance.hpp, and the conversions to the options in PyInstance.cpp,
    PyRegisterTypeInstance.hpp, PyNoneInstance.hpp, PyStringInstance.hpp, PyBytesInstance.hpp and
    PyValueInstance.hpp. *)
From Coq Require Import Floats.SpecFloat.
From Verif Require Import Base Arith_Model Upcast_Model.
Open Scope Z_scope.
Open Scope result_scope.

(** A constant a Value type stands for (ValueType.hpp).  Values of other types are not modelled. *)
Inductive const := CReg (t : reg) (v : value) | CStr (s : list Z) | CBytes (s : list Z).
(** An option.  [TTyped n] is any other type, with its conversions given by the [world] below.  Types are
    memoized, so that equal types are the same pointer. *)
Inductive ty := TNone | TReg (t : reg) | TStr | TBytes | TValue (c : const) | TTyped (n : N).
(** A Python object.  [OReg t v] is an instance of a register type without Python counterpart (not Bool, Int64
    or Float64); [OTyped n c] one of another type of typed_python with content [c]. *)
Inductive obj := ONone | OBool (b : bool) | OInt (x : Z) | OFloat (f : spec_float) | OStr (s : list Z) | OBytes (s : list Z)
| OReg (t : reg) (v : value) | OTyped (n : N) (c : Z).
(** What is stored behind the tag byte.  Of an instance of another type we keep the object it is seen as. *)
Inductive data := DNone | DReg (v : value) | DStr (s : list Z) | DBytes (s : list Z) | DValue | DTyped (o : obj).

(** What is not modelled: C++'s conversion of a floating-point number to an integer type, and the conversions
    to other types. *)
Record world := {
  to_int : reg -> spec_float -> Z;
  typed_could_be : N -> obj -> level -> bool;
  typed_convert : N -> obj -> level -> result obj;
  typed_default : N -> option obj }.

Scheme Equality for reg.
Definition value_eq_dec (v w : value) : {v = w} + {v <> w}.
Proof. repeat decide equality. Defined.
Definition ty_eq_dec (t u : ty) : {t = u} + {t <> u}.
Proof. repeat (decide equality; try apply value_eq_dec; try apply reg_eq_dec). Defined.

(** ** Making the type *)

(** An argument of [OneOf(...)]: a type that is no OneOf, or a OneOf with its options. *)
Inductive arg := Leaf (t : ty) | Node (l : list arg).
(** The function [visit] of OneOfType.cpp:164-173: [acc] holds the options found, the last one first.  The set
    [seen] has the same members. *)
Fixpoint visit (a : arg) (acc : list ty) {struct a} : list ty :=
  match a with
  | Node l => (fix each (l : list arg) (acc : list ty) : list ty :=
                 match l with [] => acc | b :: l => each l (visit b acc) end) l acc
  | Leaf t => if in_dec ty_eq_dec t acc then acc else t :: acc
  end.
(** [Make], OneOfType.cpp:159-191, with the limit of the constructor, OneOfType.hpp:33-35.  (The constructor is
    [noexcept]: the exception ends the process.) *)
Definition make (args : list arg) : result (list ty) :=
  let flat := rev (fold_left (fun acc a => visit a acc) args []) in
  if (255 <? length flat)%nat then Err GenericError else Ok flat.

(** ** Converting to one option, below level New *)

Definition of_bool (b : bool) : value := Int (if b then 1 else 0).
(** The category that counts as the object's own, PyRegisterTypeInstance.hpp:668-680 and 508-606 *)
Definition category (o : obj) : option reg :=
  match o with
  | OBool _ => Some Bool | OInt _ => Some I64 | OFloat _ => Some F64 | OReg t _ => Some t
  | _ => None
  end.
(** [isValidConversion] from a category that is not a register: [bits] gives -1, RegisterTypes.hpp:70-124 *)
Definition valid_from_other (b : reg) (l : level) : bool :=
  at_least_implicit l || (at_least_upcast l && negb (is_unsigned b)).

(** Comparison of values of one register type, [RegisterType::cmp], RegisterTypes.hpp:223-232 *)
Definition reg_cmp_eq (v w : value) : bool :=
  match v, w with
  | Int x, Int y => x =? y
  | Float f, Float g => negb (SFltb f g) && negb (SFltb g f)
  | _, _ => false
  end.
(** A Python int as 64 bits, PyRegisterTypeInstance.hpp:922-932 *)
Definition fits64 (x : Z) : bool := (- 2 ^ 63 <=? x) && (x <? 2 ^ 63).
(** [compare_to_python] with [exact] and [Py_EQ], PyInstance.cpp:1393-1423, of a constant: for registers
    PyRegisterTypeInstance.hpp:885-956, for str PyStringInstance.hpp:82-120, for bytes PyBytesInstance.hpp:93-114.
    The two ways a string is compared, by its kind, are one here. *)
Definition const_matches (c : const) (o : obj) : bool :=
  match c with
  | CStr s => match o with OStr s' => if list_eq_dec Z.eq_dec s s' then true else false | _ => false end
  | CBytes s => match o with OBytes s' => if list_eq_dec Z.eq_dec s s' then true else false | _ => false end
  | CReg t v =>
      match o with
      | OReg t' w => reg_eqb t t' && reg_cmp_eq v w
      | OBool b => (* [PyLong_Check] holds of a bool, too *)
          (reg_eqb t Bool || reg_eqb t I64) &&
          match v with Int x => interpreted_compare CEq t Bool x (if b then 1 else 0) | _ => false end
      | OInt y =>
          reg_eqb t I64 &&
          match v with
          | Int x => if fits64 y then interpreted_compare CEq t I64 x y else interpreted_compare CEq t U64 x (wrap_u 64 y)
          | _ => false
          end
      | OFloat g => reg_eqb t F64 && match v with Float f => SFeqb f g | _ => false end
      | _ => false
      end
  end.

(** [pyValCouldBeOfType], PyInstance.cpp:125-144, which for registers is PyRegisterTypeInstance.hpp:668-699,
    PyNoneInstance.hpp:33-35, PyStringInstance.hpp:62-68, PyBytesInstance.hpp:77-84 and PyValueInstance.hpp:60-73.
    Numpy's numbers are not modelled. *)
Definition could_be (w : world) (t : ty) (o : obj) (l : level) : bool :=
  match t with
  | TNone => match o with ONone => true | _ => false end
  | TReg b =>
      match o with
      | OTyped _ _ => valid_from_other b l
      | OReg a _ => reg_eqb a b || valid_conversion a b l
      | _ => match category o with Some a => valid_conversion a b l | None => false end
      end
  | TStr => match o with OStr _ => true | _ => false end
  | TBytes => match o with OBytes _ => true | _ => false end
  | TValue c => const_matches c o
  | TTyped n => match o with OTyped m _ => if N.eqb m n then true else typed_could_be w n o l | _ => typed_could_be w n o l end
  end.

(** Conversion of a register value, PyRegisterTypeInstance.hpp:508-572: like [Upcast_Model.construct], and
    floats go to integer types, too. *)
Definition convert_reg (w : world) (a b : reg) (l : level) (v : value) : result value :=
  if valid_conversion a b l then
    match v with
    | Float f => if is_float b then convert a b v else Ok (Int (to_int w b f))
    | _ => convert a b v
    end
  else Err TypeError.
(** The ints nearer to 2^1024 or -2^1024 than to any double *)
Definition too_big (x : Z) : bool := 2 ^ 1024 - 2 ^ 970 <=? Z.abs x.
(** A Python int, PyRegisterTypeInstance.hpp:575-606.  [PyFloat_AsDouble] gives -1.0 for an int it cannot
    represent; the exception it leaves behind is not looked at, and is not modelled. *)
Definition convert_int (b : reg) (l : level) (x : Z) : result value :=
  if is_float b then
    if valid_conversion I64 b l then
      convert F64 b (Float (round_to F64 (if too_big x then -1 else x) 0))
    else Err TypeError
  else construct_python_int b l x.

(** [copyConstructFromPythonInstance], PyInstance.cpp:147-187 (an instance of the type itself is copied), and the
    functions for each kind of type: PyNoneInstance.hpp:25-31, PyRegisterTypeInstance.hpp:497-606,
    PyStringInstance.hpp:25-60, PyBytesInstance.hpp:25-75, PyValueInstance.hpp:42-58. *)
Definition convert_one (w : world) (t : ty) (o : obj) (l : level) : result data :=
  match t with
  | TNone => match o with ONone => Ok DNone | _ => Err TypeError end
  | TReg b =>
      match o with
      | OReg a v => if reg_eqb a b then Ok (DReg v) else v <- convert_reg w a b l v ;; Ok (DReg v)
      | OBool x => v <- convert_reg w Bool b l (of_bool x) ;; Ok (DReg v)
      | OFloat f => v <- convert_reg w F64 b l (Float f) ;; Ok (DReg v)
      | OInt x => v <- convert_int b l x ;; Ok (DReg v)
      | _ => Err TypeError
      end
  | TStr => match o with OStr s => Ok (DStr s) | _ => Err TypeError end
  | TBytes => match o with OBytes s => Ok (DBytes s) | _ => Err TypeError end
  | TValue c => if const_matches c o then Ok DValue else Err TypeError
  | TTyped n =>
      match o with
      | OTyped m _ => if N.eqb m n then Ok (DTyped o) else x <- typed_convert w n o l ;; Ok (DTyped x)
      | _ => x <- typed_convert w n o l ;; Ok (DTyped x)
      end
  end.

(** ** Converting to the OneOf *)

(** The tag is a byte. *)
Definition byte_of (k : nat) : Z := Z.of_nat k mod 256.
(** [tryToConvert], PyOneOfInstance.hpp:26-44; exceptions are swallowed. *)
Fixpoint try_options (w : world) (ts : list ty) (k : nat) (o : obj) (l : level) : option (Z * data) :=
  match ts with
  | [] => None
  | t :: ts =>
      if could_be w t o l then
        match convert_one w t o l with
        | Ok d => Some (byte_of k, d)
        | Err _ => try_options w ts (S k) o l
        end
      else try_options w ts (S k) o l
  end.
(** [conversionLevelToInt], ConversionLevel.hpp:18-39; the order of the enumeration is the same. *)
Definition level_number (l : level) : Z :=
  match l with Signature => 0 | Upcast => 1 | UpcastContainers => 2 | Implicit => 3 | ImplicitContainers => 4 | New => 5 end.
Definition sublevels : list level := [Signature; Upcast; UpcastContainers; Implicit; ImplicitContainers].
Fixpoint try_levels (w : world) (ts : list ty) (o : obj) (l : level) (subs : list level) : result (Z * data) :=
  match subs with
  | [] => Err TypeError
  | s :: subs =>
      if level_number s <=? level_number l then
        match try_options w ts 0 o s with
        | Some r => Ok r
        | None => try_levels w ts o l subs
        end
      else try_levels w ts o l subs
  end.
(** [copyConstructFromPythonInstanceConcrete], PyOneOfInstance.hpp:25-60 *)
Definition convert_oneof (w : world) (ts : list ty) (o : obj) (l : level) : result (Z * data) :=
  try_levels w ts o l sublevels.

(** ** Getting the object back *)

Definition extract_reg (t : reg) (v : value) : obj :=
  match t, v with
  | Bool, Int x => OBool (negb (x =? 0))
  | I64, Int x => OInt x
  | F64, Float f => OFloat f
  | _, _ => OReg t v
  end.
(** [extractPythonObject]: PyRegisterTypeInstance.hpp:728-739, PyValueInstance.hpp:75-77 and the like *)
Definition extract_one (t : ty) (d : data) : result obj :=
  match t, d with
  | TNone, DNone => Ok ONone
  | TReg t, DReg v => Ok (extract_reg t v)
  | TStr, DStr s => Ok (OStr s)
  | TBytes, DBytes s => Ok (OBytes s)
  | TValue (CReg t v), DValue => Ok (extract_reg t v)
  | TValue (CStr s), DValue => Ok (OStr s)
  | TValue (CBytes s), DValue => Ok (OBytes s)
  | TTyped _, DTyped o => Ok o
  | _, _ => Err UndefinedBehaviour
  end.
(** [extractPythonObjectConcrete], PyOneOfInstance.hpp:66-69, with [unwrap]: the tag is an index. *)
Definition extract (ts : list ty) (r : Z * data) : result obj :=
  match nth_error ts (Z.to_nat (fst r)) with
  | Some t => extract_one t (snd r)
  | None => Err UndefinedBehaviour
  end.

(** ** The default *)

(** [constructor] of the options; registers are zero, Value types and None hold nothing. *)
Definition default_of (w : world) (t : ty) : option data :=
  match t with
  | TNone => Some DNone
  | TReg t => Some (DReg (if is_float t then Float (S754_zero false) else Int 0))
  | TStr => Some (DStr [])
  | TBytes => Some (DBytes [])
  | TValue _ => Some DValue
  | TTyped n => match typed_default w n with Some o => Some (DTyped o) | None => None end
  end.
(** [constructor], OneOfType.cpp:120-134 *)
Fixpoint default_from (w : world) (ts : list ty) (k : nat) : result (Z * data) :=
  match ts with
  | [] => Err GenericError
  | t :: ts => match default_of w t with Some d => Ok (byte_of k, d) | None => default_from w ts (S k) end
  end.
Definition default_oneof (w : world) (ts : list ty) : result (Z * data) := default_from w ts 0.
