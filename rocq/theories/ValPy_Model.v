(** Model of how a typed_python container is compared with an ordinary Python value:
    [compare_to_python] (PyInstance.cpp:1393-1423) and the [compare_to_python_concrete] of the types,
    for [exact = false].

    Not modelled: comparison with other typed containers, Alternatives, classes, Dict, Set and ConstDict. *)
From Verif Require Import Base ConstDict_Model Arith_Model Val_Model.
Open Scope Z_scope.
Open Scope result_scope.

(** Ordinary Python values.  [PFloat] is given by its IEEE bits, [PStr] by its code points, and [POther] is an
    object that is none of the others and compares by identity. *)
Inductive pyval :=
  | PNone | PBool (b : bool) | PInt (z : Z) | PFloat (bits : Z) | PStr (points : list Z) | PBytes (l : list Z)
  | PTuple (l : list pyval) | PList (l : list pyval) | POther (id : Z).

(** Typed values *)
Inductive tval :=
  | TvNone
  | TvReg (r : reg) (z : Z)                   (* bool and the integer types *)
  | TvFloat (bits : Z)                        (* float; a Float32 by the bits of the equal float *)
  | TvStr (p width : Z) (points : list Z)     (* [p = 0]: the null layout *)
  | TvBytes (l : list Z)
  | TvTupleOf (vs : list tval)
  | TvListOf (vs : list tval)
  | TvTuple (vs : list tval)                  (* Tuple and NamedTuple *)
  | TvOneOf (which : nat) (v : tval)
  | TvConst (v : tval).                       (* Value(v) *)

(** ** Numbers *)

(** The conversion of a 64-bit integer to a double in C: the nearest one, the even one of two. *)
Definition double_of_int (z : Z) : Z :=
  if z =? 0 then 0 else
  let n := Z.abs z in
  let k := Z.log2 n in
  let fraction :=
    if k <=? 52 then n * 2 ^ (52 - k)
    else
      let d := 2 ^ (k - 52) in
      let q := n / d in
      let r := n mod d in
      if (2 * r <? d) || ((2 * r =? d) && Z.even q) then q else q + 1 in
  (if z <? 0 then 2 ^ 63 else 0) + (k + 1023) * 2 ^ 52 + (fraction - 2 ^ 52).
(** The C operators on doubles *)
Definition c_compare (op : cmpop) (a b : Z) : bool :=
  match float_place a, float_place b with
  | Some x, Some y => cmp_result op (sign x y)
  | _, _ => match op with NE => true | _ => false end
  end.
Definition to_cmp (op : cmpop) : Arith_Model.cmp :=
  match op with LT => CLt | LE => CLe | EQ => CEq | NE => CNe | GT => CGt | GE => CGe end.

(** [PyInstance::compare_to_python_concrete], PyInstance.cpp:1425-1435; the exception becomes a TypeError,
    util.hpp:256-259. *)
Definition not_comparable (op : cmpop) : result bool :=
  match op with EQ => Ok false | NE => Ok true | _ => Err TypeError end.

(** A Python int as a C integer, PyRegisterTypeInstance.hpp:922-933: an int64, else the low 64 bits *)
Definition c_integer (z : Z) : reg * Z :=
  if (- 2 ^ 63 <=? z) && (z <? 2 ^ 63) then (I64, z) else (U64, wrap_u 64 z).
(** PyRegisterTypeInstance.hpp:885-956 for an integer type or bool, with [pyCompare] 872-883.  The promotion
    of an integer type and double is double. *)
Definition compare_integer (r : reg) (x : Z) (p : pyval) (op : cmpop) : result bool :=
  match p with
  | PBool b => Ok (interpreted_compare (to_cmp op) r Bool x (Z.b2z b))
  | PInt z => let (s, y) := c_integer z in Ok (interpreted_compare (to_cmp op) r s x y)
  | PFloat bits => Ok (c_compare op (double_of_int x) bits)
  | _ => not_comparable op
  end.
(** The same for the float types: double, or float with bool *)
Definition compare_float (a : Z) (p : pyval) (op : cmpop) : result bool :=
  match p with
  | PBool b => Ok (c_compare op a (double_of_int (Z.b2z b)))
  | PInt z => Ok (c_compare op a (double_of_int (snd (c_integer z))))
  | PFloat b => Ok (c_compare op a b)
  | _ => not_comparable op
  end.

(** ** Strings *)

(** [PyUnicode_KIND]: CPython stores a str at the width its largest code point needs. *)
Definition kind (points : list Z) : Z :=
  if forallb (fun x => x <? 256) points then 1 else if forallb (fun x => x <? 65536) points then 2 else 4.
(** [memcmp]; the C standard only fixes the sign of the result, this is what the C library gives on x86-64. *)
Fixpoint memcmp (l r : list Z) : Z :=
  match l, r with
  | x :: l, y :: r => if x =? y then memcmp l r else x - y
  | _, _ => 0
  end.
(** [StringType::cmpStatic] with a data pointer, StringType.cpp:1463-1515; that of a Python str is not null. *)
Definition string_data_sign (p : Z) (l r : list Z) : Z :=
  if p =? 0 then -1
  else let res := array_compare l r in
       if negb (res =? 0) then res else sign (Z.of_nat (length l)) (Z.of_nat (length r)).
(** PyStringInstance.hpp:82-120.  A null layout has width 1 (StringType.cpp, [bytes_per_codepoint]).
    [cmpResultToBoolForPyOrdering] takes a [char]. *)
Definition compare_string (p width : Z) (points : list Z) (q : pyval) (op : cmpop) : result bool :=
  match q with
  | PStr other =>
      let width := if p =? 0 then 1 else width in
      Ok (if negb (kind other =? width) then cmp_result op (string_data_sign p points other)
          else if Z.of_nat (length other) <? Z.of_nat (length points) then cmp_result op (-1)
          else if Z.of_nat (length points) <? Z.of_nat (length other) then cmp_result op 1
          else cmp_result op (wrap_s 8 (memcmp (string_bytes width other) (string_bytes width points))))
  | _ => Ok (cmp_result op (-1))
  end.
(** PyBytesInstance.hpp:93-114 *)
Definition compare_bytes (l : list Z) (q : pyval) (op : cmpop) : result bool :=
  match q with
  | PBytes other =>
      Ok (if Z.of_nat (length other) <? Z.of_nat (length l) then cmp_result op (-1)
          else if Z.of_nat (length l) <? Z.of_nat (length other) then cmp_result op 1
          else cmp_result op (wrap_s 8 (memcmp other l)))
  | _ => Ok (cmp_result op (-1))
  end.

(** ** Containers *)

(** The loop of PyTupleOrListOfInstance.cpp:1205-1246, 1267-1308 and PyCompositeTypeInstance.cpp:193-234 over
    the items of the other value, and the result it leads to *)
Definition item_loop (compare : tval -> pyval -> cmpop -> result bool) (op : cmpop) :
    list tval -> list pyval -> result Z :=
  fix go vs ws :=
    match vs, ws with
    | [], [] => Ok 0
    | _ :: _, [] => Ok 1
    | [], _ :: _ => Ok (-1)
    | v :: vs, w :: ws =>
        e <- compare v w EQ ;;
        if e : bool then go vs ws
        else match op with
             | EQ | NE => Ok 1
             | _ => l <- compare v w LT ;; Ok (if l : bool then -1 else 1)
             end
    end.
(** PyTupleOrListOfInstance.cpp:1248-1260, 1310-1322, PyCompositeTypeInstance.cpp:236-248 *)
Definition wrong_kind (op : cmpop) : result bool :=
  match op with EQ | NE => Ok (cmp_result op 1) | _ => Err TypeError end.

Fixpoint compare (v : tval) (q : pyval) (op : cmpop) {struct v} : result bool :=
  let items vs ws := c <- item_loop compare op vs ws ;; Ok (cmp_result op c) in
  match v with
  | TvNone => Ok (cmp_result op (match q with PNone => 0 | _ => 1 end))     (* PyNoneInstance.hpp:41-46 *)
  | TvReg r x => compare_integer r x q op
  | TvFloat bits => compare_float bits q op
  | TvStr p width points => compare_string p width points q op
  | TvBytes l => compare_bytes l q op
  | TvTupleOf vs | TvTuple vs => match q with PTuple ws => items vs ws | _ => wrong_kind op end
  | TvListOf vs => match q with PList ws => items vs ws | _ => wrong_kind op end
  | TvOneOf _ v => compare v q op                                           (* PyOneOfInstance.hpp:71-74 *)
  | TvConst v => compare v q op                                             (* PyInstance.cpp:1398-1402 *)
  end.

(** [v op q] when the typed value is on the left, and [q op v] when it is on the right: Python asks the right
    operand with the operator turned around when the left one does not know its type. *)
Definition reversed (op : cmpop) : cmpop :=
  match op with LT => GT | LE => GE | GT => LT | GE => LE | EQ => EQ | NE => NE end.
Definition compare_from_right (q : pyval) (v : tval) (op : cmpop) : result bool := compare v q (reversed op).
