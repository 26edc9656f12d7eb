(** Model of how typed_python compares and hashes its values: the [cmp] and [hash] functions of
    RegisterTypes.hpp, StringType.cpp, BytesType.cpp, TupleOrListOfType.cpp, CompositeType.cpp, OneOfType.cpp,
    AlternativeType.cpp, ClassType.cpp, HeldClassType.cpp, NoneType.hpp and ValueType.hpp.

    Not modelled: user-defined [__eq__], [__lt__] and [__hash__], Dict, Set and ConstDict (see Set_Model and
    ConstDict_Model), functions, types and wrapped Python objects. *)
From Verif Require Import Base HashAcc_Model ConstDict_Model.
Open Scope Z_scope.
Open Scope result_scope.

(** A value in memory.  Addresses ([p]) are those of the reference counted layout, 0 for a null pointer, and
    [cache] is the layout's [hash_cache]. *)
Inductive val :=
  | VNone
  | VBool (b : bool)
  | VInt (bits : Z) (z : Z)                          (* Int8 ... UInt64, by width and value *)
  | VFloat (bits : Z)                                (* float, by its IEEE bits; a Float32 by those of the equal float *)
  | VStr (p width cache : Z) (points : list Z)       (* str, with its [bytes_per_codepoint] *)
  | VBytes (p cache : Z) (l : list Z)
  | VSeq (p cache : Z) (vs : list val)               (* TupleOf and ListOf *)
  | VTuple (vs : list val)                           (* Tuple and NamedTuple *)
  | VOneOf (which : nat) (v : val)
  | VAlt (p : Z) (which : nat) (v : val)             (* an Alternative; [p = 0] if all its alternatives are empty *)
  | VConst (v : val)                                 (* the instance of Value(v) *)
  | VObject (p : Z)                                  (* a Class instance *)
  | VHeld (p : Z) (fields : list (option val)).      (* a HeldClass instance at address [p]; [None]: not initialized *)

(** ** Comparison *)

Definition sign (a b : Z) : Z := if a <? b then -1 else if b <? a then 1 else 0.

(** The place of a double in the order of the reals, [None] for NaN: the bits below the sign bit grow with the
    absolute value.  [x < y] on doubles is false if either is NaN. *)
Definition float_place (bits : Z) : option Z :=
  let magnitude := bits mod 2 ^ 63 in
  if 0x7FF0000000000000 <? magnitude then None
  else Some (if 2 ^ 63 <=? bits then - magnitude else magnitude).
Definition float_sign (a b : Z) : Z :=
  match float_place a, float_place b with Some x, Some y => sign x y | _, _ => 0 end.

(** [byteCompare], Type.cpp:122-138 (its first loop only skips equal bytes), and [typedArrayCompare],
    StringType.cpp:1338-1351, on the common prefix of two arrays *)
Fixpoint array_compare (l r : list Z) : Z :=
  match l, r with
  | x :: l, y :: r => if x <? y then -1 else if y <? x then 1 else array_compare l r
  | _, _ => 0
  end.
(** [StringType::cmpStatic], StringType.cpp:1409-1461.  The code units are read at the width of each side. *)
Definition string_sign (p q : Z) (l r : list Z) : Z :=
  if (p =? 0) && (q =? 0) then 0 else if p =? 0 then -1 else if q =? 0 then 1
  else let res := array_compare l r in
       if negb (res =? 0) then res else sign (Z.of_nat (length l)) (Z.of_nat (length r)).
(** [cmpStaticEq], StringType.cpp:1363-1407 *)
Definition string_eq (p q : Z) (l r : list Z) : bool :=
  if (p =? 0) && (q =? 0) then true else if p =? 0 then false else if q =? 0 then false
  else if negb (Z.of_nat (length l) =? Z.of_nat (length r)) then false else array_compare l r =? 0.
(** [BytesType::cmp], BytesType.cpp:40-69 *)
Definition bytes_sign (p q : Z) (l r : list Z) : Z :=
  if (p =? 0) && (q =? 0) then 0 else if p =? 0 then -1 else if q =? 0 then 1 else if p =? q then 0
  else let res := array_compare l r in
       if negb (res =? 0) then res else sign (Z.of_nat (length l)) (Z.of_nat (length r)).

Section Loops.
Variable cmp : val -> val -> cmpop -> result bool.
(** The loops for [Py_EQ], TupleOrListOfType.cpp:127-134 and CompositeType.cpp:80-86 *)
Definition equal_loop : list val -> list val -> result bool :=
  fix go vs ws :=
    match vs, ws with
    | x :: vs, y :: ws => d <- cmp x y NE ;; if d : bool then Ok false else go vs ws
    | _, _ => Ok true
    end.
(** The loops for the other operators, TupleOrListOfType.cpp:137-146 and CompositeType.cpp:89-96; 0 if they
    end without finding a difference *)
Definition order_loop : list val -> list val -> result Z :=
  fix go vs ws :=
    match vs, ws with
    | x :: vs, y :: ws =>
        d <- cmp x y NE ;;
        if d : bool then l <- cmp x y LT ;; Ok (if l : bool then -1 else 1) else go vs ws
    | _, _ => Ok 0
    end.
(** The loop of [HeldClass::cmp], HeldClassType.cpp:125-140 *)
Definition field_loop : list (option val) -> list (option val) -> result bool :=
  fix go vs ws :=
    match vs, ws with
    | Some x :: vs, Some y :: ws => e <- cmp x y EQ ;; if e : bool then go vs ws else Ok false
    | None :: vs, None :: ws => go vs ws
    | [], [] => Ok true
    | _, _ => Ok false
    end.
End Loops.

Definition is_empty {A} (l : list A) : bool := match l with [] => true | _ => false end.

(** [Type::cmp], Type.cpp:28-34, which calls the [cmp] of the type.  Both values are of that type. *)
Fixpoint cmp (v w : val) (op : cmpop) {struct v} : result bool :=
  match v, w with
  | VNone, VNone => Ok (cmp_result op 0)                                    (* NoneType.hpp:51-53 *)
  | VBool a, VBool b => Ok (cmp_result op (sign (Z.b2z a) (Z.b2z b)))       (* RegisterTypes.hpp:223-232 *)
  | VInt _ a, VInt _ b => Ok (cmp_result op (sign a b))
  | VFloat a, VFloat b => Ok (cmp_result op (float_sign a b))
  | VStr p _ _ a, VStr q _ _ b =>                                               (* StringType.cpp:1353-1361 *)
      Ok (match op with
          | NE => negb (string_eq p q a b) | EQ => string_eq p q a b
          | _ => cmp_result op (string_sign p q a b)
          end)
  | VBytes p _ a, VBytes q _ b => Ok (cmp_result op (bytes_sign p q a b))
  | VSeq p _ a, VSeq q _ b =>                                               (* TupleOrListOfType.cpp:95-157 *)
      if is_empty a && is_empty b then Ok (cmp_result op 0)
      else if is_empty a then Ok (cmp_result op (-1))
      else if is_empty b then Ok (cmp_result op 1)
      else if p =? q then Ok (cmp_result op 0)
      else
        let equal := if negb (Z.of_nat (length a) =? Z.of_nat (length b)) then Ok false else equal_loop cmp a b in
        match op with
        | NE => e <- equal ;; Ok (negb e)
        | EQ => equal
        | _ => c <- order_loop cmp a b ;;
               Ok (cmp_result op (if negb (c =? 0) then c else sign (Z.of_nat (length a)) (Z.of_nat (length b))))
        end
  | VTuple a, VTuple b =>                                                   (* CompositeType.cpp:74-99 *)
      match op with
      | NE => e <- equal_loop cmp a b ;; Ok (negb e)
      | EQ => equal_loop cmp a b
      | _ => c <- order_loop cmp a b ;; Ok (cmp_result op c)
      end
  | VOneOf i a, VOneOf j b =>                                               (* OneOfType.cpp:100-109 *)
      if (i <? j)%nat then Ok (cmp_result op (-1)) else if (j <? i)%nat then Ok (cmp_result op 1) else cmp a b op
  | VAlt p i a, VAlt q j b =>                                               (* AlternativeType.cpp:98-124 *)
      if (p =? 0) then Ok (cmp_result op (sign (Z.of_nat i) (Z.of_nat j)))
      else if p =? q then Ok (cmp_result op 0)
      else if (i <? j)%nat then Ok (cmp_result op (-1)) else if (j <? i)%nat then Ok (cmp_result op 1) else cmp a b op
  | VConst _, VConst _ => Ok (cmp_result op 0)                              (* ValueType.hpp:44-46 *)
  | VObject p, VObject q =>                                                 (* ClassType.cpp:96-121 *)
      match op with EQ => Ok (p =? q) | NE => Ok (negb (p =? q)) | _ => Err TypeError end
  | VHeld _ a, VHeld _ b =>                                                 (* HeldClassType.cpp:120-157 *)
      match op with EQ => field_loop cmp a b | NE => e <- field_loop cmp a b ;; Ok (negb e) | _ => Err TypeError end
  | _, _ => Err UndefinedBehaviour
  end.

(** ** Hashing *)

(** [addBytes], HashAccumulator.hpp:34-45: four at a time, then one at a time *)
Fixpoint add_bytes (state : Z) (l : list Z) : Z :=
  match l with
  | a :: b :: c :: d :: l => add_bytes (acc_add state (wrap_s 32 (a + 2 ^ 8 * b + 2 ^ 16 * c + 2 ^ 24 * d))) l
  | _ => acc_all state l
  end.
Fixpoint le_bytes (n : nat) (z : Z) : list Z := match n with O => [] | S n => z mod 256 :: le_bytes n (z / 256) end.
(** [i == int32_t(i)] on a double, HashAccumulator.hpp:73: the value if it is a 32-bit integer.  (The conversion
    is undefined for other doubles; on x86-64 it gives -2^31, which they differ from.) *)
Definition float_int32 (bits : Z) : option Z :=
  let e := bits / 2 ^ 52 mod 2 ^ 11 in
  let m := bits mod 2 ^ 52 in
  let s := if 2 ^ 63 <=? bits then -1 else 1 in
  if e =? 0 then (if m =? 0 then Some 0 else None)
  else if 1075 <? e then None
  else
    let d := 2 ^ (1075 - e) in
    let x := s * ((2 ^ 52 + m) / d) in
    if ((2 ^ 52 + m) mod d =? 0) && (- 2 ^ 31 <=? x) && (x <? 2 ^ 31) then Some x else None.
(** [addRegister] of 64-bit integers, HashAccumulator.hpp:55-58, 63-66 *)
Definition add_64 (state z : Z) : Z :=
  acc_add (acc_add state (wrap_s 32 (z / 2 ^ 32))) (wrap_s 32 (z mod 2 ^ 32)).
(** [addRegister] on an empty accumulator, HashAccumulator.hpp:51-79 *)
Definition hash_bool (b : bool) : Z := acc_add 0 (Z.b2z b).
Definition hash_int (bits z : Z) : Z := if bits =? 64 then add_64 0 z else acc_add 0 (wrap_s 32 z).
Definition hash_float (bits : Z) : Z :=
  match float_int32 bits with Some i => acc_add 0 i | None => add_bytes 0 (le_bytes 8 bits) end.
Definition cached (cache computed : Z) : Z := if cache =? -1 then finish_hash computed else cache.
(** The bytes of a string's points *)
Definition string_bytes (width : Z) (points : list Z) : list Z := concat (map (le_bytes (Z.to_nat width)) points).
(** [StringType::hash_static], StringType.hpp:286-305; catString = 10 *)
Definition hash_string (p width cache : Z) (points : list Z) : Z :=
  if p =? 0 then 0x12345 else cached cache (add_bytes 10 (string_bytes width points)).
(** [BytesType::hash], BytesType.cpp:19-38; catBytes = 11 *)
Definition hash_bytes (p cache : Z) (l : list Z) : Z := if p =? 0 then 0x1234 else cached cache (add_bytes 11 l).
(** [HeldClass::hash], HeldClassType.cpp:227-234; catHeldClass = 29 *)
Definition hash_address (p : Z) : Z := add_64 29 p.

(** [Type::hash], Type.cpp:36-42 *)
Fixpoint hash (v : val) : Z :=
  match v with
  | VNone => 0                                                              (* NoneType.hpp:55-57 *)
  | VBool b => hash_bool b                                                  (* RegisterTypes.hpp:234-240 *)
  | VInt bits z => hash_int bits z
  | VFloat bits => hash_float bits
  | VStr p width cache points => hash_string p width cache points
  | VBytes p cache l => hash_bytes p cache l
  | VSeq p cache vs => if p =? 0 then 0x123 else cached cache (acc_all 0 (map hash vs)) (* TupleOrListOfType.cpp:72-93 *)
  | VTuple vs => acc_all 0 (map hash vs)                                    (* CompositeType.cpp:122-130 *)
  | VOneOf _ v => hash v                                                    (* OneOfType.cpp:96-98 *)
  | VAlt _ i v => acc_add (acc_add 23 (Z.of_nat i)) (hash v)                (* AlternativeType.cpp:170-177 *)
  | VConst v => hash v                                                      (* ValueType.hpp:54-56 *)
  | VObject p => hash_address (p + 16)                                      (* ClassType.cpp:164-201: [l.data] *)
  | VHeld p _ => hash_address p
  end.
(** [hash()] of a typed_python object in the interpreter: [PyInstance::tp_hash], PyInstance.cpp:1370-1390 *)
Definition py_hash (v : val) : Z := finish_hash (hash v).

(** Compiled hashing, [convert_hash] in compiler/type_wrappers: arithmetic_wrapper.py:197-204, 515-516, 658-664,
    string_wrapper.py:413-414, bytes_wrapper.py:990-996, none_wrapper.py:50-51, one_of_wrapper.py:192-194,
    class_or_alternative_wrapper_mixin.py:182-194 and held_class_wrapper.py:545-549, [tuple_of_hash]
    (tuple_of_wrapper.py:98-110), tuple_wrapper.py:221-228.  [hash(item)] in compiled code never gives -1
    (hash_wrapper.py:20-31).  The wrapper of Value(x), for x a number or a string, has no [convert_hash]
    (value_wrapper.py:20-94), so it inherits the one of wrapper.py:358-366 that raises. *)
Fixpoint compiled_hash (v : val) : result Z :=
  let compiled_all (f : Z -> Z) := fix go vs :=
    match vs with [] => Ok [] | v :: vs => h <- compiled_hash v ;; hs <- go vs ;; Ok (f h :: hs) end in
  match v with
  | VNone => Ok 0
  | VBool b => Ok (Z.b2z b)
  | VInt bits z => Ok (if bits =? 64 then add_64 0 z else wrap_s 32 z)
  | VFloat bits => Ok (hash_float bits)
  | VStr p width cache points => Ok (hash_string p width cache points)
  | VBytes p cache l => Ok (hash_bytes p cache l)
  | VSeq p cache vs =>
      if p =? 0 then Err UndefinedBehaviour    (* [_hash_cache] of a null pointer, 449-453 *)
      else if negb (cache =? -1) then Ok cache
      else hs <- compiled_all finish_hash vs ;; Ok (finish_hash (acc_all 0 hs))
  | VTuple vs => hs <- compiled_all (fun h => h) vs ;; Ok (acc_all 0 hs)
  | VOneOf _ v => compiled_hash v
  | VAlt _ _ _ | VObject _ => Ok (hash v)
  | VConst _ => Err TypeError
  | VHeld _ _ => Err TypeError
  end.

(** ** Effects on the cache *)

(** What [hash] leaves in the layout, TupleOrListOfType.cpp:77-90 (and the same for strings and bytes, which
    cannot change).  The elements' layouts are not updated here: they have their own effect. *)
Definition remember (v : val) : val :=
  match v with
  | VSeq p cache vs => if p =? 0 then v else VSeq p (hash v) vs
  | VStr p width cache points => if p =? 0 then v else VStr p width (hash v) points
  | VBytes p cache l => if p =? 0 then v else VBytes p (hash v) l
  | _ => v
  end.
(** [ListOfType::append], TupleOrListOfType.cpp:307-335, and item assignment, PyTupleOrListOfInstance.cpp:1069-1131: neither
    touches [hash_cache].  The reserved space is left out. *)
Definition list_append (v x : val) : val := match v with VSeq p cache vs => VSeq p cache (vs ++ [x]) | _ => v end.

(** ** Where strings come from *)

(** [StringType::getsubstr], StringType.cpp:1031-1067: slices [s[start:stop]] in compiled code.  [p] is the address
    of the new layout, which has the width of the old one. *)
Definition str_slice (p : Z) (v : val) (start stop : Z) : val :=
  match v with
  | VStr q width cache l =>
      if q =? 0 then v
      else
        let n := Z.of_nat (length l) in
        let start := if start <? 0 then Z.max 0 (start + n) else start in
        let stop := if stop <? 0 then Z.max 0 (stop + n) else stop in
        let '(start, stop) := if (stop <? start) || (n <? start) then (0, 0) else (start, stop) in
        let stop := if n <? stop then n else stop in
        if stop <=? start then VStr 0 1 (-1) []
        else VStr p width (-1) (firstn (Z.to_nat (stop - start)) (skipn (Z.to_nat start) l))
  | _ => v
  end.

Fixpoint intersperse (sep : list Z) (ls : list (list Z)) : list Z :=
  match ls with [] => [] | [l] => l | l :: ls => l ++ sep ++ intersperse sep ls end.
Definition bytes_of (v : val) : list Z := match v with VBytes _ _ l => l | _ => [] end.
(** [BytesType::join], BytesType.cpp:311-365: only an empty list of items gives the null pointer. *)
Definition bytes_join (p : Z) (separator : val) (items : list val) : val :=
  match items with
  | [] => VBytes 0 (-1) []
  | _ => VBytes p (-1) (intersperse (bytes_of separator) (map bytes_of items))
  end.
