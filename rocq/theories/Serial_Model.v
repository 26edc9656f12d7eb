(** Model of value serialization: the [serialize] and [deserialize] methods of the types
    in typed_python/*Type.hpp, on top of the wire primitives of Wire_Model.v.

    Mutable containers (ListOf, Dict, Set) live in a heap and values refer to them by
    pointer; everything else is held inline (the C++ also allocates TupleOf, ConstDict,
    Alternative, str and bytes, but shares them only by value).  Python objects, classes,
    functions and types as values are not modelled. *)
From Verif Require Import Base Wire_Model.
Open Scope Z_scope.
Open Scope result_scope.

(** ** Types and values *)

(** Type expressions.  [TNamed n] is a resolved [Forward]: it stands for the [n]-th type
    definition, which may refer to itself.  [TTuple] is both Tuple and NamedTuple: field
    names never reach the stream (CompositeType.hpp:257-258 numbers fields by position).
    [TAlternative] lists the NamedTuple of each alternative.  [TValue] is a type with a
    single value ([Value], ValueType.hpp). *)
Inductive ty : Type :=
| TBool
| TInt (signed : bool) (size : nat)      (* 1, 2, 4 or 8 bytes *)
| TFloat (size : nat)                    (* 4 or 8 bytes *)
| TNone
| TValue
| TStr
| TBytes
| TTupleOf (t : ty)
| TListOf (t : ty)
| TTuple (ts : list ty)
| TOneOf (ts : list ty)
| TAlternative (ts : list ty)
| TConstDict (k v : ty)
| TDict (k v : ty)
| TSet (k : ty)
| TNamed (n : nat).

(** Values.  A float is its bit pattern, a string its code points. *)
Inductive val : Type :=
| VBool (b : bool)
| VInt (z : Z)
| VFloat (bits : Z)
| VNone
| VStr (points : list Z)
| VBytes (data : list Z)
| VSeq (vs : list val)                   (* TupleOf *)
| VTuple (vs : list val)                 (* Tuple, NamedTuple *)
| VOneOf (which : nat) (v : val)
| VAlt (which : nat) (v : val)
| VConstDict (kvs : list (val * val))
| VRef (p : nat).

(** Heap objects: the elements of a ListOf, the populated slots of a Dict or Set in slot
    order.  The hash table itself is modelled in Hash_Model.v. *)
Inductive obj : Type :=
| OList (vs : list val)
| ODict (kvs : list (val * val))
| OSet (vs : list val).

Definition heap := list obj.

(** What a (de)serialization runs with: the named types, the context's
    [serializePodListsInline] flag (SerializationContext.hpp:38), the contents of the
    unused bytes of a OneOf's storage, and how deeply default construction may nest. *)
Record context := {
  types : list ty;
  inline_pod : bool;
  garbage : val -> nat -> bytes;
  depth : nat
}.

Definition resolve (c : context) (t : ty) : ty :=
  match t with TNamed n => nth n (types c) (TNamed n) | _ => t end.

(** ** Memory layout of plain data *)

(** [isPOD] of each type: Type.hpp:659, RegisterTypes.hpp:206, NoneType.hpp:72,
    ValueType.hpp:84, CompositeType.hpp:75-83, OneOfType.hpp:68-76, AlternativeType.hpp:321.
    [bytecount]: the storage size; a OneOf has its index byte and room for the largest
    choice (OneOfType.cpp:111-118), tuple fields are packed.  Types held by pointer have
    size 8; only whether the size is zero matters for those.  A [TNamed] is assumed not to
    be plain data: a Forward that resolves to a plain type is that type. *)
Fixpoint bytecount (t : ty) : nat :=
  match t with
  | TBool => 1
  | TInt _ size => size
  | TFloat size => size
  | TNone => 0
  | TValue => 0
  | TTuple ts => (fix sum (ts : list ty) : nat :=
      match ts with [] => 0 | t :: ts => bytecount t + sum ts end) ts
  | TOneOf ts => S ((fix largest (ts : list ty) : nat :=
      match ts with [] => 0 | t :: ts => Nat.max (bytecount t) (largest ts) end) ts)
  | TAlternative ts =>
      (* AlternativeType.cpp:62-82: one byte if no alternative carries data *)
      if (fix empty (ts : list ty) : bool :=
            match ts with [] => true | t :: ts => Nat.eqb (bytecount t) 0 && empty ts end) ts
      then 1 else 8
  | _ => 8
  end%nat.

Fixpoint is_pod (t : ty) : bool :=
  match t with
  | TBool | TInt _ _ | TFloat _ | TNone | TValue => true
  | TTuple ts | TOneOf ts => (fix all (ts : list ty) : bool :=
      match ts with [] => true | t :: ts => is_pod t && all ts end) ts
  | TAlternative ts => (fix empty (ts : list ty) : bool :=
      match ts with [] => true | t :: ts => Nat.eqb (bytecount t) 0 && empty ts end) ts
  | _ => false
  end.

Definition b2z (b : bool) : Z := if b then 1 else 0.

(** The bytes of a plain value in memory. *)
Fixpoint raw (c : context) (t : ty) (v : val) {struct t} : bytes :=
  match t, v with
  | TBool, VBool b => [b2z b]
  | TInt _ size, VInt z => le_bytes size z
  | TFloat size, VFloat bits => le_bytes size bits
  | TTuple ts, VTuple vs =>
      (fix fields (ts : list ty) (vs : list val) {struct ts} : bytes :=
         match ts, vs with
         | t :: ts, v :: vs => raw c t v ++ fields ts vs
         | _, _ => []
         end) ts vs
  | TOneOf ts, VOneOf i w =>
      let content :=
        (fix pick (ts : list ty) (i : nat) {struct ts} : bytes :=
           match ts, i with
           | t :: _, O => raw c t w
           | _ :: ts, S i => pick ts i
           | [], _ => []
           end) ts i in
      Z.of_nat i :: content ++ garbage c v (bytecount t - 1 - length content)
  | TAlternative _, VAlt i _ => [Z.of_nat i]
  | _, _ => []
  end.

(** The only value of a type without data. *)
Fixpoint zero_size_value (t : ty) : val :=
  match t with
  | TTuple ts => VTuple ((fix go (ts : list ty) : list val :=
      match ts with [] => [] | t :: ts => zero_size_value t :: go ts end) ts)
  | _ => VNone
  end.

(** Reading memory as a value of the type; an index out of range has no meaning. *)
Fixpoint of_raw (t : ty) (bs : bytes) {struct t} : result val :=
  match t with
  | TBool => match bs with [b] => Ok (VBool (negb (b =? 0))) | _ => Err UndefinedBehaviour end
  | TInt signed size =>
      let w := 8 * Z.of_nat size in
      Ok (VInt (if signed then wrap_s w (of_le_bytes bs) else of_le_bytes bs))
  | TFloat size => Ok (VFloat (of_le_bytes bs))
  | TNone | TValue => Ok VNone
  | TTuple ts =>
      vs <- (fix fields (ts : list ty) (bs : bytes) {struct ts} : result (list val) :=
         match ts with
         | [] => Ok []
         | t :: ts =>
             v <- of_raw t (firstn (bytecount t) bs) ;;
             vs <- fields ts (skipn (bytecount t) bs) ;;
             Ok (v :: vs)
         end) ts bs ;;
      Ok (VTuple vs)
  | TOneOf ts =>
      match bs with
      | [] => Err UndefinedBehaviour
      | i :: bs =>
          v <- (fix pick (ts : list ty) (i : nat) {struct ts} : result val :=
             match ts, i with
             | t :: _, O => of_raw t (firstn (bytecount t) bs)
             | _ :: ts, S i => pick ts i
             | [], _ => Err UndefinedBehaviour
             end) ts (Z.to_nat i) ;;
          Ok (VOneOf (Z.to_nat i) v)
      end
  | TAlternative ts =>
      match bs with
      | [i] =>
          match nth_error ts (Z.to_nat i) with
          | Some t => Ok (VAlt (Z.to_nat i) (zero_size_value t))
          | None => Err UndefinedBehaviour
          end
      | _ => Err UndefinedBehaviour
      end
  | _ => Err UndefinedBehaviour
  end.

(** ** Blocks of integers, TupleOrListOfType.hpp:293-393 *)

Definition fits (size : nat) (z : Z) : bool :=
  let half := 2 ^ (8 * Z.of_nat size - 1) in (- half <=? z) && (z <? half).

(** The prefix a block takes: [while (topPt < count && topPt < 255 && fits)], 305-311;
    [limit] is how many more integers the block may take. *)
Fixpoint take_fitting (size limit : nat) (zs : list Z) : list Z :=
  match limit, zs with
  | S limit, z :: zs => if fits size z then z :: take_fitting size limit zs else []
  | _, _ => []
  end.

(** [trySerializeIntListBlock], 302-330: nothing if the first integer does not fit,
    otherwise the block's bytes and the remaining integers. *)
Definition try_block (kind : Z) (size : nat) (zs : list Z) : option (bytes * list Z) :=
  match zs with
  | [] => None
  | z :: rest =>
      if fits size z then
        let block := z :: take_fitting size 254 rest in
        let n := length block in
        Some (write_begin_bytes kind (Z.of_nat (n * size)) ++ concat (map (le_bytes size) block),
              skipn n zs)
      else None
  end.

(** [serializeIntList], 333-351; kinds at 293-298.  Each round takes at least one integer. *)
Fixpoint serialize_int_list (fuel : nat) (zs : list Z) : result bytes :=
  match zs with
  | [] => Ok []
  | _ :: _ =>
      match fuel with
      | O => Err OutOfFuel
      | S fuel =>
          match
            match try_block 2 1 zs with
            | Some r => Some r
            | None =>
            match try_block 3 2 zs with
            | Some r => Some r
            | None =>
            match try_block 4 4 zs with
            | Some r => Some r
            | None => try_block 5 8 zs
            end end end
          with
          | Some (block, zs) => rest <- serialize_int_list fuel zs ;; Ok (block ++ rest)
          | None => Err GenericError
          end
      end
  end.

(** Cut a byte string into integers of [size] bytes; trailing bytes are dropped. *)
Fixpoint chunks (n size : nat) (bs : bytes) : list Z :=
  match n with
  | O => []
  | S n => wrap_s (8 * Z.of_nat size) (of_le_bytes (firstn size bs)) :: chunks n size (skipn size bs)
  end.

(** [deserializeIntListBlock], 354-364. *)
Definition deserialize_block (size : nat) (bytecount : Z) (bs : bytes) : result (list Z * bytes) :=
  '(data, bs) <- read_bytes bytecount bs ;;
  Ok (chunks (Z.to_nat bytecount / size) size data, bs).

(** [deserializeIntList], 367-393.  The wire type of a block is not looked at; a block with
    more integers than are still expected is written past the end of the allocation. *)
Fixpoint deserialize_int_list (fuel : nat) (count : Z) (bs : bytes) : result (list Z * bytes) :=
  if count =? 0 then Ok ([], bs) else
  match fuel with
  | O => Err OutOfFuel
  | S fuel =>
      '(kind, _, bs) <- read_tag bs ;;
      '(bytecount, bs) <- read_uvarint bs ;;
      '(zs, bs) <-
        (if kind =? 2 then deserialize_block 1 bytecount bs
         else if kind =? 3 then deserialize_block 2 bytecount bs
         else if kind =? 4 then deserialize_block 4 bytecount bs
         else if kind =? 5 then deserialize_block 8 bytecount bs
         else Err GenericError) ;;
      if count <? Z.of_nat (length zs) then Err UndefinedBehaviour else
      '(rest, bs) <- deserialize_int_list fuel (count - Z.of_nat (length zs)) bs ;;
      Ok (zs ++ rest, bs)
  end.

(** ** Strings, Unicode.hpp and StringType.cpp *)

(** [bytesForUtf8Codepoint], Unicode.hpp:19-31. *)
Definition utf8_size (p : Z) : Z :=
  if p <? 128 then 1 else if p <? 2048 then 2 else if p <? 65536 then 3 else 4.

(** [encodeUtf8], Unicode.hpp:33-52, for one code point; each byte is stored in 8 bits. *)
Definition utf8_encode1 (p : Z) : bytes :=
  if p <? 128 then [p]
  else if p <? 2048 then
    [ Z.shiftr (Z.land p 1984) 6 + 192; Z.land p 63 + 128 ]
  else if p <? 65536 then
    [ Z.shiftr (Z.land p 61440) 12 + 224; Z.shiftr (Z.land p 4032) 6 + 128; Z.land p 63 + 128 ]
  else
    [ Z.shiftr (Z.land p 1835008) 18 + 240; Z.shiftr (Z.land p 258048) 12 + 128;
      Z.shiftr (Z.land p 4032) 6 + 128; Z.land p 63 + 128 ].
Definition utf8_encode (points : list Z) : bytes := concat (map utf8_encode1 points).

(** [countUtf8BytesRequiredFor], Unicode.hpp:54-63. *)
Definition utf8_count (points : list Z) : Z := fold_right (fun p n => utf8_size p + n) 0 points.

(** [countUtf8Codepoints], StringType.cpp:1222-1243: steps over the lead bytes.  [skip]
    counts the continuation bytes still to step over; stepping past the end ends the loop. *)
Fixpoint utf8_points (skip : nat) (bs : bytes) : result Z :=
  match bs with
  | [] => Ok 0
  | b :: bs =>
      match skip with
      | S skip => utf8_points skip bs
      | O =>
          n <- (if Z.shiftr b 7 =? 0 then utf8_points 0 bs
                else if Z.shiftr b 5 =? 6 then utf8_points 1 bs
                else if Z.shiftr b 4 =? 14 then utf8_points 2 bs
                else if Z.shiftr b 3 =? 30 then utf8_points 3 bs
                else Err GenericError) ;;
          Ok (1 + n)
      end
  end.

(** [bytesPerCodepointRequiredForUtf8], StringType.cpp:1196-1220, for valid lead bytes: the
    widest representation any lead byte asks for. *)
Fixpoint utf8_width (skip : nat) (bs : bytes) : Z :=
  match bs with
  | [] => 1
  | b :: bs =>
      match skip with
      | S skip => utf8_width skip bs
      | O =>
          if Z.shiftr b 7 =? 0 then utf8_width 0 bs
          else if Z.shiftr b 5 =? 6 then Z.max 2 (utf8_width 1 bs)
          else if Z.shiftr b 4 =? 14 then Z.max 2 (utf8_width 2 bs)
          else Z.max 4 (utf8_width 3 bs)
      end
  end.

(** [decodeUtf8ToTyped], StringType.cpp:1245-1282, into [width]-byte code units.  A
    truncated sequence at the end of the data reads past it. *)
Fixpoint utf8_decode (fuel : nat) (width : Z) (bs : bytes) : result (list Z) :=
  match bs with
  | [] => Ok []
  | b :: bs1 =>
      match fuel with
      | O => Err OutOfFuel
      | S fuel =>
          if Z.shiftr b 7 =? 0 then
            ps <- utf8_decode fuel width bs1 ;; Ok (wrap_u (8 * width) b :: ps)
          else if Z.shiftr b 5 =? 6 then
            match bs1 with
            | b1 :: bs2 =>
                ps <- utf8_decode fuel width bs2 ;;
                Ok (wrap_u (8 * width) (Z.shiftl (Z.land b 31) 6 + Z.land b1 63) :: ps)
            | _ => Err UndefinedBehaviour
            end
          else if Z.shiftr b 4 =? 14 then
            match bs1 with
            | b1 :: b2 :: bs2 =>
                ps <- utf8_decode fuel width bs2 ;;
                Ok (wrap_u (8 * width)
                      (Z.shiftl (Z.land b 15) 12 + Z.shiftl (Z.land b1 63) 6 + Z.land b2 63) :: ps)
            | _ => Err UndefinedBehaviour
            end
          else
            match bs1 with
            | b1 :: b2 :: b3 :: bs2 =>
                ps <- utf8_decode fuel width bs2 ;;
                Ok (wrap_u (8 * width)
                      (Z.shiftl (Z.land b 7) 18 + Z.shiftl (Z.land b1 63) 12
                       + Z.shiftl (Z.land b2 63) 6 + Z.land b3 63) :: ps)
            | _ => Err UndefinedBehaviour
            end
      end
  end.

(** [StringType::deserialize] and [createFromUtf8], StringType.hpp:271-280,
    StringType.cpp:1314-1336; the copy of an all-ASCII string is the decoding into 1-byte
    units. *)
Definition decode_string (data : bytes) : result (list Z) :=
  _ <- utf8_points 0 data ;;
  utf8_decode (length data) (utf8_width 0 data) data.

(** ** Serializing *)

(** The memo of the writer: [cachePointer] numbers the pointers in the order they are first
    seen, SerializationBuffer.hpp:347-373. *)
Definition memo := list nat.

Fixpoint memo_find (p : nat) (m : memo) : option nat :=
  match m with
  | [] => None
  | q :: m => if Nat.eqb p q then Some O else option_map S (memo_find p m)
  end.

(** Serialize a sequence of values, each with field number 0 ([serializeMulti],
    Type.hpp:439-445, and the loops over keys). *)
Section Loops.
  Context {M A : Type}.
  Variable one : A -> M -> result (bytes * M).
  Fixpoint ser_all (vs : list A) (m : M) : result (bytes * M) :=
    match vs with
    | [] => Ok ([], m)
    | v :: vs =>
        '(b, m) <- one v m ;;
        '(bs, m) <- ser_all vs m ;;
        Ok (b ++ bs, m)
    end.
End Loops.

Section SerFields.
  Context {M : Type}.
  Variable one : ty -> val -> Z -> M -> result (bytes * M).
  (** The fields of a tuple, numbered by position (CompositeType.hpp:165-167). *)
  Fixpoint ser_fields (k : Z) (ts : list ty) (vs : list val) (m : M) : result (bytes * M) :=
    match ts, vs with
    | [], [] => Ok ([], m)
    | t :: ts, v :: vs =>
        '(b, m) <- one t v k m ;;
        '(bs, m) <- ser_fields (k + 1) ts vs m ;;
        Ok (b ++ bs, m)
    | _, _ => Err TypeError
    end.
End SerFields.

Definition as_int (v : val) : result Z := match v with VInt z => Ok z | _ => Err TypeError end.
Fixpoint as_ints (vs : list val) : result (list Z) :=
  match vs with
  | [] => Ok []
  | v :: vs => z <- as_int v ;; zs <- as_ints vs ;; Ok (z :: zs)
  end.

(** The body of a TupleOf or ListOf after its memo, TupleOrListOfType.hpp:422-457. *)
Definition ser_elements {M} (c : context) (one : val -> M -> result (bytes * M))
    (t : ty) (vs : list val) (m : M) : result (bytes * M) :=
  let ct := Z.of_nat (length vs) in
  '(body, m) <-
    (if (negb (ct =? 0) && is_pod t && inline_pod c)%bool then
       if Nat.eqb (bytecount t) 0 then Ok (write_uvarint_object 3 ct, m)
       else
         match t with
         | TInt true 8 =>
             zs <- as_ints vs ;;
             blocks <- serialize_int_list (length zs) zs ;;
             Ok (write_uvarint_object 1 ct ++ blocks, m)
         | _ =>
             Ok (write_begin_bytes 2 (Z.of_nat (bytecount t) * ct) ++ concat (map (raw c t) vs), m)
         end
     else
       '(bs, m) <- ser_all one vs m ;;
       Ok (write_uvarint_object 0 ct ++ bs, m)) ;;
  Ok (body ++ write_end_compound, m).

(** [Type::serialize].  A value that does not belong to the type is a [TypeError] of the
    model (it cannot be constructed in the code).  [h] is the heap, [m] the memo. *)
Fixpoint ser (c : context) (h : heap) (fuel : nat) (t : ty) (v : val) (field : Z) (m : memo)
    : result (bytes * memo) :=
  match fuel with
  | O => Err OutOfFuel
  | S fuel =>
  match resolve c t, v with
  (* RegisterTypes.hpp:262, SerializationBuffer.hpp:210-263 *)
  | TBool, VBool b => Ok (write_tag field VARINT ++ write_uvarint (b2z b), m)
  | TInt signed _, VInt z =>
      Ok (write_tag field VARINT ++ (if signed then write_svarint z else write_uvarint z), m)
  | TFloat 4, VFloat bits => Ok (write_tag field BITS_32 ++ le_bytes 4 bits, m)
  | TFloat 8, VFloat bits => Ok (write_tag field BITS_64 ++ le_bytes 8 bits, m)
  (* NoneType.hpp:93, ValueType.hpp:75 *)
  | TNone, VNone | TValue, VNone => Ok (write_empty field, m)
  (* StringType.hpp:209-237, BytesType.hpp:48-51 *)
  | TStr, VStr points => Ok (write_begin_bytes field (utf8_count points) ++ utf8_encode points, m)
  | TBytes, VBytes data => Ok (write_begin_bytes field (Z.of_nat (length data)) ++ data, m)
  (* TupleOrListOfType.hpp:396-458 *)
  | TTupleOf e, VSeq vs =>
      match vs with
      | [] => Ok (write_empty field, m)
      | _ =>
          '(body, m) <- ser_elements c (fun v m => ser c h fuel e v 0 m) e vs m ;;
          Ok (write_begin_compound field ++ body, m)
      end
  | TListOf e, VRef p =>
      match memo_find p m, nth_error h p with
      | Some id, _ => Ok (write_begin_single field ++ write_uvarint_object 0 (Z.of_nat id), m)
      | None, Some (OList vs) =>
          let id := Z.of_nat (length m) in
          '(body, m) <- ser_elements c (fun v m => ser c h fuel e v 0 m) e vs (m ++ [p]) ;;
          Ok (write_begin_compound field ++ write_uvarint_object 0 id ++ body, m)
      | None, _ => Err TypeError
      end
  (* CompositeType.hpp:154-172 *)
  | TTuple ts, VTuple vs =>
      '(body, m) <- ser_fields (ser c h fuel) 0 ts vs m ;;
      match ts with
      | [] => Ok (write_empty field, m)
      | [_] => Ok (write_begin_single field ++ body, m)
      | _ => Ok (write_begin_compound field ++ body ++ write_end_compound, m)
      end
  (* OneOfType.hpp:121-124, AlternativeType.hpp:188-191 *)
  | TOneOf ts, VOneOf i w | TAlternative ts, VAlt i w =>
      match nth_error ts i with
      | Some t =>
          '(body, m) <- ser c h fuel t w (Z.of_nat i) m ;;
          Ok (write_begin_single field ++ body, m)
      | None => Err TypeError
      end
  (* ConstDictType.hpp:120-131 *)
  | TConstDict k v, VConstDict kvs =>
      '(body, m) <-
        ser_all (fun kv m =>
                   '(b1, m) <- ser c h fuel k (fst kv) 0 m ;;
                   '(b2, m) <- ser c h fuel v (snd kv) 0 m ;;
                   Ok (b1 ++ b2, m)) kvs m ;;
      Ok (write_begin_compound field ++ write_uvarint_object 0 (Z.of_nat (length kvs)) ++ body
          ++ write_end_compound, m)
  (* DictType.hpp:185-216 *)
  | TDict k v, VRef p =>
      match memo_find p m, nth_error h p with
      | Some id, _ => Ok (write_begin_single field ++ write_uvarint_object 0 (Z.of_nat id), m)
      | None, Some (ODict kvs) =>
          let id := Z.of_nat (length m) in
          '(body, m) <-
            ser_all (fun kv m =>
                       '(b1, m) <- ser c h fuel k (fst kv) 0 m ;;
                       '(b2, m) <- ser c h fuel v (snd kv) 0 m ;;
                       Ok (b1 ++ b2, m)) kvs (m ++ [p]) ;;
          Ok (write_begin_compound field ++ write_uvarint_object 0 id
              ++ write_uvarint_object 0 (Z.of_nat (length kvs)) ++ body ++ write_end_compound, m)
      | None, _ => Err TypeError
      end
  (* SetType.hpp:149-179 *)
  | TSet k, VRef p =>
      match memo_find p m, nth_error h p with
      | Some id, _ => Ok (write_begin_single field ++ write_uvarint_object 0 (Z.of_nat id), m)
      | None, Some (OSet vs) =>
          let id := Z.of_nat (length m) in
          '(body, m) <- ser_all (fun v m => ser c h fuel k v 0 m) vs (m ++ [p]) ;;
          Ok (write_begin_compound field ++ write_uvarint_object 0 id
              ++ write_uvarint_object 0 (Z.of_nat (length vs)) ++ body ++ write_end_compound, m)
      | None, _ => Err TypeError
      end
  | _, _ => Err TypeError
  end
  end.

(** ** Deserializing *)

(** The reader's state: its memo ([m_cachedPointers], DeserializationBuffer.hpp:524) and the
    objects it has created. *)
Record rstate := { cached : list (option nat); rheap : heap }.

(** [lookupCachedPointer], DeserializationBuffer.hpp:339-349; the argument is converted to
    a signed 32-bit integer. *)
Definition lookup_cached (which : Z) (s : rstate) : result (option nat) :=
  let which := wrap_s 32 which in
  if which <? 0 then Err GenericError
  else Ok (match nth_error (cached s) (Z.to_nat which) with Some (Some p) => Some p | _ => None end).

Fixpoint set_nth {A} (n : nat) (x : A) (l : list A) : list A :=
  match l, n with
  | _ :: l, O => x :: l
  | y :: l, S n => y :: set_nth n x l
  | [], _ => []
  end.

(** [addCachedPointer], DeserializationBuffer.hpp:361-384. *)
Definition add_cached (which : Z) (p : nat) (s : rstate) : result rstate :=
  let which := wrap_s 32 which in
  let size := Z.of_nat (length (cached s)) in
  if which <? 0 then Err GenericError
  else if size + 1000000 <? which then Err GenericError
  else
    let i := Z.to_nat which in
    let grown := cached s ++ repeat None (S i - length (cached s)) in
    match nth_error grown i with
    | Some None => Ok {| cached := set_nth i (Some p) grown; rheap := rheap s |}
    | _ => Err GenericError
    end.

(** Allocate an object. *)
Definition alloc (o : obj) (s : rstate) : nat * rstate :=
  (length (rheap s), {| cached := cached s; rheap := rheap s ++ [o] |}).

Definition store (p : nat) (o : obj) (s : rstate) : rstate :=
  {| cached := cached s; rheap := set_nth p o (rheap s) |}.

(** Default construction: [is_default_constructible] and [constructor] of each type
    (RegisterTypes.hpp, OneOfType.cpp:120-133, CompositeType.cpp:132-142,
    AlternativeType.cpp:55-93, 273-281).  A fresh ListOf, Dict or Set is allocated. *)
Fixpoint default_constructible (c : context) (n : nat) (t : ty) : bool :=
  match n with
  | O => false
  | S n =>
      match resolve c t with
      | TTuple ts => forallb (default_constructible c n) ts
      | TOneOf ts | TAlternative ts => existsb (default_constructible c n) ts
      | TNamed _ => false
      | _ => true
      end
  end.

Section DefaultFields.
  Variable one : ty -> rstate -> result (val * rstate).
  Fixpoint default_fields (ts : list ty) (s : rstate) : result (list val * rstate) :=
    match ts with
    | [] => Ok ([], s)
    | t :: ts =>
        '(v, s) <- one t s ;;
        '(vs, s) <- default_fields ts s ;;
        Ok (v :: vs, s)
    end.
End DefaultFields.

Fixpoint first_default (c : context) (n : nat) (i : nat) (ts : list ty) : option (nat * ty) :=
  match ts with
  | [] => None
  | t :: ts => if default_constructible c n t then Some (i, t) else first_default c n (S i) ts
  end.

Fixpoint default_value (c : context) (n : nat) (t : ty) (s : rstate) : result (val * rstate) :=
  match n with
  | O => Err GenericError
  | S n =>
      match resolve c t with
      | TBool => Ok (VBool false, s)
      | TInt _ _ => Ok (VInt 0, s)
      | TFloat _ => Ok (VFloat 0, s)
      | TNone | TValue => Ok (VNone, s)
      | TStr => Ok (VStr [], s)
      | TBytes => Ok (VBytes [], s)
      | TTupleOf _ => Ok (VSeq [], s)
      | TConstDict _ _ => Ok (VConstDict [], s)
      | TListOf _ => let '(p, s) := alloc (OList []) s in Ok (VRef p, s)
      | TDict _ _ => let '(p, s) := alloc (ODict []) s in Ok (VRef p, s)
      | TSet _ => let '(p, s) := alloc (OSet []) s in Ok (VRef p, s)
      | TTuple ts =>
          if forallb (default_constructible c n) ts
          then '(vs, s) <- default_fields (default_value c n) ts s ;; Ok (VTuple vs, s)
          else Err GenericError
      | TOneOf ts =>
          match first_default c n O ts with
          | Some (i, t) => '(v, s) <- default_value c n t s ;; Ok (VOneOf i v, s)
          | None => Err GenericError
          end
      | TAlternative ts =>
          match first_default c n O ts with
          | Some (i, t) => '(v, s) <- default_value c n t s ;; Ok (VAlt i v, s)
          | None => Err GenericError
          end
      | TNamed _ => Err GenericError
      end
  end.

(** [consumeCompoundMessage], DeserializationBuffer.hpp:230-255, with the callback's state
    threaded through as [a]. *)
Section Consume.
  Context {A : Type}.
  Variable callback : Z -> Z -> bytes -> A -> result (bytes * A).
  Fixpoint consume_fields (fuel : nat) (bs : bytes) (a : A) : result (bytes * A) :=
    match fuel with
    | O => Err OutOfFuel
    | S fuel =>
        '(field, sub, bs) <- read_tag bs ;;
        if sub =? END_COMPOUND then Ok (bs, a)
        else
          '(bs, a) <- callback field sub bs a ;;
          consume_fields fuel bs a
    end.
  Definition consume (fuel : nat) (wireType : Z) (bs : bytes) (a : A) : result (bytes * A) :=
    if wireType =? EMPTY then Ok (bs, a)
    else if wireType =? SINGLE then
      '(field, sub, bs) <- read_tag bs ;; callback field sub bs a
    else if wireType =? BEGIN_COMPOUND then consume_fields fuel bs a
    else Err GenericError.
End Consume.

(** [consumeCompoundMessageWithImpliedFieldNumbers], DeserializationBuffer.hpp:260-273: the
    state also counts the messages. *)
Definition consume_numbered {A} (callback : Z -> Z -> bytes -> A -> result (bytes * A))
    (fuel : nat) (wireType : Z) (bs : bytes) (a : A) : result (bytes * (Z * A)) :=
  consume (fun field sub bs (na : Z * A) =>
             let '(n, a) := na in
             if field =? 0 then
               '(bs, a) <- callback n sub bs a ;; Ok (bs, (n + 1, a))
             else Err GenericError)
          fuel wireType bs (0, a).

(** [finishCompoundMessage], DeserializationBuffer.hpp:217-228, with [assertEmpty]: the next
    message must be the end marker. *)
Definition finish_compound (wireType : Z) (bs : bytes) : result bytes :=
  if ((wireType =? EMPTY) || (wireType =? SINGLE))%bool then Ok bs
  else
    '(sub, bs) <- readMessageAndDiscard bs ;;
    if sub =? END_COMPOUND then Ok bs else Err GenericError.

(** Read [ct] elements, each with field number 0, TupleOrListOfType.hpp:506-521. *)
Section Elements.
  Context {S : Type}.
  Variable one : Z -> bytes -> S -> result (val * bytes * S).
  Fixpoint read_elements (fuel : nat) (ct : Z) (bs : bytes) (s : S)
      : result (list val * bytes * S) :=
    if ct =? 0 then Ok ([], bs, s) else
    match fuel with
    | O => Err OutOfFuel
    | Datatypes.S fuel =>
        '(field, sub, bs) <- read_tag bs ;;
        if negb (field =? 0) then Err GenericError
        else if sub =? END_COMPOUND then Err GenericError
        else
          '(v, bs, s) <- one sub bs s ;;
          '(vs, bs, s) <- read_elements fuel (ct - 1) bs s ;;
          Ok (v :: vs, bs, s)
    end.
End Elements.

(** [n] plain values from memory. *)
Fixpoint of_raws (t : ty) (n : nat) (bs : bytes) : result (list val) :=
  match n with
  | O => Ok []
  | S n =>
      v <- of_raw t (firstn (bytecount t) bs) ;;
      vs <- of_raws t n (skipn (bytecount t) bs) ;;
      Ok (v :: vs)
  end.

(** The rest of [TupleOrListOfType::deserialize] after the memo, lines 489-587.  [enter]
    makes and registers the list object before the elements are read. *)
Definition read_list_body (fuel : nat) (wireType : Z) (t : ty)
    (one : Z -> bytes -> rstate -> result (val * bytes * rstate))
    (enter : rstate -> result rstate) (bs : bytes) (s : rstate)
    : result (list val * bytes * rstate) :=
  '(fieldnum, _, bs) <- read_tag bs ;;
  '(ct, bs) <- read_uvarint bs ;;
  '(vs, bs, s) <-
    (if ct =? 0 then
       if negb (fieldnum =? 0) then Err GenericError
       else s <- enter s ;; Ok ([], bs, s)
     else if fieldnum =? 0 then
       s <- enter s ;; read_elements one fuel ct bs s
     else if fieldnum =? 1 then
       match t with
       | TInt true 8 =>
           s <- enter s ;;
           '(zs, bs) <- deserialize_int_list fuel ct bs ;;
           Ok (map VInt zs, bs, s)
       | _ => Err GenericError
       end
     else if fieldnum =? 2 then
       if negb (is_pod t) then Err GenericError
       else if Nat.eqb (bytecount t) 0 then Err UndefinedBehaviour   (* division by zero *)
       else
         let eltCount := ct / Z.of_nat (bytecount t) in
         if negb (eltCount * Z.of_nat (bytecount t) =? ct) then Err GenericError
         else
           s <- enter s ;;
           '(data, bs) <- read_bytes ct bs ;;
           vs <- of_raws t (Z.to_nat eltCount) data ;;
           Ok (vs, bs, s)
     else if fieldnum =? 3 then
       if (negb (is_pod t) || negb (Nat.eqb (bytecount t) 0))%bool then Err GenericError
       else s <- enter s ;; Ok (repeat (zero_size_value t) (Z.to_nat ct), bs, s)
     else Err GenericError) ;;
  bs <- finish_compound wireType bs ;;
  Ok (vs, bs, s).

(** Fill the fields a message did not mention, CompositeType.hpp:138-142. *)
Section Missing.
  Variable make : ty -> rstate -> result (val * rstate).
  Fixpoint fill_missing (ts : list ty) (vs : list (option val)) (s : rstate)
      : result (list val * rstate) :=
    match ts, vs with
    | t :: ts, o :: vs =>
        '(v, s) <- match o with Some v => Ok (v, s) | None => make t s end ;;
        '(rest, s) <- fill_missing ts vs s ;;
        Ok (v :: rest, s)
    | _, _ => Ok ([], s)
    end.
End Missing.

(** Pair up alternating keys and values (as read: key first). *)
Fixpoint pairs (vs : list val) : list (val * val) :=
  match vs with
  | k :: v :: vs => (k, v) :: pairs vs
  | _ => []
  end.

(** [Type::deserialize]: the tag has been read, [wireType] is its wire type. *)
Fixpoint des (c : context) (fuel : nat) (t : ty) (wireType : Z) (bs : bytes) (s : rstate)
    : result (val * bytes * rstate) :=
  match fuel with
  | O => Err OutOfFuel
  | S fuel =>
  match resolve c t with
  (* RegisterTypes.hpp:257, DeserializationBuffer.hpp:413-488 *)
  | TBool =>
      if wireType =? VARINT then
        '(x, bs) <- read_uvarint bs ;; Ok (VBool (negb (x =? 0)), bs, s)
      else Err GenericError
  | TInt signed size =>
      if wireType =? VARINT then
        '(x, bs) <- (if signed then read_svarint bs else read_uvarint bs) ;;
        let w := 8 * Z.of_nat size in
        Ok (VInt (if signed then wrap_s w x else wrap_u w x), bs, s)
      else Err GenericError
  | TFloat size =>
      if wireType =? (if Nat.eqb size 4 then BITS_32 else BITS_64) then
        '(data, bs) <- read_bytes (Z.of_nat size) bs ;; Ok (VFloat (of_le_bytes data), bs, s)
      else Err GenericError
  (* NoneType.hpp:88, ValueType.hpp:80 *)
  | TNone | TValue => if wireType =? EMPTY then Ok (VNone, bs, s) else Err GenericError
  (* StringType.hpp:271-280 *)
  | TStr =>
      if wireType =? BYTES then
        '(ct, bs) <- read_uvarint bs ;;
        '(data, bs) <- read_bytes (wrap_u 64 (wrap_s 32 ct)) bs ;;
        points <- decode_string data ;;
        Ok (VStr points, bs, s)
      else Err GenericError
  (* BytesType.hpp:116-132 *)
  | TBytes =>
      if wireType =? BYTES then
        '(ct, bs) <- read_uvarint bs ;;
        '(data, bs) <- read_bytes ct bs ;;
        Ok (VBytes data, bs, s)
      else Err GenericError
  (* TupleOrListOfType.hpp:461-588 *)
  | TTupleOf e =>
      if wireType =? EMPTY then Ok (VSeq [], bs, s)
      else if negb ((wireType =? BEGIN_COMPOUND) || (wireType =? SINGLE)) then Err GenericError
      else
        '(vs, bs, s) <- read_list_body fuel wireType e (des c fuel e) (fun s => Ok s) bs s ;;
        Ok (VSeq vs, bs, s)
  | TListOf e =>
      if negb ((wireType =? BEGIN_COMPOUND) || (wireType =? SINGLE)) then Err GenericError
      else
        '(id, bs) <- read_uvarint_object bs ;;
        known <- lookup_cached id s ;;
        match known with
        | Some p => bs <- finish_compound wireType bs ;; Ok (VRef p, bs, s)
        | None =>
            let p := length (rheap s) in
            let enter s := let '(p, s) := alloc (OList []) s in add_cached id p s in
            '(vs, bs, s) <- read_list_body fuel wireType e (des c fuel e) enter bs s ;;
            Ok (VRef p, bs, store p (OList vs) s)
        end
  (* CompositeType.hpp:120-143 *)
  | TTuple ts =>
      '(bs, (vs, s)) <-
        consume (fun field sub bs (a : list (option val) * rstate) =>
                   let '(vs, s) := a in
                   match (if field <? Z.of_nat (length ts) then nth_error ts (Z.to_nat field) else None) with
                   | Some t =>
                       '(v, bs, s) <- des c fuel t sub bs s ;;
                       Ok (bs, (set_nth (Z.to_nat field) (Some v) vs, s))
                   | None => bs <- finishReadingMessageAndDiscard sub bs ;; Ok (bs, (vs, s))
                   end)
                fuel wireType bs (repeat None (length ts), s) ;;
      '(vs, s) <- fill_missing (default_value c (depth c)) ts vs s ;;
      Ok (VTuple vs, bs, s)
  (* OneOfType.hpp:100-118: the content of an unknown field is left unread *)
  | TOneOf ts =>
      '(bs, (o, s)) <-
        consume (fun field sub bs (a : option (nat * val) * rstate) =>
                   let '(o, s) := a in
                   match o with
                   | Some _ => Err GenericError
                   | None =>
                       match (if field <? Z.of_nat (length ts) then nth_error ts (Z.to_nat field) else None) with
                       | Some t =>
                           '(v, bs, s) <- des c fuel t sub bs s ;;
                           Ok (bs, (Some (Z.to_nat field, v), s))
                       | None => Ok (bs, (None, s))
                       end
                   end)
                fuel wireType bs (None, s) ;;
      match o with
      | Some (i, v) => Ok (VOneOf i v, bs, s)
      | None => '(v, s) <- default_value c (depth c) (TOneOf ts) s ;; Ok (v, bs, s)
      end
  (* AlternativeType.hpp:256-286 *)
  | TAlternative ts =>
      if wireType =? SINGLE then
        '(which, sub, bs) <- read_tag bs ;;
        match (if which <? Z.of_nat (length ts) then nth_error ts (Z.to_nat which) else None) with
        | Some t =>
            '(v, bs, s) <- des c fuel t sub bs s ;;
            Ok (VAlt (Z.to_nat which) v, bs, s)
        | None => Err GenericError
        end
      else Err GenericError
  (* ConstDictType.hpp:247-274; writing a pair beyond the announced count is out of bounds *)
  | TConstDict k v =>
      '(bs, (valuesRead, (ct, vs, s))) <-
        consume_numbered
          (fun n sub bs (a : Z * list val * rstate) =>
             let '(ct, vs, s) := a in
             if n =? 0 then
               if sub =? VARINT then
                 '(x, bs) <- read_uvarint bs ;; Ok (bs, (wrap_s 32 x, vs, s))
               else Err GenericError
             else if ct <=? (n - 1) / 2 then Err UndefinedBehaviour
             else
               '(x, bs, s) <- des c fuel (if Z.odd n then k else v) sub bs s ;;
               Ok (bs, (ct, vs ++ [x], s)))
          fuel wireType bs (-1, [], s) ;;
      if ((ct =? -1) || negb ((valuesRead - 1) / 2 =? ct))%bool then Err GenericError
      else Ok (VConstDict (pairs vs), bs, s)
  (* DictType.hpp:219-272 *)
  | TDict k v =>
      '(bs, (valuesRead, (id, found, count, vs, s))) <-
        consume_numbered
          (fun n sub bs (a : Z * option nat * Z * list val * rstate) =>
             let '(id, found, count, vs, s) := a in
             if n =? 0 then
               if sub =? VARINT then
                 '(id, bs) <- read_uvarint bs ;;
                 known <- lookup_cached id s ;;
                 Ok (bs, (id, known, count, vs, s))
               else Err GenericError
             else if n =? 1 then
               if sub =? VARINT then
                 '(count, bs) <- read_uvarint bs ;;
                 let '(p, s) := alloc (ODict []) s in
                 s <- add_cached id p s ;;
                 Ok (bs, (id, found, count, vs, s))
               else Err GenericError
             else if wrap_u 32 count <=? (n - 2) / 2 then Err UndefinedBehaviour
             else
               '(x, bs, s) <- des c fuel (if Z.even n then k else v) sub bs s ;;
               Ok (bs, (id, found, count, vs ++ [x], s)))
          fuel wireType bs (0, None, 0, [], s) ;;
      match found with
      | Some p => Ok (VRef p, bs, s)
      | None =>
          if negb (wrap_u 64 (valuesRead - 2) / 2 =? count) then Err GenericError
          else
            known <- lookup_cached id s ;;
            match known with
            | Some p => Ok (VRef p, bs, store p (ODict (pairs vs)) s)
            | None => Err UndefinedBehaviour
            end
      end
  (* SetType.hpp:186-234 *)
  | TSet k =>
      '(bs, (valuesRead, (id, found, count, vs, s))) <-
        consume_numbered
          (fun n sub bs (a : Z * option nat * Z * list val * rstate) =>
             let '(id, found, count, vs, s) := a in
             if n =? 0 then
               if sub =? VARINT then
                 '(id, bs) <- read_uvarint bs ;;
                 known <- lookup_cached id s ;;
                 Ok (bs, (id, known, count, vs, s))
               else Err GenericError
             else if n =? 1 then
               if sub =? VARINT then
                 '(count, bs) <- read_uvarint bs ;;
                 let '(p, s) := alloc (OSet []) s in
                 s <- add_cached id p s ;;
                 Ok (bs, (id, found, count, vs, s))
               else Err GenericError
             else if wrap_u 32 count <=? n - 2 then Err UndefinedBehaviour
             else
               '(x, bs, s) <- des c fuel k sub bs s ;;
               Ok (bs, (id, found, count, vs ++ [x], s)))
          fuel wireType bs (0, None, 0, [], s) ;;
      match found with
      | Some p => Ok (VRef p, bs, s)
      | None =>
          if negb (wrap_u 64 (valuesRead - 2) =? count) then Err GenericError
          else
            known <- lookup_cached id s ;;
            match known with
            | Some p => Ok (VRef p, bs, store p (OSet vs) s)
            | None => Err UndefinedBehaviour
            end
      end
  | TNamed _ => Err TypeError
  end
  end.

(** The Python functions [serialize(T, x)] and [deserialize(T, bytes)],
    _types.cpp:1833-1902, 2162-2200.  [deserialize] ignores what follows the message; the
    model returns it. *)
Definition serialize (c : context) (fuel : nat) (h : heap) (t : ty) (v : val) : result bytes :=
  '(bs, _) <- ser c h fuel t v 0 [] ;; Ok bs.

Definition deserialize (c : context) (t : ty) (bs : bytes) : result (val * bytes * heap) :=
  '(_, wireType, bs') <- read_tag bs ;;
  '(v, bs', s) <- des c (S (length bs)) t wireType bs' {| cached := []; rheap := [] |} ;;
  Ok (v, bs', rheap s).
