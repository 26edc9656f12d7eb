(** Model of the wire format primitives: typed_python/WireType.hpp,
    SerializationBuffer.hpp and DeserializationBuffer.hpp.

    A stream is the list of its bytes, each an integer in [0, 256).  The writer functions
    return the bytes they append; the reader functions take the unread bytes and return
    what is left.  The 1 MB blocks of the writer and the decompression of the reader are
    modelled separately (Compress_Model.v); without compression the blocks are simply
    concatenated (SerializationBuffer.hpp:283-290). *)
From Verif Require Import Base.
Open Scope Z_scope.
Open Scope result_scope.

Notation bytes := (list Z).

(** The wire types, WireType.hpp:26-35. *)
Definition EMPTY := 0.
Definition VARINT := 1.
Definition BITS_32 := 2.
Definition BITS_64 := 3.
Definition BYTES := 4.
Definition SINGLE := 5.
Definition BEGIN_COMPOUND := 6.
Definition END_COMPOUND := 7.

(** ** Writing *)

(** [SerializationBuffer::writeUnsignedVarint], SerializationBuffer.hpp:192-198.  The loop
    shifts a 64-bit value right by 7 until it is below 128, so 10 rounds suffice
    ([write_uvarint_step] in Wire_Proofs.v shows the loop never stops short). *)
Fixpoint write_uvarint_loop (fuel : nat) (i : Z) : bytes :=
  match fuel with
  | O => []
  | S fuel =>
      if 128 <=? i
      then (128 + Z.land i 127) :: write_uvarint_loop fuel (Z.shiftr i 7)
      else [i]
  end.
Definition write_uvarint (i : Z) : bytes := write_uvarint_loop 10 i.

(** [writeSignedVarint], SerializationBuffer.hpp:201-208: the zigzag encoding, in 64-bit
    arithmetic ([-i] overflows for the most negative integer; two's complement wrap-around
    is assumed, as on every supported compiler). *)
Definition zigzag (i : Z) : Z :=
  let val := wrap_u 64 (if i <? 0 then wrap_s 64 (wrap_s 64 (- i) - 1) else i) in
  let val := wrap_u 64 (val * 2) in
  if i <? 0 then wrap_u 64 (val + 1) else val.
Definition write_svarint (i : Z) : bytes := write_uvarint (zigzag i).

(** The tag of a message, e.g. SerializationBuffer.hpp:160-184. *)
Definition tag (fieldNumber wireType : Z) : Z :=
  wrap_u 64 (wrap_u 64 (Z.shiftl fieldNumber 3) + wireType).
Definition write_tag (fieldNumber wireType : Z) : bytes := write_uvarint (tag fieldNumber wireType).

(** [writeBeginBytes], [writeEmpty], [writeBeginSingle], [writeBeginCompound],
    [writeEndCompound], [writeUnsignedVarintObject], SerializationBuffer.hpp:160-184. *)
Definition write_begin_bytes (fieldNumber bytecount : Z) : bytes :=
  write_tag fieldNumber BYTES ++ write_uvarint bytecount.
Definition write_empty (fieldNumber : Z) : bytes := write_tag fieldNumber EMPTY.
Definition write_begin_single (fieldNumber : Z) : bytes := write_tag fieldNumber SINGLE.
Definition write_begin_compound (fieldNumber : Z) : bytes := write_tag fieldNumber BEGIN_COMPOUND.
Definition write_end_compound : bytes := write_uvarint END_COMPOUND.
Definition write_uvarint_object (fieldNumber i : Z) : bytes :=
  write_tag fieldNumber VARINT ++ write_uvarint i.

(** [write<T>] of an integer of [n] bytes: the little-endian bytes in memory,
    SerializationBuffer.hpp:74-79, 415-420 (x86-64 byte order). *)
Fixpoint le_bytes (n : nat) (x : Z) : bytes :=
  match n with
  | O => []
  | S n => (x mod 256) :: le_bytes n (x / 256)
  end.

(** ** Reading *)

(** [read<T>] and [read_bytes], DeserializationBuffer.hpp:280-308, 490-506: "out of data"
    is an exception. *)
Definition read_bytes (n : Z) (bs : bytes) : result (bytes * bytes) :=
  if Z.of_nat (length bs) <? n then Err GenericError
  else Ok (firstn (Z.to_nat n) bs, skipn (Z.to_nat n) bs).

(** The unsigned integer with these little-endian bytes in memory. *)
Fixpoint of_le_bytes (bs : bytes) : Z :=
  match bs with
  | [] => 0
  | b :: bs => b + 256 * of_le_bytes bs
  end.

(** [readUnsignedVarint], DeserializationBuffer.hpp:69-83.  The accumulator wraps at 64
    bits; shifting by 64 or more has no defined meaning in C++. *)
Fixpoint read_uvarint_loop (accumulator shift : Z) (bs : bytes) : result (Z * bytes) :=
  match bs with
  | [] => Err GenericError
  | value :: bs =>
      if 64 <=? shift then Err UndefinedBehaviour else
      let accumulator := wrap_u 64 (accumulator + wrap_u 64 (Z.shiftl (Z.land value 127) shift)) in
      if value <? 128 then Ok (accumulator, bs)
      else read_uvarint_loop accumulator (shift + 7) bs
  end.
Definition read_uvarint (bs : bytes) : result (Z * bytes) := read_uvarint_loop 0 0 bs.

(** [readSignedVarint], DeserializationBuffer.hpp:86-95; [-val-1] is unsigned. *)
Definition unzigzag (val : Z) : Z :=
  if Z.odd val then wrap_s 64 (wrap_u 64 (wrap_u 64 (- (Z.shiftr val 1)) - 1))
  else wrap_s 64 (Z.shiftr val 1).
Definition read_svarint (bs : bytes) : result (Z * bytes) :=
  '(val, bs) <- read_uvarint bs ;; Ok (unzigzag val, bs).

(** [readFieldNumberAndWireType], DeserializationBuffer.hpp:97-100. *)
Definition read_tag (bs : bytes) : result (Z * Z * bytes) :=
  '(val, bs) <- read_uvarint bs ;; Ok (Z.shiftr val 3, Z.land val 7, bs).

(** [readUnsignedVarintObject], DeserializationBuffer.hpp:62-66. *)
Definition read_uvarint_object (bs : bytes) : result (Z * bytes) :=
  '(_, wireType, bs) <- read_tag bs ;;
  if wireType =? VARINT then read_uvarint bs else Err GenericError.

(** [finishReadingMessageAndDiscard] and [readMessageAndDiscard],
    DeserializationBuffer.hpp:103-107, 171-215.  Every recursive call has read at least
    one byte, so [2 * length bs + 2] steps of fuel are always enough
    ([discard_no_fuel_error] in Wire_Proofs.v). *)
Fixpoint discard (fuel : nat) (wireType : Z) (bs : bytes) : result bytes :=
  match fuel with
  | O => Err OutOfFuel
  | S fuel =>
      if wireType =? EMPTY then Ok bs
      else if wireType =? VARINT then '(_, bs) <- read_uvarint bs ;; Ok bs
      else if wireType =? BITS_32 then '(_, bs) <- read_bytes 4 bs ;; Ok bs
      else if wireType =? BITS_64 then '(_, bs) <- read_bytes 8 bs ;; Ok bs
      else if wireType =? BYTES then
        '(bytecount, bs) <- read_uvarint bs ;;
        '(_, bs) <- read_bytes bytecount bs ;; Ok bs
      else if wireType =? SINGLE then
        '(_, sub, bs) <- read_tag bs ;; discard fuel sub bs
      else if wireType =? BEGIN_COMPOUND then discard_until_end fuel bs
      else if wireType =? END_COMPOUND then Ok bs
      else Err GenericError
  end
with discard_until_end (fuel : nat) (bs : bytes) : result bytes :=
  match fuel with
  | O => Err OutOfFuel
  | S fuel =>
      '(_, sub, bs) <- read_tag bs ;;
      bs <- discard fuel sub bs ;;
      if sub =? END_COMPOUND then Ok bs else discard_until_end fuel bs
  end.
Definition enough (bs : bytes) : nat := (2 * length bs + 2)%nat.
Definition finishReadingMessageAndDiscard (wireType : Z) (bs : bytes) : result bytes :=
  discard (enough bs) wireType bs.
Definition readMessageAndDiscard (bs : bytes) : result (Z * bytes) :=
  '(_, wireType, bs) <- read_tag bs ;;
  bs <- finishReadingMessageAndDiscard wireType bs ;;
  Ok (wireType, bs).

(** [copyMessageToOtherBuffer], DeserializationBuffer.hpp:110-168: the bytes written to the
    other buffer and the bytes left unread. *)
Fixpoint copy (fuel : nat) (wireType : Z) (bs : bytes) : result (bytes * bytes) :=
  match fuel with
  | O => Err OutOfFuel
  | S fuel =>
      if wireType =? EMPTY then Ok ([], bs)
      else if wireType =? VARINT then
        '(v, bs) <- read_uvarint bs ;; Ok (write_uvarint v, bs)
      else if wireType =? BITS_32 then read_bytes 4 bs
      else if wireType =? BITS_64 then read_bytes 8 bs
      else if wireType =? BYTES then
        '(bytecount, bs) <- read_uvarint bs ;;
        '(data, bs) <- read_bytes bytecount bs ;;
        Ok (write_uvarint bytecount ++ data, bs)
      else if wireType =? SINGLE then
        '(field, sub, bs) <- read_tag bs ;;
        '(out, bs) <- copy fuel sub bs ;;
        Ok (write_tag field sub ++ out, bs)
      else if wireType =? BEGIN_COMPOUND then copy_until_end fuel bs
      else if wireType =? END_COMPOUND then Ok ([], bs)
      else Err GenericError
  end
with copy_until_end (fuel : nat) (bs : bytes) : result (bytes * bytes) :=
  match fuel with
  | O => Err OutOfFuel
  | S fuel =>
      '(field, sub, bs) <- read_tag bs ;;
      if sub =? END_COMPOUND then Ok (write_tag field sub, bs)
      else
        '(out, bs) <- copy fuel sub bs ;;
        '(outs, bs) <- copy_until_end fuel bs ;;
        Ok (write_tag field sub ++ out ++ outs, bs)
  end.
Definition copyMessageToOtherBuffer (wireType : Z) (bs : bytes) : result (bytes * bytes) :=
  copy (enough bs) wireType bs.

(** [validateSerializedObject], _types.cpp:2298-2333: [Ok true] is the Python result None,
    [Ok false] an error string. *)
Definition validateSerializedObject (bs : bytes) : bool :=
  match readMessageAndDiscard bs with
  | Ok (_, []) => true
  | _ => false
  end.
