(** The wire format as a grammar over byte strings, independent of the code. *)
From Verif Require Import Base.
Open Scope Z_scope.

(** [varint n bs]: [bs] is a base-128 encoding of [n], least significant group first, with
    the high bit set on every byte but the last. *)
Inductive varint : Z -> list Z -> Prop :=
| varint_last n : 0 <= n < 128 -> varint n [n]
| varint_more low n bs : 0 <= low < 128 -> varint n bs -> varint (low + 128 * n) ((128 + low) :: bs).

(** A 64-bit varint has at most ten bytes. *)
Definition varint64 (n : Z) (bs : list Z) : Prop :=
  varint n bs /\ n < 2 ^ 64 /\ (length bs <= 10)%nat.

(** A message of the format: the tree of values it carries. *)
Inductive message : Type :=
| MEmpty
| MVarint (v : Z)
| MBits32 (data : list Z)
| MBits64 (data : list Z)
| MBytes (data : list Z)
| MSingle (field : Z) (m : message)
| MCompound (fields : list (Z * message)).

Definition wire_type (m : message) : Z :=
  match m with
  | MEmpty => 0 | MVarint _ => 1 | MBits32 _ => 2 | MBits64 _ => 3 | MBytes _ => 4
  | MSingle _ _ => 5 | MCompound _ => 6
  end.

(** [encodes m bs]: [bs] is an encoding of the content of [m] (what follows its tag).
    [encodes_fields fs bs]: [bs] holds the tagged messages of [fs] and the end marker. *)
Inductive encodes : message -> list Z -> Prop :=
| enc_empty : encodes MEmpty []
| enc_varint v bs : varint64 v bs -> encodes (MVarint v) bs
| enc_bits32 data : length data = 4%nat -> encodes (MBits32 data) data
| enc_bits64 data : length data = 8%nat -> encodes (MBits64 data) data
| enc_bytes data len : varint64 (Z.of_nat (length data)) len -> encodes (MBytes data) (len ++ data)
| enc_single field m t bs :
    0 <= field -> varint64 (8 * field + wire_type m) t -> encodes m bs ->
    encodes (MSingle field m) (t ++ bs)
| enc_compound fs bs : encodes_fields fs bs -> encodes (MCompound fs) bs
with encodes_fields : list (Z * message) -> list Z -> Prop :=
| enc_end field t : 0 <= field -> varint64 (8 * field + 7) t -> encodes_fields [] t
| enc_field field m fs t bs rest :
    0 <= field -> varint64 (8 * field + wire_type m) t -> encodes m bs ->
    encodes_fields fs rest -> encodes_fields ((field, m) :: fs) (t ++ bs ++ rest).

(** A whole tagged message. *)
Definition encodes_tagged (field : Z) (m : message) (bs : list Z) : Prop :=
  exists t body, bs = t ++ body /\ 0 <= field /\ varint64 (8 * field + wire_type m) t /\ encodes m body.
