(** What serialization has to preserve, independently of the encoding: which values belong
    to a type, and when two object graphs have the same shape. *)
From Verif Require Import Base Wire_Model Wire_Spec Serial_Model.
Open Scope Z_scope.

(** ** Well-typed values *)

Definition not_named (t : ty) : Prop := match t with TNamed _ => False | _ => True end.

Definition byte (b : Z) : Prop := 0 <= b < 256.

(** A Unicode code point; surrogates are not excluded. *)
Definition code_point (p : Z) : Prop := 0 <= p < 1114112.

(** [has_type c S t v]: [v] is a value of type [t], where [S] gives the type of the object at
    each pointer.  Lengths and storage sizes
    are bounded by what the 32-bit counters of the C++ layouts hold. *)
Inductive has_type (c : context) (S : list ty) : ty -> val -> Prop :=
| ht_bool b : has_type c S TBool (VBool b)
| ht_signed size z :
    In size [1; 2; 4; 8]%nat ->
    - 2 ^ (8 * Z.of_nat size - 1) <= z < 2 ^ (8 * Z.of_nat size - 1) ->
    has_type c S (TInt true size) (VInt z)
| ht_unsigned size z :
    In size [1; 2; 4; 8]%nat -> 0 <= z < 2 ^ (8 * Z.of_nat size) ->
    has_type c S (TInt false size) (VInt z)
| ht_float size bits :
    In size [4; 8]%nat -> 0 <= bits < 2 ^ (8 * Z.of_nat size) -> has_type c S (TFloat size) (VFloat bits)
| ht_none : has_type c S TNone VNone
| ht_value : has_type c S TValue VNone
| ht_str points :
    Forall code_point points -> Z.of_nat (length points) < 2 ^ 29 -> has_type c S TStr (VStr points)
| ht_bytes data :
    Forall byte data -> Z.of_nat (length data) < 2 ^ 31 -> has_type c S TBytes (VBytes data)
| ht_tupleof t vs :
    Forall (has_type c S t) vs -> Z.of_nat (length vs) < 2 ^ 31 -> Z.of_nat (bytecount t) < 2 ^ 31 ->
    has_type c S (TTupleOf t) (VSeq vs)
| ht_tuple ts vs :
    Forall2 (has_type c S) ts vs -> Z.of_nat (length ts) < 2 ^ 31 -> has_type c S (TTuple ts) (VTuple vs)
| ht_oneof ts i t v :
    nth_error ts i = Some t -> (i < 256)%nat -> has_type c S t v -> has_type c S (TOneOf ts) (VOneOf i v)
| ht_alternative ts i t v :
    nth_error ts i = Some t -> (i < 256)%nat -> has_type c S t v -> has_type c S (TAlternative ts) (VAlt i v)
| ht_constdict k v kvs :
    Forall (fun kv => has_type c S k (fst kv) /\ has_type c S v (snd kv)) kvs ->
    Z.of_nat (length kvs) < 2 ^ 30 -> has_type c S (TConstDict k v) (VConstDict kvs)
| ht_list t p : nth_error S p = Some (TListOf t) -> has_type c S (TListOf t) (VRef p)
| ht_dict k v p : nth_error S p = Some (TDict k v) -> has_type c S (TDict k v) (VRef p)
| ht_set k p : nth_error S p = Some (TSet k) -> has_type c S (TSet k) (VRef p)
| ht_named n t v :
    nth_error (types c) n = Some t -> not_named t -> has_type c S t v -> has_type c S (TNamed n) v.

Inductive obj_has_type (c : context) (S : list ty) : ty -> obj -> Prop :=
| oht_list t vs :
    Forall (has_type c S t) vs -> Z.of_nat (length vs) < 2 ^ 31 -> Z.of_nat (bytecount t) < 2 ^ 31 ->
    obj_has_type c S (TListOf t) (OList vs)
| oht_dict k v kvs :
    Forall (fun kv => has_type c S k (fst kv) /\ has_type c S v (snd kv)) kvs ->
    Z.of_nat (length kvs) < 2 ^ 30 -> obj_has_type c S (TDict k v) (ODict kvs)
| oht_set k vs :
    Forall (has_type c S k) vs -> Z.of_nat (length vs) < 2 ^ 31 -> obj_has_type c S (TSet k) (OSet vs).

(** Every object has its type; pointers are numbered in 31 bits. *)
Definition heap_has_types (c : context) (S : list ty) (h : heap) : Prop :=
  Forall2 (obj_has_type c S) S h /\ Z.of_nat (length h) < 2 ^ 31.

(** A context: padding has the size asked for. *)
Definition context_ok (c : context) : Prop := forall v n, length (garbage c v n) = n.

(** ** Graphs of the same shape *)

(** [val_rel R v w]: [v] and [w] are equal up to the correspondence [R] between pointers. *)
Inductive val_rel (R : nat -> nat -> Prop) : val -> val -> Prop :=
| vr_bool b : val_rel R (VBool b) (VBool b)
| vr_int z : val_rel R (VInt z) (VInt z)
| vr_float z : val_rel R (VFloat z) (VFloat z)
| vr_none : val_rel R VNone VNone
| vr_str ps : val_rel R (VStr ps) (VStr ps)
| vr_bytes bs : val_rel R (VBytes bs) (VBytes bs)
| vr_seq vs ws : Forall2 (val_rel R) vs ws -> val_rel R (VSeq vs) (VSeq ws)
| vr_tuple vs ws : Forall2 (val_rel R) vs ws -> val_rel R (VTuple vs) (VTuple ws)
| vr_oneof i v w : val_rel R v w -> val_rel R (VOneOf i v) (VOneOf i w)
| vr_alt i v w : val_rel R v w -> val_rel R (VAlt i v) (VAlt i w)
| vr_constdict kvs kws :
    Forall2 (fun kv kw => val_rel R (fst kv) (fst kw) /\ val_rel R (snd kv) (snd kw)) kvs kws ->
    val_rel R (VConstDict kvs) (VConstDict kws)
| vr_ref p q : R p q -> val_rel R (VRef p) (VRef q).

Inductive obj_rel (R : nat -> nat -> Prop) : obj -> obj -> Prop :=
| or_list vs ws : Forall2 (val_rel R) vs ws -> obj_rel R (OList vs) (OList ws)
| or_dict kvs kws :
    Forall2 (fun kv kw => val_rel R (fst kv) (fst kw) /\ val_rel R (snd kv) (snd kw)) kvs kws ->
    obj_rel R (ODict kvs) (ODict kws)
| or_set vs ws : Forall2 (val_rel R) vs ws -> obj_rel R (OSet vs) (OSet ws).

(** [same_graph h v h' v']: there is a one-to-one correspondence between objects of [h] and
    all objects of [h'] under which [v] matches [v'] and corresponding objects have matching
    contents.  So whatever can be reached from [v] in [h], including sharing and cycles, is
    reached in the same way from [v'] in [h']. *)
Definition same_graph (h : heap) (v : val) (h' : heap) (v' : val) : Prop :=
  exists R : nat -> nat -> Prop,
    (forall p q1 q2, R p q1 -> R p q2 -> q1 = q2) /\
    (forall p1 p2 q, R p1 q -> R p2 q -> p1 = p2) /\
    (forall q, (q < length h')%nat -> exists p, R p q) /\
    val_rel R v v' /\
    (forall p q, R p q -> exists o o', nth_error h p = Some o /\ nth_error h' q = Some o' /\ obj_rel R o o').

(** A value that refers to no mutable object. *)
Inductive tree : val -> Prop :=
| tree_bool b : tree (VBool b)
| tree_int z : tree (VInt z)
| tree_float z : tree (VFloat z)
| tree_none : tree VNone
| tree_str ps : tree (VStr ps)
| tree_bytes bs : tree (VBytes bs)
| tree_seq vs : Forall tree vs -> tree (VSeq vs)
| tree_tuple vs : Forall tree vs -> tree (VTuple vs)
| tree_oneof i v : tree v -> tree (VOneOf i v)
| tree_alt i v : tree v -> tree (VAlt i v)
| tree_constdict kvs : Forall (fun kv => tree (fst kv) /\ tree (snd kv)) kvs -> tree (VConstDict kvs).

(** The value a type is default-constructed with: zero, empty, and fresh empty containers
    (found in the heap [h]).  Which option a OneOf or Alternative picks is not fixed here. *)
Inductive default_of (c : context) (h : heap) : ty -> val -> Prop :=
| dflt_bool : default_of c h TBool (VBool false)
| dflt_int signed size : default_of c h (TInt signed size) (VInt 0)
| dflt_float size : default_of c h (TFloat size) (VFloat 0)
| dflt_none : default_of c h TNone VNone
| dflt_value : default_of c h TValue VNone
| dflt_str : default_of c h TStr (VStr [])
| dflt_bytes : default_of c h TBytes (VBytes [])
| dflt_tupleof t : default_of c h (TTupleOf t) (VSeq [])
| dflt_constdict k v : default_of c h (TConstDict k v) (VConstDict [])
| dflt_list t p : nth_error h p = Some (OList []) -> default_of c h (TListOf t) (VRef p)
| dflt_dict k v p : nth_error h p = Some (ODict []) -> default_of c h (TDict k v) (VRef p)
| dflt_set k p : nth_error h p = Some (OSet []) -> default_of c h (TSet k) (VRef p)
| dflt_tuple ts vs : Forall2 (default_of c h) ts vs -> default_of c h (TTuple ts) (VTuple vs)
| dflt_oneof ts i t v : nth_error ts i = Some t -> default_of c h t v -> default_of c h (TOneOf ts) (VOneOf i v)
| dflt_alternative ts i t v :
    nth_error ts i = Some t -> default_of c h t v -> default_of c h (TAlternative ts) (VAlt i v)
| dflt_named n t v : nth_error (types c) n = Some t -> default_of c h t v -> default_of c h (TNamed n) v.

(** ** Lists of integers *)

(** A list of integers cut into blocks of 1 to 255, each a byte string of two's complement
    integers of 1, 2, 4 or 8 bytes that are wide enough; the field number of the message
    tells the width. *)
Inductive int_blocks : list Z -> list (Z * message) -> list Z -> Prop :=
| ib_nil : int_blocks [] [] []
| ib_block kind size block zs fs bs :
    In (kind, size) [(2, 1%nat); (3, 2%nat); (4, 4%nat); (5, 8%nat)] ->
    (1 <= length block <= 255)%nat -> Forall (fun z => fits size z = true) block ->
    int_blocks zs fs bs ->
    int_blocks (block ++ zs) ((kind, MBytes (concat (map (le_bytes size) block))) :: fs)
      ((write_begin_bytes kind (Z.of_nat (length block * size)) ++ concat (map (le_bytes size) block)) ++ bs).

(** ** Positions in a value *)

(** The parts of a value, looking through references. *)
Definition parts (h : heap) (v : val) : list val :=
  match v with
  | VSeq vs | VTuple vs => vs
  | VOneOf _ w | VAlt _ w => [w]
  | VConstDict kvs => flat_map (fun kv => [fst kv; snd kv]) kvs
  | VRef p =>
      match nth_error h p with
      | Some (OList vs) | Some (OSet vs) => vs
      | Some (ODict kvs) => flat_map (fun kv => [fst kv; snd kv]) kvs
      | None => []
      end
  | _ => []
  end.

(** What is found by following the part numbers [path] from [v]. *)
Fixpoint at_path (h : heap) (v : val) (path : list nat) : option val :=
  match path with
  | [] => Some v
  | i :: path => match nth_error (parts h v) i with Some w => at_path h w path | None => None end
  end.
