(** [deepcopy], [deepcopyContiguous] and [deepBytecount]: copying a graph of typed objects, and how many bytes the copy takes. *)
From Verif Require Import Base.
Open Scope Z_scope.
Open Scope list_scope.
Open Scope result_scope.

Notation addr := Z (only parsing).

(** ** Objects in memory *)

(** What is stored in place: data without references (numbers, [None], [PointerTo], [Value] types, alternatives without members), the
    pointer of an object, which may be null (an empty string, bytes, TupleOf or ConstDict), the parts of a Tuple or NamedTuple, the members
    of a HeldClass, one of which may have no value yet ([Unset], [pod] when its type holds no references), and a OneOf.  A pointer to a
    class instance also says as which class it is seen, in bits that are copied with it and not modelled. *)
Inductive val :=
| Plain (data : list Z)
| Pointer (a : option addr)
| Parts (vs : list val)
| Held (vs : list val)
| Unset (pod : bool)
| Choice (which : Z) (v : val).

(** The objects that pointers lead to, without their refcounts.  A [width] is the size in place of what it is next to, which the type
    gives, and a [pod] says that the type holds no references.  A hash table holds a slot and a hash in each place, in two arrays.  Objects of other types ([PythonObjectOfType], functions, bound methods) are
    not modelled, and neither are [subpointers] of a ConstDict, which are only ever set to 0 (ConstDictType.cpp:508). *)
Inductive node :=
| ListNode (is_tuple pod : bool) (width hash : Z) (items : list val)          (* TupleOrListOfType.hpp:24-31 *)
| StringNode (width hash : Z) (points : list Z)                               (* StringType.hpp:24-35 *)
| BytesNode (hash : Z) (data : list Z)                                        (* BytesType.hpp:24-30 *)
| ConstDictNode (width hash : Z) (pairs : list (val * val))                   (* ConstDictType.hpp:31-39 *)
| AlternativeNode (which width : Z) (v : val)                                 (* AlternativeType.hpp:81-87 *)
| ClassNode (vtable width : Z) (v : val)                                      (* ClassType.hpp:39-44 *)
| DictNode (key_pod value_pod : bool) (width : Z) (slots : list (option (val * val))) (table : list (Z * Z))
| SetNode (pod : bool) (width : Z) (slots : list (option val)) (table : list (Z * Z))  (* hash_table_layout.hpp:520-537 *)
| CellNode (width : Z) (v : val).                                             (* TypedCellType.hpp:25-30 *)

Definition heap := addr -> option (Z * node).

Definition zlen {A} (l : list A) : Z := Z.of_nat (length l).

(** ** Slab.hpp *)

(** [sizeof(std::max_align_t)] on x86-64 *)
Definition max_align : Z := 32.
Definition rounded (bytes : Z) : Z := if bytes mod max_align =? 0 then bytes else bytes + max_align - bytes mod max_align.

(** [bytesRequiredForAllocation], Memory.hpp:53-63 *)
Definition bytes_required (s : Z) : Z := if s =? 0 then 0 else rounded s + max_align.

(** A slab of the free store, or one that ends at [limit]. *)
Inductive slab := FreeStore | Contiguous (limit : Z).

(** The state of a copy: where the next block goes, the blocks that were given out, the copies, their refcounts, and [alreadyAllocated]
    (DeepcopyContext.hpp:19). *)
Record state := State {
  point : Z;
  blocks : list (Z * Z);
  nodes : list (addr * node);
  counts : addr -> Z;
  memo : list (addr * addr)
}.
(** What a copy starts with. *)
Definition start (base : Z) : state := State base nil nil (fun _ => 0) nil.

(** [Slab::allocate], Slab.hpp:180-205, and [tp_malloc], Memory.cpp.  The free store may place its blocks anywhere; here they follow each
    other.  The check of a contiguous slab forgets the header, which would then lie behind the slab. *)
Definition allocate (sl : slab) (bytes : Z) (s : state) : result (addr * state) :=
  if bytes =? 0 then Ok (0, s)
  else
    let take bytes := Ok (point s + max_align,
                          State (point s + bytes + max_align) ((point s + max_align, bytes) :: blocks s) (nodes s) (counts s) (memo s)) in
    match sl with
    | FreeStore => take bytes
    | Contiguous limit =>
        let bytes := rounded bytes in
        if limit <? point s + bytes then Err GenericError
        else if limit <? point s + bytes + max_align then Err UndefinedBehaviour
        else take bytes
    end.

(** ** [deepcopyConcrete] *)

Inductive step := Alloc (bytes : Z) | Copy (v : val).

(** The bytes of the layout itself: the first [allocate] of each function. *)
Definition layout_bytes (n : node) : Z :=
  match n with
  | ListNode _ _ _ _ _ => 32                                  (* TupleOrListOfType.hpp:92 *)
  | StringNode width _ points => 24 + zlen points * width     (* StringType.hpp:152, 166 *)
  | BytesNode _ data => 16 + zlen data                        (* BytesType.hpp:67, 77 *)
  | ConstDictNode width _ pairs => 24 + zlen pairs * width    (* ConstDictType.hpp:151-154 *)
  | AlternativeNode _ width _ => 16 + width                   (* AlternativeType.hpp:234-237 *)
  | ClassNode _ width _ => 16 + width                         (* ClassType.hpp:222-225 *)
  | DictNode _ _ _ _ _ | SetNode _ _ _ _ => 80               (* hash_table_layout.hpp:386 *)
  | CellNode width _ => 16 + width                            (* TypedCellType.hpp:110 *)
  end.

Definition reserve (is_tuple : bool) (items : list val) : Z :=
  if (zlen items =? 0) && negb is_tuple then 1 else zlen items.

(** What is allocated and copied behind it, in order. *)
Definition further (n : node) : list step :=
  match n with
  (* TupleOrListOfType.hpp:96-124 *)
  | ListNode is_tuple pod width _ items =>
      (if reserve is_tuple items =? 0 then nil else [Alloc (width * reserve is_tuple items)]) ++
      (if pod then nil else map Copy items)
  | StringNode _ _ _ | BytesNode _ _ => nil
  (* ConstDictType.hpp:174-186 *)
  | ConstDictNode _ _ pairs => flat_map (fun p => [Copy (fst p); Copy (snd p)]) pairs
  (* AlternativeType.hpp:241-245, ClassType.hpp:230-234 *)
  | AlternativeNode _ _ v | ClassNode _ _ v => [Copy v]
  (* hash_table_layout.hpp:392-457 *)
  | DictNode key_pod value_pod width slots table =>
      [Alloc (width * zlen slots)] ++
      (if key_pod && value_pod then nil
       else flat_map (fun o => match o with Some p => [Copy (fst p); Copy (snd p)] | None => nil end) slots) ++
      [Alloc (zlen slots); Alloc (4 * zlen table); Alloc (4 * zlen table)]
  | SetNode pod width slots table =>
      [Alloc (width * zlen slots)] ++
      (if pod then nil else flat_map (fun o => match o with Some v => [Copy v] | None => nil end) slots) ++
      [Alloc (zlen slots); Alloc (4 * zlen table); Alloc (4 * zlen table)]
  (* TypedCellType.hpp:114-120 *)
  | CellNode _ v => match v with Unset _ => nil | _ => [Copy v] end
  end.

(** The copy of a node, given the copies of what [further] copies. *)
Definition take (vs : list val) : val * list val := match vs with v :: r => (v, r) | nil => (Unset true, nil) end.
Fixpoint refill_pairs (pairs : list (val * val)) (vs : list val) : list (val * val) :=
  match pairs with
  | nil => nil
  | _ :: pairs => let '(k, vs) := take vs in let '(v, vs) := take vs in (k, v) :: refill_pairs pairs vs
  end.
Fixpoint refill_slots (slots : list (option (val * val))) (vs : list val) : list (option (val * val)) :=
  match slots with
  | nil => nil
  | None :: slots => None :: refill_slots slots vs
  | Some _ :: slots => let '(k, vs) := take vs in let '(v, vs) := take vs in Some (k, v) :: refill_slots slots vs
  end.
Fixpoint refill_set (slots : list (option val)) (vs : list val) : list (option val) :=
  match slots with
  | nil => nil
  | None :: slots => None :: refill_set slots vs
  | Some _ :: slots => let '(k, vs) := take vs in Some k :: refill_set slots vs
  end.
Definition refill (n : node) (vs : list val) : node :=
  match n with
  | ListNode is_tuple pod width hash items => ListNode is_tuple pod width hash (if pod then items else vs)
  | StringNode _ _ _ | BytesNode _ _ => n
  | ConstDictNode width hash pairs => ConstDictNode width hash (refill_pairs pairs vs)
  | AlternativeNode which width _ => AlternativeNode which width (fst (take vs))
  | ClassNode vtable width _ => ClassNode vtable width (fst (take vs))
  | DictNode key_pod value_pod width slots table =>
      DictNode key_pod value_pod width (if key_pod && value_pod then slots else refill_slots slots vs) table
  | SetNode pod width slots table => SetNode pod width (if pod then slots else refill_set slots vs) table
  | CellNode width v => CellNode width (match v with Unset _ => v | _ => fst (take vs) end)
  end.

(** Strings, bytes and ConstDicts with one reference are copied without a look at [alreadyAllocated] (StringType.hpp:149, BytesType.hpp:66,
    ConstDictType.hpp:190). *)
Definition alone (rc : Z) (n : node) : bool :=
  match n with StringNode _ _ _ | BytesNode _ _ | ConstDictNode _ _ _ => rc =? 1 | _ => false end.

Fixpoint assoc (a : addr) (l : list (addr * addr)) : option addr :=
  match l with nil => None | (b, d) :: l => if a =? b then Some d else assoc a l end.

Definition put (a d : addr) (n : node) (remember : bool) (s : state) : state :=
  State (point s) (blocks s) ((d, n) :: nodes s) (fun x => if x =? d then 0 else counts s x) (if remember then (a, d) :: memo s else memo s).
Definition increment (d : addr) (s : state) : state :=
  State (point s) (blocks s) (nodes s) (fun x => if x =? d then counts s x + 1 else counts s x) (memo s).

Section Deepcopy.
Variable h : heap.
Variable sl : slab.
(** What a member of a copied class that is not written holds: the flag that says whether it has a value is found as it is in the fresh
    memory (HeldClassType.hpp:565-580). *)
Variable stale : val.

Section Lists.
Variable copy : val -> state -> result (val * state).
(** A list of values, from the first. *)
Fixpoint copy_all (vs : list val) (s : state) : result (list val * state) :=
  match vs with
  | nil => Ok (nil, s)
  | v :: vs => ' (v, s) <- copy v s ;; ' (vs, s) <- copy_all vs s ;; Ok (v :: vs, s)
  end.
(** The parts of a tuple, from the last: CompositeType.hpp:87-99 *)
Fixpoint copy_parts (vs : list val) (s : state) : result (list val * state) :=
  match vs with
  | nil => Ok (nil, s)
  | v :: vs => ' (vs, s) <- copy_parts vs s ;; ' (v, s) <- copy v s ;; Ok (v :: vs, s)
  end.
Fixpoint run_steps (steps : list step) (s : state) : result (list val * state) :=
  match steps with
  | nil => Ok (nil, s)
  | Alloc bytes :: steps => ' (_, s) <- allocate sl bytes s ;; run_steps steps s
  | Copy v :: steps => ' (v, s) <- copy v s ;; ' (vs, s) <- run_steps steps s ;; Ok (v :: vs, s)
  end.
End Lists.

(** [Type::deepcopy] (without a type map) and the functions that it calls: TupleOrListOfType.hpp:78-132, StringType.hpp:137-181,
    BytesType.hpp:53-89, ConstDictType.hpp:133-203, AlternativeType.hpp:216-253, ClassType.hpp:206-246, DictType.hpp:118-141,
    SetType.hpp:90-113, TypedCellType.hpp:95-128, HeldClassType.hpp:565-580, CompositeType.hpp:87-99, OneOfType.hpp:80-87.  A copy is known
    to [alreadyAllocated] when all that it holds has been copied; its refcount is set to 0 when it is allocated, which nothing else can see
    until then. *)
Fixpoint deepcopy (fuel : nat) (v : val) (s : state) : result (val * state) :=
  match fuel with
  | O => Err OutOfFuel
  | S fuel =>
      match v with
      | Plain data => Ok (Plain data, s)
      | Pointer None => Ok (Pointer None, s)
      | Pointer (Some a) =>
          match h a with
          | None => Err UndefinedBehaviour
          | Some (rc, n) =>
              match (if alone rc n then None else assoc a (memo s)) with
              | Some d => Ok (Pointer (Some d), increment d s)
              | None =>
                  ' (d, s) <- allocate sl (layout_bytes n) s ;;
                  ' (vs, s) <- run_steps (deepcopy fuel) (further n) s ;;
                  Ok (Pointer (Some d), increment d (put a d (refill n vs) (negb (alone rc n)) s))
              end
          end
      | Parts vs => ' (vs, s) <- copy_parts (deepcopy fuel) vs s ;; Ok (Parts vs, s)
      | Held vs => ' (vs, s) <- copy_all (deepcopy fuel) vs s ;; Ok (Held vs, s)
      | Unset _ => Ok (stale, s)
      | Choice which v => ' (v, s) <- deepcopy fuel v s ;; Ok (Choice which v, s)
      end
  end.
End Deepcopy.

(** ** [deepBytecountConcrete], without [outSlabs] *)

(** The bytes of a node. *)
Definition node_bytes (n : node) : Z :=
  match n with
  (* TupleOrListOfType.hpp:152-163 *)
  | ListNode is_tuple _ width _ items =>
      bytes_required 32 + (if reserve is_tuple items =? 0 then 0 else bytes_required (reserve is_tuple items * width))
  | StringNode width _ points => bytes_required (zlen points * width + 24)    (* StringType.hpp:205 *)
  | BytesNode _ data => bytes_required (zlen data + 16)                       (* BytesType.hpp:112 *)
  | ConstDictNode width _ pairs => bytes_required (24 + zlen pairs * width)   (* ConstDictType.hpp:225-229 *)
  | AlternativeNode _ width _ => bytes_required (width + 16)                  (* AlternativeType.hpp:212 *)
  | ClassNode _ width _ => bytes_required (16 + width)                        (* ClassType.hpp:265 *)
  (* DictType.hpp:157-163 *)
  | DictNode _ _ width slots table =>
      bytes_required 80 + bytes_required (zlen slots) + bytes_required (zlen slots * width) + bytes_required (4 * zlen table) * 2
  (* SetType.hpp:127-133 *)
  | SetNode _ width slots table =>
      bytes_required 80 + bytes_required (zlen slots * width) + bytes_required (zlen slots) + bytes_required (4 * zlen table) * 2
  | CellNode _ _ => 0                                                         (* see [count_node] *)
  end.
(** What is counted in it, in order. *)
Definition counted_in (n : node) : list val :=
  match n with
  | ListNode _ pod _ _ items => if pod then nil else items                    (* TupleOrListOfType.hpp:165-169 *)
  | StringNode _ _ _ | BytesNode _ _ => nil
  | ConstDictNode _ _ pairs => flat_map (fun p => [fst p; snd p]) pairs       (* ConstDictType.hpp:237-240 *)
  | AlternativeNode _ _ v | ClassNode _ _ v => [v]
  (* DictType.hpp:165-179 *)
  | DictNode key_pod value_pod _ slots _ =>
      (if key_pod then nil else flat_map (fun o => match o with Some p => [fst p] | None => nil end) slots) ++
      (if value_pod then nil else flat_map (fun o => match o with Some p => [snd p] | None => nil end) slots)
  (* SetType.hpp:135-141 *)
  | SetNode pod _ slots _ => if pod then nil else flat_map (fun o => match o with Some v => [v] | None => nil end) slots
  | CellNode _ _ => nil
  end.
Definition mem (a : addr) (l : list addr) : bool := existsb (Z.eqb a) l.

Section Bytecount.
Variable h : heap.

Section Lists.
Variable count : val -> list addr -> result (Z * list addr).
Fixpoint count_all (vs : list val) (seen : list addr) : result (Z * list addr) :=
  match vs with
  | nil => Ok (0, seen)
  | v :: vs => ' (x, seen) <- count v seen ;; ' (y, seen) <- count_all vs seen ;; Ok (x + y, seen)
  end.
(** A cell adds up first and rounds then, and counts the value of a cell that has none: TypedCellType.hpp:147-150 *)
Definition count_node (n : node) (seen : list addr) : result (Z * list addr) :=
  match n with
  | CellNode _ v => ' (x, seen) <- count v seen ;; Ok (bytes_required (x + 16), seen)
  | _ => ' (x, seen) <- count_all (counted_in n) seen ;; Ok (node_bytes n + x, seen)
  end.
End Lists.

(** [Type::deepBytecount]: the members of a HeldClass are counted whether they have a value or not (HeldClassType.hpp:582-590). *)
Fixpoint deep_bytecount (fuel : nat) (v : val) (seen : list addr) : result (Z * list addr) :=
  match fuel with
  | O => Err OutOfFuel
  | S fuel =>
      match v with
      | Plain _ | Pointer None => Ok (0, seen)
      | Pointer (Some a) =>
          match h a with
          | None => Err UndefinedBehaviour
          | Some (rc, n) =>
              if negb (alone rc n) && mem a seen then Ok (0, seen)
              else
                let remember := match n with StringNode _ _ _ | BytesNode _ _ => negb (rc =? 1) | _ => true end in
                count_node (deep_bytecount fuel) n (if remember then a :: seen else seen)
          end
      | Parts vs | Held vs => count_all (deep_bytecount fuel) vs seen
      | Unset pod => if pod then Ok (0, seen) else Err UndefinedBehaviour
      | Choice _ v => deep_bytecount fuel v seen
      end
  end.
End Bytecount.

(** [deepcopyContiguous] of a typed object, _types.cpp:1677-1718: the bytes are counted, a slab of that size is made at [base], and the
    object is copied into it.  A slab of more than 128 kB is rounded up to pages, which leaves room behind the copy; the limit here is without
    it. *)
Definition deepcopy_contiguous (h : heap) (stale : val) (base : Z) (fuel : nat) (v : val) : result (val * state) :=
  ' (bytecount, _) <- deep_bytecount h fuel v nil ;;
  ' (v, s) <- deepcopy h (Contiguous (base + bytecount)) stale fuel v (start base) ;;
  if bytecount =? point s - base then Ok (v, s) else Err TypeError.
