(** Model of the hash table behind Dict and Set: typed_python/hash_table_layout.hpp, the Dict
    and Set operations on it in typed_python/DictType.cpp, typed_python/SetType.cpp,
    typed_python/PyDictInstance.cpp and typed_python/PySetInstance.cpp, and the second
    implementation used by compiled code in
    typed_python/compiler/type_wrappers/hash_table_implementation.py, dict_wrapper.py and
    set_wrapper.py.

    Simplifications.  Keys and values are abstract: [hash] gives the 32-bit hash of a key and
    [eqb] the result of comparing two keys for equality; neither raises.  Reference counts and
    the destruction of keys and values are left out.  A read or write outside an array is
    [Err UndefinedBehaviour]. *)
From Verif Require Import Base PyList.
Open Scope Z_scope.
Open Scope result_scope.

(** hash_table_layout.hpp:41 *)
Definition EMPTY : Z := -1.
Definition DELETED : Z := -2.
Definition PERTURB_SHIFT : Z := 5.
Definition MIN_SIZE : Z := 8.

(** Reading and writing a C array. *)
Definition rd {A} (l : list A) (i : Z) : result A :=
  if i <? 0 then Err UndefinedBehaviour
  else match nth_error l (Z.to_nat i) with Some x => Ok x | None => Err UndefinedBehaviour end.

Definition wr {A} (l : list A) (i : Z) (x : A) : result (list A) :=
  if (i <? 0) || (Z.of_nat (length l) <=? i) then Err UndefinedBehaviour
  else Ok (replace_nth (Z.to_nat i) x l).

Fixpoint map_result {A B} (f : A -> result B) (l : list A) : result (list B) :=
  match l with
  | [] => Ok []
  | x :: l => y <- f x ;; ys <- map_result f l ;; Ok (y :: ys)
  end.

Fixpoint fold_result {A S} (f : S -> A -> result S) (l : list A) (s : S) : result S :=
  match l with
  | [] => Ok s
  | x :: l => s <- f s x ;; fold_result f l s
  end.

(** The hash half of hash_table_layout (lines 527-537): [slots] and [hashes] are the two
    arrays of [hash_table_size] entries, the empty list standing for the null pointer. *)
Record index : Type := Index {
  slots : list Z;
  hashes : list Z;
  count : Z;
  empties : Z
}.

Definition size (ix : index) : Z := Z.of_nat (length (slots ix)).

(** [if (hash < 0) hash = -hash] on a 32-bit integer (hash_table_layout.hpp:56-58, 89-91,
    136-138; hash_table_implementation.py:96-97, 128-129, 179-180).  The most negative hash
    stays negative. *)
Definition norm_hash (h : Z) : Z := if h <? 0 then wrap_s 32 (- h) else h.

(** One step of the probe sequence, on 64-bit unsigned integers (hash_table_layout.hpp:77-78,
    110-111, 162-163; hash_table_implementation.py:118-119, 145-146, 205-206). *)
Definition next_probe (st : Z * Z) : Z * Z :=
  let '(offset, perturb) := st in
  (wrap_u 64 (Z.shiftl offset 2 + offset + perturb + 1), Z.shiftr perturb PERTURB_SHIFT).

(** The [while (true)] loops of hash_table_layout.hpp:64-79, 97-112 and 144-164 (and of the
    compiled functions): [body] looks at one position of the table and either ends the loop or
    lets it go on. *)
Fixpoint probe_loop {A} (fuel : nat) (mask : Z) (body : Z -> result (option A)) (st : Z * Z) : result A :=
  match fuel with
  | O => Err OutOfFuel
  | S fuel =>
      r <- body (Z.land (fst st) mask) ;;
      match r with
      | Some a => Ok a
      | None => probe_loop fuel mask body (next_probe st)
      end
  end.

(** Start of every probe: [mask], [perturb] and [offset] (hash_table_layout.hpp:60-62, 93-95,
    140-142); [h] is the 32-bit hash after [norm_hash], converted to uint64. *)
Definition probe {A} (ix : index) (h : Z) (body : Z -> result (option A)) : result A :=
  probe_loop (14 + length (slots ix)) (size ix - 1) body (wrap_u 64 h, wrap_u 64 h).

(** hash_table_layout.hpp:245-251; [ct <<= 1] on a 32-bit integer overflows when [ct = 2^30]. *)
Fixpoint pick_loop (fuel : nat) (ct min_size : Z) : result Z :=
  if ct <? min_size then
    match fuel with
    | O => Err UndefinedBehaviour
    | S fuel => pick_loop fuel (2 * ct) min_size
    end
  else Ok ct.

(** 27 doublings lead from 8 to 2^30. *)
Definition pick_hash_table_size (min_size : Z) : result Z := pick_loop 27 MIN_SIZE (wrap_s 32 min_size).

(** A table of [n] empty slots (hash_table_layout.hpp:309-315, 323-331, 363-373). *)
Definition fresh_index (n : Z) : index :=
  Index (repeat EMPTY (Z.to_nat n)) (repeat EMPTY (Z.to_nat n)) 0 n.

(** The part of [add] after the resize (hash_table_layout.hpp:89-112).  Marking the item slot
    as populated is left to the callers, which also store the item there. *)
Definition add_slot (h slot : Z) (ix : index) : result index :=
  let h := norm_hash h in
  p <- probe ix h (fun pos =>
         s <- rd (slots ix) pos ;;
         Ok (if (s =? EMPTY) || (s =? DELETED) then Some pos else None)) ;;
  old <- rd (slots ix) p ;;
  slots' <- wr (slots ix) p slot ;;
  hashes' <- wr (hashes ix) p h ;;
  Ok (Index slots' hashes' (count ix + 1) (if old =? EMPTY then empties ix - 1 else empties ix)).

(** hash_table_layout.hpp:84-85 *)
Definition needs_resize (ix : index) : bool :=
  (size ix <? count ix * 2 + 1) || (empties ix <? size ix / 4 + 1).

(** hash_table_layout.hpp:307-342.  [add] is called on the new table for every live slot; a
    nested resize there is not followed by the model ([OutOfFuel]). *)
Definition readd (ix : index) (sh : Z * Z) : result index :=
  let '(s, h) := sh in
  if (s =? EMPTY) || (s =? DELETED) then Ok ix
  else if needs_resize ix then Err OutOfFuel
  else add_slot h s ix.

Definition resize_table (ix : index) : result index :=
  n <- pick_hash_table_size (count ix * 4) ;;
  fold_result readd (combine (slots ix) (hashes ix)) (fresh_index n).

(** hash_table_layout.hpp:83-113 *)
Definition add (h slot : Z) (ix : index) : result index :=
  ix <- (if needs_resize ix then resize_table ix else Ok ix) ;;
  add_slot h slot ix.

Section Table.
  Context {K V : Type}.
  Variable eqb : K -> K -> bool.
  Variable hash : K -> Z.

  (** The whole hash_table_layout (lines 520-537).  An item is [None] when
      [items_populated] is 0 for it; the length of [items] is [items_reserved], the empty list
      standing for the null pointer (tp_malloc and tp_realloc return null for zero bytes,
      Memory.cpp:8-11, 46-49).  For a Set, [V] is [unit]. *)
  Record table : Type := Table {
    items : list (option (K * V));
    top : Z;
    idx : index
  }.

  Definition reserved (t : table) : Z := Z.of_nat (length (items t)).

  (** The constructor (hash_table_layout.hpp:25-35; DictType.cpp:345-355, SetType.cpp:89-94). *)
  Definition new_table : table := Table [] 0 (Index [] [] 0 0).

  (** The item in a slot: [items + item_size * slot]; reading one that is not populated is
      undefined. *)
  Definition rd_item (t : table) (slot : Z) : result (K * V) :=
    it <- rd (items t) slot ;;
    match it with Some kv => Ok kv | None => Err UndefinedBehaviour end.

  (** hash_table_layout.hpp:50-80 with the comparison of DictType.cpp:271-273 and
      SetType.cpp:55-56; also hash_table_implementation.py:122-146 ([table_slot_for_key]). *)
  Definition find (t : table) (k : K) : result Z :=
    match slots (idx t) with
    | [] => Ok (-1)
    | _ =>
        let h := norm_hash (hash k) in
        probe (idx t) h (fun pos =>
          s <- rd (slots (idx t)) pos ;;
          if s =? EMPTY then Ok (Some (-1))
          else if s =? DELETED then Ok None
          else
            h' <- rd (hashes (idx t)) pos ;;
            if h' =? h then
              kv <- rd_item t s ;;
              Ok (if eqb k (fst kv) then Some s else None)
            else Ok None)
    end.

  (** hash_table_layout.hpp:231-240: the item array grows by a quarter plus one until it has a
      free slot.  [items_reserved * 1.25 + 1] is computed in double precision, which is exact
      below 2^50. *)
  Fixpoint grow_loop (fuel : nat) (res top : Z) : result Z :=
    if res <=? top then
      match fuel with
      | O => Err OutOfFuel
      | S fuel => grow_loop fuel (res * 5 / 4 + 1) top
      end
    else Ok res.

  (** hash_table_layout.hpp:218-243.  The result is a 32-bit integer. *)
  Definition allocate_new_slot (t : table) : result (table * Z) :=
    let its := match items t with [] => repeat None 4 | _ => items t end in
    let top0 := match items t with [] => 0 | _ => top t end in
    let res := Z.of_nat (length its) in
    res' <- grow_loop (S (Z.to_nat (top0 - res + 1))) res top0 ;;
    Ok (Table (its ++ repeat None (Z.to_nat (res' - res))) (top0 + 1) (idx t), wrap_s 32 top0).

  (** DictType.cpp:331-343, SetType.cpp:43-50, and hash_table_implementation.py:277-280,
      301-303: allocate an item slot, enter it in the table, store the item. *)
  Definition insert_key (t : table) (k : K) (v : V) : result table :=
    '(t, slot) <- allocate_new_slot t ;;
    ix <- add (hash k) slot (idx t) ;;
    its <- wr (items t) slot (Some (k, v)) ;;
    Ok (Table its (top t) ix).

  (** hash_table_layout.hpp:168-187: the new position of each item, -1 for an absent one. *)
  Fixpoint new_positions (n : Z) (its : list (option (K * V))) : list Z :=
    match its with
    | [] => []
    | Some _ :: its => n :: new_positions (n + 1) its
    | None :: its => -1 :: new_positions n its
    end.

  Definition populated (o : option (K * V)) : bool := match o with Some _ => true | None => false end.

  (** hash_table_layout.hpp:167-216 *)
  Definition compress_item_table (t : table) : result table :=
    let positions := new_positions 0 (items t) in
    let its := filter populated (items t) in
    let n := Z.of_nat (length its) in
    slots' <- map_result (fun s =>
                if 0 <=? s then
                  if Z.of_nat (length positions) <=? s then Err GenericError
                  else p <- rd positions s ;; if p <? 0 then Err GenericError else Ok p
                else Ok s) (slots (idx t)) ;;
    if existsb (fun s => n <=? s) slots' then Err GenericError
    else Ok (Table its n (Index slots' (hashes (idx t)) (count (idx t)) (empties (idx t)))).

  (** hash_table_layout.hpp:127-134: before a removal the arrays are shrunk when they are
      mostly unused. *)
  Definition shrink (t : table) : result table :=
    t <- (if (count (idx t) + 2) * 4 <? reserved t then compress_item_table t else Ok t) ;;
    ix <- (if count (idx t) <? size (idx t) / 8 then resize_table (idx t) else Ok (idx t)) ;;
    Ok (Table (items t) (top t) ix).

  (** hash_table_layout.hpp:153-157: the position [pos] of the table and the item slot [s] it
      names are given up. *)
  Definition drop_slot (t : table) (pos s : Z) : result table :=
    its <- wr (items t) s None ;;
    slots' <- wr (slots (idx t)) pos DELETED ;;
    hashes' <- wr (hashes (idx t)) pos (-1) ;;
    Ok (Table its (top t) (Index slots' hashes' (count (idx t) - 1) (empties (idx t)))).

  (** hash_table_layout.hpp:122-165 as used by DictType.cpp:282-298 and SetType.cpp:20-31.  The
      boolean tells whether the key was there. *)
  Definition remove (t : table) (k : K) : result (table * bool) :=
    match slots (idx t) with
    | [] => Ok (t, false)
    | _ =>
        t <- shrink t ;;
        let h := norm_hash (hash k) in
        r <- probe (idx t) h (fun pos =>
               s <- rd (slots (idx t)) pos ;;
               if s =? EMPTY then Ok (Some None)
               else if s =? DELETED then Ok None
               else
                 kv <- rd_item t s ;;
                 Ok (if eqb k (fst kv) then Some (Some (pos, s)) else None)) ;;
        match r with
        | None => Ok (t, false)
        | Some (pos, s) => t <- drop_slot t pos s ;; Ok (t, true)
        end
    end.

  (** hash_table_implementation.py:164-210, the removal of compiled code: it shrinks before it
      looks for the null pointer, and compares the stored hash before it compares keys. *)
  Definition c_remove (t : table) (k : K) : result (table * bool) :=
    t <- shrink t ;;
    match slots (idx t) with
    | [] => Ok (t, false)
    | _ =>
        let h := norm_hash (hash k) in
        r <- probe (idx t) h (fun pos =>
               s <- rd (slots (idx t)) pos ;;
               if s =? EMPTY then Ok (Some None)
               else if s =? DELETED then Ok None
               else
                 h' <- rd (hashes (idx t)) pos ;;
                 if h' =? h then
                   kv <- rd_item t s ;;
                   Ok (if eqb k (fst kv) then Some (Some (pos, s)) else None)
                 else Ok None) ;;
        match r with
        | None => Ok (t, false)
        | Some (pos, s) => t <- drop_slot t pos s ;; Ok (t, true)
        end
    end.

  (** DictType.cpp:300-313 and SetType.cpp:33-41 with hash_table_layout.hpp:255-267. *)
  Definition clear (t : table) : table :=
    match slots (idx t) with
    | [] => Table (repeat None (length (items t))) (top t) (idx t)
    | _ => Table (repeat None (length (items t))) 0 (fresh_index (size (idx t)))
    end.

  (** hash_table_implementation.py:213-229 *)
  Definition c_clear (t : table) : table :=
    Table (repeat None (length (items t))) 0 (fresh_index (size (idx t))).

  (** DictType.cpp:266-280 *)
  Definition lookup_value (t : table) (k : K) : result (option V) :=
    s <- find t k ;;
    if s <? 0 then Ok None else kv <- rd_item t s ;; Ok (Some (snd kv)).

  (** [valueType()->assign(existingLoc, value)] *)
  Definition assign_value (t : table) (s : Z) (v : V) : result table :=
    kv <- rd_item t s ;;
    its <- wr (items t) s (Some (fst kv, v)) ;;
    Ok (Table its (top t) (idx t)).

  (** PyDictInstance.cpp:410-425; hash_table_implementation.py:271-282. *)
  Definition set_item (t : table) (k : K) (v : V) : result table :=
    s <- find t k ;;
    if s <? 0 then insert_key t k v else assign_value t s v.

  (** The items in slot order: visitKeyValuePairsAsSeparateArgs (DictType.hpp:103-116),
      visitSetElements (SetType.hpp:78-88). *)
  Fixpoint live (its : list (option (K * V))) : list (K * V) :=
    match its with
    | [] => []
    | Some kv :: its => kv :: live its
    | None :: its => live its
    end.

  (** hash_table_layout.hpp:344-359 and 361-378: the item array has been filled with the items
      read from the stream, then the table is built. *)
  Definition rebuild (l : list (K * V)) : result table :=
    let its := map Some l in
    n <- pick_hash_table_size (Z.of_nat (length its) * 2) ;;
    ix <- fold_result (fun ix (sk : Z * (K * V)) => add (hash (fst (snd sk))) (fst sk) ix)
            (combine (map Z.of_nat (seq 0 (length l))) l) (fresh_index n) ;;
    Ok (Table its (Z.of_nat (length its)) ix).

  (** hash_table_layout.hpp:270-305, [copy()] in compiled code: every field is copied.  When
      the item array is null the copy is a new table. *)
  Definition copy_table (t : table) : table :=
    match items t with [] => new_table | _ => t end.

  (** Dict(d) and Set(s) for an argument of the same type: PyDictInstance.cpp:485-499,
      PySetInstance.cpp:811-824.  [insertKey] is called without a lookup. *)
  Definition duplicate (t : table) : result table :=
    fold_result (fun t' (kv : K * V) => insert_key t' (fst kv) (snd kv)) (live (items t)) new_table.

  (** Compiled code: dict_wrapper.py:113-119, set_wrapper.py:284-288. *)
  Definition c_duplicate (t : table) : result table :=
    fold_result (fun t' (kv : K * V) => set_item t' (fst kv) (snd kv)) (live (items t)) new_table.

  (** PyDictInstance.cpp:101-119 for an argument of the same type, which must be another
      object here; dict_wrapper.py:36-38 is the same loop. *)
  Definition update (t : table) (l : list (K * V)) : result table :=
    fold_result (fun t (kv : K * V) => set_item t (fst kv) (snd kv)) l t.

  (** PyDictInstance.cpp:517-584: Dict(T1, T2)(mapping).  When a converted key is already there,
      the new value is assigned through [dictTgt], the address of the dictionary handle, instead
      of [valueTgt] (lines 536 and 572): the handle is overwritten with the value. *)
  Definition construct_from_mapping (l : list (K * V)) : result table :=
    fold_result (fun t (kv : K * V) =>
      s <- find t (fst kv) ;;
      if s <? 0 then insert_key t (fst kv) (snd kv) else Err UndefinedBehaviour) l new_table.

  (** ** Iterators *)

  (** The iterator object of PyDictInstance.cpp:220-222 and PySetInstance.cpp:1079-1081: the
      slot to look at next and the size when the iterator was made. *)
  Record iterator : Type := Iterator { it_offset : Z; it_size : Z }.

  Definition iter_start (t : table) : iterator := Iterator 0 (count (idx t)).

  (** [while (offset < slotCount && !slotPopulated(offset)) offset++] *)
  Fixpoint skip_absent (its : list (option (K * V))) (offset : Z) : Z :=
    match its with
    | None :: its => skip_absent its (offset + 1)
    | _ => offset
    end.

  Definition next_populated (t : table) (offset : Z) : Z :=
    skip_absent (skipn (Z.to_nat offset) (items t)) offset.

  (** PyDictInstance.cpp:247-293, PySetInstance.cpp:1083-1110: an error when the size changed
      ([GenericError] for RuntimeError), [None] at the end, or the next item. *)
  Definition iter_next (t : table) (it : iterator) : result (option (K * V) * iterator) :=
    let off := if it_offset it =? 0 then next_populated t 0 else it_offset it in
    if negb (count (idx t) =? it_size it) then Err GenericError
    else if reserved t <=? off then Ok (None, Iterator off (it_size it))
    else
      kv <- rd_item t off ;;
      Ok (Some kv, Iterator (next_populated t (off + 1)) (it_size it)).

  (** hash_table_implementation.py:153-161 and the iterator classes of dict_wrapper.py:666-790
      and set_wrapper.py: [slotIx] starts at -1. *)
  Definition c_iter_start (t : table) : iterator := Iterator (-1) (count (idx t)).

  Definition c_iter_next (t : table) (it : iterator) : result (option (K * V) * iterator) :=
    if negb (count (idx t) =? it_size it) then Err GenericError
    else
      let off := next_populated t (it_offset it + 1) in
      if reserved t <=? off then Ok (None, it)
      else kv <- rd_item t off ;; Ok (Some kv, Iterator off (it_size it)).

  (** A [for] loop over a table that does not change. *)
  Fixpoint iter_all (next : table -> iterator -> result (option (K * V) * iterator))
           (fuel : nat) (t : table) (it : iterator) : result (list (K * V)) :=
    match fuel with
    | O => Err OutOfFuel
    | S fuel =>
        r <- next t it ;;
        match r with
        | (None, _) => Ok []
        | (Some kv, it) => l <- iter_all next fuel t it ;; Ok (kv :: l)
        end
    end.

  (** A [for] loop over the items whose body assigns to keys of the Dict it walks over. *)
  Fixpoint iter_assign (next : table -> iterator -> result (option (K * V) * iterator))
           (body : K * V -> list (K * V)) (fuel : nat) (t : table) (it : iterator)
    : result (table * list (K * V)) :=
    match fuel with
    | O => Err OutOfFuel
    | S fuel =>
        r <- next t it ;;
        match r with
        | (None, _) => Ok (t, [])
        | (Some kv, it) =>
            t <- update t (body kv) ;;
            '(t, l) <- iter_assign next body fuel t it ;;
            Ok (t, kv :: l)
        end
    end.

  (** ** Histories of a Dict *)

  (** Operations on one Dict, as methods called from Python. *)
  Inductive op : Type :=
  | SetItem (k : K) (v : V)        (* d[k] = v *)
  | GetItem (k : K)                (* d[k] *)
  | DelItem (k : K)                (* del d[k] *)
  | Contains (k : K)               (* k in d *)
  | Get (k : K) (default : V)      (* d.get(k, default) *)
  | SetDefault (k : K) (v : V)     (* d.setdefault(k, v) *)
  | Pop (k : K)                    (* d.pop(k) *)
  | PopDefault (k : K) (v : V)     (* d.pop(k, v) *)
  | Clear                          (* d.clear() *)
  | Len                            (* len(d) *)
  | Items                          (* list(d.items()) *)
  | Update (l : list (K * V))      (* d.update(e), e a Dict with these items *)
  | Copy.                          (* d = Dict(d) *)

  (** What the caller sees. *)
  Inductive outcome : Type :=
  | Done
  | Value (v : V)
  | Bool (b : bool)
  | Int (n : Z)
  | ItemList (l : list (K * V))
  | Raises (e : exn).

  (** The interpreter's methods (PyDictInstance.cpp: 410-449 item assignment and deletion,
      372-408 subscript, 299-362 [in], 139-199 get, 657-744 setdefault, 752-813 pop, 205-218
      clear, 295-297 len, 83-119 update, 478-503 Dict(d)). *)
  Definition step (o : op) (t : table) : result (table * outcome) :=
    match o with
    | SetItem k v => t <- set_item t k v ;; Ok (t, Done)
    | GetItem k =>
        r <- lookup_value t k ;;
        Ok (t, match r with Some v => Value v | None => Raises KeyError end)
    | DelItem k => '(t, b) <- remove t k ;; Ok (t, if b then Done else Raises KeyError)
    | Contains k =>
        r <- lookup_value t k ;;
        Ok (t, Bool match r with Some _ => true | None => false end)
    | Get k default =>
        r <- lookup_value t k ;;
        Ok (t, Value match r with Some v => v | None => default end)
    | SetDefault k v =>
        r <- lookup_value t k ;;
        match r with
        | Some v' => Ok (t, Value v')
        | None => t <- insert_key t k v ;; Ok (t, Value v)
        end
    | Pop k =>
        r <- lookup_value t k ;;
        match r with
        | Some v => '(t, _) <- remove t k ;; Ok (t, Value v)
        | None => Ok (t, Raises KeyError)
        end
    | PopDefault k d =>
        r <- lookup_value t k ;;
        match r with
        | Some v => '(t, _) <- remove t k ;; Ok (t, Value v)
        | None => Ok (t, Value d)
        end
    | Clear => Ok (clear t, Done)
    | Len => Ok (t, Int (count (idx t)))
    | Items => l <- iter_all iter_next (S (length (items t))) t (iter_start t) ;; Ok (t, ItemList l)
    | Update l => t <- update t l ;; Ok (t, Done)
    | Copy => t <- duplicate t ;; Ok (t, Done)
    end.

  (** The same methods in compiled code (hash_table_implementation.py:235-282,
      dict_wrapper.py:36-119).  The lookups call [table_slot_for_key], which is [find]. *)
  Definition c_step (o : op) (t : table) : result (table * outcome) :=
    match o with
    | SetItem k v => t <- set_item t k v ;; Ok (t, Done)
    | GetItem k =>
        r <- lookup_value t k ;;
        Ok (t, match r with Some v => Value v | None => Raises KeyError end)
    | DelItem k => '(t, b) <- c_remove t k ;; Ok (t, if b then Done else Raises KeyError)
    | Contains k => s <- find t k ;; Ok (t, Bool (negb (s =? -1)))
    | Get k default =>
        r <- lookup_value t k ;;
        Ok (t, Value match r with Some v => v | None => default end)
    | SetDefault k v =>
        s <- find t k ;;
        t <- (if s =? -1 then set_item t k v else Ok t) ;;
        r <- lookup_value t k ;;
        Ok (t, match r with Some v => Value v | None => Raises KeyError end)
    | Pop k =>
        s <- find t k ;;
        if s =? -1 then Ok (t, Raises KeyError)
        else
          r <- lookup_value t k ;;
          '(t, b) <- c_remove t k ;;
          Ok (t, match r with Some v => if b then Value v else Raises KeyError | None => Raises KeyError end)
    | PopDefault k d =>
        s <- find t k ;;
        if s =? -1 then Ok (t, Value d)
        else
          r <- lookup_value t k ;;
          '(t, b) <- c_remove t k ;;
          Ok (t, match r with Some v => if b then Value v else Raises KeyError | None => Raises KeyError end)
    | Clear => Ok (c_clear t, Done)
    | Len => Ok (t, Int (count (idx t)))
    | Items => l <- iter_all c_iter_next (S (length (items t))) t (c_iter_start t) ;; Ok (t, ItemList l)
    | Update l => t <- update t l ;; Ok (t, Done)
    | Copy => t <- c_duplicate t ;; Ok (t, Done)
    end.

  (** A history in which every operation runs either in the interpreter or in compiled code. *)
  Inductive mode : Type := Interpreted | Compiled.

  Definition step_in (m : mode) : op -> table -> result (table * outcome) :=
    match m with Interpreted => step | Compiled => c_step end.

  Fixpoint run (l : list (mode * op)) (t : table) : result (table * list outcome) :=
    match l with
    | [] => Ok (t, [])
    | (m, o) :: l =>
        '(t, r) <- step_in m o t ;;
        '(t, rs) <- run l t ;;
        Ok (t, r :: rs)
    end.
End Table.

Arguments table : clear implicits.
Arguments op : clear implicits.
Arguments outcome : clear implicits.
