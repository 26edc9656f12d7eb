(** Model of [ListOf], in the interpreter (TupleOrListOfType.cpp, TupleOrListOfType.hpp,
    PyTupleOrListOfInstance.cpp) and in compiled code (compiler/type_wrappers/list_of_wrapper.py,
    compiler/type_wrappers/tuple_of_wrapper.py).

    A list is its layout: the two 32-bit counters and the block of memory behind [data].  The block is a
    list of cells, one per element that fits into it; a cell that no element was constructed in, or whose
    element was destroyed, holds [None].  Reading such a cell, or touching memory outside of the block, is
    [Err UndefinedBehaviour].  Elements are values of any type [V] of [w > 0] bytes; conversions of the
    arguments to the element type are not modelled, nor are exceptions from an element's own code, reference
    counts of the elements and of the layout, or lists in a [Slab].  Memory never runs out below 2^47 bytes. *)
From Verif Require Import Base PyList.
Open Scope Z_scope.
Open Scope result_scope.

Section ListOf.
  Context {V : Type}.
  (** The size of an element, whether copying it is copying its bytes ([isPOD]), whether compiled code passes
      it by pointer ([is_pass_by_ref]) and its default value. *)
  Variable w : Z.
  Variable pod by_ref : bool.
  Variable default : V.

  (** [TupleOrListOfType::layout], TupleOrListOfType.hpp:24-31, without refcount and hash cache. *)
  Record lst := Lst { cells : list (option V); count : Z; reserved : Z }.

  Definition capacity (cs : list (option V)) : Z := Z.of_nat (length cs).

  (** The number of elements that fit into what [tp_malloc]/[tp_realloc] return for [size] bytes,
      Memory.cpp:8-20 and 41-71: the block has 16 more bytes for a header, and that sum may wrap around.
      The code writes the header without looking whether the allocation succeeded. *)
  Definition fitting (size : Z) : result nat :=
    if size =? 0 then Ok 0%nat
    else
      let block := wrap_u 64 (size + 16) in
      if (block <? 8) || (2 ^ 47 <? block) then Err UndefinedBehaviour
      else Ok (Z.to_nat (Z.max 0 (block - 16) / w)).

  Definition malloc (size : Z) : result (list (option V)) := n <- fitting size ;; Ok (repeat None n).
  Definition realloc (cs : list (option V)) (size : Z) : result (list (option V)) :=
    n <- fitting size ;; Ok (firstn n cs ++ repeat None (n - length cs)).

  (** An element of the block: [eltPtr], TupleOrListOfType.hpp:188-195. *)
  Definition read (cs : list (option V)) (i : Z) : result V :=
    if i <? 0 then Err UndefinedBehaviour
    else match nth_error cs (Z.to_nat i) with Some (Some v) => Ok v | _ => Err UndefinedBehaviour end.
  (** [copy_constructor] into the block. *)
  Definition write (cs : list (option V)) (i : Z) (v : V) : result (list (option V)) :=
    if (0 <=? i) && (i <? capacity cs) then Ok (replace_nth (Z.to_nat i) (Some v) cs) else Err UndefinedBehaviour.
  (** [n] cells from [from] on become [c]. *)
  Definition set_range (cs : list (option V)) (from n : Z) (c : option V) : result (list (option V)) :=
    if n <=? 0 then Ok cs
    else if (0 <=? from) && (from + n <=? capacity cs) then
      Ok (firstn (Z.to_nat from) cs ++ repeat c (Z.to_nat n) ++ skipn (Z.to_nat (from + n)) cs)
    else Err UndefinedBehaviour.
  (** Destroying elements: nothing happens for a POD. *)
  Definition destroy_range (cs : list (option V)) (from n : Z) : result (list (option V)) :=
    if pod then Ok cs else set_range cs from n None.
  (** [memmove] of the cells from [i + 1] to [n] one place down, after the element at [i] was destroyed or
      moved out; the bytes that stay behind at [n - 1] are no element. *)
  Definition close_gap (cs : list (option V)) (i n : Z) : result (list (option V)) :=
    if (0 <=? i) && (i <? n) && (n <=? capacity cs) then
      Ok (firstn (Z.to_nat i) cs ++ firstn (Z.to_nat (n - 1 - i)) (skipn (Z.to_nat (i + 1)) cs)
          ++ None :: skipn (Z.to_nat n) cs)
    else Err UndefinedBehaviour.

  (** ** The C++ type *)

  (** Construct a list of [n] elements, the [k]th computed by [item k]: [TupleOrListOfType::constructor],
      TupleOrListOfType.hpp:203-235. *)
  Fixpoint construct_from (item : Z -> result V) (cs : list (option V)) (k : Z) (n : nat) : result (list (option V)) :=
    match n with
    | O => Ok cs
    | S n => v <- item k ;; cs <- write cs k v ;; construct_from item cs (k + 1) n
    end.
  Definition construct (n : Z) (item : Z -> result V) : result lst :=
    let r := Z.max 1 (wrap_s 32 n) in
    cs <- malloc (wrap_u 64 (w * r)) ;;
    cs <- construct_from item cs 0 (Z.to_nat n) ;;
    Ok (Lst cs (wrap_s 32 n) r).

  (** [TupleOrListOfType::reserve], TupleOrListOfType.cpp:262-275; [target] is a [size_t], the counters are
      converted to [size_t] where they meet one. *)
  Definition reserve (l : lst) (target : Z) : result lst :=
    let c := wrap_u 64 (count l) in
    let target := if target <? c then c else target in
    cs <- realloc (cells l) (wrap_u 64 (w * target)) ;;
    Ok (Lst cs (count l) (wrap_s 32 target)).

  (** The next size of a full block, [reserved * 1.25 + 1] truncated: TupleOrListOfType.cpp:323. *)
  Definition grown (r : Z) : Z := Z.quot (r * 5 + 4) 4.

  (** [ListOfType::append], TupleOrListOfType.cpp:307-335. *)
  Definition append (l : lst) (v : V) : result lst :=
    l <- (if count l =? reserved l then
            cs <- realloc (cells l) (wrap_u 64 (w * grown (reserved l))) ;;
            Ok (Lst cs (count l) (wrap_s 32 (grown (reserved l))))
          else Ok l) ;;
    cs <- write (cells l) (count l) v ;;
    Ok (Lst cs (wrap_s 32 (count l + 1)) (reserved l)).

  (** [constructorUnbounded], TupleOrListOfType.hpp:238-275: a list of everything an iterable gives. *)
  Fixpoint construct_unbounded (l : lst) (vs : list V) : result lst :=
    match vs with
    | [] => Ok l
    | v :: vs =>
        cs <- write (cells l) (count l) v ;;
        let l := Lst cs (wrap_s 32 (count l + 1)) (reserved l) in
        l <- (if reserved l <=? count l then reserve l (wrap_u 64 (grown (reserved l))) else Ok l) ;;
        construct_unbounded l vs
    end.
  Definition construct_iterable (vs : list V) : result lst :=
    cs <- malloc (wrap_u 64 (w * 1)) ;; construct_unbounded (Lst cs 0 1) vs.

  (** [ensureSpaceFor], TupleOrListOfType.cpp:337-341, and [extend], TupleOrListOfType.hpp:632-652. *)
  Definition ensure_space (l : lst) (n : Z) : result lst :=
    let need := wrap_u 64 (count l + n) in
    if wrap_u 64 (reserved l) <? need then reserve l need else Ok l.
  Fixpoint extend_from (item : list (option V) -> Z -> result V) (cs : list (option V)) (base i : Z) (n : nat) :
    result (list (option V)) :=
    match n with
    | O => Ok cs
    | S n => v <- item cs i ;; cs <- write cs (base + i) v ;; extend_from item cs base (i + 1) n
    end.
  Definition extend (l : lst) (n : Z) (item : list (option V) -> Z -> result V) : result lst :=
    l <- ensure_space l n ;;
    cs <- extend_from item (cells l) (count l) 0 (Z.to_nat n) ;;
    Ok (Lst cs (wrap_s 32 (count l + n)) (reserved l)).

  (** [ListOfType::remove], TupleOrListOfType.cpp:348-354. *)
  Definition remove (l : lst) (i : Z) : result lst :=
    cs <- close_gap (cells l) i (count l) ;; Ok (Lst cs (wrap_s 32 (count l - 1)) (reserved l)).

  (** [ListOfType::resize], TupleOrListOfType.cpp:356-392; [n] is a [size_t]. *)
  Definition resize (l : lst) (n : Z) (v : V) : result lst :=
    l <- (if wrap_u 64 (reserved l) <? n then reserve l n else Ok l) ;;
    let c := wrap_u 64 (count l) in
    if n <? c then cs <- destroy_range (cells l) n (c - n) ;; Ok (Lst cs (wrap_s 32 n) (reserved l))
    else if c <? n then cs <- set_range (cells l) (count l) (n - c) (Some v) ;; Ok (Lst cs (wrap_s 32 n) (reserved l))
    else Ok l.

  (** [TupleOrListOfType::reverse], TupleOrListOfType.cpp:277-293 (used by the string types' rsplit). *)
  Fixpoint swap_from (cs : list (option V)) (c k : Z) (n : nat) : result (list (option V)) :=
    match n with
    | O => Ok cs
    | S n =>
        x <- read cs k ;; y <- read cs (c - 1 - k) ;;
        cs <- write cs k y ;; cs <- write cs (c - 1 - k) x ;; swap_from cs c (k + 1) n
    end.
  Definition reverse (l : lst) : result lst :=
    if count l <=? 1 then Ok l
    else cs <- swap_from (cells l) (count l) 0 (Z.to_nat (Z.quot (count l) 2)) ;; Ok (Lst cs (count l) (reserved l)).

  (** ** What a program sees *)

  (** [Pending r]: the call gives [r] although an exception is set. *)
  Inductive reply :=
  | Nothing
  | Number (n : Z)
  | Item (v : V)
  | NewList (l : lst)
  | Raised (e : exn)
  | Pending (r : reply).

  (** An argument of [append]: a value, or in compiled code an element of this very list. *)
  Inductive operand := Value (v : V) | Own (i : Z).

  Inductive op :=
  | Append (x : operand)
  | ExtendTyped (vs : list V)        (* by another ListOf of the same type *)
  | ExtendSelf                       (* by itself *)
  | ExtendIterable (vs : list V)     (* by anything else that can be iterated *)
  | Pop (i : option Z)
  | Get (i : Z)
  | Set_ (i : Z) (v : V)
  | Slice (start stop step : option Z)
  | Resize (n : Z) (v : option V)
  | Reserve (n : Z)
  | Clear
  | Copy
  | AddTyped (vs : list V)           (* [l + other] for another ListOf of the same type *)
  | Len
  | Reserved.

  Definition in_int64 (i : Z) : bool := (- 2 ^ 63 <=? i) && (i <? 2 ^ 63).

  (** [PyLong_AsLongLong] of the Python C API: an integer that does not fit gives -1 and sets OverflowError. *)
  Definition as_long_long (i : Z) : Z := if in_int64 i then i else -1.
  (** The reply of code that goes on without looking whether [PyLong_AsLongLong] set an error. *)
  Definition pending (i : Z) (r : reply) : reply := if in_int64 i then r else Pending r.

  (** [PySlice_Unpack], [PySlice_AdjustIndices] of the Python C API, together [PySlice_GetIndicesEx]. *)
  Definition slice_clip (i : Z) : Z := Z.max (- 2 ^ 63) (Z.min (2 ^ 63 - 1) i).
  Definition slice_unpack (start stop step : option Z) : result (Z * Z * Z) :=
    let step := match step with None => 1 | Some k => Z.max (- (2 ^ 63 - 1)) (slice_clip k) end in
    if step =? 0 then Err ValueError
    else
      Ok (match start with None => if step <? 0 then 2 ^ 63 - 1 else 0 | Some i => slice_clip i end,
          match stop with None => if step <? 0 then - 2 ^ 63 else 2 ^ 63 - 1 | Some i => slice_clip i end,
          step).
  Definition slice_adjust (n step i : Z) : Z :=
    if i <? 0 then
      if i + n <? 0 then (if step <? 0 then -1 else 0) else i + n
    else if n <=? i then (if step <? 0 then n - 1 else n)
    else i.
  Definition slice_length (start stop step : Z) : Z :=
    if step <? 0 then (if stop <? start then Z.quot (start - stop - 1) (- step) + 1 else 0)
    else if start <? stop then Z.quot (stop - start - 1) step + 1
    else 0.

  (** The methods of the interpreter. *)
  Definition interpreted (l : lst) (o : op) : result (lst * reply) :=
    let done (r : result lst) := l <- r ;; Ok (l, Nothing) in
    match o with
    | Append (Value v) => done (append l v)            (* [listAppendDirect], PyTupleOrListOfInstance.cpp:729-762 *)
    | Append (Own i) =>                                (* the element was made a Python object of its own *)
        v <- read (cells l) i ;; done (append l v)
    | ExtendTyped vs =>                                                 (* [listExtend], 768-811 *)
        done (extend l (Z.of_nat (length vs))
                (fun _ i => match nth_error vs (Z.to_nat i) with Some v => Ok v | None => Err UndefinedBehaviour end))
    | ExtendSelf => done (extend l (count l) read)
    | ExtendIterable vs => done (fold_left (fun r v => l <- r ;; append l v) vs (Ok l))
    | Pop i =>                                                          (* [listPop], 945-989 *)
        let which := match i with Some i => as_long_long i | None => -1 end in
        let flag := match i with Some i => pending i | None => fun r => r end in
        if count l =? 0 then Ok (l, Raised IndexError)
        else
          let which := if which <? 0 then which + count l else which in
          if (which <? 0) || (count l <=? which) then Ok (l, Raised IndexError)
          else v <- read (cells l) which ;; l <- remove l which ;; Ok (l, flag (Item v))
    | Get i =>                                                          (* [sq_item_concrete], 548-567 *)
        let ix := as_long_long i in
        let ix := if ix <? 0 then ix + count l else ix in
        if (count l <=? ix) || (ix <? 0) then Ok (l, Raised IndexError)
        else v <- read (cells l) ix ;; Ok (l, pending i (Item v))
    | Set_ i v =>                                                       (* [mp_ass_subscript_concrete], 1069-1128 *)
        let ix := as_long_long i in
        let ix := if ix <? 0 then ix + count l else ix in
        if (count l <=? ix) || (ix <? 0) then Ok (l, Raised IndexError)
        else cs <- write (cells l) ix v ;; Ok (Lst cs (count l) (reserved l), pending i Nothing)
    | Slice start stop step =>                                          (* [mp_subscript_concrete], 573-594 *)
        match slice_unpack start stop step with
        | Err e => Ok (l, Raised e)
        | Ok (start, stop, step) =>
            let start := slice_adjust (count l) step start in
            let stop := slice_adjust (count l) step stop in
            new <- construct (slice_length start stop step) (fun k => read (cells l) (start + k * step)) ;;
            Ok (l, NewList new)
        end
    | Resize n v =>                                                     (* [listResize], 884-934 *)
        let size := as_long_long n in
        l <- resize l (wrap_u 64 size) (match v with Some v => v | None => default end) ;;
        Ok (l, pending n Nothing)
    | Reserve n =>                                  (* [listReserve], 839-859: the 64-bit number becomes an [int] *)
        l <- reserve l (wrap_u 64 (wrap_s 32 (as_long_long n))) ;; Ok (l, pending n Nothing)
    | Clear => done (resize l 0 default)                                (* [listClear], 864-875 *)
    | Copy => new <- construct (count l) (read (cells l)) ;; Ok (l, NewList new)   (* [copyListObject], TupleOrListOfType.cpp:296-300 *)
    | AddTyped vs =>                                                    (* [pyOperatorAdd], 84-116 *)
        let n := Z.of_nat (length vs) in
        new <- construct (wrap_s 32 (count l + n))
                 (fun k => if k <? count l then read (cells l) k
                           else match nth_error vs (Z.to_nat (k - count l)) with
                                | Some v => Ok v | None => Err UndefinedBehaviour end) ;;
        Ok (l, NewList new)
    | Len => Ok (l, Number (count l))                                   (* [mp_and_sq_length_concrete], 569-571 *)
    | Reserved => Ok (l, Number (wrap_s 64 (wrap_u 64 (reserved l))))   (* [listReserved], 820-829 *)
    end.

  (** ** Compiled code; integers are 64 bits wide and wrap around *)

  Definition i64 (x : Z) : Z := wrap_s 64 x.

  (** [generateReserve], list_of_wrapper.py:322-345. *)
  Definition c_reserve (l : lst) (n : Z) : result lst :=
    let n := if n <? count l then count l else n in
    cs <- realloc (cells l) (wrap_u 64 (w * n)) ;; Ok (Lst cs (count l) (wrap_s 32 n)).

  (** The value of an operand: an operand passed by pointer is read when it is used, and then its memory is
      gone if the block was reallocated in the meantime. *)
  Definition operand_value (l : lst) (x : operand) (moved : bool) : result V :=
    match x with
    | Value v => Ok v
    | Own i => if by_ref && moved then Err UndefinedBehaviour else read (cells l) i
    end.

  (** [generateAppend], list_of_wrapper.py:295-304. *)
  Definition c_append (l : lst) (x : operand) : result lst :=
    let full := reserved l <? count l + 1 in
    v <- operand_value l x full ;;
    l <- (if full then c_reserve l (Z.quot (count l * 5 + 4) 4) else Ok l) ;;
    cs <- write (cells l) (count l) v ;;
    Ok (Lst cs (wrap_s 32 (count l + 1)) (reserved l)).

  (** [list_of_extend], list_of_wrapper.py:29-37: [for i in range(len(extendWith)): aList.append(extendWith[i])]. *)
  Fixpoint c_extend_self (l : lst) (i : Z) (n : nat) : result lst :=
    match n with O => Ok l | S n => l <- c_append l (Own i) ;; c_extend_self l (i + 1) n end.

  (** [generatePop], list_of_wrapper.py:216-260. *)
  Definition c_pop (l : lst) (i : Z) : result (lst * reply) :=
    let i := if i <? 0 then i64 (i + count l) else i in
    if (i <? 0) || (count l <=? i) then Ok (l, Raised IndexError)
    else
      v <- read (cells l) i ;;
      cs <- close_gap (cells l) i (count l) ;;
      Ok (Lst cs (wrap_s 32 (count l - 1)) (reserved l), Item v).

  (** [generateResize], list_of_wrapper.py:262-285. *)
  Definition c_resize (l : lst) (n : Z) (v : V) : result lst :=
    if count l =? n then Ok l
    else if count l <? n then
      l <- (if reserved l <? n then c_reserve l n else Ok l) ;;
      cs <- set_range (cells l) (count l) (n - count l) (Some v) ;;
      Ok (Lst cs (wrap_s 32 n) (reserved l))
    else
      cs <- destroy_range (cells l) n (count l - n) ;;
      Ok (Lst cs (wrap_s 32 n) (reserved l)).

  (** [PreReservedTupleOrList], tuple_of_wrapper.py:113-182: room for [n] elements, of which there are none. *)
  Definition pre_reserved (n : Z) : result lst :=
    cs <- malloc (wrap_u 64 (w * n)) ;; Ok (Lst cs 0 (wrap_s 32 n)).

  (** [list_or_tupleof_of_slice], tuple_of_wrapper.py:238-304.  The loop stores elements through a pointer
      from cell [j] of the new list on; it can store no more of them than there is room for ([n] is what is left). *)
  Fixpoint c_slice_loop (src out : list (option V)) (i rd stop step j : Z) (n : nat) : result (list (option V)) :=
    if (if 0 <? step then i <? stop else stop <? i) then
      match n with
      | O => Err UndefinedBehaviour
      | S n =>
          v <- read src rd ;; out <- write out j v ;;
          c_slice_loop src out (i64 (i + step)) (rd + step) stop step (j + 1) n
      end
    else Ok out.
  Definition c_slice_bounds (n : Z) (start stop : option Z) (step : Z) : Z * Z * Z :=
    if 0 <? step then
      let start := match start with None => 0 | Some i => i end in
      let stop := match stop with None => n | Some i => i end in
      let start := if start <? 0 then i64 (start + n) else start in
      let stop := if stop <? 0 then i64 (stop + n) else stop in
      let start := Z.max 0 start in
      let stop := Z.min n stop in
      (start, stop, Z.max 0 (i64 (i64 (i64 (stop - start) + i64 (step - 1)) / step)))
    else
      let start := match start with None => n - 1 | Some i => i end in
      let stop := match stop with None => - 1 - n | Some i => i end in
      let start := if start <? 0 then i64 (start + n) else start in
      let stop := if stop <? 0 then i64 (stop + n) else stop in
      let start := Z.min (n - 1) start in
      let stop := Z.max (-1) stop in
      (start, stop, Z.max 0 (i64 (i64 (i64 (start - stop) + i64 (i64 (- step) - 1)) / i64 (- step)))).
  (** [is_tuple]: the result is a TupleOf, which is a null pointer when it is empty; the code stores its size
      all the same. *)
  Definition c_slice (is_tuple : bool) (l : lst) (start stop step : option Z) : result (lst + exn) :=
    let step := match step with None => 1 | Some k => k end in
    if step =? 0 then Ok (inr ValueError)
    else
      let '(start, stop, n) := c_slice_bounds (count l) start stop step in
      if is_tuple && (n =? 0) then Err UndefinedBehaviour
      else
        new <- pre_reserved n ;;
        out <- c_slice_loop (cells l) (cells new) start start stop step 0 (length (cells new)) ;;
        Ok (inl (Lst out (wrap_s 32 n) (reserved new))).

  (** [concatenate_tuple_or_list], tuple_of_wrapper.py:202-217, and [generateCopy], list_of_wrapper.py:306-320,
      fill a list with room for everything. *)
  Definition c_concatenate (l : lst) (vs : list V) : result lst :=
    let n := Z.of_nat (length vs) in
    new <- pre_reserved (i64 (count l + n)) ;;
    cs <- construct_from (read (cells l)) (cells new) 0 (Z.to_nat (count l)) ;;
    cs <- extend_from (fun _ i => match nth_error vs (Z.to_nat i) with Some v => Ok v | None => Err UndefinedBehaviour end)
            cs (count l) 0 (length vs) ;;
    Ok (Lst cs (wrap_s 32 (count l + n)) (reserved new)).
  Definition c_copy (l : lst) : result lst :=
    cs <- malloc (wrap_u 64 w) ;;                                       (* [createEmptyList], 362-378 *)
    new <- c_reserve (Lst cs 0 1) (count l) ;;
    cs <- construct_from (read (cells l)) (cells new) 0 (Z.to_nat (count l)) ;;
    Ok (Lst cs (wrap_s 32 (count l)) (reserved new)).

  Definition compiled (l : lst) (o : op) : result (lst * reply) :=
    let done (r : result lst) := l <- r ;; Ok (l, Nothing) in
    match o with
    | Append x => done (c_append l x)
    | ExtendTyped vs | ExtendIterable vs => done (fold_left (fun r v => l <- r ;; c_append l (Value v)) vs (Ok l))
    | ExtendSelf => done (c_extend_self l 0 (Z.to_nat (count l)))
    | Pop i => c_pop l (match i with Some i => i | None => -1 end)
    | Get i =>                                       (* [convert_getitem], tuple_of_wrapper.py:484-510 *)
        let ix := if i <? 0 then i64 (i + count l) else i in
        if (0 <=? ix) && (ix <? count l) then v <- read (cells l) ix ;; Ok (l, Item v) else Ok (l, Raised IndexError)
    | Set_ i v =>                                    (* [convert_setitem], list_of_wrapper.py:380-399 *)
        let ix := if i <? 0 then i64 (i + count l) else i in
        if (0 <=? ix) && (ix <? count l) then
          cs <- write (cells l) ix v ;; Ok (Lst cs (count l) (reserved l), Nothing)
        else Ok (l, Raised IndexError)
    | Slice start stop step =>
        r <- c_slice false l start stop step ;;
        Ok (l, match r with inl new => NewList new | inr e => Raised e end)
    | Resize n v => done (c_resize l n (match v with Some v => v | None => default end))
    | Reserve n => done (c_reserve l n)
    | Clear =>                                       (* [generateClear], list_of_wrapper.py:287-293 *)
        done (cs <- destroy_range (cells l) 0 (count l) ;; Ok (Lst cs 0 (reserved l)))
    | Copy => new <- c_copy l ;; Ok (l, NewList new)
    | AddTyped vs => new <- c_concatenate l vs ;; Ok (l, NewList new)
    | Len => Ok (l, Number (count l))
    | Reserved => Ok (l, Number (reserved l))
    end.

  (** A history: the same list is used by interpreted and by compiled code. *)
  Inductive mode := Interpreted | Compiled.
  Definition step (m : mode) (l : lst) (o : op) : result (lst * reply) :=
    match m with Interpreted => interpreted l o | Compiled => compiled l o end.
  Fixpoint run (l : lst) (h : list (mode * op)) : result (lst * list reply) :=
    match h with
    | [] => Ok (l, [])
    | (m, o) :: h =>
        '(l, r) <- step m l o ;; '(l, rs) <- run l h ;; Ok (l, r :: rs)
    end.

  (** How a list comes into being: [ListOf(T)()], [ListOf(T)(iterable)] and [ListOf(T)()] in compiled code. *)
  Definition empty : result lst := construct 0 (fun _ => Err UndefinedBehaviour).
  Definition c_empty : result lst := cs <- malloc (wrap_u 64 w) ;; Ok (Lst cs 0 1).
End ListOf.
