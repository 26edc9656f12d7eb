(** Model of the methods, operators and comparisons of Set(T): typed_python/PySetInstance.cpp and
    typed_python/SetType.cpp for the interpreter, and
    typed_python/compiler/type_wrappers/set_wrapper.py and hash_table_implementation.py for
    compiled code.

    A Set is the hash table of Hash_Model.v with values of type [unit].  Several Sets live in a
    store, so that a method may be given the very Set it is called on.

    Simplifications.  All Sets of the store have the same element type, and every element of an
    iterable argument has already been converted to it.  A [for] loop over a Set that is not
    modified by its body is a walk over its items in slot order ([elems]); Hash_Proofs.v proves
    that the iterators do exactly that ([iter_all_ok], [c_iter_all_ok]).  Where the body does modify
    the Set the iterator is modelled step by step. *)
From Verif Require Import Base PyList Hash_Model.
Open Scope Z_scope.
Open Scope result_scope.

Section Sets.
  Context {K : Type}.
  Variable eqb : K -> K -> bool.
  Variable hash : K -> Z.

  Notation set := (table K unit).

  (** The elements in slot order (SetType.hpp:78-88, PySetInstance.cpp:18-25). *)
  Definition elems (t : set) : list K := map fst (live (items t)).

  (** SetType.cpp:52-61 ([lookupKey]); hash_table_implementation.py:287-292. *)
  Definition contains (t : set) (k : K) : result bool :=
    s <- find eqb hash t k ;; Ok (0 <=? s).

  (** PySetInstance.cpp:1112-1117 ([insertKey] of the wrapper, used by [add], [copy_elements] and
      every operation below); hash_table_implementation.py:295-303. *)
  Definition set_add (t : set) (k : K) : result set :=
    s <- find eqb hash t k ;;
    if s <? 0 then insert_key hash t k tt else Ok t.

  (** SetType.cpp:20-31 and hash_table_implementation.py:325-328, without the answer. *)
  Definition discard (t : set) (k : K) : result set := '(t, _) <- remove eqb hash t k ;; Ok t.
  Definition c_discard (t : set) (k : K) : result set := '(t, _) <- c_remove eqb hash t k ;; Ok t.

  (** hash_table_implementation.py:306-316 *)
  Definition set_add_or_remove (t : set) (k : K) : result set :=
    s <- find eqb hash t k ;;
    if s =? -1 then insert_key hash t k tt else c_discard t k.

  (** PySetInstance.cpp:156-182 *)
  Definition copy_elements (dst : set) (l : list K) : result set := fold_result set_add l dst.

  (** Adding to [dst] the elements of [l] for which [test] answers [want]. *)
  Definition add_if (test : K -> result bool) (want : bool) (dst : set) (l : list K) : result set :=
    fold_result (fun dst k => b <- test k ;; if Bool.eqb b want then set_add dst k else Ok dst) l dst.

  (** Whether [test] answers [want] for every element, stopping at the first other answer. *)
  Fixpoint all_tests (test : K -> result bool) (want : bool) (l : list K) : result bool :=
    match l with
    | [] => Ok true
    | k :: l => b <- test k ;; if Bool.eqb b want then all_tests test want l else Ok false
    end.

  (** ** The interpreter *)

  (** What a method is given beside the Set [self]: [self] itself, the same Set through another
      Python object, another Set, or another iterable. *)
  Inductive argument : Type :=
  | ArgSame
  | ArgAlias
  | ArgSet (t : set)
  | ArgList (l : list K).

  Definition arg_elems (self : set) (x : argument) : list K :=
    match x with
    | ArgSame | ArgAlias => elems self
    | ArgSet t => elems t
    | ArgList l => l
    end.

  (** PySetInstance.cpp:187-211 ([setCopy]) *)
  Definition i_copy (a : set) : result set := copy_elements new_table (elems a).

  (** PySetInstance.cpp:213-264: the elements of the argument, in its order, that are in [a]. *)
  Definition i_intersection (a : set) (x : argument) : result set :=
    add_if (contains a) true new_table (arg_elems a x).

  (** The test of hash_table_layout.hpp:127-129 in [remove]: the item array is compressed. *)
  Definition will_compress (t : set) : bool := (count (idx t) + 2) * 4 <? reserved t.

  (** PySetInstance.cpp:280-284 with SetType.hpp:78-88: [discard] is given a pointer into the item
      array.  When [remove] compresses that array the pointer is used after the items have been
      moved and the array reallocated. *)
  Fixpoint visit_discard (n : nat) (k : Z) (a : set) (other : option set) : result set :=
    match n with
    | O => Ok a
    | S n =>
        if k <? reserved a then
          it <- rd (items a) k ;;
          match it with
          | None => visit_discard n (k + 1) a other
          | Some (key, _) =>
              found <- contains (match other with Some t => t | None => a end) key ;;
              if found : bool then visit_discard n (k + 1) a other
              else if will_compress a then Err UndefinedBehaviour
              else a <- discard a key ;; visit_discard n (k + 1) a other
          end
        else Ok a
    end.

  (** PySetInstance.cpp:267-313 *)
  Definition i_intersection_update (a : set) (x : argument) : result (set * option exn) :=
    match x with
    | ArgSame => Ok (a, None)
    | ArgAlias => a <- visit_discard (length (items a)) 0 a None ;; Ok (a, None)
    | ArgSet t => a <- visit_discard (length (items a)) 0 a (Some t) ;; Ok (a, None)
    | ArgList l =>
        copy <- i_copy a ;;
        a <- add_if (contains copy) true (clear a) l ;;
        Ok (a, None)
    end.

  (** [for item in a: a.discard(item)]: the loop of PySetInstance.cpp:360-367 over [a] itself.  The
      iterator raises once the size has changed; the method then reports a TypeError (lines
      901-903). *)
  Fixpoint discard_own (next : set -> iterator -> result (option (K * unit) * iterator))
           (drop : set -> K -> result set) (e : exn) (fuel : nat) (a : set) (it : iterator)
    : result (set * option exn) :=
    match fuel with
    | O => Err OutOfFuel
    | S fuel =>
        match next a it with
        | Err GenericError => Ok (a, Some e)
        | Err e => Err e
        | Ok (None, _) => Ok (a, None)
        | Ok (Some (k, _), it) => a <- drop a k ;; discard_own next drop e fuel a it
        end
    end.

  (** PySetInstance.cpp:353-376 *)
  Definition i_difference_update (a : set) (x : argument) : result (set * option exn) :=
    match x with
    | ArgSame => Ok (clear a, None)
    | ArgAlias => discard_own iter_next discard TypeError (S (length (items a))) a (iter_start a)
    | ArgSet _ | ArgList _ => a <- fold_result discard (arg_elems a x) a ;; Ok (a, None)
    end.

  (** PySetInstance.cpp:315-350 *)
  Definition i_difference (a : set) (x : argument) : result set :=
    match x with
    | ArgSame | ArgAlias => add_if (contains a) false new_table (elems a)
    | ArgSet t => add_if (contains t) false new_table (elems a)
    | ArgList l => copy <- i_copy a ;; fold_result discard l copy
    end.

  (** PySetInstance.cpp:522-565 *)
  Definition i_symmetric_difference_update (a : set) (x : argument) : result (set * option exn) :=
    match x with
    | ArgSame => Ok (clear a, None)
    | _ =>
        removed <- add_if (contains a) true new_table (arg_elems a x) ;;
        added <- add_if (contains a) false new_table (arg_elems a x) ;;
        a <- fold_result discard (elems removed) a ;;
        a <- copy_elements a (elems added) ;;
        Ok (a, None)
    end.

  (** PySetInstance.cpp:468-520 *)
  Definition i_symmetric_difference (a : set) (x : argument) : result set :=
    match x with
    | ArgList l =>
        copy <- i_copy a ;;
        '(copy, _) <- i_symmetric_difference_update copy x ;;
        Ok copy
    | _ =>
        let t := match x with ArgSet t => t | _ => a end in
        r <- add_if (contains t) false new_table (elems a) ;;
        add_if (contains a) false r (elems t)
    end.

  (** PySetInstance.cpp:567-600 and 762-804 *)
  Definition i_union (a : set) (x : argument) : result set :=
    r <- i_copy a ;; copy_elements r (arg_elems a x).

  (** PySetInstance.cpp:956-965 *)
  Definition i_update (a : set) (x : argument) : result (set * option exn) :=
    a <- copy_elements a (arg_elems a x) ;; Ok (a, None).

  (** PySetInstance.cpp:386-425 and set_wrapper.py:252-262: the elements found so far are collected
      in [shadow]; the answer is known when it has as many elements as [a]. *)
  Fixpoint subset_shadow (a shadow : set) (l : list K) : result bool :=
    match l with
    | [] => Ok false
    | k :: l =>
        b <- contains a k ;;
        if b : bool then
          shadow <- set_add shadow k ;;
          if count (idx shadow) =? count (idx a) then Ok true else subset_shadow a shadow l
        else subset_shadow a shadow l
    end.

  Definition subset_iterable (a : set) (l : list K) : result bool :=
    if count (idx a) =? 0 then Ok true else subset_shadow a new_table l.

  Definition i_is_subset (a : set) (x : argument) : result bool :=
    match x with ArgSame => Ok true | _ => subset_iterable a (arg_elems a x) end.

  (** PySetInstance.cpp:427-446 *)
  Definition i_is_superset (a : set) (x : argument) : result bool :=
    match x with ArgSame => Ok true | _ => all_tests (contains a) true (arg_elems a x) end.

  (** PySetInstance.cpp:448-466 *)
  Definition i_is_disjoint (a : set) (x : argument) : result bool :=
    match x with ArgSame => Ok false | _ => all_tests (contains a) false (arg_elems a x) end.

  Inductive comparison : Type := CEq | CNe | CLe | CLt | CGe | CGt.

  (** cmpResultToBoolForPyOrdering (Type.hpp:61-70) for the results 0 and 1. *)
  Definition bool_for_ordering (c : comparison) (r : Z) : bool :=
    match c with
    | CEq => r =? 0
    | CNe => negb (r =? 0)
    | CLe => r <=? 0
    | CLt => r <? 0
    | CGe => 0 <=? r
    | CGt => 0 <? r
    end.

  (** SetType.cpp:126-138; set_wrapper.py:244-248. *)
  Definition set_subset (a b : set) : result bool := all_tests (contains b) true (elems a).

  (** SetType.cpp:140-176, for two different tables. *)
  Definition i_compare (c : comparison) (a b : set) : result bool :=
    let l := count (idx a) in
    let r := count (idx b) in
    match c with
    | CEq | CNe =>
        if negb (l =? r) then Ok (bool_for_ordering c 1)
        else s <- set_subset a b ;; Ok (bool_for_ordering c (if s : bool then 0 else 1))
    | CLe => if r <? l then Ok false else set_subset a b
    | CLt => if r <=? l then Ok false else set_subset a b
    | CGe => if l <? r then Ok false else set_subset b a
    | CGt => if l <=? r then Ok false else set_subset b a
    end.

  (** ** Comparison with a builtin Python set *)

  (** A builtin set is the list of its elements, no two of them equal. *)
  Definition builtin_contains (r : list K) (k : K) : bool := existsb (fun x => eqb k x) r.

  (** PySetInstance.cpp:1310-1319.  The visitor returns [found <= 0], and [visitSetElements] stops
      when the visitor returns false: the walk ends at the first element that IS in [r]. *)
  Fixpoint builtin_subset_walk (found : bool) (l : list K) (r : list K) : bool :=
    match l with
    | [] => found
    | k :: l => if builtin_contains r k then true else builtin_subset_walk false l r
    end.

  Definition builtin_subset (a : set) (r : list K) : bool := builtin_subset_walk true (elems a) r.

  (** PySetInstance.cpp:1321-1341 *)
  Fixpoint builtin_superset_walk (n : Z) (l : list K) (r : list K) : Z :=
    match l with
    | [] => n
    | k :: l =>
        if builtin_contains r k then
          if Z.of_nat (length r) <=? n + 1 then n + 1 else builtin_superset_walk (n + 1) l r
        else builtin_superset_walk n l r
    end.

  Definition builtin_superset (a : set) (r : list K) : bool :=
    match r with
    | [] => true
    | _ => Z.of_nat (length r) <=? builtin_superset_walk 0 (elems a) r
    end.

  (** PySetInstance.cpp:1343-1393 *)
  Definition compare_builtin (c : comparison) (a : set) (r : list K) : bool :=
    let nl := count (idx a) in
    let nr := Z.of_nat (length r) in
    match c with
    | CEq | CNe =>
        if negb (nl =? nr) then bool_for_ordering c 1
        else bool_for_ordering c (if builtin_subset a r then 0 else 1)
    | CLe => if nr <? nl then false else builtin_subset a r
    | CLt => if nr <=? nl then false else builtin_subset a r
    | CGe => if nl <? nr then false else builtin_superset a r
    | CGt => if nl <=? nr then false else builtin_superset a r
    end.

  (** ** Compiled code *)

  (** set_wrapper.py:112-121; [copy()] is [copy_table]. *)
  Definition c_union (a b : set) : result set :=
    if count (idx b) <=? count (idx a) then copy_elements (copy_table a) (elems b)
    else copy_elements (copy_table b) (elems a).

  (** [for i in l: if test(i) is not true: result.discard(i)] *)
  Definition discard_unless (test : K -> result bool) (r : set) (l : list K) : result set :=
    fold_result (fun r k => b <- test k ;; if b : bool then Ok r else c_discard r k) l r.

  (** set_wrapper.py:124-135 *)
  Definition c_intersection (a b : set) : result set :=
    if count (idx b) <? count (idx a) then discard_unless (contains a) (copy_table b) (elems b)
    else discard_unless (contains b) (copy_table a) (elems a).

  (** set_wrapper.py:138-149; [len(left) / 4 > len(right)] is a comparison of floats, exact for
      these sizes. *)
  Definition c_difference (a b : set) : result set :=
    if 4 * count (idx b) <? count (idx a) then fold_result c_discard (elems b) (copy_table a)
    else add_if (contains b) false new_table (elems a).

  (** set_wrapper.py:152-169 *)
  Definition c_symmetric_difference (a b : set) : result set :=
    if 2 * count (idx b) <? count (idx a) then fold_result set_add_or_remove (elems b) (copy_table a)
    else if 2 * count (idx a) <? count (idx b) then fold_result set_add_or_remove (elems a) (copy_table b)
    else
      r <- add_if (contains b) false new_table (elems a) ;;
      add_if (contains a) false r (elems b).

  (** set_wrapper.py:194-197 *)
  Definition c_update (a : set) (x : argument) : result (set * option exn) :=
    a <- copy_elements a (arg_elems a x) ;; Ok (a, None).

  (** set_wrapper.py:215-221: when the argument is [left] itself it is empty by the time it is
      iterated over. *)
  Definition c_intersection_update (a : set) (x : argument) : result (set * option exn) :=
    match x with
    | ArgSame | ArgAlias => Ok (c_clear a, None)
    | _ =>
        a <- add_if (contains (copy_table a)) true (c_clear a) (arg_elems a x) ;;
        Ok (a, None)
    end.

  (** set_wrapper.py:231-234; the compiled iterator raises RuntimeError ([GenericError]). *)
  Definition c_difference_update (a : set) (x : argument) : result (set * option exn) :=
    match x with
    | ArgSame | ArgAlias => discard_own c_iter_next c_discard GenericError (S (length (items a))) a (c_iter_start a)
    | _ => a <- fold_result c_discard (arg_elems a x) a ;; Ok (a, None)
    end.

  (** set_wrapper.py:172-184 *)
  Definition c_sym_step (s : set * set * set) (k : K) : result (set * set * set) :=
    let '(a, removed, added) := s in
    b <- contains a k ;;
    if b : bool then removed <- set_add removed k ;; Ok (a, removed, added)
    else added <- set_add added k ;; a <- set_add a k ;; Ok (a, removed, added).

  Definition c_symmetric_difference_update (a : set) (x : argument) : result (set * option exn) :=
    '(a, removed, added) <- fold_result c_sym_step (arg_elems a x) (a, new_table, new_table) ;;
    a <- fold_result c_discard (elems removed) a ;;
    a <- copy_elements a (elems added) ;;
    Ok (a, None).

  (** set_wrapper.py:525-535 (the choice between the two), 237-275. *)
  Definition c_is_subset (a : set) (x : argument) : result bool :=
    match x with
    | ArgSame | ArgAlias => set_subset a a
    | ArgSet t => set_subset a t
    | ArgList l => subset_iterable a l
    end.

  Definition c_is_superset (a : set) (x : argument) : result bool :=
    all_tests (contains a) true (arg_elems a x).

  Definition c_is_disjoint (a : set) (x : argument) : result bool :=
    all_tests (contains a) false (arg_elems a x).

  (** set_wrapper.py:271-281, 650-675 *)
  Definition c_proper_subset (a b : set) : result bool :=
    s <- set_subset a b ;; Ok (s && (count (idx a) <? count (idx b))).

  Definition c_compare (c : comparison) (a b : set) : result bool :=
    match c with
    | CEq => if count (idx a) =? count (idx b) then set_subset a b else Ok false
    | CNe => if count (idx a) =? count (idx b) then s <- set_subset b a ;; Ok (negb s) else Ok true
    | CLe => set_subset a b
    | CLt => c_proper_subset a b
    | CGe => set_subset b a
    | CGt => c_proper_subset b a
    end.

  (** ** Programs over a store of Sets *)

  Inductive binary : Type := Union | Intersection | Difference | SymmetricDifference.
  Inductive test : Type := IsSubset | IsSuperset | IsDisjoint.

  (** An argument as the program writes it: another variable of the store ([same] tells whether it
      is the same Python object as the receiver, when it names the same Set), or an iterable. *)
  Inductive arg : Type :=
  | Other (j : nat) (same : bool)
  | Iterable (l : list K).

  (** The objects are numbered in the order of their creation. *)
  Inductive set_op : Type :=
  | MakeSet (l : list K)                            (* Set(T)(l): a new object *)
  | CopySet (i : nat)                               (* s.copy(): a new object *)
  | AddKey (i : nat) (k : K)                        (* s.add(k) *)
  | DiscardKey (i : nat) (k : K)                    (* s.discard(k) *)
  | RemoveKey (i : nat) (k : K)                     (* s.remove(k) *)
  | PopKey (i : nat)                                (* s.pop() *)
  | ClearSet (i : nat)                              (* s.clear() *)
  | InSet (i : nat) (k : K)                         (* k in s *)
  | LenSet (i : nat)                                (* len(s) *)
  | Elements (i : nat)                              (* list(s) *)
  | Operator (b : binary) (i j : nat)               (* s | t, s & t, s - t, s ^ t: a new object *)
  | Method (b : binary) (i : nat) (args : list arg) (* s.union(...) and so on: a new object *)
  | InPlace (b : binary) (i : nat) (args : list arg)(* s.update(...), s.intersection_update(...) *)
  | Compare (c : comparison) (i j : nat)            (* s == t, s <= t, ... *)
  | Test (q : test) (i : nat) (x : arg)             (* s.issubset(x), ... *)
  | CompareBuiltin (c : comparison) (i : nat) (r : list K). (* s == {...}, ... *)

  Inductive set_outcome : Type :=
  | SDone
  | SBool (b : bool)
  | SInt (n : Z)
  | SObject (i : nat)
  | SKey (k : K)
  | SKeys (l : list K)
  | SRaises (e : exn).

  Definition store : Type := list set.

  (** A number that no object has stands for an empty Set that is thrown away afterwards. *)
  Definition get (st : store) (i : nat) : set := nth i st new_table.
  Definition put (st : store) (i : nat) (t : set) : store := replace_nth i t st.

  Definition resolve (st : store) (i : nat) (x : arg) : argument :=
    match x with
    | Other j same => if Nat.eqb i j then if same then ArgSame else ArgAlias else ArgSet (get st j)
    | Iterable l => ArgList l
    end.

  (** For a method that works on a fresh object, no argument is the receiver. *)
  Definition resolve_other (st : store) (x : arg) : argument :=
    match x with Other j _ => ArgSet (get st j) | Iterable l => ArgList l end.

  Definition fresh_object (st : store) (r : result set) : result (store * set_outcome) :=
    t <- r ;; Ok (st ++ [t], SObject (length st)).

  (** A method that updates its receiver with each argument in turn and stops at an exception. *)
  Fixpoint in_place (f : set -> argument -> result (set * option exn)) (i : nat) (args : list arg) (st : store)
    : result (store * set_outcome) :=
    match args with
    | [] => Ok (st, SDone)
    | x :: args =>
        '(t, e) <- f (get st i) (resolve st i x) ;;
        match e with
        | None => in_place f i args (put st i t)
        | Some e => Ok (put st i t, SRaises e)
        end
    end.

  (** PySetInstance.cpp:997-1032; hash_table_implementation.py:331-342. *)
  Definition pop_first (drop : set -> K -> result (set * bool)) (t : set) : result (set * option K) :=
    let off := next_populated t 0 in
    if reserved t <=? off then Ok (t, None)
    else
      kv <- rd_item t off ;;
      '(t, b) <- drop t (fst kv) ;;
      if b : bool then Ok (t, Some (fst kv)) else Err GenericError.

  Definition pop_outcome (st : store) (i : nat) (r : set * option K) : store * set_outcome :=
    (put st i (fst r), match snd r with Some k => SKey k | None => SRaises KeyError end).

  (** PySetInstance.cpp:609-631 (difference), 639-649, 735-751 (intersection), 762-804 (union). *)
  Definition i_method (b : binary) (st : store) (i : nat) (args : list arg) : result (store * set_outcome) :=
    match b, args with
    | SymmetricDifference, [x] => fresh_object st (i_symmetric_difference (get st i) (resolve st i x))
    | SymmetricDifference, _ => Ok (st, SRaises TypeError)
    | _, [] => fresh_object st (i_copy (get st i))
    | Union, _ =>
        fresh_object st (r <- i_copy (get st i) ;;
                         fold_result (fun r x => copy_elements r (arg_elems r (resolve_other st x))) args r)
    | Intersection, x :: args =>
        fresh_object st (r <- i_intersection (get st i) (resolve st i x) ;;
                         fold_result (fun r x => i_intersection r (resolve_other st x)) args r)
    | Difference, x :: args =>
        fresh_object st (r <- i_difference (get st i) (resolve st i x) ;;
                         fold_result (fun r x => '(r, _) <- i_difference_update r (resolve_other st x) ;; Ok r) args r)
    end.

  (** PySetInstance.cpp:834-863, 872-905, 913-937, 945-970. *)
  Definition i_in_place (b : binary) (st : store) (i : nat) (args : list arg) : result (store * set_outcome) :=
    match b with
    | Union => in_place i_update i args st
    | Intersection => in_place i_intersection_update i args st
    | Difference => in_place i_difference_update i args st
    | SymmetricDifference =>
        match args with
        | [_] => in_place i_symmetric_difference_update i args st
        | _ => Ok (st, SRaises TypeError)
        end
    end.

  (** PySetInstance.cpp:1221-1308: the operators. *)
  Definition i_operator (b : binary) (x y : set) : result set :=
    match b with
    | Union => i_union x (ArgSet y)
    | Intersection => i_intersection x (ArgSet y)
    | Difference => i_difference x (ArgSet y)
    | SymmetricDifference => i_symmetric_difference x (ArgSet y)
    end.

  Definition c_operator (b : binary) (x y : set) : result set :=
    match b with
    | Union => c_union x y
    | Intersection => c_intersection x y
    | Difference => c_difference x y
    | SymmetricDifference => c_symmetric_difference x y
    end.

  Definition i_step (o : set_op) (st : store) : result (store * set_outcome) :=
    match o with
    | MakeSet l => fresh_object st (copy_elements new_table l)
    | CopySet i => fresh_object st (i_copy (get st i))
    | AddKey i k => t <- set_add (get st i) k ;; Ok (put st i t, SDone)
    | DiscardKey i k => t <- discard (get st i) k ;; Ok (put st i t, SDone)
    | RemoveKey i k =>
        '(t, b) <- remove eqb hash (get st i) k ;;
        Ok (put st i t, if b : bool then SDone else SRaises KeyError)
    | PopKey i => r <- pop_first (remove eqb hash) (get st i) ;; Ok (pop_outcome st i r)
    | ClearSet i => Ok (put st i (clear (get st i)), SDone)
    | InSet i k => b <- contains (get st i) k ;; Ok (st, SBool b)
    | LenSet i => Ok (st, SInt (count (idx (get st i))))
    | Elements i =>
        l <- iter_all iter_next (S (length (items (get st i)))) (get st i) (iter_start (get st i)) ;;
        Ok (st, SKeys (map fst l))
    | Operator b i j => fresh_object st (i_operator b (get st i) (get st j))
    | Method b i args => i_method b st i args
    | InPlace b i args => i_in_place b st i args
    | Compare c i j =>
        b <- (if Nat.eqb i j then Ok (bool_for_ordering c 0) else i_compare c (get st i) (get st j)) ;;
        Ok (st, SBool b)
    | Test q i x =>
        b <- match q with
             | IsSubset => i_is_subset (get st i) (resolve st i x)
             | IsSuperset => i_is_superset (get st i) (resolve st i x)
             | IsDisjoint => i_is_disjoint (get st i) (resolve st i x)
             end ;;
        Ok (st, SBool b)
    | CompareBuiltin c i r => Ok (st, SBool (compare_builtin c (get st i) r))
    end.

  (** set_wrapper.py:187-213, 224-229: [result |= o] makes a new Set each time; without arguments
      the result is the receiver itself.  Arguments that are not Sets are not modelled. *)
  Definition c_method (b : binary) (st : store) (i : nat) (args : list arg) : result (store * set_outcome) :=
    let fold := fresh_object st (fold_result (fun r x =>
                  match x with
                  | Other j _ => c_operator b r (get st j)
                  | Iterable _ => Err NotImplementedError
                  end) args (get st i)) in
    match b, args with
    | SymmetricDifference, [_] => fold
    | SymmetricDifference, _ => Ok (st, SRaises TypeError)
    | _, [] => Ok (st, SObject i)
    | _, _ => fold
    end.

  Definition c_in_place (b : binary) (st : store) (i : nat) (args : list arg) : result (store * set_outcome) :=
    match b with
    | Union => in_place c_update i args st
    | Intersection => in_place c_intersection_update i args st
    | Difference => in_place c_difference_update i args st
    | SymmetricDifference =>
        match args with
        | [_] => in_place c_symmetric_difference_update i args st
        | _ => Ok (st, SRaises TypeError)
        end
    end.

  Definition c_set_step (o : set_op) (st : store) : result (store * set_outcome) :=
    match o with
    | MakeSet l => fresh_object st (copy_elements new_table l)
    | CopySet i => fresh_object st (Ok (copy_table (get st i)))
    | AddKey i k => t <- set_add (get st i) k ;; Ok (put st i t, SDone)
    | DiscardKey i k => t <- c_discard (get st i) k ;; Ok (put st i t, SDone)
    | RemoveKey i k =>
        '(t, b) <- c_remove eqb hash (get st i) k ;;
        Ok (put st i t, if b : bool then SDone else SRaises KeyError)
    | PopKey i => r <- pop_first (c_remove eqb hash) (get st i) ;; Ok (pop_outcome st i r)
    | ClearSet i => Ok (put st i (c_clear (get st i)), SDone)
    | InSet i k => b <- contains (get st i) k ;; Ok (st, SBool b)
    | LenSet i => Ok (st, SInt (count (idx (get st i))))
    | Elements i =>
        l <- iter_all c_iter_next (S (length (items (get st i)))) (get st i) (c_iter_start (get st i)) ;;
        Ok (st, SKeys (map fst l))
    | Operator b i j => fresh_object st (c_operator b (get st i) (get st j))
    | Method b i args => c_method b st i args
    | InPlace b i args => c_in_place b st i args
    | Compare c i j => b <- c_compare c (get st i) (get st j) ;; Ok (st, SBool b)
    | Test q i x =>
        b <- match q with
             | IsSubset => c_is_subset (get st i) (resolve st i x)
             | IsSuperset => c_is_superset (get st i) (resolve st i x)
             | IsDisjoint => c_is_disjoint (get st i) (resolve st i x)
             end ;;
        Ok (st, SBool b)
    | CompareBuiltin _ _ _ => Err NotImplementedError
    end.

  Definition set_step (m : mode) : set_op -> store -> result (store * set_outcome) :=
    match m with Interpreted => i_step | Compiled => c_set_step end.

  Fixpoint set_run (l : list (mode * set_op)) (st : store) : result (store * list set_outcome) :=
    match l with
    | [] => Ok (st, [])
    | (m, o) :: l =>
        '(st, r) <- set_step m o st ;;
        '(st, rs) <- set_run l st ;;
        Ok (st, r :: rs)
    end.
End Sets.

Arguments set_op : clear implicits.
Arguments set_outcome : clear implicits.
Arguments arg : clear implicits.
