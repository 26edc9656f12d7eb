(** Model of ConstDict: typed_python/ConstDictType.cpp and .hpp for the interpreter,
    compiler/type_wrappers/const_dict_wrapper.py for compiled code.

    A ConstDict is the list of its (key, value) pairs in memory order; the null layout and a layout
    without pairs are both the empty list.  Not modelled: reference counts, the never used tree
    layout ([subpointers], always 0), and the 32-bit width of [count] (ConstDictType.hpp:33). *)
From Verif Require Import Base HashAcc_Model.
Open Scope Z_scope.
Open Scope result_scope.

(** Whether an operation runs in the interpreter or in compiled code. *)
Inductive side := Interpreter | CompiledCode.

(** The operators of a comparison (CPython's [Py_LT], ...). *)
Inductive cmpop := LT | LE | EQ | NE | GT | GE.

(** [cmpResultToBoolForPyOrdering], util.hpp:215-224: the answer of an operator for a three-way result. *)
Definition cmp_result (op : cmpop) (c : Z) : bool :=
  match op with
  | LT => c <? 0 | LE => c <=? 0 | EQ => c =? 0 | NE => negb (c =? 0) | GT => 0 <? c | GE => 0 <=? c
  end.

Section ConstDict.
  Context {K V : Type}.
  (** [<] and [==] of the key and value types.  [a > b] is [b < a] and [a != b] is [not a == b]. *)
  Variable lt eqb : K -> K -> bool.
  Variable vlt veqb : V -> V -> bool.
  (** [std::sort(indices.begin(), indices.end(), less)]. *)
  Variable std_sort : (nat -> nat -> bool) -> list nat -> list nat.

  Notation dict := (list (K * V)).

  (** [kvPairPtrKey(self, i)] and [kvPairPtrValue(self, i)], ConstDictType.cpp:331-349: no bounds
      check. *)
  Definition pair_at (d : dict) (i : nat) : result (K * V) :=
    match nth_error d i with Some kv => Ok kv | None => Err UndefinedBehaviour end.

  (** [sortKvPairs], ConstDictType.cpp:360-404.  Moving the pairs through the temporary buffer is the
      reordering by [indices]. *)
  Definition sortKvPairs (d : dict) : dict :=
    match d with
    | [] | [_] => d
    | [a; b] => if lt (fst b) (fst a) then [b; a] else d
    | first :: _ =>
        let key i := fst (nth i d first) in
        let indices := std_sort (fun l r => lt (key l) (key r)) (seq 0 (length d)) in
        map (fun i => nth i d first) indices
    end.

  (** [constructor] with an initializer, ConstDictType.hpp:324-340, called on the converted items of
      a mapping (PyConstDictInstance.cpp:521-585); [initialize_const_dict_from_mappable] and the
      construction from a dict display, const_dict_wrapper.py:333-366 and 641-699, write the pairs
      and call the same sort. *)
  Definition construct (items : list (K * V)) : dict := sortKvPairs items.

  (** [lookupIndexByKey], ConstDictType.cpp:458-483. *)
  Fixpoint lookup_loop (fuel : nat) (d : dict) (key : K) (low high : nat) : result (option nat) :=
    if (high <=? low)%nat then Ok None else
    match fuel with
    | O => Err OutOfFuel
    | S fuel =>
        let mid := ((low + high) / 2)%nat in
        '(k, _) <- pair_at d mid ;;
        if eqb k key then Ok (Some mid)
        else if lt k key then lookup_loop fuel d key (S mid) high
        else lookup_loop fuel d key low mid
    end.
  Definition lookupIndexByKey (d : dict) (key : K) : result (option nat) :=
    lookup_loop (length d) d key 0 (length d).

  (** [const_dict_index_of_key], const_dict_wrapper.py:136-153; the loops of [const_dict_getitem] and
      [const_dict_get], 96-133, are the same. *)
  Fixpoint index_loop (fuel : nat) (d : dict) (key : K) (lowIx highIx : nat) : result (option nat) :=
    if (highIx <=? lowIx)%nat then Ok None else
    match fuel with
    | O => Err OutOfFuel
    | S fuel =>
        let mid := ((lowIx + highIx) / 2)%nat in
        '(keyAtVal, _) <- pair_at d mid ;;
        if lt keyAtVal key then index_loop fuel d key (S mid) highIx
        else if lt key keyAtVal then index_loop fuel d key lowIx mid
        else Ok (Some mid)
    end.
  Definition const_dict_index_of_key (d : dict) (key : K) : result (option nat) :=
    index_loop (length d) d key 0 (length d).

  Definition index_of (s : side) : dict -> K -> result (option nat) :=
    match s with Interpreter => lookupIndexByKey | CompiledCode => const_dict_index_of_key end.

  (** [d.get(key)] and, with KeyError for [None], [d[key]]: ConstDictType.cpp:485-491 with
      PyConstDictInstance.cpp:384-417, and const_dict_wrapper.py:96-133. *)
  Definition get (s : side) (d : dict) (key : K) : result (option V) :=
    ix <- index_of s d key ;;
    match ix with
    | None => Ok None
    | Some i => '(_, v) <- pair_at d i ;; Ok (Some v)
    end.
  Definition getitem (s : side) (d : dict) (key : K) : result V :=
    r <- get s d key ;; match r with Some v => Ok v | None => Err KeyError end.
  (** [key in d]: PyConstDictInstance.cpp:274-292, const_dict_wrapper.py:156-157. *)
  Definition contains (s : side) (d : dict) (key : K) : result bool :=
    ix <- index_of s d key ;; Ok match ix with Some _ => true | None => false end.

  (** [addDicts], ConstDictType.cpp:252-279. *)
  Fixpoint keep_loop (lhs rhs : dict) : result dict :=
    match lhs with
    | [] => Ok []
    | (k, v) :: lhs =>
        found <- lookupIndexByKey rhs k ;;
        keep <- keep_loop lhs rhs ;;
        Ok match found with Some _ => keep | None => (k, v) :: keep end
    end.
  Definition addDicts (lhs rhs : dict) : result dict :=
    keep <- keep_loop lhs rhs ;;
    Ok (sortKvPairs (rhs ++ keep)).

  (** The indices both subtractions collect first, ConstDictType.cpp:287-294 and
      const_dict_wrapper.py:205-210; the [std::set] and the [Set] are lists here. *)
  Fixpoint indices_of (s : side) (d : dict) (keys : list K) : result (list nat) :=
    match keys with
    | [] => Ok []
    | k :: keys =>
        ix <- index_of s d k ;;
        rest <- indices_of s d keys ;;
        Ok match ix with
           | Some i => if existsb (Nat.eqb i) rest then rest else i :: rest
           | None => rest
           end
    end.

  (** Writing the next pair into a layout with room for [space] pairs. *)
  Definition write (space : nat) (out : dict) (kv : K * V) : result dict :=
    if (length out <? space)%nat then Ok (out ++ [kv]) else Err UndefinedBehaviour.

  Fixpoint copy_others (space : nat) (remove : list nat) (k : nat) (d : dict) (out : dict) : result dict :=
    match d with
    | [] => Ok out
    | kv :: d =>
        if existsb (Nat.eqb k) remove then copy_others space remove (S k) d out
        else out <- write space out kv ;; copy_others space remove (S k) d out
    end.

  (** [subtractTupleOfKeysFromDict], ConstDictType.cpp:281-311, and [const_dict_sub],
      const_dict_wrapper.py:203-233 (with its assertion). *)
  Definition subtract (s : side) (lhs : dict) (keys : list K) : result dict :=
    remove <- indices_of s lhs keys ;;
    let space := (length lhs - length remove)%nat in
    match s with
    | Interpreter => copy_others space remove 0 lhs []
    | CompiledCode =>
        if (length remove =? length lhs)%nat then Ok []
        else
          out <- copy_others space remove 0 lhs [] ;;
          if (length out =? space)%nat then Ok out else Err GenericError
    end.

  (** The first loop of [const_dict_add], const_dict_wrapper.py:251-268: the number of pairs of [lhs]
      that stay. *)
  Fixpoint count_kept (fuel : nat) (lhs rhs : dict) (lhsIx rhsIx kept : nat) : result nat :=
    if (length lhs <=? lhsIx)%nat then Ok kept else
    match fuel with
    | O => Err OutOfFuel
    | S fuel =>
        if (rhsIx <? length rhs)%nat then
          '(lhsKey, _) <- pair_at lhs lhsIx ;;
          '(rhsKey, _) <- pair_at rhs rhsIx ;;
          if lt lhsKey rhsKey then count_kept fuel lhs rhs (S lhsIx) rhsIx (S kept)
          else if lt rhsKey lhsKey then count_kept fuel lhs rhs lhsIx (S rhsIx) kept
          else count_kept fuel lhs rhs (S lhsIx) (S rhsIx) kept
        else count_kept fuel lhs rhs (S lhsIx) rhsIx (S kept)
    end.

  (** The second loop, const_dict_wrapper.py:280-323. *)
  Fixpoint merge_loop (fuel : nat) (space : nat) (lhs rhs : dict) (lhsIx rhsIx : nat) (out : dict) : result dict :=
    if negb ((lhsIx <? length lhs) || (rhsIx <? length rhs))%nat then Ok out else
    match fuel with
    | O => Err OutOfFuel
    | S fuel =>
        if ((rhsIx <? length rhs) && (lhsIx <? length lhs))%nat then
          '(lhsKey, lhsValue) <- pair_at lhs lhsIx ;;
          '(rhsKey, rhsValue) <- pair_at rhs rhsIx ;;
          if lt lhsKey rhsKey then
            out <- write space out (lhsKey, lhsValue) ;;
            merge_loop fuel space lhs rhs (S lhsIx) rhsIx out
          else
            out <- write space out (rhsKey, rhsValue) ;;
            merge_loop fuel space lhs rhs (if eqb lhsKey rhsKey then S lhsIx else lhsIx) (S rhsIx) out
        else if (lhsIx <? length lhs)%nat then
          kv <- pair_at lhs lhsIx ;;
          out <- write space out kv ;;
          merge_loop fuel space lhs rhs (S lhsIx) rhsIx out
        else
          kv <- pair_at rhs rhsIx ;;
          out <- write space out kv ;;
          merge_loop fuel space lhs rhs lhsIx (S rhsIx) out
    end.

  (** [const_dict_add], const_dict_wrapper.py:236-330, with its assertion. *)
  Definition const_dict_add (lhs rhs : dict) : result dict :=
    match lhs, rhs with
    | [], _ => Ok rhs
    | _, [] => Ok lhs
    | _, _ =>
        let fuel := (length lhs + length rhs)%nat in
        kept <- count_kept fuel lhs rhs 0 0 0 ;;
        let space := (length rhs + kept)%nat in
        out <- merge_loop fuel space lhs rhs 0 0 [] ;;
        if (length out =? space)%nat then Ok out else Err GenericError
    end.

  Definition add (s : side) : dict -> dict -> result dict :=
    match s with Interpreter => addDicts | CompiledCode => const_dict_add end.

  (** The two loops of [cmp] for the ordering operators, ConstDictType.cpp:228-248, on two layouts of
      the same length: the first difference decides. *)
  Fixpoint first_difference {A} (ltA eqA : A -> A -> bool) (l r : list A) : Z :=
    match l, r with
    | x :: l, y :: r => if negb (eqA x y) then if ltA x y then -1 else 1 else first_difference ltA eqA l r
    | _, _ => 0
    end.

  (** The loop for [==], ConstDictType.cpp:218-226. *)
  Fixpoint all_equal (values : bool) (l r : dict) : bool :=
    match l, r with
    | (k1, v1) :: l, (k2, v2) :: r =>
        if negb (eqb k1 k2) || (values && negb (veqb v1 v2)) then false else all_equal values l r
    | _, _ => true
    end.

  (** [cmp], ConstDictType.cpp:199-250, with [same] whether the two instances share a layout.  [values]
      is [compareValues]; the call made for [!=] does not pass it on, so it is [true] there. *)
  Definition cmp_not_ne (values : bool) (op : cmpop) (same : bool) (l r : dict) : bool :=
    if (length l <? length r)%nat then cmp_result op (-1)
    else if (length r <? length l)%nat then cmp_result op 1
    else if same then cmp_result op 0
    else match op with
         | EQ => all_equal values l r
         | _ =>
             let c := first_difference lt eqb (map fst l) (map fst r) in
             if negb (c =? 0) then cmp_result op c
             else if values then cmp_result op (first_difference vlt veqb (map snd l) (map snd r))
             else cmp_result op 0
         end.
  Definition cmp (values : bool) (op : cmpop) (same : bool) (l r : dict) : bool :=
    match op with
    | NE => negb (cmp_not_ne true EQ same l r)
    | _ => cmp_not_ne values op same l r
    end.

  (** [const_dict_eq], const_dict_wrapper.py:34-45. *)
  Fixpoint eq_loop (l r : dict) : bool :=
    match l, r with
    | (k1, v1) :: l, (k2, v2) :: r =>
        if negb (eqb k1 k2) then false else if negb (veqb v1 v2) then false else eq_loop l r
    | _, _ => true
    end.
  Definition const_dict_eq (l r : dict) : bool :=
    if negb (length l =? length r)%nat then false else eq_loop l r.

  (** [const_dict_lt] and [const_dict_lte], const_dict_wrapper.py:52-85: [atEnd] is the final
      comparison of the lengths. *)
  Fixpoint lt_loop (l r : dict) (atEnd : bool) : bool :=
    match l, r with
    | (k1, v1) :: l, (k2, v2) :: r =>
        if lt k2 k1 then false
        else if lt k1 k2 then true
        else if vlt v2 v1 then false
        else if vlt v1 v2 then true
        else lt_loop l r atEnd
    | _, _ => atEnd
    end.
  Definition const_dict_lt (l r : dict) : bool := lt_loop l r (length l <? length r)%nat.
  Definition const_dict_lte (l r : dict) : bool := lt_loop l r (length l <=? length r)%nat.

  (** The comparison operators of compiled code, const_dict_wrapper.py:48-49, 88-93 and 701-714. *)
  Definition compiled_cmp (op : cmpop) (l r : dict) : bool :=
    match op with
    | EQ => const_dict_eq l r
    | NE => negb (const_dict_eq l r)
    | LT => const_dict_lt l r
    | LE => const_dict_lte l r
    | GT => negb (const_dict_lte l r)
    | GE => negb (const_dict_lt l r)
    end.

  (** [hash], ConstDictType.cpp:175-197: the result and the cache after the call.  22 is
      [catConstDict].  Compiled code calls the same function (const_dict_wrapper.py:449-458). *)
  Variable khash : K -> Z.
  Variable vhash : V -> Z.
  Definition computed_hash (d : dict) : Z :=
    finish_hash (acc_all (acc_add 22 (Z.of_nat (length d)))
                         (flat_map (fun kv => [khash (fst kv); vhash (snd kv)]) d)).
  Definition hash (cache : Z) (d : dict) : Z * Z :=
    match d with
    | [] => (1193046, cache)
    | _ => if cache =? -1 then (computed_hash d, computed_hash d) else (cache, cache)
    end.

  (** Programs that build ConstDicts: construction from a mapping, [a + b] and [a - keys]. *)
  Inductive expr :=
  | Build (s : side) (items : list (K * V))
  | Plus (s : side) (a b : expr)
  | Minus (s : side) (a : expr) (keys : list K).

  Fixpoint eval (e : expr) : result dict :=
    match e with
    | Build _ items => Ok (construct items)
    | Plus s a b => a <- eval a ;; b <- eval b ;; add s a b
    | Minus s a keys => a <- eval a ;; subtract s a keys
    end.
End ConstDict.
Arguments expr K V : clear implicits.
