(** Model of typed_python/lib/sorted_dict.py.

    A Node object is reachable from one parent only (every function replaces or adopts
    whole subtrees), so the mutable tree is modelled by a value that each method returns;
    [None] is [Leaf].  [self.count] is a field, as in the code.  The comparator is pure.
    Mutation during iteration is not modelled. *)
From Verif Require Import Base.
Open Scope Z_scope.
Open Scope result_scope.

Section SortedDict.
  Context {K V : Type}.
  Variable less : K -> K -> bool.

  (** class Node, sorted_dict.py:16-22. *)
  Inductive tree :=
  | Leaf
  | Node (key : K) (value : V) (lt rt : tree) (count : Z).

  (** [0 if x is None else x.count] *)
  Definition count_of (t : tree) : Z := match t with Leaf => 0 | Node _ _ _ _ c => c end.

  (** [__contains__], sorted_dict.py:24-36. *)
  Fixpoint contains (t : tree) (k : K) : bool :=
    match t with
    | Leaf => false
    | Node key _ l r _ => if less k key then contains l k else if less key k then contains r k else true
    end.

  (** [get], sorted_dict.py:38-48. *)
  Fixpoint get (t : tree) (k : K) : result V :=
    match t with
    | Leaf => Err KeyError
    | Node key v l r _ => if less k key then get l k else if less key k then get r k else Ok v
    end.

  (** [rebalance], sorted_dict.py:161-243, with [set] as a parameter because the two
      methods call each other. *)
  Definition rebalance (set : tree -> K -> V -> result (tree * bool)) (t : tree) : result tree :=
    match t with
    | Leaf => Err GenericError
    | Node key value lt rt count =>
        match lt, rt with
        | Leaf, Leaf => if count =? 1 then Ok t else Err GenericError          (* the assertion *)
        | Leaf, Node _ _ _ _ rcount =>
            if rcount <=? 2 then Ok t
            else '(rt, _) <- set rt key value ;; Ok rt               (* become *)
        | Node _ _ _ _ lcount, Leaf =>
            if lcount <=? 2 then Ok t
            else '(lt, _) <- set lt key value ;; Ok lt
        | Node lkey lvalue llNode lrNode lcount, Node rkey rvalue rlNode rrNode rcount =>
            let ll := count_of llNode in
            let lr := count_of lrNode in
            let rl := count_of rlNode in
            let rr := count_of rrNode in
            if (3 + lr + rl + rr) * 2 <? ll then
              let newRight := Node key value lrNode rt (1 + lr + rcount) in
              Ok (Node lkey lvalue llNode newRight (1 + count_of llNode + count_of newRight))
            else if (3 + rl + lr + ll) * 2 <? rr then
              let newLeft := Node key value lt rlNode (1 + rl + lcount) in
              Ok (Node rkey rvalue newLeft rrNode (1 + count_of newLeft + count_of rrNode))
            else Ok t
        end
    end.

  (** [set], sorted_dict.py:50-75: the new node and whether a key was added.  The case
      [Leaf] is the creation of a node by the caller. *)
  Fixpoint set (fuel : nat) (t : tree) (k : K) (v : V) : result (tree * bool) :=
    match fuel with
    | O => Err OutOfFuel
    | S fuel =>
        match t with
        | Leaf => Err GenericError
        | Node key value lt rt count =>
            if less k key then
              match lt with
              | Leaf => Ok (Node key value (Node k v Leaf Leaf 1) rt (count + 1), true)
              | _ =>
                  '(lt, added) <- set fuel lt k v ;;
                  if (added : bool) then
                    t <- rebalance (set fuel) (Node key value lt rt (count + 1)) ;; Ok (t, true)
                  else Ok (Node key value lt rt count, false)
              end
            else if less key k then
              match rt with
              | Leaf => Ok (Node key value lt (Node k v Leaf Leaf 1) (count + 1), true)
              | _ =>
                  '(rt, added) <- set fuel rt k v ;;
                  if (added : bool) then
                    t <- rebalance (set fuel) (Node key value lt rt (count + 1)) ;; Ok (t, true)
                  else Ok (Node key value lt rt count, false)
              end
            else Ok (Node key v lt rt count, false)
        end
    end.

  (** The recursion of [set] needs no more than the number of nodes and a constant
      ([set_total] in SortedDict_Proofs.v). *)
  Fixpoint size (t : tree) : nat := match t with Leaf => 0%nat | Node _ _ l r _ => S (size l + size r) end.
  Definition node_set (t : tree) (k : K) (v : V) : result (tree * bool) := set (size t + 8) t k v.

  (** [first] and [last], sorted_dict.py:77-85. *)
  Fixpoint first (t : tree) : result K :=
    match t with
    | Leaf => Err GenericError
    | Node key _ Leaf _ _ => Ok key
    | Node _ _ l _ _ => first l
    end.
  Fixpoint last (t : tree) : result K :=
    match t with
    | Leaf => Err GenericError
    | Node key _ _ Leaf _ => Ok key
    | Node _ _ _ r _ => last r
    end.

  (** [if x.remove(k): x = None] *)
  Definition drop_if_empty (p : tree * bool) : tree := if snd p then Leaf else fst p.

  (** [remove], sorted_dict.py:107-159: the new node and whether it is now empty.  The case
      [Leaf] is the KeyError of the caller. *)
  Fixpoint remove (t : tree) (k : K) : result (tree * bool) :=
    match t with
    | Leaf => Err KeyError
    | Node key value lt rt count =>
        if less k key then
          p <- remove lt k ;;
          t <- rebalance node_set (Node key value (drop_if_empty p) rt (count - 1)) ;;
          Ok (t, false)
        else if less key k then
          p <- remove rt k ;;
          t <- rebalance node_set (Node key value lt (drop_if_empty p) (count - 1)) ;;
          Ok (t, false)
        else if count =? 1 then Ok (t, true)
        else
          match lt, rt with
          | Node _ _ _ _ _, Leaf => Ok (lt, false)                            (* become(left) *)
          | Leaf, Node _ _ _ _ _ => Ok (rt, false)
          | _, _ =>
              if count_of rt <? count_of lt then
                key <- last lt ;;
                value <- get lt key ;;
                p <- remove lt key ;;
                t <- rebalance node_set (Node key value (drop_if_empty p) rt (count - 1)) ;;
                Ok (t, false)
              else
                key <- first rt ;;
                value <- get rt key ;;
                p <- remove rt key ;;
                t <- rebalance node_set (Node key value lt (drop_if_empty p) (count - 1)) ;;
                Ok (t, false)
          end
    end.

  (** [height], sorted_dict.py:245-250, 262-265. *)
  Fixpoint height (t : tree) : Z :=
    match t with
    | Leaf => 0
    | Node _ _ l r _ => Z.max 0 (Z.max (1 + height l) (1 + height r))
    end.

  (** class SortedDict_, sorted_dict.py:252-361.  The dictionary is its [_root]. *)
  Definition d_getitem (d : tree) (k : K) : result V := match d with Leaf => Err KeyError | _ => get d k end.  (* 267-272 *)
  Definition d_contains (d : tree) (k : K) : bool := match d with Leaf => false | _ => contains d k end.      (* 274-279 *)
  Definition d_setitem (d : tree) (k : K) (v : V) : result tree :=                                            (* 281-286 *)
    match d with
    | Leaf => Ok (Node k v Leaf Leaf 1)
    | _ => '(d, _) <- node_set d k v ;; Ok d
    end.
  Definition d_delitem (d : tree) (k : K) : result tree :=                                                    (* 288-294 *)
    match d with
    | Leaf => Err KeyError
    | _ => p <- remove d k ;; Ok (drop_if_empty p)
    end.
  Definition d_pop (d : tree) (k : K) : result (V * tree) :=                                                  (* 296-304 *)
    match d with
    | Leaf => Err KeyError
    | _ => res <- get d k ;; p <- remove d k ;; Ok (res, drop_if_empty p)
    end.
  Definition d_pop_default (d : tree) (k : K) (v : V) : result (V * tree) :=                                  (* 306-314 *)
    if negb (d_contains d k) then Ok (v, d)
    else res <- get d k ;; p <- remove d k ;; Ok (res, drop_if_empty p).
  Definition d_first (d : tree) : result (option K) :=                                                        (* 316-321 *)
    match d with Leaf => Ok None | _ => k <- first d ;; Ok (Some k) end.
  Definition d_last (d : tree) : result (option K) :=                                                         (* 323-328 *)
    match d with Leaf => Ok None | _ => k <- last d ;; Ok (Some k) end.
  Definition d_get_default (d : tree) (k : K) (v : V) : result V :=                                           (* 334-338 *)
    if d_contains d k then d_getitem d k else Ok v.
  Definition d_setdefault (d : tree) (k : K) (v : V) : result (V * tree) :=                                   (* 346-350 *)
    d <- (if negb (d_contains d k) then d_setitem d k v else Ok d) ;;
    res <- d_getitem d k ;; Ok (res, d).
  Definition d_len (d : tree) : Z := count_of d.                                                              (* 360-361 *)

  (** [__init__(other)], sorted_dict.py:258-260: set every item of the other dictionary. *)
  Fixpoint d_init (d : tree) (other : list (K * V)) : result tree :=
    match other with
    | [] => Ok d
    | (k, v) :: other => d <- d_setitem d k v ;; d_init d other
    end.

  (** [items], sorted_dict.py:369-393: the generator's stack, top first; [out] is what has
      been yielded. *)
  Fixpoint items_loop (fuel : nat) (stack : list (tree * bool)) : result (list (K * V)) :=
    match stack with
    | [] => Ok []
    | (node, wayDown) :: stack =>
        match fuel with
        | O => Err OutOfFuel
        | S fuel =>
            match node with
            | Leaf => Err GenericError
            | Node key value lt rt _ =>
                let push_right stack := match rt with Leaf => stack | _ => (rt, true) :: stack end in
                if (wayDown : bool) then
                  match lt with
                  | Leaf => rest <- items_loop fuel (push_right stack) ;; Ok ((key, value) :: rest)
                  | _ => items_loop fuel ((lt, true) :: (node, false) :: stack)
                  end
                else rest <- items_loop fuel (push_right stack) ;; Ok ((key, value) :: rest)
            end
        end
    end.
  Definition d_items (d : tree) : result (list (K * V)) :=
    match d with Leaf => Ok [] | _ => items_loop (2 * size d) [(d, true)] end.

  (** [__iter__], sorted_dict.py:395-419, is the same loop yielding keys. *)
  Fixpoint iter_loop (fuel : nat) (stack : list (tree * bool)) : result (list K) :=
    match stack with
    | [] => Ok []
    | (node, wayDown) :: stack =>
        match fuel with
        | O => Err OutOfFuel
        | S fuel =>
            match node with
            | Leaf => Err GenericError
            | Node key value lt rt _ =>
                let push_right stack := match rt with Leaf => stack | _ => (rt, true) :: stack end in
                if (wayDown : bool) then
                  match lt with
                  | Leaf => rest <- iter_loop fuel (push_right stack) ;; Ok (key :: rest)
                  | _ => iter_loop fuel ((lt, true) :: (node, false) :: stack)
                  end
                else rest <- iter_loop fuel (push_right stack) ;; Ok (key :: rest)
            end
        end
    end.
  Definition d_iter (d : tree) : result (list K) :=
    match d with Leaf => Ok [] | _ => iter_loop (2 * size d) [(d, true)] end.

  (** A program's use of one dictionary. *)
  Inductive op :=
  | SetItem (k : K) (v : V) | DelItem (k : K) | Pop (k : K) | PopDefault (k : K) (v : V)
  | SetDefault (k : K) (v : V) | GetItem (k : K) | GetDefault (k : K) (v : V) | Contains (k : K)
  | Len | First | Last | Items | Iter.
  Inductive answer :=
  | Done | Value (v : V) | Bool (b : bool) | Number (n : Z) | Key (k : option K)
  | ItemList (l : list (K * V)) | KeyList (l : list K) | Raised (e : exn).

  (** An exception leaves the dictionary as it was: every method raises KeyError before it
      changes a node. *)
  Definition step (d : tree) (o : op) : tree * answer :=
    let change (r : result tree) := match r with Ok d => (d, Done) | Err e => (d, Raised e) end in
    let change_value (r : result (V * tree)) := match r with Ok (v, d) => (d, Value v) | Err e => (d, Raised e) end in
    let ask {X} (f : X -> answer) (r : result X) := (d, match r with Ok x => f x | Err e => Raised e end) in
    match o with
    | SetItem k v => change (d_setitem d k v)
    | DelItem k => change (d_delitem d k)
    | Pop k => change_value (d_pop d k)
    | PopDefault k v => change_value (d_pop_default d k v)
    | SetDefault k v => change_value (d_setdefault d k v)
    | GetItem k => ask Value (d_getitem d k)
    | GetDefault k v => ask Value (d_get_default d k v)
    | Contains k => (d, Bool (d_contains d k))
    | Len => (d, Number (d_len d))
    | First => ask Key (d_first d)
    | Last => ask Key (d_last d)
    | Items => ask ItemList (d_items d)
    | Iter => ask KeyList (d_iter d)
    end.
  Fixpoint run (d : tree) (ops : list op) : tree * list answer :=
    match ops with
    | [] => (d, [])
    | o :: ops => let '(d, a) := step d o in let '(d, l) := run d ops in (d, a :: l)
    end.
End SortedDict.
Arguments tree : clear implicits.
Arguments op : clear implicits.
Arguments answer : clear implicits.
