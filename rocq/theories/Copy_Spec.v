(** What a copy of a graph of objects is. *)
From Coq Require Import Permutation.
From Verif Require Import Base Copy_Model.
Open Scope Z_scope.
Open Scope list_scope.

(** The objects that a value points to, once for each pointer, and the value with its pointers moved. *)
Fixpoint refs (v : val) : list addr :=
  match v with
  | Plain _ | Pointer None | Unset _ => nil
  | Pointer (Some a) => [a]
  | Parts vs | Held vs => flat_map refs vs
  | Choice _ v => refs v
  end.
Fixpoint move (f : addr -> addr) (v : val) : val :=
  match v with
  | Plain _ | Pointer None | Unset _ => v
  | Pointer (Some a) => Pointer (Some (f a))
  | Parts vs => Parts (map (move f) vs)
  | Held vs => Held (map (move f) vs)
  | Choice which v => Choice which (move f v)
  end.
(** Every member of a class has a value. *)
Fixpoint whole (v : val) : bool :=
  match v with
  | Unset _ => false
  | Parts vs | Held vs => forallb whole vs
  | Choice _ v => whole v
  | _ => true
  end.

(** The same for an object. *)
Definition vals_in (n : node) : list val :=
  match n with
  | ListNode _ _ _ _ items => items
  | StringNode _ _ _ | BytesNode _ _ => nil
  | ConstDictNode _ _ pairs => flat_map (fun p => [fst p; snd p]) pairs
  | AlternativeNode _ _ v | ClassNode _ _ v | CellNode _ v => [v]
  | DictNode _ _ _ slots _ => flat_map (fun o => match o with Some p => [fst p; snd p] | None => nil end) slots
  | SetNode _ _ slots _ => flat_map (fun o => match o with Some v => [v] | None => nil end) slots
  end.
Definition node_refs (n : node) : list addr := flat_map refs (vals_in n).
Definition move_node (f : addr -> addr) (n : node) : node :=
  match n with
  | ListNode t p w h items => ListNode t p w h (map (move f) items)
  | StringNode _ _ _ | BytesNode _ _ => n
  | ConstDictNode w h pairs => ConstDictNode w h (map (fun p => (move f (fst p), move f (snd p))) pairs)
  | AlternativeNode i w v => AlternativeNode i w (move f v)
  | ClassNode i w v => ClassNode i w (move f v)
  | DictNode a b w slots t => DictNode a b w (map (option_map (fun p => (move f (fst p), move f (snd p)))) slots) t
  | SetNode a w slots t => SetNode a w (map (option_map (move f)) slots) t
  | CellNode w v => CellNode w (move f v)
  end.

(** What a type says about its objects: a size is not negative, and what holds no references holds none.  And no member is without a value;
    a cell may be. *)
Definition no_refs (v : val) : Prop := refs v = nil.
Definition sound (n : node) : Prop :=
  match n with
  | ListNode _ pod w _ items => 0 <= w /\ (pod = true -> Forall no_refs items) /\ Forall (fun v => whole v = true) items
  | StringNode w _ _ => 0 <= w
  | BytesNode _ _ => True
  | ConstDictNode w _ pairs => 0 <= w /\ Forall (fun v => whole v = true) (vals_in n)
  | AlternativeNode _ w v | ClassNode _ w v => 0 <= w /\ whole v = true
  | DictNode kp vp w slots _ =>
      0 <= w /\ (forall k v, In (Some (k, v)) slots -> (kp = true -> no_refs k) /\ (vp = true -> no_refs v)) /\
      Forall (fun v => whole v = true) (vals_in n)
  | SetNode pod w slots _ => 0 <= w /\ (pod = true -> Forall no_refs (vals_in n)) /\ Forall (fun v => whole v = true) (vals_in n)
  | CellNode w v => 0 <= w /\ (whole v = true \/ exists pod, v = Unset pod)
  end.

(** The objects that can be reached from a value. *)
Inductive reach (h : heap) (root : val) : addr -> Prop :=
| reach_root a : In a (refs root) -> reach h root a
| reach_next a rc n b : reach h root a -> h a = Some (rc, n) -> In b (node_refs n) -> reach h root b.

(** How often [a] is in a list, and how often the objects of a list point to it. *)
Definition times (a : addr) (l : list addr) : Z := Z.of_nat (count_occ Z.eq_dec l a).
Definition total {A} (f : A -> Z) (l : list A) : Z := fold_right (fun x t => f x + t) 0 l.
Definition out (h : heap) (b : addr) : list addr := match h b with Some (_, n) => node_refs n | None => nil end.

(** An object that can be copied: all that is reached is there, no object is reached from itself, and a refcount counts at least the
    pointers from what is copied. *)
Record copyable (h : heap) (root : val) : Prop := Copyable {
  complete : whole root = true;
  present : forall a, reach h root a -> exists rc n, h a = Some (rc, n) /\ sound n;
  acyclic : exists rank : addr -> nat, forall a b, reach h root a -> In b (out h a) -> (rank b < rank a)%nat;
  counted : forall a rc n l, reach h root a -> h a = Some (rc, n) -> NoDup l -> (forall b, In b l -> reach h root b) ->
    times a (refs root) + total (fun b => times a (out h b)) l <= rc
}.

(** [root'] with the new objects is a copy of [root]: each object that is reached from [root] has its own new object, with the same content
    and the pointers moved; there are no others; and each refcount is the number of pointers to the object. *)
Definition is_copy (h : heap) (root root' : val) (s : state) : Prop :=
  exists f : addr -> addr,
    root' = move f root /\
    (forall a b, reach h root a -> reach h root b -> f a = f b -> a = b) /\
    (forall a rc n, reach h root a -> h a = Some (rc, n) -> In (f a, move_node f n) (nodes s)) /\
    NoDup (map fst (nodes s)) /\
    (forall d n, In (d, n) (nodes s) -> exists a, reach h root a /\ d = f a) /\
    (forall d n, In (d, n) (nodes s) -> counts s d = times d (refs root') + total (fun p => times d (node_refs (snd p))) (nodes s)).

(** The blocks of a copy are behind each other, each with its header, between two addresses. *)
Fixpoint stacked (low high : Z) (bs : list (Z * Z)) : Prop :=
  match bs with
  | nil => low <= high
  | (b, size) :: bs => 0 < size /\ b + size <= high /\ low <= b - max_align /\ stacked low (b - max_align) bs
  end.
(** The bytes of an object itself, and of its arrays: a list has one even when it is empty, and a hash table has its items, for each whether
    it is there, and two arrays of 32-bit numbers. *)
Definition layout_size (n : node) : Z :=
  match n with
  | ListNode _ _ _ _ _ => 32
  | StringNode w _ points => 24 + w * zlen points
  | BytesNode _ data => 16 + zlen data
  | ConstDictNode w _ pairs => 24 + w * zlen pairs
  | AlternativeNode _ w _ | ClassNode _ w _ | CellNode w _ => 16 + w
  | DictNode _ _ _ _ _ | SetNode _ _ _ _ => 80
  end.
Definition arrays (n : node) : list Z :=
  match n with
  | ListNode is_tuple _ w _ items => [w * (if is_tuple then zlen items else Z.max 1 (zlen items))]
  | DictNode _ _ w slots table => [w * zlen slots; zlen slots; 4 * zlen table; 4 * zlen table]
  | SetNode _ w slots table => [w * zlen slots; zlen slots; 4 * zlen table; 4 * zlen table]
  | _ => nil
  end.
(** Each object has a block of its own, and one for each array that is not empty, which are large enough; and there are no other blocks. *)
Definition needs (sizes : list Z) (bs : list (Z * Z)) : Prop := Forall2 (fun size b => size <= snd b) (filter (fun size => negb (size =? 0)) sizes) bs.
Definition owns (p : addr * node) (bs : list (Z * Z)) : Prop :=
  exists size rest, bs = (fst p, size) :: rest /\ layout_size (snd p) <= size /\ needs (arrays (snd p)) rest.
Definition in_blocks (s : state) : Prop := exists own, Permutation (blocks s) (concat own) /\ Forall2 owns (nodes s) own.

(** The bytes of all the objects that are reached, which are listed in [l]. *)
Definition lists_reached (h : heap) (root : val) (l : list addr) : Prop := NoDup l /\ forall a, In a l <-> reach h root a.
Definition bytes_of (h : heap) (a : addr) : Z := match h a with Some (_, n) => node_bytes n | None => 0 end.
(** Without cells. *)
Definition no_cells (h : heap) (root : val) : Prop := forall a rc w v, reach h root a -> h a <> Some (rc, CellNode w v).

(** The memory of a copy. *)
Definition heap_of (s : state) : heap :=
  fun d => match find (fun p => fst p =? d) (nodes s) with Some (_, n) => Some (counts s d, n) | None => None end.
