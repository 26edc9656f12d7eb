(** Theorems about SortedDict (C15, C16, C17). *)
From Coq Require Import Sorting.Sorted.
From Verif Require Import Base Sort_Spec SortedDict_Model SortedDict_Spec SortedDict_Proofs SortedDict_Map_Proofs SortedDict_Depth_Proofs.
Open Scope Z_scope.

(** ** C15 *)

(** Every history of operations gives the answers of a sorted association list: the same
    values, lengths, first and last keys, iterations and exceptions. *)
Theorem C15_sorted_dict_is_a_map : forall K V (less : K -> K -> bool) (ops : list (op K V)),
  strict_weak_order less -> snd (run less Leaf ops) = snd (spec_run less [] ops).
Proof. intros K V less ops O. exact (proj2 (run_refines less O ops Leaf [] (related_empty less))). Qed.
Print Assumptions C15_sorted_dict_is_a_map.

(** The laws of a finite map, for every reachable dictionary. *)
Theorem C15_setitem : forall K V (less : K -> K -> bool) (d : tree K V) k v,
  strict_weak_order less -> reachable less d ->
  exists d', d_setitem less d k v = Ok d' /\
    (forall k', d_getitem less d' k' = if same less k' k then Ok v else d_getitem less d k') /\
    d_len d' = if d_contains less d k then d_len d else d_len d + 1.
Proof. intros K V less d k v O R. exact (setitem_laws less O d k v R). Qed.
Print Assumptions C15_setitem.

Theorem C15_delitem : forall K V (less : K -> K -> bool) (d : tree K V) k,
  strict_weak_order less -> reachable less d ->
  if d_contains less d k then exists d', d_delitem less d k = Ok d' /\
    (forall k', d_getitem less d' k' = if same less k' k then Err KeyError else d_getitem less d k') /\
    d_len d' = d_len d - 1
  else d_delitem less d k = Err KeyError.
Proof. intros K V less d k O R. exact (delitem_laws less O d k R). Qed.
Print Assumptions C15_delitem.

Theorem C15_contains : forall K V (less : K -> K -> bool) (d : tree K V) k,
  strict_weak_order less -> reachable less d ->
  d_contains less d k = match d_getitem less d k with Ok _ => true | Err _ => false end.
Proof. intros K V less d k O R. exact (contains_getitem less O d k (reachable_inv less O d R)). Qed.
Print Assumptions C15_contains.

(** [first] and [last] are the least and the greatest key; None for an empty dictionary. *)
Theorem C15_first_last : forall K V (less : K -> K -> bool) (d : tree K V),
  strict_weak_order less -> reachable less d ->
  (d_len d = 0 -> d_first d = Ok None /\ d_last d = Ok None) /\
  (d_len d <> 0 -> exists a b, d_first d = Ok (Some a) /\ d_last d = Ok (Some b) /\
     d_contains less d a = true /\ d_contains less d b = true /\
     forall k, d_contains less d k = true -> less k a = false /\ less b k = false).
Proof. intros K V less d O R. exact (ends_laws less O d R). Qed.
Print Assumptions C15_first_last.

(** A history with insertions in both directions, a replaced value, removals of an inner
    node and of a missing key. *)
Definition example_history : list (op Z Z) :=
  map (fun k => SetItem k (k * 10)) [5; 3; 8; 1; 4; 7; 9; 2; 6; 11; 10; 12; 13; 14; 15] ++
  [SetItem 3 0; DelItem 5; DelItem 5; Pop 8; PopDefault 8 1; SetDefault 20 2; GetItem 3; GetItem 8;
   GetDefault 8 7; Contains 12; Len; First; Last; Items; Iter].
Example C15_ex : strict_weak_order Z.ltb /\
  snd (run Z.ltb Leaf example_history) =
    repeat Done 17 ++ [Raised KeyError; Value 80; Value 1; Value 2; Value 0; Raised KeyError; Value 7; Bool true; Number 14;
      Key (Some 1); Key (Some 20);
      ItemList [(1, 10); (2, 20); (3, 0); (4, 40); (6, 60); (7, 70); (9, 90); (10, 100); (11, 110); (12, 120); (13, 130); (14, 140); (15, 150); (20, 2)];
      KeyList [1; 2; 3; 4; 6; 7; 9; 10; 11; 12; 13; 14; 15; 20]].
Proof. split; [exact Zltb_order|vm_compute; reflexivity]. Qed.

(** ** C16 *)

(** [items()] and iteration finish, are in strictly increasing key order, give as many items
    as [len()], and exactly the stored ones. *)
Theorem C16_iteration : forall K V (less : K -> K -> bool) (d : tree K V),
  strict_weak_order less -> reachable less d ->
  exists l, d_items d = Ok l /\ d_iter d = Ok (map fst l) /\
    StronglySorted (fun a b => less (fst a) (fst b) = true) l /\ Z.of_nat (length l) = d_len d /\
    forall k v, d_getitem less d k = Ok v <-> exists k', In (k', v) l /\ same less k k' = true.
Proof. intros K V less d O R. exact (items_laws less O d R). Qed.
Print Assumptions C16_iteration.

Example C16_ex : reachable Z.ltb (fst (run Z.ltb Leaf example_history)) /\
  height (fst (run Z.ltb Leaf example_history)) = 7.
Proof. split; [eexists; reflexivity|vm_compute; reflexivity]. Qed.

(** ** C17 *)

(** The depth is not logarithmic: for every [n] there are [4 n] insertions into an empty
    dictionary after which the tree has depth at least [2 n]. *)
Theorem C17_depth_linear_refuted : forall n : nat, exists ops : list (op Z unit),
  d_len (fst (run Z.ltb Leaf ops)) = 4 * Z.of_nat n /\ 2 * Z.of_nat n <= height (fst (run Z.ltb Leaf ops)).
Proof. intros n. exact (deep_history tt n). Qed.
Print Assumptions C17_depth_linear_refuted.

Theorem C17_depth_logarithmic_refuted : ~ exists c, forall ops : list (op Z unit),
  height (fst (run Z.ltb Leaf ops)) <= c * (1 + Z.log2 (1 + d_len (fst (run Z.ltb Leaf ops)))).
Proof. exact (depth_not_logarithmic tt). Qed.
Print Assumptions C17_depth_logarithmic_refuted.

(** The insertions: smallest missing key, largest missing key, in turn. *)
Example C17_ex : zigzag 2 0 7 = [0; 7; 1; 6; 2; 5; 3; 4] /\
  height (fst (run Z.ltb Leaf (map (fun k => SetItem k tt) (zigzag 25 0 99)))) = 51.
Proof. split; vm_compute; reflexivity. Qed.

(** What does hold: a node with a single child has at most two nodes below it, so the depth
    is at most half the size plus a constant. *)
Theorem C17_depth_at_most_half_partial : forall K V (less : K -> K -> bool) (d : tree K V),
  strict_weak_order less -> reachable less d -> 2 * height d <= d_len d + 3.
Proof.
  intros K V less d O R. destruct (reachable_inv less O d R) as (_ & C & T). exact (thin_height d C T).
Qed.
Print Assumptions C17_depth_at_most_half_partial.
