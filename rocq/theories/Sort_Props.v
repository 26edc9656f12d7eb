(** Theorems about sort, sorted and searchSorted (C18, C19). *)
From Verif Require Import Base PyList PyList_Proofs Sort_Model Sort_Spec Sort_Proofs.
From Coq Require Import ZifyBool ZifyNat.
Open Scope Z_scope.

(** ** C18 *)

(** [sort] terminates without an error (in particular no index is out of range) and leaves a
    sorted permutation. *)
Theorem C18_sort : forall A (less eqb : A -> A -> bool) l,
  strict_weak_order less -> equality_respects_order less eqb ->
  exists l', sort less eqb l = Ok l' /\ Permutation l l' /\ nondecreasing less l'.
Proof. intros A less eqb l O E. exact (sort_correct less eqb O E l). Qed.
Print Assumptions C18_sort.

(** The same for every seed of the pivot choice. *)
Theorem C18_any_seed : forall A (less eqb : A -> A -> bool) l seed,
  strict_weak_order less -> equality_respects_order less eqb ->
  exists l', quicksortBetween less eqb (length l) l 0 (Z.of_nat (length l) - 1) seed = Ok l' /\
    Permutation l l' /\ nondecreasing less l'.
Proof. intros A less eqb l seed O E. exact (quicksort_any_seed less eqb O E l seed). Qed.
Print Assumptions C18_any_seed.

(** [sort(values, key)] for a key type with a strict weak order and a key function that gives
    equal keys to equal values. *)
Theorem C18_sort_by_key : forall A K (key : A -> K) (lessK : K -> K -> bool) (eqb : A -> A -> bool) l,
  strict_weak_order lessK -> (forall x y, eqb x y = true -> key x = key y) ->
  exists l', sort (by_key key lessK) eqb l = Ok l' /\ Permutation l l' /\ nondecreasing lessK (map key l').
Proof.
  intros A K key lessK eqb l O E.
  assert (O' : strict_weak_order (by_key key lessK)).
  { destruct O as [O1 O2 O3]. unfold by_key. constructor; eauto. }
  assert (E' : equality_respects_order (by_key key lessK) eqb).
  { intros x y H. unfold by_key. rewrite (E _ _ H). split; apply (swo_irrefl _ O). }
  destruct (sort_correct _ _ O' E' l) as (l' & H1 & H2 & H3). exists l'. split; [exact H1|]. split; [exact H2|].
  intros i j x y Hij Hx Hy. rewrite nth_error_map in Hx, Hy.
  destruct (nth_error l' i) as [x'|] eqn:Ex; [|discriminate]. destruct (nth_error l' j) as [y'|] eqn:Ey; [|discriminate].
  cbn in Hx, Hy. injection Hx as <-. injection Hy as <-. exact (H3 i j x' y' Hij Ex Ey).
Qed.
Print Assumptions C18_sort_by_key.

(** [sorted] returns a new list and changes no existing one. *)
Theorem C18_sorted_copy : forall A (less eqb : A -> A -> bool) heap p l,
  strict_weak_order less -> equality_respects_order less eqb -> nth_error heap p = Some l ->
  exists q heap' l', sorted less eqb heap p = Ok (q, heap') /\
    nth_error heap' q = Some l' /\ Permutation l l' /\ nondecreasing less l' /\
    (length heap <= q)%nat /\ (forall p', (p' < length heap)%nat -> nth_error heap' p' = nth_error heap p').
Proof.
  intros A less eqb heap p l O E Hp. destruct (sort_correct less eqb O E l) as (l' & H1 & H2 & H3).
  unfold sorted. rewrite Hp. cbv zeta. rewrite H1. cbn [bind].
  exists (length heap), (replace_nth (length heap) l' (heap ++ [l])), l'. split; [reflexivity|].
  split; [apply nth_error_replace_same; rewrite app_length; cbn [length]; lia|]. repeat split; auto.
  intros p' Hp'. rewrite nth_error_replace_other by lia. now rewrite nth_error_app1.
Qed.
Print Assumptions C18_sorted_copy.

Lemma Zltb_swo : strict_weak_order Z.ltb.
Proof. constructor; lia. Qed.
Example C18_hypotheses_ex : strict_weak_order Z.ltb /\ equality_respects_order Z.ltb Z.eqb.
Proof. split; [apply Zltb_swo|intros x y; lia]. Qed.
Example C18_ex : sort Z.ltb Z.eqb [5; 3; 9; 3; -4; 5; 5; 0; 12; 3] = Ok [-4; 0; 3; 3; 3; 5; 5; 5; 9; 12].
Proof. vm_compute. reflexivity. Qed.

(** If [==] identifies values with different keys, the values around a pivot are not sorted.
    In Python this happens for OneOf(int, float) values 1 and 1.0 with key=str, for example;
    the pairs here compare equal if their first components do, and the key is the second. *)
Theorem C18_key_finer_than_equality_refuted :
  let eqb (x y : Z * Z) := (fst x =? fst y) in
  sort (by_key snd Z.ltb) eqb [(0, 9); (0, 1); (0, 2)] = Ok [(0, 2); (0, 1); (0, 9)].
Proof. vm_compute. reflexivity. Qed.
Print Assumptions C18_key_finer_than_equality_refuted.

(** ** C19 *)

(** On a sorted list, [searchSorted] returns the index of an occurrence if there is one, and
    otherwise the place at which the item can be inserted. *)
Theorem C19_searchSorted_partial : forall A (less eqb : A -> A -> bool) item l,
  strict_weak_order less -> (forall x y, eqb x y = true <-> (less x y = false /\ less y x = false)) ->
  nondecreasing less l ->
  exists r, searchSorted less eqb item l = Ok r /\
    ((exists x, In x l /\ eqb x item = true) -> exists x, nth_error l (Z.to_nat r) = Some x /\ eqb x item = true) /\
    ((forall x, In x l -> eqb x item = false) ->
       0 <= r <= Z.of_nat (length l) /\
       (forall i x, nth_error l i = Some x -> if Z.of_nat i <? r then less x item = true else less item x = true)).
Proof.
  intros A less eqb item l O E Hl.
  destruct (searchSorted_correct less eqb O (fun x y H1 H2 => proj2 (E x y) (conj H1 H2)) item l Hl)
    as (r & H1 & H2 & [(x & Hx & Hxe)|[H3 H4]]).
  - exists r. split; [exact H1|]. split; [now exists x|]. intros N. apply nth_error_In in Hx. rewrite (N x Hx) in Hxe. discriminate.
  - exists r. split; [exact H1|]. split.
    + intros (x & Hin & Hxe). exfalso. apply E in Hxe. destruct Hxe as [A1 A2].
      apply In_nth_error in Hin. destruct Hin as [i Hi]. destruct (Z.ltb_spec (Z.of_nat i) r) as [Hlt|Hge].
      * rewrite (H3 i x Hi Hlt) in A1. discriminate.
      * rewrite (H4 i x Hi Hge) in A2. discriminate.
    + intros _. split; [exact H2|]. intros i x Hi. destruct (Z.ltb_spec (Z.of_nat i) r); eauto.
Qed.
Print Assumptions C19_searchSorted_partial.
Example C19_ex : searchSorted Z.ltb Z.eqb 7 [1; 3; 7; 7; 20] = Ok 2 /\ nondecreasing Z.ltb [1; 3; 7; 7; 20].
Proof.
  split; [vm_compute; reflexivity|]. intros i j x y Hij Hx Hy.
  do 5 (destruct i as [|i]; cbn in Hx; [injection Hx as <-; do 5 (destruct j as [|j]; cbn in Hy; [try lia; injection Hy as <-; reflexivity|]); destruct j; discriminate|]).
  destruct i; discriminate.
Qed.

(** The documented "-1 if we can't find it" does not happen. *)
Theorem C19_missing_is_minus_one_refuted :
  (forall A (less eqb : A -> A -> bool) item l, searchSorted less eqb item l <> Ok (-1)) /\
  searchSorted Z.ltb Z.eqb 5 [1; 7] = Ok 1.
Proof.
  split; [|vm_compute; reflexivity]. intros A less eqb item l. unfold searchSorted.
  assert (G : forall fuel low high, 0 <= low -> 0 <= high -> search_loop less eqb fuel item l low high <> Ok (-1)).
  { induction fuel as [|fuel IH]; intros low high Hl Hh; cbn [search_loop];
      (destruct (Z.leb_spec high low); [intros [= ->]; lia|]); [discriminate|]. cbv zeta.
    assert (0 <= (low + high) / 2) by (apply Z.div_pos; lia).
    destruct (py_get l ((low + high) / 2)) as [x|]; cbn [bind]; [|discriminate].
    destruct (compare_values less eqb x item) as [c|]; cbn [bind]; [|discriminate].
    destruct (c <? 0); [apply IH; lia|]. destruct (0 <? c); [apply IH; lia|]. intros [= E]. lia. }
  apply G; lia.
Qed.
Print Assumptions C19_missing_is_minus_one_refuted.
