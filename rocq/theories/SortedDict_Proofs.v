(** Proofs about SortedDict (C15, C16). *)
From Coq Require Import ZifyBool ZifyNat Sorting.Sorted.
From Verif Require Import Base Sort_Spec SortedDict_Model SortedDict_Spec.
Open Scope Z_scope.
Open Scope result_scope.

Section SortedDict.
  Context {K V : Type}.
  Variable less : K -> K -> bool.
  Hypothesis O : strict_weak_order less.
  Notation tree := (tree K V).
  Notation insert := (insert (V:=V) less).
  Notation find := (find (V:=V) less).
  Notation erase := (erase (V:=V) less).
  Notation same := (same less).

  (** ** Sorted association lists *)

  Notation klt := (fun a b : K * V => less (fst a) (fst b) = true).
  Notation sorted := (StronglySorted klt).

  Lemma less_asym x y : less x y = true -> less y x = false.
  Proof.
    intros H. destruct (less y x) eqn:H2; [|reflexivity].
    pose proof (swo_trans _ O _ _ _ H H2) as H3. rewrite (swo_irrefl _ O) in H3. discriminate.
  Qed.

  Lemma less_le_trans x y z : less x y = true -> less z y = false -> less x z = true.
  Proof. intros H1 H2. destruct (less x z) eqn:E; [reflexivity|]. pose proof (swo_incomp _ O _ _ _ E H2). congruence. Qed.
  Lemma le_less_trans x y z : less y x = false -> less y z = true -> less x z = true.
  Proof. intros H1 H2. destruct (less x z) eqn:E; [reflexivity|]. pose proof (swo_incomp _ O _ _ _ H1 E). congruence. Qed.

  Lemma sorted_mid l1 k v l2 : sorted (l1 ++ (k, v) :: l2) <->
    sorted l1 /\ sorted l2 /\ Forall (fun p => less (fst p) k = true) l1 /\ Forall (fun p => less k (fst p) = true) l2.
  Proof.
    induction l1 as [|[k1 v1] l1 IH]; cbn [app].
    - split.
      + intros H. inversion H; subst. repeat split; auto; constructor.
      + intros (_ & H2 & _ & H4). now constructor.
    - split.
      + intros H. inversion H as [|? ? H1 H2]; subst. apply IH in H1. destruct H1 as (A & B & C & D).
        apply Forall_app in H2. destruct H2 as [H2 H3]. inversion H3; subst. cbn in *.
        repeat split; auto; constructor; auto.
      + intros (A & B & C & D). inversion A; subst. inversion C; subst. cbn in *. constructor.
        * apply IH. auto.
        * apply Forall_app. split; [assumption|]. constructor; [assumption|].
          eapply Forall_impl; [|exact D]. cbn. intros [k2 v2] Hk. cbn in *. eapply (swo_trans _ O); eauto.
  Qed.

  Lemma insert_left k (v : V) l1 k0 v0 l2 : less k k0 = true ->
    insert k v (l1 ++ (k0, v0) :: l2) = insert k v l1 ++ (k0, v0) :: l2.
  Proof.
    intros H. induction l1 as [|[k1 v1] l1 IH]; cbn.
    - unfold same. now rewrite H.
    - destruct (same k k1); [reflexivity|]. destruct (less k k1); [reflexivity|]. now rewrite IH.
  Qed.

  Lemma insert_right k v l1 k0 v0 l2 : less k0 k = true -> Forall (fun p => less (fst p) k0 = true) l1 ->
    insert k v (l1 ++ (k0, v0) :: l2) = l1 ++ (k0, v0) :: insert k v l2.
  Proof.
    intros H. induction 1 as [|[k1 v1] l1 H1 Hl IH]; cbn.
    - unfold same. now rewrite H, (less_asym _ _ H).
    - cbn in H1. assert (less k1 k = true) as H2 by (eapply (swo_trans _ O); eauto).
      unfold same. now rewrite H2, (less_asym _ _ H2), IH.
  Qed.

  Lemma insert_mid k v l1 k0 v0 l2 : less k k0 = false -> less k0 k = false -> Forall (fun p => less (fst p) k0 = true) l1 ->
    insert k v (l1 ++ (k0, v0) :: l2) = l1 ++ (k0, v) :: l2.
  Proof.
    intros Ha Hb. induction 1 as [|[k1 v1] l1 H1 Hl IH]; cbn.
    - unfold same. now rewrite Ha, Hb.
    - cbn in H1. assert (less k1 k = true) as H2 by (eapply less_le_trans; eauto).
      unfold same. now rewrite H2, (less_asym _ _ H2), IH.
  Qed.

  Lemma find_none_lt k l : Forall (fun p => less (fst p) k = true) l -> find k l = None.
  Proof. induction 1 as [|[k1 v1] l1 H1 Hl IH]; cbn; [reflexivity|]. cbn in H1. unfold same. now rewrite H1, (less_asym _ _ H1). Qed.
  Lemma find_none_gt k l : Forall (fun p => less k (fst p) = true) l -> find k l = None.
  Proof. induction 1 as [|[k1 v1] l1 H1 Hl IH]; cbn; [reflexivity|]. cbn in H1. unfold same. now rewrite H1, (less_asym _ _ H1). Qed.
  Lemma find_app k l1 l2 : find k (l1 ++ l2) = match find k l1 with Some v => Some v | None => find k l2 end.
  Proof. induction l1 as [|[k1 v1] l1 IH]; cbn; [reflexivity|]. destruct (same k k1); auto. Qed.

  Lemma Forall_gt_trans k k0 (l : list (K * V)) : less k k0 = true -> Forall (fun p => less k0 (fst p) = true) l ->
    Forall (fun p => less k (fst p) = true) l.
  Proof. intros H. apply Forall_impl. intros [k1 v1]; cbn. intros; eapply (swo_trans _ O); eauto. Qed.
  Lemma Forall_lt_trans k k0 (l : list (K * V)) : less k0 k = true -> Forall (fun p => less (fst p) k0 = true) l ->
    Forall (fun p => less (fst p) k = true) l.
  Proof. intros H. apply Forall_impl. intros [k1 v1]; cbn. intros; eapply (swo_trans _ O); eauto. Qed.

  Lemma find_left k l1 k0 v0 l2 : less k k0 = true -> Forall (fun p => less k0 (fst p) = true) l2 ->
    find k (l1 ++ (k0, v0) :: l2) = find k l1.
  Proof.
    intros H H2. rewrite find_app. cbn. unfold same. rewrite H. cbn. rewrite (find_none_gt k l2) by (eapply Forall_gt_trans; eauto).
    now destruct (find k l1).
  Qed.
  Lemma find_right k l1 k0 v0 l2 : less k0 k = true -> Forall (fun p => less (fst p) k0 = true) l1 ->
    find k (l1 ++ (k0, v0) :: l2) = find k l2.
  Proof.
    intros H H1. rewrite find_app, (find_none_lt k l1) by (eapply Forall_lt_trans; eauto). cbn. unfold same.
    now rewrite H, (less_asym _ _ H).
  Qed.
  Lemma find_mid k l1 k0 v0 l2 : less k k0 = false -> less k0 k = false -> Forall (fun p => less (fst p) k0 = true) l1 ->
    find k (l1 ++ (k0, v0) :: l2) = Some v0.
  Proof.
    intros Ha Hb H1. rewrite find_app, (find_none_lt k l1).
    - cbn. unfold same. now rewrite Ha, Hb.
    - eapply Forall_impl; [|exact H1]. intros [k1 v1]; cbn. intros. eapply less_le_trans; eauto.
  Qed.

  Lemma erase_none_lt k l : Forall (fun p => less (fst p) k = true) l -> erase k l = l.
  Proof.
    unfold erase. induction 1 as [|[k1 v1] l1 H1 Hl IH]; cbn; [reflexivity|]. cbn in H1. unfold same.
    rewrite H1, (less_asym _ _ H1). cbn. now rewrite <- IH at 2.
  Qed.
  Lemma erase_none_gt k l : Forall (fun p => less k (fst p) = true) l -> erase k l = l.
  Proof.
    unfold erase. induction 1 as [|[k1 v1] l1 H1 Hl IH]; cbn; [reflexivity|]. cbn in H1. unfold same.
    rewrite H1, (less_asym _ _ H1). cbn. now rewrite <- IH at 2.
  Qed.
  Lemma erase_app k l1 l2 : erase k (l1 ++ l2) = erase k l1 ++ erase k l2.
  Proof. apply filter_app. Qed.
  Lemma erase_left k l1 k0 v0 l2 : less k k0 = true -> Forall (fun p => less k0 (fst p) = true) l2 ->
    erase k (l1 ++ (k0, v0) :: l2) = erase k l1 ++ (k0, v0) :: l2.
  Proof.
    intros H H2. rewrite erase_app. f_equal. apply erase_none_gt. constructor; [exact H|]. eapply Forall_gt_trans; eauto.
  Qed.
  Lemma erase_right k l1 k0 v0 l2 : less k0 k = true -> Forall (fun p => less (fst p) k0 = true) l1 ->
    erase k (l1 ++ (k0, v0) :: l2) = l1 ++ (k0, v0) :: erase k l2.
  Proof.
    intros H H1. rewrite erase_app, (erase_none_lt k l1) by (eapply Forall_lt_trans; eauto). f_equal.
    unfold erase. cbn [filter fst]. unfold same. now rewrite H, (less_asym _ _ H).
  Qed.
  Lemma erase_mid k l1 k0 v0 l2 : less k k0 = false -> less k0 k = false ->
    Forall (fun p => less (fst p) k0 = true) l1 -> Forall (fun p => less k0 (fst p) = true) l2 ->
    erase k (l1 ++ (k0, v0) :: l2) = l1 ++ l2.
  Proof.
    intros Ha Hb H1 H2. rewrite erase_app. f_equal.
    - apply erase_none_lt. eapply Forall_impl; [|exact H1]. intros [k1 v1]; cbn. intros. eapply less_le_trans; eauto.
    - unfold erase. cbn [filter fst]. unfold same. rewrite Ha, Hb. cbn. apply erase_none_gt.
      eapply Forall_impl; [|exact H2]. intros [k1 v1]; cbn. intros. eapply le_less_trans; eauto.
  Qed.

  Lemma insert_length k v l : length (insert k v l) = (length l + match find k l with Some _ => 0 | None => 1 end)%nat \/
                              ~ sorted l.
  Proof.
    induction l as [|[k1 v1] l IH]; cbn [SortedDict_Spec.insert SortedDict_Spec.find]; [left; reflexivity|].
    destruct (same k k1) eqn:S1; [left; cbn [length]; lia|].
    destruct (less k k1) eqn:L.
    - destruct (find k l) eqn:F.
      + right. intros H. inversion H as [|? ? H1 H2]; subst. rewrite (find_none_gt k l) in F; [discriminate|].
        cbn in H2. eapply Forall_gt_trans; eauto.
      + left. cbn [length]. lia.
    - destruct IH as [IH|IH]; [left; cbn [length]; lia|right; intros H; apply IH; now inversion H].
  Qed.

  Lemma insert_keys_forall (P : K -> Prop) k v l : P k -> Forall (fun p => P (fst p)) l -> Forall (fun p => P (fst p)) (insert k v l).
  Proof.
    intros Hk. induction 1 as [|[k1 v1] l H1 Hl IH]; cbn; [repeat constructor; exact Hk|].
    destruct (same k k1); [constructor; auto|]. destruct (less k k1); constructor; auto.
  Qed.

  Lemma sorted_insert k v l : sorted l -> sorted (insert k v l).
  Proof.
    induction 1 as [|[k1 v1] l Hs IH Hf]; cbn; [repeat constructor|].
    destruct (same k k1) eqn:S1.
    - constructor; auto.
    - destruct (less k k1) eqn:L.
      + constructor; [constructor; auto|]. constructor; [exact L|]. cbn in Hf. eapply Forall_gt_trans; eauto.
      + constructor; [exact IH|]. cbn in *. apply (insert_keys_forall (fun x => less k1 x = true)); [|exact Hf].
        unfold same in S1. rewrite L in S1. cbn in S1. now destruct (less k1 k).
  Qed.

  Lemma sorted_erase k l : sorted l -> sorted (erase k l).
  Proof.
    unfold erase. induction 1 as [|x l Hs IH Hf]; cbn [filter]; [constructor|].
    destruct (negb (same k (fst x))); [|exact IH]. constructor; [exact IH|].
    rewrite Forall_forall in *. intros y Hy. apply filter_In in Hy. now apply Hf.
  Qed.

  (** ** Trees *)

  Fixpoint elements (t : tree) : list (K * V) :=
    match t with Leaf => [] | Node k v l r _ => elements l ++ (k, v) :: elements r end.

  Fixpoint counted (t : tree) : Prop :=
    match t with Leaf => True | Node _ _ l r c => c = 1 + count_of l + count_of r /\ counted l /\ counted r end.

  (** A node with one child has at most two nodes below it. *)
  Fixpoint thin (t : tree) : Prop :=
    match t with
    | Leaf => True
    | Node _ _ l r _ => thin l /\ thin r /\ (l = Leaf -> count_of r <= 2) /\ (r = Leaf -> count_of l <= 2)
    end.

  Definition inv (t : tree) : Prop := sorted (elements t) /\ counted t /\ thin t.

  Lemma size_elements t : size t = length (elements t).
  Proof. induction t as [|k v l IHl r IHr c]; cbn; [reflexivity|]. rewrite app_length. cbn. lia. Qed.

  Lemma counted_size t : counted t -> count_of t = Z.of_nat (size t).
  Proof. induction t as [|k v l IHl r IHr c]; cbn [counted count_of size]; [reflexivity|]. intros (-> & Hl & Hr). specialize (IHl Hl). specialize (IHr Hr). lia. Qed.

  Lemma contains_spec t k : sorted (elements t) -> contains less t k = match find k (elements t) with Some _ => true | None => false end.
  Proof.
    induction t as [|k0 v0 l IHl r IHr c]; cbn [contains elements]; [reflexivity|]. intros H. apply sorted_mid in H.
    destruct H as (A & B & C & D). destruct (less k k0) eqn:L1; [rewrite find_left; auto|].
    destruct (less k0 k) eqn:L2; [rewrite find_right; auto|]. rewrite find_mid; auto.
  Qed.

  Lemma get_spec t k : sorted (elements t) -> get less t k = match find k (elements t) with Some v => Ok v | None => Err KeyError end.
  Proof.
    induction t as [|k0 v0 l IHl r IHr c]; cbn [get elements]; [reflexivity|]. intros H. apply sorted_mid in H.
    destruct H as (A & B & C & D). destruct (less k k0) eqn:L1; [rewrite find_left; auto|].
    destruct (less k0 k) eqn:L2; [rewrite find_right; auto|]. rewrite find_mid; auto.
  Qed.

  (** What [set] must achieve on one tree. *)
  Definition set_post (t : tree) (k : K) (v : V) (p : tree * bool) : Prop :=
    inv (fst p) /\ elements (fst p) = insert k v (elements t) /\
    snd p = match find k (elements t) with Some _ => false | None => true end /\ fst p <> Leaf.

  Lemma inv_node k v l r c : inv (Node k v l r c) ->
    inv l /\ inv r /\ c = 1 + count_of l + count_of r /\ (l = Leaf -> count_of r <= 2) /\ (r = Leaf -> count_of l <= 2) /\
    Forall (fun p => less (fst p) k = true) (elements l) /\ Forall (fun p => less k (fst p) = true) (elements r).
  Proof.
    intros (Hs & (Hc & Hcl & Hcr) & (Htl & Htr & Ht1 & Ht2)). cbn [elements] in Hs. apply sorted_mid in Hs.
    destruct Hs as (A & B & C & D). unfold inv. tauto.
  Qed.

  Lemma node_inv k v l r c : inv l -> inv r -> c = 1 + count_of l + count_of r ->
    (l = Leaf -> count_of r <= 2) -> (r = Leaf -> count_of l <= 2) ->
    Forall (fun p => less (fst p) k = true) (elements l) -> Forall (fun p => less k (fst p) = true) (elements r) ->
    inv (Node k v l r c).
  Proof.
    intros (A1 & A2 & A3) (B1 & B2 & B3) Hc H1 H2 H3 H4. split; [|split].
    - cbn [elements]. apply sorted_mid. auto.
    - cbn. auto.
    - cbn. auto.
  Qed.

  Lemma insert_front k v (l : list (K * V)) : Forall (fun p => less k (fst p) = true) l -> insert k v l = (k, v) :: l.
  Proof. destruct 1 as [|[k1 v1] l H Hl]; cbn; [reflexivity|]. cbn in H. unfold same. now rewrite H. Qed.
  Lemma insert_back k v (l : list (K * V)) : Forall (fun p => less (fst p) k = true) l -> insert k v l = l ++ [(k, v)].
  Proof.
    induction 1 as [|[k1 v1] l H Hl IH]; cbn; [reflexivity|]. cbn in H. unfold same. rewrite H, (less_asym _ _ H). cbn. now rewrite IH.
  Qed.

  Lemma count_pos t : counted t -> t <> Leaf -> 0 < count_of t.
  Proof. intros H Hn. rewrite (counted_size t H). destruct t; [congruence|]. cbn. lia. Qed.

  Lemma count_zero t : counted t -> count_of t <= 0 -> t = Leaf.
  Proof. intros H H0. destruct t as [|k v l r c]; [reflexivity|]. assert (0 < count_of (Node k v l r c)) by (apply count_pos; [exact H|discriminate]). lia. Qed.

  Lemma Ok_eq {A} (x y : A) : Ok x = Ok y -> x = y.
  Proof. now intros [= ->]. Qed.

  (** Rebalancing keeps the elements and restores the invariant, if the [set] it calls is
      right on the child it is called on. *)
  Lemma rebalance_spec set_ k v l r c t' :
    inv l -> inv r -> c = 1 + count_of l + count_of r ->
    Forall (fun p => less (fst p) k = true) (elements l) -> Forall (fun p => less k (fst p) = true) (elements r) ->
    (forall t p, inv t -> t <> Leaf -> set_ t k v = Ok p -> set_post t k v p) ->
    rebalance set_ (Node k v l r c) = Ok t' ->
    inv t' /\ elements t' = elements l ++ (k, v) :: elements r /\ t' <> Leaf.
  Proof.
    intros Hl Hr Hc H3 H4 Hset. cbn [rebalance].
    destruct l as [|lk lv ll lr lc], r as [|rk rv rl rr rc].
    - destruct (c =? 1) eqn:E1; [|discriminate]. intros [= <-]. split; [|split; [reflexivity|discriminate]].
      apply node_inv; auto; cbn; lia.
    - destruct (rc <=? 2) eqn:E1.
      + intros [= <-]. split; [|split; [reflexivity|discriminate]]. apply node_inv; auto; cbn; intros; try discriminate; lia.
      + destruct (set_ _ k v) as [[r' b]|] eqn:Es; cbn [bind]; [|discriminate]. intros [= <-].
        apply Hset in Es; [|exact Hr|discriminate]. destruct Es as (S1 & S2 & S3 & S4). cbn [fst] in *. split; [exact S1|]. split; [|exact S4].
        rewrite S2. now rewrite insert_front.
    - destruct (lc <=? 2) eqn:E1.
      + intros [= <-]. split; [|split; [reflexivity|discriminate]]. apply node_inv; auto; cbn; intros; try discriminate; lia.
      + destruct (set_ _ k v) as [[l' b]|] eqn:Es; cbn [bind]; [|discriminate]. intros [= <-].
        apply Hset in Es; [|exact Hl|discriminate]. destruct Es as (S1 & S2 & S3 & S4). cbn [fst] in *. split; [exact S1|]. split; [|exact S4].
        rewrite S2. now rewrite insert_back.
    - cbv zeta. pose proof (inv_node _ _ _ _ _ Hl) as (L1 & L2 & L3 & L4 & L5 & L6 & L7).
      pose proof (inv_node _ _ _ _ _ Hr) as (R1 & R2 & R3 & R4 & R5 & R6 & R7).
      cbn [count_of] in Hc. cbn [elements] in H3, H4. apply Forall_app in H3, H4.
      destruct H3 as [H3a H3b], H4 as [H4a H4b]. inversion H3b as [|? ? H3c H3d]; subst. inversion H4b as [|? ? H4c H4d]; subst. cbn [fst] in *.
      pose proof (counted_size ll (proj1 (proj2 L1))). pose proof (counted_size lr (proj1 (proj2 L2))).
      pose proof (counted_size rl (proj1 (proj2 R1))). pose proof (counted_size rr (proj1 (proj2 R2))).
      assert (Nl : ll <> Leaf -> 0 < count_of ll) by (apply count_pos, L1).
      destruct ((3 + count_of lr + count_of rl + count_of rr) * 2 <? count_of ll) eqn:E1; [|destruct ((3 + count_of rl + count_of lr + count_of ll) * 2 <? count_of rr) eqn:E2].
      + intros Heq; apply Ok_eq in Heq; subst t'. cbn [count_of]. split; [|split; [cbn [elements]; now rewrite <- !app_assoc|discriminate]].
        assert (Hlr : lr <> Leaf) by (intros ->; cbn [count_of size] in *; specialize (L5 eq_refl); lia).
        assert (Hll : ll <> Leaf) by (intros ->; cbn [count_of size] in *; lia).
        apply node_inv; auto; try (intros; congruence); try (cbn [count_of]; lia).
        * apply node_inv; auto; try (intros; congruence); try (cbn [count_of]; lia).
          cbn [elements]. apply Forall_app. auto.
        * cbn [elements]. apply Forall_app. split; [exact L7|]. constructor; [exact H3c|].
          eapply (Forall_gt_trans lk k); [exact H3c|]. apply Forall_app. auto.
      + intros Heq; apply Ok_eq in Heq; subst t'. cbn [count_of]. split; [|split; [cbn [elements]; now rewrite <- !app_assoc|discriminate]].
        assert (Hrl : rl <> Leaf) by (intros ->; cbn [count_of size] in *; specialize (R4 eq_refl); lia).
        assert (Hrr : rr <> Leaf) by (intros ->; cbn [count_of size] in *; lia).
        apply node_inv; auto; try (intros; congruence); try (cbn [count_of]; lia).
        * apply node_inv; auto; try (intros; congruence); try (cbn [count_of]; lia).
          cbn [elements]. apply Forall_app. auto.
        * cbn [elements]. apply Forall_app. split; [|constructor; [exact H4c|exact R6]].
          eapply (Forall_lt_trans rk k); [exact H4c|]. apply Forall_app. auto.
      + intros Heq; apply Ok_eq in Heq; subst t'. split; [|split; [reflexivity|discriminate]]. apply node_inv; auto; cbn [count_of elements]; try (intros; congruence); try lia;
          apply Forall_app; auto.
  Qed.

  Lemma inv_leaf : inv Leaf.
  Proof. repeat split; constructor. Qed.

  Lemma inv_single k v : inv (Node k v Leaf Leaf 1).
  Proof. repeat split; cbn; try lia; auto. repeat constructor. Qed.

  (** Growth of the number of elements. *)
  Lemma set_post_count t k v p : inv t -> set_post t k v p ->
    count_of (fst p) = count_of t + (if snd p then 1 else 0).
  Proof.
    intros (A & B & C) ((_ & B' & _) & D & E & F). rewrite (counted_size _ B), (counted_size _ B'), !size_elements, D, E.
    destruct (insert_length k v (elements t)) as [->|N]; [|tauto]. destruct (find k (elements t)); lia.
  Qed.

  Lemma set_eq fuel key (value : V) l r c k v : set less (S fuel) (Node key value l r c) k v =
    if less k key then
      match l with
      | Leaf => Ok (Node key value (Node k v Leaf Leaf 1) r (c + 1), true)
      | _ => p <- set less fuel l k v ;;
             if snd p then t <- rebalance (set less fuel) (Node key value (fst p) r (c + 1)) ;; Ok (t, true)
             else Ok (Node key value (fst p) r c, false)
      end
    else if less key k then
      match r with
      | Leaf => Ok (Node key value l (Node k v Leaf Leaf 1) (c + 1), true)
      | _ => p <- set less fuel r k v ;;
             if snd p then t <- rebalance (set less fuel) (Node key value l (fst p) (c + 1)) ;; Ok (t, true)
             else Ok (Node key value l (fst p) c, false)
      end
    else Ok (Node key v l r c, false).
  Proof.
    cbn [set]. destruct (less k key).
    - destruct l; [reflexivity|]. destruct (set _ _ _ _ _) as [[? []]|]; reflexivity.
    - destruct (less key k); [|reflexivity]. destruct r; [reflexivity|]. destruct (set _ _ _ _ _) as [[? []]|]; reflexivity.
  Qed.

  Lemma set_spec fuel : forall t k v p, inv t -> t <> Leaf -> set less fuel t k v = Ok p -> set_post t k v p.
  Proof.
    induction fuel as [|fuel IH]; intros t k v p Ht Hn; [discriminate|].
    destruct t as [|k0 v0 l r c]; [congruence|]. clear Hn. rewrite set_eq.
    pose proof (inv_node _ _ _ _ _ Ht) as (I1 & I2 & I3 & I4 & I5 & I6 & I7).
    destruct (less k k0) eqn:L1.
    - destruct l as [|lk lv ll lr lc].
      + intros [= <-]. unfold set_post. cbn [fst snd elements app]. split; [|split; [|split]].
        * apply node_inv; auto using inv_single; cbn [count_of] in *; try lia; try (intros; congruence). cbn. repeat constructor. exact L1.
        * cbn. unfold SortedDict_Spec.same. now rewrite L1.
        * cbn. unfold SortedDict_Spec.same. rewrite L1. cbn. rewrite (find_none_gt k); [reflexivity|]. eapply Forall_gt_trans; eauto.
        * discriminate.
      + destruct (set _ _ _ k v) as [p'|] eqn:Es; cbn [bind]; [|discriminate].
        apply IH in Es; [|exact I1|discriminate]. pose proof (set_post_count _ _ _ _ I1 Es) as Hc. destruct Es as (S1 & S2 & S3 & S4).
        assert (F1 : Forall (fun p => less (fst p) k0 = true) (elements (fst p'))).
        { rewrite S2. apply (insert_keys_forall (fun x => less x k0 = true)); auto. }
        destruct (snd p') eqn:Eb.
        * destruct (rebalance _ _) as [t'|] eqn:Er; cbn [bind]; [|discriminate]. intros [= <-].
          assert (Hcc : c + 1 = 1 + count_of (fst p') + count_of r) by lia.
          destruct (rebalance_spec _ _ _ _ _ _ _ S1 I2 Hcc F1 I7 (fun t p => IH t k0 v0 p) Er) as (R1 & R2 & R3).
          split; [exact R1|]. cbn [fst snd elements] in *. split; [|split; [|exact R3]].
          -- rewrite R2, S2, (insert_left k v _ k0); auto.
          -- rewrite (find_left k _ k0); auto.
        * intros [= <-]. split; [|split; [|split]]; cbn [fst snd].
          -- apply node_inv; auto; try lia; intros; try congruence.
          -- cbn [elements]. rewrite S2, (insert_left k v _ k0); auto.
          -- cbn [elements]. rewrite (find_left k _ k0); auto.
          -- discriminate.
    - destruct (less k0 k) eqn:L2.
      + destruct r as [|rk rv rl rr rc].
        * intros [= <-]. unfold set_post. cbn [fst snd elements app]. split; [|split; [|split]].
          -- apply node_inv; auto using inv_single; cbn [count_of] in *; try lia; try (intros; congruence). cbn. repeat constructor. exact L2.
          -- rewrite (insert_right k v _ k0); auto.
          -- rewrite (find_right k _ k0); auto.
          -- discriminate.
        * destruct (set _ _ _ k v) as [p'|] eqn:Es; cbn [bind]; [|discriminate].
          apply IH in Es; [|exact I2|discriminate]. pose proof (set_post_count _ _ _ _ I2 Es) as Hc. destruct Es as (S1 & S2 & S3 & S4).
          assert (F1 : Forall (fun p => less k0 (fst p) = true) (elements (fst p'))).
          { rewrite S2. apply (insert_keys_forall (fun x => less k0 x = true)); auto. }
          destruct (snd p') eqn:Eb.
          -- destruct (rebalance _ _) as [t'|] eqn:Er; cbn [bind]; [|discriminate]. intros [= <-].
             assert (Hcc : c + 1 = 1 + count_of l + count_of (fst p')) by lia.
             destruct (rebalance_spec _ _ _ _ _ _ _ I1 S1 Hcc I6 F1 (fun t p => IH t k0 v0 p) Er) as (R1 & R2 & R3).
             split; [exact R1|]. cbn [fst snd elements] in *. split; [|split; [|exact R3]].
             ++ rewrite R2, S2, (insert_right k v _ k0); auto.
             ++ rewrite (find_right k _ k0); auto.
          -- intros [= <-]. split; [|split; [|split]]; cbn [fst snd].
             ++ apply node_inv; auto; try lia; intros; try congruence.
             ++ cbn [elements]. rewrite S2, (insert_right k v _ k0); auto.
             ++ cbn [elements]. rewrite (find_right k _ k0); auto.
             ++ discriminate.
      + intros [= <-]. split; [|split; [|split]]; cbn [fst snd elements].
        * apply node_inv; auto.
        * rewrite insert_mid; auto.
        * rewrite find_mid; auto.
        * discriminate.
  Qed.

  (** ** [set] always finishes *)

  Ltac less_facts :=
    repeat match goal with
    | H : Forall _ (_ :: _) |- _ => apply Forall_cons_iff in H; destruct H
    | H : Forall _ [] |- _ => clear H
    | H : Forall _ (_ ++ _) |- _ => apply Forall_app in H; destruct H
    end; cbn [fst] in *.

  Ltac small_step :=
    match goal with
    | |- exists p, Ok _ = Ok p => eexists; reflexivity
    | H : less ?a ?b = ?x |- context [if less ?a ?b then _ else _] => rewrite H
    | H : less ?a ?b = true |- context [if less ?b ?a then _ else _] => rewrite (less_asym _ _ H)
    | |- context [if less ?a ?b then _ else _] => rewrite (swo_irrefl _ O a)
    | |- context [if less ?a ?b then _ else _] => destruct (less a b) eqn:?
    | |- context [if (?a <=? ?b) then _ else _] => let x := eval compute in (a <=? b) in change (a <=? b) with x
    | |- context [if (?a =? ?b) then _ else _] => let x := eval compute in (a =? b) in change (a =? b) with x
    | |- context [if (?a <? ?b) then _ else _] => let x := eval compute in (a <? b) in change (a <? b) with x
    | |- context [rebalance _ (Node _ _ _ _ _)] => unfold rebalance; cbn [count_of]; cbv zeta
    | |- context [set less (S ?f) (Node _ _ _ _ _) _ _] => rewrite set_eq; cbv iota
    | |- context [set less ?f (Node _ _ _ _ _) _ _] => is_var f;
        let f' := fresh f in destruct f as [|f']; [exfalso; lia|]; rewrite set_eq; cbv iota
    end; cbn [bind fst snd].

  Lemma set_total_small t k v fuel : inv t -> t <> Leaf -> (size t <= 3)%nat -> (8 <= fuel)%nat ->
    exists p, set less fuel t k v = Ok p.
  Proof.
    intros (Hs & Hc & Ht) Hn Hz Hf. clear Ht.
    destruct t as [|k0 v0 l r c]; [congruence|].
    assert (F : forall t : tree, (size t = 0)%nat -> t = Leaf) by (intros [] ?; [reflexivity|cbn in *; lia]).
    destruct l as [|k1 v1 [|k3 v3 ll3 lr3 c3] [|k4 v4 ll4 lr4 c4] c1];
    destruct r as [|k2 v2 [|k5 v5 ll5 lr5 c5] [|k6 v6 ll6 lr6 c6] c2]; cbn [size] in Hz; try (exfalso; lia);
    repeat match goal with
    | H : context [size ?x] |- _ => is_var x; rewrite (F x ltac:(lia)) in *; cbn [size] in *
    end; cbn [counted count_of] in Hc; cbn [elements app] in Hs;
    repeat match goal with
    | H : _ /\ _ |- _ => destruct H
    end; subst; repeat match goal with H : StronglySorted _ (_ :: _) |- _ => apply StronglySorted_inv in H; destruct H end; less_facts; clear F;
    repeat small_step.
  Qed.

  Lemma rebalance_total set_ k v l r c : inv l -> inv r -> c = 1 + count_of l + count_of r ->
    (l <> Leaf -> r = Leaf -> exists p, set_ l k v = Ok p) ->
    (r <> Leaf -> l = Leaf -> exists p, set_ r k v = Ok p) ->
    exists t', rebalance set_ (Node k v l r c) = Ok t'.
  Proof.
    intros Hl Hr Hc H1 H2. destruct l as [|lk lv ll lr lc], r as [|rk rv rl rr rc]; cbn [rebalance].
    - subst c. cbn. eauto.
    - destruct (rc <=? 2); [eauto|]. destruct H2 as [[r' b] ->]; [discriminate|reflexivity|]. cbn. eauto.
    - destruct (lc <=? 2); [eauto|]. destruct H1 as [[l' b] ->]; [discriminate|reflexivity|]. cbn. eauto.
    - cbv zeta. destruct (_ <? _); [eauto|]. destruct (_ <? _); eauto.
  Qed.

  Lemma set_total n : forall t k v fuel, (size t <= n)%nat -> inv t -> t <> Leaf -> (size t + 8 <= fuel)%nat ->
    exists p, set less fuel t k v = Ok p.
  Proof.
    induction n as [|n IH]; intros t k v fuel Hz Ht Hn Hf.
    { destruct t; [congruence|cbn in Hz; lia]. }
    destruct (Nat.leb_spec (size t) 3) as [H3|H3]; [apply set_total_small; auto; lia|].
    destruct t as [|k0 v0 l r c]; [congruence|]. cbn [size] in *. destruct fuel as [|fuel]; [lia|].
    rewrite set_eq. pose proof (inv_node _ _ _ _ _ Ht) as (I1 & I2 & I3 & I4 & I5 & I6 & I7).
    destruct (less k k0) eqn:L1.
    - destruct l as [|lk lv ll lr lc]; [eauto|]. remember (Node lk lv ll lr lc) as l eqn:El.
      assert (Hl : l <> Leaf) by (subst l; discriminate). clear El lk lv ll lr lc.
      destruct (IH l k v fuel) as [p Hp]; auto; try lia. rewrite Hp. cbn [bind].
      pose proof (set_spec _ _ _ _ _ I1 Hl Hp) as Post. pose proof (set_post_count _ _ _ _ I1 Post) as Hc. destruct Post as (S1 & _ & _ & S4).
      destruct (snd p); [|eauto].
      destruct (rebalance_total (set less fuel) k0 v0 (fst p) r (c + 1)) as [t' ->]; auto; [lia| | |cbn; eauto].
      + intros _ ->. specialize (I5 eq_refl). apply set_total_small; auto; [|lia].
        apply Nat2Z.inj_le. rewrite <- (counted_size (fst p)) by apply S1. lia.
      + intros _ E. congruence.
    - destruct (less k0 k) eqn:L2; [|eauto].
      destruct r as [|rk rv rl rr rc]; [eauto|]. remember (Node rk rv rl rr rc) as r eqn:Er.
      assert (Hr : r <> Leaf) by (subst r; discriminate). clear Er rk rv rl rr rc.
      destruct (IH r k v fuel) as [p Hp]; auto; try lia. rewrite Hp. cbn [bind].
      pose proof (set_spec _ _ _ _ _ I2 Hr Hp) as Post. pose proof (set_post_count _ _ _ _ I2 Post) as Hc. destruct Post as (S1 & _ & _ & S4).
      destruct (snd p); [|eauto].
      destruct (rebalance_total (set less fuel) k0 v0 l (fst p) (c + 1)) as [t' ->]; auto; [lia| | |cbn; eauto].
      + intros _ E. congruence.
      + intros _ ->. specialize (I4 eq_refl). apply set_total_small; auto; [|lia].
        apply Nat2Z.inj_le. rewrite <- (counted_size (fst p)) by apply S1. lia.
  Qed.

  Lemma node_set_ok t k v : inv t -> t <> Leaf -> exists p, node_set less t k v = Ok p /\ set_post t k v p.
  Proof.
    intros Ht Hn. destruct (set_total (size t) t k v (size t + 8)) as [p Hp]; auto.
    exists p. split; [exact Hp|]. eapply set_spec; eauto.
  Qed.

  (** Rebalancing after a removal. *)
  Lemma rebalance_ok k v l r c : inv l -> inv r -> c = 1 + count_of l + count_of r ->
    Forall (fun p => less (fst p) k = true) (elements l) -> Forall (fun p => less k (fst p) = true) (elements r) ->
    exists t', rebalance (node_set less) (Node k v l r c) = Ok t' /\ inv t' /\ elements t' = elements l ++ (k, v) :: elements r.
  Proof.
    intros Hl Hr Hc H1 H2. destruct (rebalance_total (node_set less) k v l r c) as [t' Ht]; auto.
    - intros Hn _. destruct (node_set_ok l k v) as [p [? ?]]; eauto.
    - intros Hn _. destruct (node_set_ok r k v) as [p [? ?]]; eauto.
    - exists t'. split; [exact Ht|].
      destruct (rebalance_spec (node_set less) k v l r c t') as (A & B & C); auto.
      intros t p I N E. eapply set_spec; eauto.
  Qed.

  (** ** [first], [last], [remove] *)

  Lemma first_spec t : t <> Leaf -> exists k v l, elements t = (k, v) :: l /\ first t = Ok k.
  Proof.
    induction t as [|k v l IHl r IHr c]; [congruence|]. intros _. cbn [elements first].
    destruct l as [|lk lv ll lr lc]; [cbn; eauto|]. destruct IHl as (k1 & v1 & l1 & E1 & E2); [discriminate|].
    rewrite E1, E2. cbn. eauto.
  Qed.

  Lemma last_spec t : t <> Leaf -> exists k v l, elements t = l ++ [(k, v)] /\ last t = Ok k.
  Proof.
    induction t as [|k v l IHl r IHr c]; [congruence|]. intros _. cbn [elements last].
    destruct r as [|rk rv rl rr rc]; [cbn; eauto|]. destruct IHr as (k1 & v1 & l1 & E1 & E2); [discriminate|].
    rewrite E1, E2. exists k1, v1, (elements l ++ (k, v) :: l1). rewrite <- app_assoc. auto.
  Qed.

  Lemma erase_length k l : sorted l -> find k l <> None -> length l = S (length (erase k l)).
  Proof.
    unfold erase. induction 1 as [|[k1 v1] l Hs IH Hf]; cbn [SortedDict_Spec.find filter length fst]; [congruence|].
    cbn [fst] in Hf. destruct (same k k1) eqn:E; cbn [negb].
    - intros _. f_equal. change (filter _ l) with (erase k l). rewrite erase_none_gt; [reflexivity|].
      unfold SortedDict_Spec.same in E. apply andb_prop in E. destruct E as [E1 E2].
      eapply Forall_impl; [|exact Hf]. intros [k2 v2]; cbn. intros. eapply le_less_trans; [|eassumption]. now destruct (less k1 k).
    - intros H. cbn [length]. f_equal. auto.
  Qed.

  Lemma inv_erase_count t t' k : inv t -> inv t' -> find k (elements t) <> None -> elements t' = erase k (elements t) ->
    count_of t = count_of t' + 1.
  Proof.
    intros (A & B & _) (A' & B' & _) F E. rewrite (counted_size _ B), (counted_size _ B'), !size_elements, E.
    rewrite (erase_length k (elements t)) by assumption. lia.
  Qed.

  Lemma Forall_erase (P : K * V -> Prop) k l : Forall P l -> Forall P (erase k l).
  Proof. intros H. rewrite Forall_forall in *. intros x Hx. apply filter_In in Hx. now apply H. Qed.

  Lemma remove_spec t : forall k, inv t ->
    match find k (elements t) with
    | None => remove less t k = Err KeyError
    | Some _ => exists p, remove less t k = Ok p /\ inv (drop_if_empty p) /\ elements (drop_if_empty p) = erase k (elements t)
    end.
  Proof.
    induction t as [|k0 v0 l IHl r IHr c]; intros k Ht; [reflexivity|]. cbn [remove elements].
    pose proof (inv_node _ _ _ _ _ Ht) as (I1 & I2 & I3 & I4 & I5 & I6 & I7).
    destruct (less k k0) eqn:L1; [|destruct (less k0 k) eqn:L2].
    - specialize (IHl k I1). rewrite find_left, erase_left by assumption. destruct (find k (elements l)) eqn:F; [|now rewrite IHl].
      destruct IHl as (p & Hp & A & B). rewrite Hp. cbn [bind].
      destruct (rebalance_ok k0 v0 (drop_if_empty p) r (c - 1)) as (t' & E & C & D); auto.
      + rewrite I3, (inv_erase_count l (drop_if_empty p) k); auto; [lia|congruence].
      + rewrite B. now apply Forall_erase.
      + rewrite E. cbn [bind]. eexists. split; [reflexivity|]. cbn. split; [exact C|]. now rewrite D, B.
    - specialize (IHr k I2). rewrite find_right, erase_right by assumption. destruct (find k (elements r)) eqn:F; [|now rewrite IHr].
      destruct IHr as (p & Hp & A & B). rewrite Hp. cbn [bind].
      destruct (rebalance_ok k0 v0 l (drop_if_empty p) (c - 1)) as (t' & E & C & D); auto.
      + rewrite I3, (inv_erase_count r (drop_if_empty p) k); auto; [lia|congruence].
      + rewrite B. now apply Forall_erase.
      + rewrite E. cbn [bind]. eexists. split; [reflexivity|]. cbn. split; [exact C|]. now rewrite D, B.
    - rewrite find_mid, erase_mid by assumption.
      destruct (c =? 1) eqn:Ec.
      { eexists. split; [reflexivity|]. cbn. pose proof (counted_size l (proj1 (proj2 I1))). pose proof (counted_size r (proj1 (proj2 I2))).
        assert (l = Leaf) as -> by (apply count_zero; [apply I1|lia]). assert (r = Leaf) as -> by (apply count_zero; [apply I2|lia]).
        split; [apply inv_leaf|reflexivity]. }
      destruct l as [|lk lv ll lr lc], r as [|rk rv rl rr rc].
      + exfalso. cbn in I3. lia.
      + eexists. split; [reflexivity|]. cbn [drop_if_empty snd fst]. auto.
      + eexists. split; [reflexivity|]. cbn [drop_if_empty snd fst]. rewrite app_nil_r. auto.
      + remember (Node lk lv ll lr lc) as l eqn:El. remember (Node rk rv rl rr rc) as r eqn:Er.
        assert (Hl : l <> Leaf) by (subst l; discriminate). assert (Hr : r <> Leaf) by (subst r; discriminate).
        clear El lk lv ll lr lc Er rk rv rl rr rc. destruct (count_of r <? count_of l) eqn:Ecnt.
        * destruct (last_spec l Hl) as (k1 & v1 & l1 & E1 & E2). rewrite E2. cbn [bind].
          destruct I1 as (J1 & J2 & J3). pose proof J1 as J1'. rewrite E1 in J1'. apply sorted_mid in J1'. destruct J1' as (_ & _ & M & _).
          assert (F : find k1 (elements l) = Some v1) by (rewrite E1; apply find_mid; auto using (swo_irrefl _ O)).
          rewrite get_spec, F by assumption. cbn [bind].
          specialize (IHl k1 (conj J1 (conj J2 J3))). rewrite F in IHl. destruct IHl as (p & Hp & A & B). rewrite Hp. cbn [bind].
          rewrite E1, (erase_mid k1 l1 k1 v1 []) in B by auto using (swo_irrefl _ O). rewrite app_nil_r in B.
          rewrite E1 in I6. apply Forall_app in I6. destruct I6 as [I6 I8]. apply Forall_cons_iff in I8. destruct I8 as [I9 _]. subst c. cbn [fst] in I9.
          destruct (rebalance_ok k1 v1 (drop_if_empty p) r (1 + count_of l + count_of r - 1)) as (t' & E & C & D); auto.
          -- rewrite (inv_erase_count l (drop_if_empty p) k1); auto; [lia|now split|congruence|].
             rewrite B, E1, (erase_mid k1 l1 k1 v1 []) by auto using (swo_irrefl _ O). now rewrite app_nil_r.
          -- now rewrite B.
          -- eapply Forall_gt_trans; eauto.
          -- rewrite E. cbn [bind]. eexists. split; [reflexivity|]. cbn [drop_if_empty fst snd]. split; [exact C|].
             rewrite D, B, E1, <- app_assoc. reflexivity.
        * destruct (first_spec r Hr) as (k1 & v1 & l1 & E1 & E2). rewrite E2. cbn [bind].
          destruct I2 as (J1 & J2 & J3). pose proof J1 as J1'. rewrite E1 in J1'. apply (sorted_mid [] k1 v1 l1) in J1'. destruct J1' as (_ & _ & _ & M).
          assert (F : find k1 (elements r) = Some v1) by (rewrite E1; apply (find_mid k1 [] k1); auto using (swo_irrefl _ O)).
          rewrite get_spec, F by assumption. cbn [bind].
          specialize (IHr k1 (conj J1 (conj J2 J3))). rewrite F in IHr. destruct IHr as (p & Hp & A & B). rewrite Hp. cbn [bind].
          assert (EM : erase k1 ((k1, v1) :: l1) = l1) by (apply (erase_mid k1 [] k1 v1 l1); auto using (swo_irrefl _ O)). rewrite E1, EM in B.
          rewrite E1 in I7. apply Forall_cons_iff in I7. destruct I7 as [I9 I8]. subst c. cbn [fst] in I9.
          destruct (rebalance_ok k1 v1 l (drop_if_empty p) (1 + count_of l + count_of r - 1)) as (t' & E & C & D); auto.
          -- rewrite (inv_erase_count r (drop_if_empty p) k1); auto; [lia|now split|congruence|].
             now rewrite B, E1.
          -- eapply Forall_lt_trans; eauto.
          -- now rewrite B.
          -- rewrite E. cbn [bind]. eexists. split; [reflexivity|]. cbn [drop_if_empty fst snd]. split; [exact C|].
             rewrite D, B, E1. reflexivity.
  Qed.

  (** ** Iteration *)

  Definition flat (e : tree * bool) : list (K * V) :=
    match e with
    | (Leaf, _) => []
    | (Node k v l r _, true) => elements l ++ (k, v) :: elements r
    | (Node k v l r _, false) => (k, v) :: elements r
    end.
  Definition cost (e : tree * bool) : nat :=
    match e with
    | (Leaf, _) => 0
    | (t, true) => 2 * size t
    | (Node k v l r _, false) => 1 + 2 * size r
    end.

  Lemma items_loop_spec fuel : forall stack, Forall (fun e => fst e <> Leaf) stack ->
    (list_sum (map cost stack) <= fuel)%nat -> items_loop fuel stack = Ok (concat (map flat stack)).
  Proof.
    induction fuel as [|fuel IH]; intros stack Hs Hf.
    - destruct stack as [|[[|k v l r c] b] stack]; [reflexivity| |].
      + inversion Hs; subst. cbn in *. congruence.
      + exfalso. destruct b; cbn in Hf; lia.
    - destruct stack as [|[t b] stack]; [reflexivity|]. inversion Hs as [|? ? H1 H2]; subst. cbn [fst] in H1.
      destruct t as [|k v l r c]; [congruence|]. cbn [items_loop].
      assert (R : forall c0, (c0 + 2 * size r + list_sum (map cost stack) <= S fuel)%nat -> (1 <= c0)%nat ->
                items_loop fuel (match r with Leaf => stack | _ => (r, true) :: stack end) = Ok (elements r ++ concat (map flat stack))).
      { intros c0 Hc0 H0. destruct r as [|rk rv rl rr rc].
        - apply IH; [assumption|]. cbn in Hc0. lia.
        - rewrite IH; [reflexivity|constructor; [discriminate|assumption]|]. cbn [map list_sum fold_right cost] in *. unfold list_sum in *. cbn [fold_right]. lia. }
      destruct b.
      + destruct l as [|lk lv ll lr lc].
        * rewrite (R 1%nat); [reflexivity| |lia]. cbn in Hf. unfold list_sum. lia.
        * rewrite IH; [cbn [map concat flat elements app]; now rewrite <- !app_assoc| |].
          -- repeat constructor; try discriminate; assumption.
          -- unfold list_sum in *. cbn [map cost size fold_right] in *. lia.
      + rewrite (R 1%nat); [reflexivity| |lia]. cbn in Hf. unfold list_sum. lia.
  Qed.

  Lemma iter_loop_items fuel : forall stack : list (tree * bool),
    iter_loop fuel stack = (l <- items_loop fuel stack ;; Ok (map fst l)).
  Proof.
    induction fuel as [|fuel IH]; intros [|[t b] stack]; try reflexivity. cbn [iter_loop items_loop].
    destruct t as [|k v l r c]; [reflexivity|]. destruct b.
    - destruct l; [|apply IH]. rewrite IH. destruct (items_loop _ _); reflexivity.
    - rewrite IH. destruct (items_loop _ _); reflexivity.
  Qed.

  Lemma d_items_spec t : d_items t = Ok (elements t).
  Proof.
    destruct t as [|k v l r c]; [reflexivity|]. unfold d_items. rewrite items_loop_spec.
    - cbn [map concat flat]. now rewrite app_nil_r.
    - constructor; [discriminate|constructor].
    - cbn. lia.
  Qed.
  Lemma d_iter_spec t : d_iter t = Ok (map fst (elements t)).
  Proof.
    unfold d_iter. rewrite iter_loop_items. pose proof (d_items_spec t) as H. unfold d_items in H. destruct t; [reflexivity|]. now rewrite H.
  Qed.

  (** ** Histories *)

  Definition related (d : tree) (l : list (K * V)) : Prop := inv d /\ elements d = l.

  Lemma d_setitem_ok d k v : inv d -> exists d', d_setitem less d k v = Ok d' /\ inv d' /\ elements d' = insert k v (elements d).
  Proof.
    intros H. destruct d as [|k0 v0 l r c].
    - exists (Node k v Leaf Leaf 1). split; [reflexivity|]. split; [apply inv_single|reflexivity].
    - cbn [d_setitem]. destruct (node_set_ok (Node k0 v0 l r c) k v H) as [[d b] [E P]]; [discriminate|].
      rewrite E. cbn [bind]. exists d. split; [reflexivity|]. split; apply P.
  Qed.

  Lemma d_getitem_get (d : tree) k : d_getitem less d k = get less d k.
  Proof. destruct d; reflexivity. Qed.
  Lemma d_contains_contains (d : tree) k : d_contains less d k = contains less d k.
  Proof. destruct d; reflexivity. Qed.
  Lemma find_insert k v l : sorted l -> find k (insert k v l) = Some v.
  Proof.
    induction 1 as [|[k1 v1] l Hs IH Hf]; cbn.
    - unfold SortedDict_Spec.same. now rewrite (swo_irrefl _ O).
    - destruct (same k k1) eqn:E; cbn; [now rewrite E|]. destruct (less k k1) eqn:L; cbn.
      + unfold SortedDict_Spec.same. now rewrite (swo_irrefl _ O).
      + now rewrite E.
  Qed.

  Lemma step_refines d l o : related d l ->
    related (fst (step less d o)) (fst (spec_step less l o)) /\ snd (step less d o) = snd (spec_step less l o).
  Proof.
    intros [H <-]. pose proof H as (Hs & Hc & Ht). destruct o as [k v|k|k|k v|k v|k|k v|k| | | | |]; cbn [step spec_step].
    - destruct (d_setitem_ok d k v H) as (d' & -> & A & B). cbn. split; [split|]; auto.
    - pose proof (remove_spec d k H) as R. unfold d_delitem. destruct (find k (elements d)) eqn:F.
      + destruct R as (p & R & A & B). destruct d; [cbn in F; discriminate|]. rewrite R. cbn. split; [split|]; auto.
      + destruct d; [|rewrite R]; cbn; split; auto; split; auto.
    - pose proof (remove_spec d k H) as R. unfold d_pop. destruct (find k (elements d)) eqn:F.
      + destruct R as (p & R & A & B). destruct d; [cbn in F; discriminate|]. rewrite get_spec, F by assumption. cbn [bind]. rewrite R. cbn. split; [split|]; auto.
      + destruct d; [|rewrite get_spec, F by assumption]; cbn; split; auto; split; auto.
    - pose proof (remove_spec d k H) as R. unfold d_pop_default. rewrite d_contains_contains, contains_spec by assumption.
      destruct (find k (elements d)) eqn:F; cbn [negb].
      + destruct R as (p & R & A & B). rewrite get_spec, F by assumption. cbn [bind]. rewrite R. cbn. split; [split|]; auto.
      + cbn. split; auto; split; auto.
    - unfold d_setdefault. rewrite d_contains_contains, contains_spec by assumption.
      destruct (find k (elements d)) eqn:F; cbn [negb].
      + cbn [bind]. rewrite d_getitem_get, get_spec, F by assumption. cbn. split; auto; split; auto.
      + destruct (d_setitem_ok d k v H) as (d' & -> & A & B). cbn [bind].
        rewrite d_getitem_get, get_spec, B, find_insert by (assumption || apply A). cbn. split; [split|]; auto.
    - rewrite d_getitem_get, get_spec by assumption. destruct (find _ _); split; auto; split; auto.
    - unfold d_get_default. rewrite d_contains_contains, contains_spec, d_getitem_get, get_spec by assumption.
      destruct (find _ _); split; auto; split; auto.
    - rewrite d_contains_contains, contains_spec by assumption. split; auto; split; auto.
    - unfold d_len. rewrite counted_size, size_elements by assumption. split; auto; split; auto.
    - unfold d_first. destruct d as [|k0 v0 l r c] eqn:Ed; [split; auto; split; auto|].
      rewrite <- Ed in *. destruct (first_spec d) as (k & v & l' & E1 & E2); [subst; discriminate|].
      rewrite E1, E2. split; [split|]; auto.
    - unfold d_last, last_key. destruct d as [|k0 v0 l r c] eqn:Ed; [split; auto; split; auto|].
      rewrite <- Ed in *. destruct (last_spec d) as (k & v & l' & E1 & E2); [subst; discriminate|].
      rewrite E1, E2. cbn [bind fst snd]. split; [split; auto|]. f_equal.
      rewrite app_length, map_app, nth_error_app2; rewrite map_length; cbn [length]; [|lia].
      now replace (length l' + 1 - 1 - length l')%nat with 0%nat by lia.
    - rewrite d_items_spec. split; auto; split; auto.
    - rewrite d_iter_spec. split; auto; split; auto.
  Qed.

  Lemma run_refines ops : forall d l, related d l ->
    related (fst (run less d ops)) (fst (spec_run less l ops)) /\ snd (run less d ops) = snd (spec_run less l ops).
  Proof.
    induction ops as [|o ops IH]; intros d l H; cbn [run spec_run]; [auto|].
    destruct (step_refines d l o H) as [A B]. destruct (step less d o) as [d' a], (spec_step less l o) as [l' a']. cbn [fst snd] in *.
    specialize (IH d' l' A). destruct (run less d' ops), (spec_run less l' ops). cbn [fst snd] in *. destruct IH. subst. auto.
  Qed.

  Lemma related_empty : related Leaf [].
  Proof. split; [apply inv_leaf|reflexivity]. Qed.
End SortedDict.
