(** Proofs about the depth of a SortedDict (C17): inserting the smallest and the largest
    missing key in turn makes a tree of linear depth. *)
From Coq Require Import ZifyBool ZifyNat Sorting.Sorted.
From Verif Require Import Base Sort_Spec SortedDict_Model SortedDict_Spec SortedDict_Proofs.
Open Scope Z_scope.
Open Scope result_scope.

Section Depth.
  Context {K V : Type}.
  Variable less : K -> K -> bool.

  (** More fuel changes nothing. *)
  Lemma rebalance_mono (f g : tree K V -> K -> V -> result (tree K V * bool)) t t' :
    (forall t k v p, f t k v = Ok p -> g t k v = Ok p) -> rebalance f t = Ok t' -> rebalance g t = Ok t'.
  Proof.
    intros H. destruct t as [|k v [|lk lv ll lr lc] [|rk rv rl rr rc] c]; cbn [rebalance]; auto.
    - destruct (rc <=? 2); [auto|]. destruct (f _ k v) as [[x y]|] eqn:E; [|discriminate]. apply H in E. now rewrite E.
    - destruct (lc <=? 2); [auto|]. destruct (f _ k v) as [[x y]|] eqn:E; [|discriminate]. apply H in E. now rewrite E.
  Qed.

  Lemma set_mono f : forall g t k v (p : tree K V * bool), (f <= g)%nat -> set less f t k v = Ok p -> set less g t k v = Ok p.
  Proof.
    induction f as [|f IH]; intros g t k v p Hg H; [discriminate|]. destruct g as [|g]; [lia|].
    destruct t as [|k0 v0 l r c]; [discriminate|]. rewrite set_eq in *.
    destruct (less k k0).
    - destruct l; [assumption|]. destruct (set less f _ k v) as [p1|] eqn:E; [|discriminate].
      rewrite (IH g _ _ _ p1) by (lia || assumption). cbn [bind] in *. destruct (snd p1); [|assumption].
      destruct (rebalance (set less f) _) eqn:R; [|discriminate]. erewrite rebalance_mono; [exact H| |exact R].
      intros. apply IH; [lia|assumption].
    - destruct (less k0 k); [|assumption]. destruct r; [assumption|]. destruct (set less f _ k v) as [p1|] eqn:E; [|discriminate].
      rewrite (IH g _ _ _ p1) by (lia || assumption). cbn [bind] in *. destruct (snd p1); [|assumption].
      destruct (rebalance (set less f) _) eqn:R; [|discriminate]. erewrite rebalance_mono; [exact H| |exact R].
      intros. apply IH; [lia|assumption].
  Qed.
End Depth.

Section Zigzag.
  Context {V : Type}.
  Variable v : V.
  Notation tree := (tree Z V).

  Definition left_of (t : tree) : tree := match t with Leaf => Leaf | Node _ _ l _ _ => l end.

  Definition layer (a b : Z) (t : tree) : tree :=
    Node (a + 1) v (Node a v Leaf Leaf 1) (Node (b - 1) v t (Node b v Leaf Leaf 1) (2 + count_of t)) (4 + count_of t).

  (** [grow t k t']: setting the new key [k] turns [t] into [t']. *)
  Definition grow (t : tree) (k : Z) (t' : tree) : Prop :=
    count_of t' = count_of t + 1 /\ count_of (left_of t') <= 6 /\ t' <> Leaf /\
    match t with
    | Leaf => t' = Node k v Leaf Leaf 1
    | _ => exists fuel, set Z.ltb fuel t k v = Ok (t', true)
    end.

  Inductive grows : tree -> list Z -> tree -> Prop :=
  | grows_nil t : grows t [] t
  | grows_cons t k t1 ks t2 : grow t k t1 -> grows t1 ks t2 -> grows t (k :: ks) t2.

  Lemma grow_layer a b t k t' : a + 1 < k < b - 1 -> 0 <= count_of t -> 0 <= count_of (left_of t') ->
    (forall x y l r c, t' = Node x y l r c -> 0 <= count_of r) ->
    grow t k t' -> grow (layer a b t) k (layer a b t').
  Proof.
    intros Hk Ht H0 Hr0 (Hc & Hl & Hn & Hs). unfold grow, layer at 1 2 3. cbn [count_of left_of]. split; [lia|]. split; [lia|]. split; [discriminate|].
    unfold layer at 1.
    assert (R : forall fuel, set Z.ltb (S fuel) (Node (b - 1) v t (Node b v Leaf Leaf 1) (2 + count_of t)) k v =
                        Ok (Node (b - 1) v t' (Node b v Leaf Leaf 1) (2 + count_of t'), true) ->
                set Z.ltb (S (S fuel)) (layer a b t) k v = Ok (layer a b t', true)).
    { intros fuel E. unfold layer. rewrite set_eq.
      replace (k <? a + 1) with false by lia. replace (a + 1 <? k) with true by lia. rewrite E. cbn [bind fst snd].
      cbn [rebalance count_of]. cbv zeta.
      replace (_ <? 0) with false by lia. replace (_ <? 1) with false by lia. cbn [bind]. do 3 f_equal. lia. }
    destruct t as [|tk tv tl tr tc].
    - exists 3%nat. apply R. rewrite set_eq. replace (k <? b - 1) with true by lia. now subst t'.
    - destruct Hs as [fuel Hs]. exists (S (S fuel)). apply R. rewrite set_eq.
      replace (k <? b - 1) with true by lia. rewrite Hs. cbn [bind fst snd].
      destruct t' as [|tk' tv' tl' tr' tc']; [congruence|]. specialize (Hr0 _ _ _ _ _ eq_refl).
      cbn [rebalance count_of left_of] in *. cbv zeta.
      replace (_ <? count_of tl') with false by lia. replace (_ <? 0) with false by lia. cbn [bind]. do 3 f_equal. lia.
  Qed.

  Definition fine (t : tree) : Prop := counted t.

  Lemma fine_pos t : fine t -> 0 <= count_of t.
  Proof. intros H. rewrite (counted_size t H). lia. Qed.

  (** All trees on the way are counted. *)
  Inductive fine_grows : tree -> list Z -> tree -> Prop :=
  | fg_nil t : fine t -> fine_grows t [] t
  | fg_cons t k t1 ks t2 : fine t -> grow t k t1 -> fine_grows t1 ks t2 -> fine_grows t (k :: ks) t2.

  Lemma fine_layer a b t : fine t -> fine (layer a b t).
  Proof. unfold fine, layer. cbn [counted count_of]. intros H. repeat split; auto; lia. Qed.

  Lemma fine_grows_fine t ks t' : fine_grows t ks t' -> fine t.
  Proof. now destruct 1. Qed.

  Lemma grows_layer a b ks t t' : Forall (fun k => a + 1 < k < b - 1) ks -> fine_grows t ks t' ->
    fine_grows (layer a b t) ks (layer a b t').
  Proof.
    intros Hk H. induction H as [t F|t k t1 ks t2 F G H IH].
    - constructor. now apply fine_layer.
    - apply Forall_cons_iff in Hk. destruct Hk as [Hk Hks]. econstructor; [now apply fine_layer| |apply IH, Hks].
      apply fine_grows_fine in H. apply grow_layer; auto.
      + now apply fine_pos.
      + destruct t1; [cbn; lia|]. apply fine_pos. apply H.
      + intros x y l r c ->. apply fine_pos. apply H.
  Qed.

  (** The keys, and the tree they make. *)
  Fixpoint zigzag (n : nat) (a b : Z) : list Z :=
    match n with O => [] | S n => a :: b :: a + 1 :: b - 1 :: zigzag n (a + 2) (b - 2) end.
  Fixpoint layers (n : nat) (a b : Z) : tree :=
    match n with O => Leaf | S n => layer a b (layers n (a + 2) (b - 2)) end.

  Lemma zigzag_range n : forall a b, 4 * Z.of_nat n <= b - a + 1 -> Forall (fun k => a <= k <= b) (zigzag n a b).
  Proof.
    induction n as [|n IH]; intros a b H; cbn [zigzag]; [constructor|].
    repeat constructor; try lia. eapply Forall_impl; [|apply IH; lia]. cbn. intros; lia.
  Qed.

  Lemma fine_grows_app t ks t1 ks' t2 : fine_grows t ks t1 -> fine_grows t1 ks' t2 -> fine_grows t (ks ++ ks') t2.
  Proof. induction 1; cbn [app]; [auto|]. intros. econstructor; eauto. Qed.

  Lemma first_layer a b : a + 3 <= b -> fine_grows Leaf [a; b; a + 1; b - 1] (layer a b Leaf).
  Proof.
    intros H. unfold layer. cbn [count_of].
    apply (fg_cons _ _ (Node a v Leaf Leaf 1)); [exact I|repeat split; cbn; auto; try lia; discriminate|].
    apply (fg_cons _ _ (Node a v Leaf (Node b v Leaf Leaf 1) 2)); [cbn; lia| |].
    { split; [reflexivity|]. split; [cbn; lia|]. split; [discriminate|]. exists 1%nat.
      rewrite set_eq. replace (b <? a) with false by lia. now replace (a <? b) with true by lia. }
    apply (fg_cons _ _ (Node a v Leaf (Node b v (Node (a + 1) v Leaf Leaf 1) Leaf 2) 3)); [cbn; lia| |].
    { split; [reflexivity|]. split; [cbn; lia|]. split; [discriminate|]. exists 2%nat.
      rewrite set_eq. replace (a + 1 <? a) with false by lia. replace (a <? a + 1) with true by lia.
      rewrite set_eq. now replace (a + 1 <? b) with true by lia. }
    apply (fg_cons _ _ (layer a b Leaf)); [cbn; lia| |constructor; unfold fine, layer; cbn; lia].
    split; [reflexivity|]. split; [cbn; lia|]. split; [discriminate|]. exists 8%nat.
    unfold layer. cbn [count_of].
    repeat (match goal with
    | |- context [if ?x <? ?y then _ else _] => first [replace (x <? y) with true by lia | replace (x <? y) with false by lia]
    | |- context [if ?x <=? ?y then _ else _] => first [replace (x <=? y) with true by lia | replace (x <=? y) with false by lia]
    | |- context [rebalance _ (Node _ _ _ _ _)] => unfold rebalance; cbn [count_of]; cbv zeta
    | |- context [set Z.ltb (S _) (Node _ _ _ _ _) _ _] => rewrite set_eq; cbv iota
    end; cbn [bind fst snd count_of]). reflexivity.
  Qed.

  Lemma zigzag_grows n : forall a b, 4 * Z.of_nat n <= b - a + 1 -> fine_grows Leaf (zigzag n a b) (layers n a b).
  Proof.
    induction n as [|n IH]; intros a b H; cbn [zigzag layers]; [constructor; exact I|].
    apply (fine_grows_app _ [a; b; a + 1; b - 1] (layer a b Leaf)); [apply first_layer; lia|].
    apply grows_layer; [|apply IH; lia].
    eapply Forall_impl; [|apply zigzag_range; lia]. cbn. intros; lia.
  Qed.

  Lemma Zltb_order : strict_weak_order Z.ltb.
  Proof. split; intros; lia. Qed.

  Lemma run_grows ks : forall t t', fine_grows t ks t' -> inv Z.ltb t ->
    fst (run Z.ltb t (map (fun k => SetItem k v) ks)) = t'.
  Proof.
    induction ks as [|k ks IH]; intros t t' H Hi; inversion H as [|? ? t1 ? ? F G H1]; subst; [reflexivity|].
    cbn [map run step]. destruct (d_setitem_ok Z.ltb Zltb_order t k v Hi) as (d & E & I1 & _). rewrite E.
    assert (d = t1) as ->.
    { destruct G as (_ & _ & Hn & G). destruct t as [|tk tv tl tr tc].
      - cbn in E. injection E as <-. now symmetry.
      - cbn [d_setitem] in E. destruct G as [fuel G]. unfold node_set in E.
        destruct (set Z.ltb (size _ + 8) _ k v) as [p|] eqn:Ep; [|discriminate].
        apply (set_mono _ _ (Nat.max fuel (size (Node tk tv tl tr tc) + 8))) in G, Ep; try lia.
        rewrite G in Ep. injection Ep as <-. cbn in E. now injection E. }
    specialize (IH _ _ H1 I1). destruct (run _ _ _). exact IH.
  Qed.

  Lemma height_nonneg (t : tree) : 0 <= height t.
  Proof. destruct t; cbn [height]; lia. Qed.

  Lemma layers_height n : forall a b, 2 * Z.of_nat n <= height (layers n a b).
  Proof.
    induction n as [|n IH]; intros a b; [cbn; lia|]. cbn [layers]. unfold layer. cbn [height].
    specialize (IH (a + 2) (b - 2)). lia.
  Qed.
  Lemma layers_count n : forall a b, count_of (layers n a b) = 4 * Z.of_nat n.
  Proof.
    induction n as [|n IH]; intros a b; [reflexivity|]. cbn [layers]. unfold layer. cbn [count_of]. rewrite IH. lia.
  Qed.

  Lemma deep_history n : exists ops : list (op Z V),
    d_len (fst (run Z.ltb Leaf ops)) = 4 * Z.of_nat n /\ 2 * Z.of_nat n <= height (fst (run Z.ltb Leaf ops)).
  Proof.
    exists (map (fun k => SetItem k v) (zigzag n 0 (4 * Z.of_nat n))).
    rewrite (run_grows _ _ _ (zigzag_grows n 0 (4 * Z.of_nat n) ltac:(lia)) (inv_leaf _)).
    split; [apply layers_count|apply layers_height].
  Qed.

  (** No constant makes the depth logarithmic. *)
  Lemma log2_small k : 0 <= k -> Z.log2 (4 * 2 ^ k + 1) <= k + 2.
  Proof.
    intros H. assert (0 < 2 ^ k) by (apply Z.pow_pos_nonneg; lia).
    assert (Z.log2 (4 * 2 ^ k + 1) < k + 3); [|lia]. apply Z.log2_lt_pow2; [lia|].
    rewrite Z.pow_add_r by lia. change (2 ^ 3) with 8. lia.
  Qed.
  Lemma pow2_above c : 0 <= c -> exists k, 0 <= k /\ c * (k + 3) < 2 * 2 ^ k.
  Proof.
    intros H. exists (2 * c + 4). split; [lia|].
    replace (2 * c + 4) with (c + c + 4) by lia. rewrite !Z.pow_add_r by lia. change (2 ^ 4) with 16.
    pose proof (Z.pow_gt_lin_r 2 c ltac:(lia) H). nia.
  Qed.

  Lemma depth_not_logarithmic : ~ exists c, forall ops : list (op Z V),
    height (fst (run Z.ltb Leaf ops)) <= c * (1 + Z.log2 (1 + d_len (fst (run Z.ltb Leaf ops)))).
  Proof.
    intros [c H]. destruct (pow2_above (Z.max 0 c)) as (k & Hk & Hc); [lia|].
    destruct (deep_history (Z.to_nat (2 ^ k))) as (ops & E1 & E2). specialize (H ops). rewrite E1 in H.
    assert (0 < 2 ^ k) by (apply Z.pow_pos_nonneg; lia). rewrite Z2Nat.id in * by lia.
    pose proof (log2_small k Hk). pose proof (Z.log2_nonneg (4 * 2 ^ k + 1)). rewrite (Z.add_comm 1 (4 * 2 ^ k)) in H. nia.
  Qed.
End Zigzag.

Section Upper.
  Context {K V : Type}.

  (** The depth is never more than half the size, rounded up, plus one. *)
  Lemma height_le_count (t : tree K V) : counted t -> height t <= count_of t.
  Proof.
    induction t as [|k v l IHl r IHr c]; cbn [counted height count_of]; [lia|].
    intros (Hc & Cl & Cr). specialize (IHl Cl). specialize (IHr Cr).
    pose proof (counted_size l Cl). pose proof (counted_size r Cr). lia.
  Qed.

  Lemma leaf_or_count (t : tree K V) : counted t -> t = Leaf \/ 1 <= count_of t.
  Proof.
    intros C. destruct (Z.leb_spec (count_of t) 0) as [H|H]; [left; now apply count_zero|right; lia].
  Qed.

  Lemma thin_height (t : tree K V) : counted t -> thin t -> 2 * height t <= count_of t + 3.
  Proof.
    induction t as [|k v l IHl r IHr c]; cbn [counted thin height count_of]; [lia|].
    intros (Hc & Cl & Cr) (Tl & Tr & H1 & H2). specialize (IHl Cl Tl). specialize (IHr Cr Tr).
    pose proof (counted_size l Cl). pose proof (counted_size r Cr).
    pose proof (height_le_count l Cl). pose proof (height_le_count r Cr).
    destruct (leaf_or_count l Cl) as [->|L], (leaf_or_count r Cr) as [->|R]; cbn [count_of height] in *.
    - lia.
    - specialize (H1 eq_refl). lia.
    - specialize (H2 eq_refl). lia.
    - lia.
  Qed.
End Upper.
