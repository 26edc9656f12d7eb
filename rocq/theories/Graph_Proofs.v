(** Proofs about the directed graphs. *)
From Coq Require Import Permutation Sorted.
From Verif Require Import Base Graph_Model Graph_Spec.
From Coq Require Import ZifyBool ZifyNat.
Open Scope Z_scope.
Open Scope result_scope.

Lemma filter_le {A} (p q : A -> bool) l : (forall x, q x = true -> p x = true) -> (length (filter q l) <= length (filter p l))%nat.
Proof.
  intros H. induction l as [|x l IH]; cbn [filter]; [lia|]. destruct (q x) eqn:Qx; [rewrite (H x Qx); cbn [length]; lia|].
  destruct (p x); cbn [length]; lia.
Qed.
Lemma filter_lt {A} (p q : A -> bool) l a : (forall x, q x = true -> p x = true) -> In a l -> p a = true -> q a = false ->
  (length (filter q l) < length (filter p l))%nat.
Proof.
  intros H. induction l as [|x l IH]; intros I Pa Qa; [destruct I|]. cbn [filter]. destruct I as [->|I].
  - rewrite Pa, Qa. cbn [length]. pose proof (filter_le p q l H). lia.
  - specialize (IH I Pa Qa). destruct (q x) eqn:Qx; [rewrite (H x Qx); cbn [length]; lia|]. destruct (p x); cbn [length]; lia.
Qed.
Lemma filter_length {A} (p : A -> bool) l : (length (filter p l) <= length l)%nat.
Proof. induction l; cbn [filter length]; [lia|]. destruct (p a); cbn [length]; lia. Qed.

Section Proofs.
  Context {node : Type}.
  Variable eqb : node -> node -> bool.
  Variable order : list node -> list node.
  Hypothesis eqb_spec : forall x y, reflect (x = y) (eqb x y).
  Hypothesis order_perm : forall l, Permutation (order l) l.

  (** ** Sets and dicts *)

  Lemma eqb_refl x : eqb x x = true.
  Proof. destruct (eqb_spec x x); congruence. Qed.
  Lemma s_mem_In x s : s_mem eqb x s = true <-> In x s.
  Proof.
    unfold s_mem. rewrite existsb_exists. split.
    - intros (y & I & E). destruct (eqb_spec x y); congruence.
    - intros I. exists x. split; [exact I|apply eqb_refl].
  Qed.
  Lemma s_add_In x y s : In y (s_add eqb x s) <-> In y s \/ y = x.
  Proof.
    unfold s_add. destruct (s_mem eqb x s) eqn:M; [|rewrite in_app_iff; cbn; intuition congruence].
    apply s_mem_In in M. intuition congruence.
  Qed.
  Lemma s_discard_In x y s : In y (s_discard eqb x s) <-> In y s /\ y <> x.
  Proof.
    unfold s_discard. rewrite filter_In. destruct (eqb_spec x y); cbn [negb]; intuition congruence.
  Qed.
  Lemma order_In x l : In x (order l) <-> In x l.
  Proof. split; apply Permutation_in; [apply order_perm|symmetry; apply order_perm]. Qed.
  Lemma d_get_set {V} (d : list (node * V)) x v y : d_get eqb (d_set eqb d x v) y = if eqb y x then Some v else d_get eqb d y.
  Proof.
    induction d as [|[z w] d IH]; cbn [d_set d_get].
    - destruct (eqb_spec y x) as [->|]; reflexivity.
    - destruct (eqb_spec x z) as [->|D]; cbn [d_get].
      + destruct (eqb_spec y z); reflexivity.
      + rewrite IH. destruct (eqb_spec y z) as [->|]; [|reflexivity]. destruct (eqb_spec z x); [congruence|reflexivity].
  Qed.
  Lemma d_get_del {V} (d : list (node * V)) x y : d_get eqb (d_del eqb d x) y = if eqb y x then None else d_get eqb d y.
  Proof.
    unfold d_del. induction d as [|[z w] d IH]; cbn [filter d_get fst]; [now destruct (eqb y x)|].
    destruct (eqb_spec x z) as [->|D]; cbn [negb d_get]; rewrite IH.
    - destruct (eqb_spec y z); reflexivity.
    - destruct (eqb_spec y z) as [->|]; [|reflexivity]. destruct (eqb_spec z x); [congruence|reflexivity].
  Qed.
  Lemma d_get_In {V} (d : list (node * V)) x v : d_get eqb d x = Some v -> In x (map fst d).
  Proof.
    induction d as [|[y w] d IH]; cbn [d_get map fst]; [discriminate|]. destruct (eqb_spec x y) as [->|]; [now left|]. intros H. right. auto.
  Qed.

  (** ** The two dicts of a graph agree *)

  Notation outgoing := (outgoing eqb).
  Notation incoming := (incoming eqb).
  Definition E (g : graph node) (x y : node) : Prop := In y (outgoing g x).
  Definition consistent (g : graph node) : Prop := forall x y, In y (outgoing g x) <-> In x (incoming g y).

  Lemma has_edge_E g x y : has_edge eqb g x y = true <-> E g x y.
  Proof.
    unfold has_edge, E, Graph_Model.outgoing. destruct (d_get eqb (sourceToDest g) x) as [s|]; [apply s_mem_In|]. split; [discriminate|intros []].
  Qed.
  Lemma add_edge_out a b g x : outgoing (add_edge eqb a b g) x = if eqb x a then s_add eqb b (outgoing g a) else outgoing g x.
  Proof.
    unfold add_edge, s_add. destruct (s_mem eqb b (outgoing g a)) eqn:M; unfold Graph_Model.outgoing at 1; cbn [sourceToDest]; rewrite d_get_set;
      (destruct (eqb_spec x a) as [->|]; [|reflexivity]); rewrite ?M; reflexivity.
  Qed.
  Lemma add_edge_in a b g x : consistent g ->
    incoming (add_edge eqb a b g) x = if eqb x b then s_add eqb a (incoming g b) else incoming g x.
  Proof.
    intros C. unfold add_edge. destruct (s_mem eqb b (outgoing g a)) eqn:M; unfold Graph_Model.incoming at 1; cbn [destToSource].
    - destruct (eqb_spec x b) as [->|]; [|reflexivity]. apply s_mem_In in M. apply C in M.
      unfold s_add. rewrite (proj2 (s_mem_In _ _) M). reflexivity.
    - rewrite d_get_set. destruct (eqb_spec x b); reflexivity.
  Qed.
  Lemma add_edge_ok a b g : consistent g ->
    consistent (add_edge eqb a b g) /\ forall x y, E (add_edge eqb a b g) x y <-> E g x y \/ (x = a /\ y = b).
  Proof.
    intros C. split.
    - intros x y. rewrite add_edge_out, add_edge_in by exact C. specialize (C x y).
      destruct (eqb_spec x a) as [->|D1], (eqb_spec y b) as [->|D2]; rewrite ?s_add_In; intuition congruence.
    - intros x y. unfold E. rewrite add_edge_out. destruct (eqb_spec x a) as [->|D1]; rewrite ?s_add_In; intuition congruence.
  Qed.
  Lemma discard_edge_out a b g x y : In y (outgoing (discard_edge eqb a b g) x) <-> In y (outgoing g x) /\ ~ (x = a /\ y = b).
  Proof.
    unfold discard_edge, Graph_Model.outgoing. cbn [sourceToDest]. destruct (d_get eqb (sourceToDest g) a) as [s|] eqn:G.
    - rewrite d_get_set. destruct (eqb_spec x a) as [->|D]; [rewrite G, s_discard_In|]; intuition congruence.
    - destruct (eqb_spec x a) as [->|D]; [rewrite G; cbn; tauto|intuition congruence].
  Qed.
  Lemma discard_edge_in a b g x y : In x (incoming (discard_edge eqb a b g) y) <-> In x (incoming g y) /\ ~ (x = a /\ y = b).
  Proof.
    unfold discard_edge, Graph_Model.incoming. cbn [destToSource]. destruct (d_get eqb (destToSource g) b) as [s|] eqn:G.
    - rewrite d_get_set. destruct (eqb_spec y b) as [->|D]; [rewrite G, s_discard_In|]; intuition congruence.
    - destruct (eqb_spec y b) as [->|D]; [rewrite G; cbn; tauto|intuition congruence].
  Qed.
  Lemma discard_edge_ok a b g : consistent g ->
    consistent (discard_edge eqb a b g) /\ forall x y, E (discard_edge eqb a b g) x y <-> E g x y /\ ~ (x = a /\ y = b).
  Proof.
    intros C. split.
    - intros x y. rewrite discard_edge_out, discard_edge_in. specialize (C x y). tauto.
    - intros x y. apply discard_edge_out.
  Qed.
  Lemma discard_all (f : node -> node * node) l : forall g, consistent g ->
    let g' := fold_left (fun g i => discard_edge eqb (fst (f i)) (snd (f i)) g) l g in
    consistent g' /\ forall x y, E g' x y <-> E g x y /\ ~ exists i, In i l /\ f i = (x, y).
  Proof.
    induction l as [|i l IH]; intros g C; cbn [fold_left].
    - split; [exact C|]. intros x y. split; [intros H; split; [exact H|intros (i & [] & _)]|tauto].
    - destruct (discard_edge_ok (fst (f i)) (snd (f i)) g C) as [C1 H1]. destruct (IH _ C1) as [C2 H2]. split; [exact C2|].
      intros x y. rewrite H2, H1. split.
      + intros [[H3 H4] H5]. split; [exact H3|]. intros (j & [->|Ij] & Fj); [|eauto]. apply H4. now rewrite Fj.
      + intros [H3 H4]. repeat split; [exact H3| |].
        * intros [-> ->]. apply H4. exists i. split; [now left|apply surjective_pairing].
        * intros (j & Ij & Fj). apply H4. exists j. split; [now right|exact Fj].
  Qed.

  (** The sets that the loops of [dropNode] run over do not change. *)
  Lemma add_present a b g n : consistent g -> E g a n -> E g n b ->
    outgoing (add_edge eqb a b g) n = outgoing g n /\ incoming (add_edge eqb a b g) n = incoming g n.
  Proof.
    intros C Ha Hb. rewrite add_edge_out, add_edge_in by exact C. split.
    - destruct (eqb_spec n a) as [->|]; [|reflexivity]. unfold s_add. now rewrite (proj2 (s_mem_In _ _) Hb).
    - destruct (eqb_spec n b) as [->|]; [|reflexivity]. unfold s_add. apply C in Ha. now rewrite (proj2 (s_mem_In _ _) Ha).
  Qed.
  Lemma inner_loop n i l : forall g, consistent g -> E g i n -> (forall o, In o l -> E g n o) ->
    exists g', for_each (fun g => length (outgoing g n)) (fun o g => Ok (add_edge eqb i o g)) l g = Ok g' /\
      consistent g' /\ outgoing g' n = outgoing g n /\ incoming g' n = incoming g n /\
      forall x y, E g' x y <-> E g x y \/ (x = i /\ In y l).
  Proof.
    induction l as [|o l IH]; intros g C Hi Hl; cbn [for_each].
    - exists g. repeat split; auto; try apply C. intros [H|[_ []]]; exact H.
    - cbn [bind]. destruct (add_present i o g n C Hi (Hl o (or_introl eq_refl))) as [Ou In_].
      destruct (add_edge_ok i o g C) as [C1 E1]. rewrite Ou, Nat.eqb_refl.
      destruct (IH (add_edge eqb i o g) C1) as (g' & F & C' & Ou' & In' & E').
      + apply E1. now left.
      + intros o' Io. apply E1. left. apply Hl. now right.
      + exists g'. split; [exact F|]. split; [exact C'|]. split; [congruence|]. split; [congruence|].
        intros x y. rewrite E', E1. cbn [In]. intuition congruence.
  Qed.
  Lemma outer_loop n l : forall g, consistent g -> (forall i, In i l -> E g i n) ->
    exists g', for_each (fun g => length (incoming g n))
                 (fun i g => for_each (fun g => length (outgoing g n)) (fun o g => Ok (add_edge eqb i o g)) (order (outgoing g n)) g) l g = Ok g' /\
      consistent g' /\ outgoing g' n = outgoing g n /\ incoming g' n = incoming g n /\
      forall x y, E g' x y <-> E g x y \/ (In x l /\ E g n y).
  Proof.
    induction l as [|i l IH]; intros g C Hl; cbn [for_each].
    - exists g. repeat split; auto; try apply C. intros [H|[[] _]]; exact H.
    - destruct (inner_loop n i (order (outgoing g n)) g C (Hl i (or_introl eq_refl))) as (g1 & F & C1 & Ou & In_ & E1).
      { intros o Io. exact (proj1 (order_In _ _) Io). }
      rewrite F. cbn [bind]. rewrite In_, Nat.eqb_refl.
      destruct (IH g1 C1) as (g' & F' & C' & Ou' & In' & E').
      + intros i' Ii. apply E1. left. apply Hl. now right.
      + exists g'. split; [exact F'|]. split; [exact C'|]. split; [congruence|]. split; [congruence|].
        intros x y. rewrite E', !E1, order_In. cbn [In]. unfold E. intuition congruence.
  Qed.

  Lemma drop_node_ok n t g : consistent g ->
    exists g', drop_node eqb order n t g = Ok g' /\ consistent g' /\
      forall x y, E g' x y <-> (E g x y \/ (t = true /\ E g x n /\ E g n y)) /\ x <> n /\ y <> n.
  Proof.
    intros C. unfold drop_node.
    assert (exists g1, (if t then for_each (fun g => length (incoming g n))
                 (fun i g => for_each (fun g => length (outgoing g n)) (fun o g => Ok (add_edge eqb i o g)) (order (outgoing g n)) g) (order (incoming g n)) g
                 else Ok g) = Ok g1 /\ consistent g1 /\
      forall x y, E g1 x y <-> E g x y \/ (t = true /\ E g x n /\ E g n y)) as (g1 & -> & C1 & E1).
    { destruct t.
      - destruct (outer_loop n (order (incoming g n)) g C) as (g1 & F & C1 & _ & _ & E1).
        + intros i Ii. apply C. exact (proj1 (order_In _ _) Ii).
        + exists g1. split; [exact F|]. split; [exact C1|]. intros x y. rewrite E1, order_In. unfold E. rewrite (C x n). intuition.
      - exists g. split; [reflexivity|]. split; [exact C|]. intros x y. intuition congruence. }
    cbn [bind].
    pose proof (discard_all (fun i => (i, n)) (order (incoming g1 n)) g1 C1) as [C2 E2]. cbn [fst snd] in C2, E2.
    set (g2 := fold_left (fun g i => discard_edge eqb i n g) (order (incoming g1 n)) g1) in *.
    pose proof (discard_all (fun o => (n, o)) (order (outgoing g2 n)) g2 C2) as [C3 E3]. cbn [fst snd] in C3, E3.
    eexists. split; [reflexivity|]. split; [exact C3|].
    intros x y. rewrite E3, E2, <- E1. split.
    - intros [[H1 H2] H3]. split; [exact H1|]. split.
      + intros ->. apply H3. exists y. split; [|reflexivity]. apply order_In. apply E2. auto.
      + intros ->. apply H2. exists x. split; [|reflexivity]. apply order_In. apply C1. exact H1.
    - intros (H1 & H2 & H3). repeat split; [exact H1| |].
      + intros (i & _ & [= -> ->]). congruence.
      + intros (i & _ & [= -> ->]). congruence.
  Qed.

  Lemma run_graph_ok_from ops : forall g F, consistent g -> (forall x y, E g x y <-> F x y) ->
    let g' := fold_left (fun g op => match graph_step eqb order op g with Ok g => g | Err _ => g end) ops g in
    consistent g' /\ forall x y, E g' x y <-> fold_left edges_step ops F x y.
  Proof.
    induction ops as [|op ops IH]; intros g F C H; cbn [fold_left]; [auto|].
    assert (consistent (match graph_step eqb order op g with Ok g => g | Err _ => g end) /\
            forall x y, E (match graph_step eqb order op g with Ok g => g | Err _ => g end) x y <-> edges_step F op x y) as [C' H'];
      [|now apply IH].
    destruct op as [a b|a b|a b|n t]; cbn [graph_step edges_step].
    - destruct (add_edge_ok a b g C) as [C' E']. split; [exact C'|]. intros x y. now rewrite E', H.
    - unfold drop_edge. destruct (has_edge eqb g a b) eqn:He.
      + destruct (discard_edge_ok a b g C) as [C' E']. split; [exact C'|]. intros x y. now rewrite E', H.
      + split; [exact C|]. intros x y. rewrite <- H. split; [|tauto]. intros Hx. split; [exact Hx|]. intros [-> ->].
        apply has_edge_E in Hx. congruence.
    - destruct (discard_edge_ok a b g C) as [C' E']. split; [exact C'|]. intros x y. now rewrite E', H.
    - destruct (drop_node_ok n t g C) as (g' & -> & C' & E'). split; [exact C'|]. intros x y. rewrite E'.
      destruct t; rewrite <- ?H; intuition congruence.
  Qed.
  Lemma empty_consistent : consistent (empty_graph (node:=node)).
  Proof. intros x y. cbn. tauto. Qed.
  Lemma run_graph_ok ops : consistent (run_graph eqb order ops) /\ forall x y, E (run_graph eqb order ops) x y <-> edges_after ops x y.
  Proof. apply run_graph_ok_from; [apply empty_consistent|]. intros x y. cbn. tauto. Qed.

  Lemma edge_nodes g x y : consistent g -> E g x y -> In x (nodes_of g) /\ In y (nodes_of g).
  Proof.
    intros C H. pose proof H as H'. apply C in H'. unfold nodes_of. rewrite !in_app_iff. unfold E, Graph_Model.outgoing, Graph_Model.incoming in *.
    destruct (d_get eqb (sourceToDest g) x) eqn:G1; [|destruct H]. destruct (d_get eqb (destToSource g) y) eqn:G2; [|destruct H'].
    apply d_get_In in G1, G2. auto.
  Qed.

  (** ** Paths *)

  Lemma path_app (F : node -> node -> Prop) x k y m z : path F x k y -> path F y m z -> path F x (k + m) z.
  Proof. induction 1; cbn [Nat.add]; [auto|]. intros. econstructor; eauto. Qed.
  Lemma path_snoc (F : node -> node -> Prop) x k y z : path F x k y -> F y z -> path F x (S k) z.
  Proof. intros P H. replace (S k) with (k + 1)%nat by lia. eapply path_app; [exact P|]. econstructor; [exact H|constructor]. Qed.
  Lemma path_last (F : node -> node -> Prop) x k z : path F x (S k) z -> exists y, path F x k y /\ F y z.
  Proof.
    revert x; induction k as [|k IH]; intros x P.
    - inversion P as [|? y ? ? H P']; subst. inversion P'; subst. exists x. split; [constructor|exact H].
    - inversion P as [|? y ? ? H P']; subst. destruct (IH _ P') as (w & P1 & H1). exists w. split; [|exact H1]. econstructor; eauto.
  Qed.
  Lemma path_ext (F G : node -> node -> Prop) : (forall x y, F x y -> G x y) -> forall x k y, path F x k y -> path G x k y.
  Proof. intros H x k y. induction 1; [constructor|]. econstructor; eauto. Qed.
  Lemma path_opposite (F : node -> node -> Prop) x k y : path F x k y <-> path (fun a b => F b a) y k x.
  Proof.
    split; (induction 1; [constructor|]); eapply path_snoc; eauto.
  Qed.
  Lemma acyclic_ext (F G : node -> node -> Prop) : (forall x y, F x y <-> G x y) -> acyclic F <-> acyclic G.
  Proof. intros H. split; intros A x n P; apply (A x n); (eapply path_ext; [|exact P]); intros; now apply H. Qed.
  Lemma acyclic_opposite r (F : node -> node -> Prop) : acyclic (opposite r F) <-> acyclic F.
  Proof. destruct r; [|reflexivity]. cbn [opposite]. split; intros A x n P; apply (A x n); now apply path_opposite. Qed.
  Lemma depth_ext (F G : node -> node -> Prop) x n : (forall x y, F x y <-> G x y) -> depth F x n -> depth G x n.
  Proof.
    intros H [[y P] M]. split; [exists y; eapply path_ext; [|exact P]; intros; now apply H|].
    intros z k Q. apply (M z). eapply path_ext; [|exact Q]. intros; now apply H.
  Qed.
  Lemma depth_unique (F : node -> node -> Prop) x n m : depth F x n -> depth F x m -> n = m.
  Proof. intros [[y P] M] [[y' P'] M']. apply M' in P. apply M in P'. lia. Qed.
  Lemma depth_edge (F : node -> node -> Prop) x y n m : F x y -> depth F x n -> depth F y m -> (n < m)%nat.
  Proof. intros H [[z P] _] [_ M]. apply (M z (S n)). eapply path_snoc; eauto. Qed.

  (** ** levels *)

  Section Levels.
    Variable children : node -> list node.
    Variable U : list node.
    Hypothesis closed : forall x c, In x U -> In c (children x) -> In c U.
    (** [Q c n]: [c] is a child of [n]. *)
    Definition Q (c n : node) : Prop := In c (children n).

    Definition gray (lv : list (node * Z)) (x : node) : Prop := d_get eqb lv x = Some (-2).
    Definition black (lv : list (node * Z)) (x : node) (v : Z) : Prop := d_get eqb lv x = Some v /\ v <> -2.
    Definition J (lv : list (node * Z)) : Prop := forall x v, black lv x v -> exists k, v = Z.of_nat k /\ depth Q x k.
    Definition ext (lv lv' : list (node * Z)) : Prop :=
      (forall x v, d_get eqb lv x = Some v -> d_get eqb lv' x = Some v) /\ forall x, gray lv' x -> gray lv x.
    Definition unseen (lv : list (node * Z)) : nat := length (filter (fun x => match d_get eqb lv x with None => true | Some _ => false end) U).
    Definition plus (x y : node) : Prop := exists k, path Q x (S k) y.

    Lemma ext_refl lv : ext lv lv.
    Proof. split; auto. Qed.
    Lemma ext_trans a b c : ext a b -> ext b c -> ext a c.
    Proof. intros [H1 H2] [H3 H4]. split; auto. Qed.
    Lemma ext_unseen a b : ext a b -> (unseen b <= unseen a)%nat.
    Proof.
      intros [H _]. apply filter_le. intros x. destruct (d_get eqb a x) as [v|] eqn:G; [|auto]. now rewrite (H _ _ G).
    Qed.

    Definition walk_result (n : node) (lv : list (node * Z)) (r : result (Z * list (node * Z))) : Prop :=
      match r with
      | Ok (v, lv') => J lv' /\ ext lv lv' /\ black lv' n v
      | Err GenericError => ~ acyclic Q
      | Err _ => False
      end.

    Lemma walk_all_ok (w : node -> list (node * Z) -> result (Z * list (node * Z))) fuel n :
      (forall c lv, In c U -> J lv -> (forall g, gray lv g -> plus c g) -> (unseen lv < fuel)%nat -> walk_result c lv (w c lv)) ->
      In n U -> forall l lv m, (forall c, In c l -> Q c n) -> J lv -> (forall g, gray lv g -> g = n \/ plus n g) -> (unseen lv < fuel)%nat ->
      match walk_all w l m lv with
      | Ok (m', lv') => J lv' /\ ext lv lv' /\ m <= m' /\ (forall c, In c l -> exists k, depth Q c k /\ Z.of_nat k <= m') /\
                        (m' = m \/ exists c k, In c l /\ depth Q c k /\ m' = Z.of_nat k)
      | Err GenericError => ~ acyclic Q
      | Err _ => False
      end.
    Proof.
      intros IHw Hn. induction l as [|c l IH]; intros lv m Hl HJ Hg Hu; cbn [walk_all].
      - split; [exact HJ|]. split; [apply ext_refl|]. split; [lia|]. split; [intros c []|now left].
      - assert (Qc : Q c n) by (apply Hl; now left).
        assert (Pg : forall g, gray lv g -> plus c g).
        { intros g G. destruct (Hg g G) as [->|[k P]].
          - exists 0%nat. econstructor; [exact Qc|constructor].
          - exists (S k). econstructor; [exact Qc|exact P]. }
        specialize (IHw c lv (closed n c Hn Qc) HJ Pg Hu). destruct (w c lv) as [[v lv1]|e]; cbn [bind]; [|exact IHw].
        destruct IHw as (J1 & X1 & B1). destruct (J1 c v B1) as (k & -> & D).
        specialize (IH lv1 (Z.max m (Z.of_nat k)) (fun c' I => Hl c' (or_intror I)) J1).
        pose proof (ext_unseen _ _ X1). specialize (IH (fun g G => Hg g (proj2 X1 g G)) ltac:(lia)).
        destruct (walk_all w l (Z.max m (Z.of_nat k)) lv1) as [[m' lv']|e]; [|exact IH].
        destruct IH as (J2 & X2 & L & A & B). split; [exact J2|]. split; [eapply ext_trans; eauto|]. split; [lia|]. split.
        + intros c' [<-|I]; [|now apply A]. exists k. split; [exact D|lia].
        + destruct B as [->|(c' & k' & I & D' & ->)].
          * destruct (Z.max_spec m (Z.of_nat k)) as [[_ ->]|[_ ->]]; [|now left]. right. exists c, k. cbn. auto.
          * right. exists c', k'. cbn. auto.
    Qed.

    Lemma walk_ok fuel : forall n lv, In n U -> J lv -> (forall g, gray lv g -> plus n g) -> (unseen lv < fuel)%nat ->
      walk_result n lv (walk eqb order children fuel n lv).
    Proof.
      induction fuel as [|fuel IH]; intros n lv Hn HJ Hg Hu; [lia|]. cbn [walk].
      destruct (d_get eqb lv n) as [v|] eqn:G; cbn [bind].
      - rewrite G. destruct (Z.eqb_spec v (-2)) as [->|D]; cbn [walk_result].
        + intros A. destruct (Hg n G) as [k P]. exact (A n k P).
        + split; [exact HJ|]. split; [apply ext_refl|]. split; [exact G|exact D].
      - set (lv1 := d_set eqb lv n (-2)).
        assert (G1 : forall x, d_get eqb lv1 x = if eqb x n then Some (-2) else d_get eqb lv x) by (intros; apply d_get_set).
        pose proof (walk_all_ok (walk eqb order children fuel) fuel n (fun c lv => IH c lv) Hn (order (children n)) lv1 (-1)) as W.
        assert (W1 : forall c, In c (order (children n)) -> Q c n) by (intros c I; exact (proj1 (order_In _ _) I)).
        assert (W2 : J lv1).
        { intros x v [Hx Dx]. rewrite G1 in Hx. destruct (eqb_spec x n) as [->|]; [congruence|]. apply HJ. split; auto. }
        assert (W3 : forall g, gray lv1 g -> g = n \/ gray lv g).
        { intros g. unfold gray. rewrite G1. destruct (eqb_spec g n); auto. }
        assert (W4 : (unseen lv1 < unseen lv)%nat).
        { apply (filter_lt _ _ U n); [|exact Hn|now rewrite G|now rewrite G1, eqb_refl].
          intros x. rewrite G1. destruct (eqb x n); [discriminate|auto]. }
        specialize (W W1 W2 (fun g Hg' => match W3 g Hg' with or_introl e => or_introl e | or_intror h => or_intror (Hg g h) end) ltac:(lia)).
        destruct (walk_all (walk eqb order children fuel) (order (children n)) (-1) lv1) as [[m lv2]|e]; cbn [bind]; [|exact W].
        destruct W as (J2 & [X1 X2] & Lm & A & B).
        rewrite d_get_set, eqb_refl. destruct (Z.eqb_spec (1 + m) (-2)); [lia|]. cbn [walk_result].
        assert (D : exists k, 1 + m = Z.of_nat k /\ depth Q n k).
        { exists (Z.to_nat (1 + m)). split; [lia|]. split.
          - destruct B as [->|(c & k & I & [[y P] _] & ->)]; [exists n; constructor|].
            exists y. replace (Z.to_nat (1 + Z.of_nat k)) with (S k) by lia. eapply path_snoc; [exact P|]. now apply W1.
          - intros y k P. destruct k as [|k]; [lia|]. apply path_last in P. destruct P as (c & P & Qc).
            destruct (A c) as (j & [_ Mj] & Lj); [now apply order_In|]. apply Mj in P. lia. }
        assert (G3 : forall x, d_get eqb (d_set eqb lv2 n (1 + m)) x = if eqb x n then Some (1 + m) else d_get eqb lv2 x) by (intros; apply d_get_set).
        split; [|split].
        + intros x v [Hx Dx]. rewrite G3 in Hx. destruct (eqb_spec x n) as [->|]; [injection Hx as <-; exact D|]. apply J2. split; auto.
        + split.
          * intros x v Hx. rewrite G3. destruct (eqb_spec x n) as [->|Dn]; [congruence|]. apply X1. rewrite G1. destruct (eqb_spec x n); congruence.
          * intros x. unfold gray. rewrite G3. destruct (eqb_spec x n) as [->|Dn]; [intros H; exfalso; assert (1 + m = -2) by congruence; lia|]. intros Hx. apply X2 in Hx. apply W3 in Hx. intuition.
        + split; [now rewrite G3, eqb_refl|lia].
    Qed.

    Lemma walk_each_ok fuel : forall l lv, (forall x, In x l -> In x U) -> J lv -> (forall g, ~ gray lv g) -> (unseen lv < fuel)%nat ->
      match walk_each (walk eqb order children fuel) l lv with
      | Ok lv' => J lv' /\ ext lv lv' /\ forall x, In x l -> exists k, depth Q x k /\ d_get eqb lv' x = Some (Z.of_nat k)
      | Err e => e = GenericError /\ ~ acyclic Q
      end.
    Proof.
      induction l as [|x l IH]; intros lv Hl HJ Hg Hu; cbn [walk_each].
      - split; [exact HJ|]. split; [apply ext_refl|intros x []].
      - pose proof (walk_ok fuel x lv (Hl x (or_introl eq_refl)) HJ (fun g G => match Hg g G with end) Hu) as W.
        destruct (walk eqb order children fuel x lv) as [[v lv1]|e]; cbn [bind].
        + destruct W as (J1 & X1 & B1). pose proof (ext_unseen _ _ X1).
          specialize (IH lv1 (fun y I => Hl y (or_intror I)) J1 (fun g G => Hg g (proj2 X1 g G)) ltac:(lia)).
          destruct (walk_each _ l lv1) as [lv'|e]; [|exact IH]. destruct IH as (J2 & X2 & A).
          split; [exact J2|]. split; [eapply ext_trans; eauto|]. intros y [<-|I]; [|now apply A].
          destruct (J1 _ _ B1) as (k & -> & D). exists k. split; [exact D|]. apply X2. apply B1.
        + destruct e; cbn [walk_result] in W; try contradiction. auto.
    Qed.
  End Levels.

  Lemma walk_acyclic children lv U : (forall x, In x U -> exists k, depth (Q children) x k) -> (forall x c, Q children c x -> In c U /\ In x U) ->
    J children lv -> acyclic (Q children).
  Proof.
    intros D C _ x n P. destruct (path_last _ _ _ _ P) as (c & _ & Qc). destruct (C _ _ Qc) as [_ Hx]. destruct (D x Hx) as (k & [[y P'] M]).
    specialize (M y (k + S n)%nat (path_app _ _ _ _ _ _ P' P)). lia.
  Qed.

  Lemma levels_ok g r : consistent g ->
    match levels eqb order g r with
    | Ok lv => acyclic (E g) /\ (forall x, In x (nodes_of g) -> exists k, depth (opposite r (E g)) x k /\ d_get eqb lv x = Some (Z.of_nat k)) /\
               (forall x v, d_get eqb lv x = Some v -> exists k, v = Z.of_nat k /\ depth (opposite r (E g)) x k)
    | Err e => e = GenericError /\ ~ acyclic (E g)
    end.
  Proof.
    intros C. unfold levels. set (children := if r then outgoing g else incoming g).
    assert (HQ : forall x y, Q children x y <-> opposite r (E g) x y).
    { intros x y. unfold Q, children, opposite, E. destruct r; [reflexivity|]. symmetry. apply C. }
    assert (HA : acyclic (Q children) <-> acyclic (E g)).
    { rewrite <- (acyclic_opposite r (E g)). apply acyclic_ext. exact HQ. }
    assert (HN : forall x c, Q children c x -> In c (nodes_of g) /\ In x (nodes_of g)).
    { intros x c H. apply HQ in H. destruct r; cbn [opposite] in H; apply edge_nodes in H; tauto. }
    pose proof (walk_each_ok children (nodes_of g) (fun x c _ H => proj1 (HN x c H)) (S (length (nodes_of g))) (nodes_of g) []
      (fun x I => I)) as W.
    assert (W1 : J children []) by (intros x v [H _]; discriminate).
    assert (W2 : forall x, ~ gray [] x) by (intros x H; discriminate).
    assert (W3 : (unseen (nodes_of g) [] < S (length (nodes_of g)))%nat) by (unfold unseen; apply Nat.lt_succ_r, filter_length).
    specialize (W W1 W2 W3).
    destruct (walk_each _ (nodes_of g) []) as [lv|e].
    - destruct W as (J1 & X1 & A). split; [|split].
      + apply HA. eapply (walk_acyclic children lv (nodes_of g)); [|exact HN|exact J1]. intros x I. destruct (A x I) as (k & D & _). eauto.
      + intros x I. destruct (A x I) as (k & D & G). exists k. split; [|exact G]. eapply depth_ext; [exact HQ|exact D].
      + intros x v G. destruct (Z.eq_dec v (-2)) as [->|D2]; [exfalso; apply (W2 x); apply X1; exact G|].
        destruct (J1 x v (conj G D2)) as (k & -> & D). exists k. split; [reflexivity|]. eapply depth_ext; [exact HQ|exact D].
    - destruct W as [-> W]. split; [reflexivity|]. now rewrite <- HA.
  Qed.

  (** ** topologicalSort *)

  Section Sorting.
    Context {A : Type}.
    Variable lt : A -> A -> bool.
    Hypothesis lt_trans : forall a b c, lt a b = false -> lt b c = false -> lt a c = false.
    Hypothesis lt_asym : forall a b, lt a b = true -> lt b a = false.
    Lemma insert_by_perm x l : Permutation (insert_by lt x l) (x :: l).
    Proof. induction l as [|y l IH]; cbn [insert_by]; [reflexivity|]. destruct (lt y x); [|reflexivity]. rewrite IH. apply perm_swap. Qed.
    Lemma sorted_by_perm l : Permutation (sorted_by lt l) l.
    Proof. induction l as [|x l IH]; cbn [sorted_by fold_right]; [reflexivity|]. rewrite insert_by_perm. now constructor. Qed.
    Lemma insert_by_sorted x l : StronglySorted (fun a b => lt b a = false) l -> StronglySorted (fun a b => lt b a = false) (insert_by lt x l).
    Proof.
      induction l as [|y l IH]; cbn [insert_by]; intros S.
      - repeat constructor.
      - inversion S as [|? ? S' F]; subst. destruct (lt y x) eqn:L.
        + constructor; [now apply IH|]. eapply Permutation_Forall; [symmetry; apply insert_by_perm|]. constructor; [now apply lt_asym|exact F].
        + constructor; [exact S|]. constructor; [exact L|]. eapply Forall_impl; [|exact F]. cbn beta. intros a Ha. eapply lt_trans; eauto.
    Qed.
    Lemma sorted_by_sorted l : StronglySorted (fun a b => lt b a = false) (sorted_by lt l).
    Proof. induction l; cbn [sorted_by fold_right]; [constructor|]. now apply insert_by_sorted. Qed.
    Lemma strongly_nth (R : A -> A -> Prop) l : StronglySorted R l -> forall i j x y, nth_error l i = Some x -> nth_error l j = Some y -> (i < j)%nat -> R x y.
    Proof.
      induction 1 as [|a l S IH F]; intros i j x y Hi Hj L; [destruct i; discriminate|]. destruct j as [|j]; [lia|]. cbn [nth_error] in Hj.
      destruct i as [|i]; cbn [nth_error] in Hi; [|eapply IH; eauto; lia]. injection Hi as <-.
      rewrite Forall_forall in F. apply F. eapply nth_error_In; eauto.
    Qed.
    Lemma sorted_by_before l x y i j : lt x y = true -> nth_error (sorted_by lt l) i = Some x -> nth_error (sorted_by lt l) j = Some y -> (i < j)%nat.
    Proof.
      intros L Hi Hj. destruct (Nat.lt_trichotomy i j) as [H|[H|H]]; [exact H| |]; exfalso.
      - subst j. rewrite Hi in Hj. injection Hj as <-. pose proof (lt_asym _ _ L). congruence.
      - pose proof (strongly_nth _ _ (sorted_by_sorted l) _ _ _ _ Hj Hi H) as N. cbn beta in N. congruence.
    Qed.
  End Sorting.

  Lemma index_of_ge n l : forall i, -1 <= index_of eqb n l i.
  Proof. induction l as [|x l IH]; intros i; cbn [index_of]; [lia|]. specialize (IH (i + 1)). destruct (eqb n x); lia. Qed.
  Lemma index_of_notin n l : forall i, ~ In n l -> index_of eqb n l i = -1.
  Proof.
    induction l as [|x l IH]; intros i N; cbn [index_of]; [reflexivity|]. rewrite IH by (intros I; apply N; now right).
    destruct (eqb_spec n x) as [->|]; [|lia]. exfalso. apply N. now left.
  Qed.
  Lemma index_of_nth l : NoDup l -> forall k n i, 0 <= i -> nth_error l k = Some n -> index_of eqb n l i = i + Z.of_nat k.
  Proof.
    induction 1 as [|x l N D IH]; intros k n i Hi Hk; [destruct k; discriminate|]. cbn [index_of]. destruct k as [|k]; cbn [nth_error] in Hk.
    - injection Hk as ->. rewrite eqb_refl, (index_of_notin n l) by exact N. lia.
    - rewrite (IH k n (i + 1)) by (auto; lia). destruct (eqb_spec n x) as [->|]; [|lia]. exfalso. apply N. eapply nth_error_In; eauto.
  Qed.

  Lemma topological_ok g nodes r : consistent g ->
    match topological_sort eqb order g nodes r with
    | Ok l => acyclic (E g) /\ Permutation l nodes /\ (forall x y, opposite r (E g) x y -> before x y l) /\
              (forall x y n m, depth (opposite r (E g)) x n -> depth (opposite r (E g)) y m -> (n < m)%nat -> before x y l) /\
              (NoDup nodes -> forall x y n i j, depth (opposite r (E g)) x n -> depth (opposite r (E g)) y n ->
                 nth_error nodes i = Some x -> nth_error nodes j = Some y -> (i < j)%nat -> before x y l)
    | Err e => e = GenericError /\ ~ acyclic (E g)
    end.
  Proof.
    intros C. unfold topological_sort. pose proof (levels_ok g r C) as L. destruct (levels eqb order g r) as [lv|e]; cbn [bind]; [|exact L].
    destruct L as (A & L1 & L2). set (key n := (match d_get eqb lv n with Some l => l | None => 0 end, index_of eqb n nodes 0)).
    set (lt := fun a b => let (la, ia) := key a in let (lb, ib) := key b in (la <? lb) || ((la =? lb) && (ia <? ib))).
    assert (T1 : forall a b c, lt a b = false -> lt b c = false -> lt a c = false).
    { intros a b c. unfold lt. destruct (key a), (key b), (key c). lia. }
    assert (T2 : forall a b, lt a b = true -> lt b a = false).
    { intros a b. unfold lt. destruct (key a), (key b). lia. }
    assert (LT : forall x y, lt x y = true -> before x y (sorted_by lt nodes)).
    { intros x y H i j Hi Hj. eapply sorted_by_before; eauto. }
    assert (D : forall x n, depth (opposite r (E g)) x n -> fst (key x) = Z.of_nat n).
    { intros x n Dn. unfold key. cbn [fst]. destruct (d_get eqb lv x) as [v|] eqn:G.
      - destruct (L2 x v G) as (k & -> & Dk). now rewrite (depth_unique _ _ _ _ Dn Dk).
      - destruct n as [|n]; [reflexivity|]. exfalso. destruct Dn as [[y P] _]. apply path_last in P. destruct P as (c & _ & H).
        assert (I : In x (nodes_of g)) by (destruct r; cbn [opposite] in H; apply edge_nodes in H; tauto).
        destruct (L1 x I) as (k & _ & G'). congruence. }
    assert (X : forall x, In x (nodes_of g) -> exists k, depth (opposite r (E g)) x k) by (intros x I; destruct (L1 x I) as (k & Dk & _); eauto).
    split; [exact A|]. split; [apply sorted_by_perm|].
    assert (Y : forall x y n m, depth (opposite r (E g)) x n -> depth (opposite r (E g)) y m -> (n < m)%nat -> before x y (sorted_by lt nodes)).
    { intros x y n m Dx Dy H. apply LT. apply D in Dx, Dy. unfold lt. destruct (key x), (key y). cbn [fst] in *. lia. }
    split; [|split; [exact Y|]].
    - intros x y H. assert (In x (nodes_of g) /\ In y (nodes_of g)) as [Ix Iy] by (destruct r; cbn [opposite] in H; apply edge_nodes in H; tauto).
      destruct (X x Ix) as [n Dn], (X y Iy) as [m Dm]. eapply Y; eauto. eapply depth_edge; eauto.
    - intros ND x y n i j Dx Dy Hi Hj H. apply LT. apply D in Dx, Dy.
      pose proof (index_of_nth nodes ND i x 0 ltac:(lia) Hi). pose proof (index_of_nth nodes ND j y 0 ltac:(lia) Hj).
      unfold lt, key in *. cbn [fst] in *. lia.
  Qed.

  (** ** createsCycle *)

  Section Reach.
    Variable g : graph node.
    Variable U : list node.
    Hypothesis closed : forall x c, In x U -> E g x c -> In c U.
    Definition unseen_in (seen : list node) : nat := length (filter (fun x => negb (s_mem eqb x seen)) U).
    (** Every successor of a node that was seen between [a] and [b] has been seen. *)
    Definition done (a b : list node) : Prop := forall x y, In x b -> ~ In x a -> E g x y -> In y b.

    Definition reach_result (n : node) (seen : list node) (r : result (list node)) : Prop :=
      exists s, r = Ok s /\ In n s /\ incl seen s /\ done seen s /\ (forall x, In x s -> In x seen \/ exists k, path (E g) n k x).

    Lemma unseen_incl a b : incl a b -> (unseen_in b <= unseen_in a)%nat.
    Proof.
      intros H. unfold unseen_in. apply filter_le. intros x. destruct (s_mem eqb x a) eqn:M; [|reflexivity]. apply s_mem_In, H, s_mem_In in M. now rewrite M.
    Qed.
    Lemma In_dec_seen x (s : list node) : In x s \/ ~ In x s.
    Proof. destruct (s_mem eqb x s) eqn:M; [left; now apply s_mem_In|right; intros I; apply s_mem_In in I; congruence]. Qed.

    Lemma reach_all_ok (w : node -> list node -> result (list node)) fuel :
      (forall c seen, In c U -> (unseen_in seen < fuel)%nat -> reach_result c seen (w c seen)) ->
      forall l seen, (forall c, In c l -> In c U) -> (unseen_in seen < fuel)%nat ->
      exists s, reach_all w l seen = Ok s /\ (forall c, In c l -> In c s) /\ incl seen s /\ done seen s /\
        (forall x, In x s -> In x seen \/ exists c k, In c l /\ path (E g) c k x).
    Proof.
      intros IHw. induction l as [|c l IH]; intros seen Hl Hu; cbn [reach_all].
      - exists seen. split; [reflexivity|]. split; [intros c []|]. split; [apply incl_refl|]. split; [intros x y I N; contradiction|auto].
      - destruct (IHw c seen (Hl c (or_introl eq_refl)) Hu) as (s1 & -> & I1 & S1 & D1 & P1). cbn [bind].
        pose proof (unseen_incl _ _ S1) as L1. destruct (IH s1 (fun c' I => Hl c' (or_intror I)) ltac:(lia)) as (s & -> & I2 & S2 & D2 & P2).
        exists s. split; [reflexivity|]. split; [intros c' [<-|I]; auto|]. split; [eapply incl_tran; eauto|]. split.
        + intros x y I N H. destruct (In_dec_seen x s1) as [I'|N']; [apply S2; eapply D1; eauto|eapply D2; eauto].
        + intros x I. destruct (P2 x I) as [I'|(c' & k & Ic & P)].
          * destruct (P1 x I') as [|[k P]]; [now left|]. right. exists c, k. cbn. auto.
          * right. exists c', k. cbn. auto.
    Qed.
    Lemma reach_ok fuel : forall n seen, In n U -> (unseen_in seen < fuel)%nat -> reach_result n seen (reach eqb order g fuel n seen).
    Proof.
      induction fuel as [|fuel IH]; intros n seen Hn Hu; [lia|]. cbn [reach]. destruct (s_mem eqb n seen) eqn:M.
      - apply s_mem_In in M. exists seen. split; [reflexivity|]. split; [exact M|]. split; [apply incl_refl|]. split; [intros x y I N; contradiction|auto].
      - assert (W : (unseen_in (s_add eqb n seen) < unseen_in seen)%nat).
        { apply (filter_lt _ _ U n); [|exact Hn|now rewrite M|].
          - intros x. destruct (s_mem eqb x seen) eqn:Mx; [|reflexivity]. apply s_mem_In in Mx.
            rewrite (proj2 (s_mem_In x (s_add eqb n seen))); [discriminate|]. apply s_add_In. now left.
          - rewrite (proj2 (s_mem_In n (s_add eqb n seen))); [reflexivity|]. apply s_add_In. now right. }
        destruct (reach_all_ok (reach eqb order g fuel) fuel IH (order (outgoing g n)) (s_add eqb n seen)) as (s & -> & I2 & S2 & D2 & P2); [|lia|].
        { intros c I. apply (closed n c Hn). exact (proj1 (order_In _ _) I). }
        exists s. split; [reflexivity|]. split; [apply S2, s_add_In; now right|]. split; [intros x I; apply S2, s_add_In; now left|]. split.
        + intros x y I N H. destruct (eqb_spec x n) as [->|D]; [apply I2, order_In; exact H|].
          eapply D2; eauto. intros I'. apply s_add_In in I'. tauto.
        + intros x I. destruct (P2 x I) as [I'|(c & k & Ic & P)].
          * apply s_add_In in I'. destruct I' as [I'|E']; [now left|]. subst x. right. exists 0%nat. constructor.
          * right. exists (S k). econstructor; [|exact P]. exact (proj1 (order_In _ _) Ic).
    Qed.
  End Reach.

  Lemma creates_cycle_path g a b : consistent g -> a <> b ->
    exists r, creates_cycle eqb order g a b = Ok r /\ (r = true <-> exists k, path (E g) b k a).
  Proof.
    intros C D. unfold creates_cycle. destruct (eqb_spec a b) as [|_]; [contradiction|].
    destruct (reach_ok g (b :: nodes_of g) (fun x c _ H => or_intror (proj2 (edge_nodes g x c C H))) (S (S (length (nodes_of g)))) b []) as (s & -> & I & _ & Dn & P).
    - now left.
    - unfold unseen_in. pose proof (filter_length (fun x => negb (s_mem eqb x [])) (b :: nodes_of g)). cbn [length] in *. lia.
    - cbn [bind]. eexists. split; [reflexivity|]. rewrite s_mem_In. split.
      + intros Ia. destruct (P a Ia) as [[]|H]; exact H.
      + intros [k Pk]. clear P D. induction Pk as [|x y k z H Pk IH]; [exact I|]. apply IH. eapply Dn; eauto.
  Qed.
  (** Adding an edge to a graph without cycles makes one exactly if there is a path back. *)
  Lemma adding_cycle (F : node -> node -> Prop) a b : acyclic F ->
    ~ acyclic (fun x y => F x y \/ (x = a /\ y = b)) <-> ~ ~ exists k, path F b k a.
  Proof.
    intros A. split.
    - intros N M. apply N. intros x n P.
      assert (W : forall x m y, path (fun x y => F x y \/ (x = a /\ y = b)) x m y -> path F x m y \/ exists i j, path F x i a /\ path F b j y).
      { clear x n P. intros x m y. induction 1 as [x|x y m z H P IH]; [left; constructor|]. destruct H as [H|[-> ->]].
        - destruct IH as [IH|(i & j & P1 & P2)]; [left; econstructor; eauto|]. right. exists (S i), j. split; [econstructor; eauto|exact P2].
        - destruct IH as [IH|(i & j & P1 & P2)]; [|exfalso; apply M; eauto]. right. exists 0%nat, m. split; [constructor|exact IH]. }
      destruct (W _ _ _ P) as [P'|(i & j & P1 & P2)]; [exact (A _ _ P')|]. apply M. exists (j + i)%nat. eapply path_app; eauto.
    - intros NN M. apply NN. intros (k & P). apply (M a k). econstructor; [right; split; reflexivity|].
      eapply path_ext; [|exact P]. auto.
  Qed.
End Proofs.
