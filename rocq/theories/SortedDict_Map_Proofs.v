(** The laws of a finite map for SortedDict (C15, C16), from the refinement proof. *)
From Coq Require Import ZifyBool ZifyNat Sorting.Sorted.
From Verif Require Import Base Sort_Spec SortedDict_Model SortedDict_Spec SortedDict_Proofs.
Open Scope Z_scope.
Open Scope result_scope.

Section Map.
  Context {K V : Type}.
  Variable less : K -> K -> bool.
  Hypothesis O : strict_weak_order less.
  Notation sorted := (StronglySorted (fun a b : K * V => less (fst a) (fst b) = true)).

  Lemma same_spec x y : same less x y = true <-> less x y = false /\ less y x = false.
  Proof. unfold same. destruct (less x y), (less y x); cbn; intuition congruence. Qed.
  Lemma same_refl x : same less x x = true.
  Proof. apply same_spec. split; apply (swo_irrefl _ O). Qed.
  Lemma same_sym x y : same less x y = same less y x.
  Proof. unfold same. destruct (less x y), (less y x); reflexivity. Qed.
  Lemma same_trans x y z : same less x y = true -> same less y z = true -> same less x z = true.
  Proof.
    rewrite !same_spec. intros [A B] [C D]. split; eapply (swo_incomp _ O); eauto.
  Qed.
  Lemma same_same x y z : same less x y = true -> same less x z = same less y z.
  Proof.
    intros H. destruct (same less y z) eqn:E; [eapply same_trans; eauto|].
    destruct (same less x z) eqn:E2; [|reflexivity]. rewrite <- E. symmetry. eapply same_trans; [|exact E2]. now rewrite same_sym.
  Qed.
  Lemma same_less x y z : same less x y = true -> less x z = less y z.
  Proof.
    rewrite same_spec. intros [A B]. destruct (less x z) eqn:E1, (less y z) eqn:E2; try reflexivity.
    - pose proof (swo_incomp _ O _ _ _ A E2). congruence.
    - pose proof (swo_incomp _ O _ _ _ B E1). congruence.
  Qed.

  Lemma find_insert_all k v k' (l : list (K * V)) : sorted l ->
    find less k' (insert less k v l) = if same less k' k then Some v else find less k' l.
  Proof.
    induction 1 as [|[k1 v1] l Hs IH Hf]; cbn [insert find]; [reflexivity|].
    destruct (same less k k1) eqn:E.
    - cbn [find]. rewrite (same_sym k' k1), (same_sym k' k). rewrite (same_same k k1 k' E). now destruct (same less k1 k').
    - destruct (less k k1) eqn:L; cbn [find].
      + reflexivity.
      + rewrite IH. destruct (same less k' k1) eqn:E1; [|reflexivity]. destruct (same less k' k) eqn:E2; [|reflexivity].
        rewrite same_sym in E2. pose proof (same_trans _ _ _ E2 E1). congruence.
  Qed.

  Lemma find_erase k k' (l : list (K * V)) : find less k' (erase less k l) = if same less k' k then None else find less k' l.
  Proof.
    unfold erase. induction l as [|[k1 v1] l IH]; cbn [filter find fst]; [now destruct (same less k' k)|].
    destruct (same less k k1) eqn:E; cbn [negb find].
    - rewrite IH. destruct (same less k' k) eqn:E2; [reflexivity|]. rewrite (same_sym k' k1), <- (same_same k k1 k' E), same_sym, E2. reflexivity.
    - rewrite IH. destruct (same less k' k1) eqn:E1; [|reflexivity]. destruct (same less k' k) eqn:E2; [|reflexivity].
      rewrite same_sym in E2. pose proof (same_trans _ _ _ E2 E1). congruence.
  Qed.

  Lemma find_In k v (l : list (K * V)) : sorted l -> find less k l = Some v <-> exists k', In (k', v) l /\ same less k k' = true.
  Proof.
    induction 1 as [|[k1 v1] l Hs IH Hf]; cbn [find In].
    - split; [discriminate|]. now intros (? & [] & _).
    - destruct (same less k k1) eqn:E.
      + split; [intros [= ->]; eauto|]. intros (k' & [[= -> ->]|H] & E'); [reflexivity|].
        exfalso. rewrite Forall_forall in Hf. specialize (Hf _ H). cbn in Hf.
        rewrite same_sym in E. pose proof (same_trans _ _ _ E E') as S. apply same_spec in S. destruct S. congruence.
      + rewrite IH. split; [intros (k' & ? & ?); eauto|]. intros (k' & [[= -> ->]|H] & E'); [congruence|eauto].
  Qed.

  Notation reachable := (reachable less).
  Lemma reachable_inv (d : tree K V) : reachable d -> inv less d.
  Proof. intros [ops ->]. apply (run_refines less O ops Leaf []). apply related_empty. Qed.

  Lemma getitem_find (d : tree K V) k : inv less d -> d_getitem less d k = match find less k (elements d) with Some v => Ok v | None => Err KeyError end.
  Proof. intros H. rewrite d_getitem_get. apply get_spec; [exact O|apply H]. Qed.

  Lemma contains_getitem (d : tree K V) k : inv less d -> d_contains less d k = match d_getitem less d k with Ok _ => true | Err _ => false end.
  Proof.
    intros H. rewrite getitem_find by assumption. rewrite d_contains_contains, contains_spec by (exact O || apply H).
    now destruct (find _ _ _).
  Qed.

  Lemma len_elements (d : tree K V) : inv less d -> d_len d = Z.of_nat (length (elements d)).
  Proof. intros H. unfold d_len. now rewrite counted_size, size_elements by apply H. Qed.

  Lemma setitem_laws (d : tree K V) k v : reachable d -> exists d', d_setitem less d k v = Ok d' /\
    (forall k', d_getitem less d' k' = if same less k' k then Ok v else d_getitem less d k') /\
    d_len d' = if d_contains less d k then d_len d else d_len d + 1.
  Proof.
    intros R. pose proof (reachable_inv _ R) as H. destruct (d_setitem_ok less O d k v H) as (d' & E & A & B).
    exists d'. split; [exact E|]. split.
    - intros k'. rewrite !getitem_find, B by assumption. rewrite find_insert_all by apply H. now destruct (same less k' k).
    - rewrite !len_elements, B by assumption. rewrite contains_getitem, getitem_find by assumption.
      destruct (insert_length less O k v (elements d)) as [->|N]; [|destruct N; apply H].
      destruct (find _ _ _); lia.
  Qed.

  Lemma delitem_laws (d : tree K V) k : reachable d ->
    if d_contains less d k then exists d', d_delitem less d k = Ok d' /\
      (forall k', d_getitem less d' k' = if same less k' k then Err KeyError else d_getitem less d k') /\
      d_len d' = d_len d - 1
    else d_delitem less d k = Err KeyError.
  Proof.
    intros R. pose proof (reachable_inv _ R) as H. pose proof (remove_spec less O d k H) as S.
    rewrite contains_getitem, getitem_find by assumption. unfold d_delitem. destruct (find less k (elements d)) eqn:F.
    - destruct S as (p & S & A & B). destruct d as [|k0 v0 l r c] eqn:Ed; [cbn in F; discriminate|]. rewrite <- Ed in *.
      rewrite S. cbn [bind]. eexists. split; [reflexivity|]. split.
      + intros k'. rewrite !getitem_find, B by assumption. rewrite find_erase. now destruct (same less k' k).
      + unfold d_len. rewrite (inv_erase_count less O d (drop_if_empty p) k); auto; [lia|congruence].
    - destruct d; [reflexivity|]. now rewrite S.
  Qed.

  Lemma items_laws (d : tree K V) : reachable d -> exists l, d_items d = Ok l /\ d_iter d = Ok (map fst l) /\
    sorted l /\ Z.of_nat (length l) = d_len d /\
    forall k v, d_getitem less d k = Ok v <-> exists k', In (k', v) l /\ same less k k' = true.
  Proof.
    intros R. pose proof (reachable_inv _ R) as H. exists (elements d). split; [apply d_items_spec|]. split; [apply d_iter_spec|].
    split; [apply H|]. split; [symmetry; now apply len_elements|]. intros k v. rewrite <- find_In by apply H.
    rewrite getitem_find by assumption. destruct (find _ _ _); split; congruence.
  Qed.

  Lemma ends_laws (d : tree K V) : reachable d ->
    (d_len d = 0 -> d_first d = Ok None /\ d_last d = Ok None) /\
    (d_len d <> 0 -> exists a b, d_first d = Ok (Some a) /\ d_last d = Ok (Some b) /\
       d_contains less d a = true /\ d_contains less d b = true /\
       forall k, d_contains less d k = true -> less k a = false /\ less b k = false).
  Proof.
    intros R. pose proof (reachable_inv _ R) as H. split.
    - intros L. assert (d = Leaf) as -> by (apply count_zero; [apply H|unfold d_len in L; lia]). split; reflexivity.
    - intros L. assert (N : d <> Leaf) by (intros ->; now apply L).
      destruct (first_spec d N) as (a & va & la & A1 & A2). destruct (last_spec d N) as (b & vb & lb & B1 & B2).
      exists a, b. split; [destruct d; [congruence|]; unfold d_first; now rewrite A2|].
      split; [destruct d; [congruence|]; unfold d_last; now rewrite B2|].
      pose proof H as (Hs & _ & _).
      assert (C : forall k, d_contains less d k = true <-> exists k' v, In (k', v) (elements d) /\ same less k k' = true).
      { intros k. rewrite contains_getitem, getitem_find by assumption. destruct (find less k (elements d)) eqn:F.
        - apply find_In in F; [|assumption]. split; [|reflexivity]. destruct F as (k' & ? & ?). eauto.
        - split; [discriminate|]. intros (k' & v & I & S). assert (find less k (elements d) = Some v) by (apply find_In; eauto). congruence. }
      split; [|split].
      + apply C. exists a, va. rewrite A1. split; [now left|apply same_refl].
      + apply C. exists b, vb. rewrite B1. split; [apply in_or_app; right; now left|apply same_refl].
      + intros k Hk. apply C in Hk. destruct Hk as (k' & v & I & S). rewrite same_sym in S. split.
        * destruct (less k a) eqn:E; [|reflexivity]. rewrite A1 in I. destruct I as [[= -> ->]|I].
          -- apply same_spec in S. destruct S; congruence.
          -- rewrite A1 in Hs. apply StronglySorted_inv in Hs. destruct Hs as [_ Hs]. rewrite Forall_forall in Hs. specialize (Hs _ I). cbn in Hs.
             rewrite same_sym in S. rewrite <- E. rewrite (same_less _ _ _ S). apply less_asym; assumption.
        * destruct (less b k) eqn:E; [|reflexivity]. rewrite B1 in I, Hs. apply (sorted_mid less O) in Hs. destruct Hs as (_ & _ & Hs & _).
          apply in_app_or in I. destruct I as [I|[[= -> ->]|[]]].
          -- rewrite Forall_forall in Hs. specialize (Hs _ I). cbn in Hs. rewrite (same_less _ _ _ S) in Hs. pose proof (less_asym less O _ _ Hs). congruence.
          -- apply same_spec in S. destruct S; congruence.
  Qed.
End Map.
