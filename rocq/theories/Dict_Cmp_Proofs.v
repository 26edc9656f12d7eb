(** Proofs about the comparisons of Dicts. *)
From Coq Require Import ZifyBool ZifyNat.
From Verif Require Import Base Hash_Model Hash_Spec Hash_Index_Proofs Hash_Proofs Set_Spec Set_Proofs Dict_Cmp_Model.
Open Scope Z_scope.
Open Scope result_scope.

Section CompareProofs.
  Context {K V W : Type}.
  Variable eqb : K -> K -> bool.
  Variable hash : K -> Z.
  Hypothesis GK : good_key eqb hash.
  Variable veqb : V -> V -> bool.

  Notation lookup := (m_lookup eqb).
  Notation mem := (s_of eqb).

  Lemma lookup_mem_fst {A} (m : list (K * A)) k : mem (map fst m) k = is_some (lookup m k).
  Proof.
    induction m as [|[k' v] m IH]; [reflexivity|]. cbn [map fst m_lookup]. rewrite mem_cons, IH, (key_sym _ _ GK k k').
    now destruct (eqb k' k).
  Qed.

  Lemma distinct_no_repeats {A} (m : list (K * A)) : distinct_keys eqb m <-> no_repeats eqb (map fst m).
  Proof.
    induction m as [|[k v] m IH]; cbn [distinct_keys map fst no_repeats]; [tauto|]. rewrite IH, lookup_mem_fst.
    assert (Forall (fun kv => eqb k (fst kv) = false) m <-> is_some (lookup m k) = false); [|tauto].
    rewrite <- (lookup_absent (V:=A) eqb m k). destruct (lookup m k); cbn; split; congruence.
  Qed.

  Lemma lookup_respects {A} (m : list (K * A)) k k' : eqb k k' = true -> lookup m k = lookup m k'.
  Proof.
    intros E. induction m as [|[a v] m IH]; [reflexivity|]. cbn [m_lookup]. rewrite IH.
    now rewrite (eqb_same eqb hash GK k k' a E).
  Qed.

  Lemma lookup_in_distinct {A} (m : list (K * A)) k v : distinct_keys eqb m -> In (k, v) m -> lookup m k = Some v.
  Proof.
    induction m as [|[a w] m IH]; intros D H; [easy|]. destruct D as [Da D]. cbn [m_lookup]. destruct H as [H|H].
    - injection H as -> ->. now rewrite (key_refl _ _ GK).
    - rewrite Forall_forall in Da. specialize (Da _ H). cbn in Da. rewrite (key_sym _ _ GK), Da. now apply IH.
  Qed.

  Lemma lookup_some_in {A} (m : list (K * A)) k v : lookup m k = Some v -> exists a, In (a, v) m /\ eqb k a = true.
  Proof.
    induction m as [|[a w] m IH]; cbn [m_lookup]; [discriminate|]. destruct (eqb k a) eqn:E.
    - intros [= ->]. exists a. split; [now left|exact E].
    - intros H. destruct (IH H) as [b [Hb Eb]]. exists b. split; [now right|exact Eb].
  Qed.

  (** Every key of [m1] is found in [m2], which has as many: so it has no others. *)
  Lemma all_found {A B} (m1 : list (K * A)) (m2 : list (K * B)) : distinct_keys eqb m1 -> distinct_keys eqb m2 ->
    length m1 = length m2 -> (forall k v, In (k, v) m1 -> lookup m2 k <> None) -> forall k, is_some (lookup m1 k) = is_some (lookup m2 k).
  Proof.
    intros D1 D2 L H k. apply distinct_no_repeats in D1, D2. rewrite <- !lookup_mem_fst.
    assert (I : forall x, mem (map fst m1) x = true -> mem (map fst m2) x = true).
    { intros x Hx. rewrite !lookup_mem_fst in *. destruct (lookup m1 x) as [v|] eqn:E; [|discriminate].
      destruct (lookup_some_in _ _ _ E) as [a [Ha Ea]]. specialize (H a v Ha). rewrite (lookup_respects _ _ _ Ea).
      now destruct (lookup m2 a). }
    pose proof (no_repeats_full eqb hash GK _ _ D1 I) as F. rewrite !map_length in F. specialize (F ltac:(lia) k). specialize (I k).
    destruct (mem (map fst m1) k), (mem (map fst m2) k); try reflexivity; [now specialize (I eq_refl)|now specialize (F eq_refl)].
  Qed.

  Lemma cmp_items_ok l right : table_ok eqb hash right ->
    exists b, cmp_items eqb hash veqb true l right = Ok b /\
      (b = true <-> forall k v, In (k, v) l -> exists w, lookup (live (items right)) k = Some w /\ veqb v w = true).
  Proof.
    intros H. induction l as [|[k v] l IH]; cbn [cmp_items].
    - exists true. split; [reflexivity|]. split; [intros _ k v []|reflexivity].
    - rewrite (lookup_value_ok eqb hash GK right k H). cbn [bind]. destruct (lookup (live (items right)) k) as [w|] eqn:E.
      + destruct (veqb v w) eqn:F; cbn [negb andb].
        * destruct IH as [b [Eb Hb]]. exists b. split; [exact Eb|]. rewrite Hb. split; intros Q k' v' Hin.
          -- destruct Hin as [Hin|Hin]; [injection Hin as <- <-; eauto|now apply Q].
          -- apply Q. now right.
        * exists false. split; [reflexivity|]. split; [discriminate|]. intros Q. destruct (Q k v ltac:(now left)) as [w' [Ew Hw]]. congruence.
      + exists false. split; [reflexivity|]. split; [discriminate|]. intros Q. destruct (Q k v ltac:(now left)) as [w' [Ew Hw]]. congruence.
  Qed.

  Definition same_map {A B} (same : A -> B -> bool) (m1 : list (K * A)) (m2 : list (K * B)) : Prop :=
    forall k, match lookup m1 k, lookup m2 k with
              | Some v, Some w => same v w = true
              | None, None => True
              | _, _ => False
              end.

  Lemma same_map_length {A B} same (m1 : list (K * A)) (m2 : list (K * B)) : distinct_keys eqb m1 -> distinct_keys eqb m2 ->
    same_map same m1 m2 -> length m1 = length m2.
  Proof.
    intros D1 D2 S. apply distinct_no_repeats in D1, D2. rewrite <- (map_length fst m1), <- (map_length fst m2).
    assert (E : forall x, mem (map fst m1) x = mem (map fst m2) x).
    { intros x. rewrite !lookup_mem_fst. specialize (S x). destruct (lookup m1 x), (lookup m2 x); cbn; auto; contradiction. }
    assert (length (map fst m1) <= length (map fst m2))%nat by (apply (no_repeats_le eqb hash GK); [assumption|]; intros x; now rewrite E).
    assert (length (map fst m2) <= length (map fst m1))%nat by (apply (no_repeats_le eqb hash GK); [assumption|]; intros x; now rewrite E).
    lia.
  Qed.

  Lemma pointwise_same {A B} (same : A -> B -> bool) (m1 : list (K * A)) (m2 : list (K * B)) :
    distinct_keys eqb m1 -> distinct_keys eqb m2 -> length m1 = length m2 ->
    (forall k v, In (k, v) m1 -> exists w, lookup m2 k = Some w /\ same v w = true) <-> same_map same m1 m2.
  Proof.
    intros D1 D2 L. split.
    - intros Q k. assert (S := all_found m1 m2 D1 D2 L).
      specialize (S (fun k v Hin N => match Q k v Hin with ex_intro _ w (conj Ew _) => ltac:(congruence) end) k).
      destruct (lookup m1 k) as [v|] eqn:E1, (lookup m2 k) as [w|] eqn:E2; cbn in S; try discriminate; [|exact I].
      destruct (lookup_some_in _ _ _ E1) as [a [Ha Ea]]. destruct (Q a v Ha) as [w' [Ew Hw]].
      rewrite <- (lookup_respects _ _ _ Ea), E2 in Ew. now injection Ew as ->.
    - intros S k v Hin. specialize (S k). rewrite (lookup_in_distinct m1 k v D1 Hin) in S.
      destruct (lookup m2 k) as [w|]; [eauto|contradiction].
  Qed.

  Lemma dict_cmp_ok a b : table_ok eqb hash a -> table_ok eqb hash b ->
    exists r, dict_cmp eqb hash veqb true a b = Ok r /\ (r = true <-> same_map veqb (live (items a)) (live (items b))).
  Proof.
    intros Ha Hb. pose proof (t_distinct _ _ _ Ha) as D1. pose proof (t_distinct _ _ _ Hb) as D2. unfold dict_cmp.
    rewrite (t_count _ _ _ Ha), (t_count _ _ _ Hb).
    destruct (Z.of_nat (length (live (items a))) =? Z.of_nat (length (live (items b)))) eqn:E; cbn [negb].
    - destruct (cmp_items_ok (live (items a)) b Hb) as [r [Er Hr]]. exists r. split; [exact Er|]. rewrite Hr.
      apply pointwise_same; auto. lia.
    - exists false. split; [reflexivity|]. split; [discriminate|]. intros S. pose proof (same_map_length _ _ _ D1 D2 S). lia.
  Qed.

  Lemma keys_cmp_ok a b : table_ok eqb hash a -> table_ok eqb hash b ->
    dict_cmp eqb hash veqb false a b = Ok (count (idx a) =? count (idx b)).
  Proof.
    intros Ha Hb. unfold dict_cmp. destruct (count (idx a) =? count (idx b)); cbn [negb]; [|reflexivity].
    generalize (live (items a)). intros l. induction l as [|[k v] l IH]; cbn [cmp_items]; [reflexivity|].
    rewrite (lookup_value_ok eqb hash GK b k Hb). cbn [bind andb]. now destruct (lookup (live (items b)) k).
  Qed.

  Variable same : V -> W -> bool.

  (** The items of a Python dictionary whose keys all convert. *)
  Fixpoint converted (other : list (option K * W)) : option (list (K * W)) :=
    match other with
    | [] => Some []
    | (Some k, w) :: other => match converted other with Some l => Some ((k, w) :: l) | None => None end
    | (None, _) :: _ => None
    end.

  Lemma converted_length other l : converted other = Some l -> length l = length other.
  Proof.
    revert l. induction other as [|[[k|] w] other IH]; intros l; cbn [converted]; try discriminate; [now intros [= <-]|].
    destruct (converted other); [|discriminate]. intros [= <-]. cbn. now rewrite (IH _ eq_refl).
  Qed.

  Lemma cmp_python_ok self other : table_ok eqb hash self ->
    exists b, cmp_python eqb hash same self other = Ok b /\
      (b = true <-> exists l, converted other = Some l /\
         forall k w, In (k, w) l -> exists v, lookup (live (items self)) k = Some v /\ same v w = true).
  Proof.
    intros H. induction other as [|[[k|] w] other IH]; cbn [cmp_python converted].
    - exists true. split; [reflexivity|]. split; [|reflexivity]. intros _. exists []. split; [reflexivity|]. intros k w [].
    - rewrite (lookup_value_ok eqb hash GK self k H). cbn [bind]. destruct (lookup (live (items self)) k) as [v|] eqn:E; [destruct (same v w) eqn:F|].
      + destruct IH as [b [Eb Hb]]. exists b. split; [exact Eb|]. rewrite Hb. split; intros [l [El Q]].
        * rewrite El. eexists; split; [reflexivity|]. intros k' w' [Hin|Hin]; [injection Hin as <- <-; eauto|now apply Q].
        * destruct (converted other) as [l'|]; [|discriminate]. exists l'. split; [reflexivity|]. injection El as <-.
          intros k' w' Hin. apply Q. now right.
      + exists false. split; [reflexivity|]. split; [discriminate|]. intros [l [El Q]].
        destruct (converted other) as [l'|]; [|discriminate]. injection El as <-.
        destruct (Q k w ltac:(now left)) as [v' [Ev Hv]]. congruence.
      + exists false. split; [reflexivity|]. split; [discriminate|]. intros [l [El Q]].
        destruct (converted other) as [l'|]; [|discriminate]. injection El as <-.
        destruct (Q k w ltac:(now left)) as [v' [Ev Hv]]. congruence.
    - exists false. split; [reflexivity|]. split; [discriminate|]. now intros [l [El _]].
  Qed.

  Lemma dict_eq_python_ok self other : table_ok eqb hash self ->
    (forall l, converted other = Some l -> distinct_keys eqb l) ->
    exists b, dict_eq_python eqb hash same self other = Ok b /\
      (b = true <-> exists l, converted other = Some l /\ same_map same (live (items self)) l).
  Proof.
    intros H D. pose proof (t_distinct _ _ _ H) as D1. unfold dict_eq_python. rewrite (t_count _ _ _ H).
    assert (Flip : forall l, same_map (fun w v => same v w) l (live (items self)) <-> same_map same (live (items self)) l).
    { intros l. unfold same_map. split; intros S k; specialize (S k); now destruct (lookup l k), (lookup (live (items self)) k). }
    destruct (Z.of_nat (length other) =? Z.of_nat (length (live (items self)))) eqn:E; cbn [negb].
    - destruct (cmp_python_ok self other H) as [b [Eb Hb]]. exists b. split; [exact Eb|]. rewrite Hb.
      split; intros [l [El Q]]; exists l; (split; [exact El|]); pose proof (converted_length _ _ El).
      + apply Flip, pointwise_same; auto. lia.
      + apply Flip in Q. apply (proj2 (pointwise_same (fun w v => same v w) l (live (items self)) (D l El) D1 ltac:(lia)) Q).
    - exists false. split; [reflexivity|]. split; [discriminate|]. intros [l [El S]]. pose proof (converted_length _ _ El).
      pose proof (same_map_length _ _ _ D1 (D l El) S). lia.
  Qed.

  (** The views *)
  Lemma in_values_ok v (t : table K V) : in_values veqb v t = true <-> exists k w, In (k, w) (live (items t)) /\ veqb v w = true.
  Proof.
    unfold in_values. rewrite existsb_exists. split.
    - intros [[k w] [H E]]. eauto.
    - intros [k [w [H E]]]. exists (k, w). auto.
  Qed.

  Lemma in_items_ok k v t : table_ok eqb hash t ->
    in_items eqb veqb (k, v) t = true <-> exists w, lookup (live (items t)) k = Some w /\ veqb v w = true.
  Proof.
    intros H. unfold in_items. rewrite existsb_exists. cbn [fst snd]. split.
    - intros [[a w] [Hin E]]. apply andb_true_iff in E. destruct E as [E1 E2]. exists w. split; [|exact E2].
      rewrite (lookup_respects _ _ _ E1). now apply lookup_in_distinct; [apply (t_distinct _ _ _ H)|].
    - intros [w [E1 E2]]. destruct (lookup_some_in _ _ _ E1) as [a [Ha Ea]]. exists (a, w). split; [exact Ha|]. cbn. now rewrite Ea, E2.
  Qed.

  (** ** Construction from a mapping *)

  Lemma construct_ok (l : list (K * V)) : distinct_keys eqb l -> Z.of_nat (length l) <= max_keys ->
    exists t, construct_from_mapping eqb hash l = Ok t /\ table_ok eqb hash t /\ live (items t) = l.
  Proof.
    intros D L. unfold construct_from_mapping.
    assert (forall l0 (t : table K V), table_ok eqb hash t -> distinct_keys eqb (live (items t) ++ l0) ->
      Z.of_nat (length (live (items t)) + length l0) <= max_keys ->
      exists t', fold_result (fun t (kv : K * V) => s <- find eqb hash t (fst kv) ;;
          if s <? 0 then insert_key hash t (fst kv) (snd kv) else Err UndefinedBehaviour) l0 t = Ok t' /\
        table_ok eqb hash t' /\ live (items t') = live (items t) ++ l0) as G.
    { induction l0 as [|[k v] l0 IH]; intros t H D0 L0; cbn [fold_result].
      - exists t. rewrite app_nil_r. auto.
      - cbn [fst snd]. destruct (distinct_middle eqb hash GK _ _ _ D0) as [A _]. cbn [fst] in A.
        destruct (find_lookup eqb hash GK t k H) as [s [-> Hs]]. cbn [bind].
        rewrite (proj2 (lookup_absent _ _ _) A) in Hs. cbn in Hs.
        assert (s <? 0 = true) as -> by (destruct (s <? 0) eqn:X; [reflexivity|lia]).
        destruct (insert_ok eqb hash GK t k v H A) as [t1 [-> [H1 L1]]]; [rewrite (t_count _ _ _ H); cbn [length] in L0; lia|]. cbn [bind].
        rewrite (set_absent eqb _ _ _ A) in L1.
        destruct (IH t1 H1) as [t2 [-> [H2 L2]]].
        + rewrite L1, <- app_assoc. exact D0.
        + rewrite L1, app_length. cbn [length] in *. lia.
        + exists t2. split; [reflexivity|]. split; [exact H2|]. now rewrite L2, L1, <- app_assoc. }
    destruct (G l new_table (new_table_ok eqb hash)) as [t [E [H Hl]]]; [exact D|cbn [items new_table live length]; lia|].
    exists t. auto.
  Qed.
End CompareProofs.
