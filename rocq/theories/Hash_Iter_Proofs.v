(** Loops over a Dict whose body assigns to existing keys; changes of size during a loop. *)
From Verif Require Import Base PyList PyList_Proofs Hash_Model Hash_Spec Hash_Probe_Proofs Hash_Index_Proofs Hash_Proofs.
From Coq Require Import ZifyBool ZifyNat.
Open Scope Z_scope.
Open Scope result_scope.

Section Iter.
  Context {K V : Type}.
  Variable eqb : K -> K -> bool.
  Variable hash : K -> Z.
  Hypothesis GK : good_key eqb hash.
  Notation table := (table K V).
  Notation table_ok := (table_ok (V:=V) eqb hash).
  Notation lookup := (m_lookup (V:=V) eqb).

  Definition shape (its : list (option (K * V))) : list (option K) := map (option_map fst) its.

  Lemma shape_live its its' : shape its = shape its' -> map fst (live its) = map fst (live its').
  Proof.
    revert its'. induction its as [|[kv|] its IH]; intros [|[kv'|] its'] H; cbn in H; try discriminate; auto.
    - injection H as E H. cbn [live map]. f_equal; [exact E|]. now apply IH.
    - injection H as H. cbn [live map]. now apply IH.
  Qed.

  Lemma shape_skipn its its' n : shape its = shape its' -> shape (skipn n its) = shape (skipn n its').
  Proof. unfold shape. intros H. now rewrite <- !skipn_map, H. Qed.

  Lemma shape_nth its its' j kv : shape its = shape its' -> nth_error its j = Some (Some kv) ->
    exists kv', nth_error its' j = Some (Some kv') /\ fst kv' = fst kv.
  Proof.
    intros H Hj. assert (E : nth_error (shape its') j = Some (Some (fst kv))).
    { rewrite <- H. unfold shape. rewrite nth_error_map, Hj. reflexivity. }
    unfold shape in E. rewrite nth_error_map in E. destruct (nth_error its' j) as [[kv'|]|]; cbn in E; try discriminate.
    exists kv'. split; [reflexivity|congruence].
  Qed.

  Lemma shape_length its its' : shape its = shape its' -> length its = length its'.
  Proof. intros H. unfold shape in H. rewrite <- (map_length (option_map fst) its), H. apply map_length. Qed.

  Lemma set_item_shape t k v : table_ok t -> lookup (live (items t)) k <> None ->
    exists t', set_item eqb hash t k v = Ok t' /\ table_ok t' /\ shape (items t') = shape (items t) /\ idx t' = idx t /\
      live (items t') = m_set eqb (live (items t)) k v.
  Proof.
    intros H Hk. unfold set_item. destruct (find_ok eqb hash GK t k H) as [[Ha ->]|[j [kv [Hj [E ->]]]]]; cbn [bind].
    - apply lookup_absent in Ha. contradiction.
    - destruct (Z.of_nat j <? 0) eqn:F; [lia|].
      destruct (assign_ok eqb hash GK t k j kv v H Hj E) as [t' [E' [H' L']]]. exists t'. split; [exact E'|]. split; [exact H'|].
      unfold assign_value in E'. rewrite (rd_item_ok _ _ _ Hj) in E'. cbn [bind] in E'.
      assert (Hjl : (j < length (items t))%nat) by (eapply nth_error_lt, Hj).
      rewrite wr_ok in E' by exact Hjl. cbn [bind] in E'. apply Ok_eq in E'. subst t'. cbn [items idx] in *.
      split; [|split; [reflexivity|exact L']].
      destruct (nth_error_split (items t) j Hj) as [a [b [Eab L]]]. rewrite Eab at 1. subst j. rewrite replace_nth_middle.
      rewrite Eab. unfold shape. rewrite !map_app. reflexivity.
  Qed.

  Lemma lookup_set_present m k v k' : lookup m k' <> None -> lookup (m_set eqb m k v) k' <> None.
  Proof.
    induction m as [|[k1 v1] m IH]; cbn [m_set m_lookup]; [intros H; contradiction|].
    destruct (eqb k k1); cbn [m_lookup]; destruct (eqb k' k1); auto; discriminate.
  Qed.

  Lemma update_shape : forall l t, table_ok t -> (forall kv, In kv l -> lookup (live (items t)) (fst kv) <> None) ->
    exists t', update eqb hash t l = Ok t' /\ table_ok t' /\ shape (items t') = shape (items t) /\ idx t' = idx t /\
      (forall k, lookup (live (items t)) k <> None -> lookup (live (items t')) k <> None).
  Proof.
    unfold update. induction l as [|[k v] l IH]; intros t H Hl; cbn [fold_result fst snd].
    - exists t. repeat (split; [auto; fail|]). auto.
    - destruct (set_item_shape t k v H (Hl _ (or_introl eq_refl))) as [t1 [E1 [H1 [S1 [I1 L1]]]]].
      rewrite E1. cbn [bind].
      destruct (IH t1 H1) as [t2 [E2 [H2 [S2 [I2 P2]]]]].
      { intros kv Hkv. rewrite L1. apply lookup_set_present, Hl. now right. }
      exists t2. split; [exact E2|]. split; [exact H2|]. split; [congruence|]. split; [congruence|].
      intros k' Hk'. apply P2. rewrite L1. now apply lookup_set_present.
  Qed.

  Variable body : K * V -> list (K * V).

  (** The loop body only assigns to keys that are there. *)
  Definition only_existing (m : list (K * V)) : Prop :=
    forall kv, Forall (fun kv' => lookup m (fst kv') <> None) (body kv).

  Lemma iter_assign_at : forall n t j off, table_ok t -> only_existing (live (items t)) ->
    (j = length (items t) \/ exists kv, nth_error (items t) j = Some (Some kv)) -> (j <= length (items t))%nat ->
    (off = Z.of_nat j /\ j <> 0%nat) \/ (off = 0 /\ next_populated t 0 = Z.of_nat j) ->
    (length (items t) - j < n)%nat ->
    exists t' l, iter_assign eqb hash iter_next body n t (Iterator off (count (idx t))) = Ok (t', l) /\
      table_ok t' /\ shape (items t') = shape (items t) /\ map fst l = map fst (live (skipn j (items t))).
  Proof.
    induction n as [|n IH]; intros t j off H Hex Hj Hle Hoff Hn; [lia|].
    assert (Eo : (if off =? 0 then next_populated t 0 else off) = Z.of_nat j).
    { destruct Hoff as [[-> H0]|[-> H0]]; [|exact H0]. destruct (Z.of_nat j =? 0) eqn:E; [lia|reflexivity]. }
    assert (En : iter_next t (Iterator off (count (idx t))) =
      if Z.of_nat (length (items t)) <=? Z.of_nat j then Ok (None, Iterator (Z.of_nat j) (count (idx t)))
      else kv <- rd_item t (Z.of_nat j) ;;
           Ok (Some kv, Iterator (next_populated t (Z.of_nat j + 1)) (count (idx t)))).
    { unfold iter_next. cbn [it_offset it_size]. rewrite Z.eqb_refl. cbn [negb]. rewrite Eo. reflexivity. }
    cbn [iter_assign]. rewrite En. clear En. destruct (Z.of_nat (length (items t)) <=? Z.of_nat j) eqn:E.
    - cbn [bind]. exists t, []. rewrite skipn_all2 by lia. auto.
    - destruct Hj as [->|[kv Hkv]]; [lia|]. rewrite (rd_item_ok _ _ _ Hkv). cbn [bind].
      destruct (next_populated_ok t (Z.of_nat j + 1)) as [j' [E' [Hle' [Hl' [El' He']]]]]; [unfold reserved; lia|].
      rewrite E'.
      destruct (update_shape (body kv) t H) as [t1 [E1 [H1 [S1 [I1 P1]]]]].
      { apply Forall_forall, Hex. }
      rewrite E1. cbn [bind]. rewrite <- I1.
      pose proof (shape_length _ _ S1) as SL.
      destruct (IH t1 j' (Z.of_nat j')) as [t2 [l [E2 [H2 [S2 L2]]]]]; auto.
      + intros kv'. specialize (Hex kv'). rewrite Forall_forall in *. intros x Hx. apply P1. now apply Hex.
      + rewrite SL. destruct He' as [->|[kv' Hkv']]; [now left|]. right.
        destruct (shape_nth _ _ _ _ (eq_sym S1) Hkv') as [kv'' [Hk'' _]]. eauto.
      + lia.
      + left. split; [reflexivity|lia].
      + lia.
      + rewrite E2. cbn [bind]. exists t2, (kv :: l). split; [reflexivity|]. split; [exact H2|]. split; [congruence|].
        rewrite (live_skipn_hit _ _ _ Hkv). cbn [map]. f_equal. rewrite L2.
        rewrite (shape_live _ _ (shape_skipn _ _ j' S1)), <- El'. do 3 f_equal. lia.
  Qed.

  Lemma iter_assign_ok t : table_ok t -> only_existing (live (items t)) ->
    exists t' l, iter_assign eqb hash iter_next body (S (length (items t))) t (iter_start t) = Ok (t', l) /\
      table_ok t' /\ map fst l = map fst (live (items t)) /\ map fst (live (items t')) = map fst (live (items t)).
  Proof.
    intros H Hex. destruct (next_populated_ok t 0) as [j [E [Hle [Hl [El He]]]]]; [unfold reserved; lia|].
    change (Z.to_nat 0) with 0%nat in El. cbn [skipn] in El.
    destruct (iter_assign_at (S (length (items t))) t j 0) as [t' [l [E' [H' [S' L']]]]]; auto; [lia|].
    exists t', l. split; [exact E'|]. split; [exact H'|]. rewrite El at 1. split; [exact L'|]. now apply shape_live.
  Qed.
End Iter.

Section Laws.
  Context {K V : Type}.
  Variable eqb : K -> K -> bool.
  Variable hash : K -> Z.
  Hypothesis GK : good_key eqb hash.
  Notation lookup := (m_lookup (V:=V) eqb).

  Lemma eqb_left k1 k2 k3 : eqb k1 k2 = true -> eqb k1 k3 = eqb k2 k3.
  Proof.
    intros E. destruct (eqb k1 k3) eqn:E1, (eqb k2 k3) eqn:E2; auto.
    - rewrite (key_sym _ _ GK) in E. rewrite (key_trans _ _ GK _ _ _ E E1) in E2. discriminate.
    - rewrite (key_trans _ _ GK _ _ _ E E2) in E1. discriminate.
  Qed.

  Lemma lookup_set (m : list (K * V)) k v k' : lookup (m_set eqb m k v) k' = if eqb k' k then Some v else lookup m k'.
  Proof.
    induction m as [|[k1 v1] m IH]; cbn [m_set m_lookup]; [reflexivity|].
    destruct (eqb k k1) eqn:E; cbn [m_lookup].
    - rewrite (key_sym _ _ GK k' k), (key_sym _ _ GK k' k1), (eqb_left _ _ _ E). now destruct (eqb k1 k').
    - rewrite IH. destruct (eqb k' k1) eqn:E1, (eqb k' k) eqn:E2; auto.
      rewrite (key_sym _ _ GK) in E2. rewrite (key_trans _ _ GK _ _ _ E2 E1) in E. discriminate.
  Qed.

  Lemma lookup_del (m : list (K * V)) k k' : lookup (m_del eqb m k) k' = if eqb k k' then None else lookup m k'.
  Proof.
    unfold m_del. induction m as [|[k1 v1] m IH]; cbn [filter m_lookup fst]; [now destruct (eqb k k')|].
    destruct (eqb k k1) eqn:E; cbn [negb m_lookup]; rewrite IH.
    - destruct (eqb k k') eqn:E2; [reflexivity|]. destruct (eqb k' k1) eqn:E1; [|reflexivity].
      rewrite (key_sym _ _ GK) in E1. rewrite (key_trans _ _ GK _ _ _ E E1) in E2. discriminate.
    - destruct (eqb k' k1) eqn:E1; [|reflexivity]. destruct (eqb k k') eqn:E2; [|reflexivity].
      rewrite (key_trans _ _ GK _ _ _ E2 E1) in E. discriminate.
  Qed.

  Lemma set_length (m : list (K * V)) k v :
    length (m_set eqb m k v) = (length m + match lookup m k with Some _ => 0 | None => 1 end)%nat.
  Proof.
    induction m as [|[k1 v1] m IH]; cbn [m_set m_lookup length]; [reflexivity|].
    destruct (eqb k k1); cbn [length]; [lia|]. rewrite IH. lia.
  Qed.

  Lemma map_laws (m : list (K * V)) k v k' :
    lookup (m_set eqb m k v) k' = (if eqb k' k then Some v else lookup m k') /\
    lookup (m_del eqb m k) k' = (if eqb k k' then None else lookup m k') /\
    (distinct_keys eqb m -> distinct_keys eqb (m_set eqb m k v) /\ distinct_keys eqb (m_del eqb m k)) /\
    length (m_set eqb m k v) = (length m + match lookup m k with Some _ => 0 | None => 1 end)%nat.
  Proof.
    split; [apply lookup_set|]. split; [apply lookup_del|]. split; [|apply set_length].
    intros D. split; [eapply distinct_set|eapply distinct_del]; eassumption.
  Qed.

  Lemma run_app : forall l1 l2 t, run (V:=V) eqb hash (l1 ++ l2) t =
    ('(t, r1) <- run eqb hash l1 t ;; '(t, r2) <- run eqb hash l2 t ;; Ok (t, r1 ++ r2)).
  Proof.
    induction l1 as [|[md o] l1 IH]; intros l2 t; cbn [app run bind].
    - now destruct (run eqb hash l2 t) as [[t2 r2]|e].
    - destruct (step_in eqb hash md o t) as [[t1 r]|e]; cbn [bind]; [|reflexivity]. rewrite IH.
      destruct (run eqb hash l1 t1) as [[t2 r2]|e]; cbn [bind]; [|reflexivity].
      now destruct (run eqb hash l2 t2) as [[t3 r3]|e].
  Qed.

  Lemma every_step_finishes l md (o : op K V) : m_within eqb max_keys (map snd (l ++ [(md, o)])) [] ->
    exists t rs t' r, run eqb hash l new_table = Ok (t, rs) /\ step_in eqb hash md o t = Ok (t', r).
  Proof.
    intros W. destruct (run_ok eqb hash GK _ new_table [] (new_represents eqb hash) W) as [t [E _]].
    rewrite run_app in E. destruct (run eqb hash l new_table) as [[t1 r1]|e]; cbn [bind] in E; [|discriminate].
    cbn [run] in E. destruct (step_in eqb hash md o t1) as [[t2 r2]|e] eqn:E2; cbn [bind] in E; [|discriminate].
    exists t1, r1, t2, r2. auto.
  Qed.

  Lemma iteration_after (l : list (mode * op K V)) : m_within eqb max_keys (map snd l) [] ->
    distinct_keys eqb (fst (m_run eqb (map snd l) [])) /\
    exists t rs, run eqb hash l new_table = Ok (t, rs) /\
      iter_all iter_next (S (length (items t))) t (iter_start t) = Ok (fst (m_run eqb (map snd l) [])) /\
      iter_all c_iter_next (S (length (items t))) t (c_iter_start t) = Ok (fst (m_run eqb (map snd l) [])).
  Proof.
    intros W. destruct (run_ok eqb hash GK l new_table [] (new_represents eqb hash) W) as [t [E [H <-]]].
    split; [apply (t_distinct _ _ _ H)|]. exists t. eexists. split; [exact E|]. split; [apply iter_all_ok|apply c_iter_all_ok].
  Qed.

  Lemma assignments_after (l : list (mode * op K V)) body : m_within eqb max_keys (map snd l) [] ->
    (forall kv, Forall (fun kv' => lookup (fst (m_run eqb (map snd l) [])) (fst kv') <> None) (body kv)) ->
    exists t rs t' seen, run eqb hash l new_table = Ok (t, rs) /\
      iter_assign eqb hash iter_next body (S (length (items t))) t (iter_start t) = Ok (t', seen) /\
      map fst seen = map fst (fst (m_run eqb (map snd l) [])).
  Proof.
    intros W. destruct (run_ok eqb hash GK l new_table [] (new_represents eqb hash) W) as [t [E [H <-]]].
    intros Hex. destruct (iter_assign_ok eqb hash GK body t H Hex) as [t' [seen [E' [_ [L _]]]]].
    exists t. eexists. exists t', seen. split; [exact E|]. auto.
  Qed.

  Lemma size_change (t t' : table K V) : count (idx t') <> count (idx t) ->
    (forall off, iter_next t' (Iterator off (it_size (iter_start t))) = Err GenericError) /\
    (forall off, c_iter_next t' (Iterator off (it_size (c_iter_start t))) = Err GenericError).
  Proof.
    intros H. split; intros off; [unfold iter_next|unfold c_iter_next]; cbn [it_size iter_start c_iter_start];
      destruct (count (idx t') =? count (idx t)) eqn:E; try lia; reflexivity.
  Qed.

  Lemma rebuilt_history m (l : list (mode * op K V)) : distinct_keys eqb m -> m_within eqb max_keys (map snd l) m ->
    exists t t', rebuild hash m = Ok t /\ run eqb hash l t = Ok (t', snd (m_run eqb (map snd l) m)).
  Proof.
    intros D W. destruct (rebuild_ok eqb hash GK m D (within_start _ _ _ _ W)) as [t [E [H L]]].
    destruct (run_ok eqb hash GK l t m (conj H L) W) as [t' [E' _]]. eauto.
  Qed.

  Lemma modes_agree (l l' : list (mode * op K V)) : map snd l = map snd l' -> m_within eqb max_keys (map snd l) [] ->
    exists t t' rs, run eqb hash l new_table = Ok (t, rs) /\ run eqb hash l' new_table = Ok (t', rs).
  Proof.
    intros E W. destruct (run_ok eqb hash GK l new_table [] (new_represents eqb hash) W) as [t [E1 _]].
    rewrite E in *. destruct (run_ok eqb hash GK l' new_table [] (new_represents eqb hash) W) as [t' [E2 _]].
    eauto.
  Qed.
End Laws.

Lemma probe_visits k h j : (k <= 64)%nat -> (j < 2 ^ k)%nat ->
  exists n, (n < 13 + 2 ^ k)%nat /\
    Z.land (fst (Nat.iter n next_probe (wrap_u 64 h, wrap_u 64 h))) (Z.of_nat (2 ^ k) - 1) = Z.of_nat j.
Proof.
  intros Hk Hj. destruct (probe_covers k h j Hk Hj) as [n [Hn E]]. exists n. split; [exact Hn|].
  rewrite <- E. unfold pos, state. rewrite Z2Nat.id; [reflexivity|]. apply Z.land_nonneg. right.
  assert (2 ^ k <> 0)%nat by (apply Nat.pow_nonzero; lia). lia.
Qed.
