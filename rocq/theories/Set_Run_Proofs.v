(** Proofs about Sets: comparisons, whole programs, and the method whose walk disturbs itself. *)
From Coq Require Import ZifyBool ZifyNat.
From Verif Require Import Base PyList PyList_Proofs Hash_Model Hash_Spec Hash_Index_Proofs Hash_Proofs
  Set_Model Set_Spec Set_Proofs.
Open Scope Z_scope.
Open Scope result_scope.

Section SetRun.
  Context {K : Type}.
  Variable eqb : K -> K -> bool.
  Variable hash : K -> Z.
  Hypothesis GK : good_key eqb hash.
  Variable U : list K.
  Hypothesis U_small : Z.of_nat (length U) <= max_keys.

  Notation set := (table K unit).
  Notation mem := (s_of eqb).
  Notation has := (has eqb hash U).
  Notation known := (known eqb U).
  Notation arg_is := (arg_is eqb hash U).

  (** ** Comparisons *)

  (** A set has as many elements as another that includes it only when they are the same. *)
  Lemma included_count a b s p : has a s -> has b p -> included s p ->
    count (idx a) <= count (idx b) /\ (count (idx a) = count (idx b) <-> same s p).
  Proof.
    intros Ha Hb I. rewrite (count_elems eqb hash a (h_table _ _ _ _ _ Ha)), (count_elems eqb hash b (h_table _ _ _ _ _ Hb)).
    assert (Hi : forall x, mem (elems a) x = true -> mem (elems b) x = true).
    { intros x. rewrite (h_mem _ _ _ _ _ Ha), (h_mem _ _ _ _ _ Hb). apply I. }
    pose proof (elems_no_repeats eqb hash GK a (h_table _ _ _ _ _ Ha)) as Da.
    pose proof (elems_no_repeats eqb hash GK b (h_table _ _ _ _ _ Hb)) as Db.
    pose proof (no_repeats_le eqb hash GK _ _ Da Hi) as L. split; [lia|]. split.
    - intros E x. pose proof (no_repeats_full eqb hash GK _ _ Da Hi ltac:(lia) x) as F.
      rewrite (h_mem _ _ _ _ _ Ha), (h_mem _ _ _ _ _ Hb) in F. pose proof (I x) as Ix.
      destruct (s x), (p x); try reflexivity; [now specialize (Ix eq_refl)|now specialize (F eq_refl)].
    - intros E. assert (length (elems b) <= length (elems a))%nat; [|lia].
      apply (no_repeats_le eqb hash GK _ _ Db). intros x. rewrite (h_mem _ _ _ _ _ Ha), (h_mem _ _ _ _ _ Hb), (E x). auto.
  Qed.

  Lemma set_subset_ok a b s p : has a s -> has b p ->
    exists r, set_subset eqb hash a b = Ok r /\ (r = true <-> included s p).
  Proof.
    intros Ha Hb. unfold set_subset.
    destruct (all_tests_ok eqb hash GK _ p true (elems a) (contains_tells eqb hash GK U b p Hb)) as [r [E Hr]].
    exists r. split; [exact E|]. rewrite Hr. split; intros H x; specialize (H x).
    - now rewrite (h_mem _ _ _ _ _ Ha) in H.
    - now rewrite (h_mem _ _ _ _ _ Ha).
  Qed.

  Lemma same_included s p : same s p <-> included s p /\ @included K p s.
  Proof.
    split.
    - intros H. split; intros x; rewrite (H x); auto.
    - intros [H1 H2] x. specialize (H1 x). specialize (H2 x). destruct (s x), (p x); try reflexivity; [now specialize (H1 eq_refl)|now specialize (H2 eq_refl)].
  Qed.

  Lemma same_sym s p : @same K s p <-> same p s.
  Proof. unfold same. split; intros H x; now rewrite H. Qed.

  Lemma i_compare_ok c a b s p : has a s -> has b p ->
    exists r, i_compare eqb hash c a b = Ok r /\ (r = true <-> meaning c s p).
  Proof.
    intros Ha Hb.
    destruct (set_subset_ok a b s p Ha Hb) as [r1 [E1 H1]]. destruct (set_subset_ok b a p s Hb Ha) as [r2 [E2 H2]].
    pose proof (included_count a b s p Ha Hb) as C1. pose proof (included_count b a p s Hb Ha) as C2.
    assert (S1 : same s p -> included s p) by (rewrite same_included; tauto).
    assert (S2 : same s p -> included p s) by (rewrite same_included; tauto).
    pose proof (same_sym s p) as Sy.
    unfold i_compare. rewrite E1, E2. destruct c; cbn [meaning].
    - destruct (count (idx a) =? count (idx b)) eqn:E; cbn [negb].
      + cbn [bind]. eexists; split; [reflexivity|]. destruct r1; cbn.
        * split; [|reflexivity]. intros _. apply C1; [now apply H1|lia].
        * split; [discriminate|]. intros Q. apply H1. now apply S1.
      + eexists; split; [reflexivity|]. cbn. split; [discriminate|]. intros Q. exfalso.
        destruct (C1 (S1 Q)) as [_ [_ F]]. specialize (F Q). lia.
    - destruct (count (idx a) =? count (idx b)) eqn:E; cbn [negb].
      + cbn [bind]. eexists; split; [reflexivity|]. destruct r1; cbn.
        * split; [discriminate|]. intros Q. exfalso. apply Q. apply C1; [now apply H1|lia].
        * split; [|reflexivity]. intros _ Q. assert (false = true) by (now apply H1, S1). discriminate.
      + eexists; split; [reflexivity|]. cbn. split; [|reflexivity]. intros _ Q.
        destruct (C1 (S1 Q)) as [_ [_ F]]. specialize (F Q). lia.
    - destruct (count (idx b) <? count (idx a)) eqn:E.
      + eexists; split; [reflexivity|]. split; [discriminate|]. intros Q. destruct (C1 Q). lia.
      + exists r1. auto.
    - destruct (count (idx b) <=? count (idx a)) eqn:E.
      + eexists; split; [reflexivity|]. split; [discriminate|]. intros [Q N]. exfalso. apply N. destruct (C1 Q) as [L [F _]]. apply F. lia.
      + exists r1. split; [reflexivity|]. rewrite H1. split; [|tauto]. intros Q. split; [exact Q|]. intros N.
        destruct (C1 Q) as [L [_ F]]. specialize (F N). lia.
    - destruct (count (idx a) <? count (idx b)) eqn:E.
      + eexists; split; [reflexivity|]. split; [discriminate|]. intros Q. destruct (C2 Q). lia.
      + exists r2. auto.
    - destruct (count (idx a) <=? count (idx b)) eqn:E.
      + eexists; split; [reflexivity|]. split; [discriminate|]. intros [Q N]. exfalso. apply N, Sy. destruct (C2 Q) as [L [F _]]. apply F. lia.
      + exists r2. split; [reflexivity|]. rewrite H2. split; [|tauto]. intros Q. split; [exact Q|]. intros N. apply Sy in N.
        destruct (C2 Q) as [L [_ F]]. specialize (F N). lia.
  Qed.

  Lemma compare_self c s : bool_for_ordering c 0 = true <-> @meaning K c s s.
  Proof.
    assert (included s s) by (intros x; auto). assert (same s s) by (intros x; auto).
    destruct c; cbn; split; intros; try discriminate; tauto.
  Qed.

  Lemma c_proper_subset_ok a b s p : has a s -> has b p ->
    exists r, c_proper_subset eqb hash a b = Ok r /\ (r = true <-> included s p /\ ~ same s p).
  Proof.
    intros Ha Hb. unfold c_proper_subset. destruct (set_subset_ok a b s p Ha Hb) as [r [-> Hr]]. cbn [bind].
    eexists; split; [reflexivity|]. pose proof (included_count a b s p Ha Hb) as C.
    rewrite Bool.andb_true_iff, Hr. split; intros [Q N]; (split; [exact Q|]); destruct (C Q) as [L F].
    - intros S. apply F in S. lia.
    - assert (count (idx a) <> count (idx b)) by (intros X; apply N, F, X). lia.
  Qed.

  Lemma c_compare_ok c a b s p : has a s -> has b p ->
    exists r, c_compare eqb hash c a b = Ok r /\ (r = true <-> meaning c s p).
  Proof.
    intros Ha Hb. destruct c; cbn [c_compare meaning].
    - destruct (i_compare_ok CEq a b s p Ha Hb) as [r [E H]]. cbn [i_compare] in E.
      destruct (count (idx a) =? count (idx b)); cbn [negb] in E.
      + destruct (set_subset eqb hash a b) as [x|]; cbn [bind] in E; [|discriminate]. exists x. split; [reflexivity|].
        apply Ok_eq in E. rewrite <- E in H. now destruct x.
      + exists false. split; [reflexivity|]. apply Ok_eq in E. now rewrite <- E in H.
    - destruct (i_compare_ok CNe b a p s Hb Ha) as [r [E H]]. cbn [i_compare] in E. cbn [meaning] in H. rewrite (same_sym p s) in H.
      rewrite (Z.eqb_sym (count (idx b))) in E. destruct (count (idx a) =? count (idx b)); cbn [negb] in E.
      + destruct (set_subset eqb hash b a) as [x|]; cbn [bind] in *; [|discriminate]. exists (negb x). split; [reflexivity|].
        apply Ok_eq in E. rewrite <- E in H. now destruct x.
      + exists true. split; [reflexivity|]. apply Ok_eq in E. now rewrite <- E in H.
    - now apply set_subset_ok.
    - now apply c_proper_subset_ok.
    - now apply set_subset_ok.
    - destruct (c_proper_subset_ok b a p s Hb Ha) as [r [E H]]. exists r. split; [exact E|]. now rewrite (same_sym s p).
  Qed.

  (** ** issubset, issuperset, isdisjoint *)

  Lemma subset_shadow_ok a s : has a s -> forall l sh q, has sh q -> included q s -> count (idx sh) < count (idx a) ->
    exists r, subset_shadow eqb hash a sh l = Ok r /\ (r = true <-> forall x, s x = true -> q x || mem l x = true).
  Proof.
    intros Ha. induction l as [|k l IH]; intros sh q Hq I L; cbn [subset_shadow].
    - exists false. split; [reflexivity|]. split; [discriminate|]. intros H. exfalso.
      assert (included s q) as J.
      { intros x Hx. specialize (H x Hx). now rewrite Bool.orb_false_r in H. }
      destruct (included_count a sh s q Ha Hq J) as [Q _]. lia.
    - rewrite (contains_ok eqb hash GK U a s k Ha). cbn [bind]. destruct (s k) eqn:E.
      + destruct (add_has eqb hash GK U U_small sh q k Hq) as [sh1 [-> H1]]; [apply (h_known _ _ _ _ _ Ha k E)|]. cbn [bind].
        assert (I1 : included (s_add eqb q k) s).
        { intros x Hx. unfold s_add in Hx. destruct (q x) eqn:F; [now apply I|]. cbn [orb] in Hx.
          now rewrite <- (has_respects eqb hash GK U a s Ha k x Hx). }
        destruct (included_count sh1 a _ s H1 Ha I1) as [L1 Q].
        destruct (count (idx sh1) =? count (idx a)) eqn:F.
        * exists true. split; [reflexivity|]. split; [|reflexivity]. intros _ x Hx. rewrite mem_cons.
          assert (S : same (s_add eqb q k) s) by (apply Q; lia). specialize (S x). rewrite Hx in S. unfold s_add in S.
          destruct (q x); [reflexivity|]. cbn [orb] in *. now rewrite S.
        * destruct (IH sh1 _ H1 I1 ltac:(lia)) as [r [Er Hr]]. exists r. split; [exact Er|]. rewrite Hr.
          split; intros H x Hx; specialize (H x Hx); unfold s_add in *; rewrite mem_cons in *; now rewrite Bool.orb_assoc in *.
      + destruct (IH sh q Hq I L) as [r [Er Hr]]. exists r. split; [exact Er|]. rewrite Hr.
        split; intros H x Hx; specialize (H x Hx); rewrite mem_cons in *.
        * destruct (q x); [reflexivity|]. cbn [orb] in *. rewrite H. apply Bool.orb_true_r.
        * destruct (q x); [reflexivity|]. cbn [orb] in *. destruct (eqb k x) eqn:F; [|exact H].
          rewrite (has_respects eqb hash GK U a s Ha k x F) in E. congruence.
  Qed.

  Lemma subset_iterable_ok a s l : has a s ->
    exists r, subset_iterable eqb hash a l = Ok r /\ (r = true <-> included s (mem l)).
  Proof.
    intros Ha. unfold subset_iterable. destruct (count (idx a) =? 0) eqn:E.
    - exists true. split; [reflexivity|]. split; [|reflexivity]. intros _ x Hx. exfalso.
      rewrite (count_elems eqb hash a (h_table _ _ _ _ _ Ha)) in E. rewrite <- (h_mem _ _ _ _ _ Ha) in Hx.
      destruct (elems a); [discriminate|cbn in E; lia].
    - destruct (subset_shadow_ok a s Ha l new_table _ (new_has eqb hash U)) as [r [Er Hr]].
      + discriminate.
      + cbn. rewrite (count_elems eqb hash a (h_table _ _ _ _ _ Ha)) in *. lia.
      + exists r. split; [exact Er|exact Hr].
  Qed.

  Lemma test_i_subset a s x p : has a s -> arg_is a s x p ->
    exists r, i_is_subset eqb hash a x = Ok r /\ (r = true <-> included s p).
  Proof.
    intros Ha Hx. pose proof (arg_mem eqb hash U a s x p Ha Hx) as Hm.
    destruct (subset_iterable_ok a s (arg_elems a x) Ha) as [r [Er Hr]].
    assert (Q : r = true <-> included s p).
    { rewrite Hr. unfold included. split; intros H y Hy; specialize (H y Hy); now rewrite Hm in *. }
    destruct x as [| |b|l]; unfold i_is_subset; try (exists r; split; assumption).
    exists true. split; [reflexivity|]. split; [|reflexivity]. intros _ y Hy. cbn in Hx. now rewrite <- Hx.
  Qed.

  Lemma tests_mem a s x p want : has a s -> arg_is a s x p ->
    exists r, all_tests (contains eqb hash a) want (arg_elems a x) = Ok r /\ (r = true <-> forall y, p y = true -> s y = want).
  Proof.
    intros Ha Hx. pose proof (arg_mem eqb hash U a s x p Ha Hx) as Hm.
    destruct (all_tests_ok eqb hash GK _ s want (arg_elems a x) (contains_tells eqb hash GK U a s Ha)) as [r [Er Hr]].
    exists r. split; [exact Er|]. rewrite Hr. split; intros H y; specialize (H y); now rewrite Hm in *.
  Qed.

  Lemma disjoint_swap s p : (forall y, p y = true -> s y = false) <-> @disjoint K s p.
  Proof.
    unfold disjoint. split; intros H y Hy; destruct (p y) eqn:E, (s y) eqn:F; try reflexivity;
      (specialize (H y); rewrite ?E, ?F in *; auto).
  Qed.

  Lemma test_i_ok q a s x p : has a s -> arg_is a s x p ->
    match q, x with IsDisjoint, ArgSame => False | _, _ => True end ->
    exists r, match q with
              | IsSubset => i_is_subset eqb hash a x
              | IsSuperset => i_is_superset eqb hash a x
              | IsDisjoint => i_is_disjoint eqb hash a x
              end = Ok r /\ (r = true <-> test_meaning q s p).
  Proof.
    intros Ha Hx Hn. destruct q; cbn [test_meaning].
    - now apply test_i_subset.
    - destruct (tests_mem a s x p true Ha Hx) as [r [Er Hr]].
      destruct x as [| |b|l]; unfold i_is_superset; try (exists r; split; assumption).
      exists true. split; [reflexivity|]. split; [|reflexivity]. intros _ y Hy. cbn in Hx. now rewrite Hx.
    - destruct (tests_mem a s x p false Ha Hx) as [r [Er Hr]]. rewrite disjoint_swap in Hr.
      destruct x as [| |b|l]; unfold i_is_disjoint; try (exists r; split; assumption). contradiction.
  Qed.

  Lemma test_c_ok q a s x p : has a s -> arg_is a s x p ->
    exists r, match q with
              | IsSubset => c_is_subset eqb hash a x
              | IsSuperset => c_is_superset eqb hash a x
              | IsDisjoint => c_is_disjoint eqb hash a x
              end = Ok r /\ (r = true <-> test_meaning q s p).
  Proof.
    intros Ha Hx. destruct q; cbn [test_meaning].
    - destruct x as [| |b|l]; cbn [c_is_subset Set_Proofs.arg_is] in *.
      + destruct (set_subset_ok a a s s Ha Ha) as [r [E Hr]]. exists r. split; [exact E|]. rewrite Hr.
        split; intros H y Hy; specialize (H y Hy); now rewrite <- ?Hx, ?H in *.
      + destruct (set_subset_ok a a s s Ha Ha) as [r [E Hr]]. exists r. split; [exact E|]. rewrite Hr.
        split; intros H y Hy; specialize (H y Hy); now rewrite <- ?Hx, ?H in *.
      + now apply set_subset_ok.
      + destruct (subset_iterable_ok a s l Ha) as [r [E Hr]]. exists r. split; [exact E|]. rewrite Hr.
        split; intros H y Hy; specialize (H y Hy); now rewrite Hx in *.
    - destruct (tests_mem a s x p true Ha Hx) as [r [Er Hr]]. exists r. split; [exact Er|exact Hr].
    - destruct (tests_mem a s x p false Ha Hx) as [r [Er Hr]]. rewrite disjoint_swap in Hr. exists r. split; [exact Er|exact Hr].
  Qed.

  (** ** Comparison with a builtin set: what >= and > answer *)

  Lemma distinctb_ok l : distinctb eqb l = true <-> no_repeats eqb l.
  Proof.
    induction l as [|k l IH]; cbn [distinctb no_repeats]; [tauto|]. rewrite Bool.andb_true_iff, IH, Bool.negb_true_iff. tauto.
  Qed.

  Definition in_both (l r : list K) : list K := filter (builtin_contains eqb r) l.

  Lemma walk_count r l : forall n, 0 <= n < Z.of_nat (length r) ->
    (Z.of_nat (length r) <=? builtin_superset_walk eqb n l r) = (Z.of_nat (length r) <=? n + Z.of_nat (length (in_both l r))).
  Proof.
    unfold in_both. induction l as [|k l IH]; intros n Hn; cbn [builtin_superset_walk filter length]; [f_equal; lia|].
    destruct (builtin_contains eqb r k) eqn:E; cbn [length].
    - destruct (Z.of_nat (length r) <=? n + 1) eqn:F; [lia|]. rewrite IH by lia. f_equal. lia.
    - apply IH, Hn.
  Qed.

  Lemma builtin_contains_mem r x : builtin_contains eqb r x = mem r x.
  Proof.
    unfold builtin_contains, s_of. induction r as [|k r IH]; [reflexivity|]. cbn [existsb]. rewrite IH. f_equal. apply (key_sym _ _ GK).
  Qed.

  Lemma mem_in_both l r x : mem (in_both l r) x = mem l x && mem r x.
  Proof.
    unfold in_both. induction l as [|k l IH]; [reflexivity|]. cbn [filter]. rewrite mem_cons.
    rewrite builtin_contains_mem. destruct (mem r k) eqn:E; rewrite ?mem_cons, IH; destruct (eqb k x) eqn:F; cbn [orb]; try reflexivity.
    - rewrite <- (mem_respects eqb hash GK r k x F), E. now rewrite !Bool.andb_true_r.
    - rewrite <- (mem_respects eqb hash GK r k x F), E. now rewrite !Bool.andb_false_r.
  Qed.

  Lemma no_repeats_in_both l r : no_repeats eqb l -> no_repeats eqb (in_both l r).
  Proof.
    induction l as [|k l IH]; intros D; [exact I|]. destruct D as [Dk D]. unfold in_both. cbn [filter]. fold (in_both l r).
    destruct (builtin_contains eqb r k); [|now apply IH]. split; [|now apply IH]. rewrite mem_in_both, Dk. reflexivity.
  Qed.

  Lemma builtin_superset_ok a s r : has a s -> no_repeats eqb r ->
    builtin_superset eqb a r = true <-> included (mem r) s.
  Proof.
    intros Ha Dr. unfold builtin_superset. destruct r as [|r0 r1] eqn:E; [split; [discriminate|reflexivity]|]. rewrite <- E in *.
    assert (Hpos : 0 <= 0 < Z.of_nat (length r)) by (subst r; cbn; lia). rewrite (walk_count r (elems a) 0 Hpos).
    pose proof (elems_no_repeats eqb hash GK a (h_table _ _ _ _ _ Ha)) as Da.
    pose proof (no_repeats_in_both (elems a) r Da) as Di.
    split.
    - intros L x Hx. assert (F : mem (in_both (elems a) r) x = true).
      { apply (no_repeats_full eqb hash GK _ r Di); [|lia|exact Hx]. intros y. rewrite mem_in_both. now destruct (mem (elems a) y). }
      rewrite mem_in_both, (h_mem _ _ _ _ _ Ha) in F. now destruct (s x).
    - intros I. assert (length r <= length (in_both (elems a) r))%nat; [|lia].
      apply (no_repeats_le eqb hash GK _ _ Dr). intros x Hx. rewrite mem_in_both, Hx, (h_mem _ _ _ _ _ Ha), (I x Hx). reflexivity.
  Qed.

  Lemma builtin_count a s r : has a s -> no_repeats eqb r -> included (mem r) s ->
    Z.of_nat (length r) <= count (idx a) /\ (count (idx a) = Z.of_nat (length r) <-> same s (mem r)).
  Proof.
    intros Ha Dr I. rewrite (count_elems eqb hash a (h_table _ _ _ _ _ Ha)).
    pose proof (elems_no_repeats eqb hash GK a (h_table _ _ _ _ _ Ha)) as Da.
    assert (Hi : forall x, mem r x = true -> mem (elems a) x = true) by (intros x; rewrite (h_mem _ _ _ _ _ Ha); apply I).
    pose proof (no_repeats_le eqb hash GK _ _ Dr Hi) as L. split; [lia|]. split.
    - intros E x. pose proof (no_repeats_full eqb hash GK _ _ Dr Hi ltac:(lia) x) as F.
      rewrite (h_mem _ _ _ _ _ Ha) in F. pose proof (I x) as Ix.
      destruct (s x), (mem r x); try reflexivity; [now specialize (F eq_refl)|now specialize (Ix eq_refl)].
    - intros E. assert (length (elems a) <= length r)%nat; [|lia]. apply (no_repeats_le eqb hash GK _ _ Da).
      intros x. now rewrite (h_mem _ _ _ _ _ Ha), (E x).
  Qed.

  Lemma compare_builtin_ge a s r : has a s -> no_repeats eqb r -> compare_builtin eqb CGe a r = true <-> meaning CGe s (mem r).
  Proof.
    intros Ha Dr. cbn [compare_builtin meaning]. pose proof (builtin_count a s r Ha Dr) as C.
    destruct (count (idx a) <? Z.of_nat (length r)) eqn:E.
    - split; [discriminate|]. intros I. destruct (C I). lia.
    - now apply builtin_superset_ok.
  Qed.

  Lemma compare_builtin_gt a s r : has a s -> no_repeats eqb r -> compare_builtin eqb CGt a r = true <-> meaning CGt s (mem r).
  Proof.
    intros Ha Dr. cbn [compare_builtin meaning]. pose proof (builtin_count a s r Ha Dr) as C.
    destruct (count (idx a) <=? Z.of_nat (length r)) eqn:E.
    - split; [discriminate|]. intros [I N]. exfalso. destruct (C I) as [L [F _]]. apply N, F. lia.
    - rewrite (builtin_superset_ok a s r Ha Dr). split; [|tauto]. intros I. split; [exact I|]. intros S.
      destruct (C I) as [L [_ F]]. specialize (F S). lia.
  Qed.

  (** ** Programs *)

  Definition store_has (st : store) (ms : list mset) : Prop := Forall2 has st ms.

  Lemma get_has st ms i : store_has st ms -> has (get st i) (s_get ms i).
  Proof.
    unfold get, s_get. intros H. revert i. induction H as [|t s st ms Ht H IH]; intros [|i]; cbn [nth]; auto using new_has.
  Qed.

  Lemma put_has st ms i t s : store_has st ms -> has t s -> store_has (put st i t) (s_put ms i s).
  Proof.
    unfold put, s_put, store_has. intros H Ht. revert i. induction H as [|t0 s0 st ms H0 H IH]; intros [|i]; cbn [replace_nth]; constructor; auto.
  Qed.

  Lemma app_has st ms t s : store_has st ms -> has t s -> store_has (st ++ [t]) (ms ++ [s]).
  Proof. intros H Ht. apply Forall2_app; [exact H|]. constructor; [exact Ht|constructor]. Qed.

  Lemma store_length st ms : store_has st ms -> length st = length ms.
  Proof. induction 1; cbn; congruence. Qed.

  Lemma fresh_has st ms r s t : store_has st ms -> r = Ok t -> has t s ->
    exists st', fresh_object st r = Ok (st', SObject (length ms)) /\ store_has st' (ms ++ [s]).
  Proof.
    intros H -> Ht. unfold fresh_object. cbn [bind]. rewrite (store_length st ms H). eexists. split; [reflexivity|].
    now apply app_has.
  Qed.

  Definition args_known (args : list (arg K)) : Prop := forall k, In k (flat_map arg_keys args) -> In k U.

  Lemma in_known k : In k U -> known k.
  Proof. intros H. now apply (mem_in eqb hash GK). Qed.

  Lemma list_known l : (forall k, In k l -> In k U) -> forall x, mem l x = true -> known x.
  Proof.
    intros H x Hx. unfold s_of in Hx. apply existsb_exists in Hx. destruct Hx as [k [Hin E]].
    unfold Set_Proofs.known. rewrite <- (mem_respects eqb hash GK U k x E). apply (mem_in eqb hash GK), H, Hin.
  Qed.

  Lemma resolve_is st ms i x : store_has st ms -> arg_is (get st i) (s_get ms i) (resolve st i x) (s_arg eqb ms x).
  Proof.
    intros H. destruct x as [j sm|l]; cbn [resolve s_arg].
    - destruct (Nat.eqb_spec i j) as [->|N]; [destruct sm; cbn; reflexivity|]. cbn. now apply get_has.
    - cbn. reflexivity.
  Qed.

  Lemma resolve_other_is st ms r s x : store_has st ms -> arg_is r s (resolve_other st x) (s_arg eqb ms x).
  Proof. intros H. destruct x as [j sm|l]; cbn; [now apply get_has|reflexivity]. Qed.

  Lemma s_arg_known st ms x : store_has st ms -> (forall k, In k (arg_keys x) -> In k U) -> forall y, s_arg eqb ms x y = true -> known y.
  Proof.
    intros H Hk y. destruct x as [j sm|l]; cbn [s_arg arg_keys] in *.
    - apply (h_known _ _ _ _ _ (get_has st ms j H)).
    - now apply list_known.
  Qed.

  Lemma args_known_cons x args : args_known (x :: args) -> (forall k, In k (arg_keys x) -> In k U) /\ args_known args.
  Proof.
    unfold args_known. cbn [flat_map]. intros H. split; intros k Hk; apply H, in_or_app; auto.
  Qed.

  Lemma in_place_has f b i (good : arg K -> Prop) :
    (forall st ms x, store_has st ms -> good x -> (forall k, In k (arg_keys x) -> In k U) ->
       exists t, f (get st i) (resolve st i x) = Ok (t, None) /\ has t (s_op b (s_get ms i) (s_arg eqb ms x))) ->
    forall args st ms, store_has st ms -> Forall good args -> args_known args ->
    exists st', in_place f i args st = Ok (st', SDone) /\
      store_has st' (fold_left (fun ms x => s_put ms i (s_op b (s_get ms i) (s_arg eqb ms x))) args ms).
  Proof.
    intros Hf. induction args as [|x args IH]; intros st ms H G A; cbn [in_place fold_left].
    - exists st. auto.
    - apply Forall_cons_iff in G. destruct G as [Gx G]. apply args_known_cons in A. destruct A as [Ax A].
      destruct (Hf st ms x H Gx Ax) as [t [-> Ht]]. cbn [bind]. apply IH; [|exact G|exact A]. now apply put_has.
  Qed.

  Lemma fold_new_has {A} (f : set -> A -> result set) (g : (K -> bool) -> A -> (K -> bool)) l :
    (forall r s x, In x l -> has r s -> exists t, f r x = Ok t /\ has t (g s x)) ->
    forall r s, has r s -> exists t, fold_result f l r = Ok t /\ has t (fold_left g l s).
  Proof.
    induction l as [|x l IH]; intros Hf r s H; cbn [fold_result fold_left].
    - exists r. auto.
    - destruct (Hf r s x ltac:(now left) H) as [t [-> Ht]]. cbn [bind]. apply IH; [|exact Ht].
      intros r' s' y Hy. apply Hf. now right.
  Qed.

  Definition op_known (o : set_op K) : Prop := forall k, In k (op_keys o) -> In k U.

  Lemma args_known_in args x : args_known args -> In x args -> forall k, In k (arg_keys x) -> In k U.
  Proof. intros A Hx k Hk. apply A, in_flat_map. now exists x. Qed.

  Lemma op_arg_known st ms x : store_has st ms -> (forall k, In k (arg_keys x) -> In k U) ->
    arg_known eqb U (s_arg eqb ms x).
  Proof. intros H Hk y. now apply (s_arg_known st ms). Qed.

  Lemma i_method_has b st ms i args : store_has st ms -> args_known args ->
    exists st' out ms', i_method eqb hash b st i args = Ok (st', out) /\ s_step eqb (Method b i args) ms out ms' /\ store_has st' ms'.
  Proof.
    intros H A. pose proof (get_has st ms i H) as Hi. cbn [s_step].
    assert (F : forall r s t, r = Ok t -> has t s -> exists st' out ms', fresh_object st r = Ok (st', out) /\
              (out = SObject (length ms) /\ ms' = ms ++ [s]) /\ store_has st' ms').
    { intros r s t E Ht. destruct (fresh_has st ms r s t H E Ht) as [st' [E' H']]. exists st', (SObject (length ms)), (ms ++ [s]). auto. }
    destruct (i_copy_has eqb hash GK U U_small _ _ Hi) as [c [Ec Hc]].
    destruct b; cbn [takes_one].
    - cbn [i_method]. destruct args as [|x args]; [now apply (F _ _ c)|].
      destruct (fold_new_has (fun r x => copy_elements eqb hash r (arg_elems r (resolve_other st x)))
                  (fun s x => s_op Union s (s_arg eqb ms x)) (x :: args)) with (r := c) (s := s_get ms i) as [t [Et Ht]]; [|exact Hc|].
      { intros r s y Hy Hr. pose proof (op_arg_known st ms y H (args_known_in _ _ A Hy)) as Hk.
        pose proof (resolve_other_is st ms r s y H) as Hx.
        destruct (copy_elements_has eqb hash GK U U_small (arg_elems r (resolve_other st y)) r s Hr) as [t [E Ht]].
        { intros z Hz. apply Hk. now rewrite <- (arg_mem eqb hash U r s _ _ Hr Hx). }
        exists t. split; [exact E|]. apply (has_ext _ _ _ _ _ _ Ht). intros z. cbn. now rewrite (arg_mem eqb hash U r s _ _ Hr Hx). }
      apply (F _ _ t); [|exact Ht]. rewrite Ec. cbn [bind]. exact Et.
    - cbn [i_method]. destruct args as [|x args]; [now apply (F _ _ c)|].
      destruct (i_intersection_has eqb hash GK U U_small _ _ _ _ Hi (resolve_is st ms i x H)) as [c1 [Ec1 Hc1]].
      destruct (fold_new_has (fun r x => i_intersection eqb hash r (resolve_other st x))
                  (fun s x => s_op Intersection s (s_arg eqb ms x)) args) with (r := c1) (s := s_op Intersection (s_get ms i) (s_arg eqb ms x))
        as [t [Et Ht]]; [|exact Hc1|].
      { intros r s y Hy Hr. apply (i_intersection_has eqb hash GK U U_small); [exact Hr|]. now apply resolve_other_is. }
      apply (F _ _ t); [|exact Ht]. rewrite Ec1. cbn [bind]. exact Et.
    - cbn [i_method]. destruct args as [|x args]; [now apply (F _ _ c)|].
      destruct (i_difference_has eqb hash GK U U_small _ _ _ _ Hi (resolve_is st ms i x H)) as [c1 [Ec1 Hc1]].
      destruct (fold_new_has (fun r x => '(r, _) <- i_difference_update eqb hash r (resolve_other st x) ;; Ok r)
                  (fun s x => s_op Difference s (s_arg eqb ms x)) args) with (r := c1) (s := s_op Difference (s_get ms i) (s_arg eqb ms x))
        as [t [Et Ht]]; [|exact Hc1|].
      { intros r s y Hy Hr.
        destruct (i_difference_update_has eqb hash GK U U_small r s _ _ Hr (resolve_other_is st ms r s y H)) as [t [-> Ht]].
        { now destruct y. }
        cbn [bind]. exists t. auto. }
      apply (F _ _ t); [|exact Ht]. rewrite Ec1. cbn [bind]. exact Et.
    - cbn [i_method]. destruct args as [|x [|y args]]; cbn [takes_one].
      + exists st, (SRaises TypeError), ms. auto.
      + cbn [fold_left]. pose proof (op_arg_known st ms x H (args_known_in _ _ A ltac:(now left))) as Hk.
        destruct (i_symmetric_difference_has eqb hash GK U U_small _ _ _ _ Hi (resolve_is st ms i x H) Hk) as [t [Et Ht]].
        now apply (F _ _ t).
      + exists st, (SRaises TypeError), ms. auto.
  Qed.

  Lemma c_method_has b st ms i args : store_has st ms -> plain eqb Compiled (Method b i args) = true ->
    exists st' out ms', c_method eqb hash b st i args = Ok (st', out) /\ s_step eqb (Method b i args) ms out ms' /\ store_has st' ms'.
  Proof.
    intros H P. pose proof (get_has st ms i H) as Hi. cbn [s_step]. cbn [plain] in P.
    apply Bool.andb_true_iff in P. destruct P as [P1 P2]. rewrite forallb_forall in P1.
    destruct (fold_new_has (fun r x => match x with Other j _ => c_operator eqb hash b r (get st j) | Iterable _ => Err NotImplementedError end)
                (fun s x => s_op b s (s_arg eqb ms x)) args) with (r := get st i) (s := s_get ms i) as [t [Et Ht]]; [|exact Hi|].
    { intros r s x Hx Hr. specialize (P1 x Hx). destruct x as [j sm|l]; [|discriminate]. cbn [s_arg].
      apply (c_operator_has eqb hash GK U U_small); [exact Hr|]. now apply get_has. }
    destruct (fresh_has st ms _ _ t H Et Ht) as [st' [E' H']].
    assert (F : exists st' out ms', fresh_object st (fold_result (fun r x => match x with Other j _ => c_operator eqb hash b r (get st j)
                | Iterable _ => Err NotImplementedError end) args (get st i)) = Ok (st', out) /\
              (out = SObject (length ms) /\ ms' = ms ++ [fold_left (fun s x => s_op b s (s_arg eqb ms x)) args (s_get ms i)]) /\ store_has st' ms').
    { eexists st', _, _. split; [exact E'|]. split; [split; reflexivity|exact H']. }
    destruct b; cbn [takes_one c_method].
    - destruct args; [discriminate|]. exact F.
    - destruct args; [discriminate|]. exact F.
    - destruct args; [discriminate|]. exact F.
    - destruct args as [|x [|y args]]; cbn [takes_one].
      + exists st, (SRaises TypeError), ms. auto.
      + exact F.
      + exists st, (SRaises TypeError), ms. auto.
  Qed.

  Lemma in_place_ok m b st ms i args : store_has st ms -> args_known args -> forallb (plain_arg m b i) args = true ->
    exists st' out ms', match m with Interpreted => i_in_place eqb hash b st i args | Compiled => c_in_place eqb hash b st i args end = Ok (st', out) /\
      s_step eqb (InPlace b i args) ms out ms' /\ store_has st' ms'.
  Proof.
    intros H A P. cbn [s_step].
    assert (F : forall f, takes_one b args = true ->
              (forall st ms x, store_has st ms -> plain_arg m b i x = true -> (forall k, In k (arg_keys x) -> In k U) ->
                 exists t, f (get st i) (resolve st i x) = Ok (t, None) /\ has t (s_op b (s_get ms i) (s_arg eqb ms x))) ->
              exists st' out ms', in_place f i args st = Ok (st', out) /\
                (if takes_one b args then out = SDone /\ ms' = fold_left (fun ms x => s_put ms i (s_op b (s_get ms i) (s_arg eqb ms x))) args ms
                 else out = SRaises TypeError /\ ms' = ms) /\ store_has st' ms').
    { intros f -> Hf. destruct (in_place_has f b i (fun x => plain_arg m b i x = true) Hf args st ms H) as [st' [E H']]; [|exact A|].
      - apply Forall_forall. now rewrite forallb_forall in P.
      - eexists st', _, _. split; [exact E|]. split; [split; reflexivity|exact H']. }
    destruct m, b; cbn [i_in_place c_in_place].
    - apply F; [reflexivity|]. intros st0 ms0 x H0 _ Hk. apply (i_update_has eqb hash GK U U_small); [now apply get_has|now apply resolve_is|now apply (op_arg_known st0)].
    - apply F; [reflexivity|]. intros st0 ms0 x H0 G _. apply (i_intersection_update_has eqb hash GK U U_small); [now apply get_has|now apply resolve_is|].
      destruct x as [j sm|l]; cbn [plain_arg resolve] in *; [|exact I]. rewrite G. now destruct sm.
    - apply F; [reflexivity|]. intros st0 ms0 x H0 G _. apply (i_difference_update_has eqb hash GK U U_small); [now apply get_has|now apply resolve_is|].
      destruct x as [j sm|l]; cbn [plain_arg resolve] in *; [|exact I]. destruct (Nat.eqb i j); [|exact I]. now destruct sm.
    - destruct args as [|x [|y args]]; cbn [takes_one].
      + exists st, (SRaises TypeError), ms. auto.
      + apply F; [reflexivity|]. intros st0 ms0 z H0 _ Hk. apply (i_symmetric_difference_update_has eqb hash GK U U_small); [now apply get_has|now apply resolve_is|now apply (op_arg_known st0)].
      + exists st, (SRaises TypeError), ms. auto.
    - apply F; [reflexivity|]. intros st0 ms0 x H0 _ Hk. apply (i_update_has eqb hash GK U U_small); [now apply get_has|now apply resolve_is|now apply (op_arg_known st0)].
    - apply F; [reflexivity|]. intros st0 ms0 x H0 G _. apply (c_intersection_update_has eqb hash GK U U_small); [now apply get_has|now apply resolve_is|].
      destruct x as [j sm|l]; cbn [plain_arg resolve] in *; [|exact I]. now destruct (Nat.eqb i j).
    - apply F; [reflexivity|]. intros st0 ms0 x H0 G _. apply (c_difference_update_has eqb hash GK U U_small); [now apply get_has|now apply resolve_is|].
      destruct x as [j sm|l]; cbn [plain_arg resolve] in *; [|exact I]. now destruct (Nat.eqb i j).
    - destruct args as [|x [|y args]]; cbn [takes_one].
      + exists st, (SRaises TypeError), ms. auto.
      + apply F; [reflexivity|]. intros st0 ms0 z H0 _ Hk. apply (c_symmetric_difference_update_has eqb hash GK U U_small); [now apply get_has|now apply resolve_is|now apply (op_arg_known st0)].
      + exists st, (SRaises TypeError), ms. auto.
  Qed.

  Lemma live_first (t : set) : (exists j kv, next_populated t 0 = Z.of_nat j /\ nth_error (items t) j = Some (Some kv)) \/
    (reserved t <= next_populated t 0 /\ live (items t) = []).
  Proof.
    destruct (next_populated_ok t 0) as [j [E [_ [L [El [->|[kv Hkv]]]]]]]; [unfold reserved; lia| |].
    - right. split; [unfold reserved; lia|]. cbn [skipn] in El. change (Z.to_nat 0) with 0%nat in El. cbn [skipn] in El.
      rewrite El, skipn_all. reflexivity.
    - left. exists j, kv. auto.
  Qed.

  Lemma pop_has drop st ms i : store_has st ms ->
    (forall t s k, has t s -> exists t', drop t k = Ok (t', s k) /\ has t' (s_del eqb s k)) ->
    exists r ms', pop_first drop (get st i) = Ok r /\ s_step eqb (PopKey i) ms (snd (pop_outcome st i r)) ms' /\
      store_has (fst (pop_outcome st i r)) ms'.
  Proof.
    intros H D. pose proof (get_has st ms i H) as Hi. unfold pop_first.
    destruct (live_first (get st i)) as [[j [[k v] [E Hj]]]|[E L]].
    - rewrite E. assert (J : (j < length (items (get st i)))%nat) by (eapply nth_error_lt, Hj).
      unfold reserved. destruct (Z.of_nat (length (items (get st i))) <=? Z.of_nat j) eqn:F; [lia|].
      rewrite (rd_item_ok _ _ _ Hj). cbn [bind fst].
      assert (S : s_get ms i k = true).
      { rewrite <- (h_mem _ _ _ _ _ Hi). apply (mem_in eqb hash GK). unfold elems. apply in_map_iff. exists (k, v). split; [reflexivity|].
        eapply in_live, Hj. }
      destruct (D _ _ k Hi) as [t' [-> H']]. rewrite S. cbn [bind]. exists (t', Some k), (s_put ms i (s_del eqb (s_get ms i) k)).
      split; [reflexivity|]. unfold pop_outcome. cbn [fst snd s_step]. split.
      + left. exists k. auto.
      + now apply put_has.
    - destruct (reserved (get st i) <=? next_populated (get st i) 0) eqn:F; [|lia].
      assert (Em : same (s_get ms i) s_empty).
      { intros x. rewrite <- (h_mem _ _ _ _ _ Hi). unfold elems. now rewrite L. }
      exists (get st i, None), ms. split; [reflexivity|]. unfold pop_outcome. cbn [fst snd s_step]. split; [right; auto|].
      replace (put st i (get st i)) with st; [exact H|]. unfold put, get. clear. revert i.
      induction st as [|t st IH]; intros [|i]; cbn; try reflexivity. f_equal. apply IH.
  Qed.

  Lemma set_step_ok m o st ms : store_has st ms -> op_known o -> plain eqb m o = true ->
    exists st' out ms', set_step eqb hash m o st = Ok (st', out) /\ s_step eqb o ms out ms' /\ store_has st' ms'.
  Proof.
    intros H A P. destruct o as [l|i|i k|i k|i k|i|i|i k|i|i|b i j|b i args|b i args|c i j|q i x|c i r].
    - destruct (copy_elements_has eqb hash GK U U_small l new_table _ (new_has eqb hash U)) as [t [E Ht]]; [exact (list_known l A)|].
      destruct (fresh_has st ms _ (s_of eqb l) t H E) as [st' [E' H']]; [exact (has_ext _ _ _ _ _ _ Ht (fun x => eq_refl))|].
      exists st', (SObject (length ms)), (ms ++ [s_of eqb l]). split; [destruct m; exact E'|]. split; [split; reflexivity|exact H'].
    - pose proof (get_has st ms i H) as Hi.
      assert (exists r t, (match m with Interpreted => i_copy eqb hash (get st i) | Compiled => Ok (copy_table (get st i)) end) = r /\ r = Ok t /\ has t (s_get ms i))
        as [r [t [Er [Et Ht]]]].
      { destruct m.
        - destruct (i_copy_has eqb hash GK U U_small _ _ Hi) as [t [E Ht]]. eauto.
        - exists (Ok (copy_table (get st i))), (copy_table (get st i)). split; [reflexivity|]. split; [reflexivity|]. now apply copy_table_has. }
      destruct (fresh_has st ms r _ t H Et Ht) as [st' [E' H']].
      exists st', (SObject (length ms)), (ms ++ [s_get ms i]). rewrite <- Er in E'. split; [destruct m; exact E'|]. split; [split; reflexivity|exact H'].
    - destruct (add_has eqb hash GK U U_small _ _ k (get_has st ms i H)) as [t [E Ht]]; [apply in_known, A; now left|].
      exists (put st i t), SDone, (s_put ms i (s_add eqb (s_get ms i) k)).
      split; [destruct m; cbn [set_step i_step c_set_step]; rewrite E; reflexivity|]. split; [split; reflexivity|now apply put_has].
    - destruct m; cbn [set_step i_step c_set_step].
      + destruct (discard_has eqb hash GK U U_small _ _ k (get_has st ms i H)) as [t [E Ht]]. rewrite E. cbn [bind].
        eexists _, _, _. split; [reflexivity|]. split; [split; reflexivity|]. now apply put_has.
      + destruct (c_discard_has eqb hash GK U U_small _ _ k (get_has st ms i H)) as [t [E Ht]]. rewrite E. cbn [bind].
        eexists _, _, _. split; [reflexivity|]. split; [split; reflexivity|]. now apply put_has.
    - destruct m; cbn [set_step i_step c_set_step].
      + destruct (remove_has eqb hash GK U U_small _ _ k (get_has st ms i H)) as [t [E Ht]]. rewrite E. cbn [bind].
        eexists _, _, _. split; [reflexivity|]. split; [split; reflexivity|]. now apply put_has.
      + destruct (c_remove_has eqb hash GK U U_small _ _ k (get_has st ms i H)) as [t [E Ht]]. rewrite E. cbn [bind].
        eexists _, _, _. split; [reflexivity|]. split; [split; reflexivity|]. now apply put_has.
    - destruct m; cbn [set_step i_step c_set_step].
      + destruct (pop_has (remove eqb hash) st ms i H (remove_has eqb hash GK U U_small)) as [r [ms' [E [S H']]]]. rewrite E. cbn [bind].
        destruct (pop_outcome st i r) as [st' out]. exists st', out, ms'. auto.
      + destruct (pop_has (c_remove eqb hash) st ms i H (c_remove_has eqb hash GK U U_small)) as [r [ms' [E [S H']]]]. rewrite E. cbn [bind].
        destruct (pop_outcome st i r) as [st' out]. exists st', out, ms'. auto.
    - destruct m; cbn [set_step i_step c_set_step]; eexists _, _, _; (split; [reflexivity|]); (split; [split; reflexivity|]); apply put_has; try exact H.
      + exact (clear_has eqb hash U _ _ (get_has st ms i H)).
      + exact (c_clear_has eqb hash U _ _ (get_has st ms i H)).
    - pose proof (contains_ok eqb hash GK U _ _ k (get_has st ms i H)) as E.
      exists st, (SBool (s_get ms i k)), ms. split; [destruct m; cbn [set_step i_step c_set_step]; rewrite E; reflexivity|]. split; [split; reflexivity|exact H].
    - pose proof (get_has st ms i H) as Hi.
      exists st, (SInt (count (idx (get st i)))), ms. split; [destruct m; reflexivity|]. split; [|exact H]. split; [|reflexivity].
      exists (elems (get st i)). split; [now apply (has_lists eqb hash GK U)|]. f_equal. apply (count_elems eqb hash), Hi.
    - pose proof (get_has st ms i H) as Hi.
      exists st, (SKeys (elems (get st i))), ms.
      split; [destruct m; cbn [set_step i_step c_set_step]; [rewrite iter_all_ok|rewrite c_iter_all_ok]; reflexivity|].
      split; [|exact H]. split; [|reflexivity]. exists (elems (get st i)). split; [now apply (has_lists eqb hash GK U)|reflexivity].
    - assert (exists r t, (match m with Interpreted => i_operator eqb hash b (get st i) (get st j) | Compiled => c_operator eqb hash b (get st i) (get st j) end) = r /\
                r = Ok t /\ has t (s_op b (s_get ms i) (s_get ms j))) as [r [t [Er [Et Ht]]]].
      { destruct m.
        - destruct (i_operator_has eqb hash GK U U_small b _ _ _ _ (get_has st ms i H) (get_has st ms j H)) as [t [E Ht]]. eauto.
        - destruct (c_operator_has eqb hash GK U U_small b _ _ _ _ (get_has st ms i H) (get_has st ms j H)) as [t [E Ht]]. eauto. }
      destruct (fresh_has st ms r _ t H Et Ht) as [st' [E' H']]. rewrite <- Er in E'.
      eexists st', _, _. split; [destruct m; exact E'|]. split; [split; reflexivity|exact H'].
    - destruct m; cbn [set_step i_step c_set_step]; [now apply i_method_has|now apply c_method_has].
    - destruct m; cbn [set_step i_step c_set_step].
      + now apply (in_place_ok Interpreted).
      + now apply (in_place_ok Compiled).
    - assert (exists r, (match m with
                         | Interpreted => if Nat.eqb i j then Ok (bool_for_ordering c 0) else i_compare eqb hash c (get st i) (get st j)
                         | Compiled => c_compare eqb hash c (get st i) (get st j) end) = Ok r /\ (r = true <-> meaning c (s_get ms i) (s_get ms j)))
        as [r [E Hr]].
      { destruct m.
        - destruct (Nat.eqb_spec i j) as [->|N].
          + exists (bool_for_ordering c 0). split; [reflexivity|]. apply compare_self.
          + apply i_compare_ok; now apply get_has.
        - apply c_compare_ok; now apply get_has. }
      exists st, (SBool r), ms. split; [destruct m; cbn [set_step i_step c_set_step]; rewrite E; reflexivity|]. split; [|exact H].
      split; [|reflexivity]. exists r. auto.
    - assert (exists r, (match m with
                         | Interpreted => match q with
                             | IsSubset => i_is_subset eqb hash (get st i) (resolve st i x)
                             | IsSuperset => i_is_superset eqb hash (get st i) (resolve st i x)
                             | IsDisjoint => i_is_disjoint eqb hash (get st i) (resolve st i x) end
                         | Compiled => match q with
                             | IsSubset => c_is_subset eqb hash (get st i) (resolve st i x)
                             | IsSuperset => c_is_superset eqb hash (get st i) (resolve st i x)
                             | IsDisjoint => c_is_disjoint eqb hash (get st i) (resolve st i x) end
                         end) = Ok r /\ (r = true <-> test_meaning q (s_get ms i) (s_arg eqb ms x))) as [r [E Hr]].
      { destruct m.
        - apply test_i_ok; [now apply get_has|now apply resolve_is|]. destruct q; [exact I|exact I|].
          destruct x as [j sm|l]; [|exact I]. cbn [plain resolve] in *. destruct (Nat.eqb i j); [|exact I]. now destruct sm.
        - apply test_c_ok; [now apply get_has|now apply resolve_is]. }
      exists st, (SBool r), ms. split; [destruct m; cbn [set_step i_step c_set_step]; rewrite E; reflexivity|]. split; [|exact H].
      split; [|reflexivity]. exists r. auto.
    - destruct m; [|destruct c; discriminate]. cbn [set_step i_step].
      assert (Q : compare_builtin eqb c (get st i) r = true <-> meaning c (s_get ms i) (s_of eqb r)).
      { destruct c; try discriminate; cbn [plain] in P; apply distinctb_ok in P.
        - apply compare_builtin_ge; [now apply get_has|exact P].
        - apply compare_builtin_gt; [now apply get_has|exact P]. }
      eexists _, _, _. split; [reflexivity|]. split; [|exact H]. split; [|reflexivity]. eexists. split; [reflexivity|exact Q].
  Qed.

  Lemma set_run_ok l : forall st ms, store_has st ms -> (forall k, In k (mentioned l) -> In k U) ->
    forallb (fun mo => plain eqb (fst mo) (snd mo)) l = true ->
    exists st' outs ms', set_run eqb hash l st = Ok (st', outs) /\ s_run eqb (map snd l) ms outs ms' /\ store_has st' ms'.
  Proof.
    induction l as [|[m o] l IH]; intros st ms H A P; cbn [set_run map snd s_run].
    - exists st, [], ms. auto.
    - cbn [forallb fst snd] in P. apply Bool.andb_true_iff in P. destruct P as [P1 P2].
      assert (A1 : op_known o) by (intros k Hk; apply A; unfold mentioned; cbn [flat_map snd]; apply in_or_app; auto).
      destruct (set_step_ok m o st ms H A1 P1) as [st1 [out [ms1 [-> [S1 H1]]]]]. cbn [bind].
      destruct (IH st1 ms1 H1) as [st2 [outs [ms2 [-> [S2 H2]]]]]; [|exact P2|].
      { intros k Hk. apply A. unfold mentioned. cbn [flat_map snd]. apply in_or_app. auto. }
      cbn [bind]. exists st2, (out :: outs), ms2. split; [reflexivity|]. split; [|exact H2]. exists ms1. auto.
  Qed.

  (** ** The walk of intersection_update while nothing is compressed *)

  Lemma shrink_items (t t1 : set) : will_compress t = false -> shrink t = Ok t1 -> items t1 = items t.
  Proof.
    unfold shrink, will_compress. intros -> E. cbn [bind] in E.
    destruct (if count (idx t) <? size (idx t) / 8 then resize_table (idx t) else Ok (idx t)); cbn [bind] in E; [|discriminate].
    apply Ok_eq in E. now subst t1.
  Qed.

  Lemma discard_items (t : set) s j kv : has t s -> will_compress t = false -> nth_error (items t) j = Some (Some kv) ->
    exists t', discard eqb hash t (fst kv) = Ok t' /\ has t' (s_del eqb s (fst kv)) /\ items t' = replace_nth j None (items t).
  Proof.
    intros H C Hj. destruct (discard_has eqb hash GK U U_small t s (fst kv) H) as [t' [E H']]. exists t'. split; [exact E|]. split; [exact H'|].
    pose proof (h_table _ _ _ _ _ H) as T. unfold discard, remove in E.
    assert (Em : count (idx t) <= max_keys) by (apply (has_small eqb hash GK U U_small t s H)).
    destruct (slots (idx t)) as [|s0 ss] eqn:Es.
    { exfalso. pose proof (null_live eqb hash t T Es) as N. pose proof (in_live _ _ _ Hj) as I. now rewrite N in I. }
    destruct (shrink_ok eqb hash t T Em) as [t1 [E1 [T1 [L1 [R1 N1]]]]]. rewrite E1 in E. cbn [bind] in E.
    pose proof (shrink_items t t1 C E1) as I1. rewrite <- I1 in Hj |- *.
    assert (Hi : index_ok (idx t1) (slot_hash hash (items t1))) by (apply (not_null eqb hash); [exact T1|rewrite N1; congruence]).
    match type of E with context [probe (idx t1) (norm_hash (hash (fst kv))) ?b] => set (body := b) in E end.
    destruct (search_ok eqb hash GK t1 (fst kv) body (fun p j => Some (Z.of_nat p, Z.of_nat j)) None T1 Hi)
      as [[Ha Hp]|[p [j' [kv' [Hp [Hj' [Ek Hr]]]]]]].
    - intros q Hq. unfold body. now rewrite (rd_ok _ _ _ Hq).
    - intros q Hq. unfold body. now rewrite (rd_ok _ _ _ Hq).
    - intros q i kv0 Hq Hi0 Hh. unfold body. rewrite (rd_ok _ _ _ Hq). cbn [bind]. destruct (not_special i) as [-> ->].
      now rewrite (rd_item_ok _ _ _ Hi0).
    - exfalso. pose proof (in_live _ _ _ Hj) as I. unfold absent in Ha. rewrite Forall_forall in Ha. specialize (Ha _ I).
      cbn in Ha. rewrite (key_refl _ _ GK) in Ha. discriminate.
    - rewrite Hr in E. cbn [bind] in E.
      assert (j = j') by (eapply (distinct_items eqb hash GK); [apply (t_distinct _ _ _ T1)|exact Hj|exact Hj'|exact Ek]). subst j'.
      unfold drop_slot in E. rewrite wr_ok in E by (eapply nth_error_lt, Hj). cbn [bind] in E.
      rewrite wr_ok in E by (eapply nth_error_lt, Hp). cbn [bind] in E.
      rewrite wr_ok in E by (rewrite (ok_hashes _ _ Hi); eapply nth_error_lt, Hp). cbn [bind] in E. apply Ok_eq in E. now subst t'.
  Qed.

  Lemma visit_discard_has b p R l (a0 : set) s0 : has b p -> no_repeats eqb l -> (forall x, mem l x = true -> s0 x = true /\ p x = true) ->
    R <= 4 * (Z.of_nat (length l) + 3) ->
    forall n k a s, (n + k = Z.to_nat R)%nat -> has a s -> reserved a = R -> included s s0 ->
    (forall x, s0 x = true -> p x = true -> s x = true) ->
    (forall j kv, (j < k)%nat -> nth_error (items a) j = Some (Some kv) -> p (fst kv) = true) ->
    exists t, visit_discard eqb hash n (Z.of_nat k) a (Some b) = Ok t /\ has t (s_op Intersection s0 p).
  Proof.
    intros Hb Dl Hl HR. induction n as [|n IH]; intros k a s Hk Ha Hres Hs0 Hs Hdone; cbn [visit_discard].
    - exists a. split; [reflexivity|]. apply (has_ext _ _ _ _ _ _ Ha). intros x. cbn. specialize (Hs0 x). specialize (Hs x).
      destruct (s x) eqn:E; [|destruct (s0 x), (p x); auto; now rewrite Hs].
      rewrite (Hs0 eq_refl). cbn. rewrite <- (h_mem _ _ _ _ _ Ha) in E.
      unfold s_of in E. apply existsb_exists in E. destruct E as [y [Hy Ey]]. unfold elems in Hy. apply in_map_iff in Hy.
      destruct Hy as [kv [<- Hin]]. apply live_in in Hin. destruct Hin as [j Hj]. pose proof (nth_error_lt _ _ _ Hj) as Lj.
      rewrite <- (has_respects eqb hash GK U b p Hb _ _ Ey). symmetry. apply (Hdone j kv); [unfold reserved in *; lia|exact Hj].
    - rewrite Hres. destruct (Z.of_nat k <? R) eqn:Ek; [|lia].
      assert (Lk : (k < length (items a))%nat) by (unfold reserved in Hres; lia).
      destruct (nth_error (items a) k) as [it|] eqn:En; [|apply nth_error_None in En; lia].
      rewrite (rd_ok _ _ _ En). cbn [bind].
      replace (Z.of_nat k + 1) with (Z.of_nat (S k)) by lia.
      destruct it as [[key v]|].
      + rewrite (contains_ok eqb hash GK U b p key Hb). cbn [bind]. destruct (p key) eqn:Pk.
        * apply (IH (S k) a s); auto; [lia|]. intros j kv Lj Hj. destruct (Nat.eq_dec j k) as [->|Nj]; [|apply (Hdone j kv); [lia|exact Hj]].
          rewrite En in Hj. injection Hj as <-. exact Pk.
        * assert (Sk : s key = true).
          { rewrite <- (h_mem _ _ _ _ _ Ha). apply (mem_in eqb hash GK). unfold elems. apply in_map_iff. exists (key, v).
            split; [reflexivity|]. eapply in_live, En. }
          assert (C : will_compress a = false).
          { unfold will_compress. rewrite Hres. assert (Z.of_nat (length l) + 1 <= count (idx a)); [|lia].
            rewrite (count_elems eqb hash a (h_table _ _ _ _ _ Ha)).
            assert (length (key :: l) <= length (elems a))%nat; [|cbn [length] in *; lia].
            apply (no_repeats_le eqb hash GK).
            - split; [|exact Dl]. destruct (mem l key) eqn:F; [|reflexivity]. apply Hl in F. destruct F. congruence.
            - intros x. rewrite (h_mem _ _ _ _ _ Ha), mem_cons. destruct (eqb key x) eqn:F; cbn [orb].
              + intros _. now rewrite <- (has_respects eqb hash GK U a s Ha _ _ F).
              + intros M. apply Hl in M. now apply Hs. }
          rewrite C. destruct (discard_items a s k (key, v) Ha C En) as [a1 [E1 [H1 I1]]]. cbn [fst] in *. rewrite E1. cbn [bind].
          apply (IH (S k) a1 (s_del eqb s key)); auto.
          -- lia.
          -- unfold reserved in *. now rewrite I1, replace_nth_length.
          -- intros x Hx. apply Hs0. unfold s_del in Hx. now destruct (s x).
          -- intros x X1 X2. unfold s_del. rewrite (Hs x X1 X2). destruct (eqb key x) eqn:F; [|reflexivity].
             rewrite (has_respects eqb hash GK U b p Hb _ _ F) in Pk. congruence.
          -- intros j kv Lj Hj. rewrite I1, nth_error_replace in Hj by exact Lk. destruct (Nat.eqb_spec k j); [discriminate|].
             apply (Hdone j kv); [lia|exact Hj].
      + apply (IH (S k) a s); auto; [lia|]. intros j kv Lj Hj. destruct (Nat.eq_dec j k) as [->|Nj]; [|apply (Hdone j kv); [lia|exact Hj]].
        rewrite En in Hj. discriminate.
  Qed.

  Lemma i_intersection_update_walk a b s p l : has a s -> has b p -> lists eqb l (s_op Intersection s p) ->
    reserved a <= 4 * (Z.of_nat (length l) + 3) ->
    exists t, i_intersection_update eqb hash a (ArgSet b) = Ok (t, None) /\ has t (s_op Intersection s p).
  Proof.
    intros Ha Hb [Dl Hl] HR. unfold i_intersection_update.
    destruct (visit_discard_has b p (reserved a) l a s Hb Dl) with (n := length (items a)) (k := 0%nat) (a := a) (s := s) as [t [E Ht]]; auto.
    - intros x Hx. rewrite Hl in Hx. cbn in Hx. now apply Bool.andb_true_iff in Hx.
    - unfold reserved. lia.
    - intros x; auto.
    - intros j kv L. lia.
    - change (Z.of_nat 0) with 0 in E. rewrite E. cbn [bind]. exists t. auto.
  Qed.

  Lemma builtin_walk l r : forall b, builtin_subset_walk eqb b l r = true <->
    (exists x, In x l /\ builtin_contains eqb r x = true) \/ (l = [] /\ b = true).
  Proof.
    induction l as [|k l IH]; intros b; cbn [builtin_subset_walk].
    - split; [intros ->; auto|]. intros [[x [[] _]]|[_ H]]. exact H.
    - destruct (builtin_contains eqb r k) eqn:E.
      + split; [|reflexivity]. intros _. left. exists k. split; [now left|exact E].
      + rewrite IH. split.
        * intros [[x [H Ex]]|[_ H]]; [|discriminate]. left. exists x. split; [now right|exact Ex].
        * intros [[x [[->|H] Ex]]|[H _]]; [congruence| |discriminate]. left. now exists x.
  Qed.

  Lemma builtin_eq_meaning a s r : has a s -> compare_builtin eqb CEq a r = true <->
    count (idx a) = Z.of_nat (length r) /\ (r = [] \/ exists x, s x = true /\ mem r x = true).
  Proof.
    intros Ha. cbn [compare_builtin]. pose proof (count_elems eqb hash a (h_table _ _ _ _ _ Ha)) as Ce.
    destruct (count (idx a) =? Z.of_nat (length r)) eqn:E; cbn [negb bool_for_ordering]; [|split; [discriminate|lia]].
    unfold builtin_subset. pose proof (builtin_walk (elems a) r true) as B.
    assert (Q : builtin_subset_walk eqb true (elems a) r = true <-> r = [] \/ exists x, s x = true /\ mem r x = true).
    { rewrite B. split.
      - intros [[x [H Ex]]|[H _]].
        + right. exists x. rewrite <- (h_mem _ _ _ _ _ Ha), <- (builtin_contains_mem r). split; [now apply (mem_in eqb hash GK)|exact Ex].
        + left. rewrite H in Ce. destruct r; [reflexivity|cbn in Ce; cbn [length] in E; lia].
      - intros [->|[x [Hx Rx]]].
        + right. split; [|reflexivity]. destruct (elems a); [reflexivity|cbn [length] in *; lia].
        + left. rewrite <- (h_mem _ _ _ _ _ Ha) in Hx. unfold s_of in Hx. apply existsb_exists in Hx. destruct Hx as [y [Hy Ey]].
          exists y. split; [exact Hy|]. rewrite builtin_contains_mem. now rewrite (mem_respects eqb hash GK r y x Ey). }
    destruct (builtin_subset_walk eqb true (elems a) r); cbn.
    - split; [|reflexivity]. intros _. split; [lia|now apply Q].
    - split; [discriminate|]. intros [_ H]. now apply Q in H.
  Qed.
End SetRun.
