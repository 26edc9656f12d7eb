(** Proofs about the ConstDict model. *)
From Verif Require Import Base Sort_Spec Hash_Spec HashAcc_Model ConstDict_Model ConstDict_Spec.
Require Import ZifyBool ZifyNat.
Open Scope nat_scope.
Open Scope result_scope.

Lemma Some_inv {A} (x y : A) : Some x = Some y -> x = y.
Proof. congruence. Qed.

Section Proofs.
  Context {K V : Type}.
  Variable lt eqb : K -> K -> bool.
  Hypothesis TO : total_order lt eqb.
  Variable std_sort : (nat -> nat -> bool) -> list nat -> list nat.
  Hypothesis SORT : std_sort_contract std_sort.

  Notation dict := (list (K * V)).
  Notation lookup := (m_lookup (V:=V) eqb).

  Lemma lt_irrefl x : lt x x = false. Proof. apply TO. Qed.
  Lemma lt_trans x y z : lt x y = true -> lt y z = true -> lt x z = true.
  Proof. destruct TO as [[? ? ?] ?]. eauto. Qed.
  Lemma lt_asym x y : lt x y = true -> lt y x = false.
  Proof.
    intros H. destruct (lt y x) eqn:E; auto. pose proof (lt_trans _ _ _ H E). rewrite lt_irrefl in *. congruence.
  Qed.
  Lemma eqb_spec x y : eqb x y = negb (lt x y) && negb (lt y x).
  Proof. apply TO. Qed.
  Lemma eqb_refl x : eqb x x = true. Proof. now rewrite eqb_spec, lt_irrefl. Qed.
  Lemma eqb_sym x y : eqb x y = eqb y x. Proof. rewrite !eqb_spec. apply andb_comm. Qed.
  Lemma lt_not_eqb x y : lt x y = true -> eqb x y = false.
  Proof. intros H. now rewrite eqb_spec, H. Qed.
  Lemma eqb_lt_l x y z : eqb x y = true -> lt x z = lt y z.
  Proof.
    rewrite eqb_spec. intros H. destruct TO as [[_ _ I] _].
    destruct (lt x z) eqn:E1, (lt y z) eqn:E2; auto; exfalso.
    - assert (lt x z = false); [|congruence]. apply I with y; [destruct (lt x y); auto; discriminate|auto].
    - assert (lt y z = false); [|congruence]. apply I with x; [destruct (lt y x); auto; now rewrite andb_false_r in H|auto].
  Qed.
  Lemma eqb_lt_r x y z : eqb x y = true -> lt z x = lt z y.
  Proof.
    rewrite eqb_spec. intros H. destruct TO as [[_ _ I] _].
    destruct (lt z x) eqn:E1, (lt z y) eqn:E2; auto; exfalso.
    - assert (lt z x = false); [|congruence]. apply I with y; [auto|destruct (lt y x); auto; now rewrite andb_false_r in H].
    - assert (lt z y = false); [|congruence]. apply I with x; [auto|destruct (lt x y); auto; discriminate].
  Qed.
  Lemma eqb_trans x y z : eqb x y = true -> eqb y z = true -> eqb x z = true.
  Proof.
    intros H1 H2. rewrite eqb_spec. rewrite (eqb_lt_l _ _ z H1), (eqb_lt_r _ _ z H1). now rewrite <- eqb_spec.
  Qed.
  Lemma eqb_eqb_l x y z : eqb x y = true -> eqb x z = eqb y z.
  Proof. intros H. rewrite !eqb_spec. now rewrite (eqb_lt_l _ _ z H), (eqb_lt_r _ _ z H). Qed.
  Lemma compare_cases x y :
    (lt x y = true /\ eqb x y = false /\ lt y x = false) \/ (lt x y = false /\ eqb x y = true /\ lt y x = false)
    \/ (lt x y = false /\ eqb x y = false /\ lt y x = true).
  Proof.
    rewrite eqb_spec. destruct (lt x y) eqn:E1, (lt y x) eqn:E2; cbn; auto.
    rewrite (lt_asym _ _ E1) in E2. discriminate.
  Qed.

  (** ** Ascending lists *)
  Fixpoint asc (d : dict) : Prop :=
    match d with
    | [] => True
    | (k, _) :: d => Forall (fun kv => lt k (fst kv) = true) d /\ asc d
    end.

  Lemma asc_ascending d : asc d <-> ascending_keys lt d.
  Proof.
    induction d as [|[k v] d IH]; cbn [asc].
    - split; [|auto]. intros _ i j k1 v1 k2 v2 _ H. destruct i; discriminate.
    - rewrite IH, Forall_forall. unfold ascending_keys. split.
      + intros [A B] [|i] [|j] k1 v1 k2 v2 Hij Hi Hj; cbn in Hi, Hj; try lia.
        * injection Hi as <- <-. apply nth_error_In in Hj. apply (A _ Hj).
        * eapply B with (i := i) (j := j); eauto; lia.
      + intros H. split.
        * intros [k2 v2] Hx. apply In_nth_error in Hx. destruct Hx as [j Hj].
          apply (H 0 (S j) k v k2 v2); [lia|reflexivity|exact Hj].
        * intros i j k1 v1 k2 v2 Hij Hi Hj. apply (H (S i) (S j) k1 v1 k2 v2); [lia|exact Hi|exact Hj].
  Qed.

  Lemma asc_nth d i j k1 v1 k2 v2 : asc d -> i < j -> nth_error d i = Some (k1, v1) -> nth_error d j = Some (k2, v2) ->
    lt k1 k2 = true.
  Proof. intros A. apply asc_ascending in A. apply A. Qed.

  Lemma asc_distinct d : asc d -> distinct_keys eqb d.
  Proof.
    induction d as [|[k v] d IH]; cbn [asc distinct_keys]; auto. intros [A B]. split; auto.
    eapply Forall_impl; [|exact A]. cbn beta. intros a. apply lt_not_eqb.
  Qed.

  Lemma asc_filter f d : asc d -> asc (filter f d).
  Proof.
    induction d as [|[k v] d IH]; cbn [asc filter]; auto. intros [A B]. destruct (f (k, v)); auto. cbn [asc]. split; auto.
    rewrite Forall_forall in *. intros x Hx. apply filter_In in Hx. now apply A.
  Qed.

  Lemma asc_unique d1 d2 : Permutation d1 d2 -> asc d1 -> asc d2 -> d1 = d2.
  Proof.
    revert d2. induction d1 as [|[k1 v1] d1 IH]; intros [|[k2 v2] d2] P A1 A2; auto.
    - now apply Permutation_nil in P.
    - symmetry in P. now apply Permutation_nil in P.
    - cbn [asc] in A1, A2. destruct A1 as [F1 A1], A2 as [F2 A2].
      rewrite Forall_forall in F1, F2.
      assert (In (k1, v1) ((k2, v2) :: d2)) as I1 by (eapply Permutation_in; [exact P|now left]).
      assert (In (k2, v2) ((k1, v1) :: d1)) as I2 by (eapply Permutation_in; [symmetry; exact P|now left]).
      assert ((k1, v1) = (k2, v2)) as E.
      { destruct I1 as [|I1]; [congruence|]. destruct I2 as [|I2]; [congruence|].
        apply F2 in I1. apply F1 in I2. cbn [fst] in *. apply lt_asym in I1. congruence. }
      rewrite E in *. f_equal. apply IH; auto. eapply Permutation_cons_inv; exact P.
  Qed.

  (** ** Lookup in an association list *)
  Definition absent (k : K) (d : dict) : Prop := Forall (fun kv => eqb k (fst kv) = false) d.

  Lemma absent_lookup k d : absent k d <-> lookup d k = None.
  Proof.
    unfold absent. induction d as [|[k' v] d IH]; cbn [m_lookup]; [split; auto|].
    rewrite Forall_cons_iff, IH. cbn [fst]. destruct (eqb k k'); intuition congruence.
  Qed.

  Lemma lookup_in d k k' v : distinct_keys eqb d -> In (k', v) d -> eqb k k' = true -> lookup d k = Some v.
  Proof.
    induction d as [|[k1 v1] d IH]; cbn [distinct_keys m_lookup In]; [tauto|]. intros [A B] [E|I] H.
    - injection E as -> ->. now rewrite H.
    - rewrite Forall_forall in A. specialize (A _ I). cbn [fst] in A.
      destruct (eqb k k1) eqn:E; [|now apply IH].
      rewrite eqb_sym in E. rewrite (eqb_trans _ _ _ E H) in A. discriminate.
  Qed.

  Lemma lookup_some d k v : lookup d k = Some v -> exists k', In (k', v) d /\ eqb k k' = true.
  Proof.
    induction d as [|[k1 v1] d IH]; cbn [m_lookup]; [discriminate|]. destruct (eqb k k1) eqn:E.
    - intros [= ->]. exists k1. split; [now left|auto].
    - intros H. destruct (IH H) as [k' [I E']]. exists k'. split; [now right|auto].
  Qed.

  Lemma lookup_perm (d1 d2 : dict) k : Permutation d1 d2 -> distinct_keys eqb d1 -> lookup d2 k = lookup d1 k.
  Proof.
    intros P D. destruct (lookup d2 k) as [v|] eqn:E.
    - apply lookup_some in E. destruct E as [k' [I E]]. symmetry. eapply lookup_in; eauto.
      eapply Permutation_in; [symmetry; exact P|exact I].
    - symmetry. apply absent_lookup. apply absent_lookup in E. unfold absent in *. rewrite Forall_forall in *.
      intros x Hx. apply E. eapply Permutation_in; eauto.
  Qed.

  Lemma distinct_perm (d1 d2 : dict) : Permutation d1 d2 -> distinct_keys eqb d1 -> distinct_keys eqb d2.
  Proof.
    intros P. induction P as [|[k v] l l' P IH|[k1 v1] [k2 v2] l|]; cbn [distinct_keys]; auto.
    - intros [A B]. split; auto. rewrite Forall_forall in *. intros x Hx. apply A.
      eapply Permutation_in; [symmetry; exact P|exact Hx].
    - rewrite !Forall_cons_iff. cbn [fst]. rewrite (eqb_sym k2 k1). tauto.
  Qed.

  Lemma lookup_respects d k1 k2 : eqb k1 k2 = true -> lookup d k1 = lookup d k2.
  Proof.
    intros E. induction d as [|[k v] d IH]; cbn [m_lookup]; auto. now rewrite (eqb_eqb_l _ _ k E), IH.
  Qed.

  Lemma lookup_app d1 d2 k : lookup (d1 ++ d2) k = match lookup d1 k with Some v => Some v | None => lookup d2 k end.
  Proof. induction d1 as [|[k' v] d1 IH]; cbn [app m_lookup]; auto. now destruct (eqb k k'). Qed.

  (** ** Sorting *)
  Lemma key_order (f : nat -> K) : strict_weak_order (fun l r => lt (f l) (f r)).
  Proof. destruct TO as [[I T N] _]. constructor; eauto. Qed.

  Lemma map_nth_seq {A} (l : list A) d : map (fun i => nth i l d) (seq 0 (length l)) = l.
  Proof.
    apply nth_ext with d d; rewrite map_length, seq_length; auto. intros n H.
    rewrite nth_indep with (d' := (fun i => nth i l d) 0) by (now rewrite map_length, seq_length).
    rewrite (map_nth (fun i => nth i l d) (seq 0 (length l)) 0 n), seq_nth; auto.
  Qed.

  Lemma sort_perm (d : dict) : Permutation (sortKvPairs lt std_sort d) d.
  Proof.
    destruct d as [|a [|b [|c d]]]; cbn [sortKvPairs]; auto.
    - destruct (lt (fst b) (fst a)); auto. apply perm_swap.
    - set (l := a :: b :: c :: d). destruct (SORT (fun i j => lt (fst (nth i l a)) (fst (nth j l a))) (seq 0 (length l)) (key_order _)) as [P _].
      transitivity (map (fun i => nth i l a) (seq 0 (length l))); [now apply Permutation_map|]. now rewrite map_nth_seq.
  Qed.

  Lemma sort_order (d : dict) i j k1 v1 k2 v2 : i < j -> nth_error (sortKvPairs lt std_sort d) i = Some (k1, v1) ->
    nth_error (sortKvPairs lt std_sort d) j = Some (k2, v2) -> lt k2 k1 = false.
  Proof.
    intros Hij. destruct d as [|a [|b [|c d]]]; cbn [sortKvPairs].
    - destruct i; discriminate.
    - destruct i as [|[|i]], j as [|[|j]]; cbn; try discriminate; lia.
    - destruct (lt (fst b) (fst a)) eqn:E.
      + destruct i as [|[|[|i]]], j as [|[|[|j]]]; cbn; try discriminate; try lia. intros [= ->] [= ->].
        cbn [fst] in E. now apply lt_asym.
      + destruct i as [|[|[|i]]], j as [|[|[|j]]]; cbn; try discriminate; try lia. intros [= ->] [= ->]. exact E.
    - set (l := a :: b :: c :: d). destruct (SORT (fun i j => lt (fst (nth i l a)) (fst (nth j l a))) (seq 0 (length l)) (key_order _)) as [_ N].
      set (ix := std_sort _ _) in *. rewrite !nth_error_map.
      destruct (nth_error ix i) as [x|] eqn:Ei; [|discriminate]. destruct (nth_error ix j) as [y|] eqn:Ej; [|discriminate].
      cbn [option_map]. intros H1 H2. apply Some_inv in H1. apply Some_inv in H2.
      specialize (N i j x y Hij Ei Ej). cbn beta in N. now rewrite H1, H2 in N.
  Qed.

  Lemma sort_asc (d : dict) : distinct_keys eqb d -> asc (sortKvPairs lt std_sort d).
  Proof.
    intros D. assert (distinct_keys eqb (sortKvPairs lt std_sort d)) as D' by (eapply distinct_perm; [symmetry; apply sort_perm|exact D]).
    pose proof (sort_order d) as O. revert D' O. generalize (sortKvPairs lt std_sort d) as s.
    induction s as [|[k v] s IH]; cbn [asc distinct_keys]; auto. intros [A B] O. split.
    - rewrite Forall_forall in *. intros [k2 v2] Hx. specialize (A _ Hx). cbn [fst] in *.
      apply In_nth_error in Hx. destruct Hx as [j Hj].
      specialize (O 0 (S j) k v k2 v2 ltac:(lia) eq_refl Hj).
      destruct (compare_cases k k2) as [[? _]|[[_ [? _]]|[_ [_ ?]]]]; congruence.
    - apply IH; auto. intros i j k1 v1 k2 v2 Hij Hi Hj. apply (O (S i) (S j) k1 v1 k2 v2); [lia|exact Hi|exact Hj].
  Qed.

  Lemma sort_lookup (d : dict) k : distinct_keys eqb d -> lookup (sortKvPairs lt std_sort d) k = lookup d k.
  Proof. intros D. apply lookup_perm; auto. symmetry. apply sort_perm. Qed.

  (** ** Binary search *)
  Definition found (d : dict) (k : K) (r : option nat) : Prop :=
    match r with
    | Some i => exists k' v, nth_error d i = Some (k', v) /\ eqb k k' = true
    | None => absent k d
    end.

  Lemma pair_at_ok (d : dict) i : i < length d -> exists k v, nth_error d i = Some (k, v) /\ pair_at d i = Ok (k, v).
  Proof.
    intros H. unfold pair_at. destruct (nth_error d i) as [[k v]|] eqn:E; [eauto|]. apply nth_error_None in E. lia.
  Qed.

  Lemma absent_by_split d k n : n <= length d ->
    (forall i k' v, i < n -> nth_error d i = Some (k', v) -> lt k' k = true) ->
    (forall i k' v, n <= i -> nth_error d i = Some (k', v) -> lt k k' = true) -> absent k d.
  Proof.
    intros Hn L H. apply Forall_forall. intros [k' v] Hx. cbn [fst]. apply In_nth_error in Hx. destruct Hx as [i Hi].
    destruct (Nat.lt_ge_cases i n) as [Hin|Hin].
    - rewrite eqb_sym. apply lt_not_eqb. eauto.
    - apply lt_not_eqb. eauto.
  Qed.

  Lemma mid_between low high : low < high -> low <= (low + high) / 2 < high.
  Proof. intros H. split; [apply Nat.div_le_lower_bound; lia|apply Nat.div_lt_upper_bound; lia]. Qed.

  Lemma lookup_loop_ok d k : asc d -> forall fuel low high,
    high <= length d -> low <= high -> high - low <= fuel ->
    (forall i k' v, i < low -> nth_error d i = Some (k', v) -> lt k' k = true) ->
    (forall i k' v, high <= i -> nth_error d i = Some (k', v) -> lt k k' = true) ->
    exists r, lookup_loop lt eqb fuel d k low high = Ok r /\ found d k r.
  Proof.
    intros A. induction fuel as [|fuel IH]; intros low high Hh Hlh Hf L H; cbn [lookup_loop].
    - replace (high <=? low) with true by lia. exists None. split; auto. cbn [found].
      apply absent_by_split with low; [lia|exact L|]. intros i k' v Hi. apply H. lia.
    - destruct (Nat.leb_spec high low) as [C|C].
      + exists None. split; auto. cbn [found]. apply absent_by_split with low; [lia|exact L|]. intros i k' v Hi. apply H. lia.
      + destruct (mid_between low high C) as [M1 M2]. set (mid := (low + high) / 2) in *.
        destruct (pair_at_ok d mid ltac:(lia)) as [k' [v [E P]]]. rewrite P. cbn [bind].
        destruct (compare_cases k' k) as [[X [Y _]]|[[_ [Y _]]|[X [Y Z]]]]; rewrite Y; [| |].
        * rewrite X. apply IH; try lia; auto. intros i k2 v2 Hi Hn.
          destruct (Nat.eq_dec i mid) as [->|Ne]; [congruence|]. apply lt_trans with k'; [|exact X].
          apply asc_nth with (d := d) (i := i) (j := mid) (v1 := v2) (v2 := v); auto. lia.
        * exists (Some mid). split; auto. cbn [found]. exists k', v. split; auto. now rewrite eqb_sym.
        * rewrite X. apply IH; try lia; auto. intros i k2 v2 Hi Hn.
          destruct (Nat.eq_dec i mid) as [->|Ne]; [congruence|]. apply lt_trans with k'; [exact Z|].
          apply asc_nth with (d := d) (i := mid) (j := i) (v1 := v) (v2 := v2); auto. lia.
  Qed.

  Lemma index_loop_ok d k : asc d -> forall fuel low high,
    high <= length d -> low <= high -> high - low <= fuel ->
    (forall i k' v, i < low -> nth_error d i = Some (k', v) -> lt k' k = true) ->
    (forall i k' v, high <= i -> nth_error d i = Some (k', v) -> lt k k' = true) ->
    exists r, index_loop lt fuel d k low high = Ok r /\ found d k r.
  Proof.
    intros A. induction fuel as [|fuel IH]; intros low high Hh Hlh Hf L H; cbn [index_loop].
    - replace (high <=? low) with true by lia. exists None. split; auto. cbn [found].
      apply absent_by_split with low; [lia|exact L|]. intros i k' v Hi. apply H. lia.
    - destruct (Nat.leb_spec high low) as [C|C].
      + exists None. split; auto. cbn [found]. apply absent_by_split with low; [lia|exact L|]. intros i k' v Hi. apply H. lia.
      + destruct (mid_between low high C) as [M1 M2]. set (mid := (low + high) / 2) in *.
        destruct (pair_at_ok d mid ltac:(lia)) as [k' [v [E P]]]. rewrite P. cbn [bind].
        destruct (compare_cases k' k) as [[X [Y _]]|[[X [Y Z]]|[X [Y Z]]]]; rewrite X; [| |].
        * apply IH; try lia; auto. intros i k2 v2 Hi Hn.
          destruct (Nat.eq_dec i mid) as [->|Ne]; [congruence|]. apply lt_trans with k'; [|exact X].
          apply asc_nth with (d := d) (i := i) (j := mid) (v1 := v2) (v2 := v); auto. lia.
        * rewrite Z. exists (Some mid). split; auto. cbn [found]. exists k', v. split; auto. now rewrite eqb_sym.
        * rewrite Z. apply IH; try lia; auto. intros i k2 v2 Hi Hn.
          destruct (Nat.eq_dec i mid) as [->|Ne]; [congruence|]. apply lt_trans with k'; [exact Z|].
          apply asc_nth with (d := d) (i := mid) (j := i) (v1 := v) (v2 := v2); auto. lia.
  Qed.

  Lemma index_of_ok s d k : asc d -> exists r, index_of lt eqb s d k = Ok r /\ found d k r.
  Proof.
    intros A. destruct s; cbn [index_of];
      [apply (lookup_loop_ok d k A)|apply (index_loop_ok d k A)]; try lia;
      intros i k' v Hi Hn; assert (i < length d) by (apply nth_error_Some; congruence); lia.
  Qed.

  Lemma found_lookup d k i : asc d -> found d k (Some i) -> exists k' v, nth_error d i = Some (k', v) /\ eqb k k' = true /\ lookup d k = Some v.
  Proof.
    intros A [k' [v [E H]]]. exists k', v. repeat (split; auto). eapply lookup_in; [now apply asc_distinct| |exact H].
    eapply nth_error_In; exact E.
  Qed.

  Lemma get_ok s d k : asc d -> get lt eqb s d k = Ok (lookup d k).
  Proof.
    intros A. unfold get. destruct (index_of_ok s d k A) as [r [E F]]. rewrite E. cbn [bind]. destruct r as [i|].
    - destruct (found_lookup d k i A F) as [k' [v [N [_ L]]]]. unfold pair_at. rewrite N. cbn [bind]. now rewrite L.
    - cbn [found] in F. apply absent_lookup in F. now rewrite F.
  Qed.

  Definition is_some {A} (o : option A) : bool := match o with Some _ => true | None => false end.

  Lemma contains_ok s d k : asc d -> contains lt eqb s d k = Ok (is_some (lookup d k)).
  Proof.
    intros A. unfold contains. destruct (index_of_ok s d k A) as [r [E F]]. rewrite E. cbn [bind]. destruct r as [i|].
    - destruct (found_lookup d k i A F) as [k' [v [N [_ L]]]]. now rewrite L.
    - cbn [found] in F. apply absent_lookup in F. now rewrite F.
  Qed.

  (** ** [addDicts] *)
  Definition kept (lhs rhs : dict) : dict := filter (fun kv => negb (is_some (lookup rhs (fst kv)))) lhs.

  Lemma keep_loop_ok lhs rhs : asc rhs -> keep_loop lt eqb lhs rhs = Ok (kept lhs rhs).
  Proof.
    intros A. induction lhs as [|[k v] lhs IH]; cbn [keep_loop]; auto.
    destruct (index_of_ok Interpreter rhs k A) as [r [E F]]. cbn [index_of] in E. rewrite E. cbn [bind]. rewrite IH. cbn [bind].
    unfold kept. cbn [filter fst]. destruct r as [i|].
    - destruct (found_lookup rhs k i A F) as [k' [v' [_ [_ L]]]]. now rewrite L.
    - cbn [found] in F. apply absent_lookup in F. now rewrite F.
  Qed.

  Lemma distinct_app (a b : dict) : distinct_keys eqb a -> distinct_keys eqb b ->
    (forall kv, In kv a -> absent (fst kv) b) -> distinct_keys eqb (a ++ b).
  Proof.
    induction a as [|[k v] a IH]; cbn [app distinct_keys]; auto. intros [A1 A2] B C. split.
    - apply Forall_app. split; auto. exact (C (k, v) (or_introl eq_refl)).
    - apply IH; auto. intros kv H. apply C. now right.
  Qed.

  Lemma merged_distinct lhs rhs : asc lhs -> asc rhs -> distinct_keys eqb (rhs ++ kept lhs rhs).
  Proof.
    intros L R. apply distinct_app; [now apply asc_distinct| |].
    - apply asc_distinct. now apply asc_filter.
    - intros [k v] H. cbn [fst]. apply Forall_forall. intros [k' v'] H'. unfold kept in H'. apply filter_In in H'. destruct H' as [_ H'].
      cbn [fst] in *. destruct (eqb k k') eqn:E; auto. rewrite eqb_sym in E.
      rewrite (lookup_in rhs k' k v (asc_distinct _ R) H E) in H'. discriminate.
  Qed.

  Lemma lookup_kept lhs rhs k : lookup rhs k = None -> lookup (kept lhs rhs) k = lookup lhs k.
  Proof.
    intros N. induction lhs as [|[k' v] lhs IH]; auto. unfold kept in *. cbn [filter fst m_lookup].
    destruct (eqb k k') eqn:E.
    - rewrite <- (lookup_respects rhs _ _ E), N. cbn [is_some negb m_lookup]. now rewrite E.
    - destruct (negb (is_some (lookup rhs k'))); auto. cbn [m_lookup]. now rewrite E.
  Qed.

  Lemma addDicts_ok lhs rhs : asc lhs -> asc rhs ->
    exists d, addDicts lt eqb std_sort lhs rhs = Ok d /\ asc d /\ Permutation d (rhs ++ kept lhs rhs) /\
      forall k, lookup d k = match lookup rhs k with Some v => Some v | None => lookup lhs k end.
  Proof.
    intros L R. unfold addDicts. rewrite keep_loop_ok by exact R. cbn [bind].
    exists (sortKvPairs lt std_sort (rhs ++ kept lhs rhs)). split; auto. split; [apply sort_asc; now apply merged_distinct|].
    split; [apply sort_perm|]. intros k. rewrite sort_lookup by now apply merged_distinct. rewrite lookup_app.
    destruct (lookup rhs k) eqn:E; auto. now apply lookup_kept.
  Qed.

  (** ** [const_dict_add] *)
  Lemma pair_at_middle (d1 : dict) x d2 : pair_at (d1 ++ x :: d2) (length d1) = Ok x.
  Proof. unfold pair_at. rewrite nth_error_app2 by lia. now rewrite Nat.sub_diag. Qed.

  Definition above (k : K) (d : dict) : Prop := Forall (fun kv => lt k (fst kv) = true) d.

  Lemma above_absent k d : above k d -> lookup d k = None.
  Proof.
    intros H. apply absent_lookup. eapply Forall_impl; [|exact H]. cbn beta. intros a. apply lt_not_eqb.
  Qed.
  Lemma above_trans k1 k2 d : lt k1 k2 = true -> above k2 d -> above k1 d.
  Proof. intros L H. eapply Forall_impl; [|exact H]. cbn beta. intros a. now apply lt_trans. Qed.

  Lemma kept_below k v lhs rhs : above k rhs -> kept ((k, v) :: lhs) rhs = (k, v) :: kept lhs rhs.
  Proof. intros H. unfold kept. cbn [filter fst]. now rewrite (above_absent _ _ H). Qed.
  Lemma kept_skip k v lhs rhs : above k lhs -> kept lhs ((k, v) :: rhs) = kept lhs rhs.
  Proof.
    intros H. unfold kept. apply filter_ext_in. intros [k' v'] I. cbn [fst m_lookup].
    unfold above in H. rewrite Forall_forall in H. specialize (H _ I). cbn [fst] in H.
    now rewrite eqb_sym, (lt_not_eqb _ _ H).
  Qed.
  Lemma kept_equal k1 v1 k2 v2 lhs rhs : eqb k1 k2 = true -> above k1 lhs ->
    kept ((k1, v1) :: lhs) ((k2, v2) :: rhs) = kept lhs rhs.
  Proof.
    intros E H. unfold kept at 1. cbn [filter fst m_lookup]. rewrite E. cbn [is_some negb]. apply (kept_skip k2 v2).
    eapply Forall_impl; [|exact H]. cbn beta. intros a. now rewrite (eqb_lt_l _ _ (fst a) E).
  Qed.
  Lemma kept_none lhs : kept lhs [] = lhs.
  Proof. unfold kept. cbn [m_lookup is_some negb]. induction lhs as [|kv lhs IH]; cbn [filter]; congruence. Qed.

  Lemma snoc_app (d : dict) x d2 : d ++ x :: d2 = (d ++ [x]) ++ d2.
  Proof. now rewrite <- app_assoc. Qed.
  Lemma length_snoc (d : dict) x : length (d ++ [x]) = S (length d).
  Proof. rewrite app_length. cbn [length]. lia. Qed.

  Lemma count_kept_ok : forall fuel l1 l2 r1 r2 n, asc l2 -> asc r2 -> length l2 + length r2 <= fuel ->
    count_kept lt fuel (l1 ++ l2) (r1 ++ r2) (length l1) (length r1) n = Ok (n + length (kept l2 r2)).
  Proof.
    induction fuel as [|fuel IH]; intros l1 l2 r1 r2 n L R Hf.
    - destruct l2; [|cbn [length] in Hf; lia]. cbn [count_kept]. rewrite app_nil_r, Nat.leb_refl. cbn [kept filter length]. f_equal. lia.
    - cbn [count_kept]. destruct l2 as [|[k1 v1] l2].
      + rewrite app_nil_r, Nat.leb_refl. cbn [kept filter length]. f_equal. lia.
      + replace (length (l1 ++ (k1, v1) :: l2) <=? length l1) with false by (rewrite app_length; cbn [length]; lia).
        destruct r2 as [|[k2 v2] r2].
        * rewrite app_nil_r at 1. rewrite Nat.ltb_irrefl. rewrite (snoc_app l1 (k1, v1) l2), <- (length_snoc l1 (k1, v1)).
          rewrite IH; [|apply L|exact R|cbn [length] in *; lia]. rewrite !kept_none. cbn [length]. f_equal. lia.
        * replace (length r1 <? length (r1 ++ (k2, v2) :: r2)) with true by (rewrite app_length; cbn [length]; lia).
          rewrite !pair_at_middle. cbn [bind]. cbn [length] in Hf. cbn [asc] in L, R. destruct L as [L1 L2], R as [R1 R2].
          destruct (compare_cases k1 k2) as [[X [Y Z]]|[[X [Y Z]]|[X [Y Z]]]]; rewrite X.
          -- rewrite (snoc_app l1 (k1, v1) l2), <- (length_snoc l1 (k1, v1)). rewrite IH; auto; [|cbn [asc]; auto|cbn [length]; lia].
             rewrite kept_below by (constructor; [exact X|now apply (above_trans _ k2)]). cbn [length]. f_equal. lia.
          -- rewrite Z. rewrite (snoc_app l1 (k1, v1) l2), <- (length_snoc l1 (k1, v1)), (snoc_app r1 (k2, v2) r2), <- (length_snoc r1 (k2, v2)).
             rewrite IH; auto; [|lia]. now rewrite kept_equal.
          -- rewrite Z. rewrite (snoc_app r1 (k2, v2) r2), <- (length_snoc r1 (k2, v2)). rewrite IH; auto; [|cbn [asc]; auto|cbn [length]; lia].
             rewrite kept_skip; auto. constructor; [exact Z|now apply (above_trans _ k1)].
  Qed.

  Lemma write_ok space (out : dict) kv : length out < space -> write space out kv = Ok (out ++ [kv]).
  Proof. intros H. unfold write. now replace (length out <? space) with true by lia. Qed.

  Lemma perm_above k m l : Permutation m l -> above k l -> above k m.
  Proof.
    unfold above. rewrite !Forall_forall. intros P H x Hx. apply H. eapply Permutation_in; [exact P|exact Hx].
  Qed.
  Lemma above_kept k l r : above k l -> above k (kept l r).
  Proof. unfold above, kept. rewrite !Forall_forall. intros H x Hx. apply filter_In in Hx. now apply H. Qed.

  Lemma merge_loop_ok : forall fuel space l1 l2 r1 r2 out, asc l2 -> asc r2 -> length l2 + length r2 <= fuel ->
    length out + (length r2 + length (kept l2 r2)) <= space ->
    exists m, merge_loop lt eqb fuel space (l1 ++ l2) (r1 ++ r2) (length l1) (length r1) out = Ok (out ++ m) /\
      Permutation m (r2 ++ kept l2 r2) /\ asc m.
  Proof.
    induction fuel as [|fuel IH]; intros space l1 l2 r1 r2 out L R Hf Hs.
    - destruct l2; [|cbn [length] in Hf; lia]. destruct r2; [|cbn [length] in Hf; lia].
      cbn [merge_loop]. rewrite !app_nil_r, !Nat.ltb_irrefl. cbn [orb negb]. exists []. rewrite app_nil_r. split; [auto|]. split; [constructor|exact I].
    - cbn [merge_loop]. destruct l2 as [|[k1 v1] l2], r2 as [|[k2 v2] r2].
      + rewrite !app_nil_r, !Nat.ltb_irrefl. cbn [orb negb]. exists []. rewrite app_nil_r. split; [auto|]. split; [constructor|exact I].
      + rewrite app_nil_r. rewrite Nat.ltb_irrefl.
        replace (length r1 <? length (r1 ++ (k2, v2) :: r2)) with true by (rewrite app_length; cbn [length]; lia).
        cbn [orb andb negb]. rewrite pair_at_middle. cbn [bind kept filter length] in *. rewrite write_ok by lia. cbn [bind].
        destruct (IH space l1 [] (r1 ++ [(k2, v2)]) r2 (out ++ [(k2, v2)])) as [m [E [P A]]]; [exact L|apply R|cbn [length]; lia| |].
        { rewrite length_snoc. cbn [kept filter length]. lia. }
        rewrite app_nil_r, <- app_assoc, length_snoc in E. cbn [app] in E. rewrite E. cbn [kept filter] in P.
        exists ((k2, v2) :: m). split; [first [reflexivity|now rewrite <- app_assoc]|]. split; [now constructor|]. cbn [asc]. split; auto.
        apply (perm_above k2 m _ P). apply Forall_app. split; [apply R|constructor].
      + rewrite app_nil_r. rewrite Nat.ltb_irrefl.
        replace (length l1 <? length (l1 ++ (k1, v1) :: l2)) with true by (rewrite app_length; cbn [length]; lia).
        cbn [orb andb negb]. rewrite pair_at_middle. rewrite kept_none in *. cbn [bind length] in *. rewrite write_ok by lia. cbn [bind].
        destruct (IH space (l1 ++ [(k1, v1)]) l2 r1 [] (out ++ [(k1, v1)])) as [m [E [P A]]]; [apply L|exact R|cbn [length]; lia| |].
        { rewrite length_snoc, kept_none. cbn [length]. lia. }
        rewrite app_nil_r, <- app_assoc, length_snoc in E. cbn [app] in E. rewrite E. rewrite kept_none in P.
        exists ((k1, v1) :: m). split; [first [reflexivity|now rewrite <- app_assoc]|]. split; [now constructor|]. cbn [asc]. split; auto.
        apply (perm_above k1 m _ P). apply L.
      + replace (length l1 <? length (l1 ++ (k1, v1) :: l2)) with true by (rewrite app_length; cbn [length]; lia).
        replace (length r1 <? length (r1 ++ (k2, v2) :: r2)) with true by (rewrite app_length; cbn [length]; lia).
        cbn [orb andb negb]. rewrite !pair_at_middle. cbn [bind length] in *. cbn [asc] in L, R. destruct L as [L1 L2], R as [R1 R2].
        destruct (compare_cases k1 k2) as [[X [Y Z]]|[[X [Y Z]]|[X [Y Z]]]]; rewrite X.
        * rewrite kept_below in * by (constructor; [exact X|now apply (above_trans _ k2)]). cbn [length] in Hs.
          rewrite write_ok by lia. cbn [bind].
          destruct (IH space (l1 ++ [(k1, v1)]) l2 r1 ((k2, v2) :: r2) (out ++ [(k1, v1)])) as [m [E [P A]]]; auto; [cbn [asc]; auto|cbn [length]; lia| |].
          { rewrite length_snoc. cbn [length]. lia. }
          rewrite <- app_assoc, length_snoc in E. cbn [app] in E. rewrite E.
          exists ((k1, v1) :: m). split; [first [reflexivity|now rewrite <- app_assoc]|]. split; [now apply Permutation_cons_app|]. cbn [asc]. split; auto.
          apply (perm_above k1 m _ P). apply Forall_app. split; [constructor; [exact X|now apply (above_trans _ k2)]|now apply above_kept].
        * rewrite Y. rewrite kept_equal in * by auto.
          rewrite write_ok by lia. cbn [bind].
          destruct (IH space (l1 ++ [(k1, v1)]) l2 (r1 ++ [(k2, v2)]) r2 (out ++ [(k2, v2)])) as [m [E [P A]]]; auto; [cbn [length]; lia| |].
          { rewrite length_snoc. cbn [length]. lia. }
          rewrite <- !app_assoc, !length_snoc in E. cbn [app] in E. rewrite E.
          exists ((k2, v2) :: m). split; [first [reflexivity|now rewrite <- app_assoc]|]. split; [now constructor|]. cbn [asc]. split; auto.
          apply (perm_above k2 m _ P). apply Forall_app. split; [exact R1|apply above_kept].
          eapply Forall_impl; [|exact L1]. cbn beta. intros a. now rewrite (eqb_lt_l _ _ (fst a) Y).
        * rewrite Y. rewrite (kept_skip k2 v2) in * by (constructor; [exact Z|now apply (above_trans _ k1)]).
          rewrite write_ok by lia. cbn [bind].
          destruct (IH space l1 ((k1, v1) :: l2) (r1 ++ [(k2, v2)]) r2 (out ++ [(k2, v2)])) as [m [E [P A]]]; auto; [cbn [asc]; auto|cbn [length]; lia| |].
          { rewrite length_snoc. cbn [length]. lia. }
          rewrite <- app_assoc, length_snoc in E. cbn [app] in E. rewrite E.
          exists ((k2, v2) :: m). split; [first [reflexivity|now rewrite <- app_assoc]|]. split; [now constructor|]. cbn [asc]. split; auto.
          apply (perm_above k2 m _ P). apply Forall_app. split; [exact R1|apply above_kept].
          constructor; [exact Z|now apply (above_trans _ k1)].
  Qed.

  Lemma const_dict_add_ok lhs rhs : asc lhs -> asc rhs ->
    exists d, const_dict_add lt eqb lhs rhs = Ok d /\ asc d /\ Permutation d (rhs ++ kept lhs rhs).
  Proof.
    intros L R. unfold const_dict_add.
    destruct lhs as [|x lhs]; [exists rhs; split; auto; split; auto; cbn [kept filter]; now rewrite app_nil_r|].
    destruct rhs as [|y rhs]; [exists (x :: lhs); split; auto; split; auto; now rewrite kept_none|].
    set (l := x :: lhs) in *. set (r := y :: rhs) in *.
    pose proof (count_kept_ok (length l + length r) [] l [] r 0 L R (Nat.le_refl _)) as C. cbn [app length] in C.
    change (@length (K * V) []) with 0 in C. rewrite C. cbn [bind]. rewrite Nat.add_0_l.
    destruct (merge_loop_ok (length l + length r) (length r + length (kept l r)) [] l [] r [] L R (Nat.le_refl _)) as [m [E [P A]]]; [cbn [length]; lia|].
    cbn [app] in E. change (@length (K * V) []) with 0 in E. rewrite E. cbn [bind].
    replace (length m =? length r + length (kept l r)) with true; [exists m; auto|].
    symmetry. apply Nat.eqb_eq. rewrite (Permutation_length P), app_length. reflexivity.
  Qed.

  Lemma add_ok s lhs rhs : asc lhs -> asc rhs -> exists d, add lt eqb std_sort s lhs rhs = Ok d /\ asc d /\
    addDicts lt eqb std_sort lhs rhs = Ok d /\
    forall k, lookup d k = match lookup rhs k with Some v => Some v | None => lookup lhs k end.
  Proof.
    intros L R. destruct (addDicts_ok lhs rhs L R) as [d [E [A [P H]]]]. exists d. destruct s; cbn [add]; auto.
    destruct (const_dict_add_ok lhs rhs L R) as [d' [E' [A' P']]].
    assert (d' = d) as -> by (apply asc_unique; auto; now rewrite P, P'). auto.
  Qed.

  (** ** Subtraction *)
  Definition listed (keys : list K) (kv : K * V) : bool := existsb (fun k => eqb k (fst kv)) keys.
  Definition minus (d : dict) (keys : list K) : dict := filter (fun kv => negb (listed keys kv)) d.

  Lemma indices_of_ok s d keys : asc d -> exists l, indices_of lt eqb s d keys = Ok l /\ NoDup l /\
    forall i, In i l <-> exists kv, nth_error d i = Some kv /\ listed keys kv = true.
  Proof.
    intros A. induction keys as [|k keys IH]; cbn [indices_of].
    - exists []. split; auto. split; [constructor|]. intros i. split; [intros []|intros [kv [_ H]]; discriminate].
    - destruct (index_of_ok s d k A) as [r [E F]]. rewrite E. cbn [bind]. destruct IH as [l [E' [N H]]]. rewrite E'. cbn [bind].
      eexists. split; [reflexivity|]. destruct r as [i|].
      + destruct (found_lookup d k i A F) as [k' [v [Hi [Hk _]]]].
        assert (forall j kv, nth_error d j = Some kv -> eqb k (fst kv) = true -> j = i) as U.
        { intros j [k2 v2] Hj E2. cbn [fst] in E2. destruct (Nat.lt_trichotomy i j) as [C|[C|C]]; auto; exfalso.
          - pose proof (asc_nth _ _ _ _ _ _ _ A C Hi Hj) as X. apply lt_not_eqb in X. rewrite eqb_sym in Hk.
            rewrite (eqb_trans _ _ _ Hk E2) in X. discriminate.
          - pose proof (asc_nth _ _ _ _ _ _ _ A C Hj Hi) as X. apply lt_not_eqb in X. rewrite eqb_sym in E2.
            rewrite (eqb_trans _ _ _ E2 Hk) in X. discriminate. }
        destruct (existsb (Nat.eqb i) l) eqn:X.
        * split; auto. intros j. rewrite H. apply existsb_exists in X. destruct X as [i' [X Y]]. apply Nat.eqb_eq in Y. subst i'.
          split; intros [kv [Hj Hl]]; exists kv; split; auto.
          -- unfold listed in *. cbn [existsb]. now rewrite Hl, orb_true_r.
          -- unfold listed in Hl. cbn [existsb] in Hl. apply orb_true_iff in Hl. destruct Hl as [Hl|Hl]; [|exact Hl].
             pose proof (U _ _ Hj Hl) as ->. apply H in X. destruct X as [kv' [X1 X2]]. congruence.
        * split.
          -- constructor; auto. intros C. assert (existsb (Nat.eqb i) l = true); [|congruence].
             apply existsb_exists. exists i. split; auto. apply Nat.eqb_refl.
          -- intros j. cbn [In]. rewrite H. split.
             ++ intros [<-|[kv [Hj Hl]]].
                ** exists (k', v). split; auto. unfold listed. cbn [existsb fst]. now rewrite Hk.
                ** exists kv. split; auto. unfold listed in *. cbn [existsb]. now rewrite Hl, orb_true_r.
             ++ intros [kv [Hj Hl]]. unfold listed in Hl. cbn [existsb] in Hl. apply orb_true_iff in Hl. destruct Hl as [Hl|Hl].
                ** left. symmetry. eapply U; eauto.
                ** right. exists kv. auto.
      + split; auto. intros i. rewrite H. cbn [found] in F. unfold absent in F. rewrite Forall_forall in F.
        split; intros [kv [Hi Hl]]; exists kv; split; auto.
        * unfold listed in *. cbn [existsb]. now rewrite Hl, orb_true_r.
        * unfold listed in Hl. cbn [existsb] in Hl. apply orb_true_iff in Hl. destruct Hl as [Hl|Hl]; [|exact Hl].
          apply nth_error_In in Hi. specialize (F _ Hi). congruence.
  Qed.

  Lemma copy_others_ok keys remove space : forall d k out,
    (forall i kv, nth_error d i = Some kv -> existsb (Nat.eqb (k + i)) remove = listed keys kv) ->
    length out + length (minus d keys) <= space ->
    copy_others space remove k d out = Ok (out ++ minus d keys).
  Proof.
    induction d as [|kv d IH]; intros k out H Hs; cbn [copy_others].
    - unfold minus. cbn [filter]. now rewrite app_nil_r.
    - pose proof (H 0 kv eq_refl) as H0. rewrite Nat.add_0_r in H0. rewrite H0.
      assert (forall i kv', nth_error d i = Some kv' -> existsb (Nat.eqb (S k + i)) remove = listed keys kv') as H'.
      { intros i kv' E. rewrite <- (H (S i) kv' E). now replace (k + S i) with (S k + i) by lia. }
      unfold minus in *. cbn [filter] in *. destruct (listed keys kv); cbn [negb] in *.
      + now apply IH.
      + cbn [length] in Hs. rewrite write_ok by lia. cbn [bind]. rewrite IH; auto.
        * now rewrite <- app_assoc.
        * rewrite length_snoc. lia.
  Qed.

  Lemma filter_count (f : K * V -> bool) (d : dict) : forall b,
    length (filter (fun i => match nth_error d (i - b) with Some kv => f kv | None => false end) (seq b (length d)))
    + length (filter (fun kv => negb (f kv)) d) = length d.
  Proof.
    induction d as [|kv d IH]; intros b; auto. cbn [length seq filter]. rewrite Nat.sub_diag. cbn [nth_error].
    assert (filter (fun i => match nth_error (kv :: d) (i - b) with Some kv0 => f kv0 | None => false end) (seq (S b) (length d))
          = filter (fun i => match nth_error d (i - S b) with Some kv0 => f kv0 | None => false end) (seq (S b) (length d))) as E.
    { apply filter_ext_in. intros i Hi. apply in_seq in Hi. replace (i - b) with (S (i - S b)) by lia. reflexivity. }
    rewrite E. specialize (IH (S b)). destruct (f kv); cbn [negb length]; lia.
  Qed.

  Lemma subtract_ok s d keys : asc d -> subtract lt eqb s d keys = Ok (minus d keys).
  Proof.
    intros A. unfold subtract. destruct (indices_of_ok s d keys A) as [l [E [N H]]]. rewrite E. cbn [bind].
    assert (length l + length (minus d keys) = length d) as Len.
    { pose proof (filter_count (listed keys) d 0) as FC. etransitivity; [|exact FC]. unfold minus. f_equal. apply Permutation_length. apply NoDup_Permutation; auto.
      - apply NoDup_filter, seq_NoDup.
      - intros i. rewrite H, filter_In, in_seq, Nat.sub_0_r. split.
        + intros [kv [E1 E2]]. rewrite E1. split; auto. assert (i < length d) by (apply nth_error_Some; congruence). lia.
        + intros [_ E1]. destruct (nth_error d i) as [kv|]; [eauto|discriminate]. }
    assert (copy_others (length d - length l) l 0 d [] = Ok (minus d keys)) as C.
    { apply (copy_others_ok keys l (length d - length l) d 0 []).
      - intros i kv Hi. cbn [Nat.add]. destruct (listed keys kv) eqn:X.
        + apply existsb_exists. exists i. split; [|apply Nat.eqb_refl]. apply H. eauto.
        + apply not_true_is_false. intros C. apply existsb_exists in C. destruct C as [j [C1 C2]]. apply Nat.eqb_eq in C2. subst j.
          apply H in C1. destruct C1 as [kv' [C1 C2]]. congruence.
      - cbn [length]. lia. }
    rewrite C. cbn [bind]. destruct s; auto. destruct (Nat.eqb_spec (length l) (length d)) as [X|X].
    - assert (length (minus d keys) = 0) as Z by lia. now apply length_zero_iff_nil in Z as ->.
    - now replace (length (minus d keys) =? length d - length l) with true by lia.
  Qed.

  Lemma lookup_minus d keys k : lookup (minus d keys) k = if existsb (eqb k) keys then None else lookup d k.
  Proof.
    assert (forall k1 k2, eqb k1 k2 = true -> forall v, listed keys (k2, v) = existsb (eqb k1) keys) as R.
    { intros k1 k2 E v. unfold listed. cbn [fst]. induction keys as [|x keys IH]; cbn [existsb]; auto.
      rewrite IH. f_equal. rewrite eqb_sym. symmetry. now apply eqb_eqb_l. }
    unfold minus. induction d as [|[k' v] d IH]; cbn [filter m_lookup].
    - now destruct (existsb _ _).
    - destruct (eqb k k') eqn:E.
      + rewrite (R _ _ E v). destruct (existsb (eqb k) keys) eqn:X; cbn [negb].
        * rewrite IH. reflexivity.
        * cbn [m_lookup]. now rewrite E.
      + destruct (negb (listed keys (k', v))); cbn [m_lookup]; [rewrite E|]; exact IH.
  Qed.

  (** ** Programs *)
  Lemma eval_ok (e : expr K V) : distinct_sources eqb e -> exists d, eval lt eqb std_sort e = Ok d /\ asc d /\
    forall k, lookup d k = meaning eqb e k.
  Proof.
    induction e as [s items|s a IHa b IHb|s a IHa keys]; cbn [distinct_sources eval meaning].
    - intros D. eexists. split; [reflexivity|]. split; [now apply sort_asc|]. intros k. now apply sort_lookup.
    - intros [Da Db]. destruct (IHa Da) as [da [Ea [Aa La]]]. destruct (IHb Db) as [db [Eb [Ab Lb]]].
      rewrite Ea, Eb. cbn [bind]. destruct (add_ok s da db Aa Ab) as [d [E [A [_ L]]]]. exists d. split; auto. split; auto.
      intros k. now rewrite L, La, Lb.
    - intros D. destruct (IHa D) as [d [E [A L]]]. rewrite E. cbn [bind]. exists (minus d keys).
      split; [now apply subtract_ok|]. split; [now apply asc_filter|]. intros k. now rewrite lookup_minus, L.
  Qed.

  Lemma eval_sides (e1 : expr K V) : forall e2, distinct_sources eqb e1 -> same_program e1 e2 ->
    eval lt eqb std_sort e1 = eval lt eqb std_sort e2.
  Proof.
    induction e1 as [s items|s a IHa b IHb|s a IHa keys]; intros [s2 i2|s2 a2 b2|s2 a2 k2]; cbn [distinct_sources same_program eval]; try tauto.
    - now intros _ ->.
    - intros [Da Db] [Sa Sb]. rewrite <- (IHa a2), <- (IHb b2) by assumption.
      destruct (eval_ok a Da) as [da [Ea [Aa _]]]. destruct (eval_ok b Db) as [db [Eb [Ab _]]]. rewrite Ea, Eb. cbn [bind].
      destruct (add_ok s da db Aa Ab) as [d [E [_ [F _]]]]. destruct (add_ok s2 da db Aa Ab) as [d2 [E2 [_ [F2 _]]]]. congruence.
    - intros D [S ->]. rewrite <- (IHa a2) by assumption. destruct (eval_ok a D) as [d [E [A _]]]. rewrite E. cbn [bind].
      now rewrite !subtract_ok.
  Qed.
End Proofs.
