(** Proofs about Sets: every operation does to the hash table what it should do to a mathematical
    set. *)
From Coq Require Import ZifyBool ZifyNat.
From Verif Require Import Base PyList Hash_Model Hash_Spec Hash_Index_Proofs Hash_Proofs Set_Model Set_Spec.
Open Scope Z_scope.
Open Scope result_scope.

Section SetProofs.
  Context {K : Type}.
  Variable eqb : K -> K -> bool.
  Variable hash : K -> Z.
  Hypothesis GK : good_key eqb hash.

  Notation set := (table K unit).
  Notation mem := (s_of eqb).
  Notation table_ok := (table_ok eqb hash).
  Notation contains := (contains eqb hash).
  Notation set_add := (set_add eqb hash).
  Notation copy_elements := (copy_elements eqb hash).
  Notation add_if := (add_if eqb hash).

  (** ** Lists of elements up to [eqb] *)

  Lemma mem_app a b x : mem (a ++ b) x = mem a x || mem b x.
  Proof. unfold s_of. apply existsb_app. Qed.

  Lemma mem_cons k l x : mem (k :: l) x = eqb k x || mem l x.
  Proof. reflexivity. Qed.

  Lemma eqb_same a b c : eqb a b = true -> eqb a c = eqb b c.
  Proof.
    intros E. destruct (eqb b c) eqn:F.
    - apply (key_trans _ _ GK _ _ _ E F).
    - destruct (eqb a c) eqn:G; [|reflexivity]. rewrite (key_sym _ _ GK) in E.
      rewrite (key_trans _ _ GK _ _ _ E G) in F. discriminate.
  Qed.

  Definition respects (s : K -> bool) : Prop := forall a b, eqb a b = true -> s a = s b.

  Lemma mem_respects l : respects (mem l).
  Proof.
    intros a b E. unfold s_of. induction l as [|k l IH]; [reflexivity|]. cbn [existsb]. rewrite IH. f_equal.
    rewrite (key_sym _ _ GK k a), (key_sym _ _ GK k b). now apply eqb_same.
  Qed.

  Lemma mem_in l k : In k l -> mem l k = true.
  Proof. intros H. unfold s_of. apply existsb_exists. exists k. split; [exact H|apply (key_refl _ _ GK)]. Qed.

  Lemma mem_split l x : mem l x = true -> exists p k q, l = p ++ k :: q /\ eqb k x = true.
  Proof.
    unfold s_of. intros H. apply existsb_exists in H. destruct H as [k [H E]].
    apply in_split in H. destruct H as [p [q ->]]. now exists p, k, q.
  Qed.

  Lemma no_repeats_le l1 : forall l2, no_repeats eqb l1 -> (forall x, mem l1 x = true -> mem l2 x = true) ->
    (length l1 <= length l2)%nat.
  Proof.
    induction l1 as [|a l1 IH]; intros l2 D H; [cbn; lia|]. destruct D as [Da D].
    destruct (mem_split l2 a) as [p [k [q [-> E]]]]; [apply H, mem_in; now left|].
    assert (L : (length l1 <= length (p ++ q))%nat).
    { apply IH; [exact D|]. intros x Hx. pose proof (H x) as Hx2. rewrite !mem_app in *. rewrite !mem_cons in Hx2.
      rewrite Hx, Bool.orb_true_r in Hx2. specialize (Hx2 eq_refl).
      destruct (mem p x) eqn:Ep; [reflexivity|]. cbn [orb] in *.
      destruct (eqb k x) eqn:Ek; [|exact Hx2]. exfalso.
      rewrite (key_sym _ _ GK) in E. rewrite <- (eqb_same a k x E) in Ek.
      rewrite (mem_respects l1 a x Ek) in Da. congruence. }
    cbn [length]. rewrite app_length in *. cbn [length]. lia.
  Qed.

  Lemma no_repeats_full l1 l2 : no_repeats eqb l1 -> (forall x, mem l1 x = true -> mem l2 x = true) ->
    (length l2 <= length l1)%nat -> forall x, mem l2 x = true -> mem l1 x = true.
  Proof.
    intros D H L x Hx. destruct (mem l1 x) eqn:E; [reflexivity|exfalso].
    assert (length (x :: l1) <= length l2)%nat; [|cbn [length] in *; lia].
    apply no_repeats_le; [split; assumption|]. intros y Hy. rewrite mem_cons in Hy.
    destruct (eqb x y) eqn:F; [rewrite <- (mem_respects l2 x y F); exact Hx|apply H, Hy].
  Qed.

  (** ** Tables that hold a set *)

  Variable U : list K.
  Hypothesis U_small : Z.of_nat (length U) <= max_keys.

  Definition known (k : K) : Prop := mem U k = true.

  Record has (t : set) (s : K -> bool) : Prop := {
    h_table : table_ok t;
    h_mem : forall x, mem (elems t) x = s x;
    h_known : forall x, s x = true -> known x
  }.

  Lemma elems_distinct (m : list (K * unit)) : distinct_keys eqb m -> no_repeats eqb (map fst m).
  Proof.
    induction m as [|[k v] m IH]; [auto|]. cbn [distinct_keys map fst no_repeats]. intros [H D]. split; [|now apply IH].
    unfold s_of. apply Bool.not_true_is_false. intros E. apply existsb_exists in E. destruct E as [k' [Hin E]].
    apply in_map_iff in Hin. destruct Hin as [[k1 v1] [<- Hin]]. rewrite Forall_forall in H. specialize (H _ Hin).
    cbn [fst] in *. rewrite (key_sym _ _ GK) in E. congruence.
  Qed.

  Lemma elems_no_repeats t : table_ok t -> no_repeats eqb (elems t).
  Proof. intros H. apply elems_distinct, (t_distinct _ _ _ H). Qed.

  Lemma count_elems t : table_ok t -> count (idx t) = Z.of_nat (length (elems t)).
  Proof. intros H. rewrite (t_count _ _ _ H). unfold elems. now rewrite map_length. Qed.

  Lemma has_small t s : has t s -> count (idx t) <= max_keys.
  Proof.
    intros H. rewrite (count_elems t (h_table _ _ H)).
    enough (length (elems t) <= length U)%nat by lia.
    apply no_repeats_le; [apply elems_no_repeats, (h_table _ _ H)|]. intros x Hx. rewrite (h_mem _ _ H) in Hx.
    apply (h_known _ _ H x Hx).
  Qed.

  Lemma has_respects t s : has t s -> respects s.
  Proof. intros H a b E. rewrite <- !(h_mem _ _ H). now apply mem_respects. Qed.

  Lemma has_ext t s s' : has t s -> (forall x, s x = s' x) -> has t s'.
  Proof.
    intros H E. constructor; [apply H| |].
    - intros x. rewrite (h_mem _ _ H). apply E.
    - intros x Hx. apply (h_known _ _ H). now rewrite E.
  Qed.

  Lemma has_lists t s : has t s -> lists eqb (elems t) s.
  Proof. intros H. split; [apply elems_no_repeats, (h_table _ _ H)|apply (h_mem _ _ H)]. Qed.

  Lemma new_has : has new_table s_empty.
  Proof. constructor; [apply new_table_ok|reflexivity|discriminate]. Qed.

  Lemma lookup_mem (m : list (K * unit)) k : is_some (m_lookup eqb m k) = mem (map fst m) k.
  Proof.
    unfold s_of. induction m as [|[k' v] m IH]; [reflexivity|]. cbn [m_lookup map fst existsb].
    rewrite (key_sym _ _ GK k' k). destruct (eqb k k'); [reflexivity|exact IH].
  Qed.

  Lemma contains_ok t s k : has t s -> contains t k = Ok (s k).
  Proof.
    intros H. unfold Set_Model.contains. destruct (find_lookup _ _ GK t k (h_table _ _ H)) as [z [-> [_ E]]]. cbn [bind].
    f_equal. rewrite <- (h_mem _ _ H). unfold elems. rewrite <- lookup_mem. unfold is_some.
    destruct (m_lookup eqb (live (items t)) k); lia.
  Qed.

  Lemma set_mem (m : list (K * unit)) k v x : mem (map fst (m_set eqb m k v)) x = mem (map fst m) x || eqb k x.
  Proof.
    unfold s_of. induction m as [|[k' v'] m IH]; cbn [m_set map fst existsb]; [now rewrite Bool.orb_false_r|].
    destruct (eqb k k') eqn:E; cbn [map fst existsb].
    - rewrite (eqb_same k k' x E). destruct (eqb k' x); cbn [orb negb andb]; rewrite ?Bool.orb_false_r, ?Bool.andb_false_r; reflexivity.
    - rewrite IH. now rewrite Bool.orb_assoc.
  Qed.

  Lemma del_mem (m : list (K * unit)) k x : mem (map fst (m_del eqb m k)) x = mem (map fst m) x && negb (eqb k x).
  Proof.
    unfold s_of, m_del. induction m as [|[k' v'] m IH]; [reflexivity|]. cbn [filter map fst existsb].
    destruct (eqb k k') eqn:E; cbn [negb map fst existsb]; rewrite IH.
    - rewrite (eqb_same k k' x E). destruct (eqb k' x); cbn [orb negb andb]; rewrite ?Bool.orb_false_r, ?Bool.andb_false_r; reflexivity.
    - destruct (eqb k' x) eqn:F; cbn [orb andb]; [|reflexivity].
      destruct (eqb k x) eqn:G; [|reflexivity]. exfalso. rewrite (key_sym _ _ GK) in F.
      rewrite (key_trans _ _ GK _ _ _ G F) in E. discriminate.
  Qed.

  Lemma add_has t s k : has t s -> known k -> exists t', set_add t k = Ok t' /\ has t' (s_add eqb s k).
  Proof.
    intros H Hk. assert (Hc := has_small t s H). unfold Set_Model.set_add.
    destruct (find_lookup _ _ GK t k (h_table _ _ H)) as [z [-> [_ E]]]. cbn [bind].
    pose proof (lookup_mem (live (items t)) k) as M. fold (elems t) in M. rewrite (h_mem _ _ H) in M.
    destruct (m_lookup eqb (live (items t)) k) as [v|] eqn:F; rewrite E.
    - exists t. split; [reflexivity|]. apply (has_ext t s _ H). intros x. unfold s_add.
      destruct (eqb k x) eqn:G; [|now rewrite Bool.orb_false_r]. rewrite <- (has_respects t s H k x G), <- M. reflexivity.
    - apply (lookup_absent eqb) in F. destruct (insert_ok _ _ GK t k tt (h_table _ _ H) F Hc) as [t' [-> [H' L']]].
      exists t'. split; [reflexivity|]. constructor; [exact H'| |].
      + intros x. unfold elems. rewrite L', set_mem. fold (elems t). now rewrite (h_mem _ _ H).
      + intros x Hx. unfold s_add in Hx. destruct (s x) eqn:G; [apply (h_known _ _ H x G)|]. cbn [orb] in Hx.
        unfold known. now rewrite <- (mem_respects U k x Hx).
  Qed.

  Lemma del_has t t' s k : has t s -> table_ok t' -> live (items t') = m_del eqb (live (items t)) k ->
    has t' (s_del eqb s k).
  Proof.
    intros H H' L. constructor; [exact H'| |].
    - intros x. unfold elems. rewrite L, del_mem. fold (elems t). now rewrite (h_mem _ _ H).
    - intros x Hx. apply (h_known _ _ H). unfold s_del in Hx. now destruct (s x).
  Qed.

  Lemma remove_has t s k : has t s -> exists t', remove eqb hash t k = Ok (t', s k) /\ has t' (s_del eqb s k).
  Proof.
    intros H. destruct (remove_ok _ _ GK t k (h_table _ _ H) (has_small t s H)) as [t' [E [H' L']]]. exists t'.
    rewrite E, lookup_mem. fold (elems t). rewrite (h_mem _ _ H). split; [reflexivity|]. now apply (del_has t).
  Qed.

  Lemma c_remove_has t s k : has t s -> exists t', c_remove eqb hash t k = Ok (t', s k) /\ has t' (s_del eqb s k).
  Proof.
    intros H. destruct (c_remove_ok _ _ GK t k (h_table _ _ H) (has_small t s H)) as [t' [E [H' L']]]. exists t'.
    rewrite E, lookup_mem. fold (elems t). rewrite (h_mem _ _ H). split; [reflexivity|]. now apply (del_has t).
  Qed.

  Lemma discard_has t s k : has t s -> exists t', discard eqb hash t k = Ok t' /\ has t' (s_del eqb s k).
  Proof. intros H. unfold discard. destruct (remove_has t s k H) as [t' [-> H']]. cbn [bind]. eauto. Qed.

  Lemma c_discard_has t s k : has t s -> exists t', c_discard eqb hash t k = Ok t' /\ has t' (s_del eqb s k).
  Proof. intros H. unfold c_discard. destruct (c_remove_has t s k H) as [t' [-> H']]. cbn [bind]. eauto. Qed.

  Lemma empty_has t : table_ok t -> live (items t) = [] -> has t s_empty.
  Proof.
    intros H L. constructor; [exact H| |discriminate]. intros x. unfold elems. now rewrite L.
  Qed.

  Lemma clear_has t s : has t s -> has (clear t) s_empty.
  Proof. intros H. destruct (clear_ok _ _ t (h_table _ _ H)). now apply empty_has. Qed.

  Lemma c_clear_has t s : has t s -> has (c_clear t) s_empty.
  Proof. intros H. destruct (c_clear_ok _ _ t (h_table _ _ H)). now apply empty_has. Qed.

  Lemma copy_table_has t s : has t s -> has (copy_table t) s.
  Proof.
    intros H. destruct (copy_table_ok eqb hash t (h_table _ _ H)) as [H' L]. constructor; [exact H'| |apply H].
    intros x. unfold elems. rewrite L. apply (h_mem _ _ H).
  Qed.

  (** ** Loops *)

  Definition all_known (l : list K) : Prop := forall x, mem l x = true -> known x.

  Lemma all_known_cons k l : all_known (k :: l) -> known k /\ all_known l.
  Proof.
    intros H. split; [apply H; rewrite mem_cons, (key_refl _ _ GK); reflexivity|].
    intros x Hx. apply H. rewrite mem_cons, Hx. apply Bool.orb_true_r.
  Qed.

  Lemma elems_known t s : has t s -> all_known (elems t).
  Proof. intros H x Hx. rewrite (h_mem _ _ H) in Hx. apply (h_known _ _ H x Hx). Qed.

  Lemma copy_elements_has l : forall t s, has t s -> all_known l ->
    exists t', copy_elements t l = Ok t' /\ has t' (fun x => s x || mem l x).
  Proof.
    unfold Set_Model.copy_elements. induction l as [|k l IH]; intros t s H A; cbn [fold_result].
    - exists t. split; [reflexivity|]. apply (has_ext t s _ H). intros x. now rewrite Bool.orb_false_r.
    - apply all_known_cons in A. destruct A as [Ak A]. destruct (add_has t s k H Ak) as [t1 [-> H1]]. cbn [bind].
      destruct (IH t1 _ H1 A) as [t2 [E2 H2]]. exists t2. split; [exact E2|]. apply (has_ext _ _ _ H2).
      intros x. unfold s_add. rewrite mem_cons. now rewrite Bool.orb_assoc.
  Qed.

  (** [test] answers according to a set. *)
  Definition tells (test : K -> result bool) (p : K -> bool) : Prop := respects p /\ forall k, test k = Ok (p k).

  Lemma contains_tells t s : has t s -> tells (contains t) s.
  Proof. intros H. split; [apply (has_respects t s H)|]. intros k. now apply contains_ok. Qed.

  Lemma add_if_has test p want l : tells test p -> forall t s, has t s ->
    (forall x, mem l x = true -> p x = want -> known x) ->
    exists t', add_if test want t l = Ok t' /\ has t' (fun x => s x || (mem l x && Bool.eqb (p x) want)).
  Proof.
    intros [R T]. unfold Set_Model.add_if. induction l as [|k l IH]; intros t s H A; cbn [fold_result].
    - exists t. split; [reflexivity|]. apply (has_ext t s _ H). intros x. now rewrite Bool.orb_false_r.
    - rewrite T. cbn [bind]. destruct (Bool.eqb (p k) want) eqn:E.
      + assert (Ak : known k).
        { apply A; [rewrite mem_cons, (key_refl _ _ GK); reflexivity|]. now apply Bool.eqb_prop. }
        destruct (add_has t s k H Ak) as [t1 [-> H1]]. cbn [bind].
        destruct (IH t1 _ H1) as [t2 [E2 H2]].
        { intros x Hx. apply A. rewrite mem_cons, Hx. apply Bool.orb_true_r. }
        exists t2. split; [exact E2|]. apply (has_ext _ _ _ H2). intros x. unfold s_add. rewrite mem_cons.
        destruct (eqb k x) eqn:F; [|now rewrite Bool.orb_false_r]. rewrite <- (R k x F), E.
        now destruct (s x).
      + cbn [bind]. destruct (IH t s H) as [t2 [E2 H2]].
        { intros x Hx. apply A. rewrite mem_cons, Hx. apply Bool.orb_true_r. }
        exists t2. split; [exact E2|]. apply (has_ext _ _ _ H2). intros x. rewrite mem_cons.
        destruct (eqb k x) eqn:F; [|reflexivity]. rewrite <- (R k x F), E. now rewrite !Bool.andb_false_r.
  Qed.

  Lemma all_tests_ok test p want l : tells test p -> exists b, all_tests test want l = Ok b /\
    (b = true <-> forall x, mem l x = true -> p x = want).
  Proof.
    intros [R T]. induction l as [|k l [b [E IH]]]; cbn [all_tests].
    - exists true. split; [reflexivity|]. split; [discriminate|reflexivity].
    - rewrite T. cbn [bind]. destruct (Bool.eqb (p k) want) eqn:F.
      + apply Bool.eqb_prop in F. exists b. split; [exact E|]. rewrite IH. split; intros H x.
        * rewrite mem_cons. destruct (eqb k x) eqn:G; [|apply H]. intros _. now rewrite <- (R k x G).
        * intros Hx. apply H. rewrite mem_cons, Hx. apply Bool.orb_true_r.
      + exists false. split; [reflexivity|]. split; [discriminate|]. intros H. exfalso.
        rewrite (H k) in F; [now rewrite Bool.eqb_reflx in F|]. rewrite mem_cons, (key_refl _ _ GK). reflexivity.
  Qed.

  (** A loop that discards elements. *)
  Lemma fold_discard_has drop : (forall t s k, has t s -> exists t', drop t k = Ok t' /\ has t' (s_del eqb s k)) ->
    forall l t s, has t s -> exists t', fold_result drop l t = Ok t' /\ has t' (fun x => s x && negb (mem l x)).
  Proof.
    intros D. induction l as [|k l IH]; intros t s H; cbn [fold_result].
    - exists t. split; [reflexivity|]. apply (has_ext t s _ H). intros x. now rewrite Bool.andb_true_r.
    - destruct (D t s k H) as [t1 [-> H1]]. cbn [bind]. destruct (IH t1 _ H1) as [t2 [E2 H2]].
      exists t2. split; [exact E2|]. apply (has_ext _ _ _ H2). intros x. unfold s_del. rewrite mem_cons, Bool.negb_orb.
      now rewrite Bool.andb_assoc.
  Qed.

  Lemma discard_unless_has test p l : tells test p -> forall t s, has t s ->
    exists t', discard_unless eqb hash test t l = Ok t' /\ has t' (fun x => s x && (negb (mem l x) || p x)).
  Proof.
    intros [R T]. unfold discard_unless. induction l as [|k l IH]; intros t s H; cbn [fold_result].
    - exists t. split; [reflexivity|]. apply (has_ext t s _ H). intros x. now rewrite Bool.andb_true_r.
    - rewrite T. cbn [bind]. destruct (p k) eqn:E.
      + cbn [bind]. destruct (IH t s H) as [t2 [E2 H2]]. exists t2. split; [exact E2|]. apply (has_ext _ _ _ H2).
        intros x. rewrite mem_cons. destruct (eqb k x) eqn:F; [|reflexivity].
        rewrite <- (R k x F), E. now rewrite !Bool.orb_true_r.
      + destruct (c_discard_has t s k H) as [t1 [-> H1]]. cbn [bind]. destruct (IH t1 _ H1) as [t2 [E2 H2]].
        exists t2. split; [exact E2|]. apply (has_ext _ _ _ H2). intros x. unfold s_del. rewrite mem_cons.
        destruct (eqb k x) eqn:F; [|now rewrite Bool.andb_true_r].
        rewrite <- (R k x F), E. cbn [negb orb]. now rewrite !Bool.andb_false_r.
  Qed.

  Lemma add_or_remove_has t s k : has t s -> known k ->
    exists t', set_add_or_remove eqb hash t k = Ok t' /\ has t' (fun x => xorb (s x) (eqb k x)).
  Proof.
    intros H Hk. unfold set_add_or_remove.
    destruct (find_lookup _ _ GK t k (h_table _ _ H)) as [z [Ez [E1 E2]]]. rewrite Ez. cbn [bind].
    pose proof (lookup_mem (live (items t)) k) as M. fold (elems t) in M. rewrite (h_mem _ _ H) in M.
    rewrite E1. destruct (m_lookup eqb (live (items t)) k) as [v|] eqn:F.
    - destruct (c_discard_has t s k H) as [t' [-> H']]. exists t'. split; [reflexivity|]. apply (has_ext _ _ _ H').
      intros x. unfold s_del. destruct (eqb k x) eqn:G.
      + rewrite <- (has_respects t s H k x G), <- M. reflexivity.
      + now destruct (s x).
    - destruct (add_has t s k H Hk) as [t' [E H']]. unfold Set_Model.set_add in E. rewrite Ez in E. cbn [bind] in E.
      rewrite E2 in E. exists t'. split; [exact E|]. apply (has_ext _ _ _ H'). intros x. unfold s_add.
      destruct (eqb k x) eqn:G; [|now destruct (s x)]. rewrite <- (has_respects t s H k x G), <- M. reflexivity.
  Qed.

  (** For a list without repetitions. *)
  Lemma fold_add_or_remove_has l : forall t s, has t s -> all_known l -> no_repeats eqb l ->
    exists t', fold_result (set_add_or_remove eqb hash) l t = Ok t' /\ has t' (fun x => xorb (s x) (mem l x)).
  Proof.
    induction l as [|k l IH]; intros t s H A D; cbn [fold_result].
    - exists t. split; [reflexivity|]. apply (has_ext t s _ H). intros x. cbn. now destruct (s x).
    - apply all_known_cons in A. destruct A as [Ak A]. destruct D as [Dk D].
      destruct (add_or_remove_has t s k H Ak) as [t1 [-> H1]]. cbn [bind].
      destruct (IH t1 _ H1 A D) as [t2 [E2 H2]]. exists t2. split; [exact E2|]. apply (has_ext _ _ _ H2).
      intros x. rewrite mem_cons. destruct (eqb k x) eqn:F; [|now destruct (s x)].
      rewrite <- (mem_respects l k x F), Dk. now destruct (s x).
  Qed.

  (** ** Methods that make a new Set *)

  (** A Set argument holds [p]; an iterable lists [p]. *)
  Definition arg_is (a : set) (s : K -> bool) (x : argument) (p : K -> bool) : Prop :=
    match x with
    | ArgSame | ArgAlias => forall y, s y = p y
    | ArgSet t => has t p
    | ArgList l => (forall y, mem l y = p y)
    end.

  Lemma arg_mem a s x p : has a s -> arg_is a s x p -> forall y, mem (arg_elems a x) y = p y.
  Proof.
    intros H Hx. destruct x as [| |t|l]; cbn [arg_is arg_elems] in *; intros y.
    - now rewrite (h_mem _ _ H).
    - now rewrite (h_mem _ _ H).
    - apply (h_mem _ _ Hx).
    - apply Hx.
  Qed.

  (** The elements an argument brings in are known. *)
  Definition arg_known (p : K -> bool) : Prop := forall x, p x = true -> known x.

  Lemma i_copy_has a s : has a s -> exists t, i_copy eqb hash a = Ok t /\ has t s.
  Proof.
    intros H. unfold i_copy. destruct (copy_elements_has (elems a) new_table _ new_has (elems_known a s H)) as [t [-> H']].
    exists t. split; [reflexivity|]. apply (has_ext _ _ _ H'). intros x. cbn. apply (h_mem _ _ H).
  Qed.

  Lemma i_intersection_has a s x p : has a s -> arg_is a s x p ->
    exists t, i_intersection eqb hash a x = Ok t /\ has t (s_op Intersection s p).
  Proof.
    intros H Hx. unfold i_intersection.
    destruct (add_if_has (contains a) s true (arg_elems a x) (contains_tells a s H) new_table _ new_has) as [t [E H']].
    { intros y _ Hy. apply (h_known _ _ H y Hy). }
    exists t. split; [exact E|]. apply (has_ext _ _ _ H'). intros y. cbn. rewrite (arg_mem a s x p H Hx).
    destruct (s y), (p y); reflexivity.
  Qed.

  Lemma i_difference_has a s x p : has a s -> arg_is a s x p ->
    exists t, i_difference eqb hash a x = Ok t /\ has t (s_op Difference s p).
  Proof.
    intros H Hx. assert (Both : forall b q, has b q -> (forall y, q y = p y) ->
      exists t, add_if (contains b) false new_table (elems a) = Ok t /\ has t (s_op Difference s p)).
    { intros b q Hb Hq.
      destruct (add_if_has (contains b) q false (elems a) (contains_tells b q Hb) new_table _ new_has) as [t [E H']].
      { intros y Hy _. apply (elems_known a s H y Hy). }
      exists t. split; [exact E|]. apply (has_ext _ _ _ H'). intros y. cbn. rewrite (h_mem _ _ H), Hq.
      destruct (s y), (p y); reflexivity. }
    destruct x as [| |b|l]; cbn [arg_is] in Hx; unfold i_difference.
    - now apply (Both a s).
    - now apply (Both a s).
    - now apply (Both b p).
    - destruct (i_copy_has a s H) as [c [-> Hc]]. cbn [bind].
      destruct (fold_discard_has (discard eqb hash) discard_has l c s Hc) as [t [E H']]. exists t. split; [exact E|].
      apply (has_ext _ _ _ H'). intros y. cbn. now rewrite Hx.
  Qed.

  Lemma sym_update_has a s l p : has a s -> (forall y, mem l y = p y) -> arg_known p ->
    exists t, (removed <- add_if (contains a) true new_table l ;;
               added <- add_if (contains a) false new_table l ;;
               a <- fold_result (discard eqb hash) (elems removed) a ;;
               a <- copy_elements a (elems added) ;;
               Ok (a, @None exn)) = Ok (t, None) /\ has t (s_op SymmetricDifference s p).
  Proof.
    intros H Hl Hk.
    destruct (add_if_has (contains a) s true l (contains_tells a s H) new_table _ new_has) as [t1 [-> H1]].
    { intros y _ Hy. apply (h_known _ _ H y Hy). }
    cbn [bind].
    destruct (add_if_has (contains a) s false l (contains_tells a s H) new_table _ new_has) as [t2 [-> H2]].
    { intros y Hy _. apply Hk. now rewrite <- Hl. }
    cbn [bind].
    destruct (fold_discard_has (discard eqb hash) discard_has (elems t1) a s H) as [t3 [-> H3]]. cbn [bind].
    destruct (copy_elements_has (elems t2) t3 _ H3 (elems_known t2 _ H2)) as [t4 [-> H4]]. cbn [bind].
    exists t4. split; [reflexivity|]. apply (has_ext _ _ _ H4). intros y. rewrite (h_mem _ _ H1), (h_mem _ _ H2), Hl.
    cbn. destruct (s y), (p y); reflexivity.
  Qed.

  Lemma i_symmetric_difference_has a s x p : has a s -> arg_is a s x p -> arg_known p ->
    exists t, i_symmetric_difference eqb hash a x = Ok t /\ has t (s_op SymmetricDifference s p).
  Proof.
    intros H Hx Hk. assert (Both : forall b q, has b q -> (forall y, q y = p y) ->
      exists t, (r <- add_if (contains b) false new_table (elems a) ;; add_if (contains a) false r (elems b)) = Ok t /\
        has t (s_op SymmetricDifference s p)).
    { intros b q Hb Hq.
      destruct (add_if_has (contains b) q false (elems a) (contains_tells b q Hb) new_table _ new_has) as [t [-> H']].
      { intros y Hy _. apply (elems_known a s H y Hy). }
      cbn [bind].
      destruct (add_if_has (contains a) s false (elems b) (contains_tells a s H) t _ H') as [t2 [E2 H2]].
      { intros y Hy _. apply (elems_known b q Hb y Hy). }
      exists t2. split; [exact E2|]. apply (has_ext _ _ _ H2). intros y. cbn.
      rewrite (h_mem _ _ H), (h_mem _ _ Hb), Hq. destruct (s y), (p y); reflexivity. }
    destruct x as [| |b|l]; cbn [arg_is] in Hx; unfold i_symmetric_difference.
    - now apply (Both a s).
    - now apply (Both a s).
    - now apply (Both b p).
    - destruct (i_copy_has a s H) as [c [-> Hc]]. cbn [bind].
      unfold i_symmetric_difference_update. cbn [arg_elems].
      destruct (sym_update_has c s l p Hc Hx Hk) as [t [-> Ht]]. cbn [bind]. exists t. auto.
  Qed.

  Lemma i_union_has a s x p : has a s -> arg_is a s x p -> arg_known p ->
    exists t, i_union eqb hash a x = Ok t /\ has t (s_op Union s p).
  Proof.
    intros H Hx Hk. unfold i_union. destruct (i_copy_has a s H) as [c [-> Hc]]. cbn [bind].
    destruct (copy_elements_has (arg_elems a x) c s Hc) as [t [E Ht]].
    { intros y Hy. apply Hk. now rewrite <- (arg_mem a s x p H Hx). }
    exists t. split; [exact E|]. apply (has_ext _ _ _ Ht). intros y. cbn. now rewrite (arg_mem a s x p H Hx).
  Qed.

  Lemma i_operator_has b x y s p : has x s -> has y p -> exists t, i_operator eqb hash b x y = Ok t /\ has t (s_op b s p).
  Proof.
    intros Hx Hy. assert (Hk : arg_known p) by (intros z; apply (h_known _ _ Hy)).
    destruct b; cbn [i_operator].
    - apply (i_union_has x s (ArgSet y) p); assumption.
    - apply (i_intersection_has x s (ArgSet y) p); assumption.
    - apply (i_difference_has x s (ArgSet y) p); assumption.
    - apply (i_symmetric_difference_has x s (ArgSet y) p); assumption.
  Qed.

  Lemma c_operator_has b x y s p : has x s -> has y p -> exists t, c_operator eqb hash b x y = Ok t /\ has t (s_op b s p).
  Proof.
    intros Hx Hy. pose proof (copy_table_has x s Hx) as Cx. pose proof (copy_table_has y p Hy) as Cy.
    destruct b; cbn [c_operator].
    - unfold c_union. destruct (count (idx y) <=? count (idx x)).
      + destruct (copy_elements_has (elems y) _ s Cx (elems_known y p Hy)) as [t [E Ht]]. exists t. split; [exact E|].
        apply (has_ext _ _ _ Ht). intros z. cbn. now rewrite (h_mem _ _ Hy).
      + destruct (copy_elements_has (elems x) _ p Cy (elems_known x s Hx)) as [t [E Ht]]. exists t. split; [exact E|].
        apply (has_ext _ _ _ Ht). intros z. cbn. rewrite (h_mem _ _ Hx). apply Bool.orb_comm.
    - unfold c_intersection. destruct (count (idx y) <? count (idx x)).
      + destruct (discard_unless_has (contains x) s (elems y) (contains_tells x s Hx) _ p Cy) as [t [E Ht]].
        exists t. split; [exact E|]. apply (has_ext _ _ _ Ht). intros z. cbn. rewrite (h_mem _ _ Hy).
        destruct (s z), (p z); reflexivity.
      + destruct (discard_unless_has (contains y) p (elems x) (contains_tells y p Hy) _ s Cx) as [t [E Ht]].
        exists t. split; [exact E|]. apply (has_ext _ _ _ Ht). intros z. cbn. rewrite (h_mem _ _ Hx).
        destruct (s z), (p z); reflexivity.
    - unfold c_difference. destruct (4 * count (idx y) <? count (idx x)).
      + destruct (fold_discard_has (c_discard eqb hash) c_discard_has (elems y) _ s Cx) as [t [E Ht]].
        exists t. split; [exact E|]. apply (has_ext _ _ _ Ht). intros z. cbn. now rewrite (h_mem _ _ Hy).
      + apply (i_difference_has x s (ArgSet y) p); assumption.
    - unfold c_symmetric_difference. destruct (2 * count (idx y) <? count (idx x)).
      + destruct (fold_add_or_remove_has (elems y) _ s Cx (elems_known y p Hy) (elems_no_repeats y (h_table _ _ Hy))) as [t [E Ht]].
        exists t. split; [exact E|]. apply (has_ext _ _ _ Ht). intros z. cbn. now rewrite (h_mem _ _ Hy).
      + destruct (2 * count (idx x) <? count (idx y)).
        * destruct (fold_add_or_remove_has (elems x) _ p Cy (elems_known x s Hx) (elems_no_repeats x (h_table _ _ Hx))) as [t [E Ht]].
          exists t. split; [exact E|]. apply (has_ext _ _ _ Ht). intros z. cbn. rewrite (h_mem _ _ Hx). apply Bool.xorb_comm.
        * apply (i_symmetric_difference_has x s (ArgSet y) p); try assumption. intros z. apply (h_known _ _ Hy).
  Qed.

  (** ** Methods that change a Set *)

  Lemma i_update_has a s x p : has a s -> arg_is a s x p -> arg_known p ->
    exists t, i_update eqb hash a x = Ok (t, None) /\ has t (s_op Union s p).
  Proof.
    intros H Hx Hk. unfold i_update.
    destruct (copy_elements_has (arg_elems a x) a s H) as [t [-> Ht]].
    { intros y Hy. apply Hk. now rewrite <- (arg_mem a s x p H Hx). }
    cbn [bind]. exists t. split; [reflexivity|]. apply (has_ext _ _ _ Ht). intros y. cbn. now rewrite (arg_mem a s x p H Hx).
  Qed.

  (** Walking over a Set whose elements are all in the other one changes nothing. *)
  Lemma visit_all_in (a : set) s : has a s -> forall n k, visit_discard eqb hash n k a None = Ok a \/ k < 0.
  Proof.
    intros H. induction n as [|n IH]; intros k; [now left|]. destruct (k <? 0) eqn:Hk; [right; lia|left].
    cbn [visit_discard]. destruct (k <? reserved a) eqn:Hr; [|reflexivity]. unfold rd at 1. rewrite Hk.
    unfold reserved in Hr. destruct (nth_error (items a) (Z.to_nat k)) as [[[key []]|]|] eqn:E; cbn [bind].
    - rewrite (contains_ok a s key H). cbn [bind].
      assert (S : s key = true).
      { rewrite <- (h_mem _ _ H). apply mem_in. unfold elems. apply in_map_iff. exists (key, tt). split; [reflexivity|].
        eapply in_live, E. }
      rewrite S. destruct (IH (k + 1)); [assumption|lia].
    - destruct (IH (k + 1)); [assumption|lia].
    - apply nth_error_None in E. lia.
  Qed.

  Lemma i_intersection_update_has a s x p : has a s -> arg_is a s x p ->
    match x with ArgSet _ => False | _ => True end ->
    exists t, i_intersection_update eqb hash a x = Ok (t, None) /\ has t (s_op Intersection s p).
  Proof.
    intros H Hx Hn. destruct x as [| |b|l]; cbn [arg_is] in Hx; unfold i_intersection_update.
    - exists a. split; [reflexivity|]. apply (has_ext _ _ _ H). intros y. cbn. rewrite <- Hx. now destruct (s y).
    - destruct (visit_all_in a s H (length (items a)) 0) as [->|]; [|lia]. cbn [bind]. exists a. split; [reflexivity|].
      apply (has_ext _ _ _ H). intros y. cbn. rewrite <- Hx. now destruct (s y).
    - contradiction.
    - destruct (i_copy_has a s H) as [c [-> Hc]]. cbn [bind].
      destruct (add_if_has (contains c) s true l (contains_tells c s Hc) (clear a) _ (clear_has a s H)) as [t [-> Ht]].
      { intros y _ Hy. apply (h_known _ _ H y Hy). }
      cbn [bind]. exists t. split; [reflexivity|]. apply (has_ext _ _ _ Ht). intros y. cbn. rewrite Hx.
      destruct (s y), (p y); reflexivity.
  Qed.

  Lemma i_difference_update_has a s x p : has a s -> arg_is a s x p ->
    match x with ArgAlias => False | _ => True end ->
    exists t, i_difference_update eqb hash a x = Ok (t, None) /\ has t (s_op Difference s p).
  Proof.
    intros H Hx Hn. unfold i_difference_update. assert (Hm := arg_mem a s x p H Hx). destruct x as [| |b|l]; cbn [arg_is] in Hx.
    - exists (clear a). split; [reflexivity|]. apply (has_ext _ _ _ (clear_has a s H)). intros y. cbn. rewrite <- Hx.
      now destruct (s y).
    - contradiction.
    - destruct (fold_discard_has (discard eqb hash) discard_has (arg_elems a (ArgSet b)) a s H) as [t [-> Ht]]. cbn [bind].
      exists t. split; [reflexivity|]. apply (has_ext _ _ _ Ht). intros y. cbn. now rewrite <- Hm.
    - destruct (fold_discard_has (discard eqb hash) discard_has (arg_elems a (ArgList l)) a s H) as [t [-> Ht]]. cbn [bind].
      exists t. split; [reflexivity|]. apply (has_ext _ _ _ Ht). intros y. cbn. now rewrite <- Hm.
  Qed.

  Lemma i_symmetric_difference_update_has a s x p : has a s -> arg_is a s x p -> arg_known p ->
    exists t, i_symmetric_difference_update eqb hash a x = Ok (t, None) /\ has t (s_op SymmetricDifference s p).
  Proof.
    intros H Hx Hk. pose proof (sym_update_has a s (arg_elems a x) p H (arg_mem a s x p H Hx) Hk) as S.
    destruct x as [| |b|l]; unfold i_symmetric_difference_update; [|exact S|exact S|exact S].
    exists (clear a). split; [reflexivity|]. apply (has_ext _ _ _ (clear_has a s H)). intros y. cbn.
    cbn [arg_is] in Hx. rewrite <- Hx. now destruct (s y).
  Qed.

  Lemma c_intersection_update_has a s x p : has a s -> arg_is a s x p ->
    match x with ArgSame | ArgAlias => False | _ => True end ->
    exists t, c_intersection_update eqb hash a x = Ok (t, None) /\ has t (s_op Intersection s p).
  Proof.
    intros H Hx Hn.
    destruct (add_if_has (contains (copy_table a)) s true (arg_elems a x) (contains_tells _ s (copy_table_has a s H))
                (c_clear a) _ (c_clear_has a s H)) as [t [E Ht]].
    { intros y _ Hy. apply (h_known _ _ H y Hy). }
    exists t. split.
    - destruct x as [| |b|l]; try contradiction; unfold c_intersection_update; rewrite E; reflexivity.
    - apply (has_ext _ _ _ Ht). intros y. cbn. rewrite (arg_mem a s x p H Hx). destruct (s y), (p y); reflexivity.
  Qed.

  Lemma c_difference_update_has a s x p : has a s -> arg_is a s x p ->
    match x with ArgSame | ArgAlias => False | _ => True end ->
    exists t, c_difference_update eqb hash a x = Ok (t, None) /\ has t (s_op Difference s p).
  Proof.
    intros H Hx Hn.
    destruct (fold_discard_has (c_discard eqb hash) c_discard_has (arg_elems a x) a s H) as [t [E Ht]].
    exists t. split.
    - destruct x as [| |b|l]; try contradiction; unfold c_difference_update; rewrite E; reflexivity.
    - apply (has_ext _ _ _ Ht). intros y. cbn. now rewrite (arg_mem a s x p H Hx).
  Qed.

  (** The loop of the compiled symmetric_difference_update: [removed] are the elements of the
      argument that were in [a] at the time, [added] those that were not. *)
  Lemma c_sym_fold l : forall a r d s0 s1 sr sd, has a s1 -> has r sr -> has d sd -> all_known l ->
    (forall y, s1 y = s0 y || sd y) -> (forall y, sd y = true -> s0 y = false) ->
    (forall y, sr y = true -> s1 y = true) ->
    exists a' r' d' s1' sr' sd', fold_result (c_sym_step eqb hash) l (a, r, d) = Ok (a', r', d') /\
      has a' s1' /\ has r' sr' /\ has d' sd' /\
      (forall y, s1' y = s0 y || sd' y) /\ (forall y, sd' y = sd y || (mem l y && negb (s0 y))) /\
      (forall y, s0 y = true -> sr' y = sr y || mem l y) /\ (forall y, sr' y = true -> s1' y = true).
  Proof.
    induction l as [|k l IH]; intros a r d s0 s1 sr sd Ha Hr Hd A I1 I2 I3; cbn [fold_result].
    - exists a, r, d, s1, sr, sd. repeat (split; [first [reflexivity|assumption]|]).
      split; [intros y; now rewrite Bool.orb_false_r|]. split; [intros y _; now rewrite Bool.orb_false_r|assumption].
    - apply all_known_cons in A. destruct A as [Ak A]. cbn [c_sym_step]. rewrite (contains_ok a s1 k Ha). cbn [bind].
      assert (R0 : forall y, eqb k y = true -> s0 k = s0 y).
      { intros y E. pose proof (has_respects _ _ Ha k y E) as Q1. pose proof (has_respects _ _ Hd k y E) as Q2.
        rewrite !I1 in Q1. pose proof (I2 k) as P1. pose proof (I2 y) as P2.
        destruct (s0 k), (s0 y), (sd k), (sd y); cbn in *; congruence || auto; try (now specialize (P1 eq_refl)); now specialize (P2 eq_refl). }
      destruct (s1 k) eqn:E.
      + destruct (add_has r sr k Hr Ak) as [r1 [-> Hr1]]. cbn [bind].
        destruct (IH a r1 d s0 s1 _ sd Ha Hr1 Hd A I1 I2) as (a' & r' & d' & s1' & sr' & sd' & E' & Ha' & Hr' & Hd' & J1 & J2 & J3 & J4).
        { intros y Hy. unfold s_add in Hy. destruct (sr y) eqn:F; [now apply I3|]. cbn [orb] in Hy.
          now rewrite <- (has_respects _ _ Ha k y Hy). }
        exists a', r', d', s1', sr', sd'. split; [exact E'|]. repeat (split; [assumption|]). split; [|split; [|assumption]].
        * intros y. rewrite J2, mem_cons. destruct (eqb k y) eqn:F; [|reflexivity].
          pose proof (I1 k) as Q. rewrite E, (R0 y F), (has_respects _ _ Hd k y F) in Q.
          destruct (s0 y), (sd y), (mem l y); cbn in *; congruence.
        * intros y Hy. rewrite J3 by exact Hy. unfold s_add. rewrite mem_cons. now rewrite Bool.orb_assoc.
      + destruct (add_has d sd k Hd Ak) as [d1 [-> Hd1]]. cbn [bind].
        destruct (add_has a s1 k Ha Ak) as [a1 [-> Ha1]]. cbn [bind].
        assert (E0 : s0 k = false) by (rewrite I1 in E; now destruct (s0 k)).
        destruct (IH a1 r d1 s0 _ sr _ Ha1 Hr Hd1 A) as (a' & r' & d' & s1' & sr' & sd' & E' & Ha' & Hr' & Hd' & J1 & J2 & J3 & J4).
        { intros y. unfold s_add. rewrite I1. now rewrite Bool.orb_assoc. }
        { intros y Hy. unfold s_add in Hy. destruct (sd y) eqn:F; [now apply I2|]. cbn [orb] in Hy. now rewrite <- (R0 y Hy). }
        { intros y Hy. unfold s_add. rewrite I3 by exact Hy. reflexivity. }
        exists a', r', d', s1', sr', sd'. split; [exact E'|]. repeat (split; [assumption|]). split; [|split; [|assumption]].
        * intros y. rewrite J2. unfold s_add. rewrite mem_cons. destruct (eqb k y) eqn:F; [|now rewrite Bool.orb_false_r].
          rewrite <- (R0 y F), E0. now destruct (sd y).
        * intros y Hy. rewrite J3 by exact Hy. rewrite mem_cons. destruct (eqb k y) eqn:F; [|reflexivity].
          rewrite (R0 y F) in E0. congruence.
  Qed.

  Lemma c_symmetric_difference_update_has a s x p : has a s -> arg_is a s x p -> arg_known p ->
    exists t, c_symmetric_difference_update eqb hash a x = Ok (t, None) /\ has t (s_op SymmetricDifference s p).
  Proof.
    intros H Hx Hk. pose proof (arg_mem a s x p H Hx) as Hm. unfold c_symmetric_difference_update.
    destruct (c_sym_fold (arg_elems a x) a new_table new_table s s s_empty s_empty H new_has new_has)
      as (a1 & r & d & s1 & sr & sd & E & Ha & Hr & Hd & J1 & J2 & J3 & J4).
    - intros y Hy. apply Hk. now rewrite <- Hm.
    - intros y. now rewrite Bool.orb_false_r.
    - discriminate.
    - discriminate.
    - rewrite E. cbn [bind].
      destruct (fold_discard_has (c_discard eqb hash) c_discard_has (elems r) a1 s1 Ha) as [t3 [-> H3]]. cbn [bind].
      destruct (copy_elements_has (elems d) t3 _ H3 (elems_known d _ Hd)) as [t4 [-> H4]]. cbn [bind].
      exists t4. split; [reflexivity|]. apply (has_ext _ _ _ H4). intros y. rewrite (h_mem _ _ Hr), (h_mem _ _ Hd).
      cbn [s_op]. rewrite J1, J2, Hm. specialize (J3 y). rewrite Hm in J3. cbn [s_empty orb] in *.
      destruct (s y) eqn:Es; cbn [negb andb orb].
      + rewrite J3 by reflexivity. now destruct (p y).
      + destruct (p y); cbn; [now rewrite Bool.orb_true_r|reflexivity].
  Qed.
End SetProofs.
