(** The hash table is a finite map that remembers insertion order. *)
From Verif Require Import Base PyList PyList_Proofs Hash_Model Hash_Spec Hash_Probe_Proofs Hash_Index_Proofs.
From Coq Require Import ZifyBool ZifyNat.
Open Scope Z_scope.
Open Scope result_scope.
Ltac Zify.zify_post_hook ::= Z.to_euclidean_division_equations.

Section Table.
  Context {K V : Type}.
  Variable eqb : K -> K -> bool.
  Variable hash : K -> Z.
  Hypothesis GK : good_key eqb hash.

  Notation table := (table K V).
  Notation lookup := (m_lookup (V:=V) eqb).
  Notation distinct := (distinct_keys (V:=V) eqb).

  (** ** The association list *)

  Definition absent (k : K) (m : list (K * V)) : Prop := Forall (fun kv => eqb k (fst kv) = false) m.

  Lemma lookup_absent m k : lookup m k = None <-> absent k m.
  Proof.
    induction m as [|[k' v] m IH]; cbn [m_lookup].
    - split; [constructor|reflexivity].
    - split.
      + destruct (eqb k k') eqn:E; [discriminate|]. intros H. constructor; [exact E|now apply IH].
      + intros H. apply Forall_cons_iff in H. cbn [fst] in H. destruct H as [-> H]. now apply IH.
  Qed.

  Lemma lookup_app_absent a b k : absent k a -> lookup (a ++ b) k = lookup b k.
  Proof.
    induction a as [|[k' v] a IH]; intros H; [reflexivity|]. apply Forall_cons_iff in H. destruct H as [E H].
    cbn [fst] in E. cbn [app m_lookup]. rewrite E. now apply IH.
  Qed.

  Lemma absent_trans k k' m : eqb k k' = true -> absent k m -> absent k' m.
  Proof.
    intros E. apply Forall_impl. intros [k1 v1] H. cbn [fst] in *.
    destruct (eqb k' k1) eqn:E1; [|reflexivity]. rewrite (key_trans _ _ GK _ _ _ E E1) in H. discriminate.
  Qed.

  Lemma distinct_app a b : distinct (a ++ b) <-> distinct a /\ distinct b /\ Forall (fun kv => absent (fst kv) b) a.
  Proof.
    induction a as [|[k v] a IH]; cbn [app distinct_keys].
    - split; [intros H; repeat split; auto|intros [_ [H _]]; exact H].
    - rewrite Forall_app, IH. rewrite Forall_cons_iff. cbn [fst]. unfold absent at 2. tauto.
  Qed.

  Lemma distinct_middle a kv b : distinct (a ++ kv :: b) -> absent (fst kv) a /\ absent (fst kv) b.
  Proof.
    intros H. apply distinct_app in H. destruct H as [_ [Hb Hab]]. destruct kv as [k v]. cbn [distinct_keys] in Hb.
    split; [|apply Hb]. cbn [fst]. unfold absent. rewrite Forall_forall in *. intros x Hx. specialize (Hab x Hx).
    apply Forall_cons_iff in Hab. destruct Hab as [E _]. cbn [fst] in E. now rewrite (key_sym _ _ GK).
  Qed.

  Lemma absent_same k k' m : eqb k k' = true -> absent k m <-> absent k' m.
  Proof. intros E. split; apply absent_trans; [exact E|now rewrite (key_sym _ _ GK)]. Qed.

  Lemma distinct_set m k v : distinct m -> distinct (m_set eqb m k v).
  Proof.
    assert (A : forall k1 m, absent k1 m -> eqb k1 k = false -> absent k1 (m_set eqb m k v)).
    { intros k1 m0 H E. induction m0 as [|[k' v'] m0 IH]; cbn [m_set].
      - constructor; [exact E|constructor].
      - apply Forall_cons_iff in H. destruct H as [H1 H2]. cbn [fst] in H1.
        destruct (eqb k k'); constructor; auto. now apply IH. }
    induction m as [|[k' v'] m IH]; cbn [m_set distinct_keys]; [auto|]. intros [H1 H2].
    destruct (eqb k k') eqn:E; cbn [distinct_keys]; split; auto.
    apply A; [exact H1|]. now rewrite (key_sym _ _ GK).
  Qed.

  Lemma distinct_del m k : distinct m -> distinct (m_del eqb m k).
  Proof.
    unfold m_del. induction m as [|[k' v'] m IH]; cbn [filter distinct_keys]; [auto|]. intros [H1 H2].
    destruct (negb (eqb k (fst (k', v')))); cbn [distinct_keys]; auto. split; auto.
    rewrite Forall_forall in *. intros x Hx. apply filter_In in Hx. now apply H1.
  Qed.

  Lemma set_absent m k v : absent k m -> m_set eqb m k v = m ++ [(k, v)].
  Proof.
    induction m as [|[k' v'] m IH]; intros H; [reflexivity|]. apply Forall_cons_iff in H. destruct H as [E H].
    cbn [fst] in E. cbn [m_set app]. rewrite E. f_equal. now apply IH.
  Qed.

  Lemma set_middle a k' v' b k v : absent k a -> eqb k k' = true ->
    m_set eqb (a ++ (k', v') :: b) k v = a ++ (k', v) :: b.
  Proof.
    intros H E. induction a as [|[k1 v1] a IH]; cbn [app m_set]; [now rewrite E|].
    apply Forall_cons_iff in H. destruct H as [E1 H]. cbn [fst] in E1. rewrite E1. f_equal. now apply IH.
  Qed.

  Lemma del_absent m k : absent k m -> m_del eqb m k = m.
  Proof.
    unfold m_del. induction m as [|[k' v'] m IH]; intros H; [reflexivity|]. apply Forall_cons_iff in H.
    destruct H as [E H]. cbn [filter]. rewrite E. cbn [negb]. f_equal. now apply IH.
  Qed.

  Lemma del_middle a kv b k : absent k a -> absent k b -> eqb k (fst kv) = true ->
    m_del eqb (a ++ kv :: b) k = a ++ b.
  Proof.
    intros Ha Hb E. unfold m_del. rewrite filter_app. cbn [filter]. rewrite E. cbn [negb].
    change (m_del eqb a k ++ m_del eqb b k = a ++ b). now rewrite !del_absent.
  Qed.

  Lemma set_length_le (m : list (K * V)) k v : (length m <= length (m_set eqb m k v))%nat.
  Proof.
    induction m as [|[k' v'] m IH]; cbn [m_set length]; [lia|]. destruct (eqb k k'); cbn [length]; lia.
  Qed.

  Lemma update_length_le l : forall m : list (K * V), (length m <= length (m_update eqb m l))%nat.
  Proof.
    unfold m_update. induction l as [|[k v] l IH]; intros m; cbn [fold_left]; [lia|].
    pose proof (IH (m_set eqb m k v)). pose proof (set_length_le m k v). cbn [fst snd]. lia.
  Qed.

  (** ** The item array *)

  Notation items_of := (list (option (K * V))).

  Lemma live_app (a b : items_of) : live (a ++ b) = live a ++ live b.
  Proof. induction a as [|[kv|] a IH]; cbn [app live]; [reflexivity|now rewrite IH|exact IH]. Qed.

  Lemma live_nones n : live (repeat (@None (K * V)) n) = [].
  Proof. induction n; [reflexivity|assumption]. Qed.

  Lemma live_nil (b : items_of) : (forall j kv, nth_error b j <> Some (Some kv)) -> live b = [].
  Proof.
    induction b as [|[kv|] b IH]; intros H; [reflexivity| |].
    - exfalso. now apply (H 0%nat kv).
    - cbn [live]. apply IH. intros j kv. apply (H (S j)).
  Qed.

  Lemma live_in (its : items_of) kv : In kv (live its) -> exists j, nth_error its j = Some (Some kv).
  Proof.
    induction its as [|[kv'|] its IH]; cbn [live]; [contradiction| |].
    - intros [->|H]; [now exists 0%nat|]. destruct (IH H) as [j Hj]. now exists (S j).
    - intros H. destruct (IH H) as [j Hj]. now exists (S j).
  Qed.

  Lemma in_live (its : items_of) j kv : nth_error its j = Some (Some kv) -> In kv (live its).
  Proof.
    revert j. induction its as [|[kv'|] its IH]; intros [|j] H; cbn in H; try discriminate; cbn [live].
    - injection H as ->. now left.
    - right. eauto.
    - eauto.
  Qed.

  Lemma split_at (its : items_of) j x : nth_error its j = Some x ->
    exists a b, its = a ++ x :: b /\ length a = j.
  Proof. intros H. destruct (nth_error_split its j H) as [a [b [E L]]]. eauto. Qed.

  Lemma distinct_items (its : items_of) i j kv kv' : distinct (live its) ->
    nth_error its i = Some (Some kv) -> nth_error its j = Some (Some kv') ->
    eqb (fst kv) (fst kv') = true -> i = j.
  Proof.
    revert i j. induction its as [|[x|] its IH]; intros [|i] [|j] D Hi Hj E; cbn in Hi, Hj; try discriminate; auto.
    - injection Hi as ->. destruct kv as [k v]. cbn [live distinct_keys] in D. destruct D as [D _].
      cbn [fst] in E. rewrite Forall_forall in D. rewrite (D kv') in E; [discriminate|]. eapply in_live, Hj.
    - injection Hj as ->. destruct kv' as [k v]. cbn [live distinct_keys] in D. destruct D as [D _].
      cbn [fst] in E. rewrite Forall_forall in D. rewrite (key_sym _ _ GK), (D kv) in E; [discriminate|]. eapply in_live, Hi.
    - f_equal. eapply IH; eauto. destruct x as [k v]. cbn [live distinct_keys] in D. apply D.
  Qed.

  Definition slot_hash (its : items_of) (s : Z) : option Z :=
    if s <? 0 then None
    else match nth_error its (Z.to_nat s) with
         | Some (Some kv) => Some (norm_hash (hash (fst kv)))
         | _ => None
         end.

  Lemma slot_hash_some its s h : slot_hash its s = Some h ->
    exists j kv, s = Z.of_nat j /\ nth_error its j = Some (Some kv) /\ h = norm_hash (hash (fst kv)).
  Proof.
    unfold slot_hash. destruct (s <? 0) eqn:E; [discriminate|].
    destruct (nth_error its (Z.to_nat s)) as [[kv|]|] eqn:E2; try discriminate.
    intros H. exists (Z.to_nat s), kv. split; [lia|]. split; [exact E2|congruence].
  Qed.

  Lemma slot_hash_at its j kv : nth_error its j = Some (Some kv) -> slot_hash its (Z.of_nat j) = Some (norm_hash (hash (fst kv))).
  Proof. intros H. unfold slot_hash. destruct (Z.of_nat j <? 0) eqn:E; [lia|]. now rewrite Nat2Z.id, H. Qed.

  (** ** The invariant of a table *)

  Record table_ok (t : table) : Prop := {
    t_index : index_or_null (idx t) (slot_hash (items t));
    t_distinct : distinct (live (items t));
    t_count : count (idx t) = Z.of_nat (length (live (items t)));
    t_top : forall j kv, nth_error (items t) j = Some (Some kv) -> Z.of_nat j < top t;
    t_top_range : 0 <= top t <= reserved t;
    t_bound : top t <= 4 * (count (idx t) + 3)
  }.

  Lemma new_table_ok : table_ok new_table.
  Proof.
    constructor; cbn [items idx top new_table count live distinct_keys length]; try lia.
    - right. cbn. repeat split. intros s. unfold slot_hash. destruct (s <? 0); [reflexivity|].
      now destruct (Z.to_nat s).
    - intros [|j] kv H; discriminate.
    - unfold reserved. cbn. lia.
  Qed.

  Lemma null_live t : table_ok t -> slots (idx t) = [] -> live (items t) = [].
  Proof.
    intros H E. destruct (t_index _ H) as [Hi|[_ [_ [_ [_ Hn]]]]].
    - pose proof (length_pos _ _ Hi). rewrite E in *. cbn in *. lia.
    - apply live_nil. intros j kv Hj. apply slot_hash_at in Hj. rewrite Hn in Hj. discriminate.
  Qed.

  Lemma not_null t : table_ok t -> slots (idx t) <> [] -> index_ok (idx t) (slot_hash (items t)).
  Proof. intros H E. destruct (t_index _ H) as [Hi|[E2 _]]; [exact Hi|contradiction]. Qed.

  Lemma populated_or_absent (its : items_of) k : (exists j kv, nth_error its j = Some (Some kv) /\ eqb k (fst kv) = true)
    \/ absent k (live its).
  Proof.
    induction its as [|[kv|] its IH].
    - right. constructor.
    - destruct (eqb k (fst kv)) eqn:E; [left; exists 0%nat, kv; auto|].
      destruct IH as [[j [kv' H]]|H]; [left; exists (S j), kv'; exact H|].
      right. constructor; assumption.
    - destruct IH as [[j [kv' H]]|H]; [left; exists (S j), kv'; exact H|]. right; exact H.
  Qed.

  (** ** Searching *)

  Lemma search_ok {A} t k (body : Z -> result (option A)) (hit : nat -> nat -> A) (miss : A) :
    table_ok t -> index_ok (idx t) (slot_hash (items t)) ->
    (forall p, nth_error (slots (idx t)) p = Some EMPTY -> body (Z.of_nat p) = Ok (Some miss)) ->
    (forall p, nth_error (slots (idx t)) p = Some DELETED -> body (Z.of_nat p) = Ok None) ->
    (forall p j kv, nth_error (slots (idx t)) p = Some (Z.of_nat j) -> nth_error (items t) j = Some (Some kv) ->
       nth_error (hashes (idx t)) p = Some (norm_hash (hash (fst kv))) ->
       body (Z.of_nat p) = Ok (if eqb k (fst kv) then Some (hit p j) else None)) ->
    (absent k (live (items t)) /\ probe (idx t) (norm_hash (hash k)) body = Ok miss) \/
    (exists p j kv, nth_error (slots (idx t)) p = Some (Z.of_nat j) /\ nth_error (items t) j = Some (Some kv) /\
       eqb k (fst kv) = true /\ probe (idx t) (norm_hash (hash k)) body = Ok (hit p j)).
  Proof.
    intros H Hi Hempty Hdel Hlive. set (ix := idx t) in *. set (h := norm_hash (hash k)).
    assert (Hcell : forall p s, nth_error (slots ix) p = Some s -> s <> EMPTY -> s <> DELETED ->
      exists j kv, s = Z.of_nat j /\ nth_error (items t) j = Some (Some kv) /\
        body (Z.of_nat p) = Ok (if eqb k (fst kv) then Some (hit p j) else None)).
    { intros p s Hp He Hd. destruct (ok_cell _ _ Hi p s Hp) as [|[|[_ [h' [Hh Hp']]]]]; try contradiction.
      destruct (slot_hash_some _ _ _ Hh) as [j [kv [-> [Hj ->]]]]. exists j, kv. auto. }
    destruct (populated_or_absent (items t) k) as [[j [kv [Hj E]]]|Habs].
    - right.
      assert (Hs : slot_hash (items t) (Z.of_nat j) = Some h).
      { rewrite (slot_hash_at _ _ _ Hj). unfold h. now rewrite (key_hash _ _ GK _ _ E). }
      destruct (ok_reach _ _ Hi _ _ Hs) as [n [Hn Hpath]].
      set (P := fun m => match nth_error (slots ix) (pos (length (slots ix)) h m) with
                         | Some s => s =? Z.of_nat j | None => false end).
      destruct (least_such P n) as [m [Hm [Pm Hlt]]]; [unfold P; rewrite Hn; lia|].
      assert (Hm' : nth_error (slots ix) (pos (length (slots ix)) h m) = Some (Z.of_nat j)).
      { unfold P in Pm. destruct (nth_error (slots ix) (pos (length (slots ix)) h m)); [|discriminate]. f_equal. lia. }
      destruct (covers ix _ h (pos (length (slots ix)) h m) Hi) as [n' [Hn' En']]; [eapply pos_in, Hi|].
      assert (Hle : (m <= n')%nat).
      { destruct (le_lt_dec m n'); [assumption|]. specialize (Hlt n' l). unfold P in Hlt.
        rewrite En', Hm' in Hlt. lia. }
      exists (pos (length (slots ix)) h m), j, kv. repeat (split; [assumption|]).
      apply (probe_first ix h body _ m); [lia|eapply length_pos, Hi| |].
      + intros i Him. destruct (nth_error_get (slots ix) (pos (length (slots ix)) h i)) as [s Hsi]; [eapply pos_in, Hi|].
        specialize (Hlt i Him). unfold P in Hlt. rewrite Hsi in Hlt.
        assert (Hne : s <> EMPTY) by (intros ->; apply (Hpath i); [lia|exact Hsi]).
        destruct (Z.eq_dec s DELETED) as [->|Hnd]; [now apply Hdel|].
        destruct (Hcell _ _ Hsi Hne Hnd) as [j' [kv' [-> [Hj' Eb]]]]. rewrite Eb.
        destruct (eqb k (fst kv')) eqn:E'; [|reflexivity]. exfalso.
        assert (j = j'); [|subst; lia]. eapply (distinct_items (items t)); eauto using t_distinct.
        rewrite (key_sym _ _ GK) in E. eapply (key_trans _ _ GK); eauto.
      + destruct (Hcell _ _ Hm') as [j' [kv' [Ej [Hj' Eb]]]]; [unfold EMPTY; lia|unfold DELETED; lia|].
        apply Nat2Z.inj in Ej. subst j'. rewrite Hj in Hj'. injection Hj' as <-. now rewrite Eb, E.
    - left. split; [exact Habs|].
      destruct (first_stop ix _ h (fun s => s =? EMPTY) Hi eq_refl) as [n [s [Hn [Hs [Es Hbefore]]]]].
      assert (s = EMPTY) by lia. subst s.
      apply (probe_first ix h body _ n); [lia|eapply length_pos, Hi| |now apply Hempty].
      intros i Hin. destruct (Hbefore i Hin) as [s [Hsi Ei]].
      destruct (Z.eq_dec s DELETED) as [->|Hnd]; [now apply Hdel|].
      destruct (Hcell _ _ Hsi) as [j' [kv' [-> [Hj' Eb]]]]; [lia|exact Hnd|]. rewrite Eb.
      unfold absent in Habs. rewrite Forall_forall in Habs. rewrite Habs; [reflexivity|]. eapply in_live, Hj'.
  Qed.

  Lemma rd_item_ok (t : table) j kv : nth_error (items t) j = Some (Some kv) -> rd_item t (Z.of_nat j) = Ok kv.
  Proof. intros H. unfold rd_item. now rewrite (rd_ok _ _ _ H). Qed.

  Lemma not_special j : (Z.of_nat j =? EMPTY) = false /\ (Z.of_nat j =? DELETED) = false.
  Proof. unfold EMPTY, DELETED. lia. Qed.

  Lemma find_ok t k : table_ok t ->
    (absent k (live (items t)) /\ find eqb hash t k = Ok (-1)) \/
    (exists j kv, nth_error (items t) j = Some (Some kv) /\ eqb k (fst kv) = true /\ find eqb hash t k = Ok (Z.of_nat j)).
  Proof.
    intros H. unfold find. destruct (slots (idx t)) as [|s0 ss] eqn:E.
    - left. rewrite (null_live t H E). split; [constructor|reflexivity].
    - rewrite <- E. assert (Hi : index_ok (idx t) (slot_hash (items t))) by (apply not_null; [exact H|congruence]).
      edestruct (search_ok t k (fun pos =>
          s <- rd (slots (idx t)) pos ;;
          if s =? EMPTY then Ok (Some (-1))
          else if s =? DELETED then Ok None
          else
            h' <- rd (hashes (idx t)) pos ;;
            if h' =? norm_hash (hash k) then
              kv <- rd_item t s ;;
              Ok (if eqb k (fst kv) then Some s else None)
            else Ok None) (fun p j => Z.of_nat j) (-1) H Hi) as [[Ha Hp]|[p [j [kv [Hp [Hj [Ek Hr]]]]]]].
      + intros p Hp. now rewrite (rd_ok _ _ _ Hp).
      + intros p Hp. now rewrite (rd_ok _ _ _ Hp).
      + intros p j kv Hp Hj Hh. rewrite (rd_ok _ _ _ Hp). cbn [bind].
        destruct (not_special j) as [-> ->]. rewrite (rd_ok _ _ _ Hh). cbn [bind].
        destruct (norm_hash (hash (fst kv)) =? norm_hash (hash k)) eqn:Eh.
        * rewrite (rd_item_ok _ _ _ Hj). reflexivity.
        * destruct (eqb k (fst kv)) eqn:Ek; [|reflexivity]. rewrite (key_hash _ _ GK _ _ Ek) in Eh. lia.
      + left. auto.
      + right. exists j, kv. auto.
  Qed.

  (** What a hit means for the association list. *)
  Lemma hit_split t k j kv : table_ok t -> nth_error (items t) j = Some (Some kv) -> eqb k (fst kv) = true ->
    exists a b, items t = a ++ Some kv :: b /\ length a = j /\ absent k (live a) /\ absent k (live b).
  Proof.
    intros H Hj E. destruct (split_at _ _ _ Hj) as [a [b [Ei L]]]. exists a, b. split; [exact Ei|]. split; [exact L|].
    pose proof (t_distinct _ H) as D. rewrite Ei, live_app in D. cbn [live] in D.
    destruct (distinct_middle _ _ _ D) as [Ha Hb]. now rewrite !(absent_same _ _ _ E).
  Qed.

  Lemma hit_lookup t k j kv : table_ok t -> nth_error (items t) j = Some (Some kv) -> eqb k (fst kv) = true ->
    lookup (live (items t)) k = Some (snd kv).
  Proof.
    intros H Hj E. destruct (hit_split t k j kv H Hj E) as [a [b [Ei [_ [Ha _]]]]].
    rewrite Ei, live_app, lookup_app_absent by exact Ha. destruct kv as [k' v]. cbn [live m_lookup]. cbn [fst] in E. now rewrite E.
  Qed.

  Lemma lookup_value_ok t k : table_ok t -> lookup_value eqb hash t k = Ok (lookup (live (items t)) k).
  Proof.
    intros H. unfold lookup_value. destruct (find_ok t k H) as [[Ha ->]|[j [kv [Hj [E ->]]]]]; cbn [bind].
    - apply lookup_absent in Ha. now rewrite Ha.
    - destruct (Z.of_nat j <? 0) eqn:E2; [lia|]. rewrite (rd_item_ok _ _ _ Hj). cbn [bind].
      now rewrite (hit_lookup t k j kv H Hj E).
  Qed.

  Lemma find_lookup t k : table_ok t -> exists s, find eqb hash t k = Ok s /\
    (s =? -1) = match lookup (live (items t)) k with Some _ => false | None => true end /\
    (s <? 0) = match lookup (live (items t)) k with Some _ => false | None => true end.
  Proof.
    intros H. destruct (find_ok t k H) as [[Ha ->]|[j [kv [Hj [E ->]]]]].
    - apply lookup_absent in Ha. rewrite Ha. exists (-1). auto.
    - rewrite (hit_lookup t k j kv H Hj E). exists (Z.of_nat j). split; [reflexivity|]. lia.
  Qed.

  (** ** Assigning *)

  Lemma replace_middle {A} (a b : list A) x y j : length a = j -> replace_nth j y (a ++ x :: b) = a ++ y :: b.
  Proof. intros <-. apply replace_nth_middle. Qed.

  Lemma assign_ok t k j kv v : table_ok t -> nth_error (items t) j = Some (Some kv) -> eqb k (fst kv) = true ->
    exists t', assign_value t (Z.of_nat j) v = Ok t' /\ table_ok t' /\
      live (items t') = m_set eqb (live (items t)) k v.
  Proof.
    intros H Hj E. destruct (hit_split t k j kv H Hj E) as [a [b [Ei [L [Ha Hb]]]]].
    assert (Hjl : (j < length (items t))%nat) by (eapply nth_error_lt, Hj).
    unfold assign_value. rewrite (rd_item_ok _ _ _ Hj). cbn [bind]. rewrite wr_ok by exact Hjl. cbn [bind].
    eexists; split; [reflexivity|].
    assert (El : live (replace_nth j (Some (fst kv, v)) (items t)) = m_set eqb (live (items t)) k v).
    { rewrite Ei, (replace_middle _ _ _ _ _ L), !live_app. destruct kv as [k' v']. cbn [live fst] in *. now rewrite set_middle. }
    split; [|exact El]. constructor; cbn [items idx top].
    - destruct (t_index _ H) as [Hi|Hi].
      + left. eapply index_ok_ext; [|exact Hi]. intros s. unfold slot_hash. destruct (s <? 0); [reflexivity|].
        rewrite nth_error_replace by exact Hjl. destruct (Nat.eqb_spec j (Z.to_nat s)) as [<-|]; [now rewrite Hj|reflexivity].
      + right. destruct Hi as [A1 [A2 [A3 [A4 A5]]]]. repeat (split; [assumption|]). intros s.
        rewrite <- A5 with (s := s). unfold slot_hash. destruct (s <? 0); [reflexivity|].
        rewrite nth_error_replace by exact Hjl. destruct (Nat.eqb_spec j (Z.to_nat s)) as [<-|]; [now rewrite Hj|reflexivity].
    - rewrite El. apply distinct_set, t_distinct, H.
    - rewrite El, Ei, live_app. destruct kv as [k' v']. cbn [live]. cbn [fst] in E. rewrite set_middle by assumption.
      rewrite (t_count _ H), Ei, live_app. cbn [live]. now rewrite !app_length.
    - intros i kv' Hi. rewrite nth_error_replace in Hi by exact Hjl.
      destruct (Nat.eqb_spec j i) as [<-|]; [eapply (t_top _ H), Hj|eapply (t_top _ H), Hi].
    - pose proof (t_top_range _ H). unfold reserved in *. cbn [items]. rewrite replace_nth_length. lia.
    - apply (t_bound _ H).
  Qed.

  (** ** Inserting *)

  Lemma grow_ok : forall fuel res top0, 0 <= res -> (Z.to_nat (top0 - res + 1) < fuel)%nat ->
    exists res', grow_loop fuel res top0 = Ok res' /\ res <= res' /\ top0 < res'.
  Proof.
    induction fuel as [|fuel IH]; intros res top0 Hr Hf; [lia|]. cbn [grow_loop].
    destruct (res <=? top0) eqn:E.
    - destruct (IH (res * 5 / 4 + 1) top0) as [res' [E1 [E2 E3]]]; [lia|lia|]. exists res'. split; [exact E1|]. lia.
    - exists res. split; [reflexivity|]. lia.
  Qed.

  Lemma nth_error_nones {A} n j (x : A) : nth_error (repeat None n) j = Some (Some x) -> False.
  Proof. intros H. apply nth_error_repeat_inv in H. discriminate. Qed.

  Lemma allocate_ok t : table_ok t -> count (idx t) <= max_keys ->
    exists t', allocate_new_slot t = Ok (t', top t) /\ idx t' = idx t /\ top t' = top t + 1 /\ top t < reserved t' /\
      (exists n, items t' = items t ++ repeat None n).
  Proof.
    intros H Hmax. unfold allocate_new_slot.
    pose proof (t_top_range _ H) as Ht. pose proof (t_bound _ H) as Hb. unfold max_keys in Hmax. change (2 ^ 28) with 268435456 in Hmax.
    assert (W : wrap_s 32 (top t) = top t).
    { unfold wrap_s. change (2 ^ (32 - 1)) with 2147483648. change (2 ^ 32) with 4294967296.
      destruct (top t mod 4294967296 <? 2147483648) eqn:E; lia. }
    destruct (items t) as [|i0 is] eqn:E.
    - assert (Et : top t = 0) by (unfold reserved in Ht; rewrite E in Ht; cbn in Ht; lia).
      cbn [repeat length grow_loop]. change (Z.of_nat 4 <=? 0) with false. cbn [bind].
      change (Z.to_nat (Z.of_nat 4 - Z.of_nat 4)) with 0%nat. cbn [repeat app].
      eexists. rewrite Et. split; [reflexivity|]. cbn [idx top items]. split; [reflexivity|]. split; [lia|].
      split; [unfold reserved; cbn; lia|]. exists 4%nat. reflexivity.
    - rewrite <- E. fold (reserved t).
      destruct (grow_ok (S (Z.to_nat (top t - reserved t + 1))) (reserved t) (top t)) as [res' [E1 [E2 E3]]];
        [unfold reserved; lia|lia|].
      rewrite E1. cbn [bind]. rewrite W. eexists. split; [reflexivity|]. cbn [idx top items].
      split; [reflexivity|]. split; [reflexivity|]. split; [|eauto].
      unfold reserved in *. cbn [items]. rewrite app_length, repeat_length. lia.
  Qed.

  Lemma insert_ok t k v : table_ok t -> absent k (live (items t)) -> count (idx t) <= max_keys ->
    exists t', insert_key hash t k v = Ok t' /\ table_ok t' /\ live (items t') = m_set eqb (live (items t)) k v.
  Proof.
    intros H Habs Hmax. unfold insert_key.
    destruct (allocate_ok t H Hmax) as [t1 [E1 [Ei [Et [Hres [n Eits]]]]]]. rewrite E1. cbn [bind].
    pose proof (t_top_range _ H) as Ht.
    assert (Eh : forall s, slot_hash (items t1) s = slot_hash (items t) s).
    { intros s. rewrite Eits. unfold slot_hash. destruct (s <? 0); [reflexivity|].
      destruct (Nat.lt_ge_cases (Z.to_nat s) (length (items t))) as [L|L].
      - now rewrite nth_error_app1.
      - rewrite nth_error_app2 by exact L. rewrite (proj2 (nth_error_None (items t) _) L).
        destruct (nth_error (repeat None n) (Z.to_nat s - length (items t))) as [[x|]|] eqn:F; [|reflexivity|reflexivity].
        exfalso. eapply nth_error_nones, F. }
    set (j := Z.to_nat (top t)). assert (Ej : top t = Z.of_nat j) by lia.
    assert (Hnone : slot_hash (items t) (top t) = None).
    { destruct (slot_hash (items t) (top t)) as [h|] eqn:F; [|reflexivity].
      destruct (slot_hash_some _ _ _ F) as [j' [kv [Ej' [Hj' _]]]]. pose proof (t_top _ H _ _ Hj'). lia. }
    assert (Hix : index_or_null (idx t) (slot_hash (items t))) by apply (t_index _ H).
    rewrite Ei. destruct (add_ok (idx t) _ (hash k) (top t) Hix Hmax Hnone) as [ix' [E2 [Hok' Hc']]];
      [lia|apply (hash_range _ _ GK)|].
    rewrite E2. cbn [bind].
    assert (Hjl : (j < length (items t1))%nat) by (unfold reserved in Hres; lia).
    rewrite Ej, wr_ok by exact Hjl. cbn [bind]. eexists; split; [reflexivity|].
    destruct (nth_error_get _ _ Hjl) as [old Hold].
    assert (Eo : old = None).
    { destruct old as [kv|]; [|reflexivity]. apply slot_hash_at in Hold. rewrite Eh, <- Ej, Hnone in Hold. discriminate. }
    subst old. destruct (split_at _ _ _ Hold) as [a [b [Eab L]]].
    assert (Hlb : live b = []).
    { apply live_nil. intros i kv Hi.
      assert (nth_error (items t1) (j + S i) = Some (Some kv)).
      { rewrite Eab, nth_error_app2 by lia. replace (j + S i - length a)%nat with (S i) by lia. exact Hi. }
      apply slot_hash_at in H0. rewrite Eh in H0. destruct (slot_hash_some _ _ _ H0) as [j' [kv' [Ej' [Hj' _]]]].
      pose proof (t_top _ H _ _ Hj'). lia. }
    assert (Hla : live (items t) = live a).
    { transitivity (live (items t1)).
      - rewrite Eits, live_app, live_nones. now rewrite app_nil_r.
      - rewrite Eab, live_app. cbn [live]. rewrite Hlb. apply app_nil_r. }
    assert (El : live (replace_nth j (Some (k, v)) (items t1)) = m_set eqb (live (items t)) k v).
    { rewrite Eab, (replace_middle _ _ _ _ _ L), live_app. cbn [live]. rewrite Hlb, set_absent by exact Habs. now rewrite Hla. }
    split; [|exact El]. constructor; cbn [items idx top].
    - left. eapply index_ok_ext; [|exact Hok']. intros s. unfold upd.
      destruct (Z.eqb_spec s (top t)) as [->|Hne].
      + rewrite Ej. symmetry. apply (slot_hash_at _ j (k, v)). rewrite nth_error_replace by exact Hjl. now rewrite Nat.eqb_refl.
      + rewrite <- Eh. unfold slot_hash. destruct (s <? 0) eqn:F; [reflexivity|].
        rewrite nth_error_replace by exact Hjl. destruct (Nat.eqb_spec j (Z.to_nat s)); [lia|reflexivity].
    - rewrite El. apply distinct_set, t_distinct, H.
    - rewrite El, set_absent by exact Habs. rewrite app_length. cbn [length]. rewrite Hc', (t_count _ H). lia.
    - intros i kv Hi. rewrite nth_error_replace in Hi by exact Hjl. rewrite Et.
      destruct (Nat.eqb_spec j i) as [<-|]; [lia|].
      apply slot_hash_at in Hi. rewrite Eh in Hi. destruct (slot_hash_some _ _ _ Hi) as [j' [kv' [Ej' [Hj' _]]]].
      pose proof (t_top _ H _ _ Hj'). lia.
    - unfold reserved in *. cbn [items]. rewrite replace_nth_length. lia.
    - pose proof (t_bound _ H). lia.
  Qed.

  Lemma set_item_ok t k v : table_ok t -> Z.of_nat (length (m_set eqb (live (items t)) k v)) <= max_keys ->
    exists t', set_item eqb hash t k v = Ok t' /\ table_ok t' /\ live (items t') = m_set eqb (live (items t)) k v.
  Proof.
    intros H Hmax. unfold set_item. destruct (find_ok t k H) as [[Ha ->]|[j [kv [Hj [E ->]]]]]; cbn [bind].
    - change (-1 <? 0) with true. cbn iota. apply insert_ok; auto.
      rewrite (t_count _ H). pose proof (set_length_le (live (items t)) k v). lia.
    - destruct (Z.of_nat j <? 0) eqn:F; [lia|]. apply (assign_ok t k j kv v); auto.
  Qed.

  Lemma update_ok : forall l t, table_ok t -> Z.of_nat (length (m_update eqb (live (items t)) l)) <= max_keys ->
    exists t', update eqb hash t l = Ok t' /\ table_ok t' /\ live (items t') = m_update eqb (live (items t)) l.
  Proof.
    unfold update, m_update. induction l as [|[k v] l IH]; intros t H Hmax; cbn [fold_result fold_left fst snd] in *.
    - exists t. auto.
    - destruct (set_item_ok t k v H) as [t1 [E1 [H1 L1]]].
      { pose proof (update_length_le l (m_set eqb (live (items t)) k v)). unfold m_update in *. lia. }
      rewrite E1. cbn [bind]. rewrite <- L1 in *. apply IH; assumption.
  Qed.

  (** ** Compaction *)

  Lemma filter_populated (its : items_of) : filter populated its = map Some (live its).
  Proof. induction its as [|[kv|] its IH]; cbn [filter populated live map]; [reflexivity|now rewrite IH|exact IH]. Qed.

  Definition rank (its : items_of) (j : nat) : nat := length (live (firstn j its)).

  Lemma new_positions_nth (its : items_of) : forall n j, nth_error (new_positions n its) j =
    match nth_error its j with
    | Some (Some _) => Some (n + Z.of_nat (rank its j))
    | Some None => Some (-1)
    | None => None
    end.
  Proof.
    unfold rank. induction its as [|[kv|] its IH]; intros n [|j]; cbn [new_positions nth_error firstn live length]; auto.
    - f_equal. lia.
    - rewrite IH. destruct (nth_error its j) as [[kv'|]|]; auto. f_equal. lia.
  Qed.

  Lemma new_positions_length (its : items_of) : forall n, length (new_positions n its) = length its.
  Proof. induction its as [|[kv|] its IH]; intros n; cbn [new_positions length]; auto. Qed.

  Lemma rank_nth (its : items_of) : forall j kv, nth_error its j = Some (Some kv) -> nth_error (live its) (rank its j) = Some kv.
  Proof.
    unfold rank. induction its as [|[x|] its IH]; intros [|j] kv H; cbn in H; try discriminate; cbn [firstn live length nth_error].
    - congruence.
    - now apply IH.
    - now apply IH.
  Qed.

  Lemma rank_surj (its : items_of) : forall i kv, nth_error (live its) i = Some kv ->
    exists j, nth_error its j = Some (Some kv) /\ rank its j = i.
  Proof.
    unfold rank. induction its as [|[x|] its IH]; intros i kv H; cbn [live] in H.
    - destruct i; discriminate.
    - destruct i as [|i]; cbn in H.
      + exists 0%nat. split; [cbn; congruence|reflexivity].
      + destruct (IH i kv H) as [j [Hj E]]. exists (S j). cbn [nth_error firstn live length]. auto.
    - destruct (IH i kv H) as [j [Hj E]]. exists (S j). cbn [nth_error firstn live length]. auto.
  Qed.

  Lemma rank_inj (its : items_of) : forall i j kv kv', nth_error its i = Some (Some kv) -> nth_error its j = Some (Some kv') ->
    rank its i = rank its j -> i = j.
  Proof.
    unfold rank. induction its as [|[x|] its IH]; intros [|i] [|j] kv kv' Hi Hj E; cbn in Hi, Hj; try discriminate; auto;
      cbn [firstn live length] in E; try lia.
    - f_equal. eapply IH; eauto.
    - f_equal. eapply IH; eauto.
  Qed.

  Lemma map_result_ok {A B} (f : A -> result B) (g : A -> B) l : (forall x, In x l -> f x = Ok (g x)) ->
    map_result f l = Ok (map g l).
  Proof.
    induction l as [|x l IH]; intros H; [reflexivity|]. cbn [map_result map]. rewrite H by now left. cbn [bind].
    rewrite IH; [reflexivity|]. intros y Hy. apply H. now right.
  Qed.

  Lemma slot_hash_live (its : items_of) i : slot_hash (map Some (live its)) (Z.of_nat i) =
    option_map (fun kv => norm_hash (hash (fst kv))) (nth_error (live its) i).
  Proof.
    unfold slot_hash. destruct (Z.of_nat i <? 0) eqn:E; [lia|]. rewrite Nat2Z.id, nth_error_map.
    now destruct (nth_error (live its) i).
  Qed.

  Lemma live_map_some (l : list (K * V)) : live (map Some l) = l.
  Proof. induction l as [|x l IH]; cbn [map live]; [reflexivity|now rewrite IH]. Qed.

  Lemma compress_ok t : table_ok t ->
    exists t', compress_item_table t = Ok t' /\ table_ok t' /\ live (items t') = live (items t) /\
      count (idx t') = count (idx t) /\ size (idx t') = size (idx t) /\ reserved t' = count (idx t').
  Proof.
    intros H. unfold compress_item_table.
    set (f := fun s => if s <? 0 then s else Z.of_nat (rank (items t) (Z.to_nat s))).
    assert (Hcell : forall s, In s (slots (idx t)) -> s < 0 \/
              exists j kv, s = Z.of_nat j /\ nth_error (items t) j = Some (Some kv)).
    { intros s Hs. apply In_nth_error in Hs. destruct Hs as [p Hp].
      destruct (t_index _ H) as [Hi|[Hi _]]; [|rewrite Hi in Hp; destruct p; discriminate].
      destruct (ok_cell _ _ Hi p s Hp) as [->|[->|[_ [h [Hh _]]]]]; [left; unfold EMPTY; lia|left; unfold DELETED; lia|].
      right. destruct (slot_hash_some _ _ _ Hh) as [j [kv [E [Hj _]]]]. eauto. }
    rewrite (map_result_ok _ f).
    2:{ intros s Hs. unfold f. destruct (Hcell s Hs) as [Hneg|[j [kv [-> Hj]]]].
        - destruct (0 <=? s) eqn:E1, (s <? 0) eqn:E2; try lia. reflexivity.
        - destruct (0 <=? Z.of_nat j) eqn:E1; [|lia]. destruct (Z.of_nat j <? 0) eqn:E2; [lia|].
          rewrite new_positions_length. pose proof (nth_error_lt _ _ _ Hj).
          destruct (Z.of_nat (length (items t)) <=? Z.of_nat j) eqn:E3; [lia|].
          rewrite (rd_ok _ _ (Z.of_nat (rank (items t) j))).
          2:{ rewrite new_positions_nth, Hj. reflexivity. }
          cbn [bind]. destruct (Z.of_nat (rank (items t) j) <? 0) eqn:E4; [lia|]. now rewrite Nat2Z.id. }
    cbn [bind]. rewrite filter_populated, map_length.
    assert (Hrank : forall s, In s (slots (idx t)) -> f s < Z.of_nat (length (live (items t)))).
    { intros s Hs. unfold f. destruct (Hcell s Hs) as [Hneg|[j [kv [-> Hj]]]].
      - destruct (s <? 0) eqn:E2; lia.
      - destruct (Z.of_nat j <? 0) eqn:E2; [lia|]. rewrite Nat2Z.id. pose proof (nth_error_lt _ _ _ (rank_nth _ _ _ Hj)). lia. }
    destruct (existsb (fun s => Z.of_nat (length (live (items t))) <=? s) (map f (slots (idx t)))) eqn:Ex.
    { exfalso. apply existsb_exists in Ex. destruct Ex as [x [Hx Ex]]. apply in_map_iff in Hx.
      destruct Hx as [s [<- Hs]]. specialize (Hrank s Hs). lia. }
    eexists; split; [reflexivity|]. cbn [items idx top count].
    rewrite live_map_some. unfold size, reserved. cbn [slots items]. rewrite !map_length.
    split; [|repeat split; auto; symmetry; apply (t_count _ H)].
    constructor; cbn [items idx top count]; rewrite ?live_map_some.
    - destruct (t_index _ H) as [Hi|[A1 [A2 [A3 [A4 A5]]]]].
      + left. apply (rename_ok (idx t) (slot_hash (items t))); [exact Hi| | | |].
        * intros s Hs. unfold f. destruct (s <? 0) eqn:E; [reflexivity|lia].
        * intros s h Hs. destruct (slot_hash_some _ _ _ Hs) as [j [kv [-> [Hj ->]]]]. unfold f.
          destruct (Z.of_nat j <? 0) eqn:E; [lia|]. split; [lia|]. rewrite Nat2Z.id, slot_hash_live, (rank_nth _ _ _ Hj). reflexivity.
        * intros s s' h h' Hs Hs' E. destruct (slot_hash_some _ _ _ Hs) as [j [kv [-> [Hj _]]]].
          destruct (slot_hash_some _ _ _ Hs') as [j' [kv' [-> [Hj' _]]]]. unfold f in E.
          destruct (Z.of_nat j <? 0) eqn:E1; [lia|]. destruct (Z.of_nat j' <? 0) eqn:E2; [lia|].
          rewrite !Nat2Z.id in E. apply Nat2Z.inj in E. f_equal. eapply rank_inj; eauto.
        * intros s' h Hs'. destruct (slot_hash_some _ _ _ Hs') as [i [kv [-> [Hi' ->]]]].
          rewrite nth_error_map in Hi'. destruct (nth_error (live (items t)) i) as [kv'|] eqn:E; [|discriminate].
          cbn in Hi'. injection Hi' as ->. destruct (rank_surj _ _ _ E) as [j [Hj <-]].
          exists (Z.of_nat j). split; [|now apply slot_hash_at]. unfold f. destruct (Z.of_nat j <? 0) eqn:E2; [lia|]. now rewrite Nat2Z.id.
      + right. cbn [slots hashes count empties]. rewrite A1. repeat (split; [auto; fail|]). intros s.
        rewrite (null_live t H A1). cbn [map]. unfold slot_hash. destruct (s <? 0); [reflexivity|]. now destruct (Z.to_nat s).
    - apply (t_distinct _ H).
    - apply (t_count _ H).
    - intros j kv Hj. apply nth_error_lt in Hj. rewrite map_length in Hj. lia.
    - unfold reserved. cbn [items]. rewrite map_length. lia.
    - rewrite (t_count _ H). lia.
  Qed.

  Lemma shrink_ok t : table_ok t -> count (idx t) <= max_keys ->
    exists t', shrink t = Ok t' /\ table_ok t' /\ live (items t') = live (items t) /\
      reserved t' <= 4 * (count (idx t') + 2) /\ (slots (idx t') = [] <-> slots (idx t) = []).
  Proof.
    intros H Hmax. unfold shrink.
    assert (exists t1, (if (count (idx t) + 2) * 4 <? reserved t then compress_item_table t else Ok t) = Ok t1 /\
      table_ok t1 /\ live (items t1) = live (items t) /\ reserved t1 <= 4 * (count (idx t1) + 2) /\
      count (idx t1) = count (idx t) /\ size (idx t1) = size (idx t)) as [t1 [E1 [H1 [L1 [R1 [C1 S1]]]]]].
    { destruct ((count (idx t) + 2) * 4 <? reserved t) eqn:E.
      - destruct (compress_ok t H) as [t1 [E1 [H1 [L1 [C1 [S1 R1]]]]]]. exists t1. repeat (split; [assumption|]).
        pose proof (t_count _ H1). split; [lia|]. auto.
      - exists t. repeat (split; [auto; lia|]). auto. }
    rewrite E1. cbn [bind].
    assert (Hnil : forall ix : index, slots ix = [] <-> size ix = 0).
    { intros ix. unfold size. destruct (slots ix); cbn [length]; split; intros; try lia; congruence. }
    destruct (count (idx t1) <? size (idx t1) / 8) eqn:E2.
    - assert (Hn : slots (idx t1) <> []).
      { intros N. apply Hnil in N. pose proof (t_count _ H1). rewrite N in E2. change (0 / 8) with 0 in E2. lia. }
      destruct (resize_ok (idx t1) _ (t_index _ H1)) as [ix' [E3 [Hok [Hc [Hs He]]]]]; [lia|].
      rewrite E3. cbn [bind]. eexists; split; [reflexivity|]. cbn [items idx top].
      split; [|split; [exact L1|split; [unfold reserved in *; cbn [items]; lia|]]].
      + constructor; cbn [items idx top].
        * now left.
        * apply (t_distinct _ H1).
        * rewrite Hc. apply (t_count _ H1).
        * apply (t_top _ H1).
        * apply (t_top_range _ H1).
        * rewrite Hc. apply (t_bound _ H1).
      + pose proof (size_at_least _ _ Hok). rewrite !Hnil in *. split; intros; lia.
    - cbn [bind]. eexists; split; [reflexivity|]. cbn [items idx top]. destruct t1 as [i1 tp1 x1]. cbn [items idx top] in *.
      split; [exact H1|]. split; [exact L1|]. split; [exact R1|]. rewrite !Hnil. lia.
  Qed.

  (** ** Removing *)

  Lemma drop_slot_ok t p j kv k : table_ok t -> index_ok (idx t) (slot_hash (items t)) ->
    reserved t <= 4 * (count (idx t) + 2) ->
    nth_error (slots (idx t)) p = Some (Z.of_nat j) -> nth_error (items t) j = Some (Some kv) -> eqb k (fst kv) = true ->
    exists t', drop_slot t (Z.of_nat p) (Z.of_nat j) = Ok t' /\ table_ok t' /\ live (items t') = m_del eqb (live (items t)) k.
  Proof.
    intros H Hi Hres Hp Hj E. unfold drop_slot.
    assert (Hjl : (j < length (items t))%nat) by (eapply nth_error_lt, Hj).
    assert (Hpl : (p < length (slots (idx t)))%nat) by (eapply nth_error_lt, Hp).
    rewrite (wr_ok _ _ _ Hjl). cbn [bind]. rewrite (wr_ok _ _ _ Hpl). cbn [bind].
    rewrite wr_ok by (rewrite (ok_hashes _ _ Hi); exact Hpl). cbn [bind]. eexists; split; [reflexivity|].
    destruct (hit_split t k j kv H Hj E) as [a [b [Eab [L [Ha Hb]]]]].
    assert (El : live (replace_nth j None (items t)) = m_del eqb (live (items t)) k).
    { rewrite Eab, (replace_middle _ _ _ _ _ L), !live_app. cbn [live]. now rewrite del_middle. }
    split; [|exact El]. constructor; cbn [items idx top count].
    - left. eapply index_ok_ext; [|apply (drop_ok _ _ _ _ Hi Hp); lia]. intros s. unfold upd, slot_hash.
      destruct (Z.eqb_spec s (Z.of_nat j)) as [->|Hne].
      + destruct (Z.of_nat j <? 0); [reflexivity|]. rewrite nth_error_replace by exact Hjl. now rewrite Nat2Z.id, Nat.eqb_refl.
      + destruct (s <? 0) eqn:F; [reflexivity|]. rewrite nth_error_replace by exact Hjl.
        destruct (Nat.eqb_spec j (Z.to_nat s)); [lia|reflexivity].
    - rewrite El. apply distinct_del, t_distinct, H.
    - rewrite El, (t_count _ H), Eab, live_app. cbn [live]. rewrite del_middle by assumption.
      rewrite !app_length. cbn [length]. lia.
    - intros i kv' Hi'. rewrite nth_error_replace in Hi' by exact Hjl. destruct (Nat.eqb_spec j i); [discriminate|].
      eapply (t_top _ H), Hi'.
    - pose proof (t_top_range _ H). unfold reserved in *. cbn [items]. rewrite replace_nth_length. lia.
    - pose proof (t_top_range _ H). lia.
  Qed.

  Definition is_some {A} (o : option A) : bool := match o with Some _ => true | None => false end.

  Lemma remove_tail t k (body : Z -> result (option (option (Z * Z)))) :
    table_ok t -> index_ok (idx t) (slot_hash (items t)) -> reserved t <= 4 * (count (idx t) + 2) ->
    (forall p, nth_error (slots (idx t)) p = Some EMPTY -> body (Z.of_nat p) = Ok (Some None)) ->
    (forall p, nth_error (slots (idx t)) p = Some DELETED -> body (Z.of_nat p) = Ok None) ->
    (forall p j kv, nth_error (slots (idx t)) p = Some (Z.of_nat j) -> nth_error (items t) j = Some (Some kv) ->
       nth_error (hashes (idx t)) p = Some (norm_hash (hash (fst kv))) ->
       body (Z.of_nat p) = Ok (if eqb k (fst kv) then Some (Some (Z.of_nat p, Z.of_nat j)) else None)) ->
    exists t', (r <- probe (idx t) (norm_hash (hash k)) body ;;
        match r with
        | None => Ok (t, false)
        | Some (pos, s) => t <- drop_slot t pos s ;; Ok (t, true)
        end) = Ok (t', is_some (lookup (live (items t)) k)) /\
      table_ok t' /\ live (items t') = m_del eqb (live (items t)) k.
  Proof.
    intros H Hi Hres H1 H2 H3.
    destruct (search_ok t k body (fun p j => Some (Z.of_nat p, Z.of_nat j)) None H Hi H1 H2 H3)
      as [[Ha Hp]|[p [j [kv [Hp [Hj [Ek Hr]]]]]]].
    - rewrite Hp. cbn [bind]. rewrite (proj2 (lookup_absent _ _) Ha). exists t. rewrite del_absent by exact Ha. auto.
    - rewrite Hr. cbn [bind]. destruct (drop_slot_ok t p j kv k H Hi Hres Hp Hj Ek) as [t' [E [H' L']]].
      rewrite E. cbn [bind]. rewrite (hit_lookup t k j kv H Hj Ek). exists t'. auto.
  Qed.

  Lemma remove_ok t k : table_ok t -> count (idx t) <= max_keys ->
    exists t', remove eqb hash t k = Ok (t', is_some (lookup (live (items t)) k)) /\ table_ok t' /\
      live (items t') = m_del eqb (live (items t)) k.
  Proof.
    intros H Hmax. unfold remove. destruct (slots (idx t)) as [|s0 ss] eqn:E.
    - rewrite (null_live t H E). exists t. split; [reflexivity|]. rewrite (null_live t H E). auto.
    - destruct (shrink_ok t H Hmax) as [t1 [E1 [H1 [L1 [R1 N1]]]]]. rewrite E1. cbn [bind].
      assert (Hi : index_ok (idx t1) (slot_hash (items t1))) by (apply not_null; [exact H1|rewrite N1; congruence]).
      rewrite <- L1. apply remove_tail; auto.
      + intros p Hp. now rewrite (rd_ok _ _ _ Hp).
      + intros p Hp. now rewrite (rd_ok _ _ _ Hp).
      + intros p j kv Hp Hj Hh. rewrite (rd_ok _ _ _ Hp). cbn [bind]. destruct (not_special j) as [-> ->].
        now rewrite (rd_item_ok _ _ _ Hj).
  Qed.

  Lemma c_remove_ok t k : table_ok t -> count (idx t) <= max_keys ->
    exists t', c_remove eqb hash t k = Ok (t', is_some (lookup (live (items t)) k)) /\ table_ok t' /\
      live (items t') = m_del eqb (live (items t)) k.
  Proof.
    intros H Hmax. unfold c_remove.
    destruct (shrink_ok t H Hmax) as [t1 [E1 [H1 [L1 [R1 N1]]]]]. rewrite E1. cbn [bind]. rewrite <- L1.
    destruct (slots (idx t1)) as [|s0 ss] eqn:E.
    - rewrite (null_live t1 H1 E). exists t1. split; [reflexivity|]. rewrite (null_live t1 H1 E). auto.
    - rewrite <- E. assert (Hi : index_ok (idx t1) (slot_hash (items t1))) by (apply not_null; [exact H1|congruence]).
      apply remove_tail; auto.
      + intros p Hp. now rewrite (rd_ok _ _ _ Hp).
      + intros p Hp. now rewrite (rd_ok _ _ _ Hp).
      + intros p j kv Hp Hj Hh. rewrite (rd_ok _ _ _ Hp). cbn [bind]. destruct (not_special j) as [-> ->].
        rewrite (rd_ok _ _ _ Hh). cbn [bind].
        destruct (norm_hash (hash (fst kv)) =? norm_hash (hash k)) eqn:Eh.
        * now rewrite (rd_item_ok _ _ _ Hj).
        * destruct (eqb k (fst kv)) eqn:Ek; [|reflexivity]. rewrite (key_hash _ _ GK _ _ Ek) in Eh. lia.
  Qed.

  (** ** Clearing *)

  Lemma slot_hash_nones n s : slot_hash (repeat None n) s = None.
  Proof.
    unfold slot_hash. destruct (s <? 0); [reflexivity|].
    destruct (nth_error (repeat None n) (Z.to_nat s)) as [[kv|]|] eqn:E; auto. exfalso. eapply nth_error_nones, E.
  Qed.

  Lemma fresh_size ix hs : index_ok ix hs -> index_ok (fresh_index (size ix)) (fun _ => None).
  Proof.
    intros H. destruct (ok_size _ _ H) as [k [Hk E]]. unfold size. rewrite E, Nat2Z.inj_pow.
    change (Z.of_nat 2) with 2. now apply fresh_ok.
  Qed.

  Lemma cleared_ok t ix : table_ok t -> index_or_null ix (fun _ => None) -> count ix = 0 ->
    table_ok (Table (repeat None (length (items t))) 0 ix).
  Proof.
    intros H Hi Hc. constructor; cbn [items idx top]; rewrite ?live_nones; cbn [distinct_keys length]; auto; try lia.
    - destruct Hi as [Hi|[A1 [A2 [A3 [A4 A5]]]]].
      + left. eapply index_ok_ext; [|exact Hi]. intros s. now rewrite slot_hash_nones.
      + right. repeat (split; [assumption|]). apply slot_hash_nones.
    - intros j kv Hj. exfalso. eapply nth_error_nones, Hj.
    - unfold reserved. cbn [items]. lia.
  Qed.

  Lemma c_clear_ok t : table_ok t -> table_ok (c_clear t) /\ live (items (c_clear t)) = [].
  Proof.
    intros H. split; [|apply live_nones]. apply cleared_ok; [exact H| |reflexivity].
    destruct (t_index _ H) as [Hi|[A1 _]]; [left; eapply fresh_size, Hi|].
    right. unfold size. rewrite A1. cbn. auto.
  Qed.

  Lemma clear_ok t : table_ok t -> table_ok (clear t) /\ live (items (clear t)) = [].
  Proof.
    intros H. unfold clear. destruct (slots (idx t)) as [|s0 ss] eqn:E.
    - pose proof (null_live t H E) as N. split; [|apply live_nones].
      assert (Er : slot_hash (repeat None (length (items t))) = slot_hash (repeat None (length (items t)))) by reflexivity.
      constructor; cbn [items idx top]; rewrite ?live_nones; cbn [distinct_keys length]; auto.
      + destruct (t_index _ H) as [Hi|[A1 [A2 [A3 [A4 A5]]]]].
        * pose proof (length_pos _ _ Hi). rewrite E in *. cbn in *. lia.
        * right. repeat (split; [assumption|]). apply slot_hash_nones.
      + rewrite (t_count _ H), N. reflexivity.
      + intros j kv Hj. exfalso. eapply nth_error_nones, Hj.
      + pose proof (t_top_range _ H). unfold reserved in *. cbn [items]. rewrite repeat_length. lia.
      + apply (t_bound _ H).
    - apply c_clear_ok, H.
  Qed.

  (** ** Iterating *)

  Lemma skip_absent_ok (its : items_of) : forall off, exists n,
    skip_absent its off = off + Z.of_nat n /\ (n <= length its)%nat /\ live its = live (skipn n its) /\
    (n = length its \/ exists kv, nth_error its n = Some (Some kv)).
  Proof.
    induction its as [|[kv|] its IH]; intros off; cbn [skip_absent].
    - exists 0%nat. repeat split; auto. lia.
    - exists 0%nat. split; [lia|]. split; [lia|]. split; [reflexivity|]. right. now exists kv.
    - destruct (IH (off + 1)) as [n [E [Hn [El He]]]]. exists (S n). split; [lia|]. cbn [length skipn live].
      split; [lia|]. split; [exact El|]. destruct He as [->|[kv Hkv]]; [now left|right; now exists kv].
  Qed.

  Lemma skipn_skipn {A} (l : list A) : forall a b, skipn a (skipn b l) = skipn (a + b) l.
  Proof.
    induction l as [|x l IH]; intros a b; [now rewrite !skipn_nil|].
    destruct b as [|b]; [now rewrite Nat.add_0_r|]. rewrite Nat.add_succ_r. cbn [skipn]. apply IH.
  Qed.

  Lemma next_populated_ok (t : table) off : 0 <= off <= reserved t -> exists j,
    next_populated t off = Z.of_nat j /\ off <= Z.of_nat j /\ (j <= length (items t))%nat /\
    live (skipn (Z.to_nat off) (items t)) = live (skipn j (items t)) /\
    (j = length (items t) \/ exists kv, nth_error (items t) j = Some (Some kv)).
  Proof.
    intros Hoff. unfold next_populated, reserved in *.
    destruct (skip_absent_ok (skipn (Z.to_nat off) (items t)) off) as [n [E [Hn [El He]]]].
    rewrite skipn_length in Hn. exists (Z.to_nat off + n)%nat. split; [lia|]. split; [lia|]. split; [lia|].
    rewrite skipn_skipn in El. rewrite Nat.add_comm. split; [exact El|].
    destruct He as [->|[kv Hkv]].
    - left. rewrite skipn_length. lia.
    - right. exists kv. rewrite Nat.add_comm. rewrite <- Hkv.
      rewrite <- (firstn_skipn (Z.to_nat off) (items t)) at 1. rewrite nth_error_app2; rewrite firstn_length; [|lia].
      f_equal. lia.
  Qed.

  Lemma live_skipn_hit (its : items_of) j kv : nth_error its j = Some (Some kv) ->
    live (skipn j its) = kv :: live (skipn (S j) its).
  Proof.
    revert j. induction its as [|x its IH]; intros [|j] H; cbn in H; try discriminate.
    - injection H as ->. reflexivity.
    - cbn [skipn]. rewrite (IH j H). reflexivity.
  Qed.

  (** An iterator positioned at [j]. *)
  Lemma iter_next_at (t : table) j : count (idx t) = count (idx t) ->
    (j = length (items t) \/ exists kv, nth_error (items t) j = Some (Some kv)) -> (j <= length (items t))%nat ->
    forall n off, (off = Z.of_nat j /\ j <> 0%nat) \/ (off = 0 /\ next_populated t 0 = Z.of_nat j) ->
    (length (items t) - j < n)%nat ->
    iter_all iter_next n t (Iterator off (count (idx t))) = Ok (live (skipn j (items t))).
  Proof.
    intros _ Hj Hle n. revert j Hj Hle. induction n as [|n IH]; intros j Hj Hle off Hoff Hn; [lia|].
    cbn [iter_all]. unfold iter_next. cbn [it_offset it_size]. rewrite Z.eqb_refl. cbn [negb].
    assert (Eo : (if off =? 0 then next_populated t 0 else off) = Z.of_nat j).
    { destruct Hoff as [[-> H0]|[-> H0]]; [|exact H0]. destruct (Z.of_nat j =? 0) eqn:E; [lia|reflexivity]. }
    rewrite Eo. unfold reserved. destruct (Z.of_nat (length (items t)) <=? Z.of_nat j) eqn:E.
    - cbn [bind]. rewrite skipn_all2 by lia. reflexivity.
    - destruct Hj as [->|[kv Hkv]]; [lia|]. rewrite (rd_item_ok _ _ _ Hkv). cbn [bind].
      destruct (next_populated_ok t (Z.of_nat j + 1)) as [j' [E' [Hle' [Hl' [El' He']]]]]; [unfold reserved; lia|].
      rewrite E'. rewrite (IH j' He' Hl'); [|left; split; [reflexivity|lia]|lia]. cbn [bind].
      rewrite (live_skipn_hit _ _ _ Hkv). f_equal. f_equal. rewrite <- El'. do 2 f_equal. lia.
  Qed.

  Lemma iter_all_ok (t : table) : iter_all iter_next (S (length (items t))) t (iter_start t) = Ok (live (items t)).
  Proof.
    unfold iter_start. destruct (next_populated_ok t 0) as [j [E [Hle [Hl [El He]]]]]; [unfold reserved; lia|].
    change (Z.to_nat 0) with 0%nat in El. cbn [skipn] in El. rewrite El.
    apply iter_next_at; auto. lia.
  Qed.

  Lemma c_iter_next_at (t : table) : forall n off, -1 <= off < reserved t \/ (off = -1) -> (length (items t) - Z.to_nat (off + 1) < n)%nat ->
    iter_all c_iter_next n t (Iterator off (count (idx t))) = Ok (live (skipn (Z.to_nat (off + 1)) (items t))).
  Proof.
    induction n as [|n IH]; intros off Hoff Hn; [lia|].
    cbn [iter_all]. unfold c_iter_next. cbn [it_offset it_size]. rewrite Z.eqb_refl. cbn [negb].
    destruct (next_populated_ok t (off + 1)) as [j [E [Hle [Hl [El He]]]]]; [unfold reserved in *; lia|].
    rewrite E, El. unfold reserved. destruct (Z.of_nat (length (items t)) <=? Z.of_nat j) eqn:F.
    - cbn [bind]. rewrite skipn_all2 by lia. reflexivity.
    - destruct He as [->|[kv Hkv]]; [lia|]. rewrite (rd_item_ok _ _ _ Hkv). cbn [bind].
      rewrite IH; [|unfold reserved; lia|lia]. cbn [bind]. rewrite (live_skipn_hit _ _ _ Hkv). do 4 f_equal. lia.
  Qed.

  Lemma c_iter_all_ok (t : table) : iter_all c_iter_next (S (length (items t))) t (c_iter_start t) = Ok (live (items t)).
  Proof. unfold c_iter_start. rewrite c_iter_next_at; [reflexivity|auto|lia]. Qed.

  (** ** Copies and tables read from a stream *)

  Lemma duplicate_from : forall l t, table_ok t -> distinct (live (items t) ++ l) ->
    Z.of_nat (length (live (items t) ++ l)) <= max_keys ->
    exists t', fold_result (fun t' (kv : K * V) => insert_key hash t' (fst kv) (snd kv)) l t = Ok t' /\
      table_ok t' /\ live (items t') = live (items t) ++ l.
  Proof.
    induction l as [|[k v] l IH]; intros t H D Hmax; cbn [fold_result fst snd].
    - exists t. rewrite app_nil_r. auto.
    - assert (Habs : absent k (live (items t))) by apply (distinct_middle _ _ _ D).
      destruct (insert_ok t k v H Habs) as [t1 [E1 [H1 L1]]].
      { rewrite (t_count _ H). rewrite app_length in Hmax. lia. }
      rewrite E1. cbn [bind]. rewrite set_absent in L1 by exact Habs.
      assert (A : live (items t) ++ (k, v) :: l = live (items t1) ++ l) by (rewrite L1, <- app_assoc; reflexivity).
      rewrite A in *. apply IH; assumption.
  Qed.

  Lemma duplicate_ok t : table_ok t -> count (idx t) <= max_keys ->
    exists t', duplicate hash t = Ok t' /\ table_ok t' /\ live (items t') = live (items t).
  Proof.
    intros H Hmax. unfold duplicate. apply (duplicate_from (live (items t)) new_table new_table_ok).
    - apply (t_distinct _ H).
    - cbn [new_table items live app]. rewrite <- (t_count _ H). exact Hmax.
  Qed.

  Lemma update_distinct : forall l m, distinct (m ++ l) -> m_update eqb m l = m ++ l.
  Proof.
    unfold m_update. induction l as [|[k v] l IH]; intros m D; cbn [fold_left fst snd]; [now rewrite app_nil_r|].
    assert (Habs : absent k m) by apply (distinct_middle _ _ _ D).
    rewrite set_absent by exact Habs.
    assert (A : m ++ (k, v) :: l = (m ++ [(k, v)]) ++ l) by (rewrite <- app_assoc; reflexivity).
    rewrite A in *. now apply IH.
  Qed.

  Lemma c_duplicate_ok t : table_ok t -> count (idx t) <= max_keys ->
    exists t', c_duplicate eqb hash t = Ok t' /\ table_ok t' /\ live (items t') = live (items t).
  Proof.
    intros H Hmax. unfold c_duplicate.
    assert (U : m_update eqb [] (live (items t)) = live (items t)) by (apply update_distinct; apply (t_distinct _ H)).
    destruct (update_ok (live (items t)) new_table new_table_ok) as [t' [E [H' L']]].
    - cbn [new_table items live]. rewrite U, <- (t_count _ H). exact Hmax.
    - exists t'. cbn [new_table items live] in L'. rewrite U in L'. auto.
  Qed.

  Lemma copy_table_ok t : table_ok t -> table_ok (copy_table t) /\ live (items (copy_table t)) = live (items t).
  Proof.
    intros H. unfold copy_table. destruct (items t) as [|i is] eqn:E; [|now rewrite E].
    split; [apply new_table_ok|reflexivity].
  Qed.

  Lemma rebuild_fold : forall l n its ix, index_ok ix (slot_hash (map Some its)) -> n = length its ->
    count ix = Z.of_nat n -> Z.of_nat (n + length l) <= max_keys ->
    exists ix', fold_result (fun ix (sk : Z * (K * V)) => add (hash (fst (snd sk))) (fst sk) ix)
                  (combine (map Z.of_nat (seq n (length l))) l) ix = Ok ix' /\
      index_ok ix' (slot_hash (map Some (its ++ l))) /\ count ix' = Z.of_nat (n + length l).
  Proof.
    induction l as [|[k v] l IH]; intros n its ix H Hn Hc Hmax; cbn [length seq map combine fold_result fst snd].
    - exists ix. rewrite app_nil_r, Nat.add_0_r. auto.
    - assert (Hnone : slot_hash (map Some its) (Z.of_nat n) = None).
      { unfold slot_hash. destruct (Z.of_nat n <? 0); [reflexivity|]. rewrite Nat2Z.id.
        rewrite (proj2 (nth_error_None _ _)); [reflexivity|]. rewrite map_length. lia. }
      destruct (add_ok ix _ (hash k) (Z.of_nat n) (or_introl H)) as [ix1 [E1 [H1 C1]]];
        [cbn [length] in Hmax; lia|exact Hnone|lia|apply (hash_range _ _ GK)|].
      rewrite E1. cbn [bind].
      destruct (IH (S n) (its ++ [(k, v)]) ix1) as [ix' [E' [H' C']]].
      + eapply index_ok_ext; [|exact H1]. intros s. unfold upd, slot_hash. rewrite map_app. cbn [map].
        destruct (Z.eqb_spec s (Z.of_nat n)) as [->|Hne].
        * destruct (Z.of_nat n <? 0) eqn:F; [lia|]. rewrite Nat2Z.id, nth_error_app2; rewrite map_length; [|lia].
          rewrite Hn, Nat.sub_diag. reflexivity.
        * destruct (s <? 0) eqn:F; [reflexivity|].
          destruct (Nat.lt_ge_cases (Z.to_nat s) (length its)) as [L|L].
          -- rewrite nth_error_app1 by (rewrite map_length; exact L). reflexivity.
          -- rewrite nth_error_app2 by (rewrite map_length; exact L). rewrite map_length.
             rewrite (proj2 (nth_error_None (map Some its) _)) by (rewrite map_length; lia).
             destruct (Z.to_nat s - length its)%nat as [|q] eqn:Q; [lia|]. cbn. now destruct q.
      + rewrite app_length. cbn [length]. lia.
      + lia.
      + cbn [length] in Hmax. lia.
      + exists ix'. rewrite <- app_assoc in H'. cbn [app] in H'. split; [exact E'|]. split; [exact H'|]. lia.
  Qed.

  Lemma rebuild_ok l : distinct l -> Z.of_nat (length l) <= max_keys ->
    exists t, rebuild hash l = Ok t /\ table_ok t /\ live (items t) = l.
  Proof.
    intros D Hmax. unfold rebuild. rewrite map_length.
    destruct (pick_ok (Z.of_nat (length l) * 2)) as [k [Hk [E Hmin]]].
    { unfold max_keys in Hmax. change (2 ^ 30) with (4 * 2 ^ 28). lia. }
    rewrite E. cbn [bind].
    destruct (rebuild_fold l 0 [] (fresh_index (2 ^ Z.of_nat k))) as [ix [E' [H' C']]]; auto.
    - eapply index_ok_ext; [|apply (fresh_ok k Hk)]. intros s. symmetry. apply (slot_hash_nones 0).
    - rewrite E'. cbn [bind]. eexists; split; [reflexivity|]. cbn [items]. split; [|apply live_map_some].
      cbn [app] in H'. constructor; cbn [items idx top]; rewrite ?live_map_some; auto.
      + now left.
      + intros j kv Hj. apply nth_error_lt in Hj. rewrite map_length in Hj. lia.
      + unfold reserved. cbn [items]. rewrite map_length. lia.
      + rewrite C'. lia.
  Qed.

  (** ** One operation *)

  Definition represents (t : table) (m : list (K * V)) : Prop := table_ok t /\ live (items t) = m.

  Lemma step_ok o t m : represents t m -> Z.of_nat (length m) <= max_keys ->
    Z.of_nat (length (fst (m_step eqb o m))) <= max_keys ->
    exists t', step eqb hash o t = Ok (t', snd (m_step eqb o m)) /\ represents t' (fst (m_step eqb o m)).
  Proof.
    intros [H <-] Hmax Hmax'. assert (Hc : count (idx t) <= max_keys) by (rewrite (t_count _ H); exact Hmax).
    destruct o as [k v|k|k|k|k d|k v|k|k d| | | |l|]; cbn [step m_step fst snd] in *.
    - destruct (set_item_ok t k v H Hmax') as [t' [-> [H' L']]]. cbn [bind]. exists t'. split; [reflexivity|split; assumption].
    - rewrite (lookup_value_ok t k H). cbn [bind]. exists t. split; [reflexivity|split; auto].
    - destruct (remove_ok t k H Hc) as [t' [-> [H' L']]]. cbn [bind]. exists t'. split; [|split; assumption].
      now destruct (lookup (live (items t)) k).
    - rewrite (lookup_value_ok t k H). cbn [bind]. exists t. split; [reflexivity|split; auto].
    - rewrite (lookup_value_ok t k H). cbn [bind]. exists t. split; [reflexivity|split; auto].
    - rewrite (lookup_value_ok t k H). cbn [bind]. destruct (lookup (live (items t)) k) as [v'|] eqn:E; cbn [fst snd].
      + exists t. split; [reflexivity|split; auto].
      + destruct (insert_ok t k v H) as [t' [-> [H' L']]]; [now apply lookup_absent|exact Hc|].
        cbn [bind]. exists t'. split; [reflexivity|split; assumption].
    - rewrite (lookup_value_ok t k H). cbn [bind]. destruct (lookup (live (items t)) k) as [v'|] eqn:E.
      + destruct (remove_ok t k H Hc) as [t' [-> [H' L']]]. cbn [bind]. exists t'. split; [reflexivity|split; assumption].
      + exists t. split; [reflexivity|]. split; [exact H|]. rewrite del_absent; [reflexivity|now apply lookup_absent].
    - rewrite (lookup_value_ok t k H). cbn [bind]. destruct (lookup (live (items t)) k) as [v'|] eqn:E.
      + destruct (remove_ok t k H Hc) as [t' [-> [H' L']]]. cbn [bind]. exists t'. split; [reflexivity|split; assumption].
      + exists t. split; [reflexivity|]. split; [exact H|]. rewrite del_absent; [reflexivity|now apply lookup_absent].
    - exists (clear t). split; [reflexivity|]. apply clear_ok, H.
    - exists t. rewrite (t_count _ H). split; [reflexivity|split; auto].
    - rewrite iter_all_ok. cbn [bind]. exists t. split; [reflexivity|split; auto].
    - destruct (update_ok l t H Hmax') as [t' [-> [H' L']]]. cbn [bind]. exists t'. split; [reflexivity|split; assumption].
    - destruct (duplicate_ok t H Hc) as [t' [-> [H' L']]]. cbn [bind]. exists t'. split; [reflexivity|split; assumption].
  Qed.

  Lemma lookup_set_same m k v : lookup (m_set eqb m k v) k = Some v.
  Proof.
    induction m as [|[k' v'] m IH]; cbn [m_set m_lookup]; [now rewrite (key_refl _ _ GK)|].
    destruct (eqb k k') eqn:E; cbn [m_lookup]; rewrite E; auto.
  Qed.

  Lemma c_step_ok o t m : represents t m -> Z.of_nat (length m) <= max_keys ->
    Z.of_nat (length (fst (m_step eqb o m))) <= max_keys ->
    exists t', c_step eqb hash o t = Ok (t', snd (m_step eqb o m)) /\ represents t' (fst (m_step eqb o m)).
  Proof.
    intros [H <-] Hmax Hmax'. assert (Hc : count (idx t) <= max_keys) by (rewrite (t_count _ H); exact Hmax).
    destruct o as [k v|k|k|k|k d|k v|k|k d| | | |l|]; cbn [c_step m_step fst snd] in *.
    - destruct (set_item_ok t k v H Hmax') as [t' [-> [H' L']]]. cbn [bind]. exists t'. split; [reflexivity|split; assumption].
    - rewrite (lookup_value_ok t k H). cbn [bind]. exists t. split; [reflexivity|split; auto].
    - destruct (c_remove_ok t k H Hc) as [t' [-> [H' L']]]. cbn [bind]. exists t'. split; [|split; assumption].
      now destruct (lookup (live (items t)) k).
    - destruct (find_lookup t k H) as [s [-> [E1 E2]]]. cbn [bind]. rewrite E1. exists t. split; [|split; auto].
      now destruct (lookup (live (items t)) k).
    - rewrite (lookup_value_ok t k H). cbn [bind]. exists t. split; [reflexivity|split; auto].
    - destruct (find_lookup t k H) as [s [-> [E1 E2]]]. cbn [bind]. rewrite E1.
      destruct (lookup (live (items t)) k) as [v'|] eqn:E; cbn [fst snd bind] in *.
      + rewrite (lookup_value_ok t k H), E. cbn [bind]. exists t. split; [reflexivity|split; auto].
      + destruct (set_item_ok t k v H Hmax') as [t' [-> [H' L']]]. cbn [bind].
        rewrite (lookup_value_ok t' k H'), L', lookup_set_same. cbn [bind]. exists t'. split; [reflexivity|split; assumption].
    - destruct (find_lookup t k H) as [s [-> [E1 E2]]]. cbn [bind]. rewrite E1.
      destruct (lookup (live (items t)) k) as [v'|] eqn:E.
      + rewrite (lookup_value_ok t k H), E. cbn [bind].
        destruct (c_remove_ok t k H Hc) as [t' [-> [H' L']]]. cbn [bind]. rewrite E. cbn [is_some].
        exists t'. split; [reflexivity|split; assumption].
      + exists t. split; [reflexivity|]. split; [exact H|]. rewrite del_absent; [reflexivity|now apply lookup_absent].
    - destruct (find_lookup t k H) as [s [-> [E1 E2]]]. cbn [bind]. rewrite E1.
      destruct (lookup (live (items t)) k) as [v'|] eqn:E.
      + rewrite (lookup_value_ok t k H), E. cbn [bind].
        destruct (c_remove_ok t k H Hc) as [t' [-> [H' L']]]. cbn [bind]. rewrite E. cbn [is_some].
        exists t'. split; [reflexivity|split; assumption].
      + exists t. split; [reflexivity|]. split; [exact H|]. rewrite del_absent; [reflexivity|now apply lookup_absent].
    - exists (c_clear t). split; [reflexivity|]. apply c_clear_ok, H.
    - exists t. rewrite (t_count _ H). split; [reflexivity|split; auto].
    - rewrite c_iter_all_ok. cbn [bind]. exists t. split; [reflexivity|split; auto].
    - destruct (update_ok l t H Hmax') as [t' [-> [H' L']]]. cbn [bind]. exists t'. split; [reflexivity|split; assumption].
    - destruct (c_duplicate_ok t H Hc) as [t' [-> [H' L']]]. cbn [bind]. exists t'. split; [reflexivity|split; assumption].
  Qed.

  Lemma step_in_ok md o t m : represents t m -> Z.of_nat (length m) <= max_keys ->
    Z.of_nat (length (fst (m_step eqb o m))) <= max_keys ->
    exists t', step_in eqb hash md o t = Ok (t', snd (m_step eqb o m)) /\ represents t' (fst (m_step eqb o m)).
  Proof. destruct md; [apply step_ok|apply c_step_ok]. Qed.

  (** ** Histories *)

  Lemma within_start n (l : list (op K V)) m : m_within eqb n l m -> Z.of_nat (length m) <= n.
  Proof. destruct l; intros [H _]; exact H. Qed.

  Lemma run_ok : forall l t m, represents t m -> m_within eqb max_keys (map snd l) m ->
    exists t', run eqb hash l t = Ok (t', snd (m_run eqb (map snd l) m)) /\ represents t' (fst (m_run eqb (map snd l) m)).
  Proof.
    induction l as [|[md o] l IH]; intros t m H W; cbn [run map snd m_run] in *.
    - exists t. auto.
    - destruct W as [W1 W2]. destruct (m_step eqb o m) as [m1 r] eqn:E1. cbn [fst] in W2.
      destruct (step_in_ok md o t m H W1) as [t1 [E H1]]; [rewrite E1; eapply within_start, W2|].
      rewrite E1 in *. cbn [fst snd] in *. rewrite E. cbn [bind].
      destruct (IH t1 m1 H1 W2) as [t2 [E2 H2]]. destruct (m_run eqb (map snd l) m1) as [m2 rs]. cbn [fst snd] in *.
      rewrite E2. cbn [bind]. exists t2. auto.
  Qed.

  Lemma new_represents : represents new_table [].
  Proof. split; [apply new_table_ok|reflexivity]. Qed.
End Table.
