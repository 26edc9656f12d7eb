(** Proofs about type functions. *)
From Coq Require Import ZifyBool ZifyNat Permutation Sorted.
From Verif Require Import Base TypeFun_Model TypeFun_Spec.

Lemma put_same {A} k (x : A) f : put k x f k = x.
Proof. unfold put. now rewrite Nat.eqb_refl. Qed.
Lemma put_other {A} k (x : A) f j : j <> k -> put k x f j = f j.
Proof. intros N. unfold put. destruct (Nat.eqb_spec j k); congruence. Qed.
Lemma tid_eqb_eq a b : tid_eqb a b = true <-> a = b.
Proof. destruct a, b; cbn; try rewrite Nat.eqb_eq; split; congruence. Qed.

(** What holds of the tables while the function is running for the keys [st]. *)
Record core (s : state) (st : list nat) : Prop := {
  c_forward : forall k, memo s k = Some Forward <-> In k st;
  c_stack : NoDup st;
  c_defined : forall k t, defined s k = Some t <-> memo s k = Some (Result t);
  c_once : NoDup (started s);
  c_started : forall k, In k (started s) <-> memo s k <> None;
  c_got : forall i k a, got s i k a -> exists x, memo s k = Some x /\ x <> Forward /\ a = answer_of k x;
  c_origin : forall t k, In (t, k) (origin s) -> memo s k = Some (Result t);
  c_has_origin : forall t k, memo s k = Some (Result t) -> has_origin s t = true;
  c_parts : forall ps k, In ps (made s) -> In (GotForward k) ps -> memo s k <> None }.
(** Which thread runs, and for which keys *)
Definition not_running (s : state) (i : nat) : Prop := forall k b cs, threads s i <> Running k b cs.
Definition shape (s : state) (st : list nat) : Prop :=
  (st = [] /\ lock s = None /\ forall i, not_running s i)
  \/ (exists i k b cs, lock s = Some i /\ threads s i = Running k b cs /\ st = k :: map fst cs /\ forall j, j <> i -> not_running s j).
Definition inv (s : state) : Prop := exists st, core s st /\ shape s st.

Lemma core_same s s' st : memo s' = memo s -> defined s' = defined s -> origin s' = origin s -> made s' = made s ->
  started s' = started s -> returned s' = returned s -> core s st -> core s' st.
Proof.
  intros M D O A S R C. destruct C. constructor; unfold got, has_origin in *; rewrite ?M, ?D, ?O, ?A, ?S, ?R; try assumption; intros; rewrite ?M; eauto.
Qed.
Lemma core_return s st i k x : core s st -> memo s k = Some x -> x <> Forward -> core (log_return s i k (answer_of k x)) st.
Proof.
  intros C M N. destruct C. constructor; try assumption. intros i' k' a [E|H]; [|eapply c_got0, H]. injection E as <- <- <-. exists x. now split.
Qed.
Lemma core_start s st k : core s st -> memo s k = None -> core (log_start (set_memo s k Forward) k) (k :: st).
Proof.
  intros C M. destruct C.
  assert (forall j x, memo s j = Some x -> j <> k) as Old by (intros j x E ->; congruence).
  constructor; cbn [log_start set_memo memo defined started returned origin made].
  - intros j. destruct (Nat.eq_dec j k) as [->|J]; [rewrite put_same; cbn; split; auto|]. rewrite put_other by exact J. rewrite c_forward0. cbn. split; [tauto|]. intros [E|H]; [congruence|exact H].
  - constructor; [|exact c_stack0]. intros I. apply c_forward0 in I. congruence.
  - intros j t. destruct (Nat.eq_dec j k) as [->|J]; [rewrite put_same|now rewrite put_other]. rewrite c_defined0, M. split; discriminate.
  - constructor; [|exact c_once0]. intros I. apply c_started0 in I. congruence.
  - intros j. cbn [In]. destruct (Nat.eq_dec j k) as [->|J]; [rewrite put_same; split; [discriminate|auto]|]. rewrite put_other by exact J. rewrite <- c_started0. split; [intros [E|H]; [congruence|exact H]|auto].
  - intros i j a G. destruct (c_got0 i j a G) as (x & E & F). exists x. rewrite put_other by (eapply Old; exact E). now split.
  - intros t j I. pose proof (c_origin0 t j I) as E. rewrite put_other by (eapply Old; exact E). exact E.
  - intros t j. destruct (Nat.eq_dec j k) as [->|J]; [rewrite put_same; discriminate|]. rewrite put_other by exact J. apply c_has_origin0.
  - intros ps j P I. destruct (Nat.eq_dec j k) as [->|J]; [rewrite put_same; discriminate|]. rewrite put_other by exact J. eapply c_parts0; eassumption.
Qed.
Lemma core_raise s st k e : core s (k :: st) -> core (set_memo s k (Failed e)) st.
Proof.
  intros C. destruct C. assert (memo s k = Some Forward) as M by (apply c_forward0; now left).
  inversion c_stack0; subst.
  constructor; cbn [set_memo memo defined started returned origin made]; try assumption.
  - intros j. destruct (Nat.eq_dec j k) as [->|J]; [rewrite put_same; split; [discriminate|contradiction]|]. rewrite put_other by exact J. rewrite c_forward0. cbn. split; [intros [E|H]; [congruence|exact H]|auto].
  - intros j t. destruct (Nat.eq_dec j k) as [->|J]; [rewrite put_same|now rewrite put_other]. rewrite c_defined0, M. split; discriminate.
  - intros j. rewrite c_started0. destruct (Nat.eq_dec j k) as [->|J]; [rewrite put_same, M; split; discriminate|now rewrite put_other].
  - intros i j a G. destruct (c_got0 i j a G) as (x & E & N & F). exists x. rewrite put_other by (intros ->; congruence). now repeat split.
  - intros t j I. pose proof (c_origin0 t j I) as E. rewrite put_other by (intros ->; congruence). exact E.
  - intros t j. destruct (Nat.eq_dec j k) as [->|J]; [rewrite put_same; discriminate|]. rewrite put_other by exact J. apply c_has_origin0.
  - intros ps j P I. destruct (Nat.eq_dec j k) as [->|J]; [rewrite put_same; discriminate|]. rewrite put_other by exact J. eapply c_parts0; eassumption.
Qed.
Lemma core_result s st k t : core s (k :: st) -> core (set_memo (note_origin (define s k t) k t) k (Result t)) st.
Proof.
  intros C. destruct C. assert (memo s k = Some Forward) as M by (apply c_forward0; now left).
  inversion c_stack0; subst.
  assert (memo (note_origin (define s k t) k t) = memo s) as EM by (unfold note_origin; destruct (has_origin _ _); reflexivity).
  assert (defined (note_origin (define s k t) k t) = put k (Some t) (defined s)) as ED by (unfold note_origin; destruct (has_origin _ _); reflexivity).
  assert (made (note_origin (define s k t) k t) = made s) as EA by (unfold note_origin; destruct (has_origin _ _); reflexivity).
  assert (started (note_origin (define s k t) k t) = started s) as ES by (unfold note_origin; destruct (has_origin _ _); reflexivity).
  assert (returned (note_origin (define s k t) k t) = returned s) as ER by (unfold note_origin; destruct (has_origin _ _); reflexivity).
  assert (forall p, In p (origin (note_origin (define s k t) k t)) -> p = (t, k) \/ In p (origin s)) as EO.
  { intros p. unfold note_origin. destruct (has_origin _ _); cbn; intuition congruence. }
  assert (forall u, has_origin (note_origin (define s k t) k t) u = true <-> u = t \/ has_origin s u = true) as EH.
  { intros u. unfold note_origin. destruct (has_origin (define s k t) t) eqn:H.
    - split; [auto|]. intros [->|U]; [exact H|exact U].
    - unfold has_origin at 1. cbn [origin existsb fst]. rewrite orb_true_iff, tid_eqb_eq. unfold has_origin. cbn [define origin]. intuition congruence. }
  constructor; unfold got, set_memo; cbn [memo defined started returned origin made]; rewrite ?EM, ?ED, ?EA, ?ES, ?ER; try assumption.
  - intros j. destruct (Nat.eq_dec j k) as [->|J]; [rewrite put_same; split; [discriminate|contradiction]|]. rewrite put_other by exact J. rewrite c_forward0. cbn. split; [intros [E|I]; [congruence|exact I]|auto].
  - intros j u. destruct (Nat.eq_dec j k) as [->|J]; [rewrite !put_same; split; congruence|]. now rewrite !put_other.
  - intros j. rewrite c_started0. destruct (Nat.eq_dec j k) as [->|J]; [rewrite put_same, M; split; discriminate|now rewrite put_other].
  - intros i j a G. destruct (c_got0 i j a G) as (x & E & N & F). exists x. rewrite put_other by (intros ->; congruence). now repeat split.
  - intros u j I. apply EO in I. destruct I as [I|I]; [injection I as -> ->; apply put_same|]. pose proof (c_origin0 u j I) as E. rewrite put_other by (intros ->; congruence). exact E.
  - intros u j E. change (has_origin (note_origin (define s k t) k t) u = true). apply EH. destruct (Nat.eq_dec j k) as [->|J].
    + rewrite put_same in E. left. congruence.
    + rewrite put_other in E by exact J. right. eapply c_has_origin0, E.
  - intros ps j P I. destruct (Nat.eq_dec j k) as [->|J]; [rewrite put_same; discriminate|]. rewrite put_other by exact J. eapply c_parts0; eassumption.
Qed.
Lemma core_made s st ps : core s st -> core (add_made s (filter (exists_already s) ps)) st.
Proof.
  intros C. destruct C. constructor; try assumption. cbn [add_made made memo]. intros qs k P I. apply in_app_iff in P. destruct P as [P|[<-|[]]]; [eapply c_parts0; eassumption|].
  apply filter_In in I. destruct I as [_ I]. cbn in I. destruct (memo s k); [discriminate|discriminate].
Qed.

Lemma come_back_inv s i k x cs : core s (map fst cs) -> memo s k = Some x -> lock s = Some i -> (forall j, j <> i -> not_running s j) ->
  inv (come_back s i k (answer_of k x) cs).
Proof.
  intros C M L N. destruct cs as [|[k' c] cs]; cbn [come_back].
  - exists []. split.
    + assert (x <> Forward) as X by (intros ->; apply (c_forward _ _ C) in M; destruct M).
      apply core_return; [|exact M|exact X]. eapply core_same; [..|exact C]; reflexivity.
    + left. split; [reflexivity|]. split; [reflexivity|]. intros j. unfold not_running. cbn. intros k0 b0 cs0. destruct (Nat.eq_dec j i) as [->|J]; [now rewrite put_same|]. rewrite put_other by exact J. now apply N.
  - exists (k' :: map fst cs). split; [eapply core_same; [..|exact C]; reflexivity|]. right. exists i, k', (c (answer_of k x)), cs.
    split; [exact L|]. split; [cbn; apply put_same|]. split; [reflexivity|]. intros j J k0 b0 cs0. cbn. rewrite put_other by exact J. now apply N.
Qed.
Lemma locked_call_inv f s i k cs : core s (map fst cs) -> lock s = Some i -> (forall j, j <> i -> not_running s j) -> inv (locked_call f s i k cs).
Proof.
  intros C L N. unfold locked_call. destruct (memo s k) as [x|] eqn:M; [now apply come_back_inv|].
  exists (k :: map fst cs). split.
  - eapply core_same; [..|apply core_start; [exact C|exact M]]; reflexivity.
  - right. exists i, k, (f k), cs. split; [exact L|]. split; [cbn; apply put_same|]. split; [reflexivity|]. intros j J k0 b0 cs0. cbn. rewrite put_other by exact J. now apply N.
Qed.
Lemma note_origin_rest s k t : lock (note_origin s k t) = lock s /\ threads (note_origin s k t) = threads s.
Proof. unfold note_origin. destruct (has_origin s t); now split. Qed.

Lemma go_inv f s i s' : inv s -> go f s i = Some s' -> inv s'.
Proof.
  intros (st & C & S) G. unfold go in G. destruct (threads s i) as [|k|k b cs] eqn:T; [discriminate| |].
  - destruct (lock s) eqn:L; [discriminate|]. injection G as <-. destruct S as [(-> & _ & N)|(j & k0 & b & cs & L' & _)]; [|congruence].
    apply locked_call_inv; [eapply core_same; [..|exact C]; reflexivity|reflexivity|]. intros j _. exact (N j).
  - destruct S as [(_ & _ & N)|(j & k0 & b0 & cs0 & L & T' & -> & N)]; [exfalso; eapply (N i), T|].
    destruct (Nat.eq_dec i j) as [->|J]; [|exfalso; exact (N i J k b cs T)]. rewrite T in T'. injection T' as <- <- <-.
    destruct b as [ps c|k' c|t|e]; injection G as <-.
    + exists (k :: map fst cs). split; [eapply core_same; [..|apply core_made, C]; reflexivity|]. right. exists j, k, (c (Made (length (made s)))), cs.
      split; [exact L|]. split; [cbn; apply put_same|]. split; [reflexivity|]. intros j' J k0 b0 cs0. cbn. rewrite put_other by exact J. now apply N.
    + apply locked_call_inv; [exact C|exact L|exact N].
    + destruct (note_origin_rest (define s k t) k t) as [RL RT].
      change (GotType t) with (answer_of k (Result t)). apply come_back_inv.
      * apply core_result, C.
      * cbn [set_memo memo]. apply put_same.
      * cbn [set_memo lock]. rewrite RL. exact L.
      * intros j' J k0 b0 cs0. cbn [set_memo threads]. rewrite RT. now apply N.
    + change (GotError e) with (answer_of k (Failed e)). apply come_back_inv.
      * apply core_raise, C.
      * cbn [set_memo memo]. apply put_same.
      * exact L.
      * exact N.
Qed.
Lemma begin_inv s i k s' : inv s -> begin s i k = Some s' -> inv s'.
Proof.
  intros (st & C & S) B. unfold begin in B. destruct (threads s i) as [| |] eqn:T; try discriminate.
  assert (inv (set_thread s i (Waiting k))) as W.
  { exists st. split; [eapply core_same; [..|exact C]; reflexivity|]. destruct S as [(-> & L & N)|(j & k0 & b & cs & L & T' & -> & N)].
    - left. split; [reflexivity|]. split; [exact L|]. intros j k0 b0 cs0. cbn. destruct (Nat.eq_dec j i) as [->|J]; [now rewrite put_same|]. rewrite put_other by exact J. apply N.
    - right. exists j, k0, b, cs. split; [exact L|]. assert (j <> i) as J by congruence. split; [cbn; now rewrite put_other|]. split; [reflexivity|].
      intros j' J' k1 b1 cs1. cbn. destruct (Nat.eq_dec j' i) as [->|J2]; [now rewrite put_same|]. rewrite put_other by exact J2. now apply N. }
  assert (forall x, memo s k = Some x -> x <> Forward -> inv (log_return s i k (answer_of k x))) as R.
  { intros x M X. exists st. split; [now apply core_return|exact S]. }
  destruct (memo s k) as [[|t|e]|] eqn:M; injection B as <-; try exact W.
  - apply (R (Result t)); [reflexivity|discriminate].
  - apply (R (Failed e)); [reflexivity|discriminate].
Qed.
Lemma happen_inv f s e : inv s -> inv (happen f s e).
Proof.
  intros I. unfold happen. destruct e as [i k|i].
  - destruct (begin s i k) eqn:B; [eapply begin_inv; eassumption|exact I].
  - destruct (go f s i) eqn:G; [eapply go_inv; eassumption|exact I].
Qed.
Lemma start_inv : inv start.
Proof.
  exists []. split.
  - constructor; cbn; try constructor; try (intros; contradiction || discriminate); intros; try (split; intros; try contradiction; discriminate); try discriminate; try congruence; try contradiction; tauto.
  - left. split; [reflexivity|]. split; [reflexivity|]. intros i k b cs. discriminate.
Qed.
Lemma run_inv f : forall es, inv (run f es).
Proof.
  intros es. unfold run. assert (forall es s, inv s -> inv (fold_left (happen f) es s)) as H.
  { induction es0 as [|e es0 IH]; intros s I; [exact I|]. cbn. apply IH, happen_inv, I. }
  apply H, start_inv.
Qed.

(** ** Consequences *)
Lemma running_has_lock s i k b cs st : shape s st -> threads s i = Running k b cs -> lock s = Some i /\ st = k :: map fst cs.
Proof.
  intros [(_ & _ & N)|(j & k0 & b0 & cs0 & L & T & -> & N)] R; [exfalso; eapply N, R|].
  destruct (Nat.eq_dec i j) as [->|J]; [|exfalso; eapply N; eassumption]. rewrite T in R. injection R as <- <- <-. now split.
Qed.
Lemma in_progress_stack s st i k : shape s st -> in_progress s i k -> In k st.
Proof.
  intros S P. unfold in_progress in P. destruct (threads s i) as [| |k0 b cs] eqn:T; try contradiction.
  destruct (running_has_lock _ _ _ _ _ _ S T) as [_ ->]. cbn. destruct P as [->|P]; [now left|now right].
Qed.
Lemma stack_in_progress s st k : shape s st -> In k st -> exists i, lock s = Some i /\ in_progress s i k.
Proof.
  intros [(-> & _)|(j & k0 & b0 & cs0 & L & T & -> & N)] I; [destruct I|]. exists j. split; [exact L|]. unfold in_progress. rewrite T. destruct I as [<-|I]; [now left|now right].
Qed.
Lemma find_origin s t k : type_function_of s t = Some k -> In (t, k) (origin s).
Proof.
  unfold type_function_of. destruct (find _ _) as [[u j]|] eqn:F; [|discriminate]. intros E. injection E as <-. apply find_some in F. destruct F as [I E]. cbn in E. apply tid_eqb_eq in E. now subst.
Qed.
Lemma has_origin_find s t : has_origin s t = true -> exists k, type_function_of s t = Some k.
Proof.
  unfold has_origin, type_function_of. intros H. apply existsb_exists in H. destruct H as (p & I & E). destruct (find _ _) as [[u j]|] eqn:F; [now exists j|].
  exfalso. pose proof (find_none _ _ F _ I) as X. cbn in X. congruence.
Qed.
(** What is settled stays. *)
Lemma come_back_memo s i k a cs : memo (come_back s i k a cs) = memo s.
Proof. destruct cs as [|[? ?] ?]; reflexivity. Qed.
Lemma settled_happen f s e k x : inv s -> memo s k = Some x -> x <> Forward -> memo (happen f s e) k = Some x.
Proof.
  intros (st & C & S) M X. assert (forall j, In j st -> k <> j) as K by (intros j I ->; apply (c_forward _ _ C) in I; congruence).
  assert (forall s0 i j cs, memo s0 = memo s -> memo (locked_call f s0 i j cs) k = Some x) as LC.
  { intros s0 i j cs E. unfold locked_call. destruct (memo s0 j) eqn:J; [rewrite come_back_memo; now rewrite E|]. cbn. rewrite E. rewrite put_other; [exact M|]. intros ->. rewrite E in J. congruence. }
  unfold happen. destruct e as [i j|i].
  - unfold begin. destruct (threads s i); try exact M. destruct (memo s j) as [[| |]|]; exact M.
  - unfold go. destruct (threads s i) as [|j|j b cs] eqn:T; [exact M| |].
    + destruct (lock s); [exact M|]. now apply LC.
    + destruct (running_has_lock _ _ _ _ _ _ S T) as [_ E]. assert (k <> j) as KJ by (apply K; rewrite E; now left).
      destruct b as [ps c|j' c|t|e]; try exact M.
      * now apply LC.
      * rewrite come_back_memo. cbn [set_memo memo]. rewrite put_other by exact KJ. unfold note_origin. destruct (has_origin _ _); exact M.
      * rewrite come_back_memo. cbn [set_memo memo]. rewrite put_other by exact KJ. exact M.
Qed.

(** ** Arguments *)
Definition below (p q : nat * val) : Prop := fst p <= fst q.
Lemma insert_perm p l : Permutation (insert_pair p l) (p :: l).
Proof. induction l as [|q l IH]; [reflexivity|]. cbn. destruct (fst p <=? fst q); [reflexivity|]. rewrite IH. apply perm_swap. Qed.
Lemma sort_perm l : Permutation (sort_pairs l) l.
Proof. induction l as [|p l IH]; [reflexivity|]. cbn. rewrite insert_perm. now constructor. Qed.
Lemma insert_sorted p l : StronglySorted below l -> StronglySorted below (insert_pair p l).
Proof.
  induction l as [|q l IH]; intros S; [repeat constructor|]. cbn. inversion S as [|? ? S' F]; subst. destruct (fst p <=? fst q) eqn:E.
  - constructor; [exact S|]. constructor; [unfold below; lia|]. eapply Forall_impl; [|exact F]. unfold below. intros. lia.
  - constructor; [now apply IH|]. eapply Permutation_Forall; [symmetry; apply insert_perm|]. constructor; [unfold below; lia|exact F].
Qed.
Lemma sort_sorted l : StronglySorted below (sort_pairs l).
Proof. induction l as [|p l IH]; [constructor|]. apply insert_sorted, IH. Qed.
Lemma sorted_unique : forall l l', StronglySorted below l -> StronglySorted below l' -> NoDup (map fst l) -> Permutation l l' -> l = l'.
Proof.
  induction l as [|p l IH]; intros l' S S' N P; [now apply Permutation_nil in P|]. destruct l' as [|q l']; [apply Permutation_sym, Permutation_nil in P; discriminate|].
  inversion S as [|? ? Sl F]; subst. inversion S' as [|? ? Sl' F']; subst. inversion N as [|? ? Np Nl]; subst.
  assert (p = q) as ->.
  { assert (In p (q :: l')) as A by (eapply Permutation_in; [exact P|now left]). assert (In q (p :: l)) as B by (eapply Permutation_in; [symmetry; exact P|now left]).
    destruct A as [A|A]; [now symmetry|]. destruct B as [B|B]; [exact B|]. exfalso. apply Np. rewrite Forall_forall in F, F'. specialize (F q B). specialize (F' p A).
    unfold below in *. assert (fst p = fst q) as -> by lia. now apply in_map. }
  f_equal. apply IH; try assumption. eapply Permutation_cons_inv, P.
Qed.
Lemma sort_unique l l' : NoDup (map fst l) -> Permutation l l' -> sort_pairs l = sort_pairs l'.
Proof.
  intros N P. apply sorted_unique; try apply sort_sorted.
  - eapply Permutation_NoDup; [apply Permutation_map, Permutation_sym, sort_perm|exact N].
  - rewrite sort_perm, P. symmetry. apply sort_perm.
Qed.
Lemma insert_first p l : Forall (below p) l -> insert_pair p l = p :: l.
Proof. destruct l as [|q l]; [reflexivity|]. intros F. inversion F; subst. cbn. unfold below in *. destruct (fst p <=? fst q) eqn:E; [reflexivity|lia]. Qed.
Lemma sort_again l : StronglySorted below l -> sort_pairs l = l.
Proof. induction l as [|p l IH]; intros S; [reflexivity|]. inversion S; subst. change (insert_pair p (sort_pairs l) = p :: l). rewrite IH by assumption. now apply insert_first. Qed.

(** Arguments without lists and dicts *)
Fixpoint plain (v : val) : Prop :=
  match v with
  | VTuple l => (fix each l := match l with [] => True | v :: l => plain v /\ each l end) l
  | VList _ | VDict _ => False
  | _ => True
  end.
Lemma plain_tuple l : plain (VTuple l) <-> Forall plain l.
Proof.
  induction l as [|v l IH]; [cbn; split; [constructor|auto]|]. split.
  - intros [H H']. constructor; [exact H|]. now apply IH.
  - intros H. inversion H; subst. split; [assumption|]. now apply IH.
Qed.
Lemma map_arg_plain : forall v, plain (map_arg v).
Proof.
  fix IH 1. intros [| | | | |l|l|l]; try exact Logic.I.
  - apply plain_tuple. induction l as [|v l IHl]; constructor; [apply IH|exact IHl].
  - apply plain_tuple. induction l as [|v l IHl]; constructor; [apply IH|exact IHl].
  - apply plain_tuple. apply Forall_map. eapply Permutation_Forall; [apply Permutation_sym, sort_perm|]. apply Forall_map.
    induction l as [|[k v] l IHl]; constructor; [|exact IHl]. cbn [fst snd]. apply plain_tuple. repeat constructor. apply IH.
Qed.
Lemma plain_map_arg : forall v, plain v -> map_arg v = v.
Proof.
  fix IH 1. intros [| | | | |l|l|l] P; try reflexivity; try contradiction. apply plain_tuple in P. cbn [map_arg]. f_equal.
  induction l as [|v l IHl]; [reflexivity|]. cbn [map]. f_equal; [apply IH; now inversion P|apply IHl; now inversion P].
Qed.
Lemma map_arg_again v : map_arg (map_arg v) = map_arg v.
Proof. apply plain_map_arg, map_arg_plain. Qed.
Lemma key_again args kwargs : let k := call_key args kwargs in call_key (fst k) (snd k) = k.
Proof.
  cbv zeta. unfold call_key. cbn [fst snd]. f_equal.
  - rewrite map_map. apply map_ext. apply map_arg_again.
  - set (l := sort_pairs (map (fun p => (fst p, map_arg (snd p))) kwargs)). assert (map (fun p => (fst p, map_arg (snd p))) l = l) as ->; [|apply sort_again, sort_sorted].
    assert (Forall (fun p => map_arg (snd p) = snd p) l) as F.
    { unfold l. eapply Permutation_Forall; [apply Permutation_sym, sort_perm|]. apply Forall_map. apply Forall_forall. intros [n v] _. cbn. apply map_arg_again. }
    clearbody l. induction F as [|[n v] l E F IH]; [reflexivity|]. cbn in *. now rewrite E, IH.
Qed.
Lemma key_order args kw kw' : NoDup (map fst kw) -> Permutation kw kw' -> call_key args kw = call_key args kw'.
Proof.
  intros N P. unfold call_key. f_equal. apply sort_unique; [|now apply Permutation_map]. rewrite map_map. cbn. exact N.
Qed.
Lemma dict_order l l' : NoDup (map fst l) -> Permutation l l' -> map_arg (VDict l) = map_arg (VDict l').
Proof.
  intros N P. cbn [map_arg]. do 2 f_equal. apply sort_unique; [|now apply Permutation_map]. rewrite map_map. cbn. exact N.
Qed.
