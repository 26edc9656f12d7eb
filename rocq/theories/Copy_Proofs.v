(** Proofs about copies of object graphs. *)
From Verif Require Import Base Copy_Model Copy_Spec.
From Coq Require Import Permutation ZifyBool ZifyNat.
Open Scope Z_scope.
Open Scope list_scope.
Open Scope result_scope.

(** ** Lists *)

Lemma val_induction (P : val -> Prop) :
  (forall d, P (Plain d)) -> (forall a, P (Pointer a)) -> (forall vs, Forall P vs -> P (Parts vs)) -> (forall vs, Forall P vs -> P (Held vs)) ->
  (forall pod, P (Unset pod)) -> (forall w v, P v -> P (Choice w v)) -> forall v, P v.
Proof.
  intros Pl Po Pa He Un Ch. fix IH 1. intros [d|a|vs|vs|pod|w v].
  - apply Pl.
  - apply Po.
  - apply Pa. induction vs; constructor; auto.
  - apply He. induction vs; constructor; auto.
  - apply Un.
  - apply Ch, IH.
Qed.

Lemma times_app a l l' : times a (l ++ l') = times a l + times a l'.
Proof. unfold times. rewrite count_occ_app. lia. Qed.
Lemma times_nonneg a l : 0 <= times a l.
Proof. unfold times. lia. Qed.
Lemma times_in a l : In a l -> 0 < times a l.
Proof. unfold times. intros I. apply (count_occ_In Z.eq_dec) in I. lia. Qed.
Lemma times_not a l : ~ In a l -> times a l = 0.
Proof. unfold times. intros I. apply (count_occ_not_In Z.eq_dec) in I. lia. Qed.
Lemma times_cons a b l : times a (b :: l) = (if b =? a then 1 else 0) + times a l.
Proof. unfold times. cbn [count_occ]. destruct (Z.eq_dec b a), (b =? a) eqn:E; lia. Qed.
Lemma times_perm a l l' : Permutation l l' -> times a l = times a l'.
Proof. intros P. unfold times. f_equal. now apply Permutation_count_occ. Qed.
Lemma times_nodup l : (forall a, times a l <= 1) -> NoDup l.
Proof. intros T. apply (NoDup_count_occ Z.eq_dec). intros a. specialize (T a). unfold times in T. lia. Qed.
Lemma total_app {A} (f : A -> Z) l l' : total f (l ++ l') = total f l + total f l'.
Proof. unfold total. induction l; cbn [fold_right app]; [reflexivity|]. rewrite IHl. lia. Qed.
Lemma total_cons {A} (f : A -> Z) x l : total f (x :: l) = f x + total f l.
Proof. reflexivity. Qed.
Lemma total_nonneg {A} (f : A -> Z) l : (forall x, In x l -> 0 <= f x) -> 0 <= total f l.
Proof.
  induction l as [|x l IH]; intros P; [reflexivity|]. rewrite total_cons.
  specialize (IH (fun y I => P y (or_intror I))). specialize (P x (or_introl eq_refl)). lia.
Qed.
Lemma total_perm {A} (f : A -> Z) l l' : Permutation l l' -> total f l = total f l'.
Proof. induction 1; rewrite ?total_cons in *; try lia; reflexivity. Qed.
Lemma total_map {A B} (g : A -> B) (f : B -> Z) l : total f (map g l) = total (fun x => f (g x)) l.
Proof. induction l; [reflexivity|]. cbn [map]. rewrite !total_cons. now rewrite IHl. Qed.
Lemma total_ext {A} (f g : A -> Z) l : (forall x, In x l -> f x = g x) -> total f l = total g l.
Proof.
  induction l as [|x l IH]; intros P; [reflexivity|]. rewrite !total_cons, (P x (or_introl eq_refl)), IH; [reflexivity|].
  intros y I. apply P. now right.
Qed.
Lemma total_once (f : addr -> Z) l :
  (forall x, 0 <= f x) -> (forall x, f x <> 0 -> times x l <= 1) -> total f l <= total f (nodup Z.eq_dec l).
Proof.
  intros N. induction l as [|x l IH]; intros O; [reflexivity|]. cbn [nodup]. rewrite total_cons.
  assert (IH' : total f l <= total f (nodup Z.eq_dec l)).
  { apply IH. intros y F. specialize (O y F). rewrite times_cons in O. destruct (x =? y); lia. }
  destruct (in_dec Z.eq_dec x l) as [I|I].
  - assert (f x = 0); [|lia]. destruct (Z.eq_dec (f x) 0) as [E|E]; [exact E|]. specialize (O x E). rewrite times_cons, Z.eqb_refl in O.
    apply times_in in I. lia.
  - rewrite total_cons. lia.
Qed.

Lemma flat_map_one {A B} (f : A -> B) l : flat_map (fun x => [f x]) l = map f l.
Proof. induction l; cbn; congruence. Qed.
Lemma nil_refs vs : Forall no_refs vs -> flat_map refs vs = nil.
Proof. induction 1; cbn; [reflexivity|]. now rewrite H, IHForall. Qed.

(** ** Walks: what [deepcopy] and [deep_bytecount] have in common *)

Definition lone (h : heap) (a : addr) : bool := match h a with Some (rc, n) => alone rc n | None => false end.

Section Walk.
Variable h : heap.

(** From the objects [V] that are remembered, the pointers [rs] are followed, the objects of the third list are expanded, and those of the
    fourth are remembered. *)
Inductive walk : list addr -> list addr -> list addr -> list addr -> Prop :=
| walk_nil V : walk V nil nil V
| walk_skip V a : lone h a = false -> In a V -> walk V [a] nil V
| walk_one V V1 V2 V3 a t :
    lone h a = true \/ ~ In a V -> incl V V1 -> incl V1 (a :: V) -> walk V1 (out h a) t V2 -> incl V2 V3 -> incl V3 (a :: V2) ->
    (lone h a = false -> In a V3) -> walk V [a] (a :: t) V3
| walk_app V V1 V2 rs1 rs2 t1 t2 : walk V rs1 t1 V1 -> walk V1 rs2 t2 V2 -> walk V (rs1 ++ rs2) (t2 ++ t1) V2
| walk_perm V V' rs rs' t : Permutation rs rs' -> walk V rs t V' -> walk V rs' t V'.

Lemma walk_closed (P : addr -> Prop) V rs t V' :
  (forall a b, P a -> In b (out h a) -> P b) -> walk V rs t V' -> (forall a, In a rs -> P a) -> forall a, In a t -> P a.
Proof.
  intros C. induction 1; intros F x I.
  - destruct I.
  - destruct I.
  - destruct I as [<-|I]; [apply F; now left|]. apply IHwalk; [|exact I]. intros b. apply C. apply F. now left.
  - apply in_app_iff in I. destruct I as [I|I]; [apply IHwalk2|apply IHwalk1]; auto; intros y J; apply F, in_app_iff; auto.
  - apply IHwalk; auto. intros y J. apply F. eapply Permutation_in; eauto.
Qed.
Lemma walk_incl V rs t V' : walk V rs t V' -> incl V V' /\ incl V' (t ++ V).
Proof.
  induction 1; try (split; [apply incl_refl|intros x I; now rewrite ?app_nil_l]).
  - destruct IHwalk as [A B]. split; [intros x I; auto|]. intros x I. apply H4 in I. destruct I as [<-|I]; [now left|].
    apply B, in_app_iff in I. destruct I as [I|I]; [right; apply in_app_iff; auto|]. apply H1 in I.
    destruct I as [<-|I]; [now left|]. right. apply in_app_iff. auto.
  - destruct IHwalk1 as [A B], IHwalk2 as [C D]. split; [intros x I; auto|]. intros x I. apply D, in_app_iff in I. rewrite <- app_assoc.
    apply in_app_iff. destruct I as [I|I]; auto.
  - exact IHwalk.
Qed.
Lemma walk_shared V rs t V' a : walk V rs t V' -> In a t -> lone h a = false -> In a V'.
Proof.
  induction 1; intros I L; try (now destruct I).
  - destruct I as [<-|I]; auto.
  - apply in_app_iff in I. destruct I as [I|I]; [auto|]. apply (proj1 (walk_incl _ _ _ _ H0)). auto.
  - auto.
Qed.
Lemma walk_fresh V rs t V' a : walk V rs t V' -> In a t -> lone h a = false -> ~ In a V.
Proof.
  induction 1; intros I L; try (now destruct I).
  - destruct I as [<-|I]; [destruct H; congruence|]. intros J. now apply IHwalk; auto.
  - apply in_app_iff in I. destruct I as [I|I]; [|auto]. intros J. apply IHwalk2; auto. now apply (proj1 (walk_incl _ _ _ _ H)).
  - auto.
Qed.
Lemma walk_covers V rs t V' a : walk V rs t V' -> In a rs -> In a t \/ In a V.
Proof.
  induction 1; intros I.
  - destruct I.
  - destruct I as [<-|[]]. now right.
  - destruct I as [<-|[]]. left. now left.
  - apply in_app_iff in I. rewrite in_app_iff. destruct I as [I|I].
    + destruct (IHwalk1 I); auto.
    + destruct (IHwalk2 I) as [J|J]; [auto|]. apply (proj2 (walk_incl _ _ _ _ H)), in_app_iff in J. tauto.
  - apply IHwalk. eapply Permutation_in; [apply Permutation_sym; eauto|exact I].
Qed.
Lemma walk_children V rs t V' a b : walk V rs t V' -> In a t -> In b (out h a) -> In b t \/ In b V.
Proof.
  induction 1; intros I J; try (now destruct I).
  - assert (C : In b t \/ In b V1) by (destruct I as [<-|I]; [eapply walk_covers; eauto|auto]).
    destruct C as [C|C]; [left; now right|]. apply H1 in C. destruct C as [<-|C]; [left; now left|auto].
  - rewrite in_app_iff in *. destruct I as [I|I].
    + destruct (IHwalk2 I J) as [K|K]; [auto|]. apply (proj2 (walk_incl _ _ _ _ H)), in_app_iff in K. tauto.
    + destruct (IHwalk1 I J); auto.
  - auto.
Qed.
Lemma walk_edges V rs t V' a : walk V rs t V' -> times a t <= times a rs + total (fun b => times a (out h b)) t.
Proof.
  induction 1.
  - reflexivity.
  - cbn [total fold_right]. pose proof (times_nonneg a [a0]). change (times a nil) with 0. lia.
  - rewrite total_cons, !times_cons. change (times a nil) with 0. lia.
  - rewrite total_app, !times_app. lia.
  - rewrite <- (times_perm _ _ _ H). exact IHwalk.
Qed.
Section Rank.
Variable R : addr -> Prop.
Variable rank : addr -> nat.
Hypothesis closed : forall a b, R a -> In b (out h a) -> R b.
Hypothesis ranked : forall a b, R a -> In b (out h a) -> (rank b < rank a)%nat.

Lemma walk_once V rs t V' a : walk V rs t V' -> (forall x, In x rs -> R x) -> lone h a = false -> times a t <= 1.
Proof.
  induction 1; intros F L.
  - cbn. lia.
  - cbn. lia.
  - rewrite times_cons. destruct (a0 =? a) eqn:E.
    + apply Z.eqb_eq in E. subst a0. assert (Ra : R a) by (apply F; now left).
      assert (B : forall b, In b t -> R b /\ (rank b < rank a)%nat).
      { apply (walk_closed (fun b => R b /\ (rank b < rank a)%nat)) with (V := V1) (rs := out h a) (V' := V2); [|exact H2|].
        - intros x y [Rx Kx] I. split; [eauto|]. specialize (ranked x y Rx I). lia.
        - intros x I. split; eauto. }
      rewrite times_not; [lia|]. intros I. apply B in I. lia.
    + apply IHwalk; [|exact L]. intros x I. eapply closed; [apply F; now left|exact I].
  - rewrite times_app.
    assert (A1 : times a t1 <= 1) by (apply IHwalk1; auto; intros x I; apply F, in_app_iff; auto).
    assert (A2 : times a t2 <= 1) by (apply IHwalk2; auto; intros x I; apply F, in_app_iff; auto).
    destruct (in_dec Z.eq_dec a t2) as [I2|I2].
    + rewrite (times_not a t1); [lia|]. intros I1. apply (walk_fresh _ _ _ _ a H0 I2 L). eapply walk_shared; eauto.
    + rewrite (times_not a t2 I2). lia.
  - apply IHwalk; [|exact L]. intros x I. apply F. eapply Permutation_in; eauto.
Qed.
End Rank.

Lemma max_rank (rank : addr -> nat) (l : list addr) : exists m, forall a, In a l -> (rank a <= m)%nat.
Proof.
  induction l as [|x l (m & M)]; [exists 0%nat; intros a []|]. exists (Nat.max (rank x) m). intros a [<-|I]; [lia|]. specialize (M a I). lia.
Qed.

Theorem walk_lists root t V' : copyable h root -> walk nil (refs root) t V' -> lists_reached h root t.
Proof.
  intros C W.
  assert (Rt : forall a, In a t -> reach h root a).
  { apply (walk_closed (reach h root)) with (V := nil) (rs := refs root) (V' := V'); [|exact W|].
    - intros a b Ra I. unfold out in I. destruct (h a) as [[rc n]|] eqn:E; [|destruct I]. eapply reach_next; eauto.
    - intros a I. now apply reach_root. }
  split.
  - destruct (acyclic _ _ C) as (rank & K). destruct (max_rank rank t) as (m & M). apply times_nodup.
    assert (ALL : forall k a, (m - rank a <= k)%nat -> times a t <= 1).
    { intros k. induction k as [k IHk] using lt_wf_ind. intros a Hk.
      destruct (in_dec Z.eq_dec a t) as [I|I]; [|rewrite (times_not a t I); lia].
      destruct (lone h a) eqn:L.
      - assert (E := walk_edges _ _ _ _ a W). unfold lone in L. destruct (h a) as [[rc n]|] eqn:Ha; [|discriminate].
        assert (RC : rc = 1) by (destruct n; cbn [alone] in L; try discriminate; lia).
        assert (Q := counted _ _ C a rc n (nodup Z.eq_dec t) (Rt a I) Ha (NoDup_nodup _ _)).
        assert (O : total (fun b => times a (out h b)) t <= total (fun b => times a (out h b)) (nodup Z.eq_dec t)).
        { apply total_once; [intros; apply times_nonneg|]. intros b Fb.
          destruct (in_dec Z.eq_dec b t) as [Ib|Ib]; [|rewrite (times_not b t Ib); lia].
          assert (In a (out h b)).
          { destruct (in_dec Z.eq_dec a (out h b)) as [J|J]; [exact J|]. now rewrite (times_not _ _ J) in Fb. }
          assert (rank a < rank b)%nat by (apply K; auto). pose proof (M b Ib). apply (IHk (m - rank b)%nat); lia. }
        assert (Q' : forall b, In b (nodup Z.eq_dec t) -> reach h root b) by (intros b J; apply Rt, (nodup_In Z.eq_dec _ _), J).
        specialize (Q Q'). lia.
      - eapply (walk_once (reach h root) rank); eauto.
        + intros x b Rx J. unfold out in J. destruct (h x) as [[rc n]|] eqn:E; [|destruct J]. eapply reach_next; eauto.
        + intros x J. now apply reach_root. }
    intros a. now apply (ALL (m - rank a)%nat).
  - intros a. split; [apply Rt|]. intros Ra. induction Ra as [a I|a rc n b Ra IH E I].
    + destruct (walk_covers _ _ _ _ a W I) as [J|[]]. exact J.
    + destruct (walk_children _ _ _ _ a b W IH) as [J|[]]; [|exact J]. unfold out. now rewrite E.
Qed.
End Walk.

(** Two lists of the reached objects have the same total. *)
Lemma lists_total h root l l' (f : addr -> Z) : lists_reached h root l -> lists_reached h root l' -> total f l = total f l'.
Proof.
  intros [N I] [N' I']. apply total_perm, NoDup_Permutation; auto. intros x. rewrite I, I'. tauto.
Qed.

(** ** Nodes and what is copied in them *)

Fixpoint copies (steps : list step) : list val :=
  match steps with nil => nil | Alloc _ :: l => copies l | Copy v :: l => v :: copies l end.
Fixpoint allocs (steps : list step) : list Z :=
  match steps with nil => nil | Alloc b :: l => b :: allocs l | Copy _ :: l => allocs l end.
Definition copied (n : node) : list val := copies (further n).

Lemma copies_app l l' : copies (l ++ l') = copies l ++ copies l'.
Proof. induction l as [|[] l IH]; cbn; congruence. Qed.
Lemma allocs_app l l' : allocs (l ++ l') = allocs l ++ allocs l'.
Proof. induction l as [|[] l IH]; cbn; congruence. Qed.
Lemma copies_map vs : copies (map Copy vs) = vs /\ allocs (map Copy vs) = nil.
Proof. induction vs as [|v vs [A B]]; cbn; rewrite ?A, ?B; auto. Qed.
Lemma copies_pairs (l : list (val * val)) :
  copies (flat_map (fun p => [Copy (fst p); Copy (snd p)]) l) = flat_map (fun p => [fst p; snd p]) l /\
  allocs (flat_map (fun p => [Copy (fst p); Copy (snd p)]) l) = nil.
Proof. induction l as [|p l [A B]]; cbn; rewrite ?A, ?B; auto. Qed.
Lemma copies_slots (l : list (option (val * val))) :
  copies (flat_map (fun o => match o with Some p => [Copy (fst p); Copy (snd p)] | None => nil end) l) =
    flat_map (fun o => match o with Some p => [fst p; snd p] | None => nil end) l /\
  allocs (flat_map (fun o => match o with Some p => [Copy (fst p); Copy (snd p)] | None => nil end) l) = nil.
Proof. induction l as [|[p|] l [A B]]; cbn; rewrite ?A, ?B; auto. Qed.
Lemma copies_set (l : list (option val)) :
  copies (flat_map (fun o => match o with Some v => [Copy v] | None => nil end) l) =
    flat_map (fun o => match o with Some v => [v] | None => nil end) l /\
  allocs (flat_map (fun o => match o with Some v => [Copy v] | None => nil end) l) = nil.
Proof. induction l as [|[p|] l [A B]]; cbn; rewrite ?A, ?B; auto. Qed.

(** What is copied, node by node. *)
Lemma copied_list t p w hh items : copied (ListNode t p w hh items) = if p then nil else items.
Proof.
  unfold copied, further. rewrite copies_app. destruct (reserve t items =? 0), p; cbn [copies app]; auto; apply copies_map.
Qed.
Lemma copied_dict kp vp w slots t :
  copied (DictNode kp vp w slots t) =
  if kp && vp then nil else flat_map (fun o => match o with Some p => [fst p; snd p] | None => nil end) slots.
Proof.
  unfold copied, further. rewrite !copies_app. cbn [copies app]. rewrite app_nil_r. destruct (kp && vp); [reflexivity|apply copies_slots].
Qed.
Lemma copied_set p w slots t :
  copied (SetNode p w slots t) = if p then nil else flat_map (fun o => match o with Some v => [v] | None => nil end) slots.
Proof.
  unfold copied, further. rewrite !copies_app. cbn [copies app]. rewrite app_nil_r. destruct p; [reflexivity|apply copies_set].
Qed.
Lemma dict_no_refs slots :
  (forall k v, In (Some (k, v)) slots -> no_refs k /\ no_refs v) ->
  Forall no_refs (flat_map (fun o : option (val * val) => match o with Some p => [fst p; snd p] | None => nil end) slots).
Proof.
  induction slots as [|[[k v]|] slots IH]; intros P; cbn [flat_map app]; [constructor| |].
  - destruct (P k v (or_introl eq_refl)). repeat apply Forall_cons; auto. apply IH. intros k' v' I. apply P. now right.
  - apply IH. intros k' v' I. apply P. now right.
Qed.

Lemma copied_refs n : sound n -> flat_map refs (copied n) = node_refs n.
Proof.
  unfold node_refs. destruct n; cbn [sound vals_in]; intros S; rewrite ?copied_list, ?copied_dict, ?copied_set.
  - destruct pod; [|reflexivity]. now rewrite (nil_refs items (proj1 (proj2 S) eq_refl)).
  - reflexivity.
  - reflexivity.
  - unfold copied, further. now rewrite (proj1 (copies_pairs pairs)).
  - reflexivity.
  - reflexivity.
  - destruct (key_pod && value_pod) eqn:E; [|reflexivity]. apply andb_true_iff in E. destruct E as [-> ->].
    rewrite (nil_refs _ (dict_no_refs slots (fun k v I => conj (proj1 (proj1 (proj2 S) k v I) eq_refl) (proj2 (proj1 (proj2 S) k v I) eq_refl)))).
    reflexivity.
  - destruct pod; [|reflexivity]. cbn [vals_in] in S. now rewrite (nil_refs _ (proj1 (proj2 S) eq_refl)).
  - destruct S as [_ [W|(pod & ->)]]; [|reflexivity]. destruct v; try reflexivity.
Qed.
Lemma copied_whole n : sound n -> Forall (fun v => whole v = true) (copied n).
Proof.
  destruct n; cbn [sound vals_in]; intros S; rewrite ?copied_list, ?copied_dict, ?copied_set.
  - destruct pod; [constructor|tauto].
  - constructor.
  - constructor.
  - unfold copied, further. rewrite (proj1 (copies_pairs pairs)). tauto.
  - repeat constructor. tauto.
  - repeat constructor. tauto.
  - destruct (key_pod && value_pod); [constructor|tauto].
  - destruct pod; [constructor|tauto].
  - destruct S as [_ [W|(pod & ->)]]; [|constructor]. destruct v; try discriminate W; repeat constructor; exact W.
Qed.

(** What [refill] puts in. *)
Lemma refill_pairs_in pairs vs :
  length vs = length (flat_map (fun p : val * val => [fst p; snd p]) pairs) -> flat_map (fun p => [fst p; snd p]) (refill_pairs pairs vs) = vs.
Proof.
  revert vs. induction pairs as [|p pairs IH]; cbn [flat_map refill_pairs app length]; intros vs L; [now destruct vs|].
  destruct vs as [|a [|b vs]]; try discriminate L. cbn [take flat_map fst snd app]. rewrite IH; [reflexivity|]. cbn [length] in L. lia.
Qed.
Lemma refill_slots_in slots vs :
  length vs = length (flat_map (fun o : option (val * val) => match o with Some p => [fst p; snd p] | None => nil end) slots) ->
  flat_map (fun o => match o with Some p => [fst p; snd p] | None => nil end) (refill_slots slots vs) = vs.
Proof.
  revert vs. induction slots as [|[p|] slots IH]; cbn [flat_map refill_slots app length]; intros vs L; [now destruct vs| |now apply IH].
  destruct vs as [|a [|b vs]]; try discriminate L. cbn [take flat_map fst snd app]. rewrite IH; [reflexivity|]. cbn [length] in L. lia.
Qed.
Lemma refill_set_in slots vs :
  length vs = length (flat_map (fun o : option val => match o with Some p => [p] | None => nil end) slots) ->
  flat_map (fun o => match o with Some p => [p] | None => nil end) (refill_set slots vs) = vs.
Proof.
  revert vs. induction slots as [|[p|] slots IH]; cbn [flat_map refill_set app length]; intros vs L; [now destruct vs| |now apply IH].
  destruct vs as [|a vs]; try discriminate L. cbn [take flat_map app]. rewrite IH; [reflexivity|]. cbn [length] in L. lia.
Qed.
Lemma refill_refs n vs : sound n -> length vs = length (copied n) -> node_refs (refill n vs) = flat_map refs vs.
Proof.
  unfold node_refs. destruct n; cbn [sound]; intros S L; rewrite ?copied_list, ?copied_dict, ?copied_set in L; cbn [refill vals_in].
  - destruct pod; [|reflexivity]. destruct vs; [|discriminate L]. apply nil_refs. now apply S.
  - now destruct vs.
  - now destruct vs.
  - unfold copied, further in L. rewrite (proj1 (copies_pairs pairs)) in L. now rewrite refill_pairs_in.
  - destruct vs as [|v' [|]]; try discriminate L. reflexivity.
  - destruct vs as [|v' [|]]; try discriminate L. reflexivity.
  - destruct (key_pod && value_pod) eqn:E; [|now rewrite refill_slots_in]. destruct vs; [|discriminate L].
    apply andb_true_iff in E. destruct E as [-> ->]. apply nil_refs, dict_no_refs. intros k v I. destruct (proj1 (proj2 S) k v I). auto.
  - destruct pod; [|now rewrite refill_set_in]. destruct vs; [|discriminate L]. apply nil_refs, (proj1 (proj2 S)). reflexivity.
  - destruct v; cbn in L; destruct vs as [|v' [|]]; try discriminate L; reflexivity.
Qed.
Lemma layout_same n : layout_bytes n = layout_size n.
Proof. destruct n; cbn [layout_bytes layout_size]; try reflexivity; now rewrite Z.mul_comm. Qed.
Lemma refill_pairs_length pairs : forall vs, zlen (refill_pairs pairs vs) = zlen pairs.
Proof.
  unfold zlen. induction pairs as [|p pairs IH]; cbn [refill_pairs]; intros vs; [reflexivity|]. destruct (take vs) as [k r]. destruct (take r) as [v r'].
  cbn [length]. specialize (IH r'). lia.
Qed.
Lemma refill_slots_length slots : forall vs, zlen (refill_slots slots vs) = zlen slots.
Proof.
  unfold zlen. induction slots as [|[p|] slots IH]; cbn [refill_slots]; intros vs; [reflexivity| |].
  - destruct (take vs) as [k r]. destruct (take r) as [v r']. cbn [length]. specialize (IH r'). lia.
  - cbn [length]. specialize (IH vs). lia.
Qed.
Lemma refill_set_length slots : forall vs, zlen (refill_set slots vs) = zlen slots.
Proof.
  unfold zlen. induction slots as [|[p|] slots IH]; cbn [refill_set]; intros vs; [reflexivity| |].
  - destruct (take vs) as [k r]. cbn [length]. specialize (IH r). lia.
  - cbn [length]. specialize (IH vs). lia.
Qed.
Lemma refill_layout n vs : layout_size (refill n vs) = layout_size n.
Proof. destruct n; cbn [refill layout_size]; rewrite ?refill_pairs_length; reflexivity. Qed.
Lemma refill_arrays n vs : length vs = length (copied n) -> arrays (refill n vs) = arrays n.
Proof.
  destruct n; cbn [refill arrays]; intros L; try reflexivity.
  - rewrite copied_list in L. destruct pod; [reflexivity|]. unfold zlen. now rewrite L.
  - destruct (_ && _); [reflexivity|]. now rewrite refill_slots_length.
  - destruct pod; [reflexivity|]. now rewrite refill_set_length.
Qed.
Lemma allocs_arrays n : filter (fun size => negb (size =? 0)) (allocs (further n)) = filter (fun size => negb (size =? 0)) (arrays n).
Proof.
  destruct n; cbn [further arrays]; rewrite ?allocs_app; try reflexivity.
  - unfold reserve. assert (0 <= zlen items) by (unfold zlen; lia).
    replace (allocs (if pod then nil else map Copy items)) with (@nil Z) by (destruct pod; [reflexivity|now rewrite (proj2 (copies_map items))]).
    rewrite app_nil_r. destruct (zlen items =? 0) eqn:E, is_tuple; cbn [andb negb].
    + rewrite E. cbn [allocs filter]. replace (zlen items) with 0 by lia. now rewrite Z.mul_0_r.
    + cbn [Z.eqb Pos.eqb allocs]. replace (Z.max 1 (zlen items)) with 1 by lia. reflexivity.
    + rewrite E. reflexivity.
    + rewrite E. cbn [allocs]. replace (Z.max 1 (zlen items)) with (zlen items) by lia. reflexivity.
  - now rewrite (proj2 (copies_pairs pairs)).
  - cbn [allocs app]. replace (allocs _) with (@nil Z) by (destruct (_ && _); [reflexivity|now rewrite (proj2 (copies_slots slots))]). reflexivity.
  - cbn [allocs app]. replace (allocs _) with (@nil Z) by (destruct pod; [reflexivity|now rewrite (proj2 (copies_set slots))]). reflexivity.
  - destruct v; reflexivity.
Qed.
Lemma needs_same l l' bs : filter (fun size => negb (size =? 0)) l = filter (fun size => negb (size =? 0)) l' -> needs l bs -> needs l' bs.
Proof. unfold needs. now intros ->. Qed.
Lemma needs_app l l' bs bs' : needs l bs -> needs l' bs' -> needs (l ++ l') (bs ++ bs').
Proof. unfold needs. rewrite filter_app. apply Forall2_app. Qed.

(** Moving the pointers of what is copied is moving the pointers of the node. *)
Lemma move_no_refs f v : no_refs v -> move f v = v.
Proof.
  unfold no_refs. induction v as [|a|vs IH|vs IH| |] using val_induction; cbn [refs move]; intros E; auto.
  - destruct a; [discriminate E|reflexivity].
  - f_equal. induction IH; [reflexivity|]. cbn [flat_map] in E. apply app_eq_nil in E. destruct E. cbn [map]. f_equal; auto.
  - f_equal. induction IH; [reflexivity|]. cbn [flat_map] in E. apply app_eq_nil in E. destruct E. cbn [map]. f_equal; auto.
  - f_equal. auto.
Qed.
Lemma map_no_refs f vs : Forall no_refs vs -> map (move f) vs = vs.
Proof. induction 1; cbn; [reflexivity|]. now rewrite move_no_refs, IHForall. Qed.
Lemma refill_pairs_move f pairs :
  refill_pairs pairs (map (move f) (flat_map (fun p : val * val => [fst p; snd p]) pairs)) = map (fun p => (move f (fst p), move f (snd p))) pairs.
Proof. induction pairs as [|p pairs IH]; [reflexivity|]. cbn [flat_map map app refill_pairs take]. now rewrite IH. Qed.
Lemma refill_slots_move f slots :
  refill_slots slots (map (move f) (flat_map (fun o : option (val * val) => match o with Some p => [fst p; snd p] | None => nil end) slots)) =
  map (option_map (fun p => (move f (fst p), move f (snd p)))) slots.
Proof. induction slots as [|[p|] slots IH]; [reflexivity| |]; cbn [flat_map map app refill_slots take option_map]; now rewrite IH. Qed.
Lemma refill_set_move f slots :
  refill_set slots (map (move f) (flat_map (fun o : option val => match o with Some p => [p] | None => nil end) slots)) =
  map (option_map (move f)) slots.
Proof. induction slots as [|[p|] slots IH]; [reflexivity| |]; cbn [flat_map map app refill_set take option_map]; now rewrite IH. Qed.
Lemma refill_move f n : sound n -> refill n (map (move f) (copied n)) = move_node f n.
Proof.
  destruct n; cbn [sound]; intros S; rewrite ?copied_list, ?copied_dict, ?copied_set; cbn [refill move_node].
  - destruct pod; [|reflexivity]. now rewrite map_no_refs by now apply S.
  - reflexivity.
  - reflexivity.
  - unfold copied, further. rewrite (proj1 (copies_pairs pairs)). now rewrite refill_pairs_move.
  - reflexivity.
  - reflexivity.
  - destruct (key_pod && value_pod) eqn:E; [|now rewrite refill_slots_move]. f_equal. apply andb_true_iff in E. destruct E as [-> ->].
    destruct S as (_ & S & _). induction slots as [|[[k v]|] slots IH]; [reflexivity| |]; cbn [map option_map]; f_equal.
    + destruct (S k v (or_introl eq_refl)) as [A B]. cbn [fst snd]. now rewrite !move_no_refs by auto.
    + apply IH. intros k' v' I. apply S. now right.
    + apply IH. intros k' v' I. apply S. now right.
  - destruct pod; [|now rewrite refill_set_move]. f_equal. cbn [vals_in] in S. destruct S as (_ & S & _). specialize (S eq_refl).
    induction slots as [|[v|] slots IH]; [reflexivity| |]; cbn [map option_map flat_map app] in *; f_equal.
    + f_equal. symmetry. apply move_no_refs. now apply Forall_inv in S.
    + apply IH. now apply Forall_inv_tail in S.
    + apply IH. exact S.
  - destruct v; reflexivity.
Qed.

(** ** Blocks *)

Lemma rounded_large b : b <= rounded b.
Proof. unfold rounded, max_align. pose proof (Z.mod_pos_bound b 32 ltac:(lia)). destruct (_ =? 0); lia. Qed.
Definition cost (sl : slab) (b : Z) : Z :=
  if b =? 0 then 0 else match sl with FreeStore => b + max_align | Contiguous _ => rounded b + max_align end.
Definition node_cost (sl : slab) (n : node) : Z := cost sl (layout_bytes n) + total (cost sl) (allocs (further n)).
Definition cost_of (h : heap) (sl : slab) (a : addr) : Z := match h a with Some (_, n) => node_cost sl n | None => 0 end.
Lemma cost_nonneg sl b : 0 <= b -> 0 <= cost sl b.
Proof. unfold cost, max_align. pose proof (rounded_large b). destruct (b =? 0), sl; lia. Qed.
Lemma sizes n : sound n -> 0 < layout_bytes n /\ Forall (fun b => 0 <= b) (allocs (further n)).
Proof.
  assert (L : forall A (l : list A), 0 <= zlen l) by (unfold zlen; lia).
  destruct n; cbn [sound layout_bytes further]; intros S; rewrite ?allocs_app.
  - split; [lia|]. pose proof (L _ items). destruct (reserve is_tuple items =? 0) eqn:E; cbn [allocs app].
    + destruct pod; [constructor|]. rewrite (proj2 (copies_map items)). constructor.
    + apply Forall_cons; [unfold reserve; destruct (_ && _); nia|]. destruct pod; [constructor|]. rewrite (proj2 (copies_map items)). constructor.
  - pose proof (L _ points). split; [nia|constructor].
  - pose proof (L _ data). split; [nia|constructor].
  - pose proof (L _ pairs). split; [nia|]. rewrite (proj2 (copies_pairs pairs)). constructor.
  - split; [lia|constructor].
  - split; [lia|constructor].
  - pose proof (L _ slots). pose proof (L _ table). split; [lia|]. rewrite ?allocs_app. cbn [allocs app]. apply Forall_cons; [nia|].
    apply Forall_app. split; [|repeat apply Forall_cons; try apply Forall_nil; lia].
    destruct (_ && _); [constructor|]. rewrite (proj2 (copies_slots slots)). constructor.
  - pose proof (L _ slots). pose proof (L _ table). split; [lia|]. rewrite ?allocs_app. cbn [allocs app]. apply Forall_cons; [nia|].
    apply Forall_app. split; [|repeat apply Forall_cons; try apply Forall_nil; lia].
    destruct pod; [constructor|]. rewrite (proj2 (copies_set slots)). constructor.
  - split; [lia|]. destruct v; constructor.
Qed.
Lemma node_cost_nonneg sl n : sound n -> 0 < node_cost sl n.
Proof.
  intros S. destruct (sizes n S) as [A B]. unfold node_cost.
  assert (0 <= total (cost sl) (allocs (further n))).
  { apply total_nonneg. intros x I. apply cost_nonneg. rewrite Forall_forall in B. now apply B. }
  assert (0 < cost sl (layout_bytes n)); [|lia]. unfold cost, max_align. pose proof (rounded_large (layout_bytes n)).
  destruct (layout_bytes n =? 0) eqn:E, sl; lia.
Qed.

Lemma stacked_high low high high' bs : stacked low high bs -> high <= high' -> stacked low high' bs.
Proof. destruct bs as [|[b sz] bs]; cbn [stacked]; intuition lia. Qed.
Lemma stacked_app p0 p1 p2 l1 l2 : stacked p1 p2 l2 -> stacked p0 p1 l1 -> stacked p0 p2 (l2 ++ l1).
Proof.
  revert p2. induction l2 as [|[b sz] l2 IH]; intros p2; cbn [stacked app]; intros S2 S1.
  - eapply stacked_high; eauto.
  - destruct S2 as (A & B & C & D). specialize (IH _ D S1). repeat split; auto.
    clear - S1 C. assert (p0 <= p1); [|lia]. revert p1 S1 C. induction l1 as [|[b' s'] l1 IHl]; cbn [stacked]; intros p1 S1 C; [lia|].
    unfold max_align in *. destruct S1 as (? & ? & ? & ?). lia.
Qed.
Lemma stacked_le low high bs : stacked low high bs -> low <= high.
Proof. destruct bs as [|[b sz] bs]; cbn [stacked]; unfold max_align; lia. Qed.

(** ** The effect of a copy *)

Inductive rel (P : list (addr * addr)) : val -> val -> Prop :=
| rel_plain d : rel P (Plain d) (Plain d)
| rel_null : rel P (Pointer None) (Pointer None)
| rel_pointer a d : In (a, d) P -> rel P (Pointer (Some a)) (Pointer (Some d))
| rel_parts vs vs' : Forall2 (rel P) vs vs' -> rel P (Parts vs) (Parts vs')
| rel_held vs vs' : Forall2 (rel P) vs vs' -> rel P (Held vs) (Held vs')
| rel_choice w v v' : rel P v v' -> rel P (Choice w v) (Choice w v').

Lemma rel_move P f v : (forall a d, In (a, d) P -> d = f a) -> forall v', rel P v v' -> v' = move f v.
Proof.
  intros F. induction v as [d|a|vs IH|vs IH|pod|w v IH] using val_induction; intros v' Rv; inversion Rv; subst; cbn [move]; try reflexivity.
  - now rewrite (F _ _ H0).
  - f_equal. clear Rv. induction H0; [reflexivity|]. cbn [map]. f_equal; [apply (Forall_inv IH); auto|]. apply IHForall2. now apply Forall_inv_tail in IH.
  - f_equal. clear Rv. induction H0; [reflexivity|]. cbn [map]. f_equal; [apply (Forall_inv IH); auto|]. apply IHForall2. now apply Forall_inv_tail in IH.
  - f_equal. auto.
Qed.
Lemma rel_list_move P f vs vs' : (forall a d, In (a, d) P -> d = f a) -> Forall2 (rel P) vs vs' -> vs' = map (move f) vs.
Proof. intros F. induction 1; [reflexivity|]. cbn [map]. f_equal; auto. eapply rel_move; eauto. Qed.
Lemma rel_length P vs vs' : Forall2 (rel P) vs vs' -> length vs' = length vs.
Proof. induction 1; cbn; congruence. Qed.

Definition entry := (addr * (addr * node))%type.
Definition srcs (T : list entry) : list addr := map fst T.
Definition news (T : list entry) : list (addr * node) := map snd T.
Definition pairs_of (T : list entry) : list (addr * addr) := map (fun e => (fst e, fst (snd e))) T.

(** Enough fuel for each is enough for all. *)
Lemma fuel_for_all (P : nat -> val -> Prop) vs :
  Forall (fun v => exists N, forall fuel, (N <= fuel)%nat -> P fuel v) vs -> exists N, forall fuel, (N <= fuel)%nat -> Forall (P fuel) vs.
Proof.
  induction 1 as [|v vs (N & A) F (M & B)]; [exists 0%nat; constructor|]. exists (Nat.max N M). intros fuel L. constructor; [apply A|apply B]; lia.
Qed.

Section Copy.
Variable h : heap.
Variable stale : val.
Variable R : addr -> Prop.
Hypothesis tame : forall a, R a -> exists rc n, h a = Some (rc, n) /\ sound n.
Hypothesis closed : forall a b, R a -> In b (out h a) -> R b.

Section Slab.
Variable sl : slab.

Definition rel_entry (P : list (addr * addr)) (e : entry) : Prop :=
  exists rc n vs', h (fst e) = Some (rc, n) /\ sound n /\ Forall2 (rel P) (copied n) vs' /\ snd (snd e) = refill n vs'.

Definition zero (s : state) : Prop := (forall x, point s <= x -> counts s x = 0) /\ (forall a d, In (a, d) (memo s) -> d < point s).

Record effect (extra : list Z) (rs rs' : list addr) (Q : list (addr * addr) -> Prop) (s s' : state) (T : list entry) : Prop := Effect {
  e_nodes : nodes s' = news T ++ nodes s;
  e_walk : walk h (map fst (memo s)) rs (srcs T) (map fst (memo s'));
  e_memo : incl (memo s') (pairs_of T ++ memo s);
  e_rel : forall P, incl (memo s) P -> incl (pairs_of T) P -> Q P /\ Forall (rel_entry P) T;
  e_counts : forall d, counts s' d = counts s d + times d rs' + total (fun p => times d (node_refs (snd p))) (news T);
  e_point : point s' = point s + total (cost sl) extra + total (cost_of h sl) (srcs T);
  e_blocks : exists nb bs own, blocks s' = nb ++ blocks s /\ stacked (point s) (point s') nb /\
             Permutation nb (bs ++ concat own) /\ needs extra bs /\ Forall2 owns (news T) own;
  e_fresh : Forall (fun p => point s < fst p < point s') (news T) /\ NoDup (map fst (news T));
  e_zero : zero s'
}.

Lemma effect_point e rs rs' Q s s' T : effect e rs rs' Q s s' T -> point s <= point s'.
Proof. intros E. destruct (e_blocks _ _ _ _ _ _ _ E) as (nb & _ & _ & _ & S & _). now apply stacked_le in S. Qed.

Lemma effect_none s (Q : list (addr * addr) -> Prop) : zero s -> (forall P, incl (memo s) P -> Q P) -> effect nil nil nil Q s s nil.
Proof.
  intros Zs HQ. constructor; cbn.
  - reflexivity.
  - apply walk_nil.
  - apply incl_refl.
  - intros P I _. split; [auto|constructor].
  - intros d. unfold times. cbn. lia.
  - lia.
  - exists nil, nil, nil. cbn. repeat split; [lia|constructor|constructor|constructor].
  - split; constructor.
  - exact Zs.
Qed.
Lemma effect_change e rs rs1 rs' rs1' (Q Q1 : list (addr * addr) -> Prop) s s' T :
  effect e rs rs' Q s s' T -> Permutation rs rs1 -> Permutation rs' rs1' -> (forall P, Q P -> Q1 P) -> effect e rs1 rs1' Q1 s s' T.
Proof.
  intros E P1 P2 M. destruct E. constructor; auto.
  - eapply walk_perm; eauto.
  - intros P A B. destruct (e_rel0 P A B). auto.
  - intros d. rewrite <- (times_perm d _ _ P2). auto.
Qed.
Lemma pairs_app T T' : pairs_of (T ++ T') = pairs_of T ++ pairs_of T'.
Proof. apply map_app. Qed.
Lemma news_app T T' : news (T ++ T') = news T ++ news T'.
Proof. apply map_app. Qed.
Lemma srcs_app T T' : srcs (T ++ T') = srcs T ++ srcs T'.
Proof. apply map_app. Qed.
Lemma effect_app e1 e2 rs1 rs2 rs1' rs2' (Q1 Q2 : list (addr * addr) -> Prop) s s1 s2 T1 T2 :
  effect e1 rs1 rs1' Q1 s s1 T1 -> effect e2 rs2 rs2' Q2 s1 s2 T2 ->
  effect (e1 ++ e2) (rs1 ++ rs2) (rs1' ++ rs2') (fun P => Q1 P /\ Q2 P) s s2 (T2 ++ T1).
Proof.
  intros A B. pose proof (effect_point _ _ _ _ _ _ _ A) as PA. pose proof (effect_point _ _ _ _ _ _ _ B) as PB. destruct A, B. constructor.
  - rewrite e_nodes1, e_nodes0. unfold news. now rewrite map_app, app_assoc.
  - unfold srcs. rewrite map_app. eapply walk_app; eauto.
  - intros x I. apply e_memo1, in_app_iff in I. rewrite pairs_app, <- app_assoc. apply in_app_iff. destruct I as [I|I]; auto.
  - intros P I J. rewrite pairs_app in J. apply incl_app_inv in J. destruct J as [J2 J1].
    destruct (e_rel0 P I J1) as [q1 f1].
    assert (I1 : incl (memo s1) P).
    { intros x K. apply e_memo0, in_app_iff in K. destruct K; auto. }
    destruct (e_rel1 P I1 J2) as [q2 f2]. split; [auto|]. now apply Forall_app.
  - intros d. rewrite e_counts1, e_counts0, news_app, total_app, times_app. lia.
  - rewrite e_point1, e_point0, srcs_app, !total_app. lia.
  - destruct e_blocks0 as (n1 & b1 & o1 & B1 & S1 & P1 & M1 & F1), e_blocks1 as (n2 & b2 & o2 & B2 & S2 & P2 & M2 & F2).
    exists (n2 ++ n1), (b1 ++ b2), (o2 ++ o1). split; [|split; [|split; [|split]]].
    + now rewrite B2, B1, app_assoc.
    + eapply stacked_app; eauto.
    + rewrite P1, P2, concat_app. rewrite <- !app_assoc. etransitivity; [|apply Permutation_app_swap_app]. apply Permutation_app_head.
      rewrite !app_assoc. apply Permutation_app_tail, Permutation_app_comm.
    + now apply needs_app.
    + rewrite news_app. now apply Forall2_app.
  - destruct e_fresh0 as [F1 N1], e_fresh1 as [F2 N2]. rewrite news_app, map_app. split.
    + apply Forall_app. split; [eapply Forall_impl; [|exact F2]|eapply Forall_impl; [|exact F1]]; cbn; intros; lia.
    + clear - F1 F2 N1 N2. induction (news T2) as [|p l IH]; [exact N1|]. cbn [map app]. apply NoDup_cons_iff in N2.
      destruct N2 as [N2 N3]. pose proof (Forall_inv F2) as Fp. apply Forall_inv_tail in F2. constructor; [|auto].
      rewrite in_app_iff. intros [I|I]; [auto|]. apply in_map_iff in I. destruct I as (q & E & I). rewrite Forall_forall in F1.
      specialize (F1 q I). cbn beta in *. lia.
  - exact e_zero1.
Qed.

Lemma allocate_effect b s d s' :
  0 <= b -> zero s -> allocate sl b s = Ok (d, s') ->
  effect [b] nil nil (fun _ => True) s s' nil /\ nodes s' = nodes s /\ memo s' = memo s /\ counts s' = counts s /\
  (0 < b -> point s < d < point s' /\ exists size, b <= size /\ blocks s' = (d, size) :: blocks s).
Proof.
  unfold allocate. intros B Zs A. pose proof (rounded_large b) as Lg. destruct (b =? 0) eqn:E0.
  { injection A as <- <-. apply Z.eqb_eq in E0. subst b. split.
    { assert (E := effect_none s (fun _ => True) Zs (fun _ _ => Logic.I)). destruct E as [x1 x2 x3 x4 x5 x6 (nb & bs & own & y1 & y2 & y3 & y4 & y5) x8 x9].
      constructor; auto. exists nb, bs, own. auto. }
    split; [reflexivity|]. split; [reflexivity|]. split; [reflexivity|]. intros ?. lia. }
  assert (G : forall sz, b <= sz -> sz + max_align = cost sl b -> effect [b] nil nil (fun _ => True) s
     (State (point s + sz + max_align) ((point s + max_align, sz) :: blocks s) (nodes s) (counts s) (memo s)) nil).
  { intros sz P Eq. unfold max_align in *. constructor; cbn [nodes memo counts point blocks news srcs pairs_of map app].
    - reflexivity.
    - apply walk_nil.
    - apply incl_refl.
    - intros. split; [auto|constructor].
    - intros x. unfold times. cbn. lia.
    - rewrite total_cons. change (total _ nil) with 0. change (total (cost sl) nil) with 0. lia.
    - exists [(point s + 32, sz)], [(point s + 32, sz)], nil. split; [reflexivity|]. split; [cbn [stacked]; unfold max_align; lia|].
      split; [reflexivity|]. split; [|constructor]. unfold needs. cbn [filter]. rewrite E0. cbn [negb]. constructor; [exact P|constructor].
    - split; constructor.
    - destruct Zs as [Zc Zm]. split; cbn [point memo counts]; [intros x I; apply Zc; lia|]. intros a d' I. specialize (Zm a d' I). lia. }
  destruct sl as [|limit].
  - injection A as <- <-. split; [apply G; [lia|unfold cost; now rewrite E0]|]. cbn [nodes memo counts point blocks].
    split; [reflexivity|]. split; [reflexivity|]. split; [reflexivity|]. intros _. split; [unfold max_align; lia|]. exists b. split; [lia|reflexivity].
  - destruct (limit <? _); [discriminate A|]. destruct (limit <? _); [discriminate A|]. injection A as <- <-. split; [apply G; [lia|unfold cost; now rewrite E0]|].
    cbn [nodes memo counts point blocks].
    split; [reflexivity|]. split; [reflexivity|]. split; [reflexivity|]. intros _. split; [unfold max_align; lia|]. exists (rounded b). split; [lia|reflexivity].
Qed.

Definition good (g : val -> state -> result (val * state)) : Prop := forall v s v' s',
  g v s = Ok (v', s') -> whole v = true -> (forall a, In a (refs v) -> R a) -> zero s ->
  exists T, effect nil (refs v) (refs v') (fun P => rel P v v') s s' T.

Lemma copy_all_good g vs : good g -> forall s vs' s',
  copy_all g vs s = Ok (vs', s') -> forallb whole vs = true -> (forall a, In a (flat_map refs vs) -> R a) -> zero s ->
  exists T, effect nil (flat_map refs vs) (flat_map refs vs') (fun P => Forall2 (rel P) vs vs') s s' T.
Proof.
  intros G. induction vs as [|v vs IH]; cbn [copy_all flat_map forallb]; intros s vs' s' E W F Zs.
  - injection E as <- <-. exists nil. apply effect_none; auto.
  - apply andb_true_iff in W. destruct W as [W1 W2].
    destruct (g v s) as [[v1 s1]|] eqn:E1; cbn [bind] in E; [|discriminate E].
    destruct (copy_all g vs s1) as [[vs2 s2]|] eqn:E2; cbn [bind] in E; [|discriminate E]. injection E as <- <-.
    destruct (G _ _ _ _ E1 W1) as (T1 & A1); [intros a I; apply F, in_app_iff; auto|exact Zs|].
    destruct (IH _ _ _ E2 W2) as (T2 & A2); [intros a I; apply F, in_app_iff; auto|exact (e_zero _ _ _ _ _ _ _ A1)|].
    exists (T2 ++ T1). eapply effect_change; [exact (effect_app _ _ _ _ _ _ _ _ _ _ _ _ _ A1 A2)| | |].
    + reflexivity.
    + reflexivity.
    + intros P [q1 q2]. now constructor.
Qed.
Lemma copy_parts_good g vs : good g -> forall s vs' s',
  copy_parts g vs s = Ok (vs', s') -> forallb whole vs = true -> (forall a, In a (flat_map refs vs) -> R a) -> zero s ->
  exists T, effect nil (flat_map refs vs) (flat_map refs vs') (fun P => Forall2 (rel P) vs vs') s s' T.
Proof.
  intros G. induction vs as [|v vs IH]; cbn [copy_parts flat_map forallb]; intros s vs' s' E W F Zs.
  - injection E as <- <-. exists nil. apply effect_none; auto.
  - apply andb_true_iff in W. destruct W as [W1 W2].
    destruct (copy_parts g vs s) as [[vs2 s2]|] eqn:E2; cbn [bind] in E; [|discriminate E].
    destruct (g v s2) as [[v1 s1]|] eqn:E1; cbn [bind] in E; [|discriminate E]. injection E as <- <-.
    destruct (IH _ _ _ E2 W2) as (T2 & A2); [intros a I; apply F, in_app_iff; auto|exact Zs|].
    destruct (G _ _ _ _ E1 W1) as (T1 & A1); [intros a I; apply F, in_app_iff; auto|exact (e_zero _ _ _ _ _ _ _ A2)|].
    exists (T1 ++ T2). eapply effect_change; [exact (effect_app _ _ _ _ _ _ _ _ _ _ _ _ _ A2 A1)| | |].
    + apply Permutation_app_comm.
    + apply Permutation_app_comm.
    + intros P [q1 q2]. now constructor.
Qed.
Lemma run_steps_good g steps : good g -> forall s vs' s',
  run_steps sl g steps s = Ok (vs', s') -> Forall (fun v => whole v = true) (copies steps) -> Forall (fun b => 0 <= b) (allocs steps) ->
  (forall a, In a (flat_map refs (copies steps)) -> R a) -> zero s ->
  exists T, effect (allocs steps) (flat_map refs (copies steps)) (flat_map refs vs')
    (fun P => Forall2 (rel P) (copies steps) vs') s s' T.
Proof.
  intros G. induction steps as [|[b|v] steps IH]; cbn [run_steps copies allocs]; intros s vs' s' E W N F Zs.
  - injection E as <- <-. exists nil. apply effect_none; auto.
  - destruct (allocate sl b s) as [[d s1]|] eqn:E1; cbn [bind] in E; [|discriminate E].
    destruct (allocate_effect b s d s1 (Forall_inv N) Zs E1) as (A1 & _).
    destruct (IH _ _ _ E W (Forall_inv_tail N) F (e_zero _ _ _ _ _ _ _ A1)) as (T2 & A2).
    exists (T2 ++ nil). eapply effect_change; [exact (effect_app _ _ _ _ _ _ _ _ _ _ _ _ _ A1 A2)| | |]; try reflexivity. intros P [_ q]. exact q.
  - destruct (g v s) as [[v1 s1]|] eqn:E1; cbn [bind] in E; [|discriminate E].
    destruct (run_steps sl g steps s1) as [[vs2 s2]|] eqn:E2; cbn [bind] in E; [|discriminate E]. injection E as <- <-.
    cbn [flat_map] in *.
    destruct (G _ _ _ _ E1 (Forall_inv W)) as (T1 & A1); [intros a I; apply F, in_app_iff; auto|exact Zs|].
    destruct (IH _ _ _ E2 (Forall_inv_tail W) N) as (T2 & A2); [intros a I; apply F, in_app_iff; auto|exact (e_zero _ _ _ _ _ _ _ A1)|].
    exists (T2 ++ T1). eapply effect_change; [exact (effect_app _ _ _ _ _ _ _ _ _ _ _ _ _ A1 A2)| | |].
    + reflexivity.
    + reflexivity.
    + intros P [q1 q2]. now constructor.
Qed.

Lemma assoc_in a l d : assoc a l = Some d -> In (a, d) l.
Proof. induction l as [|[b e] l IH]; cbn [assoc]; [discriminate|]. destruct (a =? b) eqn:E; [intros [= ->]; left; f_equal; lia|right; auto]. Qed.
Lemma assoc_none a l : assoc a l = None -> ~ In a (map fst l).
Proof.
  induction l as [|[b e] l IH]; cbn [assoc map fst]; [intros _ []|]. destruct (a =? b) eqn:E; [discriminate|]. intros N [I|I]; [lia|]. now apply IH.
Qed.
Lemma rel_refs P v v' d : rel P v v' -> In d (refs v') -> exists a, In (a, d) P.
Proof.
  revert v'. induction v as [x|x|vs IH|vs IH|pod|w v IH] using val_induction; intros v' Rv I; inversion Rv; subst; cbn [refs] in I; try (now destruct I).
  - destruct I as [<-|[]]. eauto.
  - clear Rv. induction H0; [destruct I|]. cbn [flat_map] in I. apply in_app_iff in I. destruct I as [I|I]; [apply (Forall_inv IH _ H I)|].
    apply IHForall2; [now apply Forall_inv_tail in IH|exact I].
  - clear Rv. induction H0; [destruct I|]. cbn [flat_map] in I. apply in_app_iff in I. destruct I as [I|I]; [apply (Forall_inv IH _ H I)|].
    apply IHForall2; [now apply Forall_inv_tail in IH|exact I].
  - eauto.
Qed.
Lemma rel_list_refs P vs vs' d : Forall2 (rel P) vs vs' -> In d (flat_map refs vs') -> exists a, In (a, d) P.
Proof. induction 1; [intros []|]. cbn [flat_map]. intros I. apply in_app_iff in I. destruct I as [I|I]; [eapply rel_refs; eauto|auto]. Qed.
Lemma entry_refs P T d : Forall (rel_entry P) T -> (forall a, ~ In (a, d) P) -> total (fun p => times d (node_refs (snd p))) (news T) = 0.
Proof.
  intros F N. induction F as [|e T (rc & n & vs' & He & Sn & Rv & Ev) F IH]; [reflexivity|]. cbn [news map]. rewrite total_cons. fold (news T).
  rewrite IH, Ev, (refill_refs n vs' Sn (rel_length _ _ _ Rv)), times_not; [reflexivity|]. intros I.
  destruct (rel_list_refs _ _ _ _ Rv I) as (a & J). exact (N a J).
Qed.

Theorem deepcopy_good fuel : good (deepcopy h sl stale fuel).
Proof.
  induction fuel as [|fuel IH]; intros v s v' s' E W F Zs; cbn [deepcopy] in E; [discriminate E|].
  destruct v as [d|[a|]|vs|vs|pod|w v].
  - injection E as <- <-. exists nil. apply effect_none; [exact Zs|]. intros; constructor.
  - destruct (tame a (F a (or_introl eq_refl))) as (rc & n & Ha & Sn). rewrite Ha in E.
    assert (La : lone h a = alone rc n) by (unfold lone; now rewrite Ha).
    destruct (if alone rc n then None else assoc a (memo s)) as [d|] eqn:M.
    + injection E as <- <-. destruct (alone rc n) eqn:Al; [discriminate M|]. apply assoc_in in M. exists nil. destruct Zs as [Zc Zm].
      constructor; cbn [increment nodes memo counts point blocks news srcs pairs_of map app].
      * reflexivity.
      * apply walk_skip; [exact La|]. apply in_map_iff. exists (a, d). auto.
      * apply incl_refl.
      * intros P I _. split; [constructor; auto|constructor].
      * intros x. cbn [refs]. rewrite times_cons. change (times x nil) with 0. change (total _ nil) with 0. rewrite (Z.eqb_sym d x). destruct (x =? d); lia.
      * cbn. lia.
      * exists nil, nil, nil. split; [reflexivity|]. split; [cbn; lia|]. split; [constructor|]. split; constructor.
      * split; constructor.
      * split; cbn [increment point memo counts]; [|exact Zm]. intros x I. pose proof (Zm _ _ M). destruct (x =? d) eqn:X; [lia|]. auto.
    + destruct (allocate sl (layout_bytes n) s) as [[d s1]|] eqn:E1; cbn [bind] in E; [|discriminate E].
      destruct (run_steps sl (deepcopy h sl stale fuel) (further n) s1) as [[vs s2]|] eqn:E2; cbn [bind] in E; [|discriminate E]. injection E as <- <-.
      destruct (sizes n Sn) as [Sz Sa].
      destruct (allocate_effect (layout_bytes n) s d s1 ltac:(lia) Zs E1) as (A1 & N1 & M1 & C1 & B1).
      destruct (B1 Sz) as (D1 & size & Sd & Bd). clear B1.
      assert (Fn : forall b, In b (flat_map refs (copied n)) -> R b).
      { intros b I. rewrite (copied_refs n Sn) in I. apply (closed a); [apply F; now left|]. unfold out. now rewrite Ha. }
      destruct (run_steps_good _ _ IH s1 vs s2 E2 (copied_whole n Sn) Sa Fn (e_zero _ _ _ _ _ _ _ A1)) as (T1 & A2).
      pose proof (effect_point _ _ _ _ _ _ _ A2) as P2.
      fold (copied n) in A2.
      assert (X : forall P, incl (memo s) P -> incl (pairs_of T1) P -> Forall2 (rel P) (copied n) vs /\ Forall (rel_entry P) T1).
      { intros P I J. apply (e_rel _ _ _ _ _ _ _ A2); [now rewrite M1|exact J]. }
      assert (NO : forall b, ~ In (b, d) (pairs_of T1 ++ memo s)).
      { intros b I. apply in_app_iff in I. destruct I as [I|I].
        - apply in_map_iff in I. destruct I as (e & Ee & Ie). injection Ee as _ Ed.
          destruct (e_fresh _ _ _ _ _ _ _ A2) as [Fr _]. rewrite Forall_forall in Fr. specialize (Fr (snd e) (in_map snd _ _ Ie)). cbn beta in Fr. lia.
        - destruct Zs as [_ Zm]. specialize (Zm _ _ I). lia. }
      destruct (X (pairs_of T1 ++ memo s)) as [Xv XT]; [now apply incl_appr, incl_refl|now apply incl_appl, incl_refl|].
      assert (Ln := rel_length _ _ _ Xv).
      assert (Rn : node_refs (refill n vs) = flat_map refs vs) by now apply refill_refs.
      exists ((a, (d, refill n vs)) :: T1).
      constructor; cbn [increment put nodes memo counts point blocks].
      * cbn [news map snd app]. f_equal. rewrite (e_nodes _ _ _ _ _ _ _ A2). now rewrite N1.
      * cbn [srcs map fst refs]. fold (srcs T1).
        apply (walk_one h _ (map fst (memo s)) (map fst (memo s2))).
        -- rewrite La. destruct (alone rc n); [now left|]. right. now apply assoc_none.
        -- apply incl_refl.
        -- apply incl_tl, incl_refl.
        -- unfold out. rewrite Ha, <- (copied_refs n Sn), <- M1. apply (e_walk _ _ _ _ _ _ _ A2).
        -- destruct (negb (alone rc n)); [apply incl_tl|]; apply incl_refl.
        -- destruct (negb (alone rc n)); [|apply incl_tl]; apply incl_refl.
        -- rewrite La. intros ->. cbn [negb map fst]. now left.
      * intros x I. cbn [pairs_of map fst snd app]. fold (pairs_of T1).
        assert (In x (memo s2) -> In x (pairs_of T1 ++ memo s)) by (intros J; apply (e_memo _ _ _ _ _ _ _ A2) in J; now rewrite M1 in J).
        destruct (negb (alone rc n)); [destruct I as [<-|I]; [now left|]|]; right; auto.
      * intros P I J. cbn [pairs_of map fst snd] in J. fold (pairs_of T1) in J.
        assert (J1 : incl (pairs_of T1) P) by (intros x K; apply J; now right).
        destruct (X P I J1) as [q1 q2]. split.
        -- constructor. apply J. now left.
        -- constructor; [|exact q2]. exists rc, n, vs. cbn [fst snd]. auto.
      * intros x. cbn [refs news map snd]. rewrite times_cons, total_cons. change (times x nil) with 0. cbn [snd]. fold (news T1). rewrite Rn.
        destruct (x =? d) eqn:Xd.
        -- apply Z.eqb_eq in Xd. subst x. rewrite Z.eqb_refl. rewrite (entry_refs _ _ _ XT NO), times_not.
           ++ destruct Zs as [Zc _]. rewrite (Zc d) by lia. lia.
           ++ intros I. destruct (rel_list_refs _ _ _ _ Xv I) as (b & J). exact (NO b J).
        -- rewrite (e_counts _ _ _ _ _ _ _ A2 x), C1, (Z.eqb_sym d x), Xd. lia.
      * cbn [srcs map fst]. fold (srcs T1). change (total (cost sl) nil) with 0. rewrite (total_cons (cost_of h sl)). unfold cost_of at 1. rewrite Ha. unfold node_cost.
        rewrite (e_point _ _ _ _ _ _ _ A2), (e_point _ _ _ _ _ _ _ A1). cbn [srcs map]. change (total (cost_of h sl) nil) with 0. rewrite total_cons. change (total (cost sl) nil) with 0. lia.
      * destruct (e_blocks _ _ _ _ _ _ _ A2) as (nb & bs & own & Bn & Sb & Pb & Mb & Fb).
        exists (nb ++ [(d, size)]), nil, (((d, size) :: bs) :: own).
        rewrite Bn, Bd, <- app_assoc. split; [reflexivity|]. split; [|split; [|split]].
        -- eapply stacked_app; [exact Sb|]. destruct (e_blocks _ _ _ _ _ _ _ A1) as (nb1 & _ & _ & Bn1 & Sb1 & _). rewrite Bd in Bn1.
           change ((d, size) :: blocks s) with ([(d, size)] ++ blocks s) in Bn1. apply app_inv_tail in Bn1. now subst nb1.
        -- cbn [app concat]. rewrite Permutation_app_comm. cbn [app]. now apply perm_skip.
        -- constructor.
        -- cbn [news map snd]. constructor; [|exact Fb]. exists size, bs. cbn [fst snd]. split; [reflexivity|].
           rewrite refill_layout, <- layout_same, (refill_arrays n vs Ln). split; [exact Sd|]. exact (needs_same _ _ _ (allocs_arrays n) Mb).
      * destruct (e_fresh _ _ _ _ _ _ _ A2) as [Fr Nd]. cbn [news map snd fst]. fold (news T1). split.
        -- apply Forall_cons; [cbn [fst]; lia|]. eapply Forall_impl; [|exact Fr]. cbn beta. intros p K. lia.
        -- constructor; [|exact Nd]. intros I. apply in_map_iff in I. destruct I as (p & Ep & Ip). rewrite Forall_forall in Fr. specialize (Fr p Ip). cbn beta in Fr. lia.
      * destruct (e_zero _ _ _ _ _ _ _ A2) as [Zc Zm]. split; cbn [increment put point memo counts].
        -- intros x I. destruct (x =? d) eqn:Xd; [lia|]. auto.
        -- intros b e I. destruct (negb (alone rc n)); [destruct I as [I|I]; [injection I as _ <-; lia|]|]; eauto.
  - injection E as <- <-. exists nil. apply effect_none; [exact Zs|]. intros; constructor.
  - destruct (copy_parts (deepcopy h sl stale fuel) vs s) as [[vs' s1]|] eqn:E1; cbn [bind] in E; [|discriminate E]. injection E as <- <-.
    destruct (copy_parts_good _ _ IH _ _ _ E1 W F Zs) as (T & A). exists T. eapply effect_change; [exact A|reflexivity|reflexivity|].
    intros P q. now constructor.
  - destruct (copy_all (deepcopy h sl stale fuel) vs s) as [[vs' s1]|] eqn:E1; cbn [bind] in E; [|discriminate E]. injection E as <- <-.
    destruct (copy_all_good _ _ IH _ _ _ E1 W F Zs) as (T & A). exists T. eapply effect_change; [exact A|reflexivity|reflexivity|].
    intros P q. now constructor.
  - discriminate W.
  - destruct (deepcopy h sl stale fuel v s) as [[v1 s1]|] eqn:E1; cbn [bind] in E; [|discriminate E]. injection E as <- <-.
    destruct (IH _ _ _ _ E1 W F Zs) as (T & A). exists T. eapply effect_change; [exact A|reflexivity|reflexivity|].
    intros P q. now constructor.
Qed.
End Slab.

(** ** A copy depends on the end of the slab only in whether it fits *)

Definition cap (sl : slab) (p : Z) : slab := match sl with FreeStore => FreeStore | Contiguous _ => Contiguous p end.
Lemma allocate_cap sl b s d s' p : allocate sl b s = Ok (d, s') -> point s' <= p -> allocate (cap sl p) b s = Ok (d, s').
Proof.
  unfold allocate. destruct (b =? 0); [auto|]. destruct sl as [|limit]; cbn [cap]; [auto|].
  destruct (limit <? _); [discriminate|]. destruct (limit <? _); [discriminate|]. intros [= <- <-]. cbn [point]. intros L.
  destruct (p <? _) eqn:A; [unfold max_align in *; lia|]. destruct (p <? point s + rounded b + max_align) eqn:B; [unfold max_align in *; lia|]. reflexivity.
Qed.
Lemma allocate_total sl b s : 0 <= b -> exists d s', allocate (cap sl (point s')) b s = Ok (d, s') /\ point s <= point s'.
Proof.
  unfold allocate. intros B. pose proof (rounded_large b). destruct (b =? 0) eqn:E; [exists 0, s; split; [reflexivity|lia]|]. destruct sl as [|limit]; cbn [cap].
  - eexists _, _. split; [reflexivity|]. cbn [point]. unfold max_align. lia.
  - exists (point s + max_align), (State (point s + rounded b + max_align) ((point s + max_align, rounded b) :: blocks s) (nodes s) (counts s) (memo s)).
    cbn [point]. destruct (_ <? point s + rounded b) eqn:A; [unfold max_align in *; lia|]. rewrite Z.ltb_irrefl. split; [reflexivity|]. unfold max_align. lia.
Qed.

Section Cap.
Variable sl : slab.
Definition moves (g g' : val -> state -> result (val * state)) (p : Z) : Prop := forall v s v' s',
  g v s = Ok (v', s') -> whole v = true -> (forall a, In a (refs v) -> R a) -> zero s -> point s' <= p -> g' v s = Ok (v', s').
Lemma copy_all_moves g g' p vs : good sl g -> moves g g' p -> forall s vs' s',
  copy_all g vs s = Ok (vs', s') -> forallb whole vs = true -> (forall a, In a (flat_map refs vs) -> R a) -> zero s -> point s' <= p ->
  copy_all g' vs s = Ok (vs', s').
Proof.
  intros G M. induction vs as [|v vs IH]; cbn [copy_all flat_map forallb]; intros s vs' s' E W F Zs L; [exact E|].
  apply andb_true_iff in W. destruct W as [W1 W2].
  destruct (g v s) as [[v1 s1]|] eqn:E1; cbn [bind] in E; [|discriminate E].
  destruct (copy_all g vs s1) as [[vs2 s2]|] eqn:E2; cbn [bind] in E; [|discriminate E]. injection E as <- <-.
  assert (F1 : forall a, In a (refs v) -> R a) by (intros a I; apply F, in_app_iff; auto).
  assert (F2 : forall a, In a (flat_map refs vs) -> R a) by (intros a I; apply F, in_app_iff; auto).
  destruct (G _ _ _ _ E1 W1 F1 Zs) as (T1 & A1). pose proof (e_zero _ _ _ _ _ _ _ _ A1) as Z1.
  destruct (copy_all_good _ _ _ G _ _ _ E2 W2 F2 Z1) as (T2 & A2). pose proof (effect_point _ _ _ _ _ _ _ _ A2).
  rewrite (M _ _ _ _ E1 W1 F1 Zs) by lia. cbn [bind]. rewrite (IH _ _ _ E2 W2 F2 Z1 L). reflexivity.
Qed.
Lemma copy_parts_moves g g' p vs : good sl g -> moves g g' p -> forall s vs' s',
  copy_parts g vs s = Ok (vs', s') -> forallb whole vs = true -> (forall a, In a (flat_map refs vs) -> R a) -> zero s -> point s' <= p ->
  copy_parts g' vs s = Ok (vs', s').
Proof.
  intros G M. induction vs as [|v vs IH]; cbn [copy_parts flat_map forallb]; intros s vs' s' E W F Zs L; [exact E|].
  apply andb_true_iff in W. destruct W as [W1 W2].
  destruct (copy_parts g vs s) as [[vs2 s2]|] eqn:E2; cbn [bind] in E; [|discriminate E].
  destruct (g v s2) as [[v1 s1]|] eqn:E1; cbn [bind] in E; [|discriminate E]. injection E as <- <-.
  assert (F1 : forall a, In a (refs v) -> R a) by (intros a I; apply F, in_app_iff; auto).
  assert (F2 : forall a, In a (flat_map refs vs) -> R a) by (intros a I; apply F, in_app_iff; auto).
  destruct (copy_parts_good _ _ _ G _ _ _ E2 W2 F2 Zs) as (T2 & A2). pose proof (e_zero _ _ _ _ _ _ _ _ A2) as Z2.
  destruct (G _ _ _ _ E1 W1 F1 Z2) as (T1 & A1). pose proof (effect_point _ _ _ _ _ _ _ _ A1).
  rewrite (IH _ _ _ E2 W2 F2 Zs) by lia. cbn [bind]. rewrite (M _ _ _ _ E1 W1 F1 Z2 L). reflexivity.
Qed.
Lemma run_steps_moves g g' p steps : good sl g -> moves g g' p -> forall s vs' s',
  run_steps sl g steps s = Ok (vs', s') -> Forall (fun v => whole v = true) (copies steps) -> Forall (fun b => 0 <= b) (allocs steps) ->
  (forall a, In a (flat_map refs (copies steps)) -> R a) -> zero s -> point s' <= p -> run_steps (cap sl p) g' steps s = Ok (vs', s').
Proof.
  intros G M. induction steps as [|[b|v] steps IH]; cbn [run_steps copies allocs]; intros s vs' s' E W N F Zs L; [exact E| |].
  - destruct (allocate sl b s) as [[d s1]|] eqn:E1; cbn [bind] in E; [|discriminate E].
    destruct (allocate_effect _ b s d s1 (Forall_inv N) Zs E1) as (A1 & _). pose proof (e_zero _ _ _ _ _ _ _ _ A1) as Z1.
    destruct (run_steps_good _ _ _ G _ _ _ E W (Forall_inv_tail N) F Z1) as (T2 & A2). pose proof (effect_point _ _ _ _ _ _ _ _ A2).
    rewrite (allocate_cap _ _ _ _ _ p E1) by lia. cbn [bind]. exact (IH _ _ _ E W (Forall_inv_tail N) F Z1 L).
  - cbn [flat_map] in F. destruct (g v s) as [[v1 s1]|] eqn:E1; cbn [bind] in E; [|discriminate E].
    destruct (run_steps sl g steps s1) as [[vs2 s2]|] eqn:E2; cbn [bind] in E; [|discriminate E]. injection E as <- <-.
    assert (F1 : forall a, In a (refs v) -> R a) by (intros a I; apply F, in_app_iff; auto).
    assert (F2 : forall a, In a (flat_map refs (copies steps)) -> R a) by (intros a I; apply F, in_app_iff; auto).
    destruct (G _ _ _ _ E1 (Forall_inv W) F1 Zs) as (T1 & A1). pose proof (e_zero _ _ _ _ _ _ _ _ A1) as Z1.
    destruct (run_steps_good _ _ _ G _ _ _ E2 (Forall_inv_tail W) N F2 Z1) as (T2 & A2). pose proof (effect_point _ _ _ _ _ _ _ _ A2).
    rewrite (M _ _ _ _ E1 (Forall_inv W) F1 Zs) by lia. cbn [bind]. rewrite (IH _ _ _ E2 (Forall_inv_tail W) N F2 Z1 L). reflexivity.
Qed.

Lemma deepcopy_moves p fuel : moves (deepcopy h sl stale fuel) (deepcopy h (cap sl p) stale fuel) p.
Proof.
  induction fuel as [|fuel IH]; intros v s v' s' E W F Zs L; cbn [deepcopy] in *; [discriminate E|].
  pose proof (deepcopy_good sl fuel) as G.
  destruct v as [d|[a|]|vs|vs|pod|w v]; try exact E.
  - destruct (tame a (F a (or_introl eq_refl))) as (rc & n & Ha & Sn). rewrite Ha in *.
    destruct (if alone rc n then None else assoc a (memo s)) as [d|]; [exact E|].
    destruct (allocate sl (layout_bytes n) s) as [[d s1]|] eqn:E1; cbn [bind] in E; [|discriminate E].
    destruct (run_steps sl (deepcopy h sl stale fuel) (further n) s1) as [[vs s2]|] eqn:E2; cbn [bind] in E; [|discriminate E]. injection E as <- <-.
    cbn [increment put point] in L.
    destruct (sizes n Sn) as [Sz Sa].
    destruct (allocate_effect _ (layout_bytes n) s d s1 ltac:(lia) Zs E1) as (A1 & _). pose proof (e_zero _ _ _ _ _ _ _ _ A1) as Z1.
    assert (Fn : forall b, In b (flat_map refs (copied n)) -> R b).
    { intros b I. rewrite (copied_refs n Sn) in I. apply (closed a); [apply F; now left|]. unfold out. now rewrite Ha. }
    destruct (run_steps_good _ _ _ G s1 vs s2 E2 (copied_whole n Sn) Sa Fn Z1) as (T1 & A2). pose proof (effect_point _ _ _ _ _ _ _ _ A2).
    rewrite (allocate_cap _ _ _ _ _ p E1) by lia. cbn [bind].
    rewrite (run_steps_moves _ _ p _ G IH _ _ _ E2 (copied_whole n Sn) Sa Fn Z1 L). reflexivity.
  - destruct (copy_parts (deepcopy h sl stale fuel) vs s) as [[vs' s1]|] eqn:E1; cbn [bind] in E; [|discriminate E]. injection E as <- <-.
    now rewrite (copy_parts_moves _ _ p _ G IH _ _ _ E1 W F Zs L).
  - destruct (copy_all (deepcopy h sl stale fuel) vs s) as [[vs' s1]|] eqn:E1; cbn [bind] in E; [|discriminate E]. injection E as <- <-.
    now rewrite (copy_all_moves _ _ p _ G IH _ _ _ E1 W F Zs L).
  - destruct (deepcopy h sl stale fuel v s) as [[v1 s1]|] eqn:E1; cbn [bind] in E; [|discriminate E]. injection E as <- <-.
    now rewrite (IH _ _ _ _ E1 W F Zs L).
Qed.
End Cap.

(** ** A copy ends *)

Section Total.
Variable rank : addr -> nat.
Hypothesis ranked : forall a b, R a -> In b (out h a) -> (rank b < rank a)%nat.
Variable sl : slab.

Definition ends (fuel : nat) (v : val) : Prop := forall s, zero s -> exists v' s', deepcopy h (cap sl (point s')) stale fuel v s = Ok (v', s').

Lemma cap_cap p q : cap (cap sl p) q = cap sl q.
Proof. now destruct sl. Qed.
Lemma copy_all_ends fuel vs : Forall (ends fuel) vs -> forallb whole vs = true -> (forall a, In a (flat_map refs vs) -> R a) ->
  forall s, zero s -> exists vs' s', copy_all (deepcopy h (cap sl (point s')) stale fuel) vs s = Ok (vs', s').
Proof.
  induction 1 as [|v vs Ev Evs IH]; cbn [forallb flat_map copy_all]; intros W F s Zs; [exists nil, s; reflexivity|].
  apply andb_true_iff in W. destruct W as [W1 W2].
  assert (F1 : forall a, In a (refs v) -> R a) by (intros a I; apply F, in_app_iff; auto).
  assert (F2 : forall a, In a (flat_map refs vs) -> R a) by (intros a I; apply F, in_app_iff; auto).
  destruct (Ev s Zs) as (v1 & s1 & E1). destruct (deepcopy_good _ _ _ _ _ _ E1 W1 F1 Zs) as (T1 & A1). pose proof (e_zero _ _ _ _ _ _ _ _ A1) as Z1.
  destruct (IH W2 F2 s1 Z1) as (vs2 & s2 & E2).
  destruct (copy_all_good _ _ _ (deepcopy_good _ _) _ _ _ E2 W2 F2 Z1) as (T2 & A2). pose proof (effect_point _ _ _ _ _ _ _ _ A2) as L.
  exists (v1 :: vs2), s2. pose proof (deepcopy_moves _ (point s2) _ _ _ _ _ E1 W1 F1 Zs L) as M. rewrite cap_cap in M. rewrite M. cbn [bind]. now rewrite E2.
Qed.
Lemma copy_parts_ends fuel vs : Forall (ends fuel) vs -> forallb whole vs = true -> (forall a, In a (flat_map refs vs) -> R a) ->
  forall s, zero s -> exists vs' s', copy_parts (deepcopy h (cap sl (point s')) stale fuel) vs s = Ok (vs', s').
Proof.
  induction 1 as [|v vs Ev Evs IH]; cbn [forallb flat_map copy_parts]; intros W F s Zs; [exists nil, s; reflexivity|].
  apply andb_true_iff in W. destruct W as [W1 W2].
  assert (F1 : forall a, In a (refs v) -> R a) by (intros a I; apply F, in_app_iff; auto).
  assert (F2 : forall a, In a (flat_map refs vs) -> R a) by (intros a I; apply F, in_app_iff; auto).
  destruct (IH W2 F2 s Zs) as (vs2 & s2 & E2).
  destruct (copy_parts_good _ _ _ (deepcopy_good _ _) _ _ _ E2 W2 F2 Zs) as (T2 & A2). pose proof (e_zero _ _ _ _ _ _ _ _ A2) as Z2.
  destruct (Ev s2 Z2) as (v1 & s1 & E1). destruct (deepcopy_good _ _ _ _ _ _ E1 W1 F1 Z2) as (T1 & A1). pose proof (effect_point _ _ _ _ _ _ _ _ A1) as L.
  exists (v1 :: vs2), s1.
  pose proof (copy_parts_moves _ _ _ _ _ (deepcopy_good _ _) (deepcopy_moves _ (point s1) _) _ _ _ E2 W2 F2 Zs L) as M. rewrite cap_cap in M. rewrite M.
  cbn [bind]. now rewrite E1.
Qed.
Lemma run_steps_ends fuel steps : Forall (ends fuel) (copies steps) -> Forall (fun v => whole v = true) (copies steps) ->
  Forall (fun b => 0 <= b) (allocs steps) -> (forall a, In a (flat_map refs (copies steps)) -> R a) ->
  forall s, zero s -> exists vs' s', run_steps (cap sl (point s')) (deepcopy h (cap sl (point s')) stale fuel) steps s = Ok (vs', s').
Proof.
  induction steps as [|[b|v] steps IH]; cbn [run_steps copies allocs]; intros E W N F s Zs; [exists nil, s; reflexivity| |].
  - destruct (allocate_total sl b s (Forall_inv N)) as (d & s1 & E1 & L1).
    destruct (allocate_effect _ b s d s1 (Forall_inv N) Zs E1) as (A1 & _). pose proof (e_zero _ _ _ _ _ _ _ _ A1) as Z1.
    destruct (IH E W (Forall_inv_tail N) F s1 Z1) as (vs2 & s2 & E2).
    destruct (run_steps_good _ _ _ (deepcopy_good _ _) _ _ _ E2 W (Forall_inv_tail N) F Z1) as (T2 & A2). pose proof (effect_point _ _ _ _ _ _ _ _ A2) as L.
    exists vs2, s2. pose proof (allocate_cap _ _ _ _ _ (point s2) E1 L) as M. rewrite cap_cap in M. rewrite M. cbn [bind]. exact E2.
  - cbn [flat_map] in F.
    assert (F1 : forall a, In a (refs v) -> R a) by (intros a I; apply F, in_app_iff; auto).
    assert (F2 : forall a, In a (flat_map refs (copies steps)) -> R a) by (intros a I; apply F, in_app_iff; auto).
    destruct (Forall_inv E s Zs) as (v1 & s1 & E1). destruct (deepcopy_good _ _ _ _ _ _ E1 (Forall_inv W) F1 Zs) as (T1 & A1).
    pose proof (e_zero _ _ _ _ _ _ _ _ A1) as Z1.
    destruct (IH (Forall_inv_tail E) (Forall_inv_tail W) N F2 s1 Z1) as (vs2 & s2 & E2).
    destruct (run_steps_good _ _ _ (deepcopy_good _ _) _ _ _ E2 (Forall_inv_tail W) N F2 Z1) as (T2 & A2). pose proof (effect_point _ _ _ _ _ _ _ _ A2) as L.
    exists (v1 :: vs2), s2. pose proof (deepcopy_moves _ (point s2) _ _ _ _ _ E1 (Forall_inv W) F1 Zs L) as M. rewrite cap_cap in M. rewrite M. cbn [bind]. now rewrite E2.
Qed.

Theorem deepcopy_ends k : forall v, whole v = true -> (forall a, In a (refs v) -> R a /\ (rank a < k)%nat) ->
  exists N, forall fuel, (N <= fuel)%nat -> ends fuel v.
Proof.
  induction k as [k IHk] using lt_wf_ind. intros v. induction v as [d|[a|]|vs IH|vs IH|pod|w v IH] using val_induction; cbn [refs whole]; intros W F.
  - exists 1%nat. intros [|fuel] L s Zs; [lia|]. eexists _, s. reflexivity.
  - destruct (F a (or_introl eq_refl)) as [Ra Ka]. destruct (tame a Ra) as (rc & n & Ha & Sn).
    assert (Fn : forall b, In b (flat_map refs (copied n)) -> R b /\ (rank b < rank a)%nat).
    { intros b I. rewrite (copied_refs n Sn) in I. assert (O : In b (out h a)) by (unfold out; now rewrite Ha). split; [eapply closed; eauto|auto]. }
    assert (Q : Forall (fun v => exists N, forall fuel, (N <= fuel)%nat -> ends fuel v) (copied n)).
    { apply Forall_forall. intros v I. pose proof (copied_whole n Sn) as Wn. rewrite Forall_forall in Wn.
      apply (IHk (rank a) Ka v (Wn v I)). intros b J. apply Fn. apply in_flat_map. eauto. }
    apply fuel_for_all in Q. destruct Q as (N & Q). exists (S N). intros [|fuel] L s Zs; [lia|]. cbn [deepcopy]. rewrite Ha.
    destruct (if alone rc n then None else assoc a (memo s)) as [d|]; [eexists _, _; reflexivity|].
    destruct (sizes n Sn) as [Sz Sa].
    destruct (allocate_total sl (layout_bytes n) s ltac:(lia)) as (d & s1 & E1 & L1).
    destruct (allocate_effect _ (layout_bytes n) s d s1 ltac:(lia) Zs E1) as (A1 & _). pose proof (e_zero _ _ _ _ _ _ _ _ A1) as Z1.
    assert (Fr : forall b, In b (flat_map refs (copied n)) -> R b) by (intros b I; apply Fn, I).
    destruct (run_steps_ends fuel (further n) (Q fuel ltac:(lia)) (copied_whole n Sn) Sa Fr s1 Z1) as (vs & s2 & E2).
    destruct (run_steps_good _ _ _ (deepcopy_good _ _) _ _ _ E2 (copied_whole n Sn) Sa Fr Z1) as (T2 & A2). pose proof (effect_point _ _ _ _ _ _ _ _ A2) as L2.
    exists (Pointer (Some d)), (increment d (put a d (refill n vs) (negb (alone rc n)) s2)). cbn [increment put point].
    pose proof (allocate_cap _ _ _ _ _ (point s2) E1 L2) as M. rewrite cap_cap in M. rewrite M. cbn [bind]. rewrite E2. reflexivity.
  - exists 1%nat. intros [|fuel] L s Zs; [lia|]. eexists _, s. reflexivity.
  - assert (Q : Forall (fun v => exists N, forall fuel, (N <= fuel)%nat -> ends fuel v) vs).
    { rewrite Forall_forall in *. rewrite forallb_forall in W. intros v I. apply (IH v I (W v I)). intros b J. apply F, in_flat_map. eauto. }
    apply fuel_for_all in Q. destruct Q as (N & Q). exists (S N). intros [|fuel] L s Zs; [lia|]. cbn [deepcopy].
    destruct (copy_parts_ends fuel vs (Q fuel ltac:(lia)) W (fun a I => proj1 (F a I)) s Zs) as (vs' & s' & E). exists (Parts vs'), s'. now rewrite E.
  - assert (Q : Forall (fun v => exists N, forall fuel, (N <= fuel)%nat -> ends fuel v) vs).
    { rewrite Forall_forall in *. rewrite forallb_forall in W. intros v I. apply (IH v I (W v I)). intros b J. apply F, in_flat_map. eauto. }
    apply fuel_for_all in Q. destruct Q as (N & Q). exists (S N). intros [|fuel] L s Zs; [lia|]. cbn [deepcopy].
    destruct (copy_all_ends fuel vs (Q fuel ltac:(lia)) W (fun a I => proj1 (F a I)) s Zs) as (vs' & s' & E). exists (Held vs'), s'. now rewrite E.
  - discriminate W.
  - destruct (IH W F) as (N & Q). exists (S N). intros [|fuel] L s Zs; [lia|]. cbn [deepcopy].
    destruct (Q fuel ltac:(lia) s Zs) as (v' & s' & E). exists (Choice w v'), s'. now rewrite E.
Qed.
End Total.
End Copy.

(** ** The bytes of a copy *)

Lemma mem_in a l : mem a l = true <-> In a l.
Proof.
  unfold mem. rewrite existsb_exists. split; [intros (x & I & E); apply Z.eqb_eq in E; now subst|intros I; exists a; split; [exact I|apply Z.eqb_refl]].
Qed.
Lemma cost_required limit b : cost (Contiguous limit) b = bytes_required b.
Proof. reflexivity. Qed.
Definition is_cell (n : node) : bool := match n with CellNode _ _ => true | _ => false end.
Lemma node_cost_bytes limit n : is_cell n = false -> node_cost (Contiguous limit) n = node_bytes n.
Proof.
  unfold node_cost. rewrite cost_required. destruct n; cbn [is_cell layout_bytes further node_bytes]; intros C; rewrite ?allocs_app; try discriminate C.
  - destruct (reserve is_tuple items =? 0) eqn:E; cbn [allocs app].
    + destruct pod; cbn [allocs]; rewrite ?(proj2 (copies_map items)); cbn [total fold_right]; lia.
    + destruct pod; cbn [allocs]; rewrite ?(proj2 (copies_map items)); rewrite total_cons, cost_required; cbn [total fold_right];
        rewrite (Z.mul_comm width); lia.
  - cbn [allocs total fold_right]. replace (24 + zlen points * width) with (zlen points * width + 24) by lia. lia.
  - cbn [allocs total fold_right]. replace (16 + zlen data) with (zlen data + 16) by lia. lia.
  - rewrite (proj2 (copies_pairs pairs)). cbn [total fold_right]. lia.
  - cbn [allocs total fold_right]. replace (16 + width) with (width + 16) by lia. lia.
  - cbn [allocs total fold_right]. lia.
  - cbn [allocs app]. replace (allocs _) with (@nil Z) by (destruct (_ && _); [reflexivity|now rewrite (proj2 (copies_slots slots))]).
    cbn [app total fold_right]. rewrite !cost_required, (Z.mul_comm width). lia.
  - cbn [allocs app]. replace (allocs _) with (@nil Z) by (destruct pod; [reflexivity|now rewrite (proj2 (copies_set slots))]).
    cbn [app total fold_right]. rewrite !cost_required, (Z.mul_comm width). lia.
Qed.

Lemma flat_map_app_perm {A} (l : list A) (f g h : A -> list addr) :
  (forall x, f x = g x ++ h x) -> Permutation (flat_map g l ++ flat_map h l) (flat_map f l).
Proof.
  intros E. induction l as [|x l IH]; cbn [flat_map]; [constructor|]. rewrite E, <- !app_assoc. apply Permutation_app_head.
  etransitivity; [apply Permutation_app_swap_app|]. apply Permutation_app_head, IH.
Qed.
Lemma flat_map_twice {A B C} (f : B -> list C) (g : A -> list B) l : flat_map f (flat_map g l) = flat_map (fun x => flat_map f (g x)) l.
Proof. induction l as [|x l IH]; cbn [flat_map]; [reflexivity|]. now rewrite flat_map_app, IH. Qed.
Lemma counted_refs n : sound n -> is_cell n = false -> Permutation (flat_map refs (counted_in n)) (node_refs n).
Proof.
  unfold node_refs. destruct n; cbn [sound is_cell counted_in vals_in]; intros S C; try discriminate C; try reflexivity.
  - destruct S as (_ & N & _). destruct pod; [|reflexivity]. now rewrite (nil_refs _ (N eq_refl)).
  - destruct S as (_ & N & _).
    etransitivity; [|rewrite flat_map_twice; apply (flat_map_app_perm slots _
      (fun o => flat_map refs (match o with Some p => [fst p] | None => nil end))
      (fun o => flat_map refs (match o with Some p => [snd p] | None => nil end)))].
    2: { intros [[k v]|]; [cbn [flat_map fst snd]; now rewrite !app_nil_r|reflexivity]. }
    rewrite flat_map_app. apply Permutation_app.
    + destruct key_pod; [|now rewrite flat_map_twice]. rewrite <- flat_map_twice, (nil_refs (flat_map _ slots)); [reflexivity|].
      apply Forall_forall. intros x I. apply in_flat_map in I. destruct I as ([[k v]|] & I & J); [|easy]. destruct J as [<-|[]]. now apply (N k v).
    + destruct value_pod; [|now rewrite flat_map_twice]. rewrite <- flat_map_twice, (nil_refs (flat_map _ slots)); [reflexivity|].
      apply Forall_forall. intros x I. apply in_flat_map in I. destruct I as ([[k v]|] & I & J); [|easy]. destruct J as [<-|[]]. now apply (N k v).
  - destruct S as (_ & N & _). destruct pod; [|reflexivity]. now rewrite (nil_refs _ (N eq_refl)).
Qed.
Lemma counted_whole n : sound n -> is_cell n = false -> Forall (fun v => whole v = true) (counted_in n).
Proof.
  destruct n; cbn [sound is_cell counted_in vals_in]; intros S C; try discriminate C; try constructor; try tauto.
  - destruct S as (_ & _ & W). destruct pod; [constructor|exact W].
  - constructor.
  - constructor.
  - destruct S as (_ & _ & W). rewrite Forall_forall in *. intros x I. apply W. apply in_app_iff in I. apply in_flat_map.
    destruct I as [I|I]; [destruct key_pod; [destruct I|]|destruct value_pod; [destruct I|]]; apply in_flat_map in I; destruct I as ([[k v]|] & I & J); try easy;
      exists (Some (k, v)); (split; [exact I|]); destruct J as [<-|[]]; cbn; auto.
  - destruct S as (_ & _ & W). destruct pod; [constructor|exact W].
Qed.

Section Count.
Variable h : heap.
Variable R : addr -> Prop.
Hypothesis tame : forall a, R a -> exists rc n, h a = Some (rc, n) /\ sound n /\ is_cell n = false.
Hypothesis closed : forall a b, R a -> In b (out h a) -> R b.

Definition counts_well (g : val -> list addr -> result (Z * list addr)) : Prop := forall v seen b seen',
  g v seen = Ok (b, seen') -> (forall a, In a (refs v) -> R a) -> exists t, walk h seen (refs v) t seen' /\ b = total (bytes_of h) t.
Lemma count_all_well g vs : counts_well g -> forall seen b seen', count_all g vs seen = Ok (b, seen') -> (forall a, In a (flat_map refs vs) -> R a) ->
  exists t, walk h seen (flat_map refs vs) t seen' /\ b = total (bytes_of h) t.
Proof.
  intros G. induction vs as [|v vs IH]; cbn [count_all flat_map]; intros seen b seen' E F.
  - injection E as <- <-. exists nil. split; [constructor|reflexivity].
  - destruct (g v seen) as [[x seen1]|] eqn:E1; cbn [bind] in E; [|discriminate E].
    destruct (count_all g vs seen1) as [[y seen2]|] eqn:E2; cbn [bind] in E; [|discriminate E]. injection E as <- <-.
    destruct (G _ _ _ _ E1 ltac:(intros a I; apply F, in_app_iff; auto)) as (t1 & W1 & ->).
    destruct (IH _ _ _ E2 ltac:(intros a I; apply F, in_app_iff; auto)) as (t2 & W2 & ->).
    exists (t2 ++ t1). split; [econstructor; eauto|]. rewrite total_app. lia.
Qed.
Theorem bytecount_walks fuel : counts_well (deep_bytecount h fuel).
Proof.
  induction fuel as [|fuel IH]; intros v seen b seen' E F; cbn [deep_bytecount] in E; [discriminate E|].
  destruct v as [d|[a|]|vs|vs|pod|w v]; cbn [refs] in *.
  - injection E as <- <-. exists nil. split; [constructor|reflexivity].
  - destruct (tame a (F a (or_introl eq_refl))) as (rc & n & Ha & Sn & Cn). rewrite Ha in E.
    assert (La : lone h a = alone rc n) by (unfold lone; now rewrite Ha).
    assert (Oa : out h a = node_refs n) by (unfold out; now rewrite Ha).
    destruct (negb (alone rc n) && mem a seen) eqn:K.
    + injection E as <- <-. apply andb_true_iff in K. destruct K as [K M]. exists nil. split; [|reflexivity].
      apply walk_skip; [rewrite La; now destruct (alone rc n)|now apply mem_in].
    + set (remember := match n with StringNode _ _ _ | BytesNode _ _ => negb (rc =? 1) | _ => true end) in E.
      assert (Hr : alone rc n = false -> remember = true) by (unfold remember; destruct n; cbn [alone]; auto; now intros ->).
      assert (E' : exists x, count_all (deep_bytecount h fuel) (counted_in n) (if remember then a :: seen else seen) = Ok (x, seen') /\ b = node_bytes n + x).
      { destruct n; cbn [count_node] in E; try discriminate Cn;
          (destruct (count_all _ _ _) as [[x seen1]|] eqn:E1; cbn [bind] in E; [|discriminate E]; injection E as <- <-; exists x; split; reflexivity). }
      destruct E' as (x & E1 & ->). pose proof (counted_refs n Sn Cn) as P.
      destruct (count_all_well _ _ IH _ _ _ E1) as (t & W & ->).
      { intros c I. apply (closed a); [apply F; now left|]. rewrite Oa. now apply (Permutation_in _ P). }
      exists (a :: t). split.
      * apply walk_one with (V1 := if remember then a :: seen else seen) (V2 := seen').
        -- rewrite La. destruct (alone rc n); [now left|]. right. intros I. apply mem_in in I. now rewrite I in K.
        -- destruct remember; [apply incl_tl|]; apply incl_refl.
        -- destruct remember; [apply incl_refl|apply incl_tl, incl_refl].
        -- rewrite Oa. eapply walk_perm; eauto.
        -- apply incl_refl.
        -- apply incl_tl, incl_refl.
        -- rewrite La. intros A. apply (proj1 (walk_incl _ _ _ _ _ W)). rewrite (Hr A). now left.
      * rewrite total_cons. unfold bytes_of at 2. now rewrite Ha.
  - injection E as <- <-. exists nil. split; [constructor|reflexivity].
  - now apply (count_all_well _ _ IH).
  - now apply (count_all_well _ _ IH).
  - destruct pod; [|discriminate E]. injection E as <- <-. exists nil. split; [constructor|reflexivity].
  - exact (IH _ _ _ _ E F).
Qed.

Variable rank : addr -> nat.
Hypothesis ranked : forall a b, R a -> In b (out h a) -> (rank b < rank a)%nat.
Definition counts_ends (fuel : nat) (v : val) : Prop := forall seen, exists r, deep_bytecount h fuel v seen = Ok r.
Lemma count_all_ends fuel vs : Forall (counts_ends fuel) vs -> forall seen, exists r, count_all (deep_bytecount h fuel) vs seen = Ok r.
Proof.
  induction 1 as [|v vs Ev Evs IH]; cbn [count_all]; intros seen; [eauto|]. destruct (Ev seen) as ([x seen1] & ->). cbn [bind].
  destruct (IH seen1) as ([y seen2] & ->). cbn [bind]. eauto.
Qed.
Theorem bytecount_ends k : forall v, whole v = true -> (forall a, In a (refs v) -> R a /\ (rank a < k)%nat) ->
  exists N, forall fuel, (N <= fuel)%nat -> counts_ends fuel v.
Proof.
  induction k as [k IHk] using lt_wf_ind. intros v. induction v as [d|[a|]|vs IH|vs IH|pod|w v IH] using val_induction; cbn [refs whole]; intros W F.
  - exists 1%nat. intros [|fuel] L seen; [lia|]. cbn [deep_bytecount]. eauto.
  - destruct (F a (or_introl eq_refl)) as [Ra Ka]. destruct (tame a Ra) as (rc & n & Ha & Sn & Cn).
    assert (Q : Forall (fun v => exists N, forall fuel, (N <= fuel)%nat -> counts_ends fuel v) (counted_in n)).
    { apply Forall_forall. intros v I. pose proof (counted_whole n Sn Cn) as Wn. rewrite Forall_forall in Wn.
      apply (IHk (rank a) Ka v (Wn v I)). intros b J.
      assert (O : In b (out h a)). { unfold out. rewrite Ha. apply (Permutation_in _ (counted_refs n Sn Cn)). apply in_flat_map. eauto. }
      split; [eapply closed; eauto|auto]. }
    apply fuel_for_all in Q. destruct Q as (N & Q). exists (S N). intros [|fuel] L seen; [lia|]. cbn [deep_bytecount]. rewrite Ha.
    destruct (_ && _); [eauto|].
    destruct (count_all_ends fuel _ (Q fuel ltac:(lia)) (if match n with StringNode _ _ _ | BytesNode _ _ => negb (rc =? 1) | _ => true end then a :: seen else seen))
      as ([x seen'] & E).
    destruct n; try discriminate Cn; cbn [count_node] in *; rewrite E; cbn [bind]; eauto.
  - exists 1%nat. intros [|fuel] L seen; [lia|]. cbn [deep_bytecount]. eauto.
  - assert (Q : Forall (fun v => exists N, forall fuel, (N <= fuel)%nat -> counts_ends fuel v) vs).
    { rewrite Forall_forall in *. rewrite forallb_forall in W. intros v I. apply (IH v I (W v I)). intros b J. apply F, in_flat_map. eauto. }
    apply fuel_for_all in Q. destruct Q as (N & Q). exists (S N). intros [|fuel] L seen; [lia|]. cbn [deep_bytecount].
    apply count_all_ends, Q. lia.
  - assert (Q : Forall (fun v => exists N, forall fuel, (N <= fuel)%nat -> counts_ends fuel v) vs).
    { rewrite Forall_forall in *. rewrite forallb_forall in W. intros v I. apply (IH v I (W v I)). intros b J. apply F, in_flat_map. eauto. }
    apply fuel_for_all in Q. destruct Q as (N & Q). exists (S N). intros [|fuel] L seen; [lia|]. cbn [deep_bytecount].
    apply count_all_ends, Q. lia.
  - discriminate W.
  - destruct (IH W F) as (N & Q). exists (S N). intros [|fuel] L seen; [lia|]. cbn [deep_bytecount]. apply Q. lia.
Qed.
End Count.

(** ** Copies of what can be copied *)

Section Top.
Variable h : heap.
Variable root : val.
Hypothesis C : copyable h root.

Lemma reach_tame a : reach h root a -> exists rc n, h a = Some (rc, n) /\ sound n.
Proof. apply (present _ _ C). Qed.
Lemma reach_closed a b : reach h root a -> In b (out h a) -> reach h root b.
Proof.
  intros Ra I. destruct (reach_tame a Ra) as (rc & n & Ha & _). unfold out in I. rewrite Ha in I. eapply reach_next; eauto.
Qed.
Lemma start_zero base : zero (start base).
Proof. split; [reflexivity|intros a d []]. Qed.

Definition target (P : list (addr * addr)) (a : addr) : addr := match assoc a P with Some d => d | None => 0 end.
Lemma nodup_assoc P a d : NoDup (map fst P) -> In (a, d) P -> assoc a P = Some d.
Proof.
  induction P as [|[b e] P IH]; cbn [map fst assoc]; intros N I; [destruct I|]. apply NoDup_cons_iff in N. destruct N as [N1 N2].
  destruct (a =? b) eqn:E.
  - apply Z.eqb_eq in E. subst b. destruct I as [[= ->]|I]; [reflexivity|]. elim N1. change a with (fst (a, d)). now apply in_map.
  - destruct I as [[= -> ->]|I]; [now rewrite Z.eqb_refl in E|]. now apply IH.
Qed.
Lemma pairs_srcs T : map fst (pairs_of T) = srcs T.
Proof. unfold pairs_of, srcs. rewrite map_map. reflexivity. Qed.

Lemma nodup_news (T : list entry) a b d n m : NoDup (map fst (news T)) -> In (a, (d, n)) T -> In (b, (d, m)) T -> a = b.
Proof.
  induction T as [|[x [e k]] T IH]; intros D I J; [destruct I|]. cbn [news map snd fst] in D. apply NoDup_cons_iff in D. destruct D as [D1 D2].
  assert (K : forall y l, In (y, (e, l)) T -> False).
  { intros y l I'. apply D1. apply in_map_iff. exists (e, l). split; [reflexivity|]. apply in_map_iff. now exists (y, (e, l)). }
  destruct I as [E1|I], J as [E2|J].
  - congruence.
  - injection E1 as -> -> ->. now destruct (K _ _ J).
  - injection E2 as -> -> ->. now destruct (K _ _ I).
  - now apply IH.
Qed.

Theorem copy_right sl stale base fuel root' s : deepcopy h sl stale fuel root (start base) = Ok (root', s) ->
  is_copy h root root' s /\ stacked base (point s) (blocks s) /\ in_blocks s /\ (forall d n, In (d, n) (nodes s) -> base < d < point s) /\
  exists l, lists_reached h root l /\ point s = base + total (cost_of h sl) l.
Proof.
  intros E. destruct (deepcopy_good h stale (reach h root) reach_tame reach_closed sl fuel root (start base) root' s E (complete _ _ C)
    (reach_root h root) (start_zero base)) as (T & [En Ew Em Er Ec Ep Eb Ef _]).
  cbn [start nodes memo point counts blocks map] in *. rewrite app_nil_r in En. 
  pose proof (walk_lists _ _ _ _ C Ew) as L. destruct L as [N L].
  pose proof (Er (pairs_of T) ltac:(intros x []) (incl_refl _)) as [Rr Re].
  set (f := target (pairs_of T)).
  assert (Nf : forall a d, In (a, d) (pairs_of T) -> d = f a).
  { intros a d I. unfold f, target. rewrite (nodup_assoc _ a d); auto. now rewrite pairs_srcs. }
  assert (Ht : forall a, reach h root a -> exists n', In (a, (f a, n')) T).
  { intros a Ra. apply L in Ra. apply in_map_iff in Ra. destruct Ra as ([b [d n]] & <- & I). exists n. cbn [fst]. 
    assert (d = f b) as <-; [|exact I]. apply Nf. unfold pairs_of. apply in_map_iff. now exists (b, (d, n)). }
  assert (Hn : forall d n, In (d, n) (nodes s) -> exists a, In (a, (d, n)) T).
  { intros d n I. rewrite En in I. apply in_map_iff in I. destruct I as ([a [d' n']] & [= -> ->] & I). now exists a. }
  assert (Hf : forall a d n, In (a, (d, n)) T -> d = f a).
  { intros a d n I. apply Nf. unfold pairs_of. apply in_map_iff. now exists (a, (d, n)). }
  destruct Eb as (nb & bs & own & Eb & Es & Eo & Ex & El). rewrite app_nil_r in Eb. destruct Ef as [Ef Ed].
  split; [|split; [|split; [|split]]].
  - exists f. split; [eapply rel_move; eauto|]. split; [|split; [|split; [|split]]].
    + intros a b Ra Rb Eab. destruct (Ht a Ra) as (n & I). destruct (Ht b Rb) as (n' & J). rewrite <- Eab in J.
      exact (nodup_news _ _ _ _ _ _ Ed I J).
    + intros a rc n Ra Ha. destruct (Ht a Ra) as (n' & I). rewrite Forall_forall in Re. destruct (Re _ I) as (rc' & m & vs & Hm & Sm & Fm & Em').
      cbn [fst snd] in *. rewrite Ha in Hm. injection Hm as <- <-. rewrite En. unfold news. apply in_map_iff. exists (a, (f a, n')). split; [|exact I].
      cbn [snd]. f_equal. rewrite Em', (rel_list_move _ f _ _ Nf Fm). now apply refill_move.
    + now rewrite En.
    + intros d n I. destruct (Hn d n I) as (a & J). exists a. split; [|eauto]. apply L. unfold srcs. apply in_map_iff. now exists (a, (d, n)).
    + intros d n I. rewrite Ec, En. lia.
  - now rewrite Eb.
  - exists own. rewrite Eb, En. split; [|exact El]. inversion Ex. subst bs. exact Eo.
  - intros d n I. rewrite En in I. rewrite Forall_forall in Ef. now apply (Ef (d, n)).
  - exists (srcs T). split; [now split|]. change (total (cost sl) nil) with 0 in Ep. lia.
Qed.

Lemma refs_ranked (rank : addr -> nat) : exists k, forall a, In a (refs root) -> reach h root a /\ (rank a < k)%nat.
Proof.
  destruct (max_rank rank (refs root)) as (m & M). exists (S m). intros a I. split; [now apply reach_root|]. specialize (M a I). lia.
Qed.
Lemma copy_fuel sl stale : exists N, forall fuel, (N <= fuel)%nat -> forall base, exists root' s,
  deepcopy h (cap sl (point s)) stale fuel root (start base) = Ok (root', s).
Proof.
  destruct (acyclic _ _ C) as (rank & K). destruct (refs_ranked rank) as (k & F).
  destruct (deepcopy_ends h stale (reach h root) reach_tame reach_closed rank K sl k root (complete _ _ C) F) as (N & Q).
  exists N. intros fuel L base. apply (Q fuel L (start base)), start_zero.
Qed.
Theorem copy_ends stale : exists N, forall fuel, (N <= fuel)%nat -> forall base, exists root' s,
  deepcopy h FreeStore stale fuel root (start base) = Ok (root', s).
Proof. exact (copy_fuel FreeStore stale). Qed.

Hypothesis K : no_cells h root.
Lemma reach_no_cell a : reach h root a -> exists rc n, h a = Some (rc, n) /\ sound n /\ is_cell n = false.
Proof.
  intros Ra. destruct (reach_tame a Ra) as (rc & n & Ha & Sn). exists rc, n. repeat split; auto. destruct n; try reflexivity. now elim (K a rc width v Ra).
Qed.
Theorem bytecount_right fuel b seen : deep_bytecount h fuel root nil = Ok (b, seen) -> forall l, lists_reached h root l -> b = total (bytes_of h) l.
Proof.
  intros E l L. destruct (bytecount_walks h (reach h root) reach_no_cell reach_closed fuel root nil b seen E (reach_root h root)) as (t & W & ->).
  exact (lists_total _ _ _ _ _ (walk_lists _ _ _ _ C W) L).
Qed.
Theorem bytecount_fuel : exists N, forall fuel, (N <= fuel)%nat -> exists b seen, deep_bytecount h fuel root nil = Ok (b, seen).
Proof.
  destruct (acyclic _ _ C) as (rank & Kr). destruct (refs_ranked rank) as (k & F).
  destruct (bytecount_ends h (reach h root) reach_no_cell reach_closed rank Kr k root (complete _ _ C) F) as (N & Q).
  exists N. intros fuel L. destruct (Q fuel L nil) as ([b seen] & E). eauto.
Qed.
Theorem contiguous_ends stale : exists N, forall fuel, (N <= fuel)%nat -> forall base, exists root' s b seen,
  deepcopy_contiguous h stale base fuel root = Ok (root', s) /\ deep_bytecount h fuel root nil = Ok (b, seen) /\
  deepcopy h (Contiguous (base + b)) stale fuel root (start base) = Ok (root', s) /\ point s = base + b.
Proof.
  destruct (copy_fuel (Contiguous 0) stale) as (N1 & Q1). destruct bytecount_fuel as (N2 & Q2). exists (Nat.max N1 N2). intros fuel L base.
  destruct (Q1 fuel ltac:(lia) base) as (root' & s & E1). destruct (Q2 fuel ltac:(lia)) as (b & seen & E2). cbn [cap] in E1.
  destruct (copy_right _ _ _ _ _ _ E1) as (_ & _ & _ & _ & l & Ll & Ep).
  assert (P : point s = base + b).
  { rewrite (bytecount_right _ _ _ E2 l Ll), Ep. f_equal. apply total_ext. intros a I. apply Ll in I.
    destruct (reach_no_cell a I) as (rc & n & Ha & _ & Cn). unfold cost_of, bytes_of. rewrite Ha. now apply node_cost_bytes. }
  rewrite P in E1. exists root', s, b, seen. split; [|tauto]. unfold deepcopy_contiguous. rewrite E2. cbn [bind]. rewrite E1. cbn [bind].
  replace (b =? point s - base) with true; [reflexivity|]. symmetry. apply Z.eqb_eq. lia.
Qed.
End Top.

(** ** A copy can be copied again *)

Lemma refs_move f v : refs (move f v) = map f (refs v).
Proof.
  induction v as [d|[a|]|vs IH|vs IH|pod|w v IH] using val_induction; cbn [move refs map]; auto.
  - induction IH as [|v vs Ev Evs IHl]; cbn [map flat_map]; [reflexivity|]. now rewrite map_app, Ev, IHl.
  - induction IH as [|v vs Ev Evs IHl]; cbn [map flat_map]; [reflexivity|]. now rewrite map_app, Ev, IHl.
Qed.
Lemma refs_move_all f vs : flat_map refs (map (move f) vs) = map f (flat_map refs vs).
Proof. induction vs as [|v vs IH]; cbn [map flat_map]; [reflexivity|]. now rewrite map_app, refs_move, IH. Qed.
Lemma whole_move f v : whole (move f v) = whole v.
Proof.
  induction v as [d|[a|]|vs IH|vs IH|pod|w v IH] using val_induction; cbn [move whole]; auto.
  - induction IH as [|v vs Ev Evs IHl]; cbn [map forallb]; [reflexivity|]. now rewrite Ev, IHl.
  - induction IH as [|v vs Ev Evs IHl]; cbn [map forallb]; [reflexivity|]. now rewrite Ev, IHl.
Qed.
Lemma vals_move f n : vals_in (move_node f n) = map (move f) (vals_in n).
Proof.
  destruct n; cbn [move_node vals_in map]; auto.
  - induction pairs as [|[k v] pairs IH]; cbn [map flat_map fst snd app]; [reflexivity|]. now rewrite IH.
  - induction slots as [|[[k v]|] slots IH]; cbn [map flat_map option_map fst snd app]; [reflexivity| |exact IH]. now rewrite IH.
  - induction slots as [|[v|] slots IH]; cbn [map flat_map option_map app]; [reflexivity| |exact IH]. now rewrite IH.
Qed.
Lemma node_refs_move f n : node_refs (move_node f n) = map f (node_refs n).
Proof. unfold node_refs. now rewrite vals_move, refs_move_all. Qed.
Lemma no_refs_move f v : no_refs v -> no_refs (move f v).
Proof. unfold no_refs. intros E. now rewrite refs_move, E. Qed.
Lemma wholes_move f vs : Forall (fun v => whole v = true) vs -> Forall (fun v => whole v = true) (map (move f) vs).
Proof. intros F. rewrite Forall_map. eapply Forall_impl; [|exact F]. intros v. now rewrite whole_move. Qed.
Lemma no_refs_moves f vs : Forall no_refs vs -> Forall no_refs (map (move f) vs).
Proof. intros F. rewrite Forall_map. eapply Forall_impl; [|exact F]. intros v. apply no_refs_move. Qed.
Lemma sound_move f n : sound n -> sound (move_node f n).
Proof.
  pose proof (vals_move f n) as V. destruct n; cbn [sound move_node] in *; intros S; auto.
  - destruct S as (A & B & D). split; [exact A|]. split; [intros P; now apply no_refs_moves, B|now apply wholes_move].
  - destruct S as (A & B). split; [exact A|]. rewrite V. now apply wholes_move.
  - rewrite whole_move. exact S.
  - rewrite whole_move. exact S.
  - destruct S as (A & B & D). split; [exact A|]. split; [|rewrite V; now apply wholes_move].
    intros k v I. apply in_map_iff in I. destruct I as ([[k' v']|] & E & I); [|discriminate E]. injection E as <- <-. destruct (B _ _ I) as [Bk Bv].
    split; intros P; apply no_refs_move; auto.
  - destruct S as (A & B & D). split; [exact A|]. split; [intros P; rewrite V; now apply no_refs_moves, B|rewrite V; now apply wholes_move].
  - destruct S as (A & [B|(pod & ->)]); (split; [exact A|]); [left; now rewrite whole_move|right; now exists pod].
Qed.
Lemma length_move {A B} (f : A -> B) l : zlen (map f l) = zlen l.
Proof. unfold zlen. now rewrite map_length. Qed.
Lemma reserve_move f t items : reserve t (map (move f) items) = reserve t items.
Proof. unfold reserve. now rewrite length_move. Qed.
Lemma bytes_move f n : node_bytes (move_node f n) = node_bytes n.
Proof. destruct n; cbn [node_bytes move_node]; rewrite ?reserve_move, ?length_move; reflexivity. Qed.

Section Again.
Variable h : heap.
Variable root root' : val.
Variable s : state.
Hypothesis C : copyable h root.
Hypothesis I : is_copy h root root' s.

Lemma in_heap_of d n : NoDup (map fst (nodes s)) -> In (d, n) (nodes s) -> heap_of s d = Some (counts s d, n).
Proof.
  unfold heap_of. induction (nodes s) as [|[e m] l IH]; cbn [map fst find]; intros N J; [destruct J|].
  apply NoDup_cons_iff in N. destruct N as [N1 N2]. destruct (e =? d) eqn:E.
  - apply Z.eqb_eq in E. subst e. destruct J as [[= ->]|J]; [reflexivity|]. elim N1. change d with (fst (d, n)). now apply in_map.
  - destruct J as [[= -> ->]|J]; [now rewrite Z.eqb_refl in E|]. now apply IH.
Qed.

Lemma originals (f : addr -> addr) (l : list (addr * node)) : (forall d n, In (d, n) l -> exists a, reach h root a /\ d = f a) ->
  exists g : addr -> addr, forall d n, In (d, n) l -> reach h root (g d) /\ d = f (g d).
Proof.
  induction l as [|[e m] l IH]; intros F; [exists (fun x => x); intros d n []|].
  destruct IH as (g & G); [intros d n J; eapply F; right; eauto|]. destruct (F e m (or_introl eq_refl)) as (a & Ra & Ea).
  exists (fun d => if d =? e then a else g d). intros d n J. destruct (d =? e) eqn:E; [apply Z.eqb_eq in E; subst d; now split|].
  destruct J as [[= -> ->]|J]; [now rewrite Z.eqb_refl in E|eauto].
Qed.
Lemma total_sub (g : addr -> Z) l : (forall x, 0 <= g x) -> NoDup l -> forall l', incl l l' -> total g l <= total g l'.
Proof.
  intros P. induction 1 as [|x l Nx N IH]; intros l' J; [apply total_nonneg; auto|].
  destruct (in_split x l' (J x (or_introl eq_refl))) as (l1 & l2 & ->). rewrite total_app, !total_cons.
  assert (incl l (l1 ++ l2)). { intros y Y. specialize (J y (or_intror Y)). apply in_app_iff in J. apply in_app_iff. destruct J as [J|[J|J]]; [now left| |now right]. subst y. now elim Nx. }
  specialize (IH _ H). rewrite total_app in IH. lia.
Qed.
(** What is reached in the copy are the copies of what is reached. *)
Lemma copy_heap : exists f, root' = move f root /\ (forall a b, reach h root a -> reach h root b -> f a = f b -> a = b) /\
  (forall a rc n, reach h root a -> h a = Some (rc, n) -> heap_of s (f a) = Some (counts s (f a), move_node f n)) /\
  (forall d, reach (heap_of s) root' d <-> exists a, reach h root a /\ d = f a) /\
  (exists g, forall a, reach h root a -> g (f a) = a) /\ (forall a, reach h root a -> In (f a) (map fst (nodes s))).
Proof.
  destruct I as (f & Er & Ei & En & Nd & Ed & Ec). exists f.
  assert (H : forall a rc n, reach h root a -> h a = Some (rc, n) -> heap_of s (f a) = Some (counts s (f a), move_node f n)).
  { intros a rc n Ra Ha. apply in_heap_of; [exact Nd|eauto]. }
  assert (M : forall a, reach h root a -> exists n, In (f a, n) (nodes s)).
  { intros a Ra. destruct (present _ _ C a Ra) as (rc & n & Ha & _). exists (move_node f n). eauto. }
  split; [exact Er|]. split; [exact Ei|]. split; [exact H|]. split; [|split].
  2: { destruct (originals f (nodes s) Ed) as (g & G). exists g. intros a Ra. destruct (M a Ra) as (n & J). destruct (G _ _ J) as [Rg Eg]. symmetry. now apply Ei. }
  2: { intros a Ra. destruct (M a Ra) as (n & J). apply in_map_iff. now exists (f a, n). }
  intros d. split.
  - induction 1 as [d J|d rc n e Rd IH Hd J].
    + rewrite Er, refs_move in J. apply in_map_iff in J. destruct J as (a & <- & J). exists a. split; [now apply reach_root|reflexivity].
    + destruct IH as (a & Ra & ->). destruct (present _ _ C a Ra) as (rc' & m & Ha & _). rewrite (H _ _ _ Ra Ha) in Hd. injection Hd as <- <-.
      rewrite node_refs_move in J. apply in_map_iff in J. destruct J as (b & <- & J). exists b. split; [eapply reach_next; eauto|reflexivity].
  - intros (a & Ra & ->). induction Ra as [a J|a rc n b Ra IH Ha J].
    + apply reach_root. rewrite Er, refs_move. now apply in_map.
    + eapply reach_next; [exact IH|exact (H _ _ _ Ra Ha)|]. rewrite node_refs_move. now apply in_map.
Qed.

Theorem copy_copyable : copyable (heap_of s) root'.
Proof.
  destruct copy_heap as (f & Er & Ei & H & Hr & (g & G) & M).
  assert (Ho : forall a rc n, reach h root a -> h a = Some (rc, n) -> out (heap_of s) (f a) = map f (out h a)).
  { intros a rc n Ra Ha. unfold out. rewrite (H _ _ _ Ra Ha), Ha. apply node_refs_move. }
  split.
  - rewrite Er, whole_move. exact (complete _ _ C).
  - intros d Rd. apply Hr in Rd. destruct Rd as (a & Ra & ->). destruct (present _ _ C a Ra) as (rc & n & Ha & Sn).
    exists (counts s (f a)), (move_node f n). split; [eauto|now apply sound_move].
  - destruct (acyclic _ _ C) as (rank & K). exists (fun d => rank (g d)). intros d e Rd J. apply Hr in Rd. destruct Rd as (a & Ra & ->).
    destruct (present _ _ C a Ra) as (rc & n & Ha & _). rewrite (Ho _ _ _ Ra Ha) in J. apply in_map_iff in J. destruct J as (b & <- & J).
    rewrite (G a Ra), (G b); [now apply K|]. unfold out in J. rewrite Ha in J. eapply reach_next; eauto.
  - intros d rc n l Rd Hd Nl Fl.
    destruct I as (f' & _ & _ & _ & Nd & Ed & Ec).
    assert (Id : In (d, n) (nodes s) /\ rc = counts s d).
    { unfold heap_of in Hd. destruct (find _ (nodes s)) as [[e m]|] eqn:E; [|discriminate Hd]. injection Hd as <- <-. apply find_some in E.
      destruct E as [E1 E2]. cbn [fst] in E2. apply Z.eqb_eq in E2. now subst e. }
    destruct Id as [Id ->]. rewrite (Ec d n Id).
    assert (total (fun b => times d (out (heap_of s) b)) l <= total (fun b => times d (out (heap_of s) b)) (map fst (nodes s))).
    { apply total_sub; [intros; apply times_nonneg|exact Nl|]. intros b Ib. destruct (proj1 (Hr b) (Fl b Ib)) as (a & Ra & ->). now apply M. }
    rewrite total_map in H0. rewrite (total_ext _ (fun p => times d (node_refs (snd p))) (nodes s)) in H0; [lia|].
    intros [e m] J. cbn [fst snd]. unfold out. now rewrite (in_heap_of e m Nd J).
Qed.
Theorem copy_no_cells : no_cells h root -> no_cells (heap_of s) root'.
Proof.
  intros K d rc w v Rd Hd. destruct copy_heap as (f & Er & Ei & H & Hr & _). apply Hr in Rd. destruct Rd as (a & Ra & ->).
  destruct (present _ _ C a Ra) as (rc' & n & Ha & _). rewrite (H _ _ _ Ra Ha) in Hd. destruct n; cbn [move_node] in Hd; try discriminate Hd.
  exact (K a rc' width v0 Ra Ha).
Qed.
Theorem copy_bytes l : lists_reached h root l -> exists l', lists_reached (heap_of s) root' l' /\ total (bytes_of (heap_of s)) l' = total (bytes_of h) l.
Proof.
  intros [Nl Ll]. destruct copy_heap as (f & Er & Ei & H & Hr & _). exists (map f l). split; [split|].
  - assert (F : forall a, In a l -> reach h root a) by (intros a J; now apply Ll). clear Ll. induction Nl as [|a l Na Nl IH]; cbn [map]; [constructor|].
    constructor; [|apply IH; intros b J; apply F; now right]. intros J. apply in_map_iff in J. destruct J as (b & E & J). apply Na.
    replace a with b; [exact J|]. apply Ei; [apply F; now right|apply F; now left|exact E].
  - intros d. rewrite Hr. split.
    + intros J. apply in_map_iff in J. destruct J as (a & <- & J). exists a. split; [now apply Ll|reflexivity].
    + intros (a & Ra & ->). apply in_map. now apply Ll.
  - rewrite total_map. apply total_ext. intros a J. apply Ll in J. destruct (present _ _ C a J) as (rc & n & Ha & _). unfold bytes_of.
    rewrite (H _ _ _ J Ha), Ha. apply bytes_move.
Qed.
End Again.
