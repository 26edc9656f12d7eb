(** Proofs about comprehensions. *)
From Coq Require Import Lia ZifyBool ZifyNat.
From Verif Require Import Base PyLoop Loop_Model Loop_Spec Loop_Proofs Comp_Spec Comp_Model.
Set Implicit Arguments.
Open Scope Z_scope.
Open Scope list_scope.

Section Proofs.
  Context {St A B Acc : Type} (of_int : Z -> A).
  Notation prog := (prog (St * Acc) A unit).

  Lemma turns_same_body it asg (b c : St * Acc -> run (St * Acc) unit) o :
    (forall s, b s = c s) -> forall fuel i s, python_turns of_int it asg b o fuel i s = python_turns of_int it asg c o fuel i s.
  Proof.
    intros H. induction fuel as [|f IH]; intros i s; cbn [python_turns]; [reflexivity|].
    destruct (element of_int it i s); [|reflexivity]. destruct (asg a s) as [s1 [e|]]; [reflexivity|].
    rewrite H. destruct (c s1) as [s2 [| | | |]| |]; try reflexivity; apply IH.
  Qed.

  (** Tests that only look may be made in any order. *)
  Lemma python_ifs_looks fuel ts (p : prog) s : Forall only_looks ts ->
    python_run of_int fuel (python_ifs ts p) s =
      if forallb (fun t : St -> St * (bool + exn) => match snd (t (fst s)) with inl b => b | inr _ => false end) ts
      then python_run of_int fuel p s else Ends s Normal.
  Proof.
    induction ts as [|t ts IH]; intros H; cbn [python_ifs forallb python_run]; [reflexivity|].
    destruct (Forall_inv H (fst s)) as [b E]. unfold with_acc. rewrite E. cbn [snd].
    rewrite <- surjective_pairing. destruct b; [|reflexivity]. apply IH. exact (Forall_inv_tail H).
  Qed.

  Lemma compiled_ifs_python ts (p : prog) : compiled_ifs ts p = python_ifs (rev ts) p.
  Proof.
    unfold compiled_ifs. rewrite <- fold_left_rev_right. induction (rev ts) as [|t l IH]; [reflexivity|].
    cbn [fold_right python_ifs]. now rewrite IH.
  Qed.

  Lemma ifs_same fuel ts (p : prog) s : Forall only_looks ts \/ (length ts <= 1)%nat ->
    python_run of_int fuel (compiled_ifs ts p) s = python_run of_int fuel (python_ifs ts p) s.
  Proof.
    intros [H|H].
    - rewrite compiled_ifs_python. rewrite !python_ifs_looks; [|exact H|].
      + assert (forall (f : (St -> St * (bool + exn)) -> bool) l, forallb f (rev l) = forallb f l) as F.
        { intros f. induction l as [|x l IH]; [reflexivity|]. cbn [rev forallb]. rewrite forallb_app, IH. cbn [forallb].
          rewrite andb_true_r. apply andb_comm. }
        now rewrite F.
      + apply Forall_forall. intros x X. apply in_rev in X. revert x X. now apply Forall_forall.
    - destruct ts as [|t [|u ts]]; [reflexivity|reflexivity|cbn [length] in H; lia].
  Qed.

  Lemma ifs_length fuel ts elt (put : B -> Acc -> Acc) (items : St -> list A) :
    (forall t s, In t ts -> length (items (fst (t s))) = length (items s)) ->
    (forall s, length (items (fst (elt s))) = length (items s)) ->
    forall s s1 o, python_run of_int fuel (python_ifs ts (collect elt put)) s = Ends s1 o ->
    length (items (fst s1)) = length (items (fst s)).
  Proof.
    intros H1 H2. induction ts as [|t ts IH]; intros s s1 o; cbn [python_ifs python_run collect].
    - specialize (H2 (fst s)). destruct (elt (fst s)) as [s2 [b|e]]; intros E; injection E as <- _; exact H2.
    - unfold with_acc. pose proof (H1 t (fst s) (or_introl eq_refl)) as T.
      destruct (t (fst s)) as [s2 [[|]|e]]; cbn [fst] in T; intros E.
      + rewrite (IH (fun u v U => H1 u v (or_intror U)) _ _ _ E). exact T.
      + injection E as <- _. exact T.
      + injection E as <- _. exact T.
  Qed.

  (** One [for]. *)
  Lemma one_for fuel (c : clause St A) elt (put : B -> Acc -> Acc) empty s :
    Forall only_looks (ifs c) \/ (length (ifs c) <= 1)%nat ->
    (forall s s1 it, iter c s = (s1, inl it) ->
       match it with
       | Seq items => leaves_length c elt items
       | Range start stop step => range_ok start stop step
       | Iterator items pos => pos = 0%nat /\ leaves_length c elt items
       end) ->
    compiled_comprehension of_int fuel (c :: nil) elt put empty s = python_comprehension of_int fuel (c :: nil) elt put empty s.
  Proof.
    intros Hi Hs. unfold compiled_comprehension, python_comprehension. rewrite same_run.
    - cbn [compiled_nest fold_left python_nest python_run].
      destruct (over_expr _ _) as [s1 [it|e]]; [|reflexivity].
      destruct (python_make it) as [it1|e]; [|reflexivity].
      apply turns_same_body. intros t. now apply ifs_same.
    - cbn [compiled_nest fold_left counted]. rewrite compiled_ifs_python.
      assert (forall ts, counted of_int (python_ifs ts (collect elt put)) /\
                for_lines (python_ifs ts (@collect St A B Acc elt put)) = nil /\
                target_lines (python_ifs ts (@collect St A B Acc elt put)) = nil) as K.
      { induction ts as [|t ts (I1 & I2 & I3)]; cbn [python_ifs counted for_lines target_lines].
        - split; [exact I|]. now split.
        - split; [split; [exact I1|exact I]|]. rewrite I2, I3. now split. }
      destruct (K (rev (ifs c))) as (K1 & K2 & K3). rewrite K2, K3. split; [reflexivity|]. split; [exact K1|]. split; [intros []|]. split; [intros []|].
      intros t t1 it. cbn [clause_loop over_expr]. unfold with_acc.
      destruct (iter c (fst t)) as [s1 [it0|e]] eqn:E; [|discriminate]. intros Q. injection Q as <- <-.
      specialize (Hs _ _ _ E).
      assert (forall items, leaves_length c elt items ->
        keeps_length of_int (clause_loop 0 c) (python_ifs (rev (ifs c)) (collect elt put)) (fun s : St * Acc => items (fst s))) as L.
      { intros items (L1 & L2 & L3). split.
        - intros a u u1 e. cbn [clause_loop assign]. unfold with_acc. pose proof (L1 a (fst u)) as L.
          destruct (set_target c a (fst u)) as [v x]. intros W. injection W as <- _. exact L.
        - intros f u u1 o. apply ifs_length; [|exact L3]. intros t0 v V. apply L2. now apply in_rev. }
      destruct it0 as [items|start stop step|items pos]; cbn [on_state steady].
      + now apply L.
      + exact Hs.
      + destruct Hs as [-> Hs]. split; [reflexivity|now apply L].
  Qed.
End Proofs.
