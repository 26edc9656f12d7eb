(** Proofs that [cmp] is the order of the meanings. *)
From Coq Require Import ZifyBool ZifyNat.
From Verif Require Import Base HashAcc_Model ConstDict_Model ConstDict_Spec Val_Model Val_Spec Val_Proofs.
Open Scope Z_scope.
Open Scope result_scope.

Definition means (v w : val) : Z := torder (meaning v) (meaning w).
Notation seq_order vs ws := (list_order torder (map meaning vs) (map meaning ws)).

Lemma equal_loop_ok : forall vs ws, length vs = length ws ->
  (forall x y, In (x, y) (combine vs ws) -> cmp x y NE = Ok (negb (means x y =? 0))) ->
  equal_loop cmp vs ws = Ok (seq_order vs ws =? 0).
Proof.
  induction vs as [|x vs IH]; intros [|y ws]; try discriminate; auto.
  intros [= L] H; cbn [equal_loop map list_order]; fold (equal_loop cmp).
  rewrite (H x y) by (left; auto). cbn [bind]. fold (means x y).
  destruct (Z.eqb_spec (means x y) 0) as [E|E]; cbn [negb].
  - apply IH; auto. intros; apply H; right; auto.
  - destruct (Z.eqb_spec (means x y) 0); auto; contradiction.
Qed.
Lemma order_loop_ok : forall vs ws,
  (forall x y, In (x, y) (combine vs ws) ->
     cmp x y NE = Ok (negb (means x y =? 0)) /\ cmp x y LT = Ok (means x y <? 0)) ->
  exists c, order_loop cmp vs ws = Ok c /\
            (if negb (c =? 0) then c else sign (Z.of_nat (length vs)) (Z.of_nat (length ws))) = seq_order vs ws.
Proof.
  induction vs as [|x vs IH]; intros [|y ws] H; cbn [order_loop map list_order]; fold (order_loop cmp).
  - exists 0; auto.
  - exists 0; split; auto.
  - exists 0; split; auto.
  - destruct (H x y) as [E1 E2]; [left; auto|]. rewrite E1; cbn [bind]; fold (means x y).
    destruct (Z.eqb_spec (means x y) 0) as [E|E]; cbn [negb].
    + destruct (IH ws) as (c & E3 & E4); [intros; apply H; right; auto|].
      exists c; split; auto. rewrite <- E4. destruct (negb (c =? 0)); auto. cbn [length].
      pose proof (sign_cases (Z.of_nat (length vs)) (Z.of_nat (length ws))).
      pose proof (sign_cases (Z.of_nat (S (length vs))) (Z.of_nat (S (length ws)))). lia.
    + rewrite E2; cbn [bind]. eexists; split; [reflexivity|].
      pose proof (torder_range (meaning x) (meaning y)) as R; fold (means x y) in R.
      destruct (Z.ltb_spec (means x y) 0); cbn; lia.
Qed.

Section Compare.
Variable D : declarations.
Variable memory : Z -> val.

Definition agrees (v w : val) : Prop :=
  cmp v w EQ = Ok (means v w =? 0) /\ cmp v w NE = Ok (negb (means v w =? 0)) /\
  (everywhere orderable v -> forall op, cmp v w op = Ok (cmp_result op (means v w))).

Lemma agrees_all v w : (forall op, cmp v w op = Ok (cmp_result op (means v w))) -> agrees v w.
Proof. intros H; repeat split; auto; apply H. Qed.

Lemma good_elements t vs :
  all (fun v => has_type D v t) vs -> all (lives_in memory) vs -> all (everywhere no_nan) vs ->
  all (everywhere null_empties) vs -> forall v, In v vs -> good_value D memory t v.
Proof. intros H1 H2 H3 H4 v H; repeat split; [exact (all_in _ _ _ H1 H) | exact (all_in _ _ _ H2 H) | exact (all_in _ _ _ H3 H) | exact (all_in _ _ _ H4 H)]. Qed.

Lemma means_refl v : means v v = 0.
Proof. apply torder_refl. Qed.

Lemma seq_agrees p c vs q d ws : (p <> 0 -> memory p = VSeq p c vs) -> (q <> 0 -> memory q = VSeq q d ws) ->
  (p = 0 -> vs = []) ->
  (forall x y, In (x, y) (combine vs ws) -> agrees x y) -> agrees (VSeq p c vs) (VSeq q d ws).
Proof.
  intros Lv Lw Pv H.
  assert (A : forall op, (op = EQ \/ op = NE) \/ everywhere orderable (VSeq p c vs) ->
              cmp (VSeq p c vs) (VSeq q d ws) op = Ok (cmp_result op (means (VSeq p c vs) (VSeq q d ws)))).
  2: { split; [|split]; [apply A; auto | apply A; auto | intros; apply A; auto]. }
  intros op Hop; unfold means; cbn [cmp meaning torder].
  destruct vs as [|x vs], ws as [|y ws]; cbn [is_empty andb]; try reflexivity.
  destruct (Z.eqb_spec p q) as [<-|N].
  { assert (Ep : p <> 0) by (intros E; discriminate (Pv E)).
    specialize (Lv Ep); specialize (Lw Ep). rewrite Lv in Lw; injection Lw as -> -> ->.
    replace (seq_order (y :: ws) (y :: ws)) with 0; auto.
    symmetry; apply (torder_refl (Node (map meaning (y :: ws)))). }
  set (l := x :: vs) in *; set (r := y :: ws) in *.
  assert (E : (if negb (Z.of_nat (length l) =? Z.of_nat (length r)) then Ok false else equal_loop cmp l r)
              = Ok (seq_order l r =? 0)).
  { destruct (Z.eqb_spec (Z.of_nat (length l)) (Z.of_nat (length r))) as [E|E]; cbn [negb].
    - apply equal_loop_ok; [lia|]. intros a b I; destruct (H a b I) as (_ & H2 & _); exact H2.
    - destruct (Z.eqb_spec (seq_order l r) 0) as [F|F]; auto.
      assert (G : Node (map meaning l) = Node (map meaning r)) by (apply torder_eq; exact F).
      apply (f_equal (fun t => match t with Node k => length k | _ => O end)) in G. rewrite !map_length in G. lia. }
  assert (O : everywhere orderable (VSeq p c l) -> exists k, order_loop cmp l r = Ok k /\
              (if negb (k =? 0) then k else sign (Z.of_nat (length l)) (Z.of_nat (length r))) = seq_order l r).
  { intros [_ HO]. apply order_loop_ok. intros a b I. destruct (H a b I) as (H1 & H2 & H3). split; auto.
    rewrite H3; [reflexivity|]. exact (all_in _ _ _ HO (in_combine_l _ _ _ _ I)). }
  rewrite E.
  destruct op; try reflexivity; (destruct Hop as [[?|?]|Hop]; [discriminate | discriminate |]);
    destruct (O Hop) as (k & -> & Ek); cbn [bind]; rewrite Ek; reflexivity.
Qed.
Lemma tuple_agrees vs ws : length vs = length ws ->
  (forall x y, In (x, y) (combine vs ws) -> agrees x y) -> agrees (VTuple vs) (VTuple ws).
Proof.
  intros L H.
  assert (E : equal_loop cmp vs ws = Ok (seq_order vs ws =? 0)).
  { apply equal_loop_ok; auto. intros a b I; destruct (H a b I) as (_ & H2 & _); exact H2. }
  split; [|split]; [exact E | cbn [cmp]; rewrite E; reflexivity |].
  intros [_ HO] op. unfold means; cbn [cmp meaning torder].
  destruct (order_loop_ok vs ws) as (k & Ek & Eo).
  { intros a b I. destruct (H a b I) as (H1 & H2 & H3). split; auto.
    rewrite H3; [reflexivity|]. exact (all_in _ _ _ HO (in_combine_l _ _ _ _ I)). }
  rewrite Ek, E; cbn [bind]. rewrite L in Eo.
  replace (sign (Z.of_nat (length ws)) (Z.of_nat (length ws))) with 0 in Eo
    by (unfold sign; rewrite Z.ltb_irrefl; auto).
  replace k with (seq_order vs ws) by (destruct (Z.eqb_spec k 0); cbn in Eo; congruence).
  destruct op; reflexivity.
Qed.
Lemma nested_order i j x y :
  torder (Node [Num (Z.of_nat i); x]) (Node [Num (Z.of_nat j); y]) =
  if (i <? j)%nat then -1 else if (j <? i)%nat then 1 else torder x y.
Proof.
  cbn [torder list_order]. pose proof (sign_cases (Z.of_nat i) (Z.of_nat j)).
  destruct (Nat.ltb_spec i j), (Nat.ltb_spec j i); try lia.
  - replace (sign _ _) with (-1) by lia; reflexivity.
  - replace (sign _ _) with 1 by lia; reflexivity.
  - replace (sign _ _) with 0 by lia; cbn [Z.eqb]. destruct (Z.eqb_spec (torder x y) 0); auto.
Qed.

Lemma cmp_agrees : forall v w t, good_value D memory t v -> good_value D memory t w -> agrees v w.
Proof.
  induction v as [|b|b z|b|p wd c l|p c l|p c vs IH|vs IH|i v IH|p i v IH|v IH|p|p fs IH] using val_ind2;
    intros w t (Tv & Lv & Nv & Ev) (Tw & Lw & Nw & Ew);
    destruct t; cbn in Tv; try contradiction; destruct w; cbn in Tw; try contradiction.
  - apply agrees_all; reflexivity.
  - apply agrees_all; reflexivity.
  - apply agrees_all; reflexivity.
  - apply agrees_all; intros op. destruct Nv as [Nv _], Nw as [Nw _]; cbn in Nv, Nw.
    unfold means; cbn [cmp meaning].
    destruct (float_value b) as [x|] eqn:E1; [|contradiction].
    destruct (float_value bits) as [y|] eqn:E2; [|contradiction].
    rewrite (float_sign_value b bits x y) by auto; reflexivity.
  - destruct Tv as (Pv & _), Tw as (Pw & _). destruct Ev as [Ev _], Ew as [Ew _]; cbn in Ev, Ew.
    apply agrees_all; intros op; cbn [cmp]. unfold means; cbn [meaning torder].
    destruct op; f_equal; rewrite ?string_eq_order, ?string_sign_order by (split; auto); reflexivity.
  - destruct Tv as (Pv & _), Tw as (Pw & _). destruct Ev as [Ev _], Ew as [Ew _]; cbn in Ev, Ew.
    apply agrees_all; intros op; cbn [cmp]. unfold means; cbn [meaning torder].
    rewrite bytes_sign_order; [reflexivity | split; auto | split; auto |].
    intros <-; cbn in Lv, Lw. destruct (Z.eq_dec p 0) as [E|E]; [rewrite Pv, Pw; auto|].
    specialize (Lv E); specialize (Lw E); congruence.
  - destruct Tv as (Pv & Tv), Tw as (Pw & Tw), Lv as (Lv & Lvs), Lw as (Lw & Lws).
    destruct Nv as [_ Nv], Nw as [_ Nw], Ev as [_ Ev], Ew as [_ Ew].
    apply seq_agrees; auto; [tauto|]. intros x y I. rewrite Forall_forall in IH.
    apply (IH x (in_combine_l _ _ _ _ I) y t);
      [apply (good_elements t vs) | apply (good_elements t vs0)]; eauto using in_combine_l, in_combine_r.
  - destruct Tv as (Pv & Tv), Tw as (Pw & Tw), Lv as (Lv & Lvs), Lw as (Lw & Lws).
    destruct Nv as [_ Nv], Nw as [_ Nw], Ev as [_ Ev], Ew as [_ Ew].
    apply seq_agrees; auto; [tauto|]. intros x y I. rewrite Forall_forall in IH.
    apply (IH x (in_combine_l _ _ _ _ I) y t);
      [apply (good_elements t vs) | apply (good_elements t vs0)]; eauto using in_combine_l, in_combine_r.
  - destruct Nv as [_ Nv], Nw as [_ Nw], Ev as [_ Ev], Ew as [_ Ew]. cbn in Lv, Lw.
    apply tuple_agrees; [apply all2_length in Tv, Tw; congruence|].
    intros x y I. rewrite Forall_forall in IH.
    destruct (all2_in _ _ _ _ _ _ Tv Tw I) as (t & T1 & T2).
    pose proof (in_combine_l _ _ _ _ I) as I1; pose proof (in_combine_r _ _ _ _ I) as I2.
    apply (IH x I1 y t); (split; [assumption|]); repeat split;
      (exact (all_in _ _ _ Lv I1) || exact (all_in _ _ _ Nv I1) || exact (all_in _ _ _ Ev I1) ||
       exact (all_in _ _ _ Lw I2) || exact (all_in _ _ _ Nw I2) || exact (all_in _ _ _ Ew I2)).
  - destruct Nv as [_ Nv], Nw as [_ Nw], Ev as [_ Ev], Ew as [_ Ew]. cbn in Lv, Lw.
    unfold agrees, means; cbn [meaning cmp]; rewrite nested_order.
    destruct (Nat.ltb_spec i which) as [?|?]; [repeat split; reflexivity|].
    destruct (Nat.ltb_spec which i) as [?|?]; [repeat split; reflexivity|].
    assert (which = i) as -> by lia. destruct (nth_error ts i) as [t|]; [|contradiction].
    destruct (IH w t) as (H1 & H2 & H3); [repeat split; auto | repeat split; auto |].
    split; [exact H1|split; [exact H2|]]. intros [_ HO]; exact (H3 HO).
  - destruct Nv as [_ Nv], Nw as [_ Nw], Ev as [_ Ev], Ew as [_ Ew].
    destruct Tv as (Pv & Tv), Tw as (Pw & Tw), Lv as (Lv & Lvs), Lw as (Lw & Lws).
    unfold agrees, means; cbn [meaning cmp]; rewrite nested_order.
    destruct (nth_error (options_of D name) i) as [ts|] eqn:E1; [|contradiction].
    destruct (nth_error (options_of D name) which) as [us|] eqn:E2; [|contradiction].
    destruct (Z.eqb_spec p 0) as [Z0|Z0].
    { assert (A : all_empty D name = true) by tauto.
      unfold all_empty in A; rewrite forallb_forall in A.
      pose proof (A _ (nth_error_In _ _ E1)) as A1; pose proof (A _ (nth_error_In _ _ E2)) as A2.
      destruct ts; [|discriminate]. destruct us; [|discriminate].
      destruct v; try contradiction. destruct vs; [|contradiction].
      destruct w; try contradiction. destruct vs; [|contradiction].
      pose proof (sign_cases (Z.of_nat i) (Z.of_nat which)).
      destruct (Nat.ltb_spec i which), (Nat.ltb_spec which i); try lia;
        [replace (sign _ _) with (-1) by lia | replace (sign _ _) with 1 by lia | replace (sign _ _) with 0 by lia];
        repeat split; reflexivity. }
    destruct (Z.eqb_spec p p0) as [<-|N].
    { specialize (Lv Z0); specialize (Lw Z0). rewrite Lv in Lw; injection Lw as -> ->.
      rewrite Nat.ltb_irrefl, torder_refl. repeat split; reflexivity. }
    destruct (Nat.ltb_spec i which) as [?|?]; [repeat split; reflexivity|].
    destruct (Nat.ltb_spec which i) as [?|?]; [repeat split; reflexivity|].
    assert (which = i) as -> by lia. rewrite E1 in E2; injection E2 as <-.
    destruct (IH w (TTuple ts)) as (H1 & H2 & H3); [repeat split; auto | repeat split; auto |].
    split; [exact H1|split; [exact H2|]]. intros [_ HO]; exact (H3 HO).
  - apply agrees_all; reflexivity.
  - unfold agrees, means; cbn [cmp meaning torder].
    pose proof (sign_cases p p0).
    assert (E : (sign p p0 =? 0) = (p =? p0)) by lia. rewrite E.
    repeat split. intros [[] _].
  - destruct Nv as [_ Nv], Nw as [_ Nw], Ev as [_ Ev], Ew as [_ Ew]. cbn in Lv, Lw.
    assert (E : field_loop cmp fs fields = Ok (means (VHeld p fs) (VHeld p0 fields) =? 0)).
    { unfold means; cbn [meaning torder]. clear p p0.
      revert fields Tv Tw IH Lv Lw Nv Nw Ev Ew. generalize (fields_of D name) as ts.
      induction fs as [|[x|] fs IHf]; intros [|t ts] [|[y|] gs] Tv Tw; cbn in Tv, Tw; try tauto; intros IH Lv Lw Nv Nw Ev Ew;
        cbn [field_loop map list_order torder]; fold (field_loop cmp); try reflexivity;
        inversion IH as [|? ? IH1 IH2]; subst.
      - destruct Tv as [T1 Tv], Tw as [T2 Tw], Lv as [L1 Lv], Lw as [L2 Lw], Nv as [N1 Nv], Nw as [N2 Nw],
          Ev as [E1 Ev], Ew as [E2 Ew].
        destruct (IH1 y t) as (H1 & _); [repeat split; auto | repeat split; auto |].
        rewrite H1; cbn [bind]. fold (means x y).
        destruct (Z.eqb_spec (means x y) 0) as [F|F].
        + cbn. exact (IHf ts gs Tv Tw IH2 Lv Lw Nv Nw Ev Ew).
        + apply Z.eqb_neq in F; rewrite ?F; reflexivity.
      - destruct Tv as [T1 Tv], Tw as [T2 Tw], Lv as [L1 Lv], Lw as [L2 Lw], Nv as [N1 Nv], Nw as [N2 Nw],
          Ev as [E1 Ev], Ew as [E2 Ew].
        cbn. exact (IHf ts gs Tv Tw IH2 Lv Lw Nv Nw Ev Ew). }
    split; [exact E|split; [cbn [cmp]; rewrite E; reflexivity|]]. intros [[] _].
Qed.
End Compare.
