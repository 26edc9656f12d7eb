(** Proofs about comparisons with Python values: containers.  Property C52. *)
From Coq Require Import ZifyBool ZifyNat.
From Verif Require Import Base ConstDict_Model Arith_Model Arith_Spec Val_Model ValPy_Model ValPy_Spec ValPy_Proofs.
Open Scope Z_scope.
Open Scope result_scope.

Local Opaque unit_.

Fixpoint each (l r : list pyval) : bool :=
  match l, r with [], [] => true | x :: l, y :: r => py_eq x y && each l r | _, _ => false end.
Definition first (op : cmpop) : list pyval -> list pyval -> result bool :=
  fix go l r :=
    match l, r with
    | x :: l, y :: r => if py_eq x y then go l r else py_order op x y
    | _, _ => Ok (cmp_result op (Z.of_nat (length l) - Z.of_nat (length r)))
    end.
Lemma py_eq_seq l r : py_eq (PTuple l) (PTuple r) = each l r /\ py_eq (PList l) (PList r) = each l r.
Proof. split; reflexivity. Qed.
Lemma py_order_seq op l r : py_order op (PTuple l) (PTuple r) = first op l r /\ py_order op (PList l) (PList r) = first op l r.
Proof. split; reflexivity. Qed.

Lemma reg_number r z : is_float r = false -> in_range r z -> number (to_python (TvReg r z)) = Some (Finite (z * unit_)).
Proof. intros F R; destruct r; try discriminate F; try reflexivity. cbn in R; destruct R as [->| ->]; reflexivity. Qed.
Lemma reg_shape r z : (exists b, to_python (TvReg r z) = PBool b) \/ to_python (TvReg r z) = PInt z.
Proof. destruct r; cbn; eauto. Qed.
Lemma py_eq_number p q x y : number p = Some x -> number q = Some y -> py_eq p q = num_eq x y.
Proof. intros Hp Hq; destruct p; try discriminate Hp; cbn [py_eq]; rewrite Hp, Hq; reflexivity. Qed.
Lemma py_eq_not_number p q x : number p = Some x -> number q = None -> py_eq p q = false.
Proof. intros Hp Hq; destruct p; try discriminate Hp; cbn [py_eq]; rewrite Hp, Hq; destruct q; try reflexivity; discriminate Hq. Qed.
Lemma py_order_number op p q x y : number p = Some x -> number q = Some y -> py_order op p q = Ok (num_compare op x y).
Proof. intros Hp Hq; destruct p; try discriminate Hp; cbn [py_order]; rewrite Hp, Hq; reflexivity. Qed.
Lemma py_order_not_number op p q x : number p = Some x -> number q = None -> py_order op p q = Err TypeError.
Proof. intros Hp Hq; destruct p; try discriminate Hp; cbn [py_order]; rewrite Hp, Hq; destruct q; try reflexivity; discriminate Hq. Qed.

Lemma python_number op p q x y : number p = Some x -> number q = Some y -> python op p q = Ok (num_compare op x y).
Proof.
  intros Hp Hq; destruct op; cbn [python]; rewrite ?(py_eq_number _ _ _ _ Hp Hq), ?(py_order_number _ _ _ _ _ Hp Hq); reflexivity.
Qed.
Lemma python_not_number op p q x : number p = Some x -> number q = None -> python op p q = not_comparable op.
Proof.
  intros Hp Hq; destruct op; cbn [python]; rewrite ?(py_eq_not_number _ _ _ Hp Hq), ?(py_order_not_number _ _ _ _ Hp Hq); reflexivity.
Qed.

(** Numbers: every operator is right. *)
Lemma integer_right op r x q : is_float r = false -> in_range r x -> py_well_formed q -> exact_numbers (TvReg r x) q ->
  compare_integer r x q op = python op (to_python (TvReg r x)) q.
Proof.
  intros F R W E. pose proof (reg_number r x F R) as N.
  destruct q as [|b|z|bits|l|l|l|l|i]; try (rewrite (python_not_number op _ _ _ N) by reflexivity; reflexivity).
  - rewrite (python_number op _ (PBool b) _ (Finite (Z.b2z b * unit_)) N eq_refl). cbn [compare_integer]. f_equal; apply bool_compare; auto.
  - rewrite (python_number op _ (PInt z) _ (Finite (z * unit_)) N eq_refl). cbn [compare_integer].
    rewrite <- (c_integer_compare op r x z F R E). destruct (c_integer z); reflexivity.
  - rewrite (python_number op _ (PFloat bits) _ (float_num bits) N eq_refl). cbn [compare_integer]. cbn in E, W.
    destruct (double_small x E) as [B D]. rewrite c_compare_num, D by assumption. reflexivity.
Qed.
Lemma float_right op a q : 0 <= a < 2 ^ 64 -> py_well_formed q -> exact_numbers (TvFloat a) q ->
  compare_float a q op = python op (PFloat a) q.
Proof.
  intros A W E.
  destruct q as [|b|z|bits|l|l|l|l|i]; try (rewrite (python_not_number op (PFloat a) _ (float_num a) eq_refl) by reflexivity; reflexivity).
  - rewrite (python_number op (PFloat a) (PBool b) (float_num a) (Finite (Z.b2z b * unit_)) eq_refl eq_refl). cbn [compare_float].
    destruct (double_small (Z.b2z b)) as [B D]; [destruct b; cbn; lia|]. rewrite c_compare_num, D by assumption. reflexivity.
  - rewrite (python_number op (PFloat a) (PInt z) (float_num a) (Finite (z * unit_)) eq_refl eq_refl). cbn [compare_float]. cbn [exact_numbers] in E.
    assert (C : snd (c_integer z) = z).
    { unfold c_integer. replace ((- 2 ^ 63 <=? z) && (z <? 2 ^ 63)) with true by lia. reflexivity. }
    rewrite C. destruct (double_small z E) as [B D]. rewrite c_compare_num, D by assumption. reflexivity.
  - rewrite (python_number op (PFloat a) (PFloat bits) (float_num a) (float_num bits) eq_refl eq_refl). cbn [compare_float]. cbn in W. rewrite c_compare_num by assumption. reflexivity.
Qed.

(** Equality *)
Definition equality (op : cmpop) : bool := match op with EQ | NE => true | _ => false end.
Definition right_equality (v : tval) : Prop := forall op q, equality op = true ->
  well_formed v -> py_well_formed q -> facing exact_numbers v q -> compare v q op = python op (to_python v) q.

Lemma loop_equality op vs : equality op = true -> Forall right_equality vs -> forall ws,
  all well_formed vs -> all py_well_formed ws -> pairs (facing exact_numbers) vs ws ->
  exists c, item_loop compare op vs ws = Ok c /\ (c =? 0) = each (map to_python vs) ws.
Proof.
  intros O H; induction H as [|v vs Hv _ IH]; intros [|w ws] W1 W2 P; cbn [item_loop each map].
  - exists 0; auto.
  - exists (-1); auto.
  - exists 1; auto.
  - cbn in W1, W2, P. rewrite (Hv EQ w eq_refl) by tauto. cbn [python bind].
    destruct (py_eq (to_python v) w); cbn [andb].
    + apply IH; tauto.
    + exists 1. destruct op; try discriminate O; auto.
Qed.

Lemma equality_right v : right_equality v.
Proof.
  induction v as [|r z|b|p w l|l|vs IH|vs IH|vs IH|i v IH|v IH] using tval_ind2; intros op q O W1 W2 P.
  - destruct q; destruct op; try discriminate O; reflexivity.
  - cbn in P. apply integer_right; cbn in W1; tauto.
  - apply float_right; assumption.
  - cbn [compare to_python]. destruct q as [|?|?|?|r|?|?|?|?]; try (destruct op; try discriminate O; reflexivity).
    rewrite string_right; auto; [|destruct op; try discriminate O; auto]. destruct op; try discriminate O; reflexivity.
  - cbn [compare to_python]. destruct q as [|?|?|?|?|r|?|?|?]; try (destruct op; try discriminate O; reflexivity).
    rewrite bytes_right; auto; [|destruct op; try discriminate O; auto]. destruct op; try discriminate O; reflexivity.
  - destruct q as [|?|?|?|?|?|ws|?|?]; try (destruct op; try discriminate O; reflexivity).
    cbn in W1, W2, P. destruct (loop_equality op vs O IH ws) as (c & E & Z); auto.
    cbn [compare to_python]. rewrite E; cbn [bind].
    destruct op; try discriminate O; cbn [python cmp_result]; rewrite (proj1 (py_eq_seq _ _)), Z; reflexivity.
  - destruct q as [|?|?|?|?|?|?|ws|?]; try (destruct op; try discriminate O; reflexivity).
    cbn in W1, W2, P. destruct (loop_equality op vs O IH ws) as (c & E & Z); auto.
    cbn [compare to_python]. rewrite E; cbn [bind].
    destruct op; try discriminate O; cbn [python cmp_result]; rewrite (proj2 (py_eq_seq _ _)), Z; reflexivity.
  - destruct q as [|?|?|?|?|?|ws|?|?]; try (destruct op; try discriminate O; reflexivity).
    cbn in W1, W2, P. destruct (loop_equality op vs O IH ws) as (c & E & Z); auto.
    cbn [compare to_python]. rewrite E; cbn [bind].
    destruct op; try discriminate O; cbn [python cmp_result]; rewrite (proj1 (py_eq_seq _ _)), Z; reflexivity.
  - apply (IH op q O W1 W2 P).
  - apply (IH op q O W1 W2 P).
Qed.

(** Python's own operators are consistent where no NaN is involved: [<] decides between different values. *)
Definition decided (op : cmpop) (p q : pyval) : Prop := py_eq p q = false ->
  py_order op p q = (l <- py_order LT p q ;; Ok (cmp_result op (if l : bool then -1 else 1))).
Lemma num_decided op x y : equality op = false -> x <> NaN -> y <> NaN -> num_eq x y = false ->
  num_compare op x y = cmp_result op (if num_compare LT x y then -1 else 1).
Proof.
  intros O X Y E. destruct x as [| |x|], y as [| |y|]; try congruence; try discriminate E; destruct op; try discriminate O; try reflexivity;
    cbn in *; destruct (Z.ltb_spec x y); cbn; lia.
Qed.
Lemma points_decided op l r : equality op = false -> points_eq l r = false ->
  points_compare op l r = cmp_result op (if points_compare LT l r then -1 else 1).
Proof.
  intros O E. rewrite !points_compare_sign. destruct (points_sign_lt l r) as (_ & _ & Z). rewrite E in Z.
  cbn [cmp_result]. destruct (Z.ltb_spec (points_sign l r) 0); destruct op; try discriminate O; cbn; lia.
Qed.
Lemma first_decided op vs : equality op = false -> Forall (fun v => forall q, facing orderable v q -> decided op (to_python v) q) vs -> forall ws,
  pairs (facing orderable) vs ws -> each (map to_python vs) ws = false ->
  first op (map to_python vs) ws = (l <- first LT (map to_python vs) ws ;; Ok (cmp_result op (if l : bool then -1 else 1))).
Proof.
  intros O H; induction H as [|v vs Hv _ IH]; intros [|w ws] P E; cbn [map first each] in *.
  - discriminate E.
  - cbn [length bind]. set (n := Z.of_nat (S (length ws))). assert (0 < n) by (subst n; lia). clearbody n.
    cbn [cmp_result]. replace (Z.of_nat 0 - n <? 0) with true by lia. destruct op; try discriminate O; cbn [cmp_result]; f_equal; lia.
  - cbn [length bind]. set (n := Z.of_nat (S (length (map to_python vs)))). assert (0 < n) by (subst n; lia). clearbody n.
    cbn [cmp_result]. replace (n - Z.of_nat 0 <? 0) with false by lia. destruct op; try discriminate O; cbn [cmp_result]; f_equal; lia.
  - cbn in P. destruct P as [P1 P2]. destruct (py_eq (to_python v) w) eqn:D; cbn [andb] in E; auto. apply (Hv w P1 D).
Qed.
Lemma number_decided op p q x : equality op = false -> number p = Some x -> x <> NaN -> number q <> Some NaN -> decided op p q.
Proof.
  intros O N X Q E. destruct (number q) as [y|] eqn:M.
  - rewrite (py_eq_number _ _ _ _ N M) in E. rewrite !(py_order_number _ _ _ _ _ N M). cbn [bind]. f_equal.
    apply num_decided; auto. congruence.
  - rewrite !(py_order_not_number _ _ _ _ N M). reflexivity.
Qed.
Lemma order_decided op v : equality op = false -> forall q, well_formed v -> facing orderable v q -> decided op (to_python v) q.
Proof.
  intros O. induction v as [|r z|b|p w l|l|vs IH|vs IH|vs IH|i v IH|v IH] using tval_ind2; intros q W P.
  - intros _. reflexivity.
  - destruct W as [F R]. apply (number_decided op _ _ _ O (reg_number r z F R)); [discriminate|].
    cbn in P. destruct q; cbn; try discriminate. congruence.
  - cbn in P. destruct P as [P1 P2]. apply (number_decided op (PFloat b) _ (float_num b) O eq_refl); auto.
    destruct q; cbn; try discriminate. congruence.
  - intros E. cbn [to_python] in *. destruct q as [|?|?|?|r|?|?|?|?]; try reflexivity. cbn [py_order number bind].
    rewrite (points_decided op l r O); [reflexivity|]. exact E.
  - intros E. cbn [to_python] in *. destruct q as [|?|?|?|?|r|?|?|?]; try reflexivity. cbn [py_order number bind].
    rewrite (points_decided op l r O); [reflexivity|]. exact E.
  - intros E. cbn [to_python] in *. destruct q as [|?|?|?|?|?|ws|?|?]; try reflexivity.
    rewrite !(proj1 (py_order_seq _ _ _)). rewrite (proj1 (py_eq_seq _ _)) in E. apply first_decided; auto.
    cbn in W. clear -IH W. induction IH; cbn in W; constructor; [|tauto]. intros q; apply H; tauto.
  - intros E. cbn [to_python] in *. destruct q as [|?|?|?|?|?|?|ws|?]; try reflexivity.
    rewrite !(proj2 (py_order_seq _ _ _)). rewrite (proj2 (py_eq_seq _ _)) in E. apply first_decided; auto.
    cbn in W. clear -IH W. induction IH; cbn in W; constructor; [|tauto]. intros q; apply H; tauto.
  - intros E. cbn [to_python] in *. destruct q as [|?|?|?|?|?|ws|?|?]; try reflexivity.
    rewrite !(proj1 (py_order_seq _ _ _)). rewrite (proj1 (py_eq_seq _ _)) in E. apply first_decided; auto.
    cbn in W. clear -IH W. induction IH; cbn in W; constructor; [|tauto]. intros q; apply H; tauto.
  - apply IH; assumption.
  - apply IH; assumption.
Qed.

(** Order *)
Definition right_order (v : tval) : Prop := forall op q, equality op = false ->
  well_formed v -> py_well_formed q -> facing exact_numbers v q -> facing orderable v q ->
  is_sequence v \/ py_eq (to_python v) q = false -> compare v q op = py_order op (to_python v) q.

Lemma loop_order op vs : equality op = false -> Forall right_order vs -> forall ws,
  all well_formed vs -> all py_well_formed ws -> pairs (facing exact_numbers) vs ws -> pairs (facing orderable) vs ws ->
  (c <- item_loop compare op vs ws ;; Ok (cmp_result op c)) = first op (map to_python vs) ws.
Proof.
  intros O H; induction H as [|v vs Hv _ IH]; intros [|w ws] W1 W2 P Q; cbn [item_loop first map].
  - reflexivity.
  - destruct op; reflexivity.
  - destruct op; reflexivity.
  - cbn in W1, W2, P, Q. rewrite (equality_right v EQ w eq_refl) by tauto. cbn [python bind].
    destruct (py_eq (to_python v) w) eqn:E.
    + apply IH; tauto.
    + rewrite (order_decided op v O w) by tauto. rewrite (Hv LT w eq_refl) by tauto.
      destruct (py_order LT (to_python v) w) as [b|e]; destruct op; try discriminate O; reflexivity.
Qed.

Lemma order_right v : right_order v.
Proof.
  induction v as [|r z|b|p w l|l|vs IH|vs IH|vs IH|i v IH|v IH] using tval_ind2; intros op q O W1 W2 P Q S.
  - cbn in Q. subst q. destruct S as [[]|S]. discriminate S.
  - cbn in P. cbn [compare]. rewrite integer_right by (cbn in W1; tauto). destruct op; try discriminate O; reflexivity.
  - cbn [compare]. rewrite float_right by assumption. destruct op; try discriminate O; reflexivity.
  - cbn [compare to_python] in *. cbn in Q. destruct q as [|?|?|?|r|?|?|?|?]; try contradiction.
    rewrite string_right; auto.
  - cbn in Q. subst q. destruct S as [[]|S]. cbn in S. rewrite points_eq_refl in S. discriminate S.
  - cbn in W1, P, Q. destruct q as [|?|?|?|?|?|ws|?|?]; try (destruct op; try discriminate O; reflexivity).
    cbn [compare to_python]. rewrite (proj1 (py_order_seq _ _ _)). apply loop_order; auto.
  - cbn in W1, P, Q. destruct q as [|?|?|?|?|?|?|ws|?]; try (destruct op; try discriminate O; reflexivity).
    cbn [compare to_python]. rewrite (proj2 (py_order_seq _ _ _)). apply loop_order; auto.
  - cbn in W1, P, Q. destruct q as [|?|?|?|?|?|ws|?|?]; try (destruct op; try discriminate O; reflexivity).
    cbn [compare to_python]. rewrite (proj1 (py_order_seq _ _ _)). apply loop_order; auto.
  - destruct S as [[]|S]. apply (IH op q O); auto.
  - destruct S as [[]|S]. apply (IH op q O); auto.
Qed.

(** ** Turning a comparison around *)

Lemma pyval_ind2 (P : pyval -> Prop) :
  P PNone -> (forall b, P (PBool b)) -> (forall z, P (PInt z)) -> (forall b, P (PFloat b)) -> (forall l, P (PStr l)) ->
  (forall l, P (PBytes l)) -> (forall l, Forall P l -> P (PTuple l)) -> (forall l, Forall P l -> P (PList l)) ->
  (forall i, P (POther i)) -> forall p, P p.
Proof.
  intros H1 H2 H3 H4 H5 H6 H7 H8 H9.
  fix F 1; intros p; destruct p as [|b|z|b|l|l|l|l|i].
  - exact H1.
  - exact (H2 b).
  - exact (H3 z).
  - exact (H4 b).
  - exact (H5 l).
  - exact (H6 l).
  - apply H7; induction l; constructor; [apply F | assumption].
  - apply H8; induction l; constructor; [apply F | assumption].
  - exact (H9 i).
Qed.
Lemma num_eq_sym x y : num_eq x y = num_eq y x.
Proof. destruct x, y; try reflexivity. cbn. apply Z.eqb_sym. Qed.
Lemma number_sym p q : number p <> None -> py_eq p q = py_eq q p /\ forall op, py_order op q p = py_order (reversed op) p q.
Proof.
  intros N. destruct (number p) as [x|] eqn:P; [clear N|congruence]. destruct (number q) as [y|] eqn:Q.
  - rewrite (py_eq_number _ _ _ _ P Q), (py_eq_number _ _ _ _ Q P). split; [apply num_eq_sym|]. intros op.
    rewrite (py_order_number _ _ _ _ _ P Q), (py_order_number _ _ _ _ _ Q P). f_equal.
    destruct op; cbn [num_compare reversed]; rewrite ?(num_eq_sym y x); reflexivity.
  - rewrite (py_eq_not_number _ _ _ P Q). split.
    + destruct p; try discriminate P; destruct q; try discriminate Q; reflexivity.
    + intros op; rewrite (py_order_not_number _ _ _ _ P Q). destruct p; try discriminate P; destruct q; try discriminate Q; reflexivity.
Qed.
Lemma points_sym op l r : points_compare op r l = points_compare (reversed op) l r.
Proof. destruct op; cbn; rewrite ?(points_eq_sym r l); reflexivity. Qed.
Definition turns (p : pyval) : Prop := forall q, py_eq p q = py_eq q p /\ forall op, py_order op q p = py_order (reversed op) p q.
Lemma each_sym l : Forall turns l -> forall r, each l r = each r l.
Proof.
  intros H; induction H as [|x l Hx _ IH]; intros [|y r]; cbn; auto. rewrite (proj1 (Hx y)), IH. reflexivity.
Qed.
Lemma first_sym op l : Forall turns l -> forall r, first op r l = first (reversed op) l r.
Proof.
  intros H; induction H as [|x l Hx _ IH]; intros [|y r]; cbn [first].
  - destruct op; reflexivity.
  - destruct op; reflexivity.
  - destruct op; reflexivity.
  - rewrite (proj1 (Hx y)), IH. destruct (py_eq y x); [reflexivity|]. apply (proj2 (Hx y)).
Qed.
Lemma all_turn p : turns p.
Proof.
  induction p as [|b|z|b|l|l|l IH|l IH|i] using pyval_ind2; intros q; try (apply number_sym; discriminate).
  - destruct q; try (apply and_comm; split; [intros op|]; reflexivity); split; try intros op; reflexivity.
  - destruct q; try (split; try intros op; reflexivity). split; [apply points_eq_sym|intros op]. cbn [py_order number]. f_equal. apply points_sym.
  - destruct q; try (split; try intros op; reflexivity). split; [apply points_eq_sym|intros op]. cbn [py_order number]. f_equal. apply points_sym.
  - destruct q as [|?|?|?|?|?|r|r|?]; try (split; try intros op; reflexivity). rewrite !(proj1 (py_eq_seq _ _)).
    split; [apply each_sym, IH|intros op]. rewrite !(proj1 (py_order_seq _ _ _)). apply first_sym, IH.
  - destruct q as [|?|?|?|?|?|r|r|?]; try (split; try intros op; reflexivity). rewrite !(proj2 (py_eq_seq _ _)).
    split; [apply each_sym, IH|intros op]. rewrite !(proj2 (py_order_seq _ _ _)). apply first_sym, IH.
  - destruct q; try (split; try intros op; reflexivity). split; [apply Z.eqb_sym|intros op; reflexivity].
Qed.
Lemma python_turns op p q : python op q p = python (reversed op) p q.
Proof. destruct (all_turn p q) as [E O]. destruct op; cbn [python reversed]; rewrite ?E, ?O; reflexivity. Qed.
