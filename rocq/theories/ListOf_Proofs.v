(** The operations on a layout, one by one. *)
From Coq Require Import List.
From Verif Require Import Base PyList PyList_Proofs ListOf_Model ListOf_Spec ListOf_Slice_Proofs.
From Coq Require Import ZifyBool ZifyNat.
Open Scope Z_scope.
Open Scope result_scope.

Lemma wrap_u64_small x : 0 <= x < 2 ^ 64 -> wrap_u 64 x = x.
Proof. intros H; apply Z.mod_small, H. Qed.
Lemma wrap_s32_small x : - 2 ^ 31 <= x < 2 ^ 31 -> wrap_s 32 x = x.
Proof.
  intros H; unfold wrap_s. change (2 ^ (32 - 1)) with (2 ^ 31).
  destruct (Z.le_gt_cases 0 x).
  - rewrite Z.mod_small by lia; cbv zeta. destruct (x <? 2 ^ 31) eqn:E; lia.
  - assert (x mod 2 ^ 32 = x + 2 ^ 32) as -> by (symmetry; apply (Z.mod_unique_pos x (2 ^ 32) (-1)); lia).
    cbv zeta. destruct (_ <? _) eqn:E; lia.
Qed.

Section Proofs.
  Context {V : Type}.
  Variables (w : Z) (pod by_ref : bool) (default : V).
  Hypothesis w_pos : 0 < w <= 32768.

  Notation lst := (@lst V).

  (** A layout that stands for [xs], with the cells beyond. *)
  Definition mk (xs : list V) (rest : list (option V)) : lst :=
    Lst (map Some xs ++ rest) (zlength xs) (zlength xs + Z.of_nat (length rest)).
  Definition fits (xs : list V) (rest : list (option V)) : Prop := zlength xs + Z.of_nat (length rest) < 2 ^ 31.

  Lemma represents_mk l xs : represents l xs <-> exists rest, l = mk xs rest /\ fits xs rest.
  Proof.
    unfold represents, mk, fits, capacity, zlength; split.
    - intros [Hc [Hf [Hr Hb]]]; destruct l as [cs c r]; cbn [count cells reserved] in *; subst c r.
      exists (skipn (length xs) cs).
      assert (E : map Some xs ++ skipn (length xs) cs = cs) by (rewrite <- Hf; apply firstn_skipn).
      assert (L : (length xs + length (skipn (length xs) cs))%nat = length cs).
      { rewrite <- E at 2; rewrite app_length, map_length; reflexivity. }
      split; [rewrite E; f_equal; lia|lia].
    - intros [rest [-> Hf]]; cbn [count cells reserved].
      rewrite app_length, map_length, firstn_app, map_length, Nat.sub_diag, firstn_O, app_nil_r.
      rewrite firstn_all2 by (rewrite map_length; lia). repeat split; lia.
  Qed.

  Lemma zlength_app (xs ys : list V) : zlength (xs ++ ys) = zlength xs + zlength ys.
  Proof. unfold zlength; rewrite app_length; lia. Qed.
  Lemma zlength_pos (xs : list V) : 0 <= zlength xs. Proof. unfold zlength; lia. Qed.
  Lemma zlength_cons x (xs : list V) : zlength (x :: xs) = 1 + zlength xs.
  Proof. unfold zlength; cbn [length]; lia. Qed.

  Lemma zlength_nil : zlength (@nil V) = 0. Proof. reflexivity. Qed.
  Ltac zl := repeat rewrite ?zlength_app, ?zlength_cons, ?zlength_nil in *; lia.

  (** *** Memory *)
  Lemma fitting_ok n : 0 <= n < 2 ^ 31 -> fitting w (wrap_u 64 (w * n)) = Ok (Z.to_nat n).
  Proof.
    intros Hn; rewrite wrap_u64_small by nia. unfold fitting.
    destruct (w * n =? 0) eqn:E; [f_equal; nia|]. cbv zeta.
    rewrite wrap_u64_small by nia.
    destruct ((w * n + 16 <? 8) || (2 ^ 47 <? w * n + 16)) eqn:E2; [nia|].
    f_equal; f_equal. rewrite Z.max_r by nia. replace (w * n + 16 - 16) with (n * w) by lia. apply Z.div_mul; lia.
  Qed.

  Lemma malloc_ok n : 0 <= n < 2 ^ 31 -> malloc (V := V) w (wrap_u 64 (w * n)) = Ok (repeat None (Z.to_nat n)).
  Proof. intros Hn; unfold malloc; rewrite fitting_ok by assumption; reflexivity. Qed.

  Lemma realloc_ok (xs : list V) rest n :
    zlength xs <= n < 2 ^ 31 ->
    exists rest', realloc w (map Some xs ++ rest) (wrap_u 64 (w * n)) = Ok (map Some xs ++ rest') /\
                  zlength xs + Z.of_nat (length rest') = n.
  Proof.
    unfold zlength; intros Hn; unfold realloc; rewrite fitting_ok by lia; cbn [bind].
    rewrite firstn_app, map_length, firstn_all2 by (rewrite map_length; lia).
    eexists; rewrite <- app_assoc; split; [reflexivity|].
    rewrite app_length, firstn_length, repeat_length, app_length, map_length. lia.
  Qed.

  Lemma read_ok (xs : list V) rest i v :
    0 <= i -> nth_error xs (Z.to_nat i) = Some v -> read (map Some xs ++ rest) i = Ok v.
  Proof.
    intros Hi Hv; unfold read. destruct (i <? 0) eqn:E; [lia|].
    rewrite nth_error_app1 by (rewrite map_length; apply nth_error_Some; congruence).
    rewrite nth_error_map, Hv; reflexivity.
  Qed.

  Lemma replace_nth_app_r {A} (a b : list A) x n : (length a <= n)%nat -> replace_nth n x (a ++ b) = a ++ replace_nth (n - length a) x b.
  Proof.
    revert n; induction a as [|y a IH]; intros n H; cbn [app length] in *; [rewrite Nat.sub_0_r; reflexivity|].
    destruct n as [|n]; [lia|]. cbn [replace_nth]; rewrite IH by lia; reflexivity.
  Qed.
  Lemma replace_nth_app_l {A} (a b : list A) x n : (n < length a)%nat -> replace_nth n x (a ++ b) = replace_nth n x a ++ b.
  Proof.
    revert n; induction a as [|y a IH]; intros n H; cbn [app length] in *; [lia|].
    destruct n as [|n]; [reflexivity|]. cbn [replace_nth app]; rewrite IH by lia; reflexivity.
  Qed.
  Lemma replace_nth_map {A B} (f : A -> B) l x n : replace_nth n (f x) (map f l) = map f (replace_nth n x l).
  Proof. revert n; induction l as [|y l IH]; intros [|n]; cbn [map replace_nth]; [reflexivity..|]. rewrite IH; reflexivity. Qed.

  (** Writing the next cell. *)
  Lemma write_next (xs : list V) c rest v i :
    i = zlength xs -> write (map Some xs ++ c :: rest) i v = Ok (map Some (xs ++ [v]) ++ rest).
  Proof.
    intros ->; unfold write, zlength, capacity. rewrite app_length, map_length; cbn [length].
    destruct ((0 <=? Z.of_nat (length xs)) && (Z.of_nat (length xs) <? Z.of_nat (length xs + S (length rest)))) eqn:E; [|lia].
    rewrite Nat2Z.id, replace_nth_app_r by (rewrite map_length; lia).
    rewrite map_length, Nat.sub_diag; cbn [replace_nth]. rewrite map_app, <- app_assoc; reflexivity.
  Qed.
  Lemma write_old (xs : list V) rest v i :
    0 <= i < zlength xs -> write (map Some xs ++ rest) i v = Ok (map Some (replace_nth (Z.to_nat i) v xs) ++ rest).
  Proof.
    unfold zlength; intros Hi; unfold write, capacity. rewrite app_length, map_length.
    destruct ((0 <=? i) && (i <? Z.of_nat (length xs + length rest))) eqn:E; [|lia].
    rewrite replace_nth_app_l by (rewrite map_length; lia). rewrite replace_nth_map; reflexivity.
  Qed.

  (** *** [construct] and relatives *)
  Lemma construct_from_ok item ys : forall (xs : list V) rest,
    (length ys <= length rest)%nat ->
    (forall m v, nth_error ys m = Some v -> item (zlength xs + Z.of_nat m) = Ok v) ->
    construct_from item (map Some xs ++ rest) (zlength xs) (length ys) = Ok (map Some (xs ++ ys) ++ skipn (length ys) rest).
  Proof.
    induction ys as [|y ys IH]; intros xs rest Hl Hi; cbn [length construct_from skipn].
    - rewrite app_nil_r; reflexivity.
    - destruct rest as [|c rest]; cbn [length] in Hl; [lia|].
      pose proof (Hi 0%nat y eq_refl) as H0. rewrite Z.add_0_r in H0. rewrite H0; cbn [bind].
      rewrite write_next by reflexivity; cbn [bind].
      replace (zlength xs + 1) with (zlength (xs ++ [y])) by (rewrite zlength_app; reflexivity).
      rewrite IH; [rewrite <- app_assoc; reflexivity|lia|].
      intros m v Hm. rewrite <- (Hi (S m) v Hm), zlength_app. f_equal; unfold zlength; cbn [length]; lia.
  Qed.

  Lemma extend_from_ok item ys : forall (xs : list V) rest base,
    (length ys <= length rest)%nat ->
    (forall ys1 v ys2 r, ys = ys1 ++ v :: ys2 -> item (map Some (xs ++ ys1) ++ r) (zlength xs - base + zlength ys1) = Ok v) ->
    extend_from item (map Some xs ++ rest) base (zlength xs - base) (length ys) = Ok (map Some (xs ++ ys) ++ skipn (length ys) rest).
  Proof.
    induction ys as [|y ys IH]; intros xs rest base Hl Hi; cbn [length extend_from skipn].
    - rewrite app_nil_r; reflexivity.
    - destruct rest as [|c rest]; cbn [length] in Hl; [lia|].
      pose proof (Hi [] y ys (c :: rest) eq_refl) as H0.
      rewrite app_nil_r in H0; unfold zlength in H0 at 2; cbn [length] in H0; rewrite Z.add_0_r in H0. rewrite H0; cbn [bind].
      rewrite write_next by lia; cbn [bind].
      replace (zlength xs - base + 1) with (zlength (xs ++ [y]) - base) by zl.
      rewrite IH; [rewrite <- app_assoc; reflexivity|lia|].
      intros ys1 v ys2 r E. rewrite <- (Hi (y :: ys1) v ys2 r) by (rewrite E; reflexivity).
      rewrite <- app_assoc; cbn [app]. f_equal. zl.
  Qed.

  Lemma skipn_repeat {A} (x : A) n m : skipn m (repeat x n) = repeat x (n - m).
  Proof. revert m; induction n as [|n IH]; intros [|m]; cbn [repeat skipn Nat.sub]; [reflexivity..|]. apply IH. Qed.

  Lemma construct_ok item (ys : list V) n :
    n = zlength ys -> n < 2 ^ 31 -> (forall m v, nth_error ys m = Some v -> item (Z.of_nat m) = Ok v) ->
    exists rest, construct w n item = Ok (mk ys rest) /\ fits ys rest.
  Proof.
    intros -> Hn Hi; pose proof (zlength_pos ys). unfold construct; cbv zeta.
    rewrite wrap_s32_small by lia. rewrite malloc_ok by lia; cbn [bind].
    assert (E : Z.to_nat (zlength ys) = length ys) by (unfold zlength; lia).
    rewrite E.
    pose proof (construct_from_ok item ys [] (repeat None (Z.to_nat (Z.max 1 (zlength ys))))) as C.
    cbn [map app] in C; change (zlength (@nil V)) with 0 in C. rewrite C; clear C; cbn [bind];
      [|rewrite repeat_length; lia|exact Hi].
    rewrite skipn_repeat. eexists; unfold mk, fits.
    split; [do 2 f_equal|]; rewrite repeat_length; lia.
  Qed.

  Lemma empty_ok : exists rest, empty w = Ok (mk [] rest) /\ fits [] rest.
  Proof. apply construct_ok; [reflexivity|reflexivity|]. intros [|m] v H; discriminate. Qed.
  Lemma c_empty_ok : exists rest, c_empty w = Ok (mk [] rest) /\ fits [] rest.
  Proof.
    unfold c_empty. replace (wrap_u 64 w) with (wrap_u 64 (w * 1)) by (rewrite Z.mul_1_r; reflexivity).
    rewrite malloc_ok by lia; cbn [bind].
    exists [None]; split; reflexivity.
  Qed.

  (** *** reserve, append, extend *)
  Lemma reserve_ok (xs : list V) rest n :
    fits xs rest -> 0 <= n < 2 ^ 31 ->
    exists rest', reserve w (mk xs rest) n = Ok (mk xs rest') /\ fits xs rest' /\ zlength xs + Z.of_nat (length rest') = Z.max n (zlength xs).
  Proof.
    unfold fits; intros Hf Hn; pose proof (zlength_pos xs). unfold reserve, mk; cbn [count cells reserved]; cbv zeta.
    rewrite (wrap_u64_small (zlength xs)) by lia.
    set (t := if n <? zlength xs then zlength xs else n).
    assert (Ht : t = Z.max n (zlength xs)) by (unfold t; destruct (n <? zlength xs) eqn:E; lia). clearbody t.
    destruct (realloc_ok xs rest t ltac:(lia)) as [rest' [-> Hr]]; cbn [bind].
    exists rest'; rewrite wrap_s32_small by lia. split; [do 2 f_equal; lia|lia].
  Qed.

  Lemma c_reserve_ok (xs : list V) rest n :
    fits xs rest -> n < 2 ^ 31 ->
    exists rest', c_reserve w (mk xs rest) n = Ok (mk xs rest') /\ fits xs rest' /\ zlength xs + Z.of_nat (length rest') = Z.max n (zlength xs).
  Proof.
    unfold fits; intros Hf Hn; pose proof (zlength_pos xs). unfold c_reserve, mk; cbn [count cells reserved]; cbv zeta.
    set (t := if n <? zlength xs then zlength xs else n).
    assert (Ht : t = Z.max n (zlength xs)) by (unfold t; destruct (n <? zlength xs) eqn:E; lia). clearbody t.
    destruct (realloc_ok xs rest t ltac:(lia)) as [rest' [-> Hr]]; cbn [bind].
    exists rest'; rewrite wrap_s32_small by lia. split; [do 2 f_equal; lia|lia].
  Qed.

  Lemma grown_bound n : 0 <= n <= most -> n < grown n < 2 ^ 31.
  Proof. unfold grown, most; intros H. rewrite Z.quot_div_nonneg by lia. lia. Qed.

  Lemma append_ok (xs : list V) rest v :
    fits xs rest -> zlength xs < most ->
    exists rest', append w (mk xs rest) v = Ok (mk (xs ++ [v]) rest') /\ fits (xs ++ [v]) rest'.
  Proof.
    unfold fits; intros Hf Hm; pose proof (zlength_pos xs). unfold append; cbn [mk count cells reserved].
    assert (Hw : forall c rest1, zlength xs + Z.of_nat (length rest1) + 1 < 2 ^ 31 ->
      (cs <- write (map Some xs ++ c :: rest1) (zlength xs) v ;;
       Ok (Lst cs (wrap_s 32 (zlength xs + 1)) (zlength xs + Z.of_nat (length (c :: rest1))))) =
      Ok (mk (xs ++ [v]) rest1)).
    { intros c rest1 Hb; rewrite write_next by reflexivity; cbn [bind].
      rewrite wrap_s32_small by lia. unfold mk. rewrite zlength_app, zlength_cons; cbn [length].
      change (zlength (@nil V)) with 0. do 2 f_equal; lia. }
    destruct (zlength xs =? zlength xs + Z.of_nat (length rest)) eqn:E.
    - pose proof (grown_bound (zlength xs) ltac:(lia)) as G.
      replace (zlength xs + Z.of_nat (length rest)) with (zlength xs) by lia.
      destruct (realloc_ok xs rest (grown (zlength xs)) ltac:(lia)) as [rest' [-> Hr]]; cbn [bind cells count reserved].
      rewrite (wrap_s32_small (grown (zlength xs))) by lia. destruct rest' as [|c rest']; cbn [length] in Hr; [lia|].
      rewrite <- Hr. exists rest'; rewrite zlength_app, zlength_cons; change (zlength (@nil V)) with 0; split; [|lia].
      apply Hw; lia.
    - cbn [bind]. destruct rest as [|c rest]; cbn [length] in *; [lia|]. cbn [cells count reserved].
      exists rest; rewrite zlength_app, zlength_cons; change (zlength (@nil V)) with 0; split; [|lia].
      apply Hw; lia.
  Qed.

  Lemma operand_value_ok (xs : list V) rest x moved :
    (match x with Value _ => True | Own i => 0 <= i < zlength xs /\ by_ref = false end) ->
    operand_value by_ref (mk xs rest) x moved = Ok (match x with Value v => v | Own i => nth (Z.to_nat i) xs default end).
  Proof.
    destruct x as [v|i]; [reflexivity|]. intros [Hi ->]; unfold operand_value; cbn [andb].
    unfold mk; cbn [cells]. apply read_ok; [lia|]. apply nth_error_nth'. unfold zlength in Hi; lia.
  Qed.

  Lemma c_append_ok (xs : list V) rest x :
    fits xs rest -> zlength xs < most ->
    (match x with Value _ => True | Own i => 0 <= i < zlength xs /\ by_ref = false end) ->
    let v := match x with Value v => v | Own i => nth (Z.to_nat i) xs default end in
    exists rest', c_append w by_ref (mk xs rest) x = Ok (mk (xs ++ [v]) rest') /\ fits (xs ++ [v]) rest'.
  Proof.
    intros Hf Hm Hx v; pose proof (zlength_pos xs). unfold c_append. cbv zeta.
    rewrite operand_value_ok by assumption. fold v; clearbody v; cbn [bind].
    assert (Hw : forall c rest1, zlength xs + Z.of_nat (length rest1) + 1 < 2 ^ 31 ->
      (cs <- write (cells (mk xs (c :: rest1))) (count (mk xs (c :: rest1))) v ;;
       Ok (Lst cs (wrap_s 32 (count (mk xs (c :: rest1)) + 1)) (reserved (mk xs (c :: rest1))))) =
      Ok (mk (xs ++ [v]) rest1)).
    { intros c rest1 Hb; cbn [mk cells count reserved]. rewrite write_next by reflexivity; cbn [bind].
      rewrite wrap_s32_small by lia. unfold mk. rewrite zlength_app, zlength_cons; cbn [length].
      change (zlength (@nil V)) with 0. do 2 f_equal; lia. }
    destruct (reserved (mk xs rest) <? count (mk xs rest) + 1) eqn:E.
    - pose proof (grown_bound (zlength xs) ltac:(lia)) as G. unfold grown in G.
      change (count (mk xs rest)) with (zlength xs).
      destruct (c_reserve_ok xs rest (Z.quot (zlength xs * 5 + 4) 4) Hf ltac:(lia)) as [rest' [-> [Hf' Hr]]]; cbn [bind].
      destruct rest' as [|c rest']; cbn [length] in Hr; [lia|].
      exists rest'; unfold fits in *; rewrite zlength_app, zlength_cons; change (zlength (@nil V)) with 0; cbn [length] in *; split; [|lia].
      apply Hw; lia.
    - cbn [bind]. cbn [mk reserved count] in E. destruct rest as [|c rest]; cbn [length] in *; [lia|].
      unfold fits in *; cbn [length] in Hf.
      exists rest; rewrite zlength_app, zlength_cons; change (zlength (@nil V)) with 0; split; [|lia].
      apply Hw; lia.
  Qed.

  Lemma append_all_ok (vs : list V) : forall xs rest,
    fits xs rest -> zlength xs + zlength vs <= most ->
    exists rest', fold_left (fun r v => l <- r ;; append w l v) vs (Ok (mk xs rest)) = Ok (mk (xs ++ vs) rest') /\ fits (xs ++ vs) rest'.
  Proof.
    induction vs as [|v vs IH]; intros xs rest Hf Hm; cbn [fold_left bind].
    - rewrite app_nil_r; eauto.
    - rewrite zlength_cons in Hm; pose proof (zlength_pos vs).
      destruct (append_ok xs rest v Hf ltac:(lia)) as [rest1 [-> Hf1]].
      destruct (IH (xs ++ [v]) rest1 Hf1) as [rest2 [-> Hf2]].
      { rewrite zlength_app, zlength_cons; change (zlength (@nil V)) with 0; lia. }
      rewrite <- app_assoc in *; eauto.
  Qed.
  Lemma c_append_all_ok (vs : list V) : forall xs rest,
    fits xs rest -> zlength xs + zlength vs <= most ->
    exists rest', fold_left (fun r v => l <- r ;; c_append w by_ref l (Value v)) vs (Ok (mk xs rest)) = Ok (mk (xs ++ vs) rest') /\ fits (xs ++ vs) rest'.
  Proof.
    induction vs as [|v vs IH]; intros xs rest Hf Hm; cbn [fold_left bind].
    - rewrite app_nil_r; eauto.
    - rewrite zlength_cons in Hm; pose proof (zlength_pos vs).
      destruct (c_append_ok xs rest (Value v) Hf ltac:(lia) I) as [rest1 [-> Hf1]].
      destruct (IH (xs ++ [v]) rest1 Hf1) as [rest2 [-> Hf2]].
      { rewrite zlength_app, zlength_cons; change (zlength (@nil V)) with 0; lia. }
      rewrite <- app_assoc in *; eauto.
  Qed.

  Lemma c_extend_self_ok (ys : list V) : by_ref = false -> forall xs0 zs rest,
    fits (xs0 ++ ys ++ zs) rest -> zlength (xs0 ++ ys ++ zs) + zlength ys <= most ->
    exists rest', c_extend_self w by_ref (mk (xs0 ++ ys ++ zs) rest) (zlength xs0) (length ys) = Ok (mk (xs0 ++ ys ++ zs ++ ys) rest')
      /\ fits (xs0 ++ ys ++ zs ++ ys) rest'.
  Proof.
    intros Hb; induction ys as [|y ys IH]; intros xs0 zs rest Hf Hm; cbn [length c_extend_self app].
    - rewrite app_nil_r; eauto.
    - rewrite zlength_cons in Hm; pose proof (zlength_pos ys); pose proof (zlength_pos zs); pose proof (zlength_pos xs0).
      destruct (c_append_ok (xs0 ++ (y :: ys) ++ zs) rest (Own (zlength xs0)) Hf ltac:(lia)) as [rest1 [E1 Hf1]].
      { split; [|assumption]. rewrite !zlength_app, zlength_cons; lia. }
      cbn [app] in E1, Hf1, Hm. rewrite E1; cbn [bind]; clear E1.
      assert (Hn : nth (Z.to_nat (zlength xs0)) (xs0 ++ y :: ys ++ zs) default = y).
      { unfold zlength; rewrite Nat2Z.id, app_nth2, Nat.sub_diag by lia; reflexivity. }
      rewrite Hn in *; clear Hn.
      assert (El : forall a b : list V, (xs0 ++ y :: ys ++ a) ++ b = (xs0 ++ [y]) ++ ys ++ a ++ b)
        by (intros a b; rewrite <- !app_assoc; cbn [app]; rewrite <- app_assoc; reflexivity).
      rewrite El in *.
      replace (zlength xs0 + 1) with (zlength (xs0 ++ [y])) by (rewrite zlength_app; reflexivity).
      destruct (IH (xs0 ++ [y]) (zs ++ [y]) rest1 Hf1) as [rest2 [E2 Hf2]].
      { zl. }
      assert (El2 : (xs0 ++ [y]) ++ ys ++ (zs ++ [y]) ++ ys = xs0 ++ y :: ys ++ zs ++ y :: ys)
        by (rewrite <- !app_assoc; reflexivity).
      rewrite E2, El2 in *; eauto.
  Qed.

  Lemma extend_ok (xs ys : list V) rest item :
    fits xs rest -> zlength xs + zlength ys <= most ->
    (forall ys1 v ys2 r, ys = ys1 ++ v :: ys2 -> item (map Some (xs ++ ys1) ++ r) (zlength ys1) = Ok v) ->
    exists rest', extend w (mk xs rest) (zlength ys) item = Ok (mk (xs ++ ys) rest') /\ fits (xs ++ ys) rest'.
  Proof.
    intros Hf Hm Hi; pose proof (zlength_pos xs); pose proof (zlength_pos ys); unfold most in Hm. unfold extend.
    assert (He : exists rest1, ensure_space w (mk xs rest) (zlength ys) = Ok (mk xs rest1) /\ fits xs rest1 /\ (length ys <= length rest1)%nat).
    { unfold ensure_space; cbn [mk count reserved]; cbv zeta; unfold fits in Hf.
      rewrite !wrap_u64_small by lia.
      destruct (zlength xs + Z.of_nat (length rest) <? zlength xs + zlength ys) eqn:E.
      - destruct (reserve_ok xs rest (zlength xs + zlength ys) Hf ltac:(lia)) as [rest1 [E1 [Hf1 Hr]]].
        exists rest1; split; [exact E1|]; split; [assumption|]. unfold zlength in *; lia.
      - exists rest; split; [reflexivity|]; split; [assumption|]. unfold zlength in *; lia. }
    destruct He as [rest1 [-> [Hf1 Hl]]]; cbn [bind mk cells count reserved].
    assert (En : Z.to_nat (zlength ys) = length ys) by (unfold zlength; lia). rewrite En.
    pose proof (extend_from_ok item ys xs rest1 (zlength xs) Hl) as X.
    rewrite Z.sub_diag in X. rewrite X; clear X; [|intros ys1 v ys2 r E; apply Hi with ys2, E]. cbn [bind].
    unfold fits in *. rewrite wrap_s32_small by lia.
    exists (skipn (length ys) rest1). unfold mk. rewrite zlength_app, skipn_length. unfold zlength in *.
    split; [do 2 f_equal; lia|lia].
  Qed.

  (** *** pop *)
  Lemma close_gap_ok (xs : list V) rest i :
    0 <= i < zlength xs ->
    close_gap (map Some xs ++ rest) i (zlength xs) = Ok (map Some (remove_nth (Z.to_nat i) xs) ++ None :: rest).
  Proof.
    unfold zlength; intros Hi; unfold close_gap, capacity. rewrite app_length, map_length.
    destruct ((0 <=? i) && (i <? Z.of_nat (length xs)) && (Z.of_nat (length xs) <=? Z.of_nat (length xs + length rest))) eqn:E; [|lia].
    f_equal. unfold remove_nth. rewrite map_app, <- app_assoc.
    rewrite firstn_app, map_length. replace (Z.to_nat i - length xs)%nat with 0%nat by lia.
    rewrite firstn_O, app_nil_r, firstn_map. f_equal.
    rewrite skipn_app, map_length. replace (Z.to_nat (i + 1) - length xs)%nat with 0%nat by lia. rewrite skipn_O.
    replace (Z.to_nat (i + 1)) with (S (Z.to_nat i)) by lia.
    rewrite firstn_app. rewrite skipn_map, map_length, skipn_length.
    replace (Z.to_nat (Z.of_nat (length xs) - 1 - i) - (length xs - S (Z.to_nat i)))%nat with 0%nat by lia.
    rewrite firstn_O, app_nil_r, firstn_all2 by (rewrite map_length, skipn_length; lia).
    rewrite Nat2Z.id, skipn_app, (skipn_all2 (map Some xs)) by (rewrite map_length; lia).
    rewrite ?map_length, Nat.sub_diag, skipn_O; reflexivity.
  Qed.

  Lemma remove_nth_length n (xs : list V) : (n < length xs)%nat -> length (remove_nth n xs) = (length xs - 1)%nat.
  Proof. intros H; unfold remove_nth; rewrite app_length, firstn_length, skipn_length; lia. Qed.

  Lemma popped_ok (xs : list V) rest i :
    fits xs rest -> 0 <= i < zlength xs ->
    (cs <- close_gap (map Some xs ++ rest) i (zlength xs) ;;
     Ok (Lst cs (wrap_s 32 (zlength xs - 1)) (zlength xs + Z.of_nat (length rest)))) = Ok (mk (remove_nth (Z.to_nat i) xs) (None :: rest))
    /\ fits (remove_nth (Z.to_nat i) xs) (None :: rest).
  Proof.
    unfold fits; intros Hf Hi; rewrite close_gap_ok by assumption; cbn [bind].
    rewrite wrap_s32_small by lia. unfold mk, zlength in *. rewrite remove_nth_length by lia. cbn [length].
    split; [do 2 f_equal; lia|lia].
  Qed.

  (** *** resize, clear *)
  Lemma shrink_ok (xs : list V) rest n :
    fits xs rest -> 0 <= n < zlength xs ->
    exists rest', destroy_range pod (map Some xs ++ rest) n (zlength xs - n) = Ok (map Some (firstn (Z.to_nat n) xs) ++ rest')
      /\ n + Z.of_nat (length rest') = zlength xs + Z.of_nat (length rest).
  Proof.
    unfold fits, zlength; intros Hf Hn; unfold destroy_range; destruct pod.
    - exists (map Some (skipn (Z.to_nat n) xs) ++ rest). rewrite app_assoc, <- map_app, firstn_skipn.
      split; [reflexivity|]. rewrite app_length, map_length, skipn_length; lia.
    - unfold set_range, capacity. rewrite app_length, map_length.
      destruct (Z.of_nat (length xs) - n <=? 0) eqn:E; [lia|].
      destruct ((0 <=? n) && (n + (Z.of_nat (length xs) - n) <=? Z.of_nat (length xs + length rest))) eqn:E2; [|lia].
      rewrite firstn_app, map_length. replace (Z.to_nat n - length xs)%nat with 0%nat by lia.
      rewrite firstn_O, app_nil_r, firstn_map. eexists; split; [reflexivity|].
      rewrite app_length, repeat_length, skipn_length, app_length, map_length; lia.
  Qed.

  Lemma grow_ok (xs : list V) rest n v :
    fits xs rest -> zlength xs <= n <= zlength xs + Z.of_nat (length rest) ->
    exists rest', set_range (map Some xs ++ rest) (zlength xs) (n - zlength xs) (Some v)
        = Ok (map Some (xs ++ repeat v (Z.to_nat (n - zlength xs))) ++ rest')
      /\ n + Z.of_nat (length rest') = zlength xs + Z.of_nat (length rest).
  Proof.
    unfold fits, zlength; intros Hf Hn; unfold set_range, capacity. rewrite app_length, map_length.
    destruct (n - Z.of_nat (length xs) <=? 0) eqn:E.
    - replace (Z.to_nat (n - Z.of_nat (length xs))) with 0%nat by lia; cbn [repeat]; rewrite app_nil_r.
      exists rest; split; [reflexivity|lia].
    - destruct ((0 <=? Z.of_nat (length xs)) && (Z.of_nat (length xs) + (n - Z.of_nat (length xs)) <=? Z.of_nat (length xs + length rest))) eqn:E2; [|lia].
      rewrite Nat2Z.id, firstn_app, map_length, Nat.sub_diag, firstn_O, app_nil_r, firstn_all2 by (rewrite map_length; lia).
      eexists. rewrite map_app, <- app_assoc.
      assert (R : forall k, map Some (repeat v k) = repeat (Some v) k) by (induction k; cbn; congruence). rewrite R.
      split; [reflexivity|]. rewrite skipn_length, app_length, map_length; lia.
  Qed.

  Definition resized (xs : list V) (n : Z) (v : V) : list V := firstn (Z.to_nat n) xs ++ repeat v (Z.to_nat n - length xs).

  Lemma resized_length xs n v : 0 <= n -> zlength (resized xs n v) = n.
  Proof. intros H; unfold resized, zlength; rewrite app_length, firstn_length, repeat_length; lia. Qed.
  Lemma resized_small xs n v : n <= zlength xs -> resized xs n v = firstn (Z.to_nat n) xs.
  Proof. unfold zlength, resized; intros H. replace (Z.to_nat n - length xs)%nat with 0%nat by lia. apply app_nil_r. Qed.
  Lemma resized_big xs n v : zlength xs <= n -> resized xs n v = xs ++ repeat v (Z.to_nat (n - zlength xs)).
  Proof. unfold zlength, resized; intros H. rewrite firstn_all2 by lia. do 2 f_equal; lia. Qed.

  Lemma resize_ok (xs : list V) rest n v :
    fits xs rest -> 0 <= n <= most ->
    exists rest', resize w pod (mk xs rest) n v = Ok (mk (resized xs n v) rest') /\ fits (resized xs n v) rest'.
  Proof.
    intros Hf Hn; pose proof (zlength_pos xs); unfold most in Hn; unfold resize.
    assert (Hr : exists rest1, (if wrap_u 64 (reserved (mk xs rest)) <? n then reserve w (mk xs rest) n else Ok (mk xs rest)) = Ok (mk xs rest1)
               /\ fits xs rest1 /\ n <= zlength xs + Z.of_nat (length rest1)).
    { cbn [mk reserved]. unfold fits in Hf; rewrite wrap_u64_small by lia.
      destruct (zlength xs + Z.of_nat (length rest) <? n) eqn:E.
      - destruct (reserve_ok xs rest n Hf ltac:(lia)) as [rest1 [E1 [Hf1 Hr]]]; exists rest1; split; [exact E1|]; split; [assumption|lia].
      - exists rest; split; [reflexivity|]; split; [assumption|lia]. }
    destruct Hr as [rest1 [-> [Hf1 Hr]]]; cbn [bind mk cells count reserved]; cbv zeta.
    unfold fits in *; rewrite wrap_u64_small by lia.
    destruct (n <? zlength xs) eqn:E1.
    - destruct (shrink_ok xs rest1 n Hf1 ltac:(lia)) as [rest2 [-> Hl]]; cbn [bind].
      rewrite wrap_s32_small by lia. exists rest2. unfold mk; rewrite (resized_length xs n v) by lia.
      rewrite resized_small by lia. split; [do 2 f_equal; lia|lia].
    - destruct (zlength xs <? n) eqn:E2.
      + destruct (grow_ok xs rest1 n v Hf1 ltac:(lia)) as [rest2 [-> Hl]]; cbn [bind].
        rewrite wrap_s32_small by lia. exists rest2. unfold mk; rewrite (resized_length xs n v) by lia.
        rewrite resized_big by lia. split; [do 2 f_equal; lia|lia].
      + assert (n = zlength xs) as -> by lia.
        exists rest1. rewrite resized_big, Z.sub_diag by lia; cbn [Z.to_nat repeat]; rewrite app_nil_r. split; [reflexivity|lia].
  Qed.

  Lemma c_resize_ok (xs : list V) rest n v :
    fits xs rest -> 0 <= n <= most ->
    exists rest', c_resize w pod (mk xs rest) n v = Ok (mk (resized xs n v) rest') /\ fits (resized xs n v) rest'.
  Proof.
    intros Hf Hn; pose proof (zlength_pos xs); unfold most in Hn; unfold c_resize; cbn [mk count].
    destruct (zlength xs =? n) eqn:E0.
    { assert (n = zlength xs) as -> by lia.
      exists rest. rewrite resized_big, Z.sub_diag by lia; cbn [Z.to_nat repeat]; rewrite app_nil_r. split; [reflexivity|assumption]. }
    destruct (zlength xs <? n) eqn:E1.
    - assert (Hr : exists rest1, (if reserved (mk xs rest) <? n then c_reserve w (mk xs rest) n else Ok (mk xs rest)) = Ok (mk xs rest1)
               /\ fits xs rest1 /\ n <= zlength xs + Z.of_nat (length rest1)).
      { cbn [mk reserved]. unfold fits in Hf.
        destruct (zlength xs + Z.of_nat (length rest) <? n) eqn:E.
        - destruct (c_reserve_ok xs rest n Hf ltac:(lia)) as [rest1 [Er [Hf1 Hr]]]; exists rest1; split; [exact Er|]; split; [assumption|lia].
        - exists rest; split; [reflexivity|]; split; [assumption|lia]. }
      cbn [mk] in Hr |- *. destruct Hr as [rest1 [-> [Hf1 Hr]]]; unfold mk; cbn [bind cells count reserved].
      unfold fits in *. destruct (grow_ok xs rest1 n v Hf1 ltac:(lia)) as [rest2 [-> Hl]]; cbn [bind].
      rewrite wrap_s32_small by lia. exists rest2. unfold mk; rewrite (resized_length xs n v) by lia.
      rewrite resized_big by lia. split; [do 2 f_equal; lia|lia].
    - unfold mk at 1 2 3; cbn [cells reserved count].
      unfold fits in *. destruct (shrink_ok xs rest n Hf ltac:(lia)) as [rest2 [-> Hl]]; cbn [bind].
      rewrite wrap_s32_small by lia. exists rest2. unfold mk; rewrite (resized_length xs n v) by lia.
      rewrite resized_small by lia. split; [do 2 f_equal; lia|lia].
  Qed.

  Lemma c_clear_ok (xs : list V) rest :
    fits xs rest ->
    exists rest', (cs <- destroy_range pod (map Some xs ++ rest) 0 (zlength xs) ;; Ok (Lst cs 0 (zlength xs + Z.of_nat (length rest)))) = Ok (mk [] rest')
      /\ fits [] rest'.
  Proof.
    intros Hf; pose proof (zlength_pos xs). destruct (Z.eq_dec (zlength xs) 0) as [E|E].
    - rewrite E. unfold destroy_range, set_range; cbn [Z.leb Z.compare].
      assert (xs = []) as -> by (destruct xs; [reflexivity|rewrite zlength_cons in E; pose proof (zlength_pos xs); lia]).
      exists rest; destruct pod; (split; [reflexivity|exact Hf]).
    - destruct (shrink_ok xs rest 0 Hf ltac:(lia)) as [rest2 [Es Hl]]. rewrite Z.sub_0_r in Es. rewrite Es; cbn [bind].
      exists rest2; unfold mk, fits in *; change (zlength (@nil V)) with 0. cbn [firstn Z.to_nat map app].
      split; [do 2 f_equal; lia|lia].
  Qed.
End Proofs.
