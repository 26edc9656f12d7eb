(** Proofs about counting loops. *)
From Coq Require Import Lia ZifyBool ZifyNat.
From Verif Require Import Base PyLoop Loop_Model Loop_Spec.
From Verif Require Import Arith_Model Arith_Proofs.
Set Implicit Arguments.
Open Scope Z_scope.
Open Scope list_scope.
Open Scope result_scope.

(** ** Ranges *)
Lemma cast_small x : Loop_Spec.i64 x -> cast I64 x = x.
Proof. intros H. apply cast_in_range; [reflexivity|exact H]. Qed.

Lemma iadd_small a b : Loop_Spec.i64 (a + b) -> iadd a b = Ok (a + b).
Proof. intros H. unfold compiled. now rewrite cast_small. Qed.
Lemma isub_small a b : Loop_Spec.i64 (a - b) -> isub a b = Ok (a - b).
Proof. intros H. unfold compiled. now rewrite cast_small. Qed.

Lemma ifloordiv_small a b : Loop_Spec.i64 a -> Loop_Spec.i64 b -> 0 < b -> ifloordiv a b = Ok (a / b).
Proof.
  intros Ha Hb P. unfold compiled. cbn [is_signed].
  assert (Hn : b <> 0) by lia.
  destruct (py_floordiv_i64_right a b Ha Hb Hn) as [_ ->]. cbn [bind].
  replace ((a =? - 2 ^ 63) && (b =? -1)) with false by lia.
  rewrite cast_small; [reflexivity|].
  unfold Loop_Spec.i64 in *. split.
  - apply Z.le_trans with (m := - 2 ^ 63); [lia|]. apply Z.div_le_lower_bound; nia.
  - apply Z.div_lt_upper_bound; nia.
Qed.

(** The number of elements. *)
Definition range_count (start stop step : Z) : Z :=
  if 0 <? step then (stop - start - 1) / step + 1 else (start - stop - 1) / (- step) + 1.

Lemma range_size_right start stop step : range_ok start stop step ->
  range_size start stop step = Ok (range_count start stop step).
Proof.
  intros (H1 & H2 & H3 & H4 & H5 & H6). unfold range_size, range_count.
  destruct (Z.eqb_spec step 1) as [->|N1].
  - rewrite isub_small by (unfold Loop_Spec.i64; lia). f_equal. change (0 <? 1) with true. cbv iota.
    rewrite Z.div_1_r. lia.
  - destruct (Z.ltb_spec 0 step) as [P|P].
    + rewrite isub_small by (unfold Loop_Spec.i64; lia). cbn [bind].
      rewrite isub_small by (unfold Loop_Spec.i64; lia). cbn [bind].
      rewrite ifloordiv_small by (unfold Loop_Spec.i64 in *; lia). cbn [bind].
      apply iadd_small.
      assert (stop - start - 1 < 2 ^ 63 - 1) as B by lia.
      assert (- 2 ^ 63 <= stop - start - 1) as C by lia.
      unfold Loop_Spec.i64. split.
      * enough (- 2 ^ 63 <= (stop - start - 1) / step) by lia. apply Z.div_le_lower_bound; nia.
      * enough ((stop - start - 1) / step < 2 ^ 63 - 1) by lia. apply Z.div_lt_upper_bound; nia.
    + assert (0 < - step) as Q by lia.
      rewrite isub_small by (unfold Loop_Spec.i64; lia). cbn [bind].
      rewrite isub_small by (unfold Loop_Spec.i64; lia). cbn [bind].
      rewrite isub_small by (unfold Loop_Spec.i64 in *; lia). cbn [bind].
      change (0 - step) with (- step).
      rewrite ifloordiv_small by (unfold Loop_Spec.i64 in *; lia). cbn [bind].
      apply iadd_small.
      set (k := - step) in *.
      assert (start - stop - 1 < 2 ^ 63 - 1) as B by lia.
      assert (- 2 ^ 63 <= start - stop - 1) as C by lia.
      unfold Loop_Spec.i64. split.
      * enough (- 2 ^ 63 <= (start - stop - 1) / k) by lia. apply Z.div_le_lower_bound; nia.
      * enough ((start - stop - 1) / k < 2 ^ 63 - 1) by lia. apply Z.div_lt_upper_bound; nia.
Qed.

Lemma range_count_right start stop step i : step <> 0 -> 0 <= i ->
  (i <? range_count start stop step) = before stop step (start + i * step).
Proof.
  intros N P. unfold range_count, before. destruct (Z.ltb_spec 0 step) as [S|S].
  - assert ((i < (stop - start - 1) / step + 1) <-> (start + i * step < stop)) as E.
    { split; intros H.
      - assert (i <= (stop - start - 1) / step) as H' by lia.
        assert (i * step <= (stop - start - 1) / step * step) by nia.
        pose proof (Z.mul_div_le (stop - start - 1) step S). lia.
      - enough (i <= (stop - start - 1) / step) by lia. apply Z.div_le_lower_bound; nia. }
    lia.
  - assert (0 < - step) as Q by lia. remember (- step) as k eqn:K. assert (step = - k) as -> by lia.
    assert ((i < (start - stop - 1) / k + 1) <-> (stop < start + i * - k)) as E.
    { split; intros H.
      - assert (i <= (start - stop - 1) / k) as H' by lia.
        assert (i * k <= (start - stop - 1) / k * k) by nia.
        pose proof (Z.mul_div_le (start - stop - 1) k Q). lia.
      - enough (i <= (start - stop - 1) / k) by lia. apply Z.div_le_lower_bound; nia. }
    lia.
Qed.

Lemma cast_add_mul start step i : cast I64 (start + cast I64 (step * i)) = cast I64 (start + step * i).
Proof.
  destruct (@cast_reduced I64 (step * i) eq_refl) as [_ [k K]].
  apply (@cast_congruent I64 (start + step * i) (start + cast I64 (step * i)) k eq_refl). rewrite K. ring.
Qed.

Lemma range_value_right start stop step i : range_ok start stop step -> 0 <= i ->
  before stop step (start + i * step) = true -> range_value start step i = Ok (start + i * step).
Proof.
  intros (H1 & H2 & H3 & H4 & H5 & H6) P B. unfold range_value, compiled. cbn [bind].
  rewrite cast_add_mul. rewrite Z.mul_comm. rewrite cast_small; [reflexivity|].
  unfold before, Loop_Spec.i64 in *. destruct (Z.ltb_spec 0 step); nia.
Qed.

(** *** The iterator over a range *)
Lemma range_next_right stop step cur : range_next stop step cur =
  Ok (cast I64 (cur + step), if before stop step (cast I64 (cur + step)) then Some (cast I64 (cur + step)) else None).
Proof.
  unfold range_next, before. unfold compiled. cbn [bind].
  destruct (0 <? step); reflexivity.
Qed.

Lemma range_nexts_right start stop step : forall n j cur,
  cast I64 (cur + step) = start + Z.of_nat j * step ->
  (forall k, (k < j + n)%nat -> before stop step (start + Z.of_nat k * step) = true) ->
  Loop_Spec.i64 start -> Loop_Spec.i64 stop -> Loop_Spec.i64 (stop + step) ->
  exists l, range_nexts stop step cur (S n) = Ok l /\
    nth_error l n = Some (if before stop step (start + Z.of_nat (j + n) * step)
                          then Some (start + Z.of_nat (j + n) * step) else None).
Proof.
  induction n as [|n IH]; intros j cur C B H1 H2 H3.
  - cbn [range_nexts]. rewrite range_next_right. cbn [bind fst snd range_nexts]. eexists. split; [reflexivity|].
    cbn [nth_error]. rewrite C. now rewrite Nat.add_0_r.
  - remember (S n) as m eqn:M. cbn [range_nexts]. rewrite range_next_right. cbn [bind fst snd]. rewrite C.
    destruct (IH (S j) (start + Z.of_nat j * step)) as (l & L1 & L2).
    + replace (start + Z.of_nat j * step + step) with (start + Z.of_nat (S j) * step) by lia.
      apply cast_small. assert (before stop step (start + Z.of_nat j * step) = true) as Q by (apply B; lia).
      unfold before, Loop_Spec.i64 in *. replace (Z.of_nat (S j)) with (Z.of_nat j + 1) by lia.
      destruct (Z.ltb_spec 0 step); nia.
    + intros k K. apply B. lia.
    + exact H1.
    + exact H2.
    + exact H3.
    + subst m. rewrite L1. cbn [bind]. eexists. split; [reflexivity|]. cbn [nth_error].
      replace (j + S n)%nat with (S j + n)%nat by lia. exact L2.
Qed.

Lemma range_iterated_right start stop step : forall i,
  Loop_Spec.i64 start -> Loop_Spec.i64 stop -> Loop_Spec.i64 (stop + step) ->
  (forall j, (j < i)%nat -> before stop step (start + Z.of_nat j * step) = true) ->
  exists l, range_iterated start stop step (S i) = Ok l /\
    nth_error l i = Some (if before stop step (start + Z.of_nat i * step)
                          then Some (start + Z.of_nat i * step) else None).
Proof.
  intros i H1 H2 H3 B. unfold range_iterated, range_iter. unfold compiled at 1. cbn [bind].
  apply (@range_nexts_right start stop step i 0).
  - destruct (@cast_reduced I64 (start - step) eq_refl) as [_ [k K]].
    rewrite (@cast_congruent I64 start _ k eq_refl).
    + rewrite cast_small by exact H1. lia.
    + rewrite K. cbn [bits]. lia.
  - intros k K. apply B. lia.
  - exact H1.
  - exact H2.
  - exact H3.
Qed.

(** ** Loops *)
Lemma upd_same {B} (f : N -> B) k v : upd f k v k = v.
Proof. unfold upd. now rewrite N.eqb_refl. Qed.
Lemma upd_other {B} (f : N -> B) k v x : x <> k -> upd f k v x = f x.
Proof. intros H. unfold upd. now destruct (N.eqb_spec x k). Qed.

Section Loops.
  Context {St A R : Type} (of_int : Z -> A).
  Notation prog := (prog St A R).
  Notation mem := (mem St A).

  (** Only the added variables of the program's own loops change. *)
  Definition touches (fl tl : list N) (m m' : mem) : Prop :=
    (forall k, ~ In k fl -> iterate_over m' k = iterate_over m k) /\
    (forall k, ~ In k tl -> iterator_value m' k = iterator_value m k /\ iterator_max m' k = iterator_max m k).

  Lemma touches_refl fl tl m s : touches fl tl m (set_user s m).
  Proof. split; intros; [reflexivity|split; reflexivity]. Qed.
  Lemma touches_same fl tl m : touches fl tl m m.
  Proof. split; intros; [reflexivity|split; reflexivity]. Qed.
  Lemma touches_trans fl tl a b c : touches fl tl a b -> touches fl tl b c -> touches fl tl a c.
  Proof.
    intros [H1 H2] [H3 H4]. split; intros k K.
    - now rewrite H3, H1.
    - destruct (H2 k K), (H4 k K). split; congruence.
  Qed.
  Lemma touches_more fl tl fl' tl' a b : incl fl fl' -> incl tl tl' -> touches fl tl a b -> touches fl' tl' a b.
  Proof.
    intros I1 I2 [H1 H2]. split; intros k K.
    - apply H1. intros Q. apply K, I1, Q.
    - apply H2. intros Q. apply K, I2, Q.
  Qed.

  Definition ends_touching fl tl (m : mem) (r : run mem R) : Prop :=
    forall m' o, r = Ends m' o -> touches fl tl m m'.

  (** Compiled code does what Python does and leaves other loops' variables alone. *)
  Definition implements (fuel : nat) (p : prog) : Prop :=
    forall m, seen (compiled_run of_int fuel p m) = python_run of_int fuel p (user m) /\
              ends_touching (for_lines p) (target_lines p) m (compiled_run of_int fuel p m).

  Lemma size_right l (body : prog) it s : steady of_int l body it -> 
    exists n, int_iter_size it s = Ok n /\
      (forall i, (i <? n) = true -> 0 <= i -> exists a, int_iter_value of_int it i s = Ok a /\ element of_int it (Z.to_nat i) s = Some a) /\
      (forall i, (i <? n) = false -> 0 <= i -> element of_int it (Z.to_nat i) s = None).
  Proof.
    destruct it as [items|start stop step|items pos]; cbn [steady int_iter_size int_iter_value element].
    - intros _. eexists. split; [reflexivity|]. split; intros i H P.
      + replace (i <? 0) with false by lia. destruct (nth_error (items s) (Z.to_nat i)) as [a|] eqn:E.
        * exists a. now split.
        * apply nth_error_None in E. lia.
      + apply nth_error_None. lia.
    - intros Hr. eexists. split; [exact (range_size_right Hr)|].
      assert (step <> 0) as N by (destruct Hr as (_ & _ & _ & N & _); exact N).
      split; intros i H P; rewrite (range_count_right start stop N P) in H; rewrite Z2Nat.id by exact P.
      + rewrite (range_value_right Hr P H). cbn [bind]. rewrite H. eexists. split; reflexivity.
      + now rewrite H.
    - intros [-> _]. eexists. split; [reflexivity|]. cbn [Nat.add]. split; intros i H P.
      + replace (i <? 0) with false by lia. destruct (nth_error (items s) (Z.to_nat i)) as [a|] eqn:E.
        * exists a. now split.
        * apply nth_error_None in E. lia.
      + apply nth_error_None. lia.
  Qed.

  (** The size is the same at each turn. *)
  Lemma size_kept_assign l (body : prog) it a s s1 e n : steady of_int l body it ->
    assign l a s = (s1, e) -> int_iter_size it s = Ok n -> int_iter_size it s1 = Ok n.
  Proof.
    destruct it as [items|start stop step|items pos]; cbn [steady int_iter_size].
    - intros [K _] H E. now rewrite (K _ _ _ _ H).
    - intros _ _ E. exact E.
    - intros [_ [K _]] H E. now rewrite (K _ _ _ _ H).
  Qed.
  Lemma size_kept_body l (body : prog) it fuel s s1 o n : steady of_int l body it ->
    python_run of_int fuel body s = Ends s1 o -> int_iter_size it s = Ok n -> int_iter_size it s1 = Ok n.
  Proof.
    destruct it as [items|start stop step|items pos]; cbn [steady int_iter_size].
    - intros [_ K] H E. now rewrite (K _ _ _ _ H).
    - intros _ _ E. exact E.
    - intros [_ [_ K]] H E. now rewrite (K _ _ _ _ H).
  Qed.

  Lemma turns_right l (body : prog) it fuel0 : steady of_int l body it -> implements fuel0 body ->
    ~ In (for_line l) (for_lines body) -> ~ In (target_line l) (target_lines body) ->
    forall fuel i m n, int_iter_size it (user m) = Ok n -> iterate_over m (for_line l) = Some it ->
    iterator_max m (target_line l) = n -> iterator_value m (target_line l) = Z.of_nat i ->
    seen (compiled_turns of_int l (compiled_run of_int fuel0 body) fuel m) =
      python_turns of_int it (assign l) (python_run of_int fuel0 body) stop_here fuel i (user m) /\
    ends_touching (for_line l :: for_lines body) (target_line l :: target_lines body) m
      (compiled_turns of_int l (compiled_run of_int fuel0 body) fuel m).
  Proof.
    intros Hs Hb N1 N2. induction fuel as [|f IH]; intros i m n Hn Ho Hm Hv.
    { split; [reflexivity|]. intros m' o Q. discriminate Q. }
    cbn [compiled_turns python_turns]. rewrite Hm, Hv, Ho.
    destruct (@size_right l body it (user m) Hs) as (n' & E & V & X). rewrite E in Hn. injection Hn as <-.
    destruct (Z.of_nat i <? n') eqn:T.
    2:{ specialize (X (Z.of_nat i) T ltac:(lia)). rewrite Nat2Z.id in X. rewrite X. split; [reflexivity|].
        intros m' o Q. injection Q as <- <-. apply touches_same. }
    destruct (V (Z.of_nat i) T ltac:(lia)) as (a & V1 & V2). rewrite Nat2Z.id in V2. rewrite V1, V2.
    destruct (assign l a (user m)) as [s1 [e|]] eqn:As.
    { split; [reflexivity|]. intros m' o Q. injection Q as <- <-. apply touches_refl. }
    cbv zeta. cbn [set_user iterator_value]. rewrite Hv.
    set (m1 := set_value _ _ _).
    assert (user m1 = s1) as U1 by reflexivity.
    destruct (Hb m1) as [B1 B2]. rewrite U1 in B1.
    assert (touches (for_line l :: for_lines body) (target_line l :: target_lines body) m m1) as T1.
    { split; intros k K.
      - reflexivity.
      - cbn. rewrite upd_other; [split; reflexivity|]. intros ->. apply K. now left. }
    rewrite <- B1.
    destruct (compiled_run of_int fuel0 body m1) as [m2 o2| |] eqn:C; cbn [seen].
    2,3: (split; [reflexivity|intros m' o Q; discriminate Q]).
    assert (touches (for_line l :: for_lines body) (target_line l :: target_lines body) m m2) as T2.
    { eapply touches_trans; [exact T1|]. eapply touches_more; [| |exact (B2 _ _ eq_refl)]; intros k K; now right. }
    destruct (B2 _ _ eq_refl) as [K1 K2].
    assert (int_iter_size it (user m2) = Ok n') as Hn2.
    { cbn [seen] in B1. symmetry in B1. eapply size_kept_body; [exact Hs|exact B1|]. eapply size_kept_assign; [exact Hs|exact As|exact E]. }
    assert (iterate_over m2 (for_line l) = Some it) as Ho2 by (rewrite (K1 _ N1); exact Ho).
    destruct (K2 _ N2) as [K3 K4].
    assert (iterator_max m2 (target_line l) = n') as Hm2 by (rewrite K4; exact Hm).
    assert (iterator_value m2 (target_line l) = Z.of_nat (S i)) as Hv2.
    { rewrite K3. cbn. rewrite upd_same. lia. }
    destruct (IH (S i) m2 n' Hn2 Ho2 Hm2 Hv2) as [I1 I2].
    destruct o2.
    - split; [exact I1|]. intros m' o Q. eapply touches_trans; [exact T2|exact (I2 _ _ Q)].
    - split; [reflexivity|]. intros m' o Q. injection Q as <- <-. exact T2.
    - split; [exact I1|]. intros m' o Q. eapply touches_trans; [exact T2|exact (I2 _ _ Q)].
    - split; [reflexivity|]. intros m' o Q. injection Q as <- <-. exact T2.
    - split; [reflexivity|]. intros m' o Q. injection Q as <- <-. exact T2.
  Qed.

  Lemma implements_all fuel p : counted of_int p -> implements fuel p.
  Proof.
    induction p as [f|t a IHa b IHb|a IHa b IHb| | | |f|l body IHb orelse]; intros Hc m;
      cbn [compiled_run python_run for_lines target_lines].
    - destruct (f (user m)) as [s [e|]]; (split; [reflexivity|intros m' o Q; injection Q as <- <-; apply touches_refl]).
    - destruct Hc as [Ca Cb]. destruct (t (user m)) as [s [[|]|e]].
      + destruct (IHa Ca (set_user s m)) as [H1 H2]. split; [exact H1|]. intros m' o Q.
        eapply touches_trans; [apply touches_refl with (s := s)|].
        eapply touches_more; [| |exact (H2 _ _ Q)]; apply incl_appl; apply incl_refl.
      + destruct (IHb Cb (set_user s m)) as [H1 H2]. split; [exact H1|]. intros m' o Q.
        eapply touches_trans; [apply touches_refl with (s := s)|].
        eapply touches_more; [| |exact (H2 _ _ Q)]; apply incl_appr; apply incl_refl.
      + split; [reflexivity|]. intros m' o Q. injection Q as <- <-. apply touches_refl.
    - destruct Hc as [Ca Cb]. destruct (IHa Ca m) as [H1 H2]. rewrite <- H1.
      destruct (compiled_run of_int fuel a m) as [m1 o1| |] eqn:E; cbn [seen].
      2,3: (split; [reflexivity|intros m' o Q; discriminate Q]).
      assert (touches (for_lines a ++ for_lines b) (target_lines a ++ target_lines b) m m1) as T1.
      { eapply touches_more; [| |exact (H2 _ _ eq_refl)]; apply incl_appl; apply incl_refl. }
      destruct o1.
      2-5: (split; [reflexivity|intros m' o Q; injection Q as <- <-; exact T1]).
      destruct (IHb Cb m1) as [H3 H4]. split; [exact H3|]. intros m' o Q.
      eapply touches_trans; [exact T1|].
      eapply touches_more; [| |exact (H4 _ _ Q)]; apply incl_appr; apply incl_refl.
    - split; [reflexivity|]. intros m' o Q. injection Q as <- <-. apply touches_same.
    - split; [reflexivity|]. intros m' o Q. injection Q as <- <-. apply touches_same.
    - split; [reflexivity|]. intros m' o Q. injection Q as <- <-. apply touches_same.
    - destruct (f (user m)) as [s [r|e]]; (split; [reflexivity|intros m' o Q; injection Q as <- <-; apply touches_refl]).
    - destruct Hc as (-> & Cb & N1 & N2 & Hs). rewrite !app_nil_r.
      destruct (over_expr l (user m)) as [s [it|e]] eqn:E.
      2:{ split; [reflexivity|]. intros m' o Q. injection Q as <- <-. apply touches_refl. }
      specialize (Hs _ _ _ E).
      assert (python_make it = inl it) as ->.
      { destruct it as [items|start stop step|items pos]; cbn [python_make]; [reflexivity| |reflexivity].
        destruct Hs as (_ & _ & _ & N & _). now destruct (Z.eqb_spec step 0). }
      cbv zeta. cbn [set_over set_user user].
      destruct (@size_right l body it s Hs) as (n & Sz & _). rewrite Sz.
      set (m0 := set_trigger _ _ _).
      assert (iterate_over m0 (for_line l) = Some it) as Ho by (cbn; apply upd_same).
      assert (iterator_max m0 (target_line l) = n) as Hm by (cbn; apply upd_same).
      assert (iterator_value m0 (target_line l) = Z.of_nat 0) as Hv by (cbn; apply upd_same).
      destruct (@turns_right l body it fuel Hs (IHb Cb) N1 N2 fuel 0%nat m0 n Sz Ho Hm Hv) as [T1 T2].
      change (user m0) with s in T1. rewrite <- T1.
      assert (forall r : run mem R, compiled_else l None r = r) as Ce by (intros [? []| |]; reflexivity).
      rewrite Ce. split; [reflexivity|]. intros m' o Q. eapply touches_trans; [|exact (T2 _ _ Q)].
      split; intros k K; cbn.
      + rewrite upd_other; [reflexivity|]. intros ->. apply K. now left.
      + rewrite !upd_other; [split; reflexivity| |]; intros ->; apply K; now left.
  Qed.

  Lemma same_run (p : prog) fuel s : counted of_int p -> compiled_program of_int fuel p s = python_run of_int fuel p s.
  Proof. intros H. unfold compiled_program. exact (proj1 (@implements_all fuel p H (fresh s))). Qed.

  (** *** The [else] of a loop *)
  Definition quiet (m : mem) : Prop := forall k, trigger_else m k = false.
  Definition ends_quietly (r : run mem R) : Prop := forall m o, r = Ends m o -> quiet m.

  Lemma turns_quiet l (b : mem -> run mem R) : (forall m, quiet m -> ends_quietly (b m)) ->
    forall fuel m, quiet m -> ends_quietly (compiled_turns of_int l b fuel m).
  Proof.
    intros Hb. induction fuel as [|f IH]; intros m Q; cbn [compiled_turns].
    { intros m' o E. discriminate E. }
    destruct (_ <? _).
    2:{ intros m' o E. injection E as <- <-. exact Q. }
    destruct (iterate_over m (for_line l)) as [it|].
    2:{ intros m' o E. discriminate E. }
    destruct (int_iter_value of_int it _ (user m)) as [a|e].
    2:{ destruct e; intros m' o E; (discriminate E || (injection E as <- <-; exact Q)). }
    destruct (assign l a (user m)) as [s [e|]].
    { intros m' o E. injection E as <- <-. exact Q. }
    cbv zeta. set (m1 := set_value _ _ _). assert (quiet m1) as Q1 by exact Q.
    specialize (Hb m1 Q1). destruct (b m1) as [m2 o2| |].
    2,3: (intros m' o E; discriminate E).
    specialize (Hb _ _ eq_refl).
    destruct o2; [now apply IH| |now apply IH| |]; intros m' o E; injection E as <- <-; exact Hb.
  Qed.

  Lemma turns_same l (b c : mem -> run mem R) : (forall m, quiet m -> ends_quietly (b m)) ->
    (forall m, quiet m -> b m = c m) ->
    forall fuel m, quiet m -> compiled_turns of_int l b fuel m = compiled_turns of_int l c fuel m.
  Proof.
    intros Hb Hc. induction fuel as [|f IH]; intros m Q; cbn [compiled_turns]; [reflexivity|].
    destruct (_ <? _); [|reflexivity].
    destruct (iterate_over m (for_line l)) as [it|]; [|reflexivity].
    destruct (int_iter_value of_int it _ (user m)) as [a|e]; [|reflexivity].
    destruct (assign l a (user m)) as [s [e|]]; [reflexivity|].
    cbv zeta. set (m1 := set_value _ _ _). assert (quiet m1) as Q1 by exact Q.
    specialize (Hb m1 Q1). rewrite <- (Hc m1 Q1). destruct (b m1) as [m2 o2| |]; [|reflexivity|reflexivity].
    specialize (Hb _ _ eq_refl). destruct o2; try reflexivity; now apply IH.
  Qed.

  Lemma else_quiet l (o : option (mem -> run mem R)) r : ends_quietly r -> compiled_else l o r = r.
  Proof.
    intros H. destruct r as [m e| |]; cbn [compiled_else]; [|destruct o; reflexivity|destruct o; reflexivity].
    destruct e, o; try reflexivity. now rewrite (H _ _ eq_refl).
  Qed.

  Lemma else_dropped fuel (p : prog) : forall m, quiet m ->
    compiled_run of_int fuel p m = compiled_run of_int fuel (without_else p) m /\
    ends_quietly (compiled_run of_int fuel p m).
  Proof.
    induction p as [f|t a IHa b IHb|a IHa b IHb| | | |f|l body IHb orelse]; intros m Q;
      cbn [compiled_run without_else].
    - destruct (f (user m)) as [s [e|]]; (split; [reflexivity|intros m' o E; injection E as <- <-; exact Q]).
    - destruct (t (user m)) as [s [[|]|e]].
      + now apply IHa.
      + now apply IHb.
      + split; [reflexivity|]. intros m' o E. injection E as <- <-. exact Q.
    - destruct (IHa m Q) as [H1 H2]. rewrite <- H1.
      destruct (compiled_run of_int fuel a m) as [m1 o1| |].
      2,3: (split; [reflexivity|intros m' o E; discriminate E]).
      specialize (H2 _ _ eq_refl).
      destruct o1; [now apply IHb| | | |]; (split; [reflexivity|intros m' o E; injection E as <- <-; exact H2]).
    - split; [reflexivity|]. intros m' o E. injection E as <- <-. exact Q.
    - split; [reflexivity|]. intros m' o E. injection E as <- <-. exact Q.
    - split; [reflexivity|]. intros m' o E. injection E as <- <-. exact Q.
    - destruct (f (user m)) as [s [r|e]]; (split; [reflexivity|intros m' o E; injection E as <- <-; exact Q]).
    - destruct (over_expr l (user m)) as [s [it|e]].
      2:{ split; [reflexivity|]. intros m' o E. injection E as <- <-. exact Q. }
      cbv zeta. destruct (int_iter_size it _) as [n|e].
      2:{ split; [reflexivity|]. intros m' o E. injection E as <- <-. exact Q. }
      set (m0 := set_trigger _ _ _).
      assert (quiet m0) as Q0.
      { intros k. cbn. unfold upd. destruct (N.eqb k (target_line l)); [reflexivity|exact (Q k)]. }
      assert (ends_quietly (compiled_turns of_int l (compiled_run of_int fuel body) fuel m0)) as T.
      { apply turns_quiet; [|exact Q0]. intros m1 Q1. exact (proj2 (IHb m1 Q1)). }
      rewrite (@else_quiet l _ _ T).
      rewrite <- (@turns_same l (compiled_run of_int fuel body) (compiled_run of_int fuel (without_else body))).
      + rewrite (@else_quiet l _ _ T). split; [reflexivity|exact T].
      + intros m1 Q1. exact (proj2 (IHb m1 Q1)).
      + intros m1 Q1. exact (proj1 (IHb m1 Q1)).
      + exact Q0.
  Qed.

  Lemma else_never_runs (p : prog) fuel s :
    compiled_program of_int fuel p s = compiled_program of_int fuel (without_else p) s.
  Proof.
    unfold compiled_program. rewrite (proj1 (@else_dropped fuel p (fresh s) (fun _ => eq_refl))). reflexivity.
  Qed.

  (** *** Loops over tuples of known length *)
  Lemma unrolled_turns_right asg (body : A -> St -> run St R) returns orelse : forall l s,
    (forall a, In a l -> returns a = false -> never_ends (body a)) ->
    match unrolled_turns asg body returns orelse l s with
    | Ends s1 Break => python_over asg body orelse l s = Ends s1 Normal \/ (exists s0, orelse s0 = Ends s1 Break)
    | r => python_over asg body orelse l s = r /\
           (forall s1, r = Ends s1 Normal -> forallb returns l = true /\ exists s0, orelse s0 = Ends s1 Normal)
    end.
  Proof.
    induction l as [|a l IH]; intros s H; cbn [unrolled_turns python_over].
    - destruct (orelse s) as [s1 o| |] eqn:E; [destruct o|..]; try (split; [reflexivity|intros ? Q; discriminate Q]).
      + split; [reflexivity|]. intros s2 Q. injection Q as <-. split; [reflexivity|]. now exists s.
      + right. now exists s.
    - destruct (asg a s) as [s1 [e|]].
      { split; [reflexivity|intros ? Q; discriminate Q]. }
      assert (forall a, In a l -> returns a = false -> never_ends (body a)) as H' by (intros; apply H; [now right|assumption]).
      assert (forall s2, (exists o, body a s1 = Ends s2 o /\ (o = Normal \/ o = Continue)) -> returns a = true) as Ra.
      { intros s2 (o & B & O). destruct (returns a) eqn:Er; [reflexivity|].
        destruct (H a (or_introl eq_refl) Er _ _ _ B) as [[r W]|[r W]]; destruct O as [W'|W']; congruence. }
      destruct (body a s1) as [s2 o| |] eqn:B.
      2,3: (split; [reflexivity|intros ? Q; discriminate Q]).
      destruct o.
      + rewrite (Ra s2) by (exists Normal; auto). specialize (IH s2 H').
        cbn [forallb]. rewrite (Ra s2) by (exists Normal; auto). exact IH.
      + left. reflexivity.
      + rewrite (Ra s2) by (exists Continue; auto). specialize (IH s2 H').
        cbn [forallb]. rewrite (Ra s2) by (exists Continue; auto). exact IH.
      + split; [reflexivity|intros ? Q; discriminate Q].
      + split; [reflexivity|intros ? Q; discriminate Q].
  Qed.

  Lemma unrolled_turns_break asg (body : A -> St -> run St R) returns orelse : forall l s s1,
    unrolled_turns asg body returns orelse l s = Ends s1 Break ->
    (exists a s0, In a l /\ body a s0 = Ends s1 Break) \/ (exists s0, orelse s0 = Ends s1 Break).
  Proof.
    induction l as [|a l IH]; intros s s1 H; cbn [unrolled_turns] in H.
    - right. now exists s.
    - destruct (asg a s) as [s2 [e|]]; [discriminate H|].
      destruct (body a s2) as [s3 o| |] eqn:B; try discriminate H.
      destruct o; try discriminate H.
      + destruct (returns a); [|discriminate H]. destruct (IH _ _ H) as [(b & s0 & I & E)|E]; [|now right].
        left. exists b, s0. split; [now right|exact E].
      + injection H as <-. left. exists a, s2. split; [now left|exact B].
      + destruct (returns a); [|discriminate H]. destruct (IH _ _ H) as [(b & s0 & I & E)|E]; [|now right].
        left. exists b, s0. split; [now right|exact E].
  Qed.

  Lemma unrolled_right asg (body : A -> St -> run St R) returns orelse else_returns l s :
    (forall a, In a l -> returns a = false -> never_ends (body a)) ->
    (else_returns = false -> never_ends orelse) -> no_break orelse ->
    (loop_returns returns else_returns l = true \/ forall a, In a l -> no_break (body a)) ->
    unrolled asg body returns orelse else_returns l s = python_over asg body orelse l s.
  Proof.
    intros H1 H2 H3 H4. unfold unrolled. pose proof (@unrolled_turns_right asg body returns orelse l s H1) as T.
    pose proof (@unrolled_turns_break asg body returns orelse l s) as U.
    destruct (unrolled_turns asg body returns orelse l s) as [s1 o| |].
    2,3: (symmetry; exact (proj1 T)).
    destruct o.
    - destruct T as [T1 T2]. destruct (T2 _ eq_refl) as [F [s0 E]].
      assert (loop_returns returns else_returns l = true) as ->; [|now symmetry].
      unfold loop_returns. rewrite F. destruct else_returns; [reflexivity|].
      destruct (H2 eq_refl _ _ _ E) as [[r W]|[r W]]; discriminate W.
    - destruct T as [T|[s0 T]]; [|destruct (H3 _ _ T)].
      destruct H4 as [->|H4]; [now symmetry|].
      destruct (U _ eq_refl) as [(a & s0 & I & E)|[s0 E]]; [destruct (H4 a I _ _ E)|destruct (H3 _ _ E)].
    - symmetry. exact (proj1 T).
    - symmetry. exact (proj1 T).
    - symmetry. exact (proj1 T).
  Qed.
End Loops.
