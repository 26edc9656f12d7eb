(** Proofs about OneOf types. *)
From Coq Require Import Floats.SpecFloat ZifyBool ZifyNat.
From Verif Require Import Base Arith_Model Arith_Spec Arith_Proofs Arith_Mixed_Proofs Upcast_Model Upcast_Spec Upcast_Proofs
  OneOf_Model OneOf_Spec.
Open Scope Z_scope.

(** ** The options *)
Definition step (acc : list ty) (t : ty) : list ty := if in_dec ty_eq_dec t acc then acc else t :: acc.
Lemma visit_leaves : forall a acc, visit a acc = fold_left step (leaves a) acc.
Proof.
  fix IH 1. intros [t|l] acc; [reflexivity|]. cbn [visit leaves]. revert acc. induction l as [|b l IHl]; intros acc; [reflexivity|].
  rewrite fold_left_app. rewrite <- IH. apply IHl.
Qed.
Lemma args_leaves : forall args acc, fold_left (fun acc a => visit a acc) args acc = fold_left step (named args) acc.
Proof.
  induction args as [|a args IH]; intros acc; [reflexivity|]. cbn [fold_left named flat_map]. rewrite fold_left_app, IH, visit_leaves. reflexivity.
Qed.
Lemma steps_nodup : forall l, fold_left step l [] = nodup ty_eq_dec (rev l).
Proof.
  induction l as [|t l IH] using rev_ind; [reflexivity|]. rewrite fold_left_app, rev_app_distr, IH. cbn [fold_left rev app nodup]. unfold step.
  destruct (in_dec ty_eq_dec t (nodup ty_eq_dec (rev l))) as [I|I]; destruct (in_dec ty_eq_dec t (rev l)) as [J|J]; try reflexivity.
  - apply nodup_In in I. contradiction.
  - exfalso. apply I. now apply nodup_In.
Qed.
Lemma steps_in : forall l acc t, In t (fold_left step l acc) <-> In t l \/ In t acc.
Proof.
  induction l as [|u l IH]; intros acc t; [cbn; tauto|]. cbn [fold_left]. rewrite IH. unfold step.
  destruct (in_dec ty_eq_dec u acc) as [I|I]; cbn [In]; [|tauto]. split; [tauto|]. intros [[->|H]|H]; tauto.
Qed.
Lemma steps_again : forall l acc, fold_left step (rev (fold_left step l [])) acc = fold_left step l acc.
Proof.
  induction l as [|t l IH] using rev_ind; intros acc; [reflexivity|]. rewrite !fold_left_app. cbn [fold_left].
  destruct (in_dec ty_eq_dec t (fold_left step l [])) as [I|I].
  - assert (step (fold_left step l []) t = fold_left step l []) as -> by (unfold step; now destruct (in_dec _ _ _)).
    rewrite IH. unfold step at 2. destruct (in_dec _ _ _) as [J|J]; [reflexivity|]. exfalso. apply J. apply steps_in.
    apply steps_in in I. cbn in I. tauto.
  - assert (step (fold_left step l []) t = t :: fold_left step l []) as -> by (unfold step; now destruct (in_dec _ _ _)).
    cbn [rev]. rewrite fold_left_app, IH. reflexivity.
Qed.
Lemma make_spec : forall args, make args = if (255 <? length (first_occurrences (named args)))%nat then Err GenericError
  else Ok (first_occurrences (named args)).
Proof. intros args. unfold make, first_occurrences. now rewrite args_leaves, steps_nodup. Qed.
Lemma leaves_map ts : named (map Leaf ts) = ts.
Proof. induction ts as [|t ts IH]; [reflexivity|]. cbn. f_equal. exact IH. Qed.
Lemma leaves_node l : leaves (Node l) = named l.
Proof. induction l as [|a l IH]; [reflexivity|]. cbn [named flat_map]. unfold named in IH. rewrite <- IH. reflexivity. Qed.
Lemma make_nested : forall before inner ts after, make inner = Ok ts ->
  make (before ++ [Node (map Leaf ts)] ++ after) = make (before ++ inner ++ after).
Proof.
  intros before inner ts after M. assert (ts = rev (fold_left step (named inner) [])) as ->.
  { rewrite make_spec in M. unfold first_occurrences in M. rewrite <- steps_nodup in M. destruct (255 <? _)%nat; [discriminate|]. now injection M. }
  unfold make. rewrite !args_leaves. unfold named. rewrite !flat_map_app. cbn [flat_map]. rewrite leaves_node, leaves_map, app_nil_r.
  rewrite !fold_left_app, steps_again. reflexivity.
Qed.

(** ** The choice *)
Lemma try_options_spec w o l : forall ts k,
  match try_options w ts k o l with
  | Some (b, d) => exists i, b = byte_of (k + i) /\ takes w ts i o l d /\ forall j d', (j < i)%nat -> ~ takes w ts j o l d'
  | None => forall j d', ~ takes w ts j o l d'
  end.
Proof.
  induction ts as [|t ts IH]; intros k.
  - cbn. intros j d' (u & N & _). destruct j; discriminate.
  - cbn [try_options]. destruct (could_be w t o l && is_ok (convert_one w t o l)) eqn:T.
    + apply andb_true_iff in T. destruct T as [C O]. rewrite C. destruct (convert_one w t o l) as [d|e] eqn:V; [|discriminate].
      exists 0%nat. rewrite Nat.add_0_r. split; [reflexivity|]. split; [exists t; now split|]. intros j d' J. lia.
    + assert (forall d', ~ takes w (t :: ts) 0 o l d') as T0.
      { intros d' (u & N & C & V). injection N as <-. rewrite C, V in T. discriminate. }
      assert (forall j d', takes w (t :: ts) (S j) o l d' <-> takes w ts j o l d') as TS by (intros; reflexivity).
      assert ((if could_be w t o l then match convert_one w t o l with Ok d => Some (byte_of k, d) | Err _ => try_options w ts (S k) o l end
               else try_options w ts (S k) o l) = try_options w ts (S k) o l) as ->.
      { destruct (could_be w t o l); [|reflexivity]. destruct (convert_one w t o l); [discriminate|reflexivity]. }
      specialize (IH (S k)). destruct (try_options w ts (S k) o l) as [[b d]|].
      * destruct IH as (i & B & K & F). exists (S i). split; [rewrite B; f_equal; lia|]. split; [exact K|].
        intros [|j] d' J; [apply T0|]. apply (F j). lia.
      * intros [|j] d'; [apply T0|]. apply IH.
Qed.
Lemma try_levels_spec w ts o l : forall subs,
  (forall i j s s', (i < j)%nat -> nth_error subs i = Some s -> nth_error subs j = Some s' -> stricter s s') ->
  match try_levels w ts o l subs with
  | Ok (b, d) => exists i s, b = byte_of i /\ In s subs /\ no_looser s l /\ takes w ts i o s d
      /\ (forall s' j d', In s' subs -> stricter s' s -> ~ takes w ts j o s' d')
      /\ (forall j d', (j < i)%nat -> ~ takes w ts j o s d')
  | Err _ => forall s j d', In s subs -> no_looser s l -> ~ takes w ts j o s d'
  end.
Proof.
  induction subs as [|s subs IH]; intros O; [cbn; tauto|].
  assert (forall s', In s' subs -> stricter s s') as H.
  { intros s' I. apply In_nth_error in I. destruct I as [j J]. apply (O 0%nat (S j)); [lia|reflexivity|exact J]. }
  assert (forall i j s s', (i < j)%nat -> nth_error subs i = Some s -> nth_error subs j = Some s' -> stricter s s') as O'.
  { intros i j u u' IJ. apply (O (S i) (S j)). lia. }
  specialize (IH O'). cbn [try_levels]. destruct (level_number s <=? level_number l) eqn:L.
  - pose proof (try_options_spec w o s ts 0) as T. destruct (try_options w ts 0 o s) as [[b d]|].
    + destruct T as (i & B & K & F). exists i, s. split; [exact B|]. split; [now left|]. split; [unfold no_looser; lia|].
      split; [exact K|]. split; [|exact F]. intros s' j d' [<-|I] X; [unfold stricter in X; lia|]. specialize (H s' I). unfold stricter in *. lia.
    + destruct (try_levels w ts o l subs) as [[b d]|e].
      * destruct IH as (i & s1 & B & I & N & K & F & G). exists i, s1. split; [exact B|]. split; [now right|]. split; [exact N|].
        split; [exact K|]. split; [|exact G]. intros s' j d' [<-|I'] X; [apply T|]. now apply F.
      * intros s' j d' [<-|I] N; [apply T|]. now apply IH.
  - destruct (try_levels w ts o l subs) as [[b d]|e].
    + destruct IH as (i & s1 & B & I & N & K & F & G). exists i, s1. split; [exact B|]. split; [now right|]. split; [exact N|].
      split; [exact K|]. split; [|exact G]. intros s' j d' [<-|I'] X; [unfold stricter, no_looser in *; lia|]. now apply F.
    + intros s' j d' [<-|I] N; [unfold no_looser in N; lia|]. now apply IH.
Qed.
Lemma sublevels_ordered : forall i j s s', (i < j)%nat -> nth_error sublevels i = Some s -> nth_error sublevels j = Some s' -> stricter s s'.
Proof.
  intros i j s s' IJ A B. assert (j < 5)%nat as J by (apply (nth_error_Some sublevels j); congruence).
  destruct i as [|[|[|[|[|i]]]]]; try lia; destruct j as [|[|[|[|[|j]]]]]; try lia; cbn in A, B; injection A as <-; injection B as <-;
    unfold stricter; cbn; lia.
Qed.
Lemma sublevels_all s : s <> New -> In s sublevels.
Proof. destruct s; cbn; tauto. Qed.
Lemma sublevels_not_new s : In s sublevels -> s <> New.
Proof. intros I ->. cbn in I. intuition discriminate. Qed.
Lemma stricter_not_new s s' : stricter s s' -> s <> New.
Proof. intros H ->. unfold stricter in H. destruct s'; cbn in H; lia. Qed.

Lemma convert_best w ts o l b d : convert_oneof w ts o l = Ok (b, d) -> exists i, b = byte_of i /\ best w ts o l i d.
Proof.
  intros C. pose proof (try_levels_spec w ts o l sublevels sublevels_ordered) as T. unfold convert_oneof in C. rewrite C in T.
  destruct T as (i & s & B & I & N & K & F & G). exists i. split; [exact B|]. exists s. split; [now apply sublevels_not_new|].
  split; [exact N|]. split; [exact K|]. split; [|exact G]. intros s' j d' X. apply F; [|exact X]. apply sublevels_all. eapply stricter_not_new, X.
Qed.
Lemma convert_fails w ts o l e : convert_oneof w ts o l = Err e ->
  e = TypeError /\ forall s j d, s <> New -> no_looser s l -> ~ takes w ts j o s d.
Proof.
  intros C. split.
  - unfold convert_oneof in C. revert C. generalize sublevels. induction l0 as [|s subs IH]; cbn [try_levels]; [congruence|].
    destruct (_ <=? _); [|exact IH]. destruct (try_options _ _ _ _ _) as [[? ?]|]; [discriminate|exact IH].
  - pose proof (try_levels_spec w ts o l sublevels sublevels_ordered) as T. unfold convert_oneof in C. rewrite C in T.
    intros s j d N L. apply T; [now apply sublevels_all|exact L].
Qed.
Lemma takes_one w ts i o s d d' : takes w ts i o s d -> takes w ts i o s d' -> d = d'.
Proof. intros (t & N & _ & C) (t' & N' & _ & C'). congruence. Qed.
Lemma number_inj s s' : level_number s = level_number s' -> s = s'.
Proof. destruct s, s'; cbn; congruence || lia. Qed.
Lemma best_one w ts o l l' i i' d d' : best w ts o l i d -> best w ts o l' i' d' -> i = i' /\ d = d'.
Proof.
  intros (s & N & L & K & F & G) (s' & N' & L' & K' & F' & G').
  assert (s = s') as <-.
  { apply number_inj. destruct (Z.lt_trichotomy (level_number s) (level_number s')) as [H|[H|H]]; [|exact H|]; exfalso.
    - eapply F'; [exact H|exact K].
    - eapply F; [exact H|exact K']. }
  assert (i = i') as <-.
  { destruct (Nat.lt_trichotomy i i') as [H|[H|H]]; [|exact H|]; exfalso.
    - eapply G'; [exact H|exact K].
    - eapply G; [exact H|exact K']. }
  split; [reflexivity|]. eapply takes_one; eauto.
Qed.
Lemma best_converts w ts o l i d : best w ts o l i d -> convert_oneof w ts o l = Ok (byte_of i, d).
Proof.
  intros B. destruct (convert_oneof w ts o l) as [[b d']|e] eqn:C.
  - apply convert_best in C. destruct C as (i' & -> & B'). destruct (best_one _ _ _ _ _ _ _ _ _ B B') as [-> ->]. reflexivity.
  - exfalso. apply convert_fails in C. destruct B as (s & N & L & K & _). eapply C; eassumption.
Qed.
Lemma takes_in w ts i o s d : takes w ts i o s d -> (i < length ts)%nat.
Proof. intros (t & N & _). apply nth_error_Some. congruence. Qed.
Lemma byte_of_index i n : (i < n)%nat -> (n <= 255)%nat -> Z.to_nat (byte_of i) = i.
Proof. intros I N. unfold byte_of. rewrite Z.mod_small; lia. Qed.
Lemma best_extract w ts o l i d : (length ts <= 255)%nat -> best w ts o l i d ->
  exists t, nth_error ts i = Some t /\ extract ts (byte_of i, d) = extract_one t d.
Proof.
  intros L (s & _ & _ & K & _). pose proof (takes_in _ _ _ _ _ _ K) as I. destruct K as (t & N & _). exists t. split; [exact N|].
  unfold extract. cbn [fst snd]. now rewrite (byte_of_index _ _ I L), N.
Qed.
Lemma best_looser w ts o l l' i d : no_looser l l' -> best w ts o l i d -> best w ts o l' i d.
Proof. intros H (s & N & L & R). exists s. split; [exact N|]. split; [unfold no_looser in *; lia|exact R]. Qed.

(** ** Round trips *)
Lemma reg_eqb_eq a b : reg_eqb a b = true <-> a = b.
Proof. destruct a, b; cbn; split; congruence. Qed.
Lemma valid_signature a b : valid_conversion a b Signature = true -> a = b.
Proof. destruct a, b; vm_compute; congruence. Qed.
Lemma SFeqb_eq f g : SFeqb f g = true -> match f with S754_zero _ | S754_nan => True | _ => f = g end.
Proof.
  unfold SFeqb, SFcompare. destruct f as [| s| |s m e], g as [|s'| |s' m' e']; try congruence; try tauto; try (destruct s; congruence); try (destruct s'; congruence).
  - destruct s, s'; congruence.
  - destruct s, s'; try congruence; destruct (e ?= e')%Z eqn:E; try discriminate; apply Z.compare_eq in E; subst e';
      destruct (Pos.compare_cont Eq m m') eqn:M; cbn; intros H; try discriminate H; apply Pos.compare_eq in M; now subst.
Qed.

Lemma cmp_eq_same v w : reg_cmp_eq v w = true ->
  match v, w with
  | Int x, Int y => x = y
  | Float S754_nan, _ | _, Float S754_nan | Float (S754_zero _), _ => True
  | Float f, Float g => f = g
  | _, _ => False
  end.
Proof.
  destruct v as [x|f], w as [y|g]; cbn [reg_cmp_eq]; try discriminate.
  - intros. lia.
  - intros H. assert (f <> S754_nan -> g <> S754_nan -> SFeqb f g = true) as E.
    { intros F G. unfold SFltb, SFeqb in *. destruct (SFcompare f g) as [[]|] eqn:A; [reflexivity|discriminate| |].
      - assert (SFcompare g f = Some Lt) as B.
        { revert A. unfold SFcompare. destruct f as [|s| |s m e], g as [|s'| |s' m' e']; try congruence; try (destruct s; congruence); try (destruct s'; congruence); try (destruct s, s'; congruence).
          destruct s, s'; try congruence; rewrite (Z.compare_antisym e e'); destruct (e ?= e')%Z; cbn [CompOpp]; try congruence;
            change (Pos.compare_cont Eq m' m) with (Pos.compare m' m); change (Pos.compare_cont Eq m m') with (Pos.compare m m');
            rewrite (Pos.compare_antisym m m'); destruct (Pos.compare m m'); cbn; congruence. }
        rewrite B in H. discriminate.
      - exfalso. revert A. unfold SFcompare. destruct f, g; congruence. }
    destruct f; try exact Logic.I; destruct g; try exact Logic.I; specialize (E ltac:(congruence) ltac:(congruence)); apply SFeqb_eq in E; exact E.
Qed.

Lemma cast_i64 x : in_range I64 x -> cast I64 x = x.
Proof. intros H. apply cast_holds; [reflexivity|]. exact H. Qed.

Lemma extract_int_value t x : has_type t (Int x) -> t <> Bool -> t <> I64 -> extract_reg t (Int x) = OReg t (Int x).
Proof. destruct t; cbn; intros; reflexivity || congruence. Qed.
Lemma const_faithful c o d : is_object o -> is_type (TValue c) -> ~ mistakes (TValue c) o -> const_matches c o = true -> extract_one (TValue c) DValue = Ok d -> d = o.
Proof.
  intros O T M C E. destruct c as [t v|s|s]; cbn [const_matches] in C.
  - cbn [extract_one] in E. injection E as <-. destruct o as [|b|y|g| | |t' u|]; try discriminate.
    + apply andb_true_iff in C. destruct C as [R C]. apply orb_true_iff in R. rewrite !reg_eqb_eq in R. destruct R as [-> | ->].
      * destruct v as [x|f]; [|discriminate]. cbn [is_type has_type in_range] in T. destruct T as [-> | ->]; destruct b; try reflexivity; discriminate C.
      * exfalso. apply M. cbn [mistakes]. destruct v as [x|f]; [exists b; reflexivity|]. destruct T as [T _]. discriminate.
    + apply andb_true_iff in C. destruct C as [R C]. apply reg_eqb_eq in R. subst t. destruct v as [x|f]; [|discriminate].
      cbn [is_object] in O. cbn [is_type has_type] in T. assert (fits64 y = true) as F by (unfold fits64; cbn [in_range] in O; lia). rewrite F in C.
      rewrite compare_exact in C by (reflexivity || assumption). cbn [compare] in C. apply Z.eqb_eq in C. now subst.
    + apply andb_true_iff in C. destruct C as [R C]. apply reg_eqb_eq in R. subst t. destruct v as [x|f]; [discriminate|]. apply SFeqb_eq in C.
      cbn [mistakes] in M. destruct f; try (exfalso; apply M; exact Logic.I); rewrite <- C; reflexivity.
    + apply andb_true_iff in C. destruct C as [R C]. apply reg_eqb_eq in R. subst t'. destruct O as (O & B & I6 & F6).
      destruct v as [x|f], u as [y|g]; try discriminate C; apply cmp_eq_same in C.
      * subst y. now apply extract_int_value.
      * destruct T as [F T]. destruct t; try discriminate; [|congruence]. cbn [extract_reg].
        destruct f; cbn [mistakes] in M; try (exfalso; apply M; exact Logic.I); destruct g; try (exfalso; apply M; exact Logic.I); now rewrite C.
  - destruct o as [| | | |s'| | |]; try discriminate. destruct (list_eq_dec Z.eq_dec s s') as [->|]; [|discriminate]. cbn in E. congruence.
  - destruct o as [| | | | |s'| |]; try discriminate. destruct (list_eq_dec Z.eq_dec s s') as [->|]; [|discriminate]. cbn in E. congruence.
Qed.

Lemma signature_faithful w t o d : faithful w -> is_object o -> is_type t -> ~ mistakes t o ->
  could_be w t o Signature = true -> convert_one w t o Signature = Ok d -> extract_one t d = Ok o.
Proof.
  intros W O T M C V. destruct t as [|b| | |c|n]; cbn [could_be convert_one] in *.
  - destruct o; try discriminate. injection V as <-. reflexivity.
  - destruct o as [|x|x|f| | |a v|]; cbn [category] in C; try discriminate.
    + apply valid_signature in C. subst b. destruct x; injection V as <-; reflexivity.
    + apply valid_signature in C. subst b. unfold convert_int, construct_python_int in V. cbn [is_float] in V.
      replace (valid_conversion I64 I64 Signature) with true in V by reflexivity. cbn [andb negb is_float] in V. cbn [is_object] in O.
      assert ((- 2 ^ 63 <=? x) && (x <? 2 ^ 63) = true) as F by (cbn [in_range] in O; lia). rewrite F in V.
      rewrite cast_i64 in V by exact O. injection V as <-. reflexivity.
    + apply valid_signature in C. subst b. injection V as <-. reflexivity.
    + assert (a = b) as ->.
      { apply orb_true_iff in C. destruct C as [C|C]; [now apply reg_eqb_eq|now apply valid_signature]. }
      rewrite (proj2 (reg_eqb_eq b b) eq_refl) in V. injection V as <-. destruct O as (O & B & I6 & F6). cbn [extract_one]. f_equal.
      destruct v as [x|f]; [now apply extract_int_value|]. destruct O as [F O]. destruct b; try discriminate; [reflexivity|congruence].
  - destruct o; try discriminate. injection V as <-. reflexivity.
  - destruct o; try discriminate. injection V as <-. reflexivity.
  - rewrite C in V. injection V as <-.
    assert (exists x, extract_one (TValue c) DValue = Ok x) as [x X] by (destruct c; eexists; reflexivity). rewrite X. f_equal.
    eapply const_faithful; eassumption.
  - destruct o as [|x|x|f|s|s|a v|m c].
    all: try (destruct (typed_convert w n _ Signature) as [y|] eqn:Y; [|discriminate]; injection V as <-; cbn [extract_one]; f_equal; eapply W; eassumption).
    destruct (N.eqb m n); [injection V as <-; reflexivity|].
    destruct (typed_convert w n _ Signature) as [y|] eqn:Y; [|discriminate]; injection V as <-; cbn [extract_one]; f_equal; eapply W; eassumption.
Qed.

Lemma own_type_takes w o : exists d, could_be w (own_type o) o Signature = true /\ convert_one w (own_type o) o Signature = Ok d.
Proof.
  destruct o as [|x|x|f|s|s|a v|m c]; cbn [own_type could_be convert_one category].
  1, 2, 4, 5, 6: eexists; split; reflexivity.
  - unfold convert_int, construct_python_int. cbn [is_float]. replace (valid_conversion I64 I64 Signature) with true by reflexivity.
    cbn [andb negb]. eexists; split; reflexivity.
  - rewrite (proj2 (reg_eqb_eq a a) eq_refl). eexists; split; reflexivity.
  - rewrite N.eqb_refl. eexists; split; reflexivity.
Qed.

Lemma some_best w ts o l s i d : takes w ts i o s d -> s <> New -> no_looser s l -> exists i' d', best w ts o l i' d'.
Proof.
  intros K N L. destruct (convert_oneof w ts o l) as [[b d']|e] eqn:C.
  - apply convert_best in C. destruct C as (i' & _ & B). exists i', d'. exact B.
  - exfalso. apply convert_fails in C. eapply C; eassumption.
Qed.
Lemma round_trip w ts o l : faithful w -> (length ts <= 255)%nat -> is_object o -> (forall t, In t ts -> is_type t /\ ~ mistakes t o) ->
  In (own_type o) ts -> exists r, convert_oneof w ts o l = Ok r /\ extract ts r = Ok o.
Proof.
  intros W L O T I. apply In_nth_error in I. destruct I as [i0 I]. destruct (own_type_takes w o) as (d0 & C0 & V0).
  assert (takes w ts i0 o Signature d0) as K0 by (exists (own_type o); now split).
  assert (no_looser Signature l) as S0 by (unfold no_looser; destruct l; cbn; lia).
  destruct (some_best w ts o l Signature i0 d0 K0 ltac:(congruence) S0) as (i & d & B).
  exists (byte_of i, d). split; [now apply best_converts|]. destruct (best_extract w ts o l i d L B) as (t & N & ->).
  destruct B as (s & N' & L' & K & F & G). assert (s = Signature) as ->.
  { apply number_inj. destruct (Z.le_gt_cases (level_number s) 0) as [H|H]; [destruct s; cbn in *; lia|]. exfalso. eapply F; [|exact K0]. exact H. }
  destruct K as (t' & N2 & C & V). rewrite N in N2. injection N2 as <-. destruct (T t (nth_error_In _ _ N)) as [T1 T2].
  eapply signature_faithful; eassumption.
Qed.

(** ** Numbers *)
Lemma below_implicit s : no_looser s UpcastContainers -> at_least_implicit s = false.
Proof. unfold no_looser. destruct s; cbn; intros; reflexivity || lia. Qed.
Lemma same_number_refl n : same_number n n.
Proof. destruct n; cbn; reflexivity. Qed.
Lemma upcast_number w o a v b s d : number_object o a v -> has_type a v -> at_least_implicit s = false ->
  could_be w (TReg b) o s = true -> convert_one w (TReg b) o s = Ok d ->
  exists u, d = DReg u /\ (same_number (number_of v) (number_of u) <-> fits b v).
Proof.
  intros N T L C V.
  assert (forall r, construct a b s v = r -> r = convert_reg w a b s v) as R.
  { intros r <-. unfold construct, convert_reg. destruct (valid_conversion a b s) eqn:VC; [|reflexivity]. destruct v as [x|f]; [reflexivity|].
    destruct (is_float b) eqn:F; [reflexivity|]. exfalso. destruct T as [T _]. revert L VC T F. destruct s; try discriminate; destruct a; try discriminate; destruct b; vm_compute; congruence. }
  assert (a = b -> d = DReg v -> exists u, d = DReg u /\ (same_number (number_of v) (number_of u) <-> fits b v)) as Same.
  { intros -> ->. exists v. split; [reflexivity|]. split; [|intros; apply same_number_refl]. intros _. destruct v as [x|f]; [|exact Logic.I].
    cbn [fits]. intros F. destruct b; try discriminate; contradiction. }
  assert (forall u, construct a b s v = Ok u -> d = DReg u -> exists u, d = DReg u /\ (same_number (number_of v) (number_of u) <-> fits b v)) as Up.
  { intros u U D. exists u. split; [exact D|]. exact (proj2 (upcast_exact a b s v u T L U)). }
  destruct o as [|x|x|f| | |t u|]; try contradiction; destruct N as [-> ->]; cbn [could_be convert_one category] in *.
  - unfold of_bool in V. rewrite <- (R _ eq_refl) in V. destruct (construct _ _ _ _) as [u|] eqn:E; [|discriminate]. injection V as <-. now apply (Up u).
  - assert (construct I64 b s (Int x) = convert_int b s x) as E.
    { unfold convert_int, construct, construct_python_int. rewrite C. destruct (is_float b) eqn:F.
      - assert (too_big x = false) as TB.
        { unfold too_big. cbn [has_type in_range] in T. apply Z.leb_gt. assert (2 ^ 63 < 2 ^ 1024 - 2 ^ 970) by (vm_compute; reflexivity). lia. }
        rewrite TB. assert (b = F64) as ->; [|reflexivity]. revert C L F. destruct s; try discriminate; destruct b; vm_compute; congruence.
      - cbn [negb andb convert]. rewrite F. cbn [has_type in_range] in T.
        assert ((- 2 ^ 63 <=? x) && (x <? 2 ^ 63) = true) as I by lia. now rewrite I. }
    rewrite <- E in V. destruct (construct _ _ _ _) as [u|] eqn:E'; [|discriminate]. injection V as <-. now apply (Up u).
  - rewrite <- (R _ eq_refl) in V. destruct (construct _ _ _ _) as [u|] eqn:E; [|discriminate]. injection V as <-. now apply (Up u).
  - destruct (reg_eqb t b) eqn:E; [apply reg_eqb_eq in E; apply Same; [exact E|congruence]|].
    rewrite <- (R _ eq_refl) in V. destruct (construct _ _ _ _) as [u'|] eqn:E'; [|discriminate]. injection V as <-. now apply (Up u').
Qed.
Lemma upcast_takes w o a v b : number_object o a v -> has_type a v -> valid_upcast a b = true ->
  exists d, could_be w (TReg b) o Upcast = true /\ convert_one w (TReg b) o Upcast = Ok d.
Proof.
  intros N T U. assert (valid_conversion a b Upcast = true) as VC by (unfold valid_conversion; cbn [at_least_upcast andb]; rewrite U; apply orb_true_r).
  assert (exists u, convert_reg w a b Upcast v = Ok u) as [u R].
  { unfold convert_reg. rewrite VC. destruct (construct_total a b Upcast v T eq_refl VC) as [u E]. unfold construct in E. rewrite VC in E.
    destruct v as [x|f]; [now exists u|]. destruct (is_float b); [now exists u|eexists; reflexivity]. }
  destruct o as [|x|x|f| | |t u'|]; try contradiction; destruct N as [-> ->]; cbn [could_be convert_one category]; unfold of_bool; rewrite VC.
  - rewrite R. eexists; split; reflexivity.
  - unfold convert_int, construct_python_int. rewrite VC. destruct (is_float b) eqn:F; cbn [negb andb]; [|eexists; split; reflexivity].
    cbn [convert]. rewrite F. destruct (reg_eqb F64 b); eexists; split; reflexivity.
  - rewrite R. eexists; split; reflexivity.
  - rewrite orb_true_r. destruct (reg_eqb t b); [eexists; split; reflexivity|]. rewrite R. eexists; split; reflexivity.
Qed.
Lemma numbers w ts o a v b l : only_numbers ts -> number_object o a v -> has_type a v -> In (TReg b) ts -> valid_upcast a b = true ->
  no_looser Upcast l ->
  exists i c u, convert_oneof w ts o l = Ok (byte_of i, DReg u) /\ nth_error ts i = Some (TReg c) /\ (same_number (number_of v) (number_of u) <-> fits c v).
Proof.
  intros O N T I U L. destruct (upcast_takes w o a v b N T U) as (d0 & C0 & V0). apply In_nth_error in I. destruct I as [i0 I].
  assert (takes w ts i0 o Upcast d0) as K0 by (exists (TReg b); now split).
  destruct (some_best w ts o l Upcast i0 d0 K0 ltac:(congruence) L) as (i & d & B). pose proof (best_converts _ _ _ _ _ _ B) as E.
  destruct B as (s & N' & L' & K & F & G). destruct K as (t & Nt & C & V). destruct (O t (nth_error_In _ _ Nt)) as [c ->].
  assert (at_least_implicit s = false) as A.
  { apply below_implicit. unfold no_looser. destruct (Z.le_gt_cases (level_number s) (level_number Upcast)) as [H|H]; [cbn in *; lia|]. exfalso.
    eapply F; [exact H|exact K0]. }
  destruct (upcast_number w o a v c s d N T A C V) as (u & -> & S). exists i, c, u. split; [exact E|]. now split.
Qed.

(** ** Strings *)
Lemma strings w ts s l : (forall n, ~ In (TTyped n) ts) ->
  ((exists r, convert_oneof w ts (OStr s) l = Ok r) <-> In TStr ts \/ In (TValue (CStr s)) ts).
Proof.
  intros T. split.
  - intros [[b d] C]. apply convert_best in C. destruct C as (i & _ & lv & _ & _ & (t & N & C & V) & _). apply nth_error_In in N.
    destruct t as [|r| | |[t v|s'|s']|n]; cbn [could_be const_matches category] in C; try discriminate; [now left| |].
    + right. destruct (list_eq_dec Z.eq_dec s' s) as [->|]; [exact N|discriminate].
    + exfalso. eapply T, N.
  - intros H. assert (exists t d, In t ts /\ could_be w t (OStr s) Signature = true /\ convert_one w t (OStr s) Signature = Ok d) as (t & d & I & C & V).
    { destruct H as [H|H].
      - exists TStr, (DStr s). now split.
      - exists (TValue (CStr s)), DValue. split; [exact H|]. cbn [could_be convert_one const_matches]. destruct (list_eq_dec Z.eq_dec s s); [now split|congruence]. }
    apply In_nth_error in I. destruct I as [i I]. destruct (some_best w ts (OStr s) l Signature i d) as (i' & d' & B).
    + exists t. now split.
    + congruence.
    + unfold no_looser. destruct l; cbn; lia.
    + eexists. eapply best_converts, B.
Qed.

(** ** The default *)
Lemma default_spec w : forall ts k,
  match default_from w ts k with
  | Ok (b, d) => exists i t, b = byte_of (k + i) /\ nth_error ts i = Some t /\ default_of w t = Some d
      /\ forall j u, (j < i)%nat -> nth_error ts j = Some u -> default_of w u = None
  | Err _ => forall t, In t ts -> default_of w t = None
  end.
Proof.
  induction ts as [|t ts IH]; intros k; [cbn; tauto|]. cbn [default_from]. destruct (default_of w t) as [d|] eqn:D.
  - exists 0%nat, t. rewrite Nat.add_0_r. repeat split; [exact D|]. intros. lia.
  - specialize (IH (S k)). destruct (default_from w ts (S k)) as [[b d]|e].
    + destruct IH as (i & u & B & N & Du & F). exists (S i), u. split; [rewrite B; f_equal; lia|]. split; [exact N|]. split; [exact Du|].
      intros [|j] x J X; [injection X as <-; exact D|]. apply (F j); [lia|exact X].
    + intros u [<-|I]; [exact D|now apply IH].
Qed.
