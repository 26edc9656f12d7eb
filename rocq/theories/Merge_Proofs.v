(** Proofs about merging types. *)
From Coq Require Import List Permutation Sorted.
From Verif Require Import Base Graph_Model Graph_Proofs Merge_Model Merge_Spec.
Open Scope Z_scope.
Open Scope result_scope.

(** ** Equality *)
Lemma const_eqb_spec a b : const_eqb a b = true <-> a = b.
Proof.
  destruct a, b; cbn [const_eqb]; try (split; congruence);
    try (rewrite Z.eqb_eq; split; congruence);
    try (destruct (list_eq_dec Z.eq_dec _ _); split; congruence).
  rewrite Bool.eqb_true_iff; split; congruence.
Qed.
Lemma ty_eqb_spec a b : ty_eqb a b = true <-> a = b.
Proof.
  destruct a, b; cbn [ty_eqb]; try (split; congruence); try (rewrite Z.eqb_eq; split; congruence).
  - rewrite andb_true_iff, !Z.eqb_eq. split; [intros [-> ->]; auto|intros [= -> ->]; auto].
  - rewrite const_eqb_spec. split; congruence.
Qed.
Lemma list_eqb_spec a b : list_eqb a b = true <-> a = b.
Proof.
  revert b; induction a as [|x a IH]; intros [|y b]; cbn [list_eqb]; try (split; congruence).
  rewrite andb_true_iff, ty_eqb_spec, IH. split; [intros [-> ->]; auto|intros [= -> ->]; auto].
Qed.
Lemma typ_eqb_spec a b : typ_eqb a b = true <-> a = b.
Proof.
  destruct a, b; cbn [typ_eqb]; try (split; congruence); rewrite ?ty_eqb_spec, ?list_eqb_spec; split; congruence.
Qed.

Section Merge.
Variables (mro : Z -> list Z) (name_of : ty -> list Z) (id_of : ty -> Z).
Hypothesis GM : good_mro mro.
Notation subsumes := (subsumes mro).

(** ** [typeSubsumes] is a partial order *)
Lemma subsumes_spec b s : subsumes b s = true <->
  b = s \/ b = Object \/ (exists x y, b = ClassT x /\ s = ClassT y /\ In x (mro y)) \/ (exists c, s = ValueT c /\ isinstance c b = true).
Proof.
  unfold Merge_Model.subsumes. rewrite !orb_true_iff, !ty_eqb_spec.
  assert (match b, s with ClassT x, ClassT y => existsb (Z.eqb x) (mro y) | _, _ => false end = true <->
          exists x y, b = ClassT x /\ s = ClassT y /\ In x (mro y)) as ->.
  { split.
    - destruct b, s; try discriminate. intros H. apply existsb_exists in H as [x [I E]]. apply Z.eqb_eq in E as <-. eauto 6.
    - intros [x [y [-> [-> I]]]]. apply existsb_exists. exists x. split; [assumption|apply Z.eqb_refl]. }
  assert (match s with ValueT c => isinstance c b | _ => false end = true <-> exists c, s = ValueT c /\ isinstance c b = true) as ->.
  { split; [destruct s; try discriminate; eauto|intros [c [-> H]]; assumption]. }
  tauto.
Qed.
Lemma subsumes_refl t : subsumes t t = true.
Proof. apply subsumes_spec. now left. Qed.
Lemma isinstance_up c t u : isinstance c t = true -> subsumes u t = true -> isinstance c u = true.
Proof.
  intros I S. apply subsumes_spec in S as [->|[->|[[x [y [-> [-> _]]]]|[d [-> H]]]]]; [assumption|reflexivity|destruct c; discriminate|destruct c; discriminate].
Qed.
Lemma subsumes_trans a b c : subsumes a b = true -> subsumes b c = true -> subsumes a c = true.
Proof.
  intros H1 H2. pose proof H2 as H2'.
  apply subsumes_spec in H2 as [->|[->|[[x [y [-> [-> I]]]]|[d [-> I]]]]].
  - assumption.
  - apply subsumes_spec. apply subsumes_spec in H1 as [->|[->|[[x [y [_ [E _]]]]|[d [E _]]]]]; try discriminate; auto.
  - apply subsumes_spec in H1 as [->|[->|[[x' [y' [-> [[= <-] I']]]]|[d [E _]]]]]; try discriminate.
    + assumption.
    + apply subsumes_spec. auto.
    + apply subsumes_spec. right. right. left. exists x', y. repeat split. eapply mro_trans; eauto.
  - apply subsumes_spec. right. right. right. exists d. split; [reflexivity|]. eapply isinstance_up; eauto.
Qed.
Lemma subsumes_antisym a b : subsumes a b = true -> subsumes b a = true -> a = b.
Proof.
  intros H1 H2. apply subsumes_spec in H1 as [->|[->|[[x [y [-> [-> I]]]]|[d [-> I]]]]]; [reflexivity|..];
    apply subsumes_spec in H2 as [E|[E|[[x' [y' [E1 [E2 I']]]]|[d' [E I']]]]]; try congruence.
  - injection E1 as ->. injection E2 as ->. f_equal. apply (mro_antisym _ GM); assumption.
  - subst. destruct d'; discriminate.
Qed.

(** ** The loop keeps the greatest types *)
Lemma scan_spec t types rest add : scan mro t types = (rest, add) ->
  (add = true -> rest = filter (fun u => negb (subsumes t u)) types /\ forall u, In u types -> subsumes u t = false) /\
  (add = false -> exists pre u post, types = pre ++ u :: post /\ subsumes u t = true /\ (forall v, In v pre -> subsumes v t = false) /\
                   rest = filter (fun u => negb (subsumes t u)) pre ++ u :: post).
Proof.
  revert rest add; induction types as [|u types IH]; intros rest add; cbn [scan].
  - intros [= <- <-]. split; [intros _; split; [reflexivity|intros u []]|discriminate].
  - destruct (subsumes u t) eqn:S.
    + intros [= <- <-]. split; [discriminate|]. intros _. exists [], u, types. repeat split; auto. intros v [].
    + destruct (scan mro t types) as [r a] eqn:E. destruct (IH _ _ eq_refl) as [I1 I2].
      destruct (subsumes t u) eqn:S2.
      * intros [= <- <-]. split.
        -- intros A. destruct (I1 A) as [-> H]. split; [cbn [filter]; now rewrite S2|]. intros v [<-|I]; auto.
        -- intros A. destruct (I2 A) as [pre [w [post [-> [H1 [H2 ->]]]]]]. exists (u :: pre), w, post. repeat split; auto.
           ++ intros v [<-|I]; auto.
           ++ cbn [filter]. now rewrite S2.
      * intros [= <- <-]. split.
        -- intros A. destruct (I1 A) as [-> H]. split; [cbn [filter]; now rewrite S2|]. intros v [<-|I]; auto.
        -- intros A. destruct (I2 A) as [pre [w [post [-> [H1 [H2 ->]]]]]]. exists (u :: pre), w, post. repeat split; auto.
           ++ intros v [<-|I]; auto.
           ++ cbn [filter]. now rewrite S2.
Qed.
(** [types] are the greatest elements of [seen]. *)
Record greatest (seen types : list ty) : Prop := {
  g_nodup : NoDup types;
  g_in : forall t, In t types <-> In t seen /\ forall u, In u seen -> subsumes u t = true -> u = t }.
Lemma filter_id {A} (f : A -> bool) l : (forall x, In x l -> f x = true) -> filter f l = l.
Proof.
  induction l as [|x l IH]; intros H; [reflexivity|]. cbn [filter]. rewrite H by now left. f_equal. apply IH. intros y I. apply H. now right.
Qed.
(** Every type seen is below a greatest one. *)
Lemma greatest_above seen types t : greatest seen types -> In t seen -> exists u, In u types /\ subsumes u t = true.
Proof.
  intros G. 
  assert (forall n l, (length l <= n)%nat -> incl l seen -> forall t, In t l -> (forall u, In u seen -> subsumes u t = true -> u <> t -> In u l) ->
            exists u, In u types /\ subsumes u t = true) as X.
  { induction n as [|n IH]; intros l L Il x Ix Up.
    - destruct l; [destruct Ix|cbn in L; lia].
    - destruct (existsb (fun u => subsumes u x && negb (ty_eqb u x)) seen) eqn:E.
      + apply existsb_exists in E as [u [Iu B]]. apply andb_true_iff in B as [B1 B2].
        assert (u <> x) as NE by (intros ->; rewrite (proj2 (ty_eqb_spec x x)) in B2; [discriminate|reflexivity]).
        pose proof (Up _ Iu B1 NE) as Il'.
        destruct (IH (filter (fun v => negb (ty_eqb v x)) l)) with (t := u) as [w [Iw Sw]].
        * assert (length (filter (fun v => negb (ty_eqb v x)) l) < length l)%nat; [|lia].
          clear -Ix. induction l as [|y l IH]; [destruct Ix|]. cbn [filter]. destruct Ix as [->|I].
          -- rewrite (proj2 (ty_eqb_spec x x)) by reflexivity. cbn [negb]. clear. cbn [length].
             assert (forall m : list ty, length (filter (fun v => negb (ty_eqb v x)) m) <= length m)%nat as H.
             { induction m; [auto|]. cbn [filter]. destruct (negb _); cbn [length]; lia. }
             specialize (H l). lia.
          -- specialize (IH I). destruct (negb (ty_eqb y x)); cbn [length]; lia.
        * intros v I. apply filter_In in I. apply Il, I.
        * apply filter_In. split; [assumption|]. destruct (ty_eqb u x) eqn:Q; [apply ty_eqb_spec in Q; contradiction|reflexivity].
        * intros v Iv Sv NEv. apply filter_In. split.
          -- apply Up; [assumption|eapply subsumes_trans; eauto|]. intros ->. apply NE. now apply subsumes_antisym.
          -- destruct (ty_eqb v x) eqn:Q; [|reflexivity]. apply ty_eqb_spec in Q as ->. exfalso. apply NE. now apply subsumes_antisym.
        * exists w. split; [assumption|]. eapply subsumes_trans; eauto.
      + exists x. split; [|apply subsumes_refl]. apply (g_in _ _ G). split; [apply Il, Ix|]. intros u Iu S.
        destruct (ty_eqb u x) eqn:Q; [now apply ty_eqb_spec|].
        assert (existsb (fun u => subsumes u x && negb (ty_eqb u x)) seen = true); [|congruence].
        apply existsb_exists. exists u. split; [assumption|]. now rewrite S, Q. }
  intros I. eapply (X (length seen) seen); eauto using incl_refl.
Qed.
Lemma add_type_greatest seen types t : greatest seen types -> greatest (t :: seen) (add_type mro types t).
Proof.
  intros G. unfold add_type. destruct (scan mro t types) as [rest add] eqn:E.
  destruct (scan_spec _ _ _ _ E) as [S1 S2]. destruct add.
  - destruct (S1 eq_refl) as [-> N]. clear S1 S2.
    assert (forall u, In u types -> u <> t) as NE by (intros u I ->; specialize (N _ I); rewrite subsumes_refl in N; discriminate).
    constructor.
    + apply (Permutation_NoDup (l := t :: filter (fun u => negb (subsumes t u)) types)); [apply Permutation_cons_append|].
      constructor; [|apply NoDup_filter, (g_nodup _ _ G)]. intros I. apply filter_In in I as [I _]. now apply NE in I.
    + intros x. rewrite in_app_iff, filter_In, (g_in _ _ G). cbn [In]. split.
      * intros [[[I H] B]|[<-|[]]].
        -- split; [now right|]. intros u [<-|Iu] S; [|auto]. rewrite S in B. discriminate.
        -- split; [now left|]. intros u [<-|Iu] S; [reflexivity|].
           destruct (greatest_above _ _ u G Iu) as [w [Iw Sw]]. specialize (N _ Iw). rewrite (subsumes_trans _ _ _ Sw S) in N. discriminate.
      * intros [[<-|I] H]; [now auto|]. destruct (ty_eqb t x) eqn:Q; [apply ty_eqb_spec in Q; auto|].
        left. split; [split; [assumption|intros u Iu; apply H; now right]|].
        destruct (subsumes t x) eqn:S; [|reflexivity]. specialize (H t (or_introl eq_refl) S). subst. rewrite (proj2 (ty_eqb_spec x x)) in Q; [discriminate|reflexivity].
  - destruct (S2 eq_refl) as [pre [u [post [-> [Su [Hpre ->]]]]]]. clear S1 S2.
    assert (forall v, In v (pre ++ u :: post) -> subsumes t v = true -> v = u) as K.
    { intros v Iv Sv. pose proof (subsumes_trans _ _ _ Su Sv) as X. apply (g_in _ _ G) in Iv as [_ M].
      symmetry. apply M; [|assumption]. apply (g_in _ _ G). apply in_app_iff. right. now left. }
    assert (filter (fun v => negb (subsumes t v)) pre = pre) as ->.
    { apply filter_id. intros v Iv. destruct (subsumes t v) eqn:S; [|reflexivity]. exfalso.
      assert (v = u) as -> by (apply K; [apply in_app_iff; now left|assumption]).
      specialize (Hpre _ Iv). congruence. }
    constructor; [apply (g_nodup _ _ G)|]. intros x. rewrite (g_in _ _ G). cbn [In]. 
    assert (In u seen) as Iu by (apply (g_in _ _ G); apply in_app_iff; right; now left).
    split.
    + intros [I H]. split; [now right|]. intros v [<-|Iv] S; [|auto].
      assert (u = x) as -> by (apply H; [assumption|eapply subsumes_trans; eauto]). now apply subsumes_antisym.
    + intros [[<-|I] H].
      * assert (u = t) as -> by (apply H; auto). split; [assumption|]. intros v Iv. apply H. now right.
      * split; [assumption|]. intros v Iv. apply H. now right.
Qed.
Lemma fold_greatest ts : greatest ts (fold_left (add_type mro) ts []).
Proof.
  assert (forall l seen types, greatest seen types -> greatest (rev l ++ seen) (fold_left (add_type mro) l types)) as X.
  { intros l; induction l as [|t l IH]; intros seen types G; [exact G|]. cbn [fold_left rev]. rewrite <- app_assoc. cbn [app].
    apply IH. now apply add_type_greatest. }
  assert (greatest [] []) as G0. { constructor; [constructor|]. intros t. cbn [In]. tauto. }
  specialize (X ts [] [] G0). rewrite app_nil_r in X. destruct X as [D I]. constructor; [assumption|].
  intros t. rewrite I, <- in_rev. split; intros [I1 I2]; (split; [assumption|]); intros u Iu; apply I2; now apply in_rev in Iu || apply -> in_rev in Iu.
Qed.
Lemma greatest_unique seen seen' types types' : (forall t, In t seen <-> In t seen') -> greatest seen types -> greatest seen' types' ->
  Permutation types types'.
Proof.
  intros E [D1 I1] [D2 I2]. apply NoDup_Permutation; [assumption..|]. intros t. rewrite I1, I2, E.
  split; intros [A B]; (split; [assumption|]); intros u Iu; apply B; now apply E.
Qed.

(** ** Sorting *)
Lemma str_lt_irrefl a : str_lt a a = false.
Proof. induction a as [|x a IH]; [reflexivity|]. cbn [str_lt]. now rewrite Z.ltb_irrefl, Z.eqb_refl, IH. Qed.
Lemma str_lt_total a b : str_lt a b = false -> str_lt b a = false -> a = b.
Proof.
  revert b; induction a as [|x a IH]; intros [|y b]; cbn [str_lt]; try congruence.
  intros H1 H2. apply orb_false_iff in H1 as [A1 A2], H2 as [B1 B2]. apply Z.ltb_ge in A1, B1. assert (x = y) as -> by lia.
  rewrite Z.eqb_refl in *. cbn [andb] in *. f_equal. auto.
Qed.
Lemma str_lt_asym a b : str_lt a b = true -> str_lt b a = false.
Proof.
  revert b; induction a as [|x a IH]; intros [|y b]; cbn [str_lt]; try congruence.
  intros H. apply orb_true_iff in H as [H|H].
  - apply Z.ltb_lt in H. rewrite (proj2 (Z.ltb_ge y x)), (proj2 (Z.eqb_neq y x)) by lia. reflexivity.
  - apply andb_true_iff in H as [H1 H2]. apply Z.eqb_eq in H1 as ->. rewrite Z.ltb_irrefl, Z.eqb_refl. cbn. auto.
Qed.
Lemma str_lt_trans a b c : str_lt a b = true -> str_lt b c = true -> str_lt a c = true.
Proof.
  revert b c; induction a as [|x a IH]; intros [|y b] [|z c]; cbn [str_lt]; try congruence.
  rewrite !orb_true_iff, !andb_true_iff, !Z.ltb_lt, !Z.eqb_eq.
  intros [H1|[-> H1]] [H2|[-> H2]]; [left; lia|left; lia|left; lia|right; split; [reflexivity|eauto]].
Qed.
Hypothesis id_unique : forall a b, id_of a = id_of b -> a = b.
Notation key_lt := (key_lt name_of id_of).
Lemma key_lt_cases a b : key_lt a b = true \/ a = b \/ key_lt b a = true.
Proof.
  unfold Merge_Model.key_lt. destruct (Z.ltb_spec (rank a) (rank b)); [now left|].
  destruct (Z.ltb_spec (rank b) (rank a)); [right; right; reflexivity|].
  assert (rank a = rank b) as -> by lia. rewrite Z.eqb_refl. cbn [orb andb].
  destruct (str_lt (name_of a) (name_of b)) eqn:E1; [now left|]. destruct (str_lt (name_of b) (name_of a)) eqn:E2; [right; now right|].
  rewrite (str_lt_total _ _ E1 E2). unfold str_eq. destruct (list_eq_dec _ _ _); [|congruence]. cbn [orb andb].
  destruct (Z.ltb_spec (id_of a) (id_of b)); [now left|]. destruct (Z.ltb_spec (id_of b) (id_of a)); [right; now right|].
  right. left. apply id_unique. lia.
Qed.
Lemma key_lt_spec a b : key_lt a b = true <->
  rank a < rank b \/ (rank a = rank b /\ (str_lt (name_of a) (name_of b) = true \/ (name_of a = name_of b /\ id_of a < id_of b))).
Proof.
  unfold Merge_Model.key_lt, str_eq. rewrite !orb_true_iff, !andb_true_iff, !orb_true_iff, !andb_true_iff, !Z.ltb_lt, Z.eqb_eq.
  destruct (list_eq_dec Z.eq_dec (name_of a) (name_of b)); intuition congruence.
Qed.
Lemma key_lt_asym a b : key_lt a b = true -> key_lt b a = false.
Proof.
  intros H. destruct (key_lt b a) eqn:E; [exfalso|reflexivity]. apply key_lt_spec in H, E.
  destruct H as [H|[R [H|[N H]]]], E as [E|[R' [E|[N' E]]]]; try lia.
  - apply str_lt_asym in H. congruence.
  - rewrite N', str_lt_irrefl in H. discriminate.
  - rewrite N, str_lt_irrefl in E. discriminate.
Qed.
Lemma key_lt_trans a b c : key_lt a b = true -> key_lt b c = true -> key_lt a c = true.
Proof.
  rewrite !key_lt_spec. intros [H|[R [H|[N H]]]] [E|[R' [E|[N' E]]]]; try (left; lia); right; (split; [lia|]).
  - left. eapply str_lt_trans; eauto.
  - left. now rewrite <- N'.
  - left. now rewrite N.
  - right. split; [congruence|lia].
Qed.
Lemma key_lt_neg_trans a b c : key_lt a b = false -> key_lt b c = false -> key_lt a c = false.
Proof.
  intros H1 H2. destruct (key_lt a c) eqn:E; [exfalso|reflexivity].
  destruct (key_lt_cases a b) as [X|[->|X]]; [congruence..|]. destruct (key_lt_cases b c) as [Y|[->|Y]]; [congruence..|].
  pose proof (key_lt_trans _ _ _ Y X) as Z1. apply key_lt_asym in Z1. congruence.
Qed.
Lemma sorted_unique l m : Permutation l m -> StronglySorted (fun a b => key_lt b a = false) l -> StronglySorted (fun a b => key_lt b a = false) m -> l = m.
Proof.
  revert m; induction l as [|x l IH]; intros m P S1 S2.
  - apply Permutation_nil in P. auto.
  - destruct m as [|y m]; [symmetry in P; apply Permutation_nil in P; discriminate|].
    inversion S1 as [|? ? S1' F1]; inversion S2 as [|? ? S2' F2]; subst. rewrite Forall_forall in F1, F2.
    assert (x = y) as ->.
    { assert (In y (x :: l)) as Iy by (eapply Permutation_in; [symmetry; exact P|now left]).
      assert (In x (y :: m)) as Ix by (eapply Permutation_in; [exact P|now left]).
      destruct Iy as [->|Iy]; [reflexivity|]. destruct Ix as [->|Ix]; [reflexivity|].
      specialize (F1 _ Iy). specialize (F2 _ Ix). cbn beta in *. destruct (key_lt_cases x y) as [H|[H|H]]; congruence. }
    f_equal. apply IH; auto. eapply Permutation_cons_inv; eauto.
Qed.
Lemma sort_permutation l m : Permutation l m -> sorted_by key_lt l = sorted_by key_lt m.
Proof.
  intros P. apply sorted_unique.
  - rewrite !sorted_by_perm by (first [exact key_lt_neg_trans|exact key_lt_asym]). assumption.
  - apply sorted_by_sorted; [exact key_lt_neg_trans|exact key_lt_asym].
  - apply sorted_by_sorted; [exact key_lt_neg_trans|exact key_lt_asym].
Qed.

(** ** The merged type *)
Lemma greatest_permutation seen types types' : greatest seen types -> Permutation types types' -> greatest seen types'.
Proof.
  intros [D I] P. constructor; [eapply Permutation_NoDup; eauto|]. intros t. rewrite <- I. split; apply Permutation_in; [symmetry|]; assumption.
Qed.
Lemma merge_all_spec ws : concat (map options ws) <> [] ->
  match merge_all mro name_of id_of ws with
  | Ok m => greatest (concat (map options ws)) (options m)
  | Err e => e = GenericError /\ exists types, greatest (concat (map options ws)) types /\ (255 < length types)%nat
  end.
Proof.
  intros NE. unfold merge_all. pose proof (fold_greatest (concat (map options ws))) as G.
  set (types := fold_left (add_type mro) (concat (map options ws)) []) in *.
  destruct types as [|t [|u types']] eqn:E.
  - exfalso. destruct (concat (map options ws)) as [|x l] eqn:C; [congruence|].
    destruct (greatest_above _ _ x G) as [y [[] _]]. now left.
  - exact G.
  - rewrite <- E in *. destruct (Z.ltb_spec 255 (Z.of_nat (length types))) as [L|L].
    + split; [reflexivity|]. exists types. split; [assumption|]. lia.
    + cbn [options]. eapply greatest_permutation; [exact G|]. symmetry. apply sorted_by_perm.
Qed.
Lemma merge_all_permutation ws ws' : Permutation ws ws' -> merge_all mro name_of id_of ws = merge_all mro name_of id_of ws'.
Proof.
  intros P. unfold merge_all.
  assert (forall t, In t (concat (map options ws)) <-> In t (concat (map options ws'))) as E.
  { intros t. rewrite !in_concat. split; intros [l [I J]]; exists l; (split; [|assumption]); eapply Permutation_in; try eassumption;
      [apply Permutation_map; assumption|apply Permutation_map; symmetry; assumption]. }
  pose proof (greatest_unique _ _ _ _ E (fold_greatest _) (fold_greatest _)) as Q.
  set (l := fold_left _ (concat (map options ws)) []) in *. set (l' := fold_left _ (concat (map options ws')) []) in *.
  pose proof (Permutation_length Q) as L. pose proof (sort_permutation _ _ Q) as SP.
  destruct l as [|a [|b l]], l' as [|a' [|b' l']]; try discriminate; try reflexivity.
  - apply Permutation_length_1 in Q as ->. reflexivity.
  - rewrite L, SP. reflexivity.
Qed.
Lemma present_in {A} (l : list (option A)) x : In x (present l) <-> In (Some x) l.
Proof.
  induction l as [|[y|] l IH]; cbn [present In]; [tauto|..]; rewrite IH; intuition congruence.
Qed.
Lemma present_permutation {A} (l m : list (option A)) : Permutation l m -> Permutation (present l) (present m).
Proof.
  induction 1 as [|[x|] l m P IH|[x|] [y|] l|l m n P1 IH1 P2 IH2]; cbn [present]; auto; [apply perm_swap|etransitivity; eauto].
Qed.
Definition simple (ws : list (option typ)) : Prop :=
  match present ws with [] | [_] => True | [t; u] => t = u | _ => False end.
Lemma merge_types_cases ws :
  (present ws = [] /\ merge_types mro name_of id_of ws = Ok None) \/
  (exists t, (present ws = [t] \/ present ws = [t; t]) /\ merge_types mro name_of id_of ws = Ok (Some t)) \/
  (~ simple ws /\ merge_types mro name_of id_of ws = (r <- merge_all mro name_of id_of (present ws) ;; Ok (Some r))).
Proof.
  unfold merge_types, simple. destruct (present ws) as [|t [|u [|v l]]]; auto.
  - right. left. exists t. auto.
  - destruct (typ_eqb t u) eqn:E.
    + apply typ_eqb_spec in E as ->. right. left. exists u. auto.
    + right. right. split; [intros ->; rewrite (proj2 (typ_eqb_spec u u)) in E; [discriminate|reflexivity]|reflexivity].
Qed.
Lemma merge_types_permutation ws ws' : Permutation ws ws' -> merge_types mro name_of id_of ws = merge_types mro name_of id_of ws'.
Proof.
  intros P. apply present_permutation in P. unfold merge_types.
  pose proof (Permutation_length P) as L. pose proof (merge_all_permutation _ _ P) as M.
  destruct (present ws) as [|t [|u [|v l]]], (present ws') as [|t' [|u' [|v' l']]]; try discriminate.
  - reflexivity.
  - now apply Permutation_length_1 in P as ->.
  - apply Permutation_length_2 in P as [[-> ->]|[-> ->]]; [reflexivity|]. rewrite M.
    assert (typ_eqb u' t' = typ_eqb t' u') as ->.
    { destruct (typ_eqb t' u') eqn:E; [apply typ_eqb_spec in E as ->; now apply typ_eqb_spec|].
      destruct (typ_eqb u' t') eqn:E'; [|reflexivity]. apply typ_eqb_spec in E' as ->. rewrite (proj2 (typ_eqb_spec t' t')) in E; congruence. }
    destruct (typ_eqb t' u') eqn:E; [apply typ_eqb_spec in E as ->|]; reflexivity.
  - now rewrite M.
Qed.
Lemma merge_types_ok ws m : nonempty ws -> merge_types mro name_of id_of ws = Ok m ->
  (m = None /\ present ws = []) \/
  exists t, m = Some t /\ (forall u, In u (options t) -> In u (all_options ws)) /\
            (forall u, In u (all_options ws) -> exists v, In v (options t) /\ subsumes v u = true).
Proof.
  intros NE E. destruct (merge_types_cases ws) as [[P H]|[[t [P H]]|[NS H]]]; rewrite H in E.
  - injection E as <-. auto.
  - injection E as <-. right. exists t. unfold all_options. split; [reflexivity|].
    destruct P as [-> | ->]; cbn [map concat]; rewrite ?app_nil_r; split; intros u I; try (exists u; split; [|apply subsumes_refl]);
      rewrite ?in_app_iff in *; tauto.
  - assert (concat (map options (present ws)) <> []) as NC.
    { destruct (present ws) as [|t l] eqn:Q; [exfalso; apply NS; unfold simple; now rewrite Q|].
      cbn [map concat]. assert (options t <> []) by (apply NE; apply present_in; rewrite Q; now left).
      destruct (options t); [congruence|discriminate]. }
    pose proof (merge_all_spec _ NC) as S. destruct (merge_all mro name_of id_of (present ws)) as [t|e]; [|discriminate].
    cbn [bind] in E. injection E as <-. right. exists t. split; [reflexivity|]. split.
    + intros u I. apply (g_in _ _ S) in I. apply I.
    + intros u I. eapply greatest_above; eauto.
Qed.
Lemma merge_types_error ws e : nonempty ws -> merge_types mro name_of id_of ws = Err e ->
  e = GenericError /\ exists ts, NoDup ts /\ (255 < length ts)%nat /\ incl ts (all_options ws) /\
    forall a b, In a ts -> In b ts -> subsumes a b = true -> a = b.
Proof.
  intros NE E. destruct (merge_types_cases ws) as [[P H]|[[t [P H]]|[NS H]]]; rewrite H in E; try discriminate.
  assert (concat (map options (present ws)) <> []) as NC.
  { destruct (present ws) as [|t l] eqn:Q; [exfalso; apply NS; unfold simple; now rewrite Q|].
    cbn [map concat]. assert (options t <> []) by (apply NE; apply present_in; rewrite Q; now left).
    destruct (options t); [congruence|discriminate]. }
  pose proof (merge_all_spec _ NC) as S. destruct (merge_all mro name_of id_of (present ws)) as [t|e']; [discriminate|].
  cbn [bind] in E. injection E as ->. destruct S as [-> [ts [G L]]]. split; [reflexivity|]. exists ts.
  split; [apply (g_nodup _ _ G)|]. split; [assumption|]. split; [intros t I; apply (g_in _ _ G) in I; apply I|].
  intros a b Ia Ib S. apply (g_in _ _ G) in Ib as [_ M]. apply M; [|assumption]. now apply (g_in _ _ G) in Ia.
Qed.
Lemma merge_types_greatest ws t : ~ simple ws -> nonempty ws -> merge_types mro name_of id_of ws = Ok (Some t) ->
  NoDup (options t) /\ forall a b, In a (options t) -> In b (options t) -> subsumes a b = true -> a = b.
Proof.
  intros NS NE E. destruct (merge_types_cases ws) as [[P H]|[[u [P H]]|[_ H]]].
  - exfalso. apply NS. unfold simple. now rewrite P.
  - exfalso. apply NS. unfold simple. destruct P as [-> | ->]; reflexivity.
  - rewrite H in E.
    assert (concat (map options (present ws)) <> []) as NC.
    { destruct (present ws) as [|u l] eqn:Q; [exfalso; apply NS; unfold simple; now rewrite Q|].
      cbn [map concat]. assert (options u <> []) by (apply NE; apply present_in; rewrite Q; now left).
      destruct (options u); [congruence|discriminate]. }
    pose proof (merge_all_spec _ NC) as S. destruct (merge_all mro name_of id_of (present ws)) as [u|e]; [|discriminate].
    cbn [bind] in E. injection E as <-. split; [apply (g_nodup _ _ S)|].
    intros a b Ia Ib Sb. apply (g_in _ _ S) in Ib as [_ M]. apply M; [|assumption]. now apply (g_in _ _ S) in Ia.
Qed.

(** ** Meaning *)
Lemma subsumes_member o big small : subsumes big small = true -> member mro o small ->
  member mro o big \/ exists b, o = OBool b /\ small = ValueT (CBool b) /\ big = IntT.
Proof.
  intros S M. apply subsumes_spec in S as [->|[->|[[x [y [-> [-> I]]]]|[c [-> I]]]]]; [now left|now left| |].
  - left. destruct o; cbn [member] in *; try contradiction. eapply mro_trans; eauto.
  - destruct c, o; cbn [member] in M; try contradiction; destruct big; try discriminate; cbn [member]; auto.
    right. exists b0. subst. auto.
Qed.
Lemma all_options_admits ws o : some_admits mro ws o <-> exists u, In u (all_options ws) /\ member mro o u.
Proof.
  unfold some_admits, admits, all_options. split.
  - intros [t [I [u [J M]]]]. exists u. split; [|assumption]. apply in_concat. exists (options t). split; [|assumption].
    apply in_map. now apply present_in.
  - intros [u [I M]]. apply in_concat in I as [l [I J]]. apply in_map_iff in I as [t [<- I]]. exists t. split; [now apply present_in|eauto].
Qed.
Lemma within_subsumes a b : within mro a b -> subsumes b a = true \/ exists x i, a = ConcreteT x i /\ b = AlternativeT x.
Proof.
  intros W. 
  destruct a.
  - specialize (W (OOther 0 0) I) as W1. destruct b; cbn in W1; try contradiction; [left; apply subsumes_spec; auto|destruct c; contradiction|].
    exfalso. exact (W ONone I).
  - specialize (W ONone I). destruct b; cbn in W; try contradiction; left; apply subsumes_spec; auto. destruct c; contradiction.
  - pose proof (W (OBool true) I) as W1. pose proof (W (OBool false) I) as W2.
    destruct b; cbn in W1, W2; try contradiction; try (left; apply subsumes_spec; now auto). destruct c; try contradiction. congruence.
  - pose proof (W (OInt 0) I) as W1. pose proof (W (OInt 1) I) as W2.
    destruct b; cbn in W1, W2; try contradiction; try (left; apply subsumes_spec; now auto). destruct c; try contradiction. congruence.
  - pose proof (W (OFloat 0) I) as W1. pose proof (W (OFloat 1) I) as W2.
    destruct b; cbn in W1, W2; try contradiction; try (left; apply subsumes_spec; now auto). destruct c; try contradiction. congruence.
  - pose proof (W (OStr []) I) as W1. pose proof (W (OStr [0]) I) as W2.
    destruct b; cbn in W1, W2; try contradiction; try (left; apply subsumes_spec; now auto). destruct c; try contradiction. congruence.
  - pose proof (W (OBytes []) I) as W1. pose proof (W (OBytes [0]) I) as W2.
    destruct b; cbn in W1, W2; try contradiction; try (left; apply subsumes_spec; now auto). destruct c; try contradiction. congruence.
  - specialize (W (OInstance c 0)). cbn in W. specialize (W (mro_self _ GM c)).
    destruct b; cbn in W; try contradiction; left; apply subsumes_spec; auto.
    + right. right. left. eauto.
    + destruct c0; contradiction.
  - pose proof (W (OAlternative a 0 0) eq_refl) as W1. pose proof (W (OAlternative a 1 0) eq_refl) as W2.
    destruct b; cbn in W1, W2; try contradiction; try (left; apply subsumes_spec; now auto).
    + subst. left. apply subsumes_refl.
    + lia.
    + destruct c; contradiction.
  - pose proof (W (OAlternative a i 0) (conj eq_refl eq_refl)) as W1.
    destruct b; cbn in W1; try contradiction; try (left; apply subsumes_spec; now auto).
    + subst. right. eauto.
    + destruct W1 as [-> ->]. left. apply subsumes_refl.
    + destruct c; contradiction.
  - destruct c; [specialize (W (OBool b0) eq_refl)|specialize (W (OInt z) eq_refl)|specialize (W (OFloat bits) eq_refl)|
      specialize (W (OStr s) eq_refl)|specialize (W (OBytes s) eq_refl)|specialize (W (OType n) eq_refl)];
      destruct b; cbn in W; try contradiction; left; apply subsumes_spec;
      first [now (right; right; right; eexists; split; [reflexivity|reflexivity])
            | destruct c; try contradiction; subst; now left].
  - pose proof (W (OOther n 0) eq_refl) as W1.
    destruct b; cbn in W1; try contradiction; try (left; apply subsumes_spec; now auto).
    + destruct c; contradiction.
    + subst. left. apply subsumes_refl.
Qed.
End Merge.
