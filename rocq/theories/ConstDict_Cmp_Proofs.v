(** Proofs about the comparisons and the hash of ConstDicts. *)
From Verif Require Import Base Sort_Spec Hash_Spec HashAcc_Model ConstDict_Model ConstDict_Spec ConstDict_Proofs.
Require Import ZifyBool ZifyNat.
Open Scope Z_scope.

(** ** Three-way comparisons *)

(** The laws of a three-way comparison on the elements related by [R]. *)
Record good3 {A} (R : A -> A -> Prop) (c : A -> A -> Z) : Prop := {
  g_anti : forall x y, R x y -> c y x = - c x y;
  g_eq : forall x y z, R x y -> R y z -> c x y = 0 -> c x z = c y z;
  g_trans : forall x y z, R x y -> R y z -> c x y < 0 -> c y z < 0 -> c x z < 0
}.

Definition lexc {A} (c1 c2 : A -> A -> Z) (x y : A) : Z := if c1 x y =? 0 then c2 x y else c1 x y.

Lemma lex_good {A} (R : A -> A -> Prop) (c1 c2 : A -> A -> Z) :
  (forall x y, R x y -> R y x) -> (forall x y z, R x y -> R y z -> R x z) ->
  good3 R c1 -> good3 (fun x y => R x y /\ c1 x y = 0) c2 -> good3 R (lexc c1 c2).
Proof.
  intros RS RT [A1 E1 T1] [A2 E2 T2]. unfold lexc. constructor.
  - intros x y H. pose proof (A1 x y H) as E. rewrite E. destruct (Z.eqb_spec (c1 x y) 0) as [Z0|Z0].
    + rewrite Z0. cbn. now apply A2.
    + now replace (- c1 x y =? 0) with false by lia.
  - intros x y z H1 H2. destruct (Z.eqb_spec (c1 x y) 0) as [Z0|Z0]; [|lia]. intros C.
    rewrite (E1 x y z H1 H2 Z0). destruct (Z.eqb_spec (c1 y z) 0) as [Z1|Z1]; auto.
  - intros x y z H1 H2. destruct (Z.eqb_spec (c1 x y) 0) as [Z0|Z0].
    + rewrite (E1 x y z H1 H2 Z0). destruct (Z.eqb_spec (c1 y z) 0) as [Z1|Z1]; [|auto]. now apply T2.
    + destruct (Z.eqb_spec (c1 y z) 0) as [Z1|Z1].
      * pose proof (E1 y z x H2 (RS _ _ (RT _ _ _ H1 H2)) Z1) as E. rewrite (A1 x y H1), (A1 x z (RT _ _ _ H1 H2)) in E.
        intros. replace (c1 x z) with (c1 x y) by lia. now replace (c1 x y =? 0) with false by lia.
      * intros C1 C2. pose proof (T1 x y z H1 H2 C1 C2). now replace (c1 x z =? 0) with false by lia.
Qed.

(** The answers of a good three-way comparison are a good comparison. *)
Lemma good3_comparison {A} (c : A -> A -> Z) (test : cmpop -> A -> A -> bool) :
  good3 (fun _ _ => True) c -> (forall op x y, test op x y = cmp_result op (c x y)) -> good_comparison test.
Proof.
  intros [An E T] H. constructor; intros; rewrite ?H in *; cbn [cmp_result] in *; rewrite ?H; cbn [cmp_result].
  - pose proof (An x x I). lia.
  - pose proof (An x y I). lia.
  - pose proof (E x y z I I). lia.
  - reflexivity.
  - pose proof (T x y z I I). lia.
  - assert (c x y = 0) as Z0 by lia. pose proof (E x y z I I Z0) as E1. rewrite (An x z I), (An y z I). rewrite E1. auto.
  - pose proof (An x y I). lia.
  - lia.
  - pose proof (An x y I). lia.
  - pose proof (An x y I). lia.
Qed.

Definition clen {A} (l r : list A) : Z :=
  if (length l <? length r)%nat then -1 else if (length r <? length l)%nat then 1 else 0.

Lemma clen_good {A} : good3 (fun _ _ => True) (@clen A).
Proof.
  unfold clen. constructor; intros *;
    repeat match goal with |- context [(?a <? ?b)%nat] => destruct (Nat.ltb_spec a b) end; lia.
Qed.

Lemma clen_zero {A} (l r : list A) : clen l r = 0 <-> length l = length r.
Proof. unfold clen. destruct (Nat.ltb_spec (length l) (length r)), (Nat.ltb_spec (length r) (length l)); lia. Qed.

Lemma first_difference_range {A} (lt eqb : A -> A -> bool) : forall l r, -1 <= first_difference lt eqb l r <= 1.
Proof.
  induction l as [|x l IH]; intros [|y r]; cbn [first_difference]; try lia.
  destruct (negb (eqb x y)); [destruct (lt x y); lia|apply IH].
Qed.

Lemma first_difference_good {A} (lt eqb : A -> A -> bool) : total_order lt eqb ->
  good3 (fun l r => length l = length r) (first_difference lt eqb).
Proof.
  intros TO. constructor.
  - induction x as [|x l IH]; intros [|y r]; cbn [first_difference length]; try lia. intros H.
    rewrite (eqb_sym lt eqb TO y x). destruct (compare_cases lt eqb TO x y) as [[X [Y Z]]|[[X [Y Z]]|[X [Y Z]]]]; rewrite ?X, ?Y, ?Z; cbn [negb]; try lia.
    apply IH. lia.
  - induction x as [|x l IH]; intros [|y r] [|z s]; cbn [first_difference length]; try lia. intros H1 H2.
    destruct (eqb x y) eqn:E; cbn [negb]; [|destruct (lt x y); lia]. intros H.
    rewrite (eqb_eqb_l lt eqb TO _ _ z E), (eqb_lt_l lt eqb TO _ _ z E). rewrite (IH r s); auto; lia.
  - induction x as [|x l IH]; intros [|y r] [|z s]; cbn [first_difference length]; try lia. intros H1 H2.
    destruct (compare_cases lt eqb TO x y) as [[X [Y Z]]|[[X [Y Z]]|[X [Y Z]]]]; rewrite X, Y; cbn [negb]; [| |lia].
    + destruct (compare_cases lt eqb TO y z) as [[X' [Y' Z']]|[[X' [Y' Z']]|[X' [Y' Z']]]]; rewrite X', Y'; cbn [negb]; [| |lia].
      * pose proof (lt_trans lt eqb TO _ _ _ X X') as L. rewrite L, (lt_not_eqb lt eqb TO _ _ L). cbn [negb]. lia.
      * rewrite <- (eqb_lt_r lt eqb TO _ _ x Y'), X. rewrite (eqb_sym lt eqb TO x z).
        rewrite (eqb_sym lt eqb TO) in Y'. rewrite (eqb_eqb_l lt eqb TO _ _ x Y'), (eqb_sym lt eqb TO y x), Y. cbn [negb]. lia.
    + rewrite (eqb_eqb_l lt eqb TO _ _ z Y), (eqb_lt_l lt eqb TO _ _ z Y).
      destruct (negb (eqb y z)); [destruct (lt y z); lia|]. apply IH; lia.
Qed.

Section Compare.
  Context {K V : Type}.
  Variable lt eqb : K -> K -> bool.
  Variable vlt veqb : V -> V -> bool.
  Hypothesis TO : total_order lt eqb.
  Hypothesis VTO : total_order vlt veqb.
  Notation dict := (list (K * V)).

  Definition ckeys (l r : dict) : Z := first_difference lt eqb (map fst l) (map fst r).
  Definition cvalues (l r : dict) : Z := first_difference vlt veqb (map snd l) (map snd r).
  Definition cboth (l r : dict) : Z := lexc clen (lexc ckeys cvalues) l r.
  Definition conly (l r : dict) : Z := lexc clen ckeys l r.

  Lemma ckeys_good : good3 (fun l r : dict => length l = length r) ckeys.
  Proof.
    destruct (first_difference_good lt eqb TO) as [A E T]. unfold ckeys. constructor; intros.
    - apply A. now rewrite !map_length.
    - apply E; rewrite ?map_length; auto.
    - apply T with (map fst y); rewrite ?map_length; auto.
  Qed.
  Lemma cvalues_good : good3 (fun l r : dict => length l = length r) cvalues.
  Proof.
    destruct (first_difference_good vlt veqb VTO) as [A E T]. unfold cvalues. constructor; intros.
    - apply A. now rewrite !map_length.
    - apply E; rewrite ?map_length; auto.
    - apply T with (map snd y); rewrite ?map_length; auto.
  Qed.

  Lemma weaken {A} (R S : A -> A -> Prop) c : (forall x y, S x y -> R x y) -> good3 R c -> good3 S c.
  Proof. intros I [A1 E1 T1]. constructor; eauto. Qed.

  Lemma conly_good : good3 (fun _ _ => True) conly.
  Proof.
    apply lex_good; auto; [apply clen_good|]. eapply weaken; [|apply ckeys_good].
    cbn beta. intros x y [_ H]. now apply clen_zero.
  Qed.
  Lemma cboth_good : good3 (fun _ _ => True) cboth.
  Proof.
    apply lex_good; auto; [apply clen_good|].
    apply weaken with (R := fun l r => length l = length r); [cbn beta; intros x y [_ H]; now apply clen_zero|].
    apply lex_good; [congruence|congruence|apply ckeys_good|]. eapply weaken; [|apply cvalues_good]. cbn beta. tauto.
  Qed.

  Lemma all_equal_keys : forall l r : dict, length l = length r ->
    all_equal eqb veqb false l r = (ckeys l r =? 0).
  Proof.
    unfold ckeys. induction l as [|[k1 v1] l IH]; intros [|[k2 v2] r]; cbn [all_equal length map fst first_difference]; try lia; auto.
    intros H. cbn [andb]. rewrite orb_false_r. destruct (negb (eqb k1 k2)); [destruct (lt k1 k2); lia|]. apply IH. lia.
  Qed.
  Lemma all_equal_both : forall l r : dict, length l = length r ->
    all_equal eqb veqb true l r = (lexc ckeys cvalues l r =? 0).
  Proof.
    unfold lexc, ckeys, cvalues. induction l as [|[k1 v1] l IH]; intros [|[k2 v2] r]; cbn [all_equal length map fst snd first_difference]; try lia; auto.
    intros H. cbn [andb]. destruct (negb (eqb k1 k2)); cbn [orb]; [destruct (lt k1 k2); reflexivity|].
    rewrite IH by lia. clear IH. destruct (negb (veqb v1 v2)).
    - destruct (first_difference lt eqb (map fst l) (map fst r) =? 0) eqn:E; [destruct (vlt v1 v2); reflexivity|now rewrite E].
    - destruct (first_difference lt eqb (map fst l) (map fst r) =? 0) eqn:E; auto.
  Qed.

  Lemma cmp_result_zero op c : c = 0 -> cmp_result op c = cmp_result op 0.
  Proof. now intros ->. Qed.

  Lemma cmp_not_ne_ok values op same l r : op <> NE -> (same = true -> l = r) ->
    cmp_not_ne lt eqb vlt veqb values op same l r = cmp_result op (if values then cboth l r else conly l r).
  Proof.
    intros Hop Hs. unfold cmp_not_ne, cboth, conly. unfold lexc at 1 3. unfold clen at 1 2 3 4.
    destruct (Nat.ltb_spec (length l) (length r)) as [C|C]; [now destruct values|].
    destruct (Nat.ltb_spec (length r) (length l)) as [C'|C']; [now destruct values|].
    assert (length l = length r) as Len by lia. cbn [Z.eqb].
    destruct same.
    - rewrite (Hs eq_refl). assert (lexc ckeys cvalues r r = 0) as E.
      { pose proof (g_anti _ _ cboth_good r r I) as An. unfold cboth, lexc at 1 3 in An. unfold clen in An. rewrite Nat.ltb_irrefl in An. cbn [Z.eqb] in An. lia. }
      assert (ckeys r r = 0) as E' by (pose proof (g_anti _ _ ckeys_good r r eq_refl); lia).
      rewrite E, E'. now destruct values.
    - destruct op; try congruence; try (unfold lexc; fold (ckeys l r); fold (cvalues l r);
        destruct (Z.eqb_spec (ckeys l r) 0) as [E|E]; rewrite ?E; cbn [negb]; destruct values; reflexivity).
      destruct values; [now apply all_equal_both|now apply all_equal_keys].
  Qed.

  Lemma cmp_values_ok op same l r : (same = true -> l = r) ->
    cmp lt eqb vlt veqb true op same l r = cmp_result op (cboth l r).
  Proof.
    intros Hs. unfold cmp. destruct op; rewrite cmp_not_ne_ok; auto; discriminate.
  Qed.

  Lemma cmp_good (heap : nat -> dict) :
    good_comparison (fun op a b => cmp lt eqb vlt veqb true op (Nat.eqb a b) (heap a) (heap b)).
  Proof.
    apply good3_comparison with (c := fun a b => cboth (heap a) (heap b)).
    - destruct cboth_good as [A E T]. constructor; intros; eauto.
    - intros op x y. apply cmp_values_ok. intros H. apply Nat.eqb_eq in H. now rewrite H.
  Qed.

  (** ** Compiled comparisons *)
  Fixpoint cc (l r : dict) : Z :=
    match l, r with
    | (k1, v1) :: l, (k2, v2) :: r =>
        if lt k2 k1 then 1
        else if lt k1 k2 then -1
        else if vlt v2 v1 then 1
        else if vlt v1 v2 then -1
        else cc l r
    | [], [] => 0
    | [], _ :: _ => -1
    | _ :: _, [] => 1
    end.

  Ltac cases k1 k2 lt eqb TO :=
    destruct (compare_cases lt eqb TO k1 k2) as [[? [? ?]]|[[? [? ?]]|[? [? ?]]]].

  Lemma cc_good : good3 (fun _ _ => True) cc.
  Proof.
    constructor.
    - induction x as [|[k1 v1] l IH]; intros [|[k2 v2] r] _; cbn [cc]; try lia.
      destruct (compare_cases lt eqb TO k1 k2) as [[X [Y Z]]|[[X [Y Z]]|[X [Y Z]]]]; rewrite ?X, ?Z; try lia.
      destruct (compare_cases vlt veqb VTO v1 v2) as [[X' [Y' Z']]|[[X' [Y' Z']]|[X' [Y' Z']]]]; rewrite ?X', ?Z'; (lia || now apply IH).
    - induction x as [|[k1 v1] l IH]; intros [|[k2 v2] r] [|[k3 v3] s] _ _; cbn [cc]; try lia;
      destruct (compare_cases lt eqb TO k1 k2) as [[X [Y Z]]|[[X [Y Z]]|[X [Y Z]]]]; rewrite ?X, ?Z; try lia;
      destruct (compare_cases vlt veqb VTO v1 v2) as [[X' [Y' Z']]|[[X' [Y' Z']]|[X' [Y' Z']]]]; rewrite ?X', ?Z'; try lia.
      rewrite (eqb_lt_l lt eqb TO _ _ k3 Y), (eqb_lt_r lt eqb TO _ _ k3 Y), (eqb_lt_l vlt veqb VTO _ _ v3 Y'), (eqb_lt_r vlt veqb VTO _ _ v3 Y').
      intros H. now rewrite (IH r s I I H).
    - induction x as [|[k1 v1] l IH]; intros [|[k2 v2] r] [|[k3 v3] s] _ _; cbn [cc]; try lia.
      destruct (compare_cases lt eqb TO k1 k2) as [[X [Y Z]]|[[X [Y Z]]|[X [Y Z]]]]; rewrite ?X, ?Z; try lia.
      + intros _. destruct (compare_cases lt eqb TO k2 k3) as [[X2 [Y2 Z2]]|[[X2 [Y2 Z2]]|[X2 [Y2 Z2]]]]; rewrite ?X2, ?Z2; try lia; intros _.
        * pose proof (lt_trans lt eqb TO _ _ _ X X2) as L. now rewrite L, (lt_asym lt eqb TO _ _ L).
        * now rewrite <- (eqb_lt_r lt eqb TO _ _ k1 Y2), <- (eqb_lt_l lt eqb TO _ _ k1 Y2), X, Z.
      + rewrite (eqb_lt_l lt eqb TO _ _ k3 Y), (eqb_lt_r lt eqb TO _ _ k3 Y).
        destruct (lt k3 k2); [lia|]. destruct (lt k2 k3); [lia|].
        destruct (compare_cases vlt veqb VTO v1 v2) as [[X' [Y' Z']]|[[X' [Y' Z']]|[X' [Y' Z']]]]; rewrite ?X', ?Z'; try lia.
        * intros _. destruct (compare_cases vlt veqb VTO v2 v3) as [[X2 [Y2 Z2]]|[[X2 [Y2 Z2]]|[X2 [Y2 Z2]]]]; rewrite ?X2, ?Z2; try lia; intros _.
          -- pose proof (lt_trans vlt veqb VTO _ _ _ X' X2) as L. now rewrite L, (lt_asym vlt veqb VTO _ _ L).
          -- now rewrite <- (eqb_lt_r vlt veqb VTO _ _ v1 Y2), <- (eqb_lt_l vlt veqb VTO _ _ v1 Y2), X', Z'.
        * rewrite (eqb_lt_l vlt veqb VTO _ _ v3 Y'), (eqb_lt_r vlt veqb VTO _ _ v3 Y').
          destruct (vlt v3 v2); [lia|]. destruct (vlt v2 v3); [lia|]. apply IH; exact I.
  Qed.

  Lemma lt_loop_lt : forall l r : dict, lt_loop lt vlt l r (length l <? length r)%nat = (cc l r <? 0).
  Proof.
    induction l as [|[k1 v1] l IH]; intros [|[k2 v2] r]; cbn [lt_loop cc length]; auto.
    change (S (length l) <? S (length r))%nat with (length l <? length r)%nat. rewrite IH.
    repeat match goal with |- context [if ?b then _ else _] => destruct b; auto end.
  Qed.
  Lemma lt_loop_le : forall l r : dict, lt_loop lt vlt l r (length l <=? length r)%nat = (cc l r <=? 0).
  Proof.
    induction l as [|[k1 v1] l IH]; intros [|[k2 v2] r]; cbn [lt_loop cc length]; auto.
    change (S (length l) <=? S (length r))%nat with (length l <=? length r)%nat. rewrite IH.
    repeat match goal with |- context [if ?b then _ else _] => destruct b; auto end.
  Qed.
  Lemma const_dict_eq_ok : forall l r : dict, const_dict_eq eqb veqb l r = (cc l r =? 0).
  Proof.
    unfold const_dict_eq. induction l as [|[k1 v1] l IH]; intros [|[k2 v2] r]; cbn [eq_loop cc length]; auto.
    change (S (length l) =? S (length r))%nat with (length l =? length r)%nat. specialize (IH r).
    destruct (compare_cases lt eqb TO k1 k2) as [[X [Y Z]]|[[X [Y Z]]|[X [Y Z]]]]; rewrite ?X, ?Y, ?Z; cbn [negb]; try (now destruct (_ =? _)%nat).
    destruct (compare_cases vlt veqb VTO v1 v2) as [[X' [Y' Z']]|[[X' [Y' Z']]|[X' [Y' Z']]]]; rewrite ?X', ?Y', ?Z'; cbn [negb]; try (now destruct (_ =? _)%nat).
  Qed.

  Lemma compiled_good : good_comparison (compiled_cmp lt eqb vlt veqb).
  Proof.
    apply good3_comparison with (c := cc); [apply cc_good|]. intros op x y.
    destruct op; cbn [compiled_cmp cmp_result]; unfold const_dict_lt, const_dict_lte; rewrite ?const_dict_eq_ok, ?lt_loop_lt, ?lt_loop_le; lia.
  Qed.

  (** ** Equality *)
  Definition pairwise (l r : dict) : Prop :=
    Forall2 (fun a b => eqb (fst a) (fst b) = true /\ veqb (snd a) (snd b) = true) l r.

  Lemma eq_loop_pairwise l : forall r, (length l = length r /\ eq_loop eqb veqb l r = true) <-> pairwise l r.
  Proof.
    induction l as [|[k1 v1] l IH]; intros [|[k2 v2] r]; cbn [eq_loop length]; split; intros H; try (destruct H; discriminate); try (inversion H; fail).
    - constructor.
    - split; reflexivity.
    - destruct H as [L H]. destruct (eqb k1 k2) eqn:E1; cbn [negb] in H; [|discriminate]. destruct (veqb v1 v2) eqn:E2; cbn [negb] in H; [|discriminate].
      constructor; [now split|]. apply IH. split; [lia|auto].
    - inversion H as [|? ? ? ? [E1 E2] H']; subst. cbn [fst snd] in E1, E2. apply IH in H'. destruct H' as [L H'].
      rewrite E1, E2. cbn [negb]. split; [lia|auto].
  Qed.

  Lemma all_equal_eq_loop : forall l r : dict, all_equal eqb veqb true l r = eq_loop eqb veqb l r.
  Proof.
    induction l as [|[k1 v1] l IH]; intros [|[k2 v2] r]; cbn [all_equal eq_loop andb]; auto.
    destruct (eqb k1 k2), (veqb v1 v2); cbn [negb orb]; auto.
  Qed.

  Lemma cmp_eq_compiled same l r : (same = true -> l = r) ->
    cmp lt eqb vlt veqb true EQ same l r = const_dict_eq eqb veqb l r.
  Proof.
    intros Hs. unfold cmp, cmp_not_ne, const_dict_eq.
    destruct (Nat.ltb_spec (length l) (length r)); [now replace (length l =? length r)%nat with false by lia|].
    destruct (Nat.ltb_spec (length r) (length l)); [now replace (length l =? length r)%nat with false by lia|].
    replace (length l =? length r)%nat with true by lia. cbn [negb]. destruct same.
    - rewrite (Hs eq_refl). cbn [cmp_result]. pose proof (const_dict_eq_ok r r) as E. unfold const_dict_eq in E. rewrite Nat.eqb_refl in E. cbn [negb] in E.
      rewrite E. pose proof (g_anti _ _ cc_good r r I). lia.
    - apply all_equal_eq_loop.
  Qed.

  Lemma const_dict_eq_pairwise l r : const_dict_eq eqb veqb l r = true <-> pairwise l r.
  Proof.
    rewrite <- eq_loop_pairwise. unfold const_dict_eq. destruct (Nat.eqb_spec (length l) (length r)); cbn [negb]; intuition congruence.
  Qed.

  Definition same_items (l r : dict) : Prop := forall k,
    match m_lookup eqb l k, m_lookup eqb r k with
    | Some v, Some w => veqb v w = true
    | None, None => True
    | _, _ => False
    end.

  Lemma pairwise_same l : forall r, pairwise l r -> same_items l r.
  Proof.
    intros r H k. induction H as [|[k1 v1] [k2 v2] l r [E1 E2] H IH]; cbn [m_lookup]; auto. cbn [fst snd] in *.
    rewrite (eqb_sym lt eqb TO k k1), (eqb_sym lt eqb TO k k2), (eqb_eqb_l lt eqb TO _ _ k E1). now destruct (eqb k2 k).
  Qed.

  Lemma above_lookup k (d : dict) k' v : Forall (fun kv => lt k (fst kv) = true) d -> m_lookup eqb d k' = Some v -> lt k k' = true.
  Proof.
    intros F H. apply (lookup_some eqb) in H. destruct H as [k2 [I E]]. rewrite Forall_forall in F. specialize (F _ I). cbn [fst] in F.
    now rewrite (eqb_lt_r lt eqb TO _ _ k E).
  Qed.

  Lemma same_pairwise l : forall r, asc lt l -> asc lt r -> same_items l r -> pairwise l r.
  Proof.
    induction l as [|[k1 v1] l IH]; intros [|[k2 v2] r] A B S.
    - constructor.
    - specialize (S k2). cbn [m_lookup] in S. now rewrite (eqb_refl lt eqb TO) in S.
    - specialize (S k1). cbn [m_lookup] in S. now rewrite (eqb_refl lt eqb TO) in S.
    - cbn [asc] in A, B. destruct A as [A1 A2], B as [B1 B2].
      assert (eqb k1 k2 = true) as E.
      { pose proof (S k1) as S1. pose proof (S k2) as S2. cbn [m_lookup] in S1, S2.
        rewrite (eqb_refl lt eqb TO) in S1, S2. rewrite (eqb_sym lt eqb TO k2 k1) in S2.
        destruct (eqb k1 k2) eqn:E; auto.
        destruct (m_lookup eqb r k1) as [w|] eqn:L1; [|contradiction]. destruct (m_lookup eqb l k2) as [w'|] eqn:L2; [|contradiction].
        pose proof (above_lookup k2 r k1 w B1 L1) as X1. pose proof (above_lookup k1 l k2 w' A1 L2) as X2.
        apply (lt_asym lt eqb TO) in X1. congruence. }
      assert (forall k, eqb k k1 = eqb k k2) as Ek.
      { intros k. rewrite (eqb_sym lt eqb TO k k1), (eqb_sym lt eqb TO k k2). now apply (eqb_eqb_l lt eqb TO). }
      constructor.
      + cbn [fst snd]. split; auto. specialize (S k1). cbn [m_lookup] in S. now rewrite E, (eqb_refl lt eqb TO) in S.
      + apply IH; auto. intros k. specialize (S k). cbn [m_lookup] in S. rewrite <- Ek in S.
        destruct (eqb k k1) eqn:X; [|exact S].
        assert (m_lookup eqb l k = None) as ->; [|assert (m_lookup eqb r k = None) as ->; [|auto]].
        * destruct (m_lookup eqb l k) eqn:L; auto. apply (above_lookup k1 l k v A1) in L. apply (lt_not_eqb lt eqb TO) in L.
          rewrite (eqb_sym lt eqb TO) in X. congruence.
        * destruct (m_lookup eqb r k) eqn:L; auto. apply (above_lookup k2 r k v B1) in L. apply (lt_not_eqb lt eqb TO) in L.
          rewrite Ek, (eqb_sym lt eqb TO) in X. congruence.
  Qed.

  Lemma trivial_order : total_order (fun _ _ : V => false) (fun _ _ => true).
  Proof. split; [constructor; intros; congruence|reflexivity]. Qed.

  Lemma cmp_keys_eq same l r : (same = true -> l = r) ->
    cmp lt eqb vlt veqb false EQ same l r = const_dict_eq eqb (fun _ _ => true) l r.
  Proof.
    intros Hs. unfold cmp. rewrite cmp_not_ne_ok by (auto; discriminate). cbn [cmp_result]. unfold conly, lexc, const_dict_eq.
    pose proof (clen_zero l r) as C. destruct (Z.eqb_spec (clen l r) 0) as [E|E].
    - assert (length l = length r) as Len by tauto. replace (length l =? length r)%nat with true by lia. cbn [negb].
      rewrite <- all_equal_keys by exact Len. clear. revert r. induction l as [|[k1 v1] l IH]; intros [|[k2 v2] r]; cbn [all_equal eq_loop]; auto.
      cbn [andb negb]. rewrite orb_false_r. destruct (eqb k1 k2); cbn [negb]; auto.
    - replace (length l =? length r)%nat with false by lia. cbn [negb]. lia.
  Qed.

  (** ** Hashes *)
  Variable khash : K -> Z.
  Variable vhash : V -> Z.
  Hypothesis KH : forall x y, eqb x y = true -> khash x = khash y.
  Hypothesis VH : forall x y, veqb x y = true -> vhash x = vhash y.

  Lemma pairwise_hash l r : pairwise l r -> computed_hash khash vhash l = computed_hash khash vhash r.
  Proof.
    intros H. unfold computed_hash. assert (length l = length r) as ->.
    { induction H; cbn [length]; congruence. }
    do 2 f_equal. induction H as [|a b l r [E1 E2] H IH]; cbn [flat_map]; auto. now rewrite (KH _ _ E1), (VH _ _ E2), IH.
  Qed.

  (** The cache is empty or right. *)
  Definition cache_ok (c : Z) (d : dict) : Prop := c = -1 \/ c = computed_hash khash vhash d.

  Lemma hash_ok c d : cache_ok c d ->
    fst (hash khash vhash c d) = match d with [] => 1193046 | _ => computed_hash khash vhash d end /\
    cache_ok (snd (hash khash vhash c d)) d.
  Proof.
    intros H. unfold hash. destruct d as [|x d]; [auto|].
    destruct (Z.eqb_spec c (-1)) as [E|E]; cbn [fst snd]; [split; [auto|now right]|]. destruct H as [H|H]; [congruence|].
    rewrite H. split; [auto|now right].
  Qed.

  Lemma equal_hash l r c1 c2 : pairwise l r -> cache_ok c1 l -> cache_ok c2 r ->
    fst (hash khash vhash c1 l) = fst (hash khash vhash c2 r).
  Proof.
    intros P C1 C2. rewrite (proj1 (hash_ok c1 l C1)), (proj1 (hash_ok c2 r C2)).
    pose proof (pairwise_hash l r P). destruct P; auto.
  Qed.
End Compare.
