(** Proofs about the order of base classes.  Property C66. *)
From Verif Require Import Base Class_Model Class_Spec.
From Coq Require Import Arith PeanoNat ZifyBool ZifyNat.
Open Scope list_scope.

(** ** Subsequences *)

Lemma sub_in : forall A (a l : list A) x, subsequence a l -> In x a -> In x l.
Proof. induction 1; intros I; [destruct I|right; auto|]. destruct I as [->|I]; [now left|right; auto]. Qed.

Lemma sub_refl : forall A (l : list A), subsequence l l.
Proof. induction l; [constructor|now apply sub_keep]. Qed.

Lemma sub_nodup : forall A (a l : list A), subsequence a l -> NoDup l -> NoDup a.
Proof.
  induction 1 as [|x a l H IH|x a l H IH]; intros N; [constructor|inversion N; auto|].
  inversion N as [|? ? N1 N2]; subst. constructor; [|auto]. intros I. apply N1. eapply sub_in; eauto.
Qed.

Lemma sub_tail : forall A x (a l : list A), subsequence (x :: a) l -> subsequence a l.
Proof.
  intros A x a l H. remember (x :: a) as xa eqn:E. revert x a E.
  induction H as [|y b l H IH|y b l H IH]; intros x a E; [discriminate|apply sub_skip; eauto|].
  injection E as -> ->. now apply sub_skip.
Qed.

(** The elements of a subsequence after one of the list's come after it. *)
Lemma sub_after : forall A x (a l : list A) y p q,
  subsequence (x :: a) l -> NoDup l -> l = p ++ y :: q -> In y a -> In x p.
Proof.
  intros A x a l y p q H. remember (x :: a) as xa eqn:E. revert x a E p q.
  induction H as [|z b l H IH|z b l H IH]; intros x a E p q N D I; [discriminate| |].
  - destruct p as [|z' p]; cbn in D.
    + injection D as -> ->. inversion N as [|? ? N1 N2]; subst. exfalso. apply N1.
      eapply sub_in; [exact H|now right].
    + injection D as -> D'. right. inversion N; subst. eapply IH; eauto.
  - injection E as -> ->. destruct p as [|z' p]; cbn in D.
    + injection D as -> ->. exfalso. inversion N as [|? ? N1 N2]; subst. apply N1. eapply sub_in; eauto.
    + injection D as -> D'. now left.
Qed.

(** ** The merge of C3 *)

Lemma without_head_in : forall c l x, In x (without_head c l) -> In x l.
Proof. intros c [|y l] x; [auto|]. cbn [without_head]. destruct (Nat.eqb y c); cbn; auto. Qed.

Lemma without_head_other : forall c l x, x <> c -> In x l -> In x (without_head c l).
Proof.
  intros c [|y l] x D I; [destruct I|]. cbn [without_head]. destruct (Nat.eqb_spec y c) as [->|]; [|exact I].
  destruct I as [->|I]; [congruence|exact I].
Qed.

Lemma without_head_self : forall lists c l, good_head lists c -> In l lists -> ~ In c (without_head c l).
Proof.
  intros lists c [|y l] G I; [auto|]. cbn [without_head]. destruct (Nat.eqb_spec y c) as [->|D].
  - exact (G _ I).
  - intros [E|J]; [congruence|]. exact (G _ I J).
Qed.

Lemma c3_sound : forall lists out, c3_merge lists out -> linearizes lists out.
Proof.
  induction 1 as [lists E|lists earlier c r later out DL G F M (N & I & S)].
  - split; [constructor|]. split.
    + intros x. split; [intros []|]. intros (l & L & J). rewrite (E _ L) in J. exact J.
    + intros l L. rewrite (E _ L). constructor.
  - assert (NC : ~ In c out).
    { intros J. apply I in J. destruct J as (l & L & J). apply in_map_iff in L. destruct L as (l0 & <- & L).
      exact (without_head_self lists c l0 G L J). }
    split; [constructor; auto|]. split.
    + intros x. split.
      * intros [<-|J].
        -- exists (c :: r). split; [|now left]. rewrite DL. apply in_or_app. right. now left.
        -- apply I in J. destruct J as (l & L & J). apply in_map_iff in L. destruct L as (l0 & <- & L).
           exists l0. split; [exact L|]. eapply without_head_in; eauto.
      * intros (l & L & J). destruct (Nat.eq_dec x c) as [->|D]; [now left|]. right. apply I.
        exists (without_head c l). split; [now apply in_map|]. now apply without_head_other.
    + intros l L. assert (S' := S _ (in_map (without_head c) _ _ L)).
      destruct l as [|y l]; [constructor|]. cbn [without_head] in S'. destruct (Nat.eqb_spec y c) as [->|D].
      * now apply sub_keep.
      * now apply sub_skip.
Qed.

Lemma first_split_unique : forall (P : list nat -> Prop) a1 x1 b1 a2 x2 b2,
  a1 ++ x1 :: b1 = a2 ++ x2 :: b2 -> P x1 -> P x2 -> (forall y, In y a1 -> ~ P y) -> (forall y, In y a2 -> ~ P y) ->
  x1 = x2.
Proof.
  intros P a1. induction a1 as [|z a1 IH]; intros x1 b1 [|z2 a2] x2 b2 E P1 P2 N1 N2; cbn in E.
  - congruence.
  - injection E as <- _. exfalso. exact (N2 x1 (or_introl eq_refl) P1).
  - injection E as <- _. exfalso. exact (N1 z (or_introl eq_refl) P2).
  - injection E as <- E. eapply (IH x1 b1 a2 x2 b2 E P1 P2).
    + intros y I. apply N1. now right.
    + intros y I. apply N2. now right.
Qed.

Definition headed (lists : list (list nat)) (l : list nat) : Prop :=
  match l with nil => False | c :: _ => good_head lists c end.

Lemma c3_deterministic : forall lists out1, c3_merge lists out1 -> forall out2, c3_merge lists out2 -> out1 = out2.
Proof.
  induction 1 as [lists E|lists earlier c r later out DL G F M IH]; intros out2 H2.
  - inversion H2 as [|ls e c r la o D G F M]; [reflexivity|].
    assert (X : c :: r = nil) by (apply E; rewrite D; apply in_or_app; right; now left). discriminate.
  - inversion H2 as [ls E|ls e2 c2 r2 la2 o2 EL G2 F2 M2].
    + assert (X : c :: r = nil) by (apply E; rewrite DL; apply in_or_app; right; now left). discriminate.
    + assert (X : c2 :: r2 = c :: r).
      { apply (first_split_unique (headed lists) e2 (c2 :: r2) la2 earlier (c :: r) later).
        - congruence.
        - exact G2.
        - exact G.
        - intros [|x s] I; cbn; [auto|]. exact (F2 x s I).
        - intros [|x s] I; cbn; [auto|]. exact (F x s I). }
      injection X as -> ->. f_equal. now apply IH.
Qed.

Lemma good_head_dec : forall lists c, good_head lists c \/ ~ good_head lists c.
Proof.
  intros lists c.
  destruct (existsb (fun l => existsb (Nat.eqb c) (tl l)) lists) eqn:E.
  - right. intros G. apply existsb_exists in E. destruct E as (l & L & E). apply existsb_exists in E.
    destruct E as (x & X & E). apply Nat.eqb_eq in E. subst x. exact (G _ L X).
  - left. intros l L J. assert (K : existsb (fun l => existsb (Nat.eqb c) (tl l)) lists = true); [|congruence].
    apply existsb_exists. exists l. split; [exact L|]. apply existsb_exists. exists c. split; [exact J|].
    apply Nat.eqb_refl.
Qed.

(** The first list with a good head, if there is one. *)
Lemma first_good : forall lists rest, 
  (exists earlier c r later, rest = earlier ++ (c :: r) :: later /\ good_head lists c /\
     forall x s, In (x :: s) earlier -> ~ good_head lists x) \/
  (forall c r, In (c :: r) rest -> ~ good_head lists c).
Proof.
  intros lists rest. induction rest as [|[|c r] rest IH].
  - right. intros c r [].
  - destruct IH as [(e & c & r & la & -> & G & F)|N].
    + left. exists (nil :: e), c, r, la. split; [reflexivity|]. split; [exact G|]. intros x s [D|I]; [discriminate|eauto].
    + right. intros c r [D|I]; [discriminate|eauto].
  - destruct (good_head_dec lists c) as [G|B].
    + left. exists nil, c, r, rest. split; [reflexivity|]. split; [exact G|]. intros x s [].
    + destruct IH as [(e & c' & r' & la & -> & G & F)|N].
      * left. exists ((c :: r) :: e), c', r', la. split; [reflexivity|]. split; [exact G|].
        intros x s [D|I]; [injection D as -> ->; exact B|eauto].
      * right. intros x s [D|I]; [injection D as -> ->; exact B|eauto].
Qed.

(** The first element of an order that is still in a list is a good head. *)
Lemma first_in : forall (out : list nat) (P : nat -> bool), existsb P out = true ->
  exists p y q, out = p ++ y :: q /\ P y = true /\ forall x, In x p -> P x = false.
Proof.
  induction out as [|x out IH]; intros P E; [discriminate|]. cbn in E. destruct (P x) eqn:X.
  - exists nil, x, out. split; [reflexivity|]. split; [exact X|]. intros ? [].
  - destruct (IH P E) as (p & y & q & -> & Y & F). exists (x :: p), y, q. split; [reflexivity|]. split; [exact Y|].
    intros z [<-|I]; auto.
Qed.

Lemma order_gives_head : forall lists out, NoDup out -> (forall l, In l lists -> subsequence l out) ->
  (exists x s, In (x :: s) lists) -> exists c r, In (c :: r) lists /\ good_head lists c.
Proof.
  intros lists out N S (x & s & X).
  set (P := fun y => existsb (fun l => existsb (Nat.eqb y) l) lists).
  assert (PX : forall y, P y = true <-> exists l, In l lists /\ In y l).
  { intros y. unfold P. rewrite existsb_exists. split.
    - intros (l & L & E). apply existsb_exists in E. destruct E as (z & Z & E). apply Nat.eqb_eq in E. subst. eauto.
    - intros (l & L & I). exists l. split; [exact L|]. apply existsb_exists. exists y. split; [exact I|]. apply Nat.eqb_refl. }
  destruct (first_in out P) as (p & y & q & D & Y & F).
  { apply existsb_exists. exists x. split; [eapply sub_in; [exact (S _ X)|now left]|]. apply PX. eauto using in_eq. }
  assert (T : good_head lists y).
  { intros [|z l] L J; [destruct J|]. cbn in J.
    assert (Z : In z p) by (eapply sub_after; [exact (S _ L)|exact N|exact D|exact J]).
    specialize (F z Z). assert (P z = true) by (apply PX; eauto using in_eq). congruence. }
  apply PX in Y. destruct Y as ([|z l] & L & J); [destruct J|]. destruct J as [->|J].
  - eauto.
  - exfalso. exact (T _ L J).
Qed.

Lemma total_without : forall c lists r, In (c :: r) lists ->
  (List.length (List.concat (map (without_head c) lists)) < List.length (List.concat lists))%nat.
Proof.
  assert (LE : forall c l, (List.length (without_head c l) <= List.length l)%nat).
  { intros c [|y l]; [auto|]. cbn [without_head]. destruct (Nat.eqb y c); cbn [List.length]; lia. }
  assert (LL : forall c lists, (List.length (List.concat (map (without_head c) lists)) <= List.length (List.concat lists))%nat).
  { intros c lists. induction lists as [|l lists IH]; [auto|]. cbn [map List.concat]. rewrite !app_length.
    specialize (LE c l). lia. }
  intros c lists. induction lists as [|l lists IH]; intros r I; [destruct I|]. cbn [map List.concat]. rewrite !app_length.
  destruct I as [->|I].
  - specialize (LL c lists). cbn [without_head]. rewrite Nat.eqb_refl. cbn [List.length]. lia.
  - specialize (IH _ I). specialize (LE c l). lia.
Qed.

Lemma all_nil_dec : forall (lists : list (list nat)), (forall l, In l lists -> l = nil) \/ exists x s, In (x :: s) lists.
Proof.
  induction lists as [|[|x s] lists IH].
  - left. intros l [].
  - destruct IH as [N|(x & s & I)]; [left|right; exists x, s; now right]. intros l [<-|I]; auto.
  - right. exists x, s. now left.
Qed.

Lemma c3_complete : forall lists out, NoDup out -> (forall l, In l lists -> subsequence l out) ->
  exists out', c3_merge lists out'.
Proof.
  intros lists. remember (List.length (List.concat lists)) as n eqn:E. revert lists E.
  induction n as [n IH] using lt_wf_ind. intros lists -> out N S.
  destruct (all_nil_dec lists) as [A|P]; [exists nil; now constructor|].
  destruct (order_gives_head lists out N S P) as (c0 & r0 & I0 & G0).
  destruct (first_good lists lists) as [(e & c & r & la & D & G & F)|NG]; [|exfalso; exact (NG _ _ I0 G0)].
  assert (IC : In (c :: r) lists) by (rewrite D; apply in_or_app; right; now left).
  destruct (IH (List.length (List.concat (map (without_head c) lists)))) with (lists := map (without_head c) lists) (out := out)
    as (out' & M); [eapply total_without; exact IC|reflexivity|exact N| |].
  - intros l L. apply in_map_iff in L. destruct L as (l0 & <- & L). specialize (S _ L).
    destruct l0 as [|y l0]; [exact S|]. cbn [without_head]. destruct (Nat.eqb y c); [eapply sub_tail; exact S|exact S].
  - exists (c :: out'). eapply c3_take; eauto.
Qed.

(** ** The chains of the code *)

Definition stands_for (ch : chain) (l : list nat) : Prop :=
  fst ch = l /\ NoDup l /\ forall x, In x (snd ch) <-> In x (tl l).

Lemma mem_in : forall c s, mem c s = true <-> In c s.
Proof.
  intros c s. unfold mem. rewrite existsb_exists. split.
  - intros (x & X & E). apply Nat.eqb_eq in E. now subst.
  - intros I. exists c. split; [exact I|apply Nat.eqb_refl].
Qed.

Lemma insert_in : forall c s x, In x (insert c s) <-> x = c \/ In x s.
Proof.
  intros c s x. unfold insert. destruct (mem c s) eqn:M.
  - apply mem_in in M. split; [auto|]. intros [->|I]; auto.
  - cbn. intuition.
Qed.

Lemma erase_in : forall c s x, In x (erase c s) <-> x <> c /\ In x s.
Proof.
  intros c s x. unfold erase. rewrite filter_In. rewrite Bool.negb_true_iff, Nat.eqb_neq. intuition.
Qed.

Lemma to_chain_right : forall l, NoDup l -> stands_for (to_chain l) l.
Proof.
  intros l N. split; [reflexivity|]. split; [exact N|]. intros x. cbn.
  assert (H : forall t s, In x (fold_left (fun s c => insert c s) t s) <-> In x t \/ In x s).
  { clear. induction t as [|y t IH]; intros s; cbn [fold_left]; [cbn; intuition|]. rewrite IH, insert_in. cbn. intuition. }
  rewrite H. cbn. intuition.
Qed.

Lemma is_valid_right : forall chains lists c, Forall2 stands_for chains lists ->
  (is_valid chains c = true <-> good_head lists c).
Proof.
  intros chains lists c H. unfold is_valid, good_head. induction H as [|ch l chains lists (E & N & T) H IH]; cbn [forallb].
  - split; [intros _ ? []|auto].
  - rewrite andb_true_iff, IH, negb_true_iff. split.
    + intros (M & G) l' [<-|I]; [|auto]. rewrite <- T. intros J. apply mem_in in J. congruence.
    + intros G. split.
      * destruct (mem c (snd ch)) eqn:M; [|reflexivity]. apply mem_in in M. apply T in M. exfalso.
        exact (G l (or_introl eq_refl) M).
      * intros l' I. apply G. now right.
Qed.

Lemma pick_right : forall all lists, Forall2 stands_for all lists -> forall chains rest any, Forall2 stands_for chains rest ->
  match pick all chains any with
  | Picked c => exists earlier r later, rest = earlier ++ (c :: r) :: later /\ good_head lists c /\
                  forall x s, In (x :: s) earlier -> ~ good_head lists x
  | Finished => any = false /\ forall l, In l rest -> l = nil
  | NoOrder => (any = true \/ exists x s, In (x :: s) rest) /\ forall x s, In (x :: s) rest -> ~ good_head lists x
  end.
Proof.
  intros all lists HA chains rest any H. revert any.
  induction H as [|[items tails] l chains rest (E & N & T) H IH]; intros any; cbn [pick].
  - destruct any; [split; [now left|]; intros ? ? []|split; [reflexivity|]; intros ? []].
  - cbn in E. subst items. destruct l as [|c r].
    + specialize (IH any). destruct (pick all chains any).
      * destruct IH as (e & r & la & -> & G & F). exists (nil :: e), r, la. split; [reflexivity|]. split; [exact G|].
        intros x s [D|I]; [discriminate|eauto].
      * destruct IH as (-> & F). split; [reflexivity|]. intros l [<-|I]; auto.
      * destruct IH as (P & F). split.
        -- destruct P as [P|(x & s & I)]; [now left|right; exists x, s; now right].
        -- intros x s [D|I]; [discriminate|eauto].
    + destruct (is_valid all c) eqn:V.
      * apply (is_valid_right _ _ c HA) in V. exists nil, r, rest. split; [reflexivity|]. split; [exact V|]. intros ? ? [].
      * assert (B : ~ good_head lists c).
        { intros G. apply (is_valid_right _ _ c HA) in G. congruence. }
        specialize (IH true). destruct (pick all chains true).
        -- destruct IH as (e & r' & la & -> & G & F). exists ((c :: r) :: e), r', la. split; [reflexivity|].
           split; [exact G|]. intros x s [D|I]; [injection D as -> ->; exact B|eauto].
        -- destruct IH as (X & _). discriminate.
        -- destruct IH as (P & F). split; [right; exists c, r; now left|].
           intros x s [D|I]; [injection D as -> ->; exact B|eauto].
Qed.

Lemma advance_right : forall c ch l lists, stands_for ch l -> In l lists -> good_head lists c ->
  stands_for (advance c ch) (without_head c l).
Proof.
  intros c [items tails] l lists (E & N & T) I G. cbn in E, T. subst items. unfold advance. cbn [fst snd].
  destruct l as [|x rest]; [split; [reflexivity|]; split; auto|]. cbn [without_head tl] in *.
  destruct (Nat.eqb_spec x c) as [->|D]; [|split; [reflexivity|]; split; auto].
  inversion N as [|? ? N1 N2]; subst. split; [reflexivity|]. split; [exact N2|]. intros z. cbn [snd].
  destruct rest as [|y rest].
  - rewrite erase_in, T. cbn. intuition.
  - rewrite !erase_in, T. inversion N2 as [|? ? N3 N4]; subst. cbn [tl]. split.
    + intros (D1 & D2 & [->|J]); [congruence|exact J].
    + intros J. split; [intros ->; contradiction|]. split; [intros ->; apply N1; now right|now right].
Qed.

Lemma advance_all_right : forall c chains rest lists, Forall2 stands_for chains rest -> incl rest lists -> good_head lists c ->
  Forall2 stands_for (map (advance c) chains) (map (without_head c) rest).
Proof.
  intros c chains rest lists H. induction H as [|ch l chains rest S H IH]; intros I G; cbn [map]; constructor.
  - eapply advance_right; eauto. apply I. now left.
  - apply IH; [|exact G]. intros x J. apply I. now right.
Qed.

Lemma merge_chains_right : forall fuel chains lists, Forall2 stands_for chains lists ->
  (List.length (List.concat lists) < fuel)%nat ->
  match merge_chains fuel chains with
  | Ok out => c3_merge lists out
  | Err e => e = TypeError /\ forall out, ~ c3_merge lists out
  end.
Proof.
  induction fuel as [|fuel IH]; intros chains lists H L; [lia|]. cbn [merge_chains].
  assert (P := pick_right chains lists H chains lists false H).
  destruct (pick chains chains false) as [c| |].
  - destruct P as (e & r & la & D & G & F).
    assert (IC : In (c :: r) lists) by (rewrite D; apply in_or_app; right; now left).
    specialize (IH (map (advance c) chains) (map (without_head c) lists)
                   (advance_all_right c chains lists lists H (incl_refl _) G)).
    assert (LT := total_without c lists r IC). specialize (IH ltac:(lia)).
    destruct (merge_chains fuel (map (advance c) chains)) as [out|x]; cbn [bind].
    + eapply c3_take; eauto.
    + destruct IH as (-> & NO). split; [reflexivity|]. intros out M.
      inversion M as [ls E EL|ls e2 c2 r2 la2 o2 EL G2 F2 M2].
      * specialize (E _ IC). discriminate.
      * assert (X : c2 :: r2 = c :: r).
        { apply (first_split_unique (headed lists) e2 (c2 :: r2) la2 e (c :: r) la).
          - congruence.
          - exact G2.
          - exact G.
          - intros [|y s] I; cbn; [auto|]. exact (F2 y s I).
          - intros [|y s] I; cbn; [auto|]. exact (F y s I). }
        injection X as -> ->. exact (NO o2 M2).
  - destruct P as (_ & N). now constructor.
  - destruct P as ([X|(x & s & I)] & F); [discriminate|]. split; [reflexivity|]. intros out M.
    inversion M as [ls E EL|ls e2 c2 r2 la2 o2 EL G2 F2 M2].
    + specialize (E _ I). discriminate.
    + apply (F c2 r2); [|exact G2]. rewrite EL. apply in_or_app. right. now left.
Qed.

Lemma compute_mro_right : forall self mros bs, Forall (@NoDup nat) mros -> NoDup bs ->
  match compute_mro self mros bs with
  | Ok l => exists out, l = self :: out /\ c3_merge (mros ++ [bs]) out
  | Err e => e = TypeError /\ forall out, ~ c3_merge (mros ++ [bs]) out
  end.
Proof.
  intros self mros bs F N. unfold compute_mro.
  set (lists := mros ++ [bs]). cbv zeta.
  assert (H : Forall2 stands_for (map to_chain lists) lists).
  { assert (NA : Forall (@NoDup nat) lists) by (apply Forall_app; split; [exact F|constructor; auto]).
    clear - NA. induction NA; constructor; auto. now apply to_chain_right. }
  assert (M := merge_chains_right (S (List.length (List.concat lists))) _ _ H ltac:(lia)).
  destruct (merge_chains _ _) as [out|e]; cbn [bind]; eauto.
Qed.
