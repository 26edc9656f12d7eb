(** Proofs about compiled method calls, for Disp_Props. *)
From Coq Require Import ZifyBool ZifyNat.
From Verif Require Import Base Class_Model Class_Spec Class_Proofs Disp_Model Disp_Spec Disp_Table_Proofs.
Open Scope list_scope.
Open Scope result_scope.

(** ** All tables *)

Definition tables_ok (w : world) (tabs : list (list table)) (ins : list (nat * nat * nat)) (slots : nat -> nat -> list Z) : Prop :=
  forall c i a, nth_error (order_of w c) i = Some a ->
    exists ts t, nth_error tabs c = Some ts /\ nth_error ts i = Some t /\ table_ok w ins c a (slots c a) t.
Definition shaped (w : world) (tabs : list (list table)) : Prop :=
  length tabs = length w /\ forall c ts, nth_error tabs c = Some ts -> length ts = length (order_of w c).

Definition at_pair (slots : nat -> nat -> list Z) (c a : nat) (ss : list Z) : nat -> nat -> list Z :=
  fun c' a' => if Nat.eqb c' c && Nat.eqb a' a then ss else slots c' a'.

Lemma tables_ok_ext : forall w tabs ins slots slots', tables_ok w tabs ins slots ->
  (forall c a, In a (order_of w c) -> slots c a = slots' c a) -> tables_ok w tabs ins slots'.
Proof.
  intros w tabs ins slots slots' K E c i a N. destruct (K c i a N) as (ts & t & T1 & T2 & T3). exists ts, t.
  rewrite <- E by (eapply nth_error_In; exact N). auto.
Qed.

Lemma put_ok : forall st ins' slots c i a ss t,
  sound (s_world st) -> tables_ok (s_world st) (s_tables st) (s_installed st) slots -> shaped (s_world st) (s_tables st) ->
  nth_error (order_of (s_world st) c) i = Some a -> table_ok (s_world st) ins' c a ss t ->
  (forall c' a' ss t, (a, c) <> (a', c') -> table_ok (s_world st) (s_installed st) c' a' ss t -> table_ok (s_world st) ins' c' a' ss t) ->
  tables_ok (s_world st) (s_tables (put_table st c i t)) ins' (at_pair slots c a ss) /\
  shaped (s_world st) (s_tables (put_table st c i t)).
Proof.
  intros st ins' slots c i a ss t S K SH N T H. destruct (K c i a N) as (ts & t0 & E1 & E2 & _).
  unfold put_table. cbn [s_tables]. rewrite E1.
  assert (L1 : (c < length (s_tables st))%nat) by (apply nth_error_Some; congruence).
  assert (L2 : (i < length ts)%nat) by (apply nth_error_Some; congruence). split.
  - intros c' i' a' N'. rewrite nth_error_set by exact L1. unfold at_pair. destruct (Nat.eqb_spec c' c) as [->|X].
    + exists (set_nth ts i t). destruct (Nat.eq_dec i' i) as [->|Y].
      * exists t. split; [reflexivity|]. rewrite nth_error_set by exact L2. rewrite Nat.eqb_refl. split; [reflexivity|].
        assert (a' = a) as -> by congruence. now rewrite Nat.eqb_refl.
      * destruct (K c i' a' N') as (ts' & t' & F1 & F2 & F3). assert (ts' = ts) as -> by congruence. exists t'.
        split; [reflexivity|]. rewrite nth_error_set by exact L2. destruct (Nat.eqb_spec i' i); [congruence|]. split; [exact F2|].
        assert (Q : a' <> a) by (intros ->; apply Y; eapply NoDup_nth; [now apply (order_nodup _ c S)|exact N'|exact N]).
        destruct (Nat.eqb_spec a' a); [congruence|]. cbn [andb]. apply H; [congruence|exact F3].
    + destruct (K c' i' a' N') as (ts' & t' & F1 & F2 & F3). exists ts', t'. cbn [andb]. split; [exact F1|]. split; [exact F2|].
      apply H; [congruence|exact F3].
  - destruct SH as (SH1 & SH2). split; [now rewrite set_nth_length|]. intros d ds. rewrite nth_error_set by exact L1.
    destruct (Nat.eqb_spec d c) as [->|X]; [|apply SH2]. intros Q. injection Q as <-. rewrite set_nth_length by exact L2. now apply SH2.
Qed.

Lemma table_as_right : forall st slots c i a, sound (s_world st) -> tables_ok (s_world st) (s_tables st) (s_installed st) slots ->
  nth_error (order_of (s_world st) c) i = Some a ->
  exists t, table_as st c a = Ok (i, t) /\ table_ok (s_world st) (s_installed st) c a (slots c a) t.
Proof.
  intros st slots c i a S K N. destruct (K c i a N) as (ts & t & E1 & E2 & T). exists t. split; [|exact T].
  unfold table_as. rewrite (proj2 (order_nth _ c a i S) N). cbn [or_fail bind]. rewrite E1. cbn [or_fail bind]. now rewrite E2.
Qed.

(** ** Slots *)

(** Nothing but the tables. *)
Definition tables_only (st st' : state) : Prop :=
  s_world st' = s_world st /\ s_implementors st' = s_implementors st /\ s_memory st' = s_memory st /\
  s_vars st' = s_vars st /\ s_sites st' = s_sites st.
Lemma tables_only_refl : forall st, tables_only st st.
Proof. intros st. repeat split. Qed.
Lemma tables_only_trans : forall st st' st'', tables_only st st' -> tables_only st' st'' -> tables_only st st''.
Proof.
  intros st st' st'' (a1 & a2 & a3 & a4 & a5) (b1 & b2 & b3 & b4 & b5). repeat split; congruence.
Qed.

Lemma allocate_at_right : forall st slots c a s, sound (s_world st) ->
  tables_ok (s_world st) (s_tables st) (s_installed st) slots -> shaped (s_world st) (s_tables st) -> In a (order_of (s_world st) c) ->
  exists i st', allocate_at st c a s = Ok (i, st') /\ nth_error (extend (slots c a) s) i = Some s /\ tables_only st st' /\
    s_installed st' = s_installed st /\
    tables_ok (s_world st) (s_tables st') (s_installed st) (at_pair slots c a (extend (slots c a) s)) /\
    shaped (s_world st) (s_tables st').
Proof.
  intros st slots c a s S K SH I. apply In_nth_error in I. destruct I as (j & N).
  destruct (table_as_right st slots c j a S K N) as (t & E & T). unfold allocate_at. rewrite E. cbn [bind fst snd].
  destruct (allocate_in_right _ _ _ _ _ _ s T) as (i & t' & -> & T' & F). cbn [bind fst snd]. exists i, (put_table st c j t').
  split; [reflexivity|]. split; [exact F|]. split; [repeat split|]. split; [reflexivity|].
  eapply put_ok; eauto.
Qed.

Lemma allocate_all_right : forall children st slots a s E slot, sound (s_world st) ->
  tables_ok (s_world st) (s_tables st) (s_installed st) slots -> shaped (s_world st) (s_tables st) ->
  (forall c, In c children -> In a (order_of (s_world st) c)) ->
  (forall c, In c children -> extend (slots c a) s = E) -> NoDup E -> extend E s = E -> nth_error E slot = Some s ->
  exists st' slots', allocate_all st children a s slot = Ok st' /\ tables_only st st' /\ s_installed st' = s_installed st /\
    tables_ok (s_world st) (s_tables st') (s_installed st) slots' /\ shaped (s_world st) (s_tables st') /\
    (forall c, In c children -> slots' c a = E) /\
    (forall c, slots c a = E -> slots' c a = E) /\
    (forall c b, b <> a -> slots' c b = slots c b).
Proof.
  induction children as [|c children IH]; intros st slots a s E slot S K SH I X ND XE N; cbn [allocate_all].
  - exists st, slots. repeat (split; [now (reflexivity || apply tables_only_refl || assumption)|]). split; [intros ? []|]. split; auto.
  - destruct (allocate_at_right st slots c a s S K SH (I c (or_introl eq_refl))) as (i & st1 & -> & F & TO & EI & K1 & SH1).
    cbn [bind fst snd]. rewrite (X c (or_introl eq_refl)) in F. assert (i = slot) as -> by (eapply NoDup_nth; [exact ND|exact F|exact N]).
    rewrite Nat.eqb_refl. destruct TO as (EW & TO). rewrite <- EW, <- EI in K1. rewrite <- EW in SH1.
    rewrite (X c (or_introl eq_refl)) in K1.
    destruct (IH st1 (at_pair slots c a E) a s E slot) as (st' & slots' & R1 & R2 & R3 & R4 & R5 & R6 & R7 & R8); auto.
    + now rewrite EW.
    + intros d J. rewrite EW. apply I. now right.
    + intros d J. unfold at_pair. rewrite Nat.eqb_refl, andb_true_r. destruct (Nat.eqb_spec d c) as [->|]; [exact XE|].
      apply X. now right.
    + exists st', slots'. split; [exact R1|]. split; [eapply tables_only_trans; [|exact R2]; split; assumption|].
      split; [congruence|]. rewrite EW, EI in R4. rewrite EW in R5. split; [exact R4|]. split; [exact R5|]. split.
      * intros d [<-|J]; [|now apply R6]. apply R7. unfold at_pair. now rewrite !Nat.eqb_refl.
      * split.
        -- intros d J. apply R7. unfold at_pair. now destruct (Nat.eqb d c && Nat.eqb a a).
        -- intros d b NE. rewrite R8 by exact NE. unfold at_pair. destruct (Nat.eqb_spec b a); [congruence|]. now rewrite andb_false_r.
Qed.

(** What is true of the classes and tables.  [slots a]: the signatures with a slot in the tables of [a]. *)
Record core (slots : nat -> list Z) (st : state) : Prop := {
  core_sound : sound (s_world st);
  core_finals : finals (s_world st);
  core_short : forall c, (Z.of_nat (length (order_of (s_world st) c)) < 65535)%Z;
  core_shape : shaped (s_world st) (s_tables st);
  core_tables : tables_ok (s_world st) (s_tables st) (s_installed st) (fun _ a => slots a);
  core_nodup : forall a, NoDup (slots a);
  core_none : forall a, (length (s_world st) <= a)%nat -> slots a = nil;
  core_installed : forall a c i, In (a, c, i) (s_installed st) -> (c < length (s_world st))%nat;
  core_implementors_length : length (s_implementors st) = length (s_world st);
  core_implementors : forall a l, nth_error (s_implementors st) a = Some l ->
    forall c, In c l <-> In a (order_of (s_world st) c)
}.

Ltac keep K := first [exact (core_sound _ _ K)|exact (core_finals _ _ K)|exact (core_short _ _ K)|exact (core_shape _ _ K)
  |exact (core_tables _ _ K)|exact (core_nodup _ _ K)|exact (core_none _ _ K)|exact (core_installed _ _ K)|exact (core_implementors_length _ _ K)|exact (core_implementors _ _ K)].

Definition grows (slots slots' : nat -> list Z) : Prop :=
  forall a i s, nth_error (slots a) i = Some s -> nth_error (slots' a) i = Some s.
Lemma grows_refl : forall slots, grows slots slots.
Proof. intros slots a i s H. exact H. Qed.
Lemma grows_trans : forall s1 s2 s3, grows s1 s2 -> grows s2 s3 -> grows s1 s3.
Proof. intros s1 s2 s3 H G a i s E. apply G, H, E. Qed.

Lemma allocate_right : forall slots st a s, core slots st -> (a < length (s_world st))%nat ->
  exists i st' slots', allocate st a s = Ok (i, st') /\ core slots' st' /\ tables_only st st' /\ s_installed st' = s_installed st /\
    grows slots slots' /\ nth_error (slots' a) i = Some s.
Proof.
  intros slots st a s K L. assert (S := core_sound _ _ K). unfold allocate.
  assert (IA : In a (order_of (s_world st) a)) by (eapply nth_error_In; apply order_head; assumption).
  destruct (allocate_at_right st (fun _ a => slots a) a a s S (core_tables _ _ K) (core_shape _ _ K) IA)
    as (i & st1 & -> & F & TO & EI & K1 & SH1). cbn [bind fst snd].
  destruct (nth_error (s_implementors st) a) as [ims|] eqn:EM.
  2:{ apply nth_error_None in EM. rewrite (core_implementors_length _ _ K) in EM. lia. }
  cbn [or_fail bind]. assert (C := core_implementors _ _ K a ims EM). destruct TO as (EW & TO).
  rewrite <- EW, <- EI in K1. rewrite <- EW in SH1.
  destruct (allocate_all_right ims st1 (at_pair (fun _ a => slots a) a a (extend (slots a) s)) a s (extend (slots a) s) i)
    as (st' & slots' & R1 & R2 & R3 & R4 & R5 & R6 & R7 & R8); auto.
  - now rewrite EW.
  - intros c I. rewrite EW. now apply C.
  - intros c I. unfold at_pair. destruct (Nat.eqb c a && Nat.eqb a a); [apply extend_twice|reflexivity].
  - apply extend_nodup, (core_nodup _ _ K).
  - apply extend_twice.
  - rewrite R1. cbn [bind]. rewrite EW in R4, R5. rewrite EI in R4.
    set (new := fun b => if Nat.eqb b a then extend (slots a) s else slots b).
    exists i, st', new. split; [reflexivity|].
    assert (T : tables_only st st') by (eapply tables_only_trans; [|exact R2]; split; assumption).
    destruct T as (T1 & T2 & T3).
    split; [|split; [split; auto|split; [congruence|split]]].
    + constructor; rewrite ?T1, ?T2, ?R3, ?EI; try keep K; [exact R5| | |].
      * eapply tables_ok_ext; [exact R4|]. intros c b I. unfold new. destruct (Nat.eqb_spec b a) as [->|N].
        -- apply R6, C, I.
        -- rewrite R8 by exact N. unfold at_pair. destruct (Nat.eqb_spec b a); [congruence|]. now rewrite andb_false_r.
      * intros b. unfold new. destruct (Nat.eqb b a); [apply extend_nodup|]; apply (core_nodup _ _ K).
      * intros b LB. unfold new. destruct (Nat.eqb_spec b a); [lia|]. now apply (core_none _ _ K).
    + intros b j x E. unfold new. destruct (Nat.eqb_spec b a) as [->|]; [now apply extend_keeps|exact E].
    + unfold new. now rewrite Nat.eqb_refl.
Qed.

Lemma allocate_each_right : forall loads slots st, core slots st -> classes_exist (s_world st) loads ->
  exists st' slots', allocate_each st loads = Ok st' /\ core slots' st' /\ tables_only st st' /\ s_installed st' = s_installed st /\
    grows slots slots'.
Proof.
  induction loads as [|(a, s) loads IH]; intros slots st K L; cbn [allocate_each].
  - exists st, slots. split; [reflexivity|]. split; [exact K|]. split; [apply tables_only_refl|]. split; [reflexivity|apply grows_refl].
  - destruct (allocate_right slots st a s K (L a s (or_introl eq_refl))) as (i & st1 & slots1 & -> & K1 & T1 & E1 & G1 & _).
    cbn [bind snd]. destruct (IH slots1 st1 K1) as (st2 & slots2 & -> & K2 & T2 & E2 & G2).
    { destruct T1 as (-> & _). intros b x I. apply (L b x). now right. }
    exists st2, slots2. split; [reflexivity|]. split; [exact K2|]. split; [eapply tables_only_trans; eauto|].
    split; [congruence|]. eapply grows_trans; eauto.
Qed.

(** ** Compiling *)

(** The table of class [c] as [a]. *)
Definition is_table (st : state) (c a : nat) (t : table) : Prop :=
  exists i ts, nth_error (order_of (s_world st) c) i = Some a /\ nth_error (s_tables st) c = Some ts /\ nth_error ts i = Some t.

Lemma is_table_ok : forall slots st c a t, core slots st -> is_table st c a t ->
  table_ok (s_world st) (s_installed st) c a (slots a) t.
Proof.
  intros slots st c a t K (i & ts & N & E1 & E2). destruct (core_tables _ _ K c i a N) as (ts' & t' & F1 & F2 & T).
  assert (ts' = ts) as -> by congruence. assert (t' = t) as -> by congruence. exact T.
Qed.

Lemma installed_in : forall st a c i, is_installed st a c i = true <-> In (a, c, i) (s_installed st).
Proof.
  intros st a c i. unfold is_installed. rewrite existsb_exists. split.
  - intros (((a', c'), i') & I & E). cbn [fst snd] in E. apply andb_true_iff in E. destruct E as (E & E3).
    apply andb_true_iff in E. destruct E as (E1 & E2). apply Nat.eqb_eq in E1, E2, E3. now subst.
  - intros I. exists (a, c, i). split; [exact I|]. cbn [fst snd]. now rewrite !Nat.eqb_refl.
Qed.

Lemma compile_right : forall loads slots st a c i s, core slots st -> classes_exist (s_world st) loads ->
  In a (order_of (s_world st) c) -> nth_error (slots a) i = Some s ->
  exists st' slots', compile loads st a c i = Ok st' /\ core slots' st' /\ tables_only st st' /\ grows slots slots' /\
    forall t, is_table st' c a t -> nth_error (t_ptrs t) i = Some (Code c s).
Proof.
  intros loads slots st a c i s K L I E. unfold compile. destruct (is_installed st a c i) eqn:IN.
  - exists st, slots. split; [reflexivity|]. split; [exact K|]. split; [apply tables_only_refl|]. split; [apply grows_refl|].
    intros t T. assert (T' := is_table_ok _ _ _ _ _ K T). apply installed_in in IN.
    destruct (ok_slots _ _ _ _ _ _ T' i s E) as [H|(_ & _ & H)]; [exact H|contradiction].
  - apply In_nth_error in I. destruct I as (j & N). assert (S := core_sound _ _ K).
    destruct (table_as_right st _ c j a S (core_tables _ _ K) N) as (t & -> & T). cbn [bind snd fst].
    rewrite (definition_right _ _ _ _ _ _ _ _ T E). cbn [or_fail bind].
    destruct (allocate_each_right loads slots st K L) as (st1 & slots1 & -> & K1 & T1 & E1 & G1). cbn [bind].
    assert (S1 := core_sound _ _ K1). assert (N1 : nth_error (order_of (s_world st1) c) j = Some a) by (destruct T1 as (-> & _); exact N).
    destruct (table_as_right st1 _ c j a S1 (core_tables _ _ K1) N1) as (t1 & -> & TT). cbn [bind snd fst].
    destruct (define_right _ _ _ _ _ _ i s TT (G1 _ _ _ E)) as (t2 & -> & T2 & P2). cbn [bind].
    eexists _, slots1. split; [reflexivity|].
    destruct (put_ok st1 ((a, c, i) :: s_installed st1) (fun _ a => slots1 a) c j a (slots1 a) t2) as (Q1 & Q2); auto.
    { keep K1. } { keep K1. }
    { intros c' a' ss' t' NE TO. apply table_ok_installed; auto. }
    split; [|split; [|split; [exact G1|]]].
    + constructor; cbn [s_world s_tables s_implementors s_installed put_table]; try keep K1; [exact Q2| |].
      eapply tables_ok_ext; [exact Q1|]. intros c' a' _. unfold at_pair. destruct (Nat.eqb_spec c' c), (Nat.eqb_spec a' a); cbn [andb]; congruence.
      intros a' c' i' [J|J]; [|now apply (core_installed _ _ K1) in J]. injection J as <- <- <-.
      eapply order_exists, nth_error_In. exact N1.
    + destruct T1 as (a1 & a2 & a3 & a4 & a5). repeat split; assumption.
    + intros t3 (j3 & ts3 & M1 & M2 & M3). cbn [s_world s_tables put_table] in M1, M2.
      assert (j3 = j) as -> by (eapply NoDup_nth; [apply (order_nodup _ c S1)|exact M1|exact N1]).
      destruct (core_tables _ _ K1 c j a N1) as (ts4 & t4 & F1 & F2 & _). rewrite F1 in M2.
      rewrite nth_error_set in M2 by (apply nth_error_Some; congruence). rewrite Nat.eqb_refl in M2. injection M2 as <-.
      rewrite nth_error_set in M3 by (apply nth_error_Some; congruence). rewrite Nat.eqb_refl in M3. injection M3 as <-. exact P2.
Qed.

Lemma dispatch_right : forall loads find_table slots st a c i s, core slots st -> classes_exist (s_world st) loads ->
  In a (order_of (s_world st) c) -> nth_error (slots a) i = Some s ->
  (forall st' slots', core slots' st' -> tables_only st st' -> exists t, find_table st' = Ok t /\ is_table st' c a t) ->
  exists st' slots', dispatch loads find_table st i = Ok (st', (c, s)) /\ core slots' st' /\ tables_only st st' /\ grows slots slots'.
Proof.
  intros loads find_table slots st a c i s K L I E F. unfold dispatch.
  destruct (F st slots K (tables_only_refl st)) as (t & -> & T). cbn [bind]. assert (TK := is_table_ok _ _ _ _ _ K T).
  unfold read_pointer at 1. destruct (ok_slots _ _ _ _ _ _ TK i s E) as [H|(H & _)]; rewrite H; cbn [bind].
  - exists st, slots. split; [reflexivity|]. split; [exact K|]. split; [apply tables_only_refl|apply grows_refl].
  - rewrite (ok_iface _ _ _ _ _ _ TK), (ok_impl _ _ _ _ _ _ TK).
    destruct (compile_right loads slots st a c i s K L I E) as (st1 & slots1 & -> & K1 & T1 & G1 & P). cbn [bind].
    destruct (F st1 slots1 K1 T1) as (t1 & -> & TT). cbn [bind]. unfold read_pointer. rewrite (P t1 TT). cbn [bind].
    exists st1, slots1. auto.
Qed.

Lemma compile_all_right : forall loads l slots st c s, core slots st -> classes_exist (s_world st) loads ->
  (forall a i, In (a, i) l -> In a (order_of (s_world st) c) /\ nth_error (slots a) i = Some s) ->
  exists st' slots', compile_all loads st c l = Ok st' /\ core slots' st' /\ tables_only st st' /\ grows slots slots'.
Proof.
  intros loads. induction l as [|(a, i) l IH]; intros slots st c s K L H; cbn [compile_all].
  - exists st, slots. split; [reflexivity|]. split; [exact K|]. split; [apply tables_only_refl|apply grows_refl].
  - destruct (H a i (or_introl eq_refl)) as (I & E).
    destruct (compile_right loads slots st a c i s K L I E) as (st1 & slots1 & -> & K1 & T1 & G1 & _). cbn [bind].
    destruct (IH slots1 st1 c s K1) as (st2 & slots2 & -> & K2 & T2 & G2).
    { destruct T1 as (-> & _). exact L. }
    { intros b j J. destruct T1 as (-> & _). destruct (H b j (or_intror J)) as (J1 & J2). split; [exact J1|now apply G1]. }
    exists st2, slots2. split; [reflexivity|]. split; [exact K2|]. split; [eapply tables_only_trans; eauto|eapply grows_trans; eauto].
Qed.

Lemma force_right : forall order slots st c s, core slots st -> (forall a, In a order -> (a < length (s_world st))%nat) ->
  exists st' slots' l, force st c order s = Ok (st', l) /\ core slots' st' /\ tables_only st st' /\ grows slots slots' /\
    forall a i, In (a, i) l -> In a order /\ nth_error (slots' a) i = Some s.
Proof.
  induction order as [|a order IH]; intros slots st c s K L; cbn [force].
  - exists st, slots, nil. split; [reflexivity|]. split; [exact K|]. split; [apply tables_only_refl|]. split; [apply grows_refl|intros ? ? []].
  - destruct (allocate_right slots st a s K (L a (or_introl eq_refl))) as (i & st1 & slots1 & -> & K1 & T1 & _ & G1 & N1). cbn [bind fst snd].
    destruct (IH slots1 st1 c s K1) as (st2 & slots2 & l & -> & K2 & T2 & G2 & H).
    { intros b J. destruct T1 as (-> & _). apply L. now right. }
    cbn [bind fst snd]. exists st2, slots2, ((a, i) :: l). split; [reflexivity|]. split; [exact K2|].
    split; [eapply tables_only_trans; eauto|]. split; [eapply grows_trans; eauto|].
    intros b j [J|J]; [injection J as <- <-; split; [now left|now apply G2]|]. destruct (H b j J). split; [now right|assumption].
Qed.
