(** Proofs about the work list of the compiler. *)
From Coq Require Import Permutation Sorted.
From Verif Require Import Base Graph_Model Graph_Spec Graph_Proofs.
From Coq Require Import ZifyBool ZifyNat.
Open Scope Z_scope.
Open Scope result_scope.

Section Work.
  Context {node : Type}.
  Variable eqb : node -> node -> bool.
  Variable order : list node -> list node.
  Hypothesis eqb_spec : forall x y, reflect (x = y) (eqb x y).
  Hypothesis order_perm : forall l, Permutation (order l) l.

  (** ** The SortedSet *)

  Lemma o_insert_perm (p : Z * node) o : Permutation (o_insert p o) (p :: o).
  Proof. induction o as [|q o IH]; cbn [o_insert]; [reflexivity|]. destruct (fst p <? fst q); [reflexivity|]. rewrite IH. apply perm_swap. Qed.
  Definition ascending : list (Z * node) -> Prop := StronglySorted (fun a b => fst a <= fst b).
  Lemma o_insert_sorted p o : ascending o -> ascending (o_insert p o).
  Proof.
    induction o as [|q o IH]; cbn [o_insert]; intros S; [repeat constructor|]. inversion S as [|? ? S' F]; subst.
    destruct (fst p <? fst q) eqn:L.
    - constructor; [exact S|]. constructor; [lia|]. eapply Forall_impl; [|exact F]. cbn beta. intros; lia.
    - constructor; [now apply IH|]. eapply Permutation_Forall; [symmetry; apply o_insert_perm|]. constructor; [lia|exact F].
  Qed.
  Lemma o_add_In p q o : In q (o_add eqb p o) <-> q = p \/ In q o.
  Proof.
    unfold o_add. destruct (existsb _ o) eqn:X.
    - apply existsb_exists in X. destruct X as (r & I & H). split; [auto|]. intros [->|H']; [|exact H'].
      destruct p as [k n], r as [j m]. cbn [fst snd] in H. destruct (eqb_spec n m) as [->|]; [|lia].
      replace k with j by lia. exact I.
    - split; intros H.
      + apply (Permutation_in _ (o_insert_perm p o)) in H. destruct H; auto.
      + apply (Permutation_in _ (Permutation_sym (o_insert_perm p o))). destruct H; [left; auto|right; auto].
  Qed.
  Lemma o_add_sorted p o : ascending o -> ascending (o_add eqb p o).
  Proof. unfold o_add. destruct (existsb _ o); [auto|apply o_insert_sorted]. Qed.

  (** ** The markings *)

  Definition marks (d : list node) (o : list (Z * node)) (td ev : Z -> node -> Prop) : Prop :=
    (forall p n, td p n -> In (p, n) o) /\ (forall n, In n d <-> exists p, td p n) /\ (forall p n, In (p, n) o -> ev p n) /\ ascending o.
  Lemma marks_ext d o (td ev td' ev' : Z -> node -> Prop) : (forall p n, td p n <-> td' p n) -> (forall p n, ev p n -> ev' p n) ->
    marks d o td ev -> marks d o td' ev'.
  Proof.
    intros T V (A & B & C & S). split; [intros p n H; now apply A, T|]. split; [|split; [auto|exact S]].
    intros n. rewrite B. split; intros [p H]; exists p; now apply T.
  Qed.
  Lemma marks_mark d o (td ev : Z -> node -> Prop) n P : marks d o td ev ->
    marks (s_add eqb n d) (o_add eqb (P, n) o) (fun p x => td p x \/ (x = n /\ p = P)) (fun p x => ev p x \/ (x = n /\ p = P)).
  Proof.
    intros (A & B & C & S). repeat split.
    - intros p x [H|[-> ->]]; apply o_add_In; auto.
    - intros H. apply (s_add_In eqb eqb_spec) in H. destruct H as [H|H]; [apply B in H; destruct H as [p H]; eauto|subst; eauto].
    - intros [p [H|[H _]]]; apply (s_add_In eqb eqb_spec); [left; apply B; eauto|auto].
    - intros p x H. apply o_add_In in H. destruct H as [[= -> ->]|H]; auto.
    - now apply o_add_sorted.
  Qed.
  Lemma marks_drop d o (td ev : Z -> node -> Prop) n : marks d o td ev ->
    marks (s_discard eqb n d) o (fun p x => td p x /\ x <> n) ev.
  Proof.
    intros (A & B & C & S). split; [intros p x [H _]; auto|]. split; [|auto].
    intros x. rewrite (s_discard_In eqb eqb_spec), B. split; [intros [[p H] D]; eauto|intros [p [H D]]; eauto].
  Qed.

  Lemma ascending_snoc o p : ascending (o ++ [p]) -> ascending o /\ forall q, In q o -> fst q <= fst p.
  Proof.
    induction o as [|q o IH]; cbn [app]; intros S; [split; [constructor|intros q []]|].
    inversion S as [|? ? S' F]; subst. destruct (IH S') as [S1 L1]. rewrite Forall_forall in F. split.
    - constructor; [exact S1|]. rewrite Forall_forall. intros x I. apply F, in_or_app. now left.
    - intros x [<-|I]; [|auto]. apply F, in_or_app. right. now left.
  Qed.

  Lemma next_in_ok (td ev : Z -> node -> Prop) l : forall w, marks (dirty w) (rev l) td ev ->
    let '(w', r) := next_in eqb l w in
    deps w' = deps w /\ identity_levels w' = identity_levels w /\
    marks (dirty w') (ordered w') (fun p x => td p x /\ r <> Some x) ev /\
    match r with
    | None => forall p n, ~ td p n
    | Some n => (exists p, td p n) /\ exists q, ev q n /\ forall p m, td p m -> p <= q
    end /\
    match r with None => dirty w' = dirty w | Some n => dirty w' = s_discard eqb n (dirty w) end.
  Proof.
    induction l as [|[q n] l IH]; intros w M; cbn [next_in].
    - cbn [rev] in M. cbn [deps identity_levels dirty ordered]. repeat split; auto.
      + intros p x [H _]. destruct M as (A & _). exact (A p x H).
      + intros I. destruct M as (A & B & _). apply B in I. destruct I as [p H]. destruct (A p n H).
      + intros [p [H _]]. destruct M as (A & _). destruct (A p n H).
      + intros p n [].
      + constructor.
      + intros p n H. destruct M as (A & _). exact (A p n H).
    - cbn [rev] in M. destruct M as (A & B & C & S). destruct (ascending_snoc _ _ S) as [S1 L1]. cbn [fst] in L1.
      destruct (s_mem eqb n (dirty w)) eqn:D.
      + apply (s_mem_In eqb eqb_spec) in D. cbn [deps identity_levels dirty ordered]. repeat split; auto.
        * intros p x [H N]. specialize (A p x H). apply in_app_or in A. destruct A as [A|[[= <- <-]|[]]]; [exact A|congruence].
        * intros I. apply (s_discard_In eqb eqb_spec) in I. destruct I as [I N]. apply B in I. destruct I as [p H]. exists p. split; congruence.
        * intros [p [H N]]. apply (s_discard_In eqb eqb_spec). split; [apply B; eauto|congruence].
        * intros p x I. apply C, in_or_app. now left.
        * now apply B.
        * exists q. split; [apply C, in_or_app; right; now left|]. intros p m H. specialize (A p m H). apply in_app_or in A.
          destruct A as [A|[[= <- <-]|[]]]; [exact (L1 _ A)|lia].
      + apply IH. repeat split; auto.
        * intros p x H. pose proof (A p x H) as I. apply in_app_or in I. destruct I as [I|[[= <- <-]|[]]]; [exact I|].
          exfalso. assert (In n (dirty w)) as Dn by (apply B; eauto). apply (s_mem_In eqb eqb_spec) in Dn. congruence.
        * apply B.
        * apply B.
        * intros p x I. apply C, in_or_app. now left.
  Qed.
  Lemma next_ok w (td ev : Z -> node -> Prop) : marks (dirty w) (ordered w) td ev ->
    let '(w', r) := get_next_dirty_node eqb w in
    deps w' = deps w /\ identity_levels w' = identity_levels w /\
    marks (dirty w') (ordered w') (fun p x => td p x /\ r <> Some x) ev /\
    match r with
    | None => forall p n, ~ td p n
    | Some n => (exists p, td p n) /\ exists q, ev q n /\ forall p m, td p m -> p <= q
    end /\
    match r with None => dirty w' = dirty w | Some n => dirty w' = s_discard eqb n (dirty w) end.
  Proof. intros M. apply next_in_ok. now rewrite rev_involutive. Qed.

  (** ** The whole state *)

  Record inv (w : work node) (S : spec (node:=node)) : Prop := {
    inv_known : forall n l, known S n l <-> d_get eqb (identity_levels w) n = Some l;
    inv_consistent : consistent eqb (deps w);
    inv_calls : forall x y, calls S x y <-> E eqb (deps w) x y;
    inv_callers : forall x y, calls S x y -> exists l, known S x l;
    inv_marks : marks (dirty w) (ordered w) (todo S) (ever S) }.

  Lemma inv_unknown w S n : inv w S -> unknown S n <-> d_get eqb (identity_levels w) n = None.
  Proof.
    intros I. unfold unknown. split.
    - intros H. destruct (d_get eqb (identity_levels w) n) as [l|] eqn:G; [|reflexivity]. apply (inv_known _ _ I) in G. destruct (H _ G).
    - intros G l H. apply (inv_known _ _ I) in H. congruence.
  Qed.
  Lemma inv_new : inv (new_work (node:=node)) new_spec.
  Proof.
    constructor.
    - intros n l. cbn. split; [tauto|discriminate].
    - intros x y. cbn. tauto.
    - intros x y. cbn. tauto.
    - intros x y [].
    - split; [intros p n []|]. split; [intros n; split; [intros []|intros [p []]]|]. split; [intros p n []|constructor].
  Qed.

  Lemma mark_with_ok f n l w : d_get eqb (identity_levels w) n = Some l ->
    mark_with eqb f n w = ({| deps := deps w; identity_levels := identity_levels w; dirty := s_add eqb n (dirty w);
                              ordered := o_add eqb (f l, n) (ordered w) |}, Ok tt).
  Proof. intros G. unfold mark_with. now rewrite G. Qed.

  Lemma mark_each_ok ns : forall w (td ev : Z -> node -> Prop), marks (dirty w) (ordered w) td ev ->
    (forall n, In n ns -> exists l, d_get eqb (identity_levels w) n = Some l) ->
    exists w', mark_each eqb ns w = (w', Ok tt) /\ deps w' = deps w /\ identity_levels w' = identity_levels w /\
      let new p x := In x ns /\ d_get eqb (identity_levels w) x = Some p in
      marks (dirty w') (ordered w') (fun p x => td p x \/ new p x) (fun p x => ev p x \/ new p x).
  Proof.
    induction ns as [|n ns IH]; intros w td ev M K; cbn [mark_each].
    - exists w. split; [reflexivity|]. split; [reflexivity|]. split; [reflexivity|]. cbn beta zeta. eapply marks_ext; [| |exact M]; cbn; intuition.
    - destruct (K n (or_introl eq_refl)) as [l G]. unfold mark_dirty. rewrite (mark_with_ok _ n l w G). cbn [fst snd].
      destruct (IH {| deps := deps w; identity_levels := identity_levels w; dirty := s_add eqb n (dirty w); ordered := o_add eqb (l, n) (ordered w) |}
        _ _ (marks_mark _ _ _ _ n l M)) as (w' & F & Dp & Lv & M').
      + cbn [identity_levels]. intros m I. apply K. now right.
      + exists w'. split; [exact F|]. split; [exact Dp|]. split; [exact Lv|]. cbn [identity_levels] in M'. cbn beta zeta.
        eapply marks_ext; [| |exact M']; cbn [In]; cbn beta zeta; intros p x.
        * split; [intros [[H|[-> ->]]|[H1 H2]]; auto|]. intros [H|[[<-|H1] H2]]; auto. left. right. split; congruence.
        * intros [[H|[-> ->]]|[H1 H2]]; auto.
  Qed.

  Lemma work_step_ok w S op : inv w S -> legal_op op S ->
    let '(w', r) := work_step eqb order op w in inv w' (spec_step op r S) /\ right op r S.
  Proof.
    intros I L. pose proof I as [Kn Co Ca Cr Mk]. destruct op as [n|a b|n|n|n|n|]; cbn [work_step].
    - (* Root *)
      unfold add_root. destruct (d_get eqb (identity_levels w) n) as [l|] eqn:G.
      + cbn [fst snd right]. split; [|reflexivity].
        assert (~ unknown S n) as NU by (rewrite (inv_unknown w S n I); congruence).
        constructor; cbn [spec_step known calls todo ever]; auto.
        * intros m k. rewrite <- Kn. tauto.
        * intros x y H. destruct (Cr x y H) as [k Hk]. eauto.
        * eapply marks_ext; [| |exact Mk]; cbn beta; intros; intuition.
      + unfold mark_dirty. rewrite (mark_with_ok _ n 0) by (cbn [identity_levels]; rewrite (d_get_set eqb eqb_spec); now rewrite (eqb_refl eqb eqb_spec)).
        cbn [fst snd right deps identity_levels dirty ordered]. split; [|reflexivity].
        assert (unknown S n) as NU by (now apply (inv_unknown w S n I)).
        constructor; cbn [spec_step known calls todo ever deps identity_levels dirty ordered]; auto.
        * intros m k. rewrite (d_get_set eqb eqb_spec), Kn. destruct (eqb_spec m n) as [->|D].
          -- rewrite G. split; [intros [H|(_ & -> & _)]; congruence|intros [= <-]; auto].
          -- split; [intros [H|(H & _)]; [exact H|congruence]|auto].
        * intros x y H. destruct (Cr x y H) as [k Hk]. eauto.
        * eapply marks_ext; [| |exact (marks_mark _ _ _ _ n 0 Mk)]; cbn beta; intros; intuition.
    - (* Edge *)
      unfold work_add_edge. destruct (d_get eqb (identity_levels w) a) as [la|] eqn:Ga.
      + assert (known S a la) as Ka by (now apply Kn).
        assert (Ua : ~ unknown S a) by (intros U; exact (U _ Ka)).
        assert (Ku : forall k, known S a k -> k = la) by (intros k H; apply Kn in H; congruence).
        assert (Hc : forall w', deps w' = deps w -> consistent eqb (add_edge eqb a b (deps w')) /\
                     forall x y, (calls S x y \/ x = a /\ y = b /\ exists l, known S a l) <-> E eqb (add_edge eqb a b (deps w')) x y).
        { intros w' ->. destruct (add_edge_ok eqb eqb_spec a b (deps w) Co) as [C1 E1]. split; [exact C1|].
          intros x y. rewrite E1, Ca. split; [tauto|]. intros [H|[H1 H2]]; eauto. }
        destruct (d_get eqb (identity_levels w) b) as [lb|] eqn:Gb.
        * assert (Ub : ~ unknown S b) by (rewrite (inv_unknown w S b I); congruence).
          cbn [fst snd right]. split; [|now right]. destruct (Hc w eq_refl) as [C1 E1].
          constructor; cbn [spec_step known calls todo ever connect deps identity_levels dirty ordered]; auto.
          -- intros m k. rewrite <- Kn. tauto.
          -- intros x y [H|(-> & _ & _)]; [destruct (Cr x y H); eauto|eauto].
          -- eapply marks_ext; [| |exact Mk]; cbn beta; intros; intuition.
        * assert (Ub : unknown S b) by (now apply (inv_unknown w S b I)).
          unfold mark_dirty. rewrite (mark_with_ok _ b (la + 1)) by (cbn [identity_levels]; rewrite (d_get_set eqb eqb_spec); now rewrite (eqb_refl eqb eqb_spec)).
          cbn [fst snd right]. split; [|now right]. unfold connect. cbn [deps identity_levels dirty ordered]. destruct (Hc w eq_refl) as [C1 E1].
          constructor; cbn [spec_step known calls todo ever deps identity_levels dirty ordered]; auto.
          -- intros m k. rewrite (d_get_set eqb eqb_spec), Kn. destruct (eqb_spec m b) as [->|D].
             ++ rewrite Gb. split; [intros [H|(_ & _ & H)]; [congruence|apply Ku in H; f_equal; lia]|].
                intros [= <-]. right. split; [reflexivity|]. split; [exact Ub|]. replace (la + 1 - 1) with la by lia. exact Ka.
             ++ split; [intros [H|(H & _)]; [exact H|congruence]|auto].
          -- intros x y [H|(-> & _ & _)]; [destruct (Cr x y H); eauto|eauto].
          -- eapply marks_ext; [| |exact (marks_mark _ _ _ _ b (1000000 - (la + 1)) Mk)]; cbn beta.
             ++ intros p x. split; [intros [H|[-> ->]]; [auto|right; eauto]|]. intros [H|(-> & _ & k & Hk & ->)]; [auto|]. right. rewrite (Ku k Hk). auto.
             ++ intros p x [H|[-> ->]]; [auto|right; eauto].
      + cbn [fst snd right]. assert (Ua : unknown S a) by (now apply (inv_unknown w S a I)). split; [|now left].
        constructor; cbn [spec_step known calls todo ever]; auto.
        * intros m k. rewrite <- Kn. split; [intros [H|(_ & _ & H)]; [exact H|destruct (Ua _ H)]|auto].
        * intros x y. rewrite <- Ca. split; [intros [H|(_ & _ & k & H)]; [exact H|destruct (Ua _ H)]|auto].
        * intros x y [H|(_ & _ & k & H)]; [destruct (Cr x y H); eauto|destruct (Ua _ H)].
        * eapply marks_ext; [| |exact Mk]; cbn beta; intros p x.
          -- split; [auto|]. intros [H|(_ & _ & k & H & _)]; [exact H|destruct (Ua _ H)].
          -- auto.
    - (* Drop *)
      unfold work_drop_node. destruct (drop_node_ok eqb order eqb_spec order_perm n false (deps w) Co) as (g & -> & C1 & E1).
      cbn [fst snd right]. split; [|reflexivity].
      constructor; cbn [spec_step known calls todo ever deps identity_levels dirty ordered]; auto.
      + intros m k. rewrite (d_get_del eqb eqb_spec), Kn. destruct (eqb_spec m n) as [->|D]; [split; [tauto|discriminate]|tauto].
      + intros x y. rewrite E1, Ca. intuition congruence.
      + intros x y (H & D1 & D2). destruct (Cr x y H) as [k Hk]. eauto.
      + now apply marks_drop.
    - (* MarkDirty *)
      cbn [legal_op] in L. rewrite (inv_unknown w S n I) in L. destruct (d_get eqb (identity_levels w) n) as [l|] eqn:G; [|congruence].
      unfold mark_dirty. rewrite (mark_with_ok _ n l w G). cbn [fst snd right]. split; [|reflexivity].
      constructor; cbn [spec_step known calls todo ever deps identity_levels dirty ordered]; auto.
      eapply marks_ext; [| |exact (marks_mark _ _ _ _ n l Mk)]; cbn beta; intros p x; rewrite Kn, G; intuition congruence.
    - (* MarkLow *)
      cbn [legal_op] in L. rewrite (inv_unknown w S n I) in L. destruct (d_get eqb (identity_levels w) n) as [l|] eqn:G; [|congruence].
      unfold mark_dirty_low. rewrite (mark_with_ok _ n l w G). cbn [fst snd right]. split; [|reflexivity].
      constructor; cbn [spec_step known calls todo ever deps identity_levels dirty ordered]; auto.
      eapply marks_ext; [| |exact (marks_mark _ _ _ _ n (-1000000 + l) Mk)]; cbn beta; intros p x; rewrite Kn, G.
      + split; [intros [H|[-> ->]]; [auto|right; split; [reflexivity|f_equal; lia]]|]. intros [H|[-> H]]; [auto|]. right. split; [reflexivity|]. injection H. lia.
      + intros [H|[-> ->]]; [auto|right; split; [reflexivity|f_equal; lia]].
    - (* Changed *)
      unfold signature_changed.
      assert (HI : forall x, In x (order (incoming eqb (deps w) n)) <-> calls S x n).
      { intros x. rewrite (order_In order order_perm), Ca. symmetry. apply Co. }
      destruct (mark_each_ok (order (incoming eqb (deps w) n)) w (todo S) (ever S) Mk) as (w' & -> & Dp & Lv & M).
      { intros x H. apply HI in H. destruct (Cr x n H) as [l Hl]. exists l. now apply Kn. }
      cbn [fst snd right]. split; [|reflexivity].
      constructor; cbn [spec_step known calls todo ever]; rewrite ?Dp, ?Lv; auto.
      cbn beta zeta in M. eapply marks_ext; [| |exact M]; cbn beta; intros p x; rewrite HI, Kn; tauto.
    - (* Next *)
      pose proof (next_ok w (todo S) (ever S) Mk) as N. destruct (get_next_dirty_node eqb w) as [w' r]. destruct N as (Dp & Lv & M & R & _).
      cbn [right]. split.
      + constructor; cbn [spec_step known calls todo ever]; rewrite ?Dp, ?Lv; auto.
        eapply marks_ext; [| |exact M]; cbn beta; [|auto]. intros p x. intuition congruence.
      + destruct r; [exact (proj1 R)|exact R].
  Qed.

  Lemma run_work_ok ops : forall w S, inv w S ->
    let '(w', tr) := run_work eqb order ops w in legal tr S -> inv w' (spec_after tr S) /\ all_right tr S.
  Proof.
    induction ops as [|op ops IH]; intros w S I; cbn [run_work].
    - intros _. split; [exact I|exact Logic.I].
    - pose proof (work_step_ok w S op I) as W. destruct (work_step eqb order op w) as [w1 r]. specialize (IH w1).
      destruct (run_work eqb order ops w1) as [w2 tr]. cbn [legal all_right]. intros [L1 L2]. destruct (W L1) as [I1 R1].
      destruct (IH _ I1 L2) as [I2 R2]. split; [exact I2|]. split; [exact R1|exact R2].
  Qed.

  (** ** Draining *)

  Lemma next_none_done w S : inv w S -> (forall p n, ~ todo S p n) -> snd (get_next_dirty_node eqb w) = None.
  Proof.
    intros I N. pose proof (next_ok w _ _ (inv_marks _ _ I)) as W. destruct (get_next_dirty_node eqb w) as [w' [n|]]; [|reflexivity].
    destruct W as (_ & _ & _ & [[p H] _] & _). destruct (N p n H).
  Qed.
  Lemma discard_length x (d : list node) : In x d -> (length (s_discard eqb x d) < length d)%nat.
  Proof.
    intros I. unfold s_discard. assert (length d = length (filter (fun _ : node => true) d)) as ->.
    { clear. induction d; cbn [filter length]; congruence. }
    apply (filter_lt _ _ d x); auto. now rewrite (eqb_refl eqb eqb_spec).
  Qed.

  Lemma drain_ok : forall k w S, inv w S -> (length (dirty w) <= k)%nat ->
    exists l, NoDup l /\ (forall n, In n l <-> exists p, todo S p n) /\
      snd (run_work eqb order (repeat Next (length l + 1)) w) = map (fun n => (Next, Given (Some n))) l ++ [(Next, Given None)].
  Proof.
    induction k as [|k IH]; intros w S I Lk.
    all: pose proof (work_step_ok w S Next I Logic.I) as W; cbn [work_step right] in W;
      pose proof (next_ok w _ _ (inv_marks _ _ I)) as W'; destruct (get_next_dirty_node eqb w) as [w' [n|]] eqn:G.
    1,3: destruct W' as (_ & _ & _ & [[p H] _] & Dw); assert (In n (dirty w)) as Id by (apply (proj1 (proj2 (inv_marks _ _ I))); eauto).
    - destruct (dirty w); [destruct Id|cbn [length] in Lk; lia].
    - destruct W as [I' _]. destruct (IH w' _ I') as (l & ND & Hl & R); [rewrite Dw; pose proof (discard_length n _ Id); lia|].
      cbn [spec_step todo] in Hl. exists (n :: l). split; [|split].
      + constructor; [|exact ND]. intros J. apply Hl in J. destruct J as [q [_ J]]. congruence.
      + intros x. cbn [In]. rewrite Hl. split.
        * intros [<-|[q [J _]]]; eauto.
        * intros [q J]. destruct (eqb_spec n x) as [->|D]; [now left|]. right. exists q. split; [exact J|]. congruence.
      + cbn [length Nat.add repeat run_work work_step]. rewrite G. destruct (run_work eqb order (repeat Next (length l + 1)) w') as [w2 tr] eqn:F.
        cbn [snd] in R |- *. rewrite R. reflexivity.
    - destruct W' as (_ & _ & _ & N & _). exists []. split; [constructor|]. split; [intros x; split; [intros []|intros [q J]; destruct (N _ _ J)]|].
      cbn [length Nat.add repeat run_work work_step]. rewrite G. reflexivity.
    - destruct W' as (_ & _ & _ & N & _). exists []. split; [constructor|]. split; [intros x; split; [intros []|intros [q J]; destruct (N _ _ J)]|].
      cbn [length Nat.add repeat run_work work_step]. rewrite G. reflexivity.
  Qed.
End Work.
