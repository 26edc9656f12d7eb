(** Proofs about compiled control flow. *)
From Verif Require Import Base PyStmt Flow_Model Flow_Spec.
From Coq Require Import PeanoNat.
Set Implicit Arguments.
Open Scope Z_scope.

Scheme stmt_mind := Induction for stmt Sort Prop
  with block_mind := Induction for block Sort Prop
  with handlers_mind := Induction for handlers Sort Prop.
Combined Scheme program_ind from stmt_mind, block_mind, handlers_mind.

Lemma loc_eqb_refl : forall l, loc_eqb l l = true.
Proof. intros [a b]. unfold loc_eqb. cbn [fst snd]. rewrite !Nat.eqb_refl. reflexivity. Qed.

Lemma loc_eqb_eq : forall l l', loc_eqb l l' = true -> l = l'.
Proof.
  intros [a b] [a' b']. unfold loc_eqb. cbn [fst snd]. rewrite andb_true_iff, !Nat.eqb_eq.
  intros [-> ->]. reflexivity.
Qed.

Lemma loc_eqb_neq : forall l l', l <> l' -> loc_eqb l l' = false.
Proof.
  intros l l' H. destruct (loc_eqb l l') eqn:E; [|reflexivity]. apply loc_eqb_eq in E. contradiction.
Qed.

Lemma label_eqb_refl : forall l, label_eqb l l = true.
Proof. intros [| | |]; cbn [label_eqb]; try reflexivity; apply loc_eqb_refl. Qed.

Lemma label_eqb_eq : forall l l', label_eqb l l' = true -> l = l'.
Proof.
  intros [| | |] [| | |]; cbn [label_eqb]; try discriminate; try reflexivity;
    intros H; apply loc_eqb_eq in H; subst; reflexivity.
Qed.

Lemma bindr_fin : forall (L : lang) (r : res L) f o s,
  bindr r f = Fin o s -> exists o1 s1, r = Fin o1 s1 /\ f o1 s1 = Fin o s.
Proof.
  intros L [o1 s1|v s1 k|] f o s H; cbn [bindr] in H; try discriminate.
  eauto.
Qed.

(** ** What the compiler computes does not depend on where the statement stands *)
Section Flags.
  Context {L : lang}.
  Variable F : facts L.

  Definition same_loops (C C' : blocks) : Prop :=
    in_loop C = in_loop C' /\ in_loop_ever C = in_loop_ever C' .

  (** jumps to labels of 'try' are no breaks *)
  Definition to_try (C : blocks) : Prop :=
    match return_to C with
    | Some (LEndTry l, l') | Some (LEndFinally l, l') => l = l'
    | Some _ => False
    | None => True
    end.

  Lemma leave_targets : forall C C' lab code, to_try C -> to_try C' -> same_loops C C' ->
    targets LBreak (@leave_loop L lab code C) = targets LBreak (@leave_loop L lab code C').
  Proof.
    intros C C' lab code H H' (E & _). unfold leave_loop. rewrite E.
    destruct (in_loop C'); [reflexivity|].
    unfold to_try in *.
    destruct (return_to C) as [[[] ?]|]; destruct (return_to C') as [[[] ?]|]; try contradiction; reflexivity.
  Qed.

  Lemma stored_targets : forall C, to_try C -> targets LBreak (@conv_return_stored L C) = false.
  Proof.
    intros C H. unfold conv_return_stored, to_try in *.
    destruct (return_to C) as [[[] ?]|]; try contradiction; reflexivity.
  Qed.

  Lemma return_targets : forall C r, to_try C -> targets LBreak (@conv_return L r C) = false.
  Proof.
    intros C r H. unfold conv_return, to_try in *.
    destruct (return_to C) as [[[] ?]|]; try contradiction; reflexivity.
  Qed.

  Lemma to_try_loop : forall C, to_try C -> to_try (push_loop C).
  Proof. intros C H. exact H. Qed.

  Lemma flags :
    (forall st : stmt L, forall C C', to_try C -> to_try C' ->
       snd (conv F C st) = snd (conv F C' st) /\
       (same_loops C C' -> targets LBreak (fst (conv F C st)) = targets LBreak (fst (conv F C' st)))) /\
    (forall b : block L, forall C C', to_try C -> to_try C' ->
       snd (conv_block F C b) = snd (conv_block F C' b) /\
       (same_loops C C' ->
        targets LBreak (fst (conv_block F C b)) = targets LBreak (fst (conv_block F C' b)))) /\
    (forall hs : handlers L, forall l C C', to_try C -> to_try C' -> same_loops C C' ->
        targets LBreak (conv_handlers F l C hs) = targets LBreak (conv_handlers F l C' hs)).
  Proof.
    apply program_ind; cbn [conv conv_block conv_handlers].
    - split; reflexivity.
    - split; reflexivity.
    - intros t a IHa b IHb C C' H H'.
      destruct (IHa C C' H H') as [A1 A2]. destruct (IHb C C' H H') as [B1 B2].
      destruct (known F t) as [[]|].
      + destruct (conv_block F C a), (conv_block F C' a). cbn [fst snd targets orb] in *. auto.
      + destruct (conv_block F C b), (conv_block F C' b). cbn [fst snd targets orb] in *. auto.
      + destruct (conv_block F C a), (conv_block F C' a), (conv_block F C b), (conv_block F C' b).
        cbn [fst snd targets] in *. split; [congruence|]. intros E. rewrite A2, B2 by exact E. reflexivity.
    - intros t a IHa b IHb C C' H H'.
      destruct (IHa (push_loop C) (push_loop C') H H') as [A1 A2]. destruct (IHb C C' H H') as [B1 B2].
      specialize (A2 (conj eq_refl eq_refl)).
      destruct (known F t) as [[]|];
        destruct (conv_block F (push_loop C) a), (conv_block F (push_loop C') a),
          (conv_block F C b), (conv_block F C' b);
        cbn [fst snd targets label_eqb orb] in *; subst; try (split; [reflexivity|auto]).
      rewrite A2. split; reflexivity.
    - intros l x e a IHa b IHb C C' H H'.
      destruct (IHa (push_loop C) (push_loop C') H H') as [A1 A2].
      destruct (IHb (push_loop C) (push_loop C') H H') as [B1 B2].
      destruct (conv_block F (push_loop C) a), (conv_block F (push_loop C') a),
          (conv_block F (push_loop C) b), (conv_block F (push_loop C') b).
      cbn [fst snd targets label_eqb orb] in *. subst. split; reflexivity.
    - split; reflexivity.
    - intros C C' H H'. cbn [fst snd]. split; [reflexivity|]. apply leave_targets; assumption.
    - intros C C' H H'. cbn [fst snd]. split; [reflexivity|]. apply leave_targets; assumption.
    - intros r C C' H H'. cbn [fst snd]. split; [reflexivity|]. intros _.
      rewrite !return_targets by assumption. reflexivity.
    - intros l b IHb hs IHh o IHo f IHf C C' H H'. cbn [fst snd]. split; [reflexivity|].
      intros E. unfold conv_try. cbn [targets label_eqb].
      assert (E1 : same_loops (push_try (LEndTry l) l C) (push_try (LEndTry l) l C'))
        by (split; [reflexivity|exact (proj2 E)]).
      assert (E2 : same_loops (push_try (LEndFinally l) l C) (push_try (LEndFinally l) l C'))
        by (split; [reflexivity|exact (proj2 E)]).
      rewrite (proj2 (IHb (push_try (LEndTry l) l C) (push_try (LEndTry l) l C') eq_refl eq_refl) E1).
      rewrite (IHh l (push_try (LEndTry l) l C) (push_try (LEndTry l) l C') eq_refl eq_refl E1).
      pose proof (proj2 (IHo (push_try (LEndTry l) l C) (push_try (LEndTry l) l C') eq_refl eq_refl) E1) as Eo.
      rewrite (proj2 (IHf (push_try (LEndFinally l) l C) (push_try (LEndFinally l) l C') eq_refl eq_refl) E2).
      rewrite !stored_targets by assumption.
      rewrite (proj2 E).
      destruct (negb (is_nil o)); destruct (in_loop_ever C'); cbn [targets];
        rewrite ?Eo, ?(leave_targets LBreak CF_BREAK H H' E), ?(leave_targets LContinue CF_CONTINUE H H' E);
        reflexivity.
    - split; reflexivity.
    - intros st IHs b IHb C C' H H'.
      destruct (IHs C C' H H') as [A1 A2]. destruct (IHb C C' H H') as [B1 B2].
      destruct (conv F C st), (conv F C' st), (conv_block F C b), (conv_block F C' b).
      cbn [fst snd] in *. subst. destruct b1; cbn [fst snd targets]; split; auto.
      intros E. rewrite A2, B2 by exact E. reflexivity.
    - reflexivity.
    - intros m x b IHb hs IHh l C C' H H' E. unfold conv_handler. cbn [targets].
      rewrite (IHh l C C' H H' E).
      pose proof (proj2 (IHb C C' H H') E) as Eb.
      destruct x; cbn [targets]; rewrite Eb; reflexivity.
  Qed.

  Lemma ends_here : forall b C, to_try C -> snd (conv_block F C b) = ends F b.
  Proof. intros b C H. apply (proj1 (proj1 (proj2 flags) b C no_blocks H I)). Qed.
End Flags.

(** ** Jumps only go to where the code says *)
Lemma nwhile_targets : forall (L : lang) (F : facts L) cond body orelse l (t t' : nst L) n,
  (forall t t', body t = Some (NJumped l, t') -> False) ->
  (forall t t', orelse t = Some (NJumped l, t') -> False) ->
  nwhile cond body orelse n t = Some (NJumped l, t') -> False.
Proof.
  intros L F cond body orelse l t t' n Hb Ho. revert t. induction n as [|n IH]; intros t H; [discriminate|].
  cbn [nwhile] in H. destruct (cond t) as [t1 [[]|e]].
  - destruct (body t1) as [[[] t2]|] eqn:E; cbn [then_] in H; try discriminate; try (injection H; intros; subst).
    + eauto.
    + eauto.
  - eauto.
  - discriminate.
Qed.

Lemma nexec_targets : forall (L : lang) (F : facts L) n l (a : native L) t t',
  nexec F n a t = Some (NJumped l, t') -> targets l a = true.
Proof.
  intros L F n l a. induction a; intros t0 t' H; cbn [nexec targets] in *; try discriminate.
  - destruct (nexec F n a1 t0) as [[[] t1]|] eqn:E; cbn [then_] in H; try discriminate.
    + rewrite (IHa2 _ _ H), orb_true_r. reflexivity.
    + injection H as -> ->. rewrite (IHa1 _ _ E). reflexivity.
  - destruct (do_prim L p (n_info t0) (n_st t0)) as [s [e|]]; discriminate.
  - destruct (ntest F t t0) as [t1 [b|e]]; discriminate.
  - destruct (ntest F t t0) as [t1 [[]|e]]; try discriminate.
    + rewrite (IHa1 _ _ H). reflexivity.
    + rewrite (IHa2 _ _ H), orb_true_r. reflexivity.
  - destruct (targets l a1) eqn:E1; [reflexivity|]. destruct (targets l a2) eqn:E2; [reflexivity|].
    exfalso. revert H. apply (@nwhile_targets L F).
    + intros u u1 Hu. apply IHa1 in Hu. congruence.
    + intros u u1 Hu. apply IHa2 in Hu. congruence.
  - destruct (do_oexp L e (n_st t0)) as [s [v|ex]]; [|discriminate].
    destruct (do_iter L v s) as [s2 [v2|ex]]; discriminate.
  - destruct (targets l a1) eqn:E1; [reflexivity|]. destruct (targets l a2) eqn:E2; [reflexivity|].
    exfalso. revert H. apply (@nwhile_targets L F).
    + intros u u1 Hu. apply IHa1 in Hu. congruence.
    + intros u u1 Hu. apply IHa2 in Hu. congruence.
  - injection H as <- _. apply label_eqb_refl.
  - destruct (nexec F n a t0) as [[[] t1]|] eqn:E; try discriminate.
    destruct (label_eqb l0 l1) eqn:El; [discriminate|]. injection H as -> ->.
    destruct (label_eqb l l0) eqn:El2; [|eauto].
    apply label_eqb_eq in El2. subst. rewrite label_eqb_refl in El. discriminate.
  - destruct (nexec F n a1 t0) as [[[] t1]|] eqn:E; try discriminate.
    + injection H as -> ->. rewrite (IHa1 _ _ E). reflexivity.
    + rewrite (IHa2 _ _ H), orb_true_r. reflexivity.
  - destruct (nexec F n a t0) as [[[] t1]|] eqn:E; try discriminate. injection H as -> _. eauto.
  - destruct (n_occ t0).
    + rewrite (IHa1 _ _ H). reflexivity.
    + rewrite (IHa2 _ _ H), orb_true_r. reflexivity.
  - destruct (n_cf t0 l0 =? z); [eauto|discriminate].
  - destruct (n_err t0); discriminate.
  - destruct (n_info t0); discriminate.
  - destruct (n_err t0) as [e|]; [|discriminate]. destruct (matches L m e).
    + rewrite (IHa1 _ _ H). reflexivity.
    + rewrite (IHa2 _ _ H), orb_true_r. reflexivity.
  - destruct (nret F r t0) as [t1 [v|e]]; discriminate.
  - destruct (nret F r t0) as [t1 [v|e]]; discriminate.
  - destruct (n_ret t0); discriminate.
Qed.

(** ** A block left by 'break' or 'continue' has one *)
Section Leaves.
  Context {L : lang}.

  Definition left_by (brk : bool) (o : outcome L) : Prop := o = (if brk then Broke else Continued).

  Lemma while_left : forall t (body orelse : St L -> res L) brk n s o s',
    (forall s o s', orelse s = Fin o s' -> left_by brk o -> False) ->
    while_loop t body orelse n s = Fin o s' -> left_by brk o -> False.
  Proof.
    intros t body orelse brk n. induction n as [|n IH]; intros s o s' Ho H Hl; [discriminate|].
    cbn [while_loop] in H. destruct (t s) as [s1 [[]|e]].
    - apply bindr_fin in H as (o1 & s2 & _ & H). destruct o1; cbn [next_turn] in H.
      + eauto.
      + injection H as <- _. destruct brk; discriminate.
      + eauto.
      + injection H as <- _. destruct brk; discriminate.
      + injection H as <- _. destruct brk; discriminate.
    - eauto.
    - injection H as <- _. destruct brk; discriminate.
  Qed.

  Lemma for_left : forall x it (body orelse : St L -> res L) brk n s o s',
    (forall s o s', orelse s = Fin o s' -> left_by brk o -> False) ->
    for_loop x it body orelse n s = Fin o s' -> left_by brk o -> False.
  Proof.
    intros x it body orelse brk n. induction n as [|n IH]; intros s o s' Ho H Hl; [discriminate|].
    cbn [for_loop] in H. destruct (do_next L it s) as [s1 [[v|]|e]].
    - destruct (do_assign L x v s1) as [s2 [e|]].
      + injection H as <- _. destruct brk; discriminate.
      + apply bindr_fin in H as (o1 & s3 & _ & H). destruct o1; cbn [next_turn] in H.
        * eauto.
        * injection H as <- _. destruct brk; discriminate.
        * eauto.
        * injection H as <- _. destruct brk; discriminate.
        * injection H as <- _. destruct brk; discriminate.
    - eauto.
    - injection H as <- _. destruct brk; discriminate.
  Qed.

  Ltac no_way := match goal with
    | H : Fin ?a _ = Fin ?o _, Hl : left_by ?brk ?o |- _ =>
        injection H as <- _; destruct brk; discriminate
    end.

  Lemma leaves_if :
    (forall st : stmt L, forall brk n c s o s', exec n c st s = Fin o s' -> left_by brk o -> leaves brk st = true) /\
    (forall b : block L, forall brk n c s o s', exec_block n c b s = Fin o s' -> left_by brk o -> leaves_block brk b = true) /\
    (forall hs : handlers L, forall brk n e s o s', exec_handlers n e hs s = Fin o s' -> left_by brk o -> leaves_handlers brk hs = true).
  Proof.
    apply program_ind; cbn [exec exec_block exec_handlers leaves leaves_block leaves_handlers].
    - intros p brk n c s o s' H Hl. destruct (do_prim L p c s) as [s1 [e|]]; no_way.
    - intros y brk n c s o s' H Hl. destruct (do_yexp L y s) as [s1 [v|e]]; [discriminate|no_way].
    - intros t a IHa b IHb brk n c s o s' H Hl. destruct (do_test L t c s) as [s1 [[]|e]].
      + rewrite (IHa _ _ _ _ _ _ H Hl). reflexivity.
      + rewrite (IHb _ _ _ _ _ _ H Hl), orb_true_r. reflexivity.
      + no_way.
    - intros t a IHa b IHb brk n c s o s' H Hl.
      destruct (leaves_block brk b) eqn:E; [reflexivity|]. exfalso.
      revert H Hl. apply while_left. intros u o2 u' Hu Hl.
      rewrite (IHb _ _ _ _ _ _ Hu Hl) in E. discriminate.
    - intros l x e a IHa b IHb brk n c s o s' H Hl.
      destruct (do_oexp L e s) as [s1 [v|ex]]; [|no_way].
      destruct (do_iter L v s1) as [s2 [it|ex]]; [|no_way].
      destruct (leaves_block brk b) eqn:E; [reflexivity|]. exfalso.
      revert H Hl. apply for_left. intros u o2 u' Hu Hl.
      rewrite (IHb _ _ _ _ _ _ Hu Hl) in E. discriminate.
    - intros l e x a IHa brk n c s o s' H Hl.
      destruct (do_oexp L e s) as [s1 [v|ex]]; [|no_way].
      destruct (do_enter L v s1) as [s2 [w|ex]]; [|no_way].
      apply bindr_fin in H as (o1 & s3 & H1 & H2).
      assert (Hl1 : left_by brk o1).
      { destruct o1; cbn [leave_with] in H2;
          [destruct (do_exit L v None s3) as [s4 [z|ex]] .. |destruct (do_exit L v (Some e0) s3) as [s4 [[]|ex]]];
          injection H2 as <- _; destruct brk; first [discriminate|reflexivity]. }
      destruct x as [y|].
      + destruct (do_assign L y w s2) as [s4 [ex|]].
        * injection H1 as <- _. destruct brk; discriminate.
        * eauto.
      + eauto.
    - intros brk n c s o s' H Hl. injection H as <- _. destruct brk; [reflexivity|discriminate].
    - intros brk n c s o s' H Hl. injection H as <- _. destruct brk; [discriminate|reflexivity].
    - intros [r|] brk n c s o s' H Hl; [destruct (do_rexp L r s) as [s1 [v|e]]|]; no_way.
    - intros l b IHb hs IHh ob IHo f IHf brk n c s o s' H Hl.
      apply bindr_fin in H as (o2 & s2 & H2 & H).
      apply bindr_fin in H2 as (o1 & s1 & H1 & H2).
      unfold run_final in H. apply bindr_fin in H as (o3 & s3 & H3 & H).
      destruct o3.
      2,3,4,5: injection H as <- _; rewrite (IHf _ _ _ _ _ _ H3 Hl), !orb_true_r; reflexivity.
      injection H as <- _. destruct o1.
      + rewrite (IHo _ _ _ _ _ _ H2 Hl), !orb_true_r. reflexivity.
      + injection H2 as <- _. rewrite (IHb _ _ _ _ _ _ H1 Hl). reflexivity.
      + injection H2 as <- _. rewrite (IHb _ _ _ _ _ _ H1 Hl). reflexivity.
      + no_way.
      + rewrite (IHh _ _ _ _ _ _ H2 Hl), !orb_true_r. reflexivity.
    - intros brk n c s o s' H Hl. no_way.
    - intros st IHs b IHb brk n c s o s' H Hl.
      apply bindr_fin in H as (o1 & s1 & H1 & H). destruct o1; cbn [and_then] in H.
      1: rewrite (IHb _ _ _ _ _ _ H Hl), orb_true_r; reflexivity.
      all: injection H as <- _; rewrite (IHs _ _ _ _ _ _ H1 Hl); reflexivity.
    - intros brk n e s o s' H Hl. no_way.
    - intros m x b IHb hs IHh brk n e s o s' H Hl. destruct (matches L m e).
      + destruct x as [y|]; cbn [run_named] in H.
        * apply bindr_fin in H as (o1 & s1 & H1 & H). injection H as <- _.
          rewrite (IHb _ _ _ _ _ _ H1 Hl). reflexivity.
        * rewrite (IHb _ _ _ _ _ _ H Hl). reflexivity.
      + rewrite (IHh _ _ _ _ _ _ H Hl), orb_true_r. reflexivity.
  Qed.
End Leaves.

(** ** The simulation *)
Section Sim.
  Context {L : lang}.
  Variable F : facts L.
  Hypothesis sound : sound_facts F.

  Definition left_rel (inner : label) (code : Z) (C : blocks) (no : nout L) (t' : nst L) : Prop :=
    if in_loop C then no = NJumped inner
    else match return_to C with
         | None => False
         | Some (to, l) => no = NJumped to /\ n_cf t' l = code
         end.

  (** how the native code ends when the program ends in [o] *)
  Definition out_rel (C : blocks) (o : outcome L) (no : nout L) (t' : nst L) : Prop :=
    match o with
    | Done => no = NDone
    | Raised e => no = NThrown /\ n_err t' = Some e
    | Broke => left_rel LBreak CF_BREAK C no t'
    | Continued => left_rel LContinue CF_CONTINUE C no t'
    | Returned r =>
        match return_to C with
        | None => no = NReturned r
        | Some (to, l) => no = NJumped to /\ n_cf t' l = CF_RETURN /\ n_ret t' = Some r
        end
    end.

  (** the slot that is written when the program leaves for a 'try' around it *)
  Definition jumps (C : blocks) (o : outcome L) : option loc :=
    match o with
    | Broke | Continued => if in_loop C then None else option_map snd (return_to C)
    | Returned _ => option_map snd (return_to C)
    | _ => None
    end.

  Definition stays (C : blocks) (o : outcome L) : bool :=
    match o with
    | Done => true
    | Broke | Continued => in_loop C
    | _ => false
    end.

  Record post (C : blocks) (sees keep tf inside : bool) (ls : list loc) (fs : list nat)
      (t : nst L) (o : outcome L) (s' : St L) (no : nout L) (t' : nst L) : Prop := Post {
    p_st : n_st t' = s';
    p_out : out_rel C o no t';
    p_cf : forall l, In l ls -> jumps C o <> Some l -> n_cf t' l = n_cf t l;
    p_it : forall i, In i fs -> n_iter t' i = n_iter t i;
    p_none : sees = true -> keep = false -> n_info t' = None;
    p_keep : keep = true -> n_info t' = n_info t \/ n_info t' = None;
    p_stay : keep = true -> stays C o = true -> n_info t' = n_info t;
    p_clear : jumps C o <> None -> n_occ t' = true -> n_info t' = None;
    p_occ : keep = true \/ tf = true -> n_occ t' = n_occ t;
    p_ret : keep = true \/ tf = true -> (forall r, o <> Returned r) -> n_ret t' = n_ret t;
    p_in : o = Broke \/ o = Continued -> inside = true
  }.

  (** where a statement may stand *)
  Definition okC (C : blocks) (inside : bool) (ls : list loc) : Prop :=
    to_try C /\ in_loop_ever C = inside /\
    (inside = true -> in_loop C = true \/ return_to C <> None) /\
    (forall to l, return_to C = Some (to, l) -> In l ls).

  Definition pre (sees keep : bool) (c : option (Exc L)) (t : nst L) : Prop :=
    (sees = true -> n_info t = c) /\ (sees = true -> keep = false -> c = None).

  Definition sim (native_ : blocks -> native L) (flag : blocks -> bool) (tf : bool)
      (ok : bool -> bool -> bool -> list loc -> list nat -> Prop)
      (run : nat -> option (Exc L) -> St L -> res L) : Prop :=
    forall n C c sees keep inside ls fs o s' t,
      okC C inside ls -> ok sees keep inside ls fs -> pre sees keep c t ->
      run n c (n_st t) = Fin o s' ->
      exists no t', nexec F n (native_ C) t = Some (no, t') /\
        post C sees keep tf inside ls fs t o s' no t' /\
        (o = Done -> flag C = true).

  Lemma post_trans : forall C sees keep tf tf1 tf2 inside ls fs t s1 no1 t1 o s' no t',
    (tf = true -> tf1 = true /\ tf2 = true) ->
    post C sees keep tf1 inside ls fs t Done s1 no1 t1 ->
    post C sees keep tf2 inside ls fs t1 o s' no t' ->
    post C sees keep tf inside ls fs t o s' no t'.
  Proof.
    intros C sees keep tf tf1 tf2 inside ls fs t s1 no1 t1 o s' no t' Htf A B. destruct A, B.
    cbn [jumps stays] in *.
    constructor; auto.
    - intros l Hl Hj. rewrite p_cf1 by assumption. apply p_cf0; [assumption|discriminate].
    - intros i Hi. rewrite p_it1 by assumption. auto.
    - intros Hk. destruct (p_keep1 Hk) as [-> | ->]; auto.
    - intros Hk Hs. rewrite p_stay1 by assumption. auto.
    - intros [Hk|Ht]; [rewrite p_occ1 by auto; auto|].
      destruct (Htf Ht). rewrite p_occ1 by auto. auto.
    - intros Hk Hr. assert (forall r, @Done L <> Returned r) by discriminate.
      destruct Hk as [Hk|Ht]; [rewrite p_ret1 by auto; auto|].
      destruct (Htf Ht). rewrite p_ret1 by auto. auto.
  Qed.

  Lemma post_weaken : forall C sees keep tf tf1 inside ls fs t o s' no t',
    (tf = true -> tf1 = true) ->
    post C sees keep tf1 inside ls fs t o s' no t' -> post C sees keep tf inside ls fs t o s' no t'.
  Proof.
    intros C sees keep tf tf1 inside ls fs t o s' no t' Htf A. destruct A.
    constructor; auto.
    - intros [Hk|Ht]; auto.
    - intros [Hk|Ht]; auto.
  Qed.

  (** after a piece of the program that is not control flow *)
  Lemma ran_post : forall C sees keep tf inside ls fs c (t : nst L) s (r : bool),
    pre sees keep c t -> (keep = true -> r = false) ->
    post C sees keep tf inside ls fs t Done s NDone (ran r s t).
  Proof.
    intros C sees keep tf inside ls fs c t s r [H1 H2] Hr.
    assert (Hi : n_info (ran r s t) = if r then None else n_info t) by (destruct r; reflexivity).
    constructor.
    - reflexivity.
    - reflexivity.
    - destruct r; reflexivity.
    - destruct r; reflexivity.
    - intros Hs Hk. rewrite Hi. rewrite (H1 Hs), (H2 Hs Hk). destruct r; reflexivity.
    - intros Hk. rewrite Hi, (Hr Hk). auto.
    - intros Hk _. rewrite Hi, (Hr Hk). auto.
    - intros H. exfalso. apply H. reflexivity.
    - destruct r; reflexivity.
    - destruct r; reflexivity.
    - intros [H|H]; discriminate.
  Qed.

  (** the same, and then an exception *)
  Lemma throw_post : forall C sees keep tf inside ls fs t s1 no1 t1 e,
    post C sees keep tf inside ls fs t Done s1 no1 t1 ->
    post C sees keep tf inside ls fs t (Raised e) s1 NThrown (w_err (Some e) t1).
  Proof.
    intros C sees keep tf inside ls fs t s1 no1 t1 e A. destruct A.
    cbn [jumps stays] in *.
    constructor; cbn [w_err n_st n_err n_info n_occ n_cf n_ret n_iter out_rel jumps stays]; auto.
    - intros Hk _. apply p_ret0; [assumption|discriminate].
    - intros [H|H]; discriminate.
  Qed.

  (** it can happen again *)
  Lemma pre_again : forall C sees keep tf inside ls fs c t s1 no1 t1,
    pre sees keep c t -> post C sees keep tf inside ls fs t Done s1 no1 t1 -> pre sees keep c t1.
  Proof.
    intros C sees keep tf inside ls fs c t s1 no1 t1 [H1 H2] A. destruct A. split; [|exact H2].
    intros Hs. destruct keep.
    - rewrite p_stay0 by reflexivity. auto.
    - rewrite (p_none0 Hs eq_refl). symmetry. auto.
  Qed.

  Lemma prim_case : forall p,
    sim (fun C => fst (conv F C (SPrim p))) (fun C => snd (conv F C (SPrim p))) true
        (fun sees keep inside ls fs => supported F sees keep inside ls fs (SPrim p))
        (fun n c => exec n c (SPrim p)).
  Proof.
    intros p n C c sees keep inside ls fs o s' t _ [Hb Hr] Hp H.
    cbn [conv fst snd nexec exec] in *.
    assert (E : do_prim L p (n_info t) (n_st t) = do_prim L p c (n_st t)).
    { destruct Hb as [Hs|Hb]; [rewrite (proj1 Hp Hs); reflexivity|apply Hb]. }
    rewrite E. destruct (do_prim L p c (n_st t)) as [s1 [e|]] eqn:Ep.
    - injection H as <- <-. eexists _, _. split; [reflexivity|]. split; [|discriminate].
      eapply throw_post. eapply ran_post; eassumption.
    - injection H as <- <-. eexists _, _. split; [reflexivity|]. split; [eapply ran_post; eassumption|].
      intros _. destruct (falls F p) eqn:Ef; [reflexivity|].
      exfalso. apply (proj1 sound p c (n_st t) Ef). rewrite Ep. reflexivity.
  Qed.

  (** conditions *)
  Lemma test_run : forall u sees keep c t s1 r,
    (sees = true \/ blind_test u) -> pre sees keep c t -> do_test L u c (n_st t) = (s1, r) ->
    ntest F u t = (ran (resets_test F u) s1 t, r).
  Proof.
    intros u sees keep c t s1 r Hb Hp H. unfold ntest.
    assert (E : do_test L u (n_info t) (n_st t) = do_test L u c (n_st t)).
    { destruct Hb as [Hs|Hb]; [rewrite (proj1 Hp Hs); reflexivity|apply Hb]. }
    rewrite E, H. reflexivity.
  Qed.

  Lemma if_case : forall u a b,
    sim (fun C => fst (conv_block F C a)) (fun C => snd (conv_block F C a)) (try_free_block a)
        (fun sees keep inside ls fs => supported_block F sees keep inside ls fs a) (fun n c => exec_block n c a) ->
    sim (fun C => fst (conv_block F C b)) (fun C => snd (conv_block F C b)) (try_free_block b)
        (fun sees keep inside ls fs => supported_block F sees keep inside ls fs b) (fun n c => exec_block n c b) ->
    sim (fun C => fst (conv F C (SIf u a b))) (fun C => snd (conv F C (SIf u a b))) (try_free (SIf u a b))
        (fun sees keep inside ls fs => supported F sees keep inside ls fs (SIf u a b))
        (fun n c => exec n c (SIf u a b)).
  Proof.
    intros u a b IHa IHb n C c sees keep inside ls fs o s' t HC (Hb & Hr & Ha & Hbb) Hp H.
    cbn [conv exec try_free] in *.
    destruct (do_test L u c (n_st t)) as [s1 r] eqn:Et.
    pose proof (test_run Hb Hp Et) as En.
    pose proof (@ran_post C sees keep (try_free_block a && try_free_block b) inside ls fs c t s1 (resets_test F u) Hp Hr) as P0.
    set (t1 := ran (resets_test F u) s1 t) in *.
    assert (Hp1 : pre sees keep c t1) by (eapply pre_again; eassumption).
    assert (Es : n_st t1 = s1) by reflexivity.
    assert (A : r = inl true -> exists no t', nexec F n (fst (conv_block F C a)) t1 = Some (no, t') /\
        post C sees keep (try_free_block a && try_free_block b) inside ls fs t o s' no t' /\
        (o = Done -> snd (conv_block F C a) = true)).
    { intros ->. rewrite <- Es in H.
      destruct (IHa n C c sees keep inside ls fs o s' t1 HC Ha Hp1 H) as (no & t' & E1 & P1 & D1).
      exists no, t'. split; [exact E1|]. split; [|exact D1].
      eapply post_trans; [|exact P0|exact P1]. rewrite andb_true_iff. tauto. }
    assert (B : r = inl false -> exists no t', nexec F n (fst (conv_block F C b)) t1 = Some (no, t') /\
        post C sees keep (try_free_block a && try_free_block b) inside ls fs t o s' no t' /\
        (o = Done -> snd (conv_block F C b) = true)).
    { intros ->. rewrite <- Es in H.
      destruct (IHb n C c sees keep inside ls fs o s' t1 HC Hbb Hp1 H) as (no & t' & E1 & P1 & D1).
      exists no, t'. split; [exact E1|]. split; [|exact D1].
      eapply post_trans; [|exact P0|exact P1]. rewrite andb_true_iff. tauto. }
    destruct (known F u) as [v|] eqn:Ek.
    - pose proof (proj2 sound u v c (n_st t) Ek) as Ev. rewrite Et in Ev. cbn [snd] in Ev. subst r.
      destruct v.
      + destruct (A eq_refl) as (no & t' & E1 & P1 & D1). destruct (conv_block F C a) as [na ra].
        cbn [fst snd nexec then_ go] in *. rewrite En. cbn [then_ go]. eauto.
      + destruct (B eq_refl) as (no & t' & E1 & P1 & D1). destruct (conv_block F C b) as [nb rb].
        cbn [fst snd nexec then_ go] in *. rewrite En. cbn [then_ go]. eauto.
    - destruct (conv_block F C a) as [na ra], (conv_block F C b) as [nb rb].
      cbn [fst snd nexec] in *. rewrite En.
      destruct r as [[]|e].
      + destruct (A eq_refl) as (no & t' & E1 & P1 & D1). exists no, t'. split; [exact E1|]. split; [exact P1|].
        intros Ho. rewrite (D1 Ho). reflexivity.
      + destruct (B eq_refl) as (no & t' & E1 & P1 & D1). exists no, t'. split; [exact E1|]. split; [exact P1|].
        intros Ho. rewrite (D1 Ho), orb_true_r. reflexivity.
      + injection H as <- <-. eexists _, _. split; [reflexivity|]. split; [|discriminate].
        eapply throw_post. exact P0.
  Qed.

  Lemma cons_case : forall st b,
    sim (fun C => fst (conv F C st)) (fun C => snd (conv F C st)) (try_free st)
        (fun sees keep inside ls fs => supported F sees keep inside ls fs st) (fun n c => exec n c st) ->
    sim (fun C => fst (conv_block F C b)) (fun C => snd (conv_block F C b)) (try_free_block b)
        (fun sees keep inside ls fs => supported_block F sees keep inside ls fs b) (fun n c => exec_block n c b) ->
    sim (fun C => fst (conv_block F C (BCons st b))) (fun C => snd (conv_block F C (BCons st b)))
        (try_free_block (BCons st b))
        (fun sees keep inside ls fs => supported_block F sees keep inside ls fs (BCons st b))
        (fun n c => exec_block n c (BCons st b)).
  Proof.
    intros st b IHs IHb n C c sees keep inside ls fs o s' t HC [Hs Hb] Hp H.
    cbn [conv_block exec_block try_free_block] in *.
    apply bindr_fin in H as (o1 & s1 & H1 & H).
    destruct (IHs n C c sees keep inside ls fs o1 s1 t HC Hs Hp H1) as (no1 & t1 & E1 & P1 & D1).
    destruct (conv F C st) as [ns rs]. cbn [fst snd] in *.
    assert (A : o1 <> Done -> o1 = o /\ s1 = s' /\ no1 <> NDone).
    { intros Hn. pose proof (p_out P1) as Ho. destruct o1; cbn [and_then] in H; try congruence;
        injection H as <- <-; (split; [reflexivity|split; [reflexivity|]]); cbn [out_rel] in Ho.
      - unfold left_rel in Ho. destruct (in_loop C); [congruence|]. destruct (return_to C) as [[]|]; [|contradiction].
        destruct Ho; congruence.
      - unfold left_rel in Ho. destruct (in_loop C); [congruence|]. destruct (return_to C) as [[]|]; [|contradiction].
        destruct Ho; congruence.
      - destruct (return_to C) as [[]|]; [|congruence]. destruct Ho; congruence.
      - destruct Ho; congruence. }
    assert (W : o1 <> Done -> post C sees keep (try_free st && try_free_block b) inside ls fs t o s' no1 t1).
    { intros Hn. destruct (A Hn) as (<- & <- & _). eapply post_weaken; [|exact P1].
      rewrite andb_true_iff. tauto. }
    destruct rs.
    - destruct o1; cbn [and_then] in H.
      2,3,4,5: destruct A as (<- & <- & Hno); [discriminate|]; destruct (conv_block F C b) as [nb rb];
        cbn [fst snd nexec]; rewrite E1; exists no1, t1;
        (split; [destruct no1; [congruence|reflexivity ..]|]); (split; [apply W; discriminate|discriminate]).
      rewrite <- (p_st P1) in H.
      destruct (IHb n C c sees keep inside ls fs o s' t1 HC Hb (pre_again Hp P1) H) as (no & t' & E2 & P2 & D2).
      destruct (conv_block F C b) as [nb rb]. cbn [fst snd nexec] in *. rewrite E1.
      pose proof (p_out P1) as Ho. cbn [out_rel] in Ho. subst no1. cbn [then_].
      exists no, t'. split; [exact E2|]. split; [|exact D2].
      eapply post_trans; [|exact P1|exact P2]. rewrite andb_true_iff. tauto.
    - assert (Hn : o1 <> Done) by (intros ->; specialize (D1 eq_refl); discriminate).
      cbn [fst snd]. exists no1, t1. split; [exact E1|]. split; [exact (W Hn)|].
      intros ->. destruct (A Hn) as (-> & _). congruence.
  Qed.

  Lemma nil_case :
    sim (fun C => fst (conv_block F C BNil)) (fun C => snd (conv_block F C BNil)) true
        (fun sees keep inside ls fs => supported_block F sees keep inside ls fs BNil)
        (fun n c => exec_block n c BNil).
  Proof.
    intros n C c sees keep inside ls fs o s' t _ _ Hp H. cbn [exec_block] in H. injection H as <- <-.
    exists NDone, t. split; [reflexivity|]. split; [|reflexivity].
    destruct Hp as [H1 H2]. constructor; try reflexivity; auto.
    - intros Hs Hk. rewrite H1, H2 by assumption. reflexivity.
    - intros H. exfalso. apply H. reflexivity.
    - intros [H|H]; discriminate.
  Qed.

  (** *** Leaving *)
  Definition lab (brk : bool) : label := if brk then LBreak else LContinue.
  Definition code (brk : bool) : Z := if brk then CF_BREAK else CF_CONTINUE.
  Definition left (brk : bool) : outcome L := if brk then Broke else Continued.

  Definition cleared (t : nst L) : nst L := if n_occ t then w_info None t else t.

  Lemma run_clear : forall n t, nexec F n clear_if_occ t = Some (NDone, cleared t).
  Proof. intros n t. unfold clear_if_occ, cleared. cbn [nexec]. destruct (n_occ t); reflexivity. Qed.

  Lemma cleared_info : forall t, n_occ (cleared t) = true -> n_info (cleared t) = None.
  Proof. intros t. unfold cleared. destruct (n_occ t) eqn:E; [reflexivity|congruence]. Qed.

  Lemma cleared_or : forall t, n_info (cleared t) = n_info t \/ n_info (cleared t) = None.
  Proof. intros t. unfold cleared. destruct (n_occ t); auto. Qed.

  Lemma cleared_none : forall t, n_info t = None -> n_info (cleared t) = None.
  Proof. intros t H. destruct (cleared_or t) as [E|E]; congruence. Qed.

  Lemma cleared_rest : forall t, n_st (cleared t) = n_st t /\ n_err (cleared t) = n_err t /\
    n_occ (cleared t) = n_occ t /\ n_cf (cleared t) = n_cf t /\ n_ret (cleared t) = n_ret t /\
    n_iter (cleared t) = n_iter t.
  Proof. intros t. unfold cleared. destruct (n_occ t) eqn:E; repeat split; exact E. Qed.

  Lemma w_cf_same : forall l z (t : nst L), n_cf (w_cf l z t) l = z.
  Proof. intros. cbn [w_cf n_cf]. rewrite loc_eqb_refl. reflexivity. Qed.

  Lemma w_cf_other : forall l l' z (t : nst L), l <> l' -> n_cf (w_cf l z t) l' = n_cf t l'.
  Proof. intros. cbn [w_cf n_cf]. rewrite loc_eqb_neq by assumption. reflexivity. Qed.

  Lemma leave_post : forall brk C sees keep tf inside ls fs c t n,
    okC C inside ls -> inside = true -> pre sees keep c t ->
    exists no t', nexec F n (leave_loop (lab brk) (code brk) C) t = Some (no, t') /\
      post C sees keep tf inside ls fs t (left brk) (n_st t) no t'.
  Proof.
    intros brk C sees keep tf inside ls fs c t n (Ht & He & Hc & Hl) Hi [H1 H2].
    unfold leave_loop. destruct (in_loop C) eqn:El.
    - exists (NJumped (lab brk)), t. split; [reflexivity|].
      assert (J : jumps C (left brk) = None) by (unfold left; destruct brk; cbn [jumps]; rewrite El; reflexivity).
      constructor; auto; try (rewrite J; intros H; exfalso; apply H; reflexivity).
      + unfold out_rel, left, left_rel. destruct brk; rewrite El; reflexivity.
      + intros Hs Hk. rewrite (H1 Hs). auto.
    - destruct (Hc Hi) as [H|H]; [discriminate|].
      destruct (return_to C) as [[to l]|] eqn:Er; [|congruence].
      cbn [nexec then_ go]. rewrite run_clear. cbn [then_].
      destruct (cleared_rest (w_cf l (code brk) t)) as (R1 & R2 & R3 & R4 & R5 & R6).
      eexists _, _. split; [reflexivity|].
      assert (J : jumps C (left brk) = Some l)
        by (unfold left; destruct brk; cbn [jumps]; rewrite El, Er; reflexivity).
      constructor.
      + rewrite R1. reflexivity.
      + unfold out_rel, left, left_rel. destruct brk; rewrite El, Er, R4, w_cf_same; auto.
      + intros l' Hl' Hj. rewrite R4. apply w_cf_other. congruence.
      + intros i Hi'. rewrite R6. reflexivity.
      + intros Hs Hk. apply cleared_none. cbn [w_cf n_info]. rewrite (H1 Hs). auto.
      + intros _. exact (cleared_or (w_cf l (code brk) t)).
      + intros _ Hst. unfold left in Hst. destruct brk; cbn [stays] in Hst; congruence.
      + intros _. apply cleared_info.
      + intros _. rewrite R3. reflexivity.
      + intros _ _. rewrite R5. reflexivity.
      + intros _. exact Hi.
  Qed.

  Lemma stored_post : forall r C sees keep tf inside ls fs c t n,
    okC C inside ls -> pre sees keep c t -> n_ret t = Some r ->
    exists no t', nexec F n (conv_return_stored C) t = Some (no, t') /\
      post C sees keep tf inside ls fs t (Returned r) (n_st t) no t'.
  Proof.
    intros r C sees keep tf inside ls fs c t n (Ht & He & Hc & Hl) [H1 H2] Hr.
    unfold conv_return_stored. destruct (return_to C) as [[to l]|] eqn:Er.
    - cbn [nexec then_ go]. rewrite run_clear. cbn [then_].
      destruct (cleared_rest (w_cf l CF_RETURN t)) as (R1 & R2 & R3 & R4 & R5 & R6).
      eexists _, _. split; [reflexivity|].
      constructor.
      + rewrite R1. reflexivity.
      + unfold out_rel. rewrite Er, R4, w_cf_same, R5. auto.
      + intros l' Hl' Hj. rewrite R4. apply w_cf_other. cbn [jumps] in Hj. rewrite Er in Hj.
        cbn [option_map snd] in Hj. congruence.
      + intros i Hi'. rewrite R6. reflexivity.
      + intros Hs Hk. apply cleared_none. cbn [w_cf n_info]. rewrite (H1 Hs). auto.
      + intros _. exact (cleared_or (w_cf l CF_RETURN t)).
      + intros _ Hst. discriminate.
      + intros _. apply cleared_info.
      + intros _. rewrite R3. reflexivity.
      + intros _ Hx. exfalso. apply (Hx r). reflexivity.
      + intros [H|H]; discriminate.
    - cbn [nexec]. rewrite Hr. eexists _, _. split; [reflexivity|].
      constructor; auto.
      + unfold out_rel. rewrite Er. reflexivity.
      + intros Hs Hk. rewrite (H1 Hs). auto.
      + intros H. exfalso. apply H. cbn [jumps]. rewrite Er. reflexivity.
      + intros [H|H]; discriminate.
  Qed.

  Lemma break_case : forall (brk : bool) (st : stmt L), st = (if brk then @SBreak L else @SContinue L) ->
    sim (fun C => fst (conv F C st)) (fun C => snd (conv F C st)) true
        (fun sees keep inside ls fs => supported F sees keep inside ls fs st)
        (fun n c => exec n c st).
  Proof.
    intros brk st -> n C c sees keep inside ls fs o s' t HC Hs Hp H.
    assert (Hi : inside = true) by (destruct brk; exact Hs).
    destruct (@leave_post brk C sees keep true inside ls fs c t n HC Hi Hp) as (no & t' & E & P).
    destruct brk; cbn [exec] in H; injection H as <- <-; exists no, t'; (split; [exact E|]); (split; [exact P|]);
      discriminate.
  Qed.

  Lemma return_case : forall r,
    sim (fun C => fst (conv F C (SReturn r))) (fun C => snd (conv F C (SReturn r))) true
        (fun sees keep inside ls fs => supported F sees keep inside ls fs (SReturn r))
        (fun n c => exec n c (SReturn r)).
  Proof.
    intros r n C c sees keep inside ls fs o s' t HC _ Hp H.
    cbn [conv fst snd] in *.
    (* evaluating the value *)
    assert (V : exists b s1 v, nret F r t = (ran b s1 t, v) /\
        exec n c (SReturn r) (n_st t) = match v with inl w => Fin (Returned w) s1 | inr e => Fin (Raised e) s1 end).
    { cbn [exec nret]. destruct r as [r|].
      - cbn [nret]. destruct (do_rexp L r (n_st t)) as [s1 [v|e]].
        + exists (resets_ret F r), s1, (inl (Some v)). split; reflexivity.
        + exists (resets_ret F r), s1, (inr e). split; reflexivity.
      - exists false, (n_st t), (inl None). split; [|reflexivity].
        cbn [nret]. destruct t; reflexivity. }
    destruct V as (b & s1 & v & En & Ev). rewrite Ev in H. clear Ev.
    set (t1 := ran b s1 t) in *.
    assert (Q : n_st t1 = s1 /\ n_occ t1 = n_occ t /\ n_cf t1 = n_cf t /\ n_ret t1 = n_ret t /\
                n_iter t1 = n_iter t /\ (n_info t1 = n_info t \/ n_info t1 = None)).
    { unfold t1, ran. destruct b; repeat split; auto. }
    destruct Q as (Q1 & Q2 & Q3 & Q4 & Q5 & Q6).
    assert (N : sees = true -> keep = false -> n_info t1 = None).
    { intros Hs Hk. destruct Hp as [A B]. destruct Q6 as [Q6|Q6]; [|exact Q6]. rewrite Q6, (A Hs). auto. }
    destruct v as [v|e].
    - injection H as <- <-.
      destruct HC as (Ht & He & Hc & Hl).
      unfold conv_return. destruct (return_to C) as [[to l]|] eqn:Er.
      + cbn [nexec then_ go]. rewrite En. cbn [then_ go nexec]. rewrite run_clear. cbn [then_].
        destruct (cleared_rest (w_cf l CF_RETURN (w_ret v t1))) as (R1 & R2 & R3 & R4 & R5 & R6).
        eexists _, _. split; [reflexivity|]. split; [|discriminate].
        constructor.
        * rewrite R1. exact Q1.
        * unfold out_rel. rewrite Er, R4, w_cf_same, R5. auto.
        * intros l' Hl' Hj. rewrite R4, w_cf_other.
          -- cbn [w_ret n_cf]. rewrite Q3. reflexivity.
          -- cbn [jumps] in Hj. rewrite Er in Hj. cbn [option_map snd] in Hj. congruence.
        * intros i Hi'. rewrite R6. cbn [w_cf w_ret n_iter]. rewrite Q5. reflexivity.
        * intros Hs Hk. apply cleared_none. cbn [w_cf w_ret n_info]. auto.
        * intros _. destruct (cleared_or (w_cf l CF_RETURN (w_ret v t1))) as [E|E]; [|auto].
          rewrite E. exact Q6.
        * intros _ Hst. discriminate.
        * intros _. apply cleared_info.
        * intros _. rewrite R3. exact Q2.
        * intros _ Hx. exfalso. apply (Hx v). reflexivity.
        * intros [H|H]; discriminate.
      + cbn [nexec]. rewrite En. eexists _, _. split; [reflexivity|]. split; [|discriminate].
        constructor; auto.
        * unfold out_rel. rewrite Er. reflexivity.
        * intros l' Hl' Hj. rewrite Q3. reflexivity.
        * intros i _. rewrite Q5. reflexivity.
        * intros _ Hst. discriminate.
        * intros H. exfalso. apply H. cbn [jumps]. rewrite Er. reflexivity.
        * intros [H|H]; discriminate.
    - injection H as <- <-. exists NThrown, (w_err (Some e) t1). split.
      + unfold conv_return. destruct (return_to C) as [[to l]|]; cbn [nexec then_ go]; rewrite En; reflexivity.
      + split; [|discriminate].
        constructor; cbn [w_err n_st n_err n_info n_occ n_cf n_ret n_iter]; auto.
        * split; reflexivity.
        * intros l' Hl' Hj. rewrite Q3. reflexivity.
        * intros i _. rewrite Q5. reflexivity.
        * intros _ Hst. discriminate.
        * intros H. exfalso. apply H. reflexivity.
        * intros [H|H]; discriminate.
  Qed.

  (** *** Loops *)
  Lemma post_push : forall C sees keep tf inside ls fs fs' t o s' no t',
    o = Done \/ o = Continued \/ o = Broke -> incl fs fs' ->
    post (push_loop C) sees keep tf true ls fs' t o s' no t' ->
    post C sees keep tf inside ls fs t Done s' NDone t'.
  Proof.
    intros C sees keep tf inside ls fs fs' t o s' no t' Ho Hf A. destruct A.
    assert (J : jumps (push_loop C) o = None) by (destruct Ho as [-> | [-> | ->]]; reflexivity).
    assert (S : stays (push_loop C) o = true) by (destruct Ho as [-> | [-> | ->]]; reflexivity).
    assert (R : forall r, o <> Returned r) by (destruct Ho as [-> | [-> | ->]]; discriminate).
    constructor; auto.
    - reflexivity.
    - intros l Hl _. apply p_cf0; [assumption|]. rewrite J. discriminate.
    - intros [H|H]; discriminate.
  Qed.

  Lemma post_pass : forall C sees keep tf inside ls fs fs' t o s' no t',
    (exists r, o = Returned r) \/ (exists e, o = Raised e) -> incl fs fs' ->
    post (push_loop C) sees keep tf true ls fs' t o s' no t' ->
    post C sees keep tf inside ls fs t o s' no t'.
  Proof.
    intros C sees keep tf inside ls fs fs' t o s' no t' Ho Hf A. destruct A.
    destruct Ho as [[r ->] | [e ->]]; cbn [out_rel jumps stays push_loop return_to] in *;
      constructor; auto; intros [H|H]; discriminate.
  Qed.

  Definition unlabel (l : label) (no : nout L) : nout L :=
    match no with
    | NJumped l' => if label_eqb l l' then NDone else no
    | _ => no
    end.

  Lemma label_run : forall n l a t no t', nexec F n a t = Some (no, t') ->
    nexec F n (NLabel l a) t = Some (unlabel l no, t').
  Proof.
    intros n l a t no t' H. cbn [nexec]. rewrite H. destruct no; cbn [unlabel]; try reflexivity.
    destruct (label_eqb l l0); reflexivity.
  Qed.

  Lemma pass_label : forall C o no t' b, to_try C ->
    (exists r, o = Returned r) \/ (exists e, o = Raised e) -> out_rel C o no t' ->
    unlabel (lab b) no = no /\ no <> NDone.
  Proof.
    intros C o no t' b Ht Ho H. unfold to_try in Ht. destruct Ho as [[r ->] | [e ->]]; cbn [out_rel] in H.
    - destruct (return_to C) as [[to l]|].
      + destruct H as (-> & _). destruct to; try contradiction; destruct b; split; (reflexivity || discriminate).
      + subst no. split; [reflexivity|discriminate].
    - destruct H as (-> & _). split; [reflexivity|discriminate].
  Qed.

  Lemma else_label : forall C o no t', to_try C -> o <> Broke -> out_rel C o no t' -> unlabel LBreak no = no.
  Proof.
    intros C o no t' Ht Hb H. destruct o; cbn [out_rel] in H; try congruence.
    - subst. reflexivity.
    - unfold left_rel in H. destruct (in_loop C); [subst; reflexivity|].
      unfold to_try in Ht. destruct (return_to C) as [[[] ?]|]; try contradiction; destruct H as (-> & _); reflexivity.
    - apply (proj1 (@pass_label C (Returned r) no t' true Ht (or_introl (ex_intro _ r eq_refl)) H)).
    - apply (proj1 (@pass_label C (Raised e) no t' true Ht (or_intror (ex_intro _ e eq_refl)) H)).
  Qed.

  Section Loop.
    Variables (n : nat) (C : blocks) (c : option (Exc L)) (sees keep tf inside : bool) (ls : list loc)
      (fs fs' : list nat).
    Variables (cond_py : St L -> St L * (bool + Exc L)) (cond_n : nst L -> nst L * (bool + Exc L)).
    Variables (body_py orelse_py : St L -> res L) (na : native L) (orelse_n : nst L -> nres L) (rb : bool).
    Variable inv : nst L -> Prop.
    Hypothesis C_to : to_try C.
    Hypothesis fs_incl : incl fs fs'.
    Hypothesis inv_keeps : forall t t', inv t -> (forall i, In i fs' -> n_iter t' i = n_iter t i) -> inv t'.
    Hypothesis cond_ok : forall t s1 r, pre sees keep c t -> inv t -> cond_py (n_st t) = (s1, r) ->
      exists b, cond_n t = (ran b s1 t, r) /\ (keep = true -> b = false).
    Hypothesis body_ok : forall t o s', pre sees keep c t -> inv t -> body_py (n_st t) = Fin o s' ->
      exists no t', nexec F n na t = Some (no, t') /\ post (push_loop C) sees keep tf true ls fs' t o s' no t'.
    Hypothesis orelse_ok : forall t o s', pre sees keep c t -> orelse_py (n_st t) = Fin o s' ->
      exists no t', orelse_n t = Some (no, t') /\ post C sees keep tf inside ls fs t o s' no t' /\
        o <> Broke /\ (o = Done -> rb = true).

    Lemma loop_run : forall m t o s', pre sees keep c t -> inv t ->
      while_loop cond_py body_py orelse_py m (n_st t) = Fin o s' ->
      exists no t', nwhile cond_n (nexec F n (NLabel LContinue na)) orelse_n m t = Some (no, t') /\
        post C sees keep tf inside ls fs t o s' (unlabel LBreak no) t' /\
        (o = Done -> (exists s2 s3 t2 t3, body_py s2 = Fin Broke s3 /\ nexec F n na t2 = Some (NJumped LBreak, t3)) \/
                     (rb = true /\ exists s2 s3, cond_py s2 = (s3, inl false))).
    Proof.
      induction m as [|m IH]; intros t o s' Hp Hi H; [discriminate|].
      cbn [while_loop nwhile] in *.
      destruct (cond_py (n_st t)) as [s1 r] eqn:Ec.
      destruct (cond_ok Hp Hi Ec) as (b & En & Hb). rewrite En.
      assert (P0 : post C sees keep tf inside ls fs t Done s1 NDone (ran b s1 t)) by (eapply ran_post; eassumption).
      set (t1 := ran b s1 t) in *.
      assert (Hp1 : pre sees keep c t1) by (eapply pre_again; eassumption).
      assert (Hi1 : inv t1) by (eapply inv_keeps; [exact Hi|]; unfold t1, ran; destruct b; reflexivity).
      assert (Htt : tf = true -> tf = true /\ tf = true) by auto.
      change s1 with (n_st t1) in H.
      destruct r as [[]|e].
      - apply bindr_fin in H as (o1 & s2 & H1 & H).
        destruct (body_ok Hp1 Hi1 H1) as (no1 & t2 & E1 & P1).
        rewrite (label_run n LContinue na t1 E1).
        assert (again : o1 = Done \/ o1 = Continued -> unlabel LContinue no1 = NDone /\
          exists no t', nwhile cond_n (nexec F n (NLabel LContinue na)) orelse_n m t2 = Some (no, t') /\
            post C sees keep tf inside ls fs t o s' (unlabel LBreak no) t' /\
            (o = Done -> (exists s2 s3 t2 t3, body_py s2 = Fin Broke s3 /\ nexec F n na t2 = Some (NJumped LBreak, t3)) \/
                         (rb = true /\ exists s2 s3, cond_py s2 = (s3, inl false)))).
        { intros Ho. assert (P2 : post C sees keep tf inside ls fs t1 Done s2 NDone t2).
          { eapply post_push; [|exact fs_incl|exact P1]. tauto. }
          split.
          - pose proof (p_out P1) as Hx. destruct Ho as [-> | ->]; cbn [out_rel] in Hx.
            + subst. reflexivity.
            + unfold left_rel in Hx. cbn [push_loop in_loop] in Hx. subst. reflexivity.
          - assert (H' : while_loop cond_py body_py orelse_py m s2 = Fin o s') by (destruct Ho as [-> | ->]; exact H).
            rewrite <- (p_st P1) in H'.
            destruct (IH t2 o s') as (no & t' & E3 & P3 & D3); try assumption.
            + eapply pre_again; eassumption.
            + eapply inv_keeps; [exact Hi1|]. apply (p_it P1).
            + exists no, t'. split; [exact E3|]. split; [|exact D3].
              eapply post_trans; [exact Htt|exact P0|]. eapply post_trans; [exact Htt|exact P2|exact P3]. }
        destruct o1; cbn [next_turn] in H.
        + destruct again as (Eu & R); [auto|]. rewrite Eu. cbn [then_]. exact R.
        + pose proof (p_out P1) as Hx. cbn [out_rel] in Hx. unfold left_rel in Hx.
          cbn [push_loop in_loop] in Hx. subst no1. injection H as <- <-.
          exists (NJumped LBreak), t2. split; [reflexivity|]. split.
          * eapply post_trans; [exact Htt|exact P0|]. eapply post_push; [|exact fs_incl|exact P1]. tauto.
          * intros _. left. exists (n_st t1), s2, t1, t2. auto.
        + destruct again as (Eu & R); [auto|]. rewrite Eu. cbn [then_]. exact R.
        + injection H as <- <-.
          assert (Ho : (exists r', @Returned L r = Returned r') \/ (exists e, Returned r = Raised e)) by eauto.
          destruct (@pass_label (push_loop C) (Returned r) no1 t2 false C_to Ho (p_out P1)) as [U1 N1].
          destruct (@pass_label (push_loop C) (Returned r) no1 t2 true C_to Ho (p_out P1)) as [U2 _].
          cbn [lab] in U1, U2. rewrite U1. exists no1, t2. split; [destruct no1; (congruence || reflexivity)|].
          rewrite U2. split; [|discriminate].
          eapply post_trans; [exact Htt|exact P0|]. eapply post_pass; [exact Ho|exact fs_incl|exact P1].
        + injection H as <- <-.
          assert (Ho : (exists r', @Raised L e = Returned r') \/ (exists e', Raised e = Raised e')) by eauto.
          destruct (@pass_label (push_loop C) (Raised e) no1 t2 false C_to Ho (p_out P1)) as [U1 N1].
          destruct (@pass_label (push_loop C) (Raised e) no1 t2 true C_to Ho (p_out P1)) as [U2 _].
          cbn [lab] in U1, U2. rewrite U1. exists no1, t2. split; [destruct no1; (congruence || reflexivity)|].
          rewrite U2. split; [|discriminate].
          eapply post_trans; [exact Htt|exact P0|]. eapply post_pass; [exact Ho|exact fs_incl|exact P1].
      - destruct (orelse_ok Hp1 H) as (no & t' & E1 & P1 & Nb & D1).
        exists no, t'. split; [exact E1|]. split.
        + rewrite (@else_label C o no t' C_to Nb (p_out P1)). eapply post_trans; [exact Htt|exact P0|exact P1].
        + intros Ho. right. split; [auto|]. exists (n_st t), s1. exact Ec.
      - injection H as <- <-. exists NThrown, (w_err (Some e) t1). split; [reflexivity|]. split; [|discriminate].
        cbn [unlabel]. eapply throw_post. exact P0.
    Qed.
  End Loop.

  Lemma okC_loop : forall C inside ls, okC C inside ls -> okC (push_loop C) true ls.
  Proof.
    intros C inside ls (Ht & He & Hc & Hl). split; [exact Ht|]. split; [reflexivity|].
    split; [left; reflexivity|exact Hl].
  Qed.

  Definition sim_block (b : block L) : Prop :=
    sim (fun C => fst (conv_block F C b)) (fun C => snd (conv_block F C b)) (try_free_block b)
        (fun sees keep inside ls fs => supported_block F sees keep inside ls fs b) (fun n c => exec_block n c b).
  Definition sim_stmt (st : stmt L) : Prop :=
    sim (fun C => fst (conv F C st)) (fun C => snd (conv F C st)) (try_free st)
        (fun sees keep inside ls fs => supported F sees keep inside ls fs st) (fun n c => exec n c st).

  Lemma while_case : forall u a b, sim_block a -> sim_block b -> sim_stmt (SWhile u a b).
  Proof.
    intros u a b IHa IHb n C c sees keep inside ls fs o s' t HC (Hb & Hr & Ha & Hbb & Hlb & Hla) Hp H.
    cbn [conv exec try_free] in *.
    set (tf := try_free_block a && try_free_block b) in *.
    assert (Htf : tf = true -> try_free_block a = true /\ try_free_block b = true)
      by (unfold tf; rewrite andb_true_iff; tauto).
    pose proof (okC_loop HC) as HC'.
    pose proof (ends_here F a (push_loop C) (proj1 HC)) as Fa.
    pose proof (ends_here F b (C) (proj1 HC)) as Fb.
    assert (L0 : exists no t', nwhile (ntest F u) (nexec F n (NLabel LContinue (fst (conv_block F (push_loop C) a))))
             (nexec F n (fst (conv_block F C b))) n t = Some (no, t') /\
        post C sees keep tf inside ls fs t o s' (unlabel LBreak no) t' /\
        (o = Done -> (exists s2 s3 t2 t3, exec_block n c a s2 = Fin Broke s3 /\
                        nexec F n (fst (conv_block F (push_loop C) a)) t2 = Some (NJumped LBreak, t3)) \/
                     (snd (conv_block F C b) = true /\ exists s2 s3, do_test L u c s2 = (s3, inl false)))).
    { apply loop_run with (c := c) (cond_py := do_test L u c) (body_py := exec_block n c a)
             (orelse_py := exec_block n c b) (fs' := fs) (inv := fun _ => True); auto.
      - exact (proj1 HC).
      - intros i Hi. exact Hi.
      - intros t1 s1 r Hp1 _ Et. exists (resets_test F u). split; [|exact Hr].
        eapply test_run; eassumption.
      - intros t1 o1 s1 Hp1 _ H1.
        destruct (IHa n (push_loop C) c sees keep true ls fs o1 s1 t1 HC' Ha Hp1 H1) as (no & t' & E1 & P1 & _).
        exists no, t'. split; [exact E1|]. eapply post_weaken; [|exact P1]. tauto.
      - intros t1 o1 s1 Hp1 H1.
        destruct (IHb n C c sees keep inside ls fs o1 s1 t1 HC Hbb Hp1 H1) as (no & t' & E1 & P1 & D1).
        exists no, t'. split; [exact E1|]. split; [eapply post_weaken; [|exact P1]; tauto|].
        split; [|exact D1]. intros ->.
        rewrite (proj1 (proj2 leaves_if) b true _ _ _ _ _ H1 eq_refl) in Hlb. discriminate. }
    destruct (known F u) as [[]|] eqn:Ek.
    2: { (* never entered *)
      destruct n as [|m]; [discriminate|]. cbn [while_loop] in H.
      destruct (do_test L u c (n_st t)) as [s1 r] eqn:Et.
      pose proof (test_run Hb Hp Et) as En.
      pose proof (@ran_post C sees keep tf inside ls fs c t s1 (resets_test F u) Hp Hr) as P0.
      pose proof (proj2 sound u false c (n_st t) Ek) as Ev. rewrite Et in Ev. cbn [snd] in Ev. subst r.
      assert (Hp1 : pre sees keep c (ran (resets_test F u) s1 t)) by (eapply pre_again; eassumption).
      destruct (IHb (S m) C c sees keep inside ls fs o s' (ran (resets_test F u) s1 t) HC Hbb Hp1 H) as (no & t' & E1 & P1 & D1).
      destruct (conv_block F C b) as [nb rb]. cbn [fst snd nexec] in *. rewrite En. cbn [then_ go].
      exists no, t'. split; [exact E1|]. split; [|exact D1].
      eapply post_trans; [|exact P0|exact P1]. tauto. }
    all: destruct L0 as (no & t' & E1 & P1 & D1).
    all: destruct (conv_block F (push_loop C) a) as [na ra]; destruct (conv_block F C b) as [nb rb];
      cbn [fst snd] in *.
    all: exists (unlabel LBreak no), t'; (split; [apply label_run; exact E1|]); (split; [exact P1|]).
    all: intros Ho; destruct (D1 Ho) as [(s2 & s3 & t2 & t3 & X1 & X2) | (X1 & s2 & s3 & X2)].
    - rewrite (nexec_targets F n _ _ X2).
      pose proof (Hla (proj1 (proj2 leaves_if) a true _ _ _ _ _ X1 eq_refl)) as He.
      subst ra rb. destruct He as [-> | ->]; rewrite ?orb_true_r; reflexivity.
    - exfalso. pose proof (proj2 sound u true c s2 Ek) as Ev. rewrite X2 in Ev. discriminate.
    - pose proof (Hla (proj1 (proj2 leaves_if) a true _ _ _ _ _ X1 eq_refl)) as He.
      subst ra rb. destruct He as [-> | ->]; rewrite ?orb_true_r; reflexivity.
    - rewrite X1, orb_true_r. reflexivity.
  Qed.

  (** a 'for' loop is a 'while' loop *)
  Definition for_cond (x : target L) (it : Obj L) (s : St L) : St L * (bool + Exc L) :=
    match do_next L it s with
    | (s1, inl (Some v)) =>
        match do_assign L x v s1 with
        | (s2, None) => (s2, inl true)
        | (s2, Some e) => (s2, inr e)
        end
    | (s1, inl None) => (s1, inl false)
    | (s1, inr e) => (s1, inr e)
    end.

  Lemma for_while : forall x it body orelse m s,
    (forall o s', for_loop x it body orelse m s = Fin o s' -> while_loop (for_cond x it) body orelse m s = Fin o s').
  Proof.
    intros x it body orelse m. induction m as [|m IH]; intros s o s' H; [discriminate|].
    cbn [for_loop while_loop] in *. unfold for_cond at 1.
    destruct (do_next L it s) as [s1 [[v|]|e]]; try exact H.
    destruct (do_assign L x v s1) as [s2 [e|]]; [exact H|].
    apply bindr_fin in H as (o1 & s3 & H1 & H). rewrite H1. cbn [bindr].
    destruct o1; cbn [next_turn] in *; auto.
  Qed.

  Lemma for_case : forall l x e a b, sim_block a -> sim_block b -> sim_stmt (SFor l x e a b).
  Proof.
    intros l x e a b IHa IHb n C c sees keep inside ls fs o s' t HC (Hr & Hf & Ha & Hbb & Hlb & Hlc & Hla) Hp H.
    cbn [conv exec try_free] in *.
    set (tf := try_free_block a && try_free_block b) in *.
    assert (Htf : tf = true -> try_free_block a = true /\ try_free_block b = true)
      by (unfold tf; rewrite andb_true_iff; tauto).
    pose proof (okC_loop HC) as HC'.
    pose proof (ends_here F a (push_loop C) (proj1 HC)) as Fa.
    pose proof (ends_here F b (push_loop C) (proj1 HC)) as Fb.
    destruct (conv_block F (push_loop C) a) as [na ra] eqn:Ea.
    destruct (conv_block F (push_loop C) b) as [nb rb] eqn:Eb.
    cbn [fst snd nexec] in *.
    destruct (do_oexp L e (n_st t)) as [s1 [v|ex]].
    2: { injection H as <- <-. eexists _, _. split; [reflexivity|]. split; [|discriminate].
         eapply throw_post. eapply ran_post; eassumption. }
    destruct (do_iter L v s1) as [s2 [it|ex]].
    2: { injection H as <- <-. eexists _, _. split; [reflexivity|]. split; [|discriminate].
         eapply throw_post. eapply ran_post; eassumption. }
    pose proof (@ran_post C sees keep tf inside ls fs c t s2 (resets_for F e) Hp Hr) as P0.
    cbn [then_ go].
    set (t1 := w_iter (fst l) it (ran (resets_for F e) s2 t)) in *.
    assert (P1 : post C sees keep tf inside ls fs t Done s2 NDone t1).
    { destruct P0. constructor; auto.
      intros i Hi. unfold t1. cbn [w_iter n_iter].
      destruct (Nat.eqb_spec (fst l) i); [subst; contradiction|]. apply p_it0. exact Hi. }
    assert (Hp1 : pre sees keep c t1) by (eapply pre_again; eassumption).
    assert (I1 : n_iter t1 (fst l) = Some it) by (unfold t1; cbn [w_iter n_iter]; rewrite Nat.eqb_refl; reflexivity).
    apply for_while in H. change s2 with (n_st t1) in H.
    assert (L0 : exists no t', nwhile (nnext F (fst l) e x) (nexec F n (NLabel LContinue na)) (nexec F n nb) n t1 = Some (no, t') /\
        post C sees keep tf inside ls fs t1 o s' (unlabel LBreak no) t' /\
        (o = Done -> (exists s2 s3 t2 t3, exec_block n c a s2 = Fin Broke s3 /\
                        nexec F n na t2 = Some (NJumped LBreak, t3)) \/
                     (rb = true /\ exists s2 s3, for_cond x it s2 = (s3, inl false)))).
    { apply loop_run with (c := c) (cond_py := for_cond x it) (body_py := exec_block n c a)
             (orelse_py := exec_block n c b) (fs' := fst l :: fs) (inv := fun u => n_iter u (fst l) = Some it); auto.
      - exact (proj1 HC).
      - intros i Hi. right. exact Hi.
      - intros u u' Hu Hi. rewrite Hi by (left; reflexivity). exact Hu.
      - intros u s3 r Hpu Hiu Ec. exists (resets_for F e). split; [|exact Hr].
        unfold nnext. rewrite Hiu. unfold for_cond in Ec.
        destruct (do_next L it (n_st u)) as [s4 [[w|]|ex]].
        + destruct (do_assign L x w s4) as [s5 [ex|]]; injection Ec as <- <-; reflexivity.
        + injection Ec as <- <-. reflexivity.
        + injection Ec as <- <-. reflexivity.
      - intros u o1 s3 Hpu _ H1.
        destruct (IHa n (push_loop C) c sees keep true ls (fst l :: fs) o1 s3 u HC' Ha Hpu H1) as (no & t' & E1 & P2 & _).
        rewrite Ea in E1. exists no, t'. split; [exact E1|]. eapply post_weaken; [|exact P2]. tauto.
      - intros u o1 s3 Hpu H1.
        destruct (IHb n (push_loop C) c sees keep true ls fs o1 s3 u HC' Hbb Hpu H1) as (no & t' & E1 & P2 & D2).
        rewrite Eb in E1, D2. cbn [fst snd] in *.
        assert (N1 : o1 <> Broke)
          by (intros ->; rewrite (proj1 (proj2 leaves_if) b true _ _ _ _ _ H1 eq_refl) in Hlb; discriminate).
        assert (N2 : o1 <> Continued)
          by (intros ->; rewrite (proj1 (proj2 leaves_if) b false _ _ _ _ _ H1 eq_refl) in Hlc; discriminate).
        exists no, t'. split; [exact E1|]. split; [|auto].
        eapply post_weaken; [exact (fun h => proj2 (Htf h))|].
        destruct o1; try congruence.
        + pose proof (p_out P2) as Hx. cbn [out_rel] in Hx. subst no.
          eapply post_push; [|apply incl_refl|exact P2]. auto.
        + eapply post_pass; [|apply incl_refl|exact P2]. eauto.
        + eapply post_pass; [|apply incl_refl|exact P2]. eauto. }
    destruct L0 as (no & t' & E1 & P2 & D2).
    exists (unlabel LBreak no), t'. split.
    - pose proof (@label_run n LBreak (NForWhile (fst l) e x (NLabel LContinue na) nb) t1 no t' E1) as E2.
      exact E2.
    - split; [eapply post_trans; [|exact P1|exact P2]; auto|].
      intros Ho; destruct (D2 Ho) as [(s3 & s4 & t2 & t3 & X1 & X2) | (X1 & s3 & s4 & X2)].
      + pose proof (Hla (proj1 (proj2 leaves_if) a true _ _ _ _ _ X1 eq_refl)) as He.
        rewrite <- Fa, <- Fb in He. destruct He as [-> | ->]; rewrite ?orb_true_r; reflexivity.
      + rewrite X1, orb_true_r. reflexivity.
  Qed.

  (** *** The 'try' statement *)
  Lemma out_not_done : forall C o no t', o <> Done -> out_rel C o no t' -> no <> NDone.
  Proof.
    intros C o no t' Ho H. destruct o; cbn [out_rel] in H; try congruence; unfold left_rel in H.
    - destruct (in_loop C); [congruence|]. destruct (return_to C) as [[]|]; [destruct H; congruence|contradiction].
    - destruct (in_loop C); [congruence|]. destruct (return_to C) as [[]|]; [destruct H; congruence|contradiction].
    - destruct (return_to C) as [[]|]; [destruct H; congruence|congruence].
    - destruct H; congruence.
  Qed.

  Lemma then_not_done : forall (no : nout L) t f, no <> NDone -> then_ (Some (no, t)) f = Some (no, t).
  Proof. intros [] t f H; (congruence || reflexivity). Qed.

  Section Try.
    Variables (n : nat) (C : blocks) (l : loc) (sees inside : bool) (ls : list loc) (fs : list nat).
    Hypothesis C_ok : okC C inside ls.
    Hypothesis fresh : ~ In l ls.
    Variable t0 : nst L.

    Definition frames (t : nst L) : Prop :=
      (forall l', In l' ls -> n_cf t l' = n_cf t0 l') /\ (forall i, In i fs -> n_iter t i = n_iter t0 i).

    (** between the parts of a 'try': the slot says how the parts so far ended *)
    Record mid (o : outcome L) (t : nst L) : Prop := Mid {
      m_code : match o with
               | Done => n_cf t l = CF_DEFAULT
               | Raised e => n_cf t l = CF_EXCEPTION /\ n_info t = Some e
               | Broke => n_cf t l = CF_BREAK
               | Continued => n_cf t l = CF_CONTINUE
               | Returned r => n_cf t l = CF_RETURN /\ n_ret t = Some r
               end;
      m_frames : frames t;
      m_see : sees = true -> match o with Raised _ => n_occ t = true | _ => n_info t = None end;
      m_in : o = Broke \/ o = Continued -> inside = true
    }.

    Lemma okC_try : forall to, to = LEndTry l \/ to = LEndFinally l -> okC (push_try to l C) inside (l :: ls).
    Proof.
      intros to Hto. destruct C_ok as (Ht & He & Hc & Hl). split; [|split; [exact He|split]].
      - destruct Hto as [-> | ->]; reflexivity.
      - intros _. right. discriminate.
      - intros to' l' H. cbn [push_try return_to] in H. injection H as <- <-. left. reflexivity.
    Qed.

    Lemma jumps_try : forall to o, jumps (push_try to l C) o = None \/ jumps (push_try to l C) o = Some l.
    Proof. intros to []; cbn; auto. Qed.

    Lemma frames_post : forall to sees' keep tf t o s' no t',
      post (push_try to l C) sees' keep tf inside (l :: ls) fs t o s' no t' -> frames t -> frames t'.
    Proof.
      intros to sees' keep tf t o s' no t' P [F1 F2]. split.
      - intros l' Hl. rewrite <- (F1 l' Hl). apply (p_cf P); [right; exact Hl|].
        destruct (jumps_try to o) as [-> | ->]; [discriminate|]. intros H. injection H as <-. contradiction.
      - intros i Hi. rewrite <- (F2 i Hi). apply (p_it P). exact Hi.
    Qed.

    (** a part left by 'break', 'continue' or 'return' *)
    Lemma mid_left : forall to sees' keep tf t o s' no t',
      post (push_try to l C) sees' keep tf inside (l :: ls) fs t o s' no t' -> frames t ->
      o <> Done -> (forall e, o <> Raised e) -> (sees = true -> n_info t' = None) ->
      no = NJumped to /\ mid o t'.
    Proof.
      intros to sees' keep tf t o s' no t' P Hf Hd Hr Hs.
      pose proof (frames_post P Hf) as Hf'. pose proof (p_out P) as Ho. pose proof (p_in P) as Hi.
      destruct o; try congruence; cbn [out_rel push_try return_to] in Ho; unfold left_rel in Ho;
        cbn [push_try return_to in_loop] in Ho.
      - destruct Ho. split; [assumption|]. constructor; auto.
      - destruct Ho. split; [assumption|]. constructor; auto.
      - destruct Ho as (? & ? & ?). split; [assumption|]. constructor; auto.
    Qed.

    (** a part that raised *)
    Lemma mid_pending : forall t e, n_err t = Some e -> frames t -> (sees = true -> n_occ t = true) ->
      exists t', nexec F n (pending l) t = Some (NDone, t') /\ mid (Raised e) t' /\
                 n_st t' = n_st t /\ n_occ t' = n_occ t.
    Proof.
      intros t e He [F1 F2] Hs. exists (w_cf l CF_EXCEPTION (caught t)). split; [reflexivity|].
      split; [|split; reflexivity]. constructor.
      - rewrite w_cf_same. split; [reflexivity|]. unfold caught. cbn [w_cf w_info w_err n_info]. exact He.
      - split; [|exact F2]. intros l' Hl. rewrite w_cf_other; [|intros ->; contradiction].
        exact (F1 l' Hl).
      - exact Hs.
      - intros [H|H]; discriminate.
    Qed.

    Definition handled (o : outcome L) (no : nout L) : Prop :=
      match o with Done | Raised _ => no = NDone | _ => no = NJumped (LEndTry l) end.

    Lemma clause_run : forall bn sees' keep' tf t3 o1 s0 no t4 s1,
      nexec F n bn t3 = Some (no, w_st s1 t4) ->
      post (push_try (LEndTry l) l C) sees' keep' tf inside (l :: ls) fs t3 o1 s0 no t4 ->
      frames t3 -> n_cf t3 l = CF_DEFAULT -> n_occ t3 = true -> (sees = true -> tf = true) ->
      exists no' t5, nexec F n (NTry (NSeq bn clear_if_occ) (pending l)) t3 = Some (no', t5) /\
        handled o1 no' /\ mid o1 t5 /\ n_st t5 = s1 /\ (tf = true -> n_occ t5 = true).
    Proof.
      intros bn sees' keep' tf t3 o1 s0 no t4 s1 E P Hf Hc Ho Hs.
      pose proof (frames_post P Hf) as Hf'.
      assert (Hocc : tf = true -> n_occ t4 = true) by (intros H; rewrite (p_occ P (or_intror H)); exact Ho).
      assert (J : o1 <> Done -> (forall e, o1 <> Raised e) ->
        exists no' t5, nexec F n (NTry (NSeq bn clear_if_occ) (pending l)) t3 = Some (no', t5) /\
        handled o1 no' /\ mid o1 t5 /\ n_st t5 = s1 /\ (tf = true -> n_occ t5 = true)).
      { intros Hd Hr.
        destruct (mid_left P Hf Hd Hr) as [En Hm].
        { intros H. apply (p_clear P); [|auto].
          destruct o1; cbn; try discriminate; [congruence|]. exfalso. apply (Hr e). reflexivity. }
        subst no. exists (NJumped (LEndTry l)), (w_st s1 t4).
        split; [cbn [nexec]; rewrite E; reflexivity|].
        split; [destruct o1; try congruence; try reflexivity; exfalso; apply (Hr e); reflexivity|].
        split; [|split; [reflexivity|exact Hocc]].
        destruct Hm. constructor; auto. }
      destruct o1.
      2,3,4: apply J; discriminate.
      - pose proof (p_out P) as Hx. cbn [out_rel] in Hx. subst no.
        destruct (cleared_rest (w_st s1 t4)) as (R1 & R2 & R3 & R4 & R5 & R6).
        exists NDone, (cleared (w_st s1 t4)).
        split; [cbn [nexec]; rewrite E; cbn [then_]; rewrite run_clear; reflexivity|].
        split; [reflexivity|]. split; [|split; [rewrite R1; reflexivity|rewrite R3; exact Hocc]].
        constructor.
        + rewrite R4. cbn [w_st n_cf]. rewrite (p_cf P); [exact Hc|left; reflexivity|discriminate].
        + unfold frames. rewrite R4, R6. exact Hf'.
        + intros H. apply cleared_info. rewrite R3. auto.
        + intros [H|H]; discriminate.
      - pose proof (p_out P) as [Hx He]. subst no.
        destruct (@mid_pending (w_st s1 t4) e) as (t5 & E5 & M5 & S5 & O5); auto.
        exists NDone, t5. split; [cbn [nexec]; rewrite E; cbn [then_]; exact E5|].
        split; [reflexivity|]. split; [exact M5|]. split; [exact S5|]. rewrite O5. exact Hocc.
    Qed.

    Fixpoint sim_handlers (hs : handlers L) : Prop :=
      match hs with
      | HNil => True
      | HCons _ _ b hs' => sim_block b /\ sim_handlers hs'
      end.

    Lemma handlers_run : forall hs, sim_handlers hs -> supported_handlers F inside (l :: ls) fs hs ->
      (sees = true -> try_free_handlers hs = true) ->
      forall e t2 o1 s1, n_err t2 = Some e -> frames t2 -> n_cf t2 l = CF_DEFAULT -> n_occ t2 = true ->
      exec_handlers n e hs (n_st t2) = Fin o1 s1 ->
      exists no t5, nexec F n (NTry (conv_handlers F l (push_try (LEndTry l) l C) hs) (pending l)) t2 = Some (no, t5) /\
        handled o1 no /\ mid o1 t5 /\ n_st t5 = s1 /\ (try_free_handlers hs = true -> n_occ t5 = true).
    Proof.
      induction hs as [|m x b hs IH]; intros Hsim Hsup Hs e t2 o1 s1 He Hf Hc Ho H.
      - cbn [exec_handlers conv_handlers] in *. injection H as <- <-.
        destruct (mid_pending He Hf (fun _ => Ho)) as (t5 & E5 & M5 & S5 & O5).
        exists NDone, t5. split; [|split; [reflexivity|split; [exact M5|split; [exact S5|rewrite O5; auto]]]].
        remember (pending l) as p. cbn [nexec]. rewrite E5. reflexivity.
      - destruct Hsim as [Hb Hsim]. destruct Hsup as [Hsb Hsup].
        cbn [exec_handlers conv_handlers try_free_handlers] in *.
        destruct (matches L m e) eqn:Em.
        + (* this clause *)
          set (C1 := push_try (LEndTry l) l C) in *.
          assert (HC1 : okC C1 inside (l :: ls)) by (apply okC_try; auto).
          assert (Htf : sees = true -> try_free_block b = true)
            by (intros h; specialize (Hs h); rewrite andb_true_iff in Hs; tauto).
          assert (Hb' : forall t3 o s', n_info t3 = Some e -> exec_block n (Some e) b (n_st t3) = Fin o s' ->
              exists sees' keep' no t', nexec F n (fst (conv_block F C1 b)) t3 = Some (no, t') /\
                post C1 sees' keep' (try_free_block b) inside (l :: ls) fs t3 o s' no t').
          { intros t3 o s' Hi Hx. destruct Hsb as [Hsb|Hsb].
            - destruct (Hb n C1 (Some e) true true inside (l :: ls) fs o s' t3 HC1 Hsb) as (no & t' & E & P & _);
                [split; [auto|discriminate]|exact Hx|]. exists true, true, no, t'. auto.
            - destruct (Hb n C1 (Some e) false false inside (l :: ls) fs o s' t3 HC1 Hsb) as (no & t' & E & P & _);
                [split; discriminate|exact Hx|]. exists false, false, no, t'. auto. }
          destruct x as [y|]; cbn [run_named] in H.
          * apply bindr_fin in H as (o2 & s2 & H1 & H). injection H as <- <-.
            set (t3 := w_st (bind_name L y e (n_st t2)) (caught t2)) in *.
            change (bind_name L y e (n_st t2)) with (n_st t3) in H1.
            destruct (Hb' t3 o2 s2 He H1) as (sees' & keep' & no & t4 & E & P).
            destruct (@clause_run (NUnbindAfter y (fst (conv_block F C1 b))) sees' keep' (try_free_block b) t3 o2 s2 no t4
                        (unbind_name L y s2)) as (no' & t5 & E5 & R1 & R2 & R3 & R4); auto.
            { cbn [nexec]. rewrite E, (p_st P). reflexivity. }
            exists no', t5. split; [|split; [exact R1|split; [exact R2|split; [exact R3|]]]].
            -- rewrite <- E5. unfold conv_handler. cbn [nexec]. rewrite He, Em. cbn [then_ go]. reflexivity.
            -- rewrite andb_true_iff. tauto.
          * set (t3 := caught t2) in *.
            change (n_st t2) with (n_st t3) in H.
            destruct (Hb' t3 o1 s1 He H) as (sees' & keep' & no & t4 & E & P).
            destruct (@clause_run (fst (conv_block F C1 b)) sees' keep' (try_free_block b) t3 o1 s1 no t4 s1)
              as (no' & t5 & E5 & R1 & R2 & R3 & R4); auto.
            { rewrite E, <- (p_st P). destruct t4; reflexivity. }
            exists no', t5. split; [|split; [exact R1|split; [exact R2|split; [exact R3|]]]].
            -- rewrite <- E5. unfold conv_handler. cbn [nexec]. rewrite He, Em. cbn [then_ go]. reflexivity.
            -- rewrite andb_true_iff. tauto.
        + destruct (IH Hsim Hsup) with (e := e) (t2 := t2) (o1 := o1) (s1 := s1) as (no & t5 & E5 & R1 & R2 & R3 & R4); auto.
          { intros h; specialize (Hs h); rewrite andb_true_iff in Hs; tauto. }
          exists no, t5. split; [|split; [exact R1|split; [exact R2|split; [exact R3|]]]].
          * rewrite <- E5. unfold conv_handler. cbn [nexec]. rewrite He, Em. reflexivity.
          * rewrite andb_true_iff. tauto.
    Qed.

    (** the first part: up to the 'finally' *)
    Lemma first_part : forall b hs orelse c o1 s1,
      sim_block b -> sim_handlers hs -> sim_block orelse ->
      supported_block F sees false inside (l :: ls) fs b -> supported_handlers F inside (l :: ls) fs hs ->
      (sees = true -> try_free_handlers hs = true) ->
      (orelse <> BNil -> try_free_block b = true /\ try_free_handlers hs = true) ->
      supported_block F sees false inside (l :: ls) fs orelse ->
      pre sees false c t0 ->
      bindr (exec_block n c b (n_st t0))
        (fun out s1 =>
           match out with
           | Raised e => exec_handlers n e hs s1
           | Done => exec_block n c orelse s1
           | _ => Fin out s1
           end) = Fin o1 s1 ->
      let C1 := push_try (LEndTry l) l C in
      exists t, nexec F n (NLabel (LEndTry l)
        (NSeq (NSetOcc false) (NSeq (NSetCf l CF_DEFAULT)
        (NSeq (NTry (fst (conv_block F C1 b)) (NSeq (NSetOcc true) (NTry (conv_handlers F l C1 hs) (pending l))))
              (if negb (is_nil orelse)
               then NIfOcc NSkip (NTry (fst (conv_block F C1 orelse)) (NSeq (NSetOcc true) (pending l)))
               else NSkip))))) t0 = Some (NDone, t) /\ mid o1 t /\ n_st t = s1.
    Proof.
      intros b hs orelse c o1 s1 Hb Hh Hor Sb Sh Sf Se So Hp H C1.
      assert (HC1 : okC C1 inside (l :: ls)) by (apply okC_try; auto).
      set (t1 := w_cf l CF_DEFAULT (w_occ false t0)).
      assert (Hf1 : frames t1).
      { split; [|reflexivity]. intros l' Hl. unfold t1. rewrite w_cf_other; [reflexivity|]. intros ->. contradiction. }
      assert (Hc1 : n_cf t1 l = CF_DEFAULT) by apply w_cf_same.
      assert (Hp1 : pre sees false c t1) by exact Hp.
      set (after := if negb (is_nil orelse)
               then NIfOcc NSkip (NTry (fst (conv_block F C1 orelse)) (NSeq (NSetOcc true) (pending l)))
               else NSkip).
      set (tried := NTry (fst (conv_block F C1 b)) (NSeq (NSetOcc true) (NTry (conv_handlers F l C1 hs) (pending l)))).
      assert (G : (exists no t2, nexec F n tried t1 = Some (no, t2) /\
                   exists t, (then_ (Some (no, t2)) (nexec F n after) = Some (NDone, t) \/
                              then_ (Some (no, t2)) (nexec F n after) = Some (NJumped (LEndTry l), t)) /\
                             mid o1 t /\ n_st t = s1)).
      2: { destruct G as (no & t2 & E & t & R & M & S). exists t. split; [|auto].
           assert (E' : nexec F n (NSeq (NSetOcc false) (NSeq (NSetCf l CF_DEFAULT) (NSeq tried after))) t0
                        = then_ (nexec F n tried t1) (nexec F n after)) by reflexivity.
           rewrite E in E'. destruct R as [R|R]; rewrite R in E'; rewrite (label_run n (LEndTry l) _ _ E');
             cbn [unlabel]; rewrite ?label_eqb_refl; reflexivity. }
      apply bindr_fin in H as (ob & sb & H1 & H).
      change (n_st t0) with (n_st t1) in H1.
      destruct (Hb n C1 c sees false inside (l :: ls) fs ob sb t1 HC1 Sb Hp1 H1) as (no & t2 & E & P & _).
      cbn beta in E.
      pose proof (frames_post P Hf1) as Hf2.
      assert (J : ob <> Done -> (forall e, ob <> Raised e) -> Fin ob sb = Fin o1 s1 ->
         (exists no t2, nexec F n tried t1 = Some (no, t2) /\
                   exists t, (then_ (Some (no, t2)) (nexec F n after) = Some (NDone, t) \/
                              then_ (Some (no, t2)) (nexec F n after) = Some (NJumped (LEndTry l), t)) /\
                             mid o1 t /\ n_st t = s1)).
      { intros Hd Hr Hx. injection Hx as <- <-.
        destruct (mid_left P Hf1 Hd Hr (fun h => p_none P h eq_refl)) as [-> M].
        exists (NJumped (LEndTry l)), t2. split; [unfold tried; cbn [nexec]; rewrite E; reflexivity|].
        exists t2. split; [right; reflexivity|]. split; [exact M|exact (p_st P)]. }
      destruct ob.
      2,3,4: apply J; [discriminate|discriminate|exact H].
      - (* the 'else' block *)
        pose proof (p_out P) as Hx. cbn [out_rel] in Hx. subst no.
        exists NDone, t2. split; [unfold tried; cbn [nexec]; rewrite E; reflexivity|].
        cbn [then_].
        assert (Hc2 : n_cf t2 l = CF_DEFAULT) by (rewrite (p_cf P); [exact Hc1|left; reflexivity|discriminate]).
        assert (Hp2 : pre sees false c t2) by (eapply pre_again; eassumption).
        destruct (is_nil orelse) eqn:En.
        + destruct orelse; [|discriminate]. cbn [exec_block] in H. injection H as <- <-.
          exists t2. split; [left; reflexivity|]. split; [|exact (p_st P)].
          constructor; auto.
          * intros h. apply (p_none P h eq_refl).
          * intros [h|h]; discriminate.
        + assert (Hne : orelse <> BNil) by (intros ->; discriminate).
          destruct (Se Hne) as [Tb _].
          assert (Ho2 : n_occ t2 = false) by (rewrite (p_occ P (or_intror Tb)); reflexivity).
          rewrite <- (p_st P) in H.
          destruct (Hor n C1 c sees false inside (l :: ls) fs o1 s1 t2 HC1 So Hp2 H) as (no & t3 & E3 & P3 & _).
          pose proof (frames_post P3 Hf2) as Hf3. cbn beta in E3.
          unfold after. cbn [negb]. remember (pending l) as pend eqn:Epend. cbn [nexec]. rewrite Ho2.
          assert (J3 : o1 <> Done -> (forall e, o1 <> Raised e) ->
             exists t, (match nexec F n (fst (conv_block F C1 orelse)) t2 with
                        | Some (NThrown, t1) => then_ (go (w_occ true t1)) (nexec F n pend)
                        | r => r
                        end = Some (NDone, t) \/
                        match nexec F n (fst (conv_block F C1 orelse)) t2 with
                        | Some (NThrown, t1) => then_ (go (w_occ true t1)) (nexec F n pend)
                        | r => r
                        end = Some (NJumped (LEndTry l), t)) /\ mid o1 t /\ n_st t = s1).
          { intros Hd Hr. destruct (mid_left P3 Hf2 Hd Hr (fun h => p_none P3 h eq_refl)) as [-> M].
            exists t3. rewrite E3. split; [right; reflexivity|]. split; [exact M|exact (p_st P3)]. }
          destruct o1.
          2,3,4: apply J3; discriminate.
          * pose proof (p_out P3) as Hx. cbn [out_rel] in Hx. subst no.
            exists t3. rewrite E3. split; [left; reflexivity|]. split; [|exact (p_st P3)].
            constructor; auto.
            -- rewrite (p_cf P3); [exact Hc2|left; reflexivity|discriminate].
            -- intros h. apply (p_none P3 h eq_refl).
            -- intros [h|h]; discriminate.
          * pose proof (p_out P3) as [Hx He]. subst no. rewrite E3. cbn [then_ go]. subst pend.
            destruct (@mid_pending (w_occ true t3) e) as (t5 & E5 & M5 & S5 & O5); auto.
            exists t5. split; [left; exact E5|]. split; [exact M5|]. rewrite S5. exact (p_st P3).
      - (* the 'except' clauses *)
        pose proof (p_out P) as [Hx He]. subst no.
        assert (Hc2 : n_cf t2 l = CF_DEFAULT) by (rewrite (p_cf P); [exact Hc1|left; reflexivity|discriminate]).
        rewrite <- (p_st P) in H.
        change (n_st t2) with (n_st (w_occ true t2)) in H.
        destruct (@handlers_run hs Hh Sh Sf e (w_occ true t2) o1 s1) as (no & t5 & E5 & R1 & R2 & R3 & R4); auto.
        exists no, t5. split.
        { unfold tried. remember (NTry (conv_handlers F l C1 hs) (pending l)) as hh. cbn [nexec].
          rewrite E. cbn [then_ go]. rewrite Heqhh; exact E5. }
        exists t5. split; [|auto].
        assert (A : nexec F n after t5 = Some (NDone, t5)).
        { unfold after. destruct (is_nil orelse) eqn:En; [reflexivity|]. cbn [negb].
          assert (Hne : orelse <> BNil) by (intros ->; discriminate).
          cbn [nexec]. rewrite (R4 (proj2 (Se Hne))). reflexivity. }
        destruct o1; cbn [handled] in R1; subst no; cbn [then_]; auto.
    Qed.

    (** the 'finally' block *)
    Lemma final_part : forall f c o1 o s' t,
      sim_block f -> supported_block F sees true inside (l :: ls) fs f ->
      (sees = true -> c = None) -> mid o1 t ->
      run_final (fun c => exec_block n c f) c o1 (n_st t) = Fin o s' ->
      let C2 := push_try (LEndFinally l) l C in
      exists t', nexec F n (NTry (NLabel (LEndFinally l) (fst (conv_block F C2 f))) (NSeq (NSetOcc true) (pending l))) t
                 = Some (NDone, t') /\ mid o t' /\ n_st t' = s'.
    Proof.
      intros f c o1 o s' t Hsim Hsup Hc M H C2. unfold run_final in H.
      apply bindr_fin in H as (o2 & s2 & H2 & H).
      assert (HC2 : okC C2 inside (l :: ls)) by (apply okC_try; auto).
      assert (Hp : pre sees true (seen_by_final c o1) t).
      { split; [|discriminate]. intros h. pose proof (m_code M) as Hm. pose proof (m_see M h) as Hse.
        destruct o1; cbn [seen_by_final]; try (rewrite Hse, Hc by assumption; reflexivity). apply Hm. }
      destruct (Hsim n C2 (seen_by_final c o1) sees true inside (l :: ls) fs o2 s2 t HC2 Hsup Hp H2) as (no & t2 & E & P & _).
      cbn beta in E. pose proof (frames_post P (m_frames M)) as Hf2.
      remember (NSeq (NSetOcc true) (pending l)) as pend eqn:Epend.
      assert (E' := label_run n (LEndFinally l) _ _ E).
      assert (J : o2 <> Done -> (forall e, o2 <> Raised e) -> Fin o2 s2 = Fin o s' ->
          exists t', nexec F n (NTry (NLabel (LEndFinally l) (fst (conv_block F C2 f))) pend) t
                 = Some (NDone, t') /\ mid o t' /\ n_st t' = s').
      { intros Hd Hr Hx. injection Hx as <- <-.
        destruct (mid_left P (m_frames M) Hd Hr) as [-> M2].
        { intros h. pose proof (m_see M h) as Hse. pose proof (p_occ P (or_introl eq_refl)) as Hocc.
          destruct (p_keep P eq_refl) as [K|K]; [|exact K].
          destruct o1; try (rewrite K; exact Hse).
          apply (p_clear P); [|congruence].
          destruct o2; cbn; congruence. }
        exists t2. split; [|split; [exact M2|exact (p_st P)]].
        remember (NLabel (LEndFinally l) (fst (conv_block F C2 f))) as fin.
        cbn [nexec]. rewrite E'. cbn [unlabel]. rewrite label_eqb_refl. reflexivity. }
      destruct o2.
      2,3,4: apply J; [discriminate|discriminate|exact H].
      - injection H as <- <-. pose proof (p_out P) as Hx. cbn [out_rel] in Hx. subst no.
        exists t2. split.
        { remember (NLabel (LEndFinally l) (fst (conv_block F C2 f))) as fin.
          cbn [nexec]. rewrite E'. reflexivity. }
        split; [|exact (p_st P)].
        pose proof (p_stay P eq_refl eq_refl) as K1. pose proof (p_occ P (or_introl eq_refl)) as K2.
        assert (K3 : n_ret t2 = n_ret t) by (apply (p_ret P (or_introl eq_refl)); discriminate).
        assert (K4 : n_cf t2 l = n_cf t l) by (apply (p_cf P); [left; reflexivity|discriminate]).
        destruct M as [M1 M2 M3 M4]. constructor; auto.
        + destruct o1; rewrite ?K1, ?K3, K4; exact M1.
        + intros h. specialize (M3 h). destruct o1; rewrite ?K1, ?K2; exact M3.
      - injection H as <- <-. pose proof (p_out P) as [Hx He]. subst no.
        destruct (@mid_pending (w_occ true t2) e) as (t5 & E5 & M5 & S5 & O5); auto.
        exists t5. split; [|split; [exact M5|rewrite S5; exact (p_st P)]].
        remember (NLabel (LEndFinally l) (fst (conv_block F C2 f))) as fin.
        cbn [nexec]. rewrite E'. subst pend. cbn [unlabel nexec then_ go]. exact E5.
    Qed.

    Lemma post_frames : forall t o s' no t', frames t ->
      post C sees false false inside ls fs t o s' no t' -> post C sees false false inside ls fs t0 o s' no t'.
    Proof.
      intros t o s' no t' [F1 F2] P. destruct P. constructor; auto; try discriminate.
      - intros l' Hl Hj. rewrite <- (F1 l' Hl). auto.
      - intros i Hi. rewrite <- (F2 i Hi). auto.
      - intros [h|h]; discriminate.
      - intros [h|h]; discriminate.
    Qed.

    (** what is under way goes on *)
    Lemma last_part : forall (c : option (Exc L)) o t, (sees = true -> c = None) -> mid o t ->
      exists no t', nexec F n
        (NSeq (NIfCf l CF_RETURN (NSeq clear_if_occ (conv_return_stored C)))
        (NSeq (if in_loop_ever C
               then NSeq (NIfCf l CF_BREAK (NSeq clear_if_occ (leave_loop LBreak CF_BREAK C)))
                         (NIfCf l CF_CONTINUE (NSeq clear_if_occ (leave_loop LContinue CF_CONTINUE C)))
               else NSkip)
              (NIfCf l CF_EXCEPTION NRethrow))) t = Some (no, t') /\
        post C sees false false inside ls fs t0 o (n_st t) no t'.
    Proof.
      intros c o t Hc M.
      destruct (cleared_rest t) as (R1 & R2 & R3 & R4 & R5 & R6).
      assert (Hfc : frames (cleared t)) by (unfold frames; rewrite R4, R6; apply (m_frames M)).
      assert (Hpc : sees = true -> (forall e, o <> Raised e) -> n_info (cleared t) = None).
      { intros h Hr. apply cleared_none. pose proof (m_see M h). destruct o; try assumption. exfalso. apply (Hr e). reflexivity. }
      assert (Hcc : (forall e, o <> Raised e) -> pre sees false c (cleared t)).
      { intros Hr. split; [intros h; rewrite Hpc, Hc; auto|auto]. }
      pose proof (m_code M) as Hm. pose proof (m_in M) as Hin.
      destruct C_ok as (Ht & He & Hcx & Hl).
      destruct o.
      - (* nothing *)
        exists NDone, t. split.
        + cbn [nexec]. rewrite Hm. change (CF_DEFAULT =? CF_RETURN) with false. cbn [then_ go].
          destruct (in_loop_ever C); cbn [nexec then_ go].
          * rewrite Hm. change (CF_DEFAULT =? CF_BREAK) with false. cbn [then_ go]. rewrite Hm.
            change (CF_DEFAULT =? CF_CONTINUE) with false. cbn [then_ go]. rewrite Hm. reflexivity.
          * rewrite Hm. reflexivity.
        + apply (post_frames (m_frames M)). constructor; auto; try discriminate.
          * reflexivity.
          * intros h _. apply (m_see M h).
          * intros h. exfalso. apply h. reflexivity.
      - assert (Hi : inside = true) by auto.
        assert (Hev : in_loop_ever C = true) by congruence. rewrite Hev.
        destruct (@leave_post true C sees false false inside ls fs c (cleared t) n C_ok Hi (Hcc ltac:(discriminate)))
          as (no & t' & E & P). cbn [lab code left] in *.
        exists no, t'. split; [|apply (post_frames Hfc); rewrite R1 in P; exact P].
        remember (leave_loop LBreak CF_BREAK C) as lb. remember (leave_loop LContinue CF_CONTINUE C) as lc.
        assert (Hno : no <> NDone) by (eapply out_not_done; [|apply (p_out P)]; discriminate).
        cbn [nexec]. rewrite Hm. change (CF_BREAK =? CF_RETURN) with false.
        cbn [then_ go nexec]. rewrite Hm. change (CF_BREAK =? CF_BREAK) with true. rewrite run_clear. cbn [then_]. rewrite E.
        destruct no; (congruence || reflexivity).
      - assert (Hi : inside = true) by auto.
        assert (Hev : in_loop_ever C = true) by congruence. rewrite Hev.
        destruct (@leave_post false C sees false false inside ls fs c (cleared t) n C_ok Hi (Hcc ltac:(discriminate)))
          as (no & t' & E & P). cbn [lab code left] in *.
        exists no, t'. split; [|apply (post_frames Hfc); rewrite R1 in P; exact P].
        remember (leave_loop LBreak CF_BREAK C) as lb. remember (leave_loop LContinue CF_CONTINUE C) as lc.
        assert (Hno : no <> NDone) by (eapply out_not_done; [|apply (p_out P)]; discriminate).
        cbn [nexec]. rewrite Hm. change (CF_CONTINUE =? CF_RETURN) with false.
        cbn [then_ go nexec]. rewrite Hm. change (CF_CONTINUE =? CF_BREAK) with false.
        cbn [then_ go nexec]. rewrite Hm. change (CF_CONTINUE =? CF_CONTINUE) with true. cbn [nexec].
        rewrite run_clear. cbn [then_]. rewrite E.
        destruct no; (congruence || reflexivity).
      - destruct Hm as [Hm Hr].
        destruct (@stored_post r C sees false false inside ls fs c (cleared t) n C_ok (Hcc ltac:(discriminate)))
          as (no & t' & E & P); [rewrite R5; exact Hr|].
        exists no, t'. split; [|apply (post_frames Hfc); rewrite R1 in P; exact P].
        remember (conv_return_stored C) as rs.
        assert (Hno : no <> NDone) by (eapply out_not_done; [|apply (p_out P)]; discriminate).
        cbn [nexec]. rewrite Hm. change (CF_RETURN =? CF_RETURN) with true.
        cbn [nexec]. rewrite run_clear. cbn [then_]. rewrite E.
        destruct no; (congruence || reflexivity).
      - destruct Hm as [Hm Hi].
        exists NThrown, (w_err (Some e) (cleared t)). split.
        + cbn [nexec]. rewrite Hm. change (CF_EXCEPTION =? CF_RETURN) with false. cbn [then_ go].
          assert (Hmid : nexec F n (if in_loop_ever C
               then NSeq (NIfCf l CF_BREAK (NSeq clear_if_occ (leave_loop LBreak CF_BREAK C)))
                         (NIfCf l CF_CONTINUE (NSeq clear_if_occ (leave_loop LContinue CF_CONTINUE C)))
               else NSkip) t = Some (NDone, t)).
          { destruct (in_loop_ever C); [|reflexivity]. cbn [nexec]. rewrite Hm.
            change (CF_EXCEPTION =? CF_BREAK) with false. cbn [then_ go]. rewrite Hm. reflexivity. }
          cbn [nexec] in Hmid |- *. rewrite Hmid. cbn [then_]. rewrite Hm. change (CF_EXCEPTION =? CF_EXCEPTION) with true.
          cbn [nexec]. rewrite Hi. reflexivity.
        + apply (post_frames Hfc). constructor; auto; try discriminate.
          * split; reflexivity.
          * intros h _. cbn [w_err n_info]. unfold cleared. rewrite (m_see M h). reflexivity.
    Qed.
  End Try.

  Lemma try_case : forall l b hs orelse f,
    sim_block b -> sim_handlers hs -> sim_block orelse -> sim_block f -> sim_stmt (STry l b hs orelse f).
  Proof.
    intros l b hs orelse f Hb Hh Hor Hf n C c sees keep inside ls fs o s' t HC Hsup Hp H.
    destruct Hsup as (-> & Hl & Sb & Sh & Sf & Se & So & Sfin).
    cbn [exec conv fst snd try_free] in *.
    apply bindr_fin in H as (o1 & s1 & H1 & H).
    assert (Hc : sees = true -> c = None) by (intros h; apply (proj2 Hp h eq_refl)).
    destruct (@first_part n C l sees inside ls fs HC Hl t b hs orelse c o1 s1 Hb Hh Hor Sb Sh Sf Se So Hp H1)
      as (t1 & E1 & M1 & S1).
    rewrite <- S1 in H.
    destruct (@final_part n C l sees inside ls fs HC Hl t f c o1 o s' t1 Hf Sfin Hc M1 H) as (t2 & E2 & M2 & S2).
    destruct (@last_part n C l sees inside ls fs HC t c o t2 Hc M2) as (no & t3 & E3 & P3).
    exists no, t3. split; [|split; [rewrite <- S2; exact P3|reflexivity]].
    unfold conv_try. cbn [nexec] in E1, E2, E3 |- *. rewrite E1. cbn [then_]. rewrite E2. exact E3.
  Qed.

  Theorem simulation :
    (forall st, sim_stmt st) /\ (forall b, sim_block b) /\ (forall hs, sim_handlers hs).
  Proof.
    apply program_ind.
    - exact prim_case.
    - intros y n C c sees keep inside ls fs o s' t _ [].
    - intros. apply if_case; assumption.
    - intros. apply while_case; assumption.
    - intros. apply for_case; assumption.
    - intros l e x b _ n C c sees keep inside ls fs o s' t _ [].
    - apply (@break_case true); reflexivity.
    - apply (@break_case false); reflexivity.
    - exact return_case.
    - intros. apply try_case; assumption.
    - exact nil_case.
    - intros. apply cons_case; assumption.
    - exact I.
    - intros. split; assumption.
  Qed.
End Sim.

(** ** Functions *)
Theorem same_answer : forall (L : lang) (F : facts L), sound_facts F ->
  forall may_look body n s info o s', supported_function F may_look body ->
  (may_look = true -> info = None) ->
  exec_block n None body s = Fin o s' ->
  exists a info', call F n body s info = Some (a, s', info') /\ python_answer o = Some a /\
    (may_look = true -> info' = None).
Proof.
  intros L F Hs may_look body n s info o s' Hsup Hi H.
  pose proof (proj1 (proj2 (@simulation L F Hs)) body) as Hsim.
  destruct (Hsim n no_blocks None may_look false false [] [] o s' (start s info)) as (no & t' & E & P & D).
  - split; [exact I|]. split; [reflexivity|]. split; [discriminate|]. intros to l Hx. discriminate.
  - exact Hsup.
  - split; [exact Hi|auto].
  - exact H.
  - pose proof (p_out P) as Ho. pose proof (p_in P) as Hin. pose proof (p_st P) as Hst.
    assert (Hn : may_look = true -> n_info t' = None) by (intros h; apply (p_none P h eq_refl)).
    cbn beta in E, D. unfold call, conv_function. destruct (conv_block F no_blocks body) as [nb r].
    cbn [fst snd] in *.
    destruct o; cbn [out_rel no_blocks return_to] in Ho.
    + rewrite (D eq_refl). cbn [nexec]. rewrite E. subst no. cbn [then_ nret].
      exists (Gives None), (n_info t'). rewrite Hst. auto.
    + specialize (Hin (or_introl eq_refl)). discriminate.
    + specialize (Hin (or_intror eq_refl)). discriminate.
    + subst no. exists (Gives r0), (n_info t'). rewrite <- Hst.
      destruct r; cbn [nexec]; rewrite E; cbn [then_]; auto.
    + destruct Ho as [-> He]. exists (Throws e), (n_info t'). rewrite <- Hst.
      destruct r; cbn [nexec]; rewrite E; cbn [then_]; rewrite He; auto.
Qed.
