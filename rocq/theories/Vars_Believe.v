(* What the compiler believes after a statement, in terms of what it believed before. *)
From Verif Require Import Base Vars_Model Vars_Spec Vars_Proofs.

Section Believe.
  Context {T V : Type}.
  Variable hasb : V -> T -> bool.
  Variable teqb : T -> T -> bool.
  Variable mergeT : T -> T -> T.
  Variable removeT : T -> T -> option T.
  Variable apply : nat -> V -> V -> V + V.
  Variable op_type : nat -> T -> T -> T.
  Variable slots : nat -> option T.
  Variable Hsens : sensible hasb teqb mergeT removeT apply op_type.
  Notation stmt := (stmt T V).
  Notation handlers := (handlers T V).
  Notation state := (state T).
  Notation entry := (entry T).
  Notation merge := (merge T teqb mergeT).
  Notation merge_entry := (merge_entry T teqb mergeT).
  Notation merge_types := (merge_types T teqb mergeT).
  Notation merge_live := (Vars_Model.merge_live teqb mergeT).
  Notation restrict := (restrict T V removeT).
  Notation conv := (conv T V hasb teqb mergeT removeT op_type slots).
  Notation conv_handlers := (conv_handlers T V hasb teqb mergeT removeT op_type slots).
  Notation conv_while := (conv_while T V hasb teqb mergeT removeT op_type slots).
  Notation conv_for := (conv_for T V teqb mergeT slots).
  Notation conv_expr := (conv_expr T V hasb op_type slots).
  Notation conv_test := (conv_test T V hasb op_type slots).
  Notation fits_slot := (fits_slot T teqb mergeT slots).
  Notation unknowns := (unknowns T slots).
  Notation state_eqb := (state_eqb T teqb).

  (* ---------------------------------------------------------------- states *)

  Lemma get_nil : forall x, get ([] : state) x = None.
  Proof. now intros []. Qed.

  Lemma get_put_same : forall (s : state) x e, get (put s x e) x = e.
  Proof. intros s x; revert s; induction x; intros [|a s] e; cbn; auto; apply IHx. Qed.

  Lemma get_put_other : forall (s : state) x y e, y <> x -> get (put s x e) y = get s y.
  Proof.
    intros s x; revert s; induction x as [|x IH]; intros s [|y] e N; destruct s; cbn; auto;
      try congruence.
    - destruct y; reflexivity.
    - unfold get in IH. rewrite IH by congruence. destruct y; reflexivity.
    - apply IH; congruence.
  Qed.

  Lemma get_merge : forall a b x, get (merge a b) x = merge_entry (get a x) (get b x).
  Proof.
    induction a as [|e a IH]; intros b x.
    - rewrite get_nil. cbn [Vars_Model.merge]. revert x.
      induction b as [|e b IH]; intros [|x]; cbn; auto. apply IH.
    - destruct b as [|e' b].
      + rewrite get_nil. cbn [Vars_Model.merge]. clear IH. revert e x.
        induction a as [|e' a IH]; intros e [|x]; cbn; auto.
        * now destruct x.
        * apply (IH e' x).
      + destruct x; cbn; auto. apply IH.
  Qed.

  Lemma state_eqb_eq : forall a b, state_eqb a b = true -> a = b.
  Proof.
    induction a as [|[[t u]|] a IH]; intros [|[[t' u']|] b]; cbn; try discriminate; auto.
    - rewrite !andb_true_iff. intros [[A B] C].
      apply (same_type _ _ _ _ _ _ Hsens) in A. apply Bool.eqb_prop in B. subst.
      f_equal; auto.
    - intros A; f_equal; auto.
  Qed.

  Lemma merge_types_left : forall v a b, hasb v a = true -> hasb v (merge_types a b) = true.
  Proof.
    intros v a b H; unfold Vars_Model.merge_types. destruct (teqb a b); auto.
    now apply (merge_left _ _ _ _ _ _ Hsens).
  Qed.
  Lemma merge_types_right : forall v a b, hasb v b = true -> hasb v (merge_types a b) = true.
  Proof.
    intros v a b H; unfold Vars_Model.merge_types. destruct (teqb a b) eqn:E.
    - apply (same_type _ _ _ _ _ _ Hsens) in E. now subst.
    - now apply (merge_right _ _ _ _ _ _ Hsens).
  Qed.

  Lemma fits_slot_holds : forall x t v, fits_slot x t = true -> hasb v t = true ->
    exists ts, slots x = Some ts /\ hasb v ts = true.
  Proof.
    intros x t v; unfold Vars_Model.fits_slot. destruct (slots x) as [ts|]; [|discriminate].
    intros E H. apply (same_type _ _ _ _ _ _ Hsens) in E. exists ts; split; auto.
    rewrite <- E. now apply merge_types_right.
  Qed.

  (* ---------------------------------------------------------------- entries and values *)

  (* [weak]: nothing is claimed of an absent variable. *)
  Definition holds (weak : bool) (e : entry) (v : option V) : Prop :=
    match e with
    | None => weak = true \/ v = None
    | Some (t, u) => match v with None => u = true | Some w => hasb w t = true end
    end.

  Lemma holds_merge_left : forall weak a b v, holds weak a v -> (weak = true -> holds weak b v) ->
    holds weak (merge_entry a b) v.
  Proof.
    intros weak [[t u]|] [[t' u']|] v; cbn; intros A B; auto.
    - destruct v; [now apply merge_types_left | now rewrite A].
    - destruct v; auto.
    - destruct v as [v|]; auto. destruct A as [A|A]; [|discriminate]. now apply B.
  Qed.
  Lemma holds_merge_right : forall weak a b v, holds weak b v -> (weak = true -> holds weak a v) ->
    holds weak (merge_entry a b) v.
  Proof.
    intros weak [[t u]|] [[t' u']|] v; cbn; intros A B; auto.
    - destruct v; [now apply merge_types_right | rewrite A; apply orb_true_r].
    - destruct v as [v|]; auto. destruct A as [A|A]; [|discriminate]. now apply B.
    - destruct v; auto.
  Qed.

  (* ---------------------------------------------------------------- loops *)

  (* What a loop was converted from in the end is believed at least as little as at first, and
     does not change. *)
  Lemma conv_while_fix : forall k c body orelse st s' st' r,
    conv_while k c body orelse st = Done (s', st', r) ->
    forall (P : state -> Prop), P st ->
    (forall s b' sb rb o' so ro, P s -> body (restrict s c true) = Done (b', sb, rb) ->
       orelse (restrict s c false) = Done (o', so, ro) ->
       P (merge (merge_live rb ro sb so) s)) ->
    exists c' b' sb rb o' so ro,
      P st' /\ conv_test st' c = Done c' /\ body (restrict st' c true) = Done (b', sb, rb) /\
      orelse (restrict st' c false) = Done (o', so, ro) /\
      merge (merge_live rb ro sb so) st' = st' /\ s' = SWhile c' b' o' /\ r = rb || ro.
  Proof.
    induction k as [|k IH]; intros c body orelse st s' st' r; cbn [Vars_Model.conv_while]; [discriminate|].
    destruct (conv_test st c) as [c'|] eqn:Ec; cbn [then_]; [|discriminate].
    destruct (body (restrict st c true)) as [[[b' sb] rb]|] eqn:Eb; cbn [then_]; [|discriminate].
    destruct (orelse (restrict st c false)) as [[[o' so] ro]|] eqn:Eo; cbn [then_]; [|discriminate].
    destruct (state_eqb (merge (merge_live rb ro sb so) st) st) eqn:Ee.
    - intros E P HP Hstep. apply state_eqb_eq in Ee. rewrite Ee in E. inversion E; subst.
      exists c', b', sb, rb, o', so, ro. repeat split; auto.
    - intros E P HP Hstep. eapply IH; [exact E | eapply Hstep; eauto | exact Hstep].
  Qed.

  Lemma conv_for_fix : forall k x vs t body orelse st s' st' r,
    conv_for k x vs t body orelse st = Done (s', st', r) ->
    forall (P : state -> Prop), P st ->
    (forall s b' sb rb o' so ro, P s -> body (assigned s x t) = Done (b', sb, rb) ->
       orelse (assigned s x t) = Done (o', so, ro) ->
       P (merge (merge_live rb ro sb so) s)) ->
    exists b' sb rb o' so ro,
      P st' /\ fits_slot x t = true /\ body (assigned st' x t) = Done (b', sb, rb) /\
      orelse (assigned st' x t) = Done (o', so, ro) /\
      merge (merge_live rb ro sb so) st' = st' /\
      s' = SFor x (how_to_write st' x) vs t b' o' /\ r = rb || ro.
  Proof.
    induction k as [|k IH]; intros x vs t body orelse st s' st' r E P HP Hstep;
      cbn [Vars_Model.conv_for] in E; [discriminate|].
    assert (Ef : fits_slot x t = true) by (destruct (fits_slot x t); [reflexivity | discriminate]).
    rewrite Ef in E.
    destruct (body (assigned st x t)) as [[[b' sb] rb]|] eqn:Eb; cbn [then_] in E; [|discriminate].
    destruct (orelse (assigned st x t)) as [[[o' so] ro]|] eqn:Eo; cbn [then_] in E; [|discriminate].
    destruct (state_eqb (merge (merge_live rb ro sb so) st) st) eqn:Ee.
    - apply state_eqb_eq in Ee. rewrite Ee in E. inversion E; subst.
      exists b', sb, rb, o', so, ro. repeat split; auto.
    - eapply IH; [exact E | eapply Hstep; eauto | exact Hstep].
  Qed.

  (* ---------------------------------------------------------------- what conversion gives *)

  Lemma conv_seq : forall k tr a b st s' st' r,
    conv k tr (SSeq a b) st = Done (s', st', r) ->
    exists a' sa ra, conv k tr a st = Done (a', sa, ra) /\
      ((ra = true /\ exists b', conv k tr b sa = Done (b', st', r) /\ s' = SSeq a' b') \/
       (ra = false /\ st' = sa /\ r = false /\ s' = SSeq a' SDead)).
  Proof.
    intros k tr a b st s' st' r; cbn [Vars_Model.conv].
    destruct (conv k tr a st) as [[[a' sa] ra]|]; cbn [then_]; [|discriminate].
    intros E. exists a', sa, ra; split; auto. destruct ra.
    - destruct (conv k tr b sa) as [[[b' sb] rb]|]; cbn [then_] in E; inversion E; subst. eauto.
    - inversion E; subst; auto.
  Qed.

  Lemma conv_if : forall k tr c a b st s' st' r,
    conv k tr (SIf c a b) st = Done (s', st', r) ->
    exists c' a' sa ra b' sb rb, conv_test st c = Done c' /\
      conv k tr a (restrict st c true) = Done (a', sa, ra) /\
      conv k tr b (restrict st c false) = Done (b', sb, rb) /\
      st' = merge_live ra rb sa sb /\ r = ra || rb /\ s' = SIf c' a' b'.
  Proof.
    intros k tr c a b st s' st' r; cbn [Vars_Model.conv].
    destruct (conv_test st c) as [c'|]; cbn [then_]; [|discriminate].
    destruct (conv k tr a (restrict st c true)) as [[[a' sa] ra]|]; cbn [then_]; [|discriminate].
    destruct (conv k tr b (restrict st c false)) as [[[b' sb] rb]|]; cbn [then_]; [|discriminate].
    intros E; inversion E; subst. repeat eexists.
  Qed.

  Lemma conv_assign : forall k tr x w e st s' st' r,
    conv k tr (SAssign x w e) st = Done (s', st', r) ->
    exists e' t, w = Free /\ conv_expr st e = Done (e', t) /\ fits_slot x t = true /\
      s' = SAssign x (how_to_write st x) e' /\ st' = assigned st x t /\ r = true.
  Proof.
    intros k tr x w e st s' st' r; destruct w; cbn [Vars_Model.conv]; try discriminate.
    destruct (conv_expr st e) as [[e' t]|]; cbn [then_]; [|discriminate].
    destruct (fits_slot x t) eqn:F; [|discriminate].
    intros E; inversion E; subst. eauto 10.
  Qed.

  Lemma conv_for_ : forall k tr x w vs t b o st s' st' r,
    conv k tr (SFor x w vs t b o) st = Done (s', st', r) ->
    w = Free /\ forallb (fun v => hasb v t) vs = true /\
    conv_for k x vs t (conv k tr b) (conv k tr o) st = Done (s', st', r).
  Proof.
    intros k tr x w vs t b o st s' st' r; destruct w; cbn [Vars_Model.conv]; try discriminate.
    destruct (forallb _ vs); [auto | discriminate].
  Qed.

  Lemma conv_return : forall k tr w e st s' st' r,
    conv k tr (SReturn w e) st = Done (s', st', r) ->
    exists e' t ts, w = Free /\ conv_expr st e = Done (e', t) /\ slots rv = Some ts /\
      fits_slot rv t = true /\ r = false /\
      ((s' = SReturn (how_to_write st rv) e' /\ st' = assigned st rv ts) \/
       (s' = SReturn Free e' /\ st' = st)).
  Proof.
    intros k tr w e st s' st' r; destruct w; cbn [Vars_Model.conv]; try discriminate.
    destruct (conv_expr st e) as [[e' t]|]; cbn [then_]; [|discriminate].
    destruct (slots rv) as [ts|] eqn:S; [|discriminate].
    destruct (fits_slot rv t) eqn:F; [|discriminate].
    intros E. exists e', t, ts. destruct tr; inversion E; subst; auto 10.
  Qed.

  Lemma conv_try : forall k tr b h o f st s' st' r,
    conv k tr (STry b h o f) st = Done (s', st', r) ->
    exists b' sb rb h' sm o' so ro f' rf,
      conv k true b st = Done (b', sb, rb) /\
      conv_handlers k h (unknowns st (stores b)) sb = Done (h', sm) /\
      conv k true o sm = Done (o', so, ro) /\ conv k true f so = Done (f', st', rf) /\
      s' = STry b' h' o' f' /\ r = true.
  Proof.
    intros k tr b h o f st s' st' r E.
    change (then_ (conv k true b st) (fun '(b', sb, rb) =>
            then_ (conv_handlers k h (unknowns st (stores b)) sb) (fun '(h', sm) =>
            then_ (conv k true o sm) (fun '(o', so, ro) =>
            then_ (conv k true f so) (fun '(f', sf, rf) => Done (STry b' h' o' f', sf, true)))))
            = Done (s', st', r)) in E.
    destruct (conv k true b st) as [[[b' sb] rb]|] eqn:Eb; cbn [then_] in E; [|discriminate].
    destruct (conv_handlers k h (unknowns st (stores b)) sb) as [[h' sm]|] eqn:Eh; cbn [then_] in E; [|discriminate].
    destruct (conv k true o sm) as [[[o' so] ro]|] eqn:Eo; cbn [then_] in E; [|discriminate].
    destruct (conv k true f so) as [[[f' sf] rf]|] eqn:Ef; cbn [then_] in E; [|discriminate].
    inversion E; subst. exists b', sb, rb, h', sm, o', so, ro, f', rf. auto 10.
  Qed.

  Lemma conv_handlers_cons : forall k t x b h sh sb h' sm,
    conv_handlers k (HCons t x b h) sh sb = Done (h', sm) ->
    exists hr sr b' s' r, conv_handlers k h sh sb = Done (hr, sr) /\
      ((x = None /\ conv k true b sh = Done (b', s', r) /\ h' = HCons t None b' hr /\
        sm = if r then merge sr s' else sr) \/
       exists y, x = Some (y, Free) /\ fits_slot y t = true /\
         conv k true b (assigned sh y t) = Done (b', s', r) /\
         h' = HCons t (Some (y, how_to_write sh y)) b' hr /\
         sm = if r then merge sr (uninitialized s' y) else sr).
  Proof.
    intros k t x b h sh sb h' sm E.
    change (then_ (conv_handlers k h sh sb) (fun '(hr, sr) =>
        match x with
        | None =>
            then_ (conv k true b sh) (fun '(b', s', r) =>
            Done (HCons t None b' hr, if r : bool then merge sr s' else sr))
        | Some (x, Free) =>
            if fits_slot x t then
              then_ (conv k true b (assigned sh x t)) (fun '(b', s', r) =>
              Done (HCons t (Some (x, how_to_write sh x)) b' hr,
                    if r : bool then merge sr (uninitialized s' x) else sr))
            else Stop Unstable
        | Some _ => Stop NotSource
        end) = Done (h', sm)) in E.
    destruct (conv_handlers k h sh sb) as [[hr sr]|] eqn:Eh; cbn [then_] in E; [|discriminate].
    destruct x as [[y []]|]; try discriminate.
    - destruct (fits_slot y t) eqn:F; [|discriminate].
      destruct (conv k true b (assigned sh y t)) as [[[b' s'] r]|] eqn:Eb; cbn [then_] in E; [|discriminate].
      inversion E; subst. exists hr, sr, b', s', r. split; auto. right. exists y. auto 10.
    - destruct (conv k true b sh) as [[[b' s'] r]|] eqn:Eb; cbn [then_] in E; [|discriminate].
      inversion E; subst. exists hr, sr, b', s', r. auto 10.
  Qed.

  Local Arguments get : simpl never.
  Local Arguments put : simpl never.
  Local Arguments Vars_Model.merge : simpl never.

  (* ---------------------------------------------------------------- a property of one entry *)

  (* A property of what is believed of one variable that merging, testing, and the assignments in
     a statement keep is kept by the statement. *)
  Section One.
    Variable x : nat.
    Variable P : entry -> Prop.
    Hypothesis Pnone : P None.
    Hypothesis Pmerge : forall a b, P a -> P b -> P (merge_entry a b).

    Lemma one_live : forall ra rb a b, P (get a x) -> P (get b x) -> P (get (merge_live ra rb a b) x).
    Proof.
      intros [] [] a b A B; cbn [Vars_Model.merge_live]; auto.
      - rewrite get_merge; auto.
      - now rewrite get_nil.
    Qed.

    Definition can_assign (y : nat) := y = x -> forall t, P (Some (t, false)).
    Definition can_test (y : nat) := y = x -> forall s t b, P (get s x) ->
      P (get (restrict_type T removeT s x t b) x).

    Lemma one_restrict : forall s (c : test T V) b,
      (forall y, In y (asks c) -> can_test y) -> P (get s x) -> P (get (restrict s c b) x).
    Proof.
      intros s [e|y l t neg] b H Hs; cbn; auto.
      destruct (Nat.eq_dec y x) as [->|N].
      - apply (H x); cbn; auto.
      - unfold restrict_type. destruct (get s y) as [[old u]|]; auto.
        destruct (xorb neg b); [now rewrite get_put_other by auto|].
        destruct (removeT old t); auto. now rewrite get_put_other by auto.
    Qed.

    Lemma one_assigned : forall s y t, can_assign y -> P (get s x) -> P (get (assigned s y t) x).
    Proof.
      intros s y t C Hs. unfold assigned. destruct (Nat.eq_dec y x) as [->|N].
      - rewrite get_put_same; auto.
      - now rewrite get_put_other by auto.
    Qed.

    Lemma one_unknowns : forall xs s, (In x xs -> forall t, P (Some (t, true))) ->
      P (get s x) -> P (get (unknowns s xs) x).
    Proof.
      induction xs as [|y xs IH]; intros s H Hs; cbn; auto.
      destruct (slots y) as [t|].
      - apply IH; [intros; apply H; cbn; auto|]. unfold unknown.
        destruct (Nat.eq_dec y x) as [->|N].
        + rewrite get_put_same. apply H; cbn; auto.
        + now rewrite get_put_other by auto.
      - apply IH; auto. intros; apply H; cbn; auto.
    Qed.

    Hypothesis Punk : forall t u, P (Some (t, u)) -> P (Some (t, true)).

    Lemma one_kept : forall k,
      (forall s : stmt, forall tr st s' st' r,
         conv k tr s st = Done (s', st', r) ->
         (forall y, In y (stores s) -> can_assign y) ->
         (forall y, In y (names s) -> y = x -> forall t, P (Some (t, true))) ->
         (returns s = true -> can_assign rv) ->
         (forall y, In y (tested s) -> can_test y) ->
         P (get st x) -> P (get st' x)) /\
      (forall h : handlers, forall sh sb h' sm,
         conv_handlers k h sh sb = Done (h', sm) ->
         (forall y, In y (h_stores h) -> can_assign y) ->
         (forall y, In y (h_names h) -> y = x -> forall t, P (Some (t, true))) ->
         (h_returns h = true -> can_assign rv) ->
         (forall y, In y (h_tested h) -> can_test y) ->
         P (get sh x) -> P (get sb x) -> P (get sm x)).
    Proof.
      intros k; apply stmt_handlers_ind.
      - intros tr st s' st' r E _ _ _ _ H. inversion E; subst; auto.
      - intros a IHa b IHb tr st s' st' r E S N R Q H.
        apply conv_seq in E. destruct E as (a' & sa & ra & Ea & E).
        cbn [stores names returns tested] in *.
        assert (A : P (get sa x)).
        { eapply IHa; eauto; intros; [apply S | eapply N | apply R | apply Q]; eauto;
            rewrite ?in_app_iff, ?H0; auto. }
        destruct E as [(-> & b' & Eb & ->) | (-> & -> & -> & ->)]; auto.
        eapply IHb; eauto; intros; [apply S | eapply N | apply R | apply Q]; eauto;
            rewrite ?in_app_iff, ?H0, ?orb_true_r; auto.
      - intros y w e tr st s' st' r E S N R Q H. apply conv_assign in E.
        destruct E as (e' & t & -> & _ & _ & -> & -> & ->). apply one_assigned; auto.
        apply S; cbn; auto.
      - intros e tr st s' st' r E S N R Q H. cbn in E.
        destruct (conv_expr st e) as [[e' t]|]; inversion E; subst; auto.
      - intros c a IHa b IHb tr st s' st' r E S N R Q H. apply conv_if in E.
        destruct E as (c' & a' & sa & ra & b' & sb & rb & _ & Ea & Eb & -> & -> & ->).
        cbn [stores names returns tested] in *.
        apply one_live.
        + eapply IHa; eauto; intros; [apply S | eapply N | apply R | apply Q | ]; eauto;
            rewrite ?in_app_iff, ?H0; auto.
          apply one_restrict; auto. intros; apply Q; rewrite in_app_iff; auto.
        + eapply IHb; eauto; intros; [apply S | eapply N | apply R | apply Q | ]; eauto;
            rewrite ?in_app_iff, ?H0, ?orb_true_r; auto.
          apply one_restrict; auto. intros; apply Q; rewrite in_app_iff; auto.
      - intros c b IHb o IHo tr st s' st' r E S N R Q H.
        cbn [Vars_Model.conv] in E. cbn [stores names returns tested] in *.
        apply conv_while_fix with (P := fun s => P (get s x)) in E; auto.
        + destruct E as (c' & b' & sb & rb & o' & so & ro & A & _); auto.
        + intros s b' sb rb o' so ro Hs Eb Eo. rewrite get_merge. apply Pmerge; auto.
          apply one_live.
          * eapply IHb; eauto; intros; [apply S | eapply N | apply R | apply Q | ]; eauto;
              rewrite ?in_app_iff, ?H0; auto.
            apply one_restrict; auto. intros; apply Q; rewrite in_app_iff; auto.
          * eapply IHo; eauto; intros; [apply S | eapply N | apply R | apply Q | ]; eauto;
              rewrite ?in_app_iff, ?H0, ?orb_true_r; auto.
            apply one_restrict; auto. intros; apply Q; rewrite in_app_iff; auto.
      - intros y w vs t b IHb o IHo tr st s' st' r E S N R Q H.
        apply conv_for_ in E. destruct E as (-> & _ & E).
        cbn [stores names returns tested] in *.
        apply conv_for_fix with (P := fun s => P (get s x)) in E; auto.
        + destruct E as (b' & sb & rb & o' & so & ro & A & _); auto.
        + intros s b' sb rb o' so ro Hs Eb Eo. rewrite get_merge. apply Pmerge; auto.
          apply one_live.
          * eapply IHb; eauto; intros; [apply S | eapply N | apply R | apply Q | ]; eauto;
              cbn; rewrite ?in_app_iff, ?H0; auto.
            apply one_assigned; auto. apply S; cbn; auto.
          * eapply IHo; eauto; intros; [apply S | eapply N | apply R | apply Q | ]; eauto;
              cbn; rewrite ?in_app_iff, ?H0, ?orb_true_r; auto.
            apply one_assigned; auto. apply S; cbn; auto.
      - intros tr st s' st' r E _ _ _ _ H. inversion E; subst; auto.
      - intros tr st s' st' r E _ _ _ _ H. inversion E; subst; auto.
      - intros a IHa tr st s' st' r E S N R Q H. cbn in E.
        destruct (conv k tr a st) as [[[a' sa] ra]|] eqn:Ea; inversion E; subst. eapply IHa; eauto.
      - intros a IHa tr st s' st' r E S N R Q H. cbn in E.
        destruct (conv k tr a st) as [[[a' sa] ra]|] eqn:Ea; inversion E; subst. eapply IHa; eauto.
      - intros w e tr st s' st' r E S N R Q H. apply conv_return in E.
        destruct E as (e' & t & ts & -> & _ & _ & _ & -> & [(-> & ->) | (-> & ->)]); auto.
        apply one_assigned; auto.
      - intros e tr st s' st' r E S N R Q H. cbn in E.
        destruct (conv_expr st e) as [[e' t]|]; inversion E; subst; auto.
      - intros c tr st s' st' r E S N R Q H. cbn [Vars_Model.conv] in E.
        destruct (conv_test st c) as [c'|]; cbn [then_] in E; inversion E; subst.
        apply one_restrict; auto.
      - intros b IHb h IHh o IHo f IHf tr st s' st' r E S N R Q H. apply conv_try in E.
        destruct E as (b' & sb & rb & h' & sm & o' & so & ro & f' & rf & Eb & Eh & Eo & Ef & -> & ->).
        change (stores (STry b h o f)) with (stores b ++ h_stores h ++ stores o ++ stores f) in S.
        change (names (STry b h o f)) with (names b ++ h_names h ++ names o ++ names f) in N.
        change (tested (STry b h o f)) with (tested b ++ h_tested h ++ tested o ++ tested f) in Q.
        rewrite returns_try in R.
        assert (A : P (get sb x)).
        { eapply IHb; eauto; intros; [apply S | eapply N | apply R | apply Q]; eauto;
            rewrite ?in_app_iff, ?H0; auto. }
        assert (B : P (get sm x)).
        { eapply IHh; eauto; intros; [apply S | eapply N | apply R | apply Q | ]; eauto;
            rewrite ?in_app_iff, ?H0, ?orb_true_r; auto.
          apply one_unknowns; auto. intros I t. apply Punk with false.
          apply (S x); auto. rewrite in_app_iff; auto. }
        assert (C : P (get so x)).
        { eapply IHo; eauto; intros; [apply S | eapply N | apply R | apply Q]; eauto;
            rewrite ?in_app_iff, ?H0, ?orb_true_r; auto. }
        eapply IHf; eauto; intros; [apply S | eapply N | apply R | apply Q]; eauto;
            rewrite ?in_app_iff, ?H0, ?orb_true_r; auto.
      - intros tr st s' st' r E. discriminate.
      - intros sh sb h' sm E _ _ _ _ _ H. inversion E; subst; auto.
      - intros t y b IHb h IHh sh sb h' sm E S N R Q Hh Hb. apply conv_handlers_cons in E.
        destruct E as (hr & sr & b' & s' & r & Eh & E).
        change (h_stores (HCons t y b h)) with (stores b ++ h_stores h) in S.
        change (h_names (HCons t y b h)) with (the_name y ++ names b ++ h_names h) in N.
        change (h_tested (HCons t y b h)) with (tested b ++ h_tested h) in Q.
        change (h_returns (HCons t y b h)) with (returns b || h_returns h) in R.
        assert (A : P (get sr x)).
        { eapply IHh; eauto; intros; [apply S | eapply N | apply R | apply Q]; eauto;
            rewrite ?in_app_iff, ?H, ?orb_true_r; auto. }
        destruct E as [(-> & Eb & -> & ->) | (z & -> & _ & Eb & -> & ->)].
        + assert (B : P (get s' x)).
          { eapply IHb; eauto; intros; [apply S | eapply N | apply R | apply Q]; eauto;
              rewrite ?in_app_iff, ?H; auto. }
          destruct r; auto. rewrite get_merge; auto.
        + destruct r; auto. rewrite get_merge. apply Pmerge; auto.
          unfold uninitialized. destruct (Nat.eq_dec z x) as [->|D].
          * destruct (get s' x) as [[t' u']|] eqn:G; [|now rewrite G].
            rewrite get_put_same. eapply N; eauto. cbn; auto.
          * assert (B : P (get s' x)).
            { eapply IHb; eauto; intros; [apply S | eapply N | apply R | apply Q | ]; eauto;
                rewrite ?in_app_iff, ?H; auto.
              unfold assigned; now rewrite get_put_other by auto. }
            destruct (get s' z) as [[t' u']|]; auto. now rewrite get_put_other by auto.
    Qed.
  End One.

  (* ---------------------------------------------------------------- consequences *)

  (* Names of handlers do not come to be believed set. *)
  Lemma not_set_kept : forall k x, x <> rv ->
    (forall (s : stmt) tr st s' st' r, conv k tr s st = Done (s', st', r) -> ~ In x (stores s) ->
       is_set (get st x) = false -> is_set (get st' x) = false) /\
    (forall (h : handlers) sh sb h' sm, conv_handlers k h sh sb = Done (h', sm) ->
       ~ In x (h_stores h) -> is_set (get sh x) = false -> is_set (get sb x) = false ->
       is_set (get sm x) = false).
  Proof.
    intros k x Hx.
    assert (M : forall a b, is_set a = false -> is_set b = false -> is_set (merge_entry a b) = false).
    { intros [[t u]|] [[t' u']|]; cbn; auto. destruct u; cbn; auto. }
    assert (Q : forall y, can_test x (fun e => is_set e = false) y).
    { intros y -> s t b Hs. unfold restrict_type.
      destruct (get s x) as [[old u]|] eqn:G; [|now rewrite G].
      destruct b; [now rewrite get_put_same|].
      destruct (removeT old t); [now rewrite get_put_same | now rewrite G]. }
    assert (U : forall (t : T) u, is_set (Some (t, u)) = false -> is_set (Some (t, true)) = false)
      by reflexivity.
    assert (A := one_kept x (fun e => is_set e = false) eq_refl M U k).
    split; intros.
    - eapply (proj1 A); eauto.
      + intros y Hy E; subst y; contradiction.
      + intros _ E; congruence.
    - eapply (proj2 A); eauto.
      + intros y Hy E; subst y; contradiction.
      + intros _ E; congruence.
  Qed.

  (* What is said of a variable that a statement neither binds nor tests only gets weaker. *)
  Lemma weaker_kept : forall k x v,
    (forall (s : stmt) tr st s' st' r, conv k tr s st = Done (s', st', r) ->
       ~ In x (stores s ++ names s ++ tested s) -> (returns s = true -> x <> rv) ->
       holds true (get st x) v -> holds true (get st' x) v) /\
    (forall (h : handlers) sh sb h' sm, conv_handlers k h sh sb = Done (h', sm) ->
       ~ In x (h_stores h ++ h_names h ++ h_tested h) -> (h_returns h = true -> x <> rv) ->
       holds true (get sh x) v -> holds true (get sb x) v -> holds true (get sm x) v).
  Proof.
    intros k x v.
    assert (M : forall a b, holds true a v -> holds true b v -> holds true (merge_entry a b) v).
    { intros; apply holds_merge_left; auto. }
    assert (U : forall t u, holds true (Some (t, u)) v -> holds true (Some (t, true)) v).
    { cbn; intros; destruct v; auto. }
    split; intros.
    - rewrite !in_app_iff in H0.
      eapply (proj1 (one_kept x (fun e => holds true e v) (or_introl eq_refl) M U k)); eauto.
      + intros y Hy ->; tauto.
      + intros y Hy ->; tauto.
      + intros E F; exfalso; apply (H1 E); now symmetry.
      + intros y Hy ->; tauto.
    - rewrite !in_app_iff in H0.
      eapply (proj2 (one_kept x (fun e => holds true e v) (or_introl eq_refl) M U k)); eauto.
      + intros y Hy ->; tauto.
      + intros y Hy ->; tauto.
      + intros E F; exfalso; apply (H1 E); now symmetry.
      + intros y Hy ->; tauto.
  Qed.

  Lemma get_unknowns_other : forall xs s x, ~ In x xs -> get (unknowns s xs) x = get s x.
  Proof.
    induction xs as [|y xs IH]; intros s x N; cbn in *; auto.
    destruct (slots y); rewrite IH by tauto; auto.
    unfold unknown; apply get_put_other. intros ->; tauto.
  Qed.

  Lemma get_unknowns_in : forall xs s x t, In x xs -> slots x = Some t ->
    get (unknowns s xs) x = Some (t, true).
  Proof.
    induction xs as [|y xs IH]; intros s x t I E; cbn in *; [tauto|].
    destruct (in_dec Nat.eq_dec x xs) as [J|J].
    - destruct (slots y); now apply IH.
    - destruct I as [->|I]; [|contradiction]. rewrite E, get_unknowns_other by auto.
      unfold unknown; apply get_put_same.
  Qed.

  Lemma get_unknowns_no_slot : forall xs s x, slots x = None ->
    get (unknowns s xs) x = get s x.
  Proof.
    induction xs as [|y xs IH]; intros s x E; cbn in *; auto.
    destruct (slots y) eqn:F; rewrite IH; auto.
    unfold unknown; apply get_put_other. intros ->; congruence.
  Qed.
End Believe.
