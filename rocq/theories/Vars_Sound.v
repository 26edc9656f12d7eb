(* For tame programs, converted code does what Python does. *)
From Verif Require Import Base Vars_Model Vars_Spec Vars_Proofs Vars_Believe.

Section Sound.
  Context {T V : Type}.
  Variable hasb : V -> T -> bool.
  Variable teqb : T -> T -> bool.
  Variable mergeT : T -> T -> T.
  Variable removeT : T -> T -> option T.
  Variable truthy : V -> bool.
  Variable apply : nat -> V -> V -> V + V.
  Variable op_type : nat -> T -> T -> T.
  Variable unbound failed : V.
  Variable slots : nat -> option T.
  Variable Hsens : sensible hasb teqb mergeT removeT apply op_type.
  Notation stmt := (stmt T V).
  Notation handlers := (handlers T V).
  Notation state := (state T).
  Notation merge := (merge T teqb mergeT).
  Notation merge_entry := (merge_entry T teqb mergeT).
  Notation merge_live := (Vars_Model.merge_live teqb mergeT).
  Notation restrict := (restrict T V removeT).
  Notation conv := (conv T V hasb teqb mergeT removeT op_type slots).
  Notation conv_handlers := (conv_handlers T V hasb teqb mergeT removeT op_type slots).
  Notation conv_expr := (conv_expr T V hasb op_type slots).
  Notation conv_test := (conv_test T V hasb op_type slots).
  Notation fits_slot := (fits_slot T teqb mergeT slots).
  Notation unknowns := (unknowns T slots).
  Notation exec := (exec T V hasb truthy apply unbound failed).
  Notation handle := (handle T V hasb truthy apply unbound failed).
  Notation while_loop := (while_loop T V hasb truthy apply unbound).
  Notation ask := (ask T V hasb truthy apply unbound).
  Notation eval := (eval T V hasb apply unbound).
  Notation fetch := (fetch T V hasb unbound).
  Notation holds := (holds hasb).
  Notation in_slots := (in_slots hasb slots).

  Local Arguments get : simpl never.
  Local Arguments put : simpl never.
  Local Arguments Vars_Model.merge : simpl never.
  Local Arguments rv : simpl never.

  (* What is believed is so of the variables in X. *)
  Definition fits (X : nat -> Prop) (weak : bool) (st : state) (m : env V) : Prop :=
    (forall x, X x -> x <> rv -> holds weak (get st x) (m x)) /\
    (weak = false -> X rv -> is_set (get st rv) = true -> m rv <> None).

  Definition good (X : nat -> Prop) (weak : bool) (st : state) (r : bool) (o : out V) : Prop :=
    match o with
    | Normal m | Broke m | Continued m =>
        r = true /\ (weak = false -> fits X false st m) /\ in_slots m
    | Returned _ m | Raised _ m => in_slots m
    | Bad => False
    | Spin => True
    end.

  (* ---------------------------------------------------------------- fits *)

  Lemma fits_merge_l : forall X a b m, fits X false a m -> fits X false (merge a b) m.
  Proof.
    intros X a b m [A B]; split.
    - intros x Hx Nx. rewrite get_merge. apply (holds_merge_left _ _ _ _ _ _ Hsens); auto. discriminate.
    - intros _ Hx. rewrite get_merge. intros S. apply B; auto.
      destruct (get a rv) as [[t u]|], (get b rv) as [[t' u']|]; cbn in *; auto.
      + destruct u; auto.
      + discriminate.
  Qed.
  Lemma fits_merge_r : forall X a b m, fits X false b m -> fits X false (merge a b) m.
  Proof.
    intros X a b m [A B]; split.
    - intros x Hx Nx. rewrite get_merge. apply (holds_merge_right _ _ _ _ _ _ Hsens); auto. discriminate.
    - intros _ Hx. rewrite get_merge. intros S. apply B; auto.
      destruct (get a rv) as [[t u]|], (get b rv) as [[t' u']|]; cbn in *; auto; try discriminate.
      destruct u, u'; auto.
  Qed.
  Lemma fits_live_l : forall X rb a b m, fits X false a m -> fits X false (merge_live true rb a b) m.
  Proof. intros X [] a b m H; cbn; auto. now apply fits_merge_l. Qed.
  Lemma fits_live_r : forall X ra a b m, fits X false b m -> fits X false (merge_live ra true a b) m.
  Proof. intros X [] a b m H; cbn; auto. now apply fits_merge_r. Qed.

  Lemma fits_weak_same : forall X st m m', (forall x, m' x = m x) -> fits X true st m -> fits X true st m'.
  Proof.
    intros X st m m' E [A B]; split; [|discriminate]. intros x Hx Nx. rewrite E. auto.
  Qed.

  Lemma holds_weak : forall weak e v, holds weak e v -> holds true e v.
  Proof. intros weak [[t u]|] v; cbn; auto. Qed.

  Lemma fits_sub : forall (X Y : nat -> Prop) weak st m,
    (forall x, Y x -> X x) -> fits X weak st m -> fits Y weak st m.
  Proof. intros X Y weak st m H [A B]; split; auto. Qed.

  Lemma is_set_restrict : forall st (c : test T V) b x,
    is_set (get (restrict st c b) x) = is_set (get st x).
  Proof.
    intros st [e|y l t neg] b x; cbn; auto. unfold restrict_type.
    destruct (get st y) as [[old u]|] eqn:G; auto.
    assert (A : forall t', is_set (get (put st y (Some (t', u))) x) = is_set (get st x)).
    { intros t'. destruct (Nat.eq_dec x y) as [->|N].
      - rewrite get_put_same, G. reflexivity.
      - now rewrite get_put_other. }
    destruct (xorb neg b); auto. destruct (removeT old t); auto.
  Qed.

  Lemma fits_assigned : forall X st m x t v, x <> rv -> hasb v t = true ->
    fits X false st m -> fits X false (assigned st x t) (upd m x (Some v)).
  Proof.
    intros X st m x t v N H [A B]; unfold assigned; split.
    - intros y Hy Ny. destruct (Nat.eq_dec y x) as [->|D].
      + rewrite get_put_same, upd_same. exact H.
      + rewrite get_put_other, upd_other by auto. auto.
    - rewrite get_put_other, upd_other by auto. auto.
  Qed.

  Lemma slots_upd : forall m x v t, in_slots m -> fits_slot x t = true -> hasb v t = true ->
    in_slots (upd m x (Some v)).
  Proof.
    intros m x v t H F Hv y w. destruct (Nat.eq_dec y x) as [->|D].
    - rewrite upd_same. intros E; inversion E; subst.
      eapply fits_slot_holds; eauto.
    - rewrite upd_other by auto. apply H.
  Qed.

  Lemma slots_none : forall m x, in_slots m -> in_slots (upd m x None).
  Proof.
    intros m x H y w. unfold upd. destruct (Nat.eqb y x); [discriminate | apply H].
  Qed.

  (* ---------------------------------------------------------------- reading and writing *)

  Lemma read_same : forall weak st x v, holds weak (get st x) v ->
    fetch (how_to_read st x) v = fetch Plain v.
  Proof.
    intros weak st x v; unfold how_to_read. destruct (get st x) as [[t []]|]; cbn.
    - destruct v as [w|]; auto. intros ->; auto.
    - destruct v as [w|]; [intros ->; auto | discriminate].
    - destruct v; auto.
  Qed.

  Lemma write_fine : forall st x (v : option V), holds false (get st x) v ->
    may_write (how_to_write st x) v = true.
  Proof.
    intros st x v; unfold how_to_write. destruct (get st x) as [[t []]|]; cbn; auto.
    - destruct v; auto; discriminate.
    - intros [E | ->]; [discriminate | auto].
  Qed.

  Lemma expr_sound : forall X weak st m, fits X weak st m -> in_slots m ->
    forall e e' t, conv_expr st e = Done (e', t) ->
    (forall x, In x (expr_vars e) -> X x /\ x <> rv) ->
    eval e' m = eval e m /\
    match eval e m with Got v => hasb v t = true | Threw _ => True | Wrong => False end.
  Proof.
    intros X weak st m F I. induction e as [v t|x l|o a IHa b IHb]; intros e' t' E HX.
    - cbn in E. destruct (hasb v t) eqn:H; inversion E; subst. auto.
    - cbn in E. destruct l; try discriminate.
      destruct (HX x) as [Hx Nx]; [cbn; auto|].
      assert (H := proj1 F x Hx Nx).
      destruct (slots x) as [ts|] eqn:S; [|discriminate]. inversion E; subst.
      cbn [Vars_Model.eval]. split; [eapply read_same; eauto|].
      destruct (m x) as [w|] eqn:M; cbn; auto.
      destruct (get st x) as [[t u]|]; auto.
      destruct (I x w M) as (ts' & S' & Hw). congruence.
    - cbn in E.
      destruct (conv_expr st a) as [[a' ta]|] eqn:Ea; [|discriminate]. cbn [then_] in E.
      destruct (conv_expr st b) as [[b' tb]|] eqn:Eb; [|discriminate]. cbn [then_] in E.
      inversion E; subst.
      destruct (IHa _ _ eq_refl) as [A A']; [intros; apply HX; cbn; rewrite in_app_iff; auto|].
      destruct (IHb _ _ eq_refl) as [B B']; [intros; apply HX; cbn; rewrite in_app_iff; auto|].
      cbn [Vars_Model.eval]. rewrite A, B. split; auto.
      destruct (eval a m) as [va| |]; auto. destruct (eval b m) as [vb| |]; auto.
      destruct (apply o va vb) as [v|v] eqn:Ap; auto.
      eapply (op_typed _ _ _ _ _ _ Hsens); eauto.
  Qed.

  Lemma fits_restrict : forall X weak st m x t b, fits X weak st m -> x <> rv ->
    (forall v, m x = Some v -> hasb v t = b) -> m x <> None ->
    fits X weak (restrict_type T removeT st x t b) m.
  Proof.
    intros X weak st m x t b [A B] N H M. unfold restrict_type.
    destruct (get st x) as [[old u]|] eqn:G; [|split; auto].
    assert (P : forall t', (forall v, m x = Some v -> hasb v old = true -> hasb v t' = true) ->
                fits X weak (put st x (Some (t', u))) m).
    { intros t' Ht'; split.
      - intros y Hy Ny. destruct (Nat.eq_dec y x) as [->|D].
        + rewrite get_put_same. assert (A' := A x Hy Ny). rewrite G in A'. cbn in *.
          destruct (m x) as [v|]; auto.
        + rewrite get_put_other by auto. auto.
      - rewrite get_put_other by auto. auto. }
    destruct b.
    - apply P. auto.
    - destruct (removeT old t) as [t'|] eqn:R; [|split; auto].
      apply P. intros v Mv Hv. eapply (remove_keeps _ _ _ _ _ _ Hsens); eauto.
  Qed.

  Lemma test_sound : forall X weak st m, fits X weak st m -> in_slots m ->
    forall c c', conv_test st c = Done c' ->
    (forall x, In x (test_vars c) -> X x /\ x <> rv) ->
    ask c' m = ask c m /\ ask c m <> AWrong /\
    (ask c m = Yes -> fits X weak (restrict st c true) m) /\
    (ask c m = No -> fits X weak (restrict st c false) m).
  Proof.
    intros X weak st m F I [e|x l t neg] c' E HX.
    - cbn in E. destruct (conv_expr st e) as [[e' te]|] eqn:Ee; inversion E; subst.
      destruct (expr_sound X weak st m F I e e' te Ee HX) as [A B].
      cbn [Vars_Model.ask]. rewrite A. split; [reflexivity|].
      change (restrict st (CTruth e) true) with st. change (restrict st (CTruth e) false) with st.
      split; [|auto]. destruct (eval e m); [destruct (truthy v)| |contradiction]; discriminate.
    - cbn in E. destruct l; try discriminate.
      destruct (HX x) as [Hx Nx]; [cbn; auto|].
      destruct (slots x); inversion E; subst. clear E.
      cbn [Vars_Model.ask]. rewrite (read_same weak) by (apply F; auto).
      destruct (m x) as [v|] eqn:M; cbn; [|split; [reflexivity|]; split; [discriminate|]; split; discriminate].
      split; [reflexivity|]. split; [destruct (xorb neg (hasb v t)); discriminate|].
      split; destruct (xorb neg (hasb v t)) eqn:Q; try discriminate; intros _;
        apply fits_restrict; auto; try congruence; intros w Hw;
        rewrite M in Hw; inversion Hw; subst; destruct neg, (hasb w t); auto; discriminate.
  Qed.

  (* ---------------------------------------------------------------- statements that bind nothing *)

  Definition mild (s : stmt) : Prop :=
    stores s = [] /\ names s = [] /\ returns s = false /\ tested s = [].
  Definition h_mild (h : handlers) : Prop :=
    h_stores h = [] /\ h_names h = [] /\ h_returns h = false /\ h_tested h = [].

  Lemma mild_run : forall n s m, mild s -> leads (fun m' => forall x, m' x = m x) (exec n s m).
  Proof.
    intros n s m (A & B & C & D). apply keeps; auto.
    - rewrite A, B. intros x [].
    - congruence.
    - rewrite B. intros x [].
  Qed.
  Lemma h_mild_run : forall n h v m, h_mild h -> leads (fun m' => forall x, m' x = m x) (handle n h v m).
  Proof.
    intros n h v m (A & B & C & D). apply keeps; auto.
    - rewrite A, B. intros x [].
    - congruence.
    - rewrite B. intros x [].
  Qed.

  Lemma mild_fits : forall k tr s st s' st' r X m, mild s -> conv k tr s st = Done (s', st', r) ->
    fits X true st m -> fits X true st' m.
  Proof.
    intros k tr s st s' st' r X m (A & B & C & D) E [F G]; split; [|discriminate].
    intros x Hx Nx. eapply (proj1 (weaker_kept _ _ _ _ _ _ _ Hsens k x (m x))); eauto.
    rewrite A, B, D. intros [].
  Qed.
  Lemma h_mild_fits : forall k h sh sb h' sm X m, h_mild h -> conv_handlers k h sh sb = Done (h', sm) ->
    fits X true sh m -> fits X true sb m -> fits X true sm m.
  Proof.
    intros k h sh sb h' sm X m (A & B & C & D) E [F G] [F' G']; split; [|discriminate].
    intros x Hx Nx. eapply (proj2 (weaker_kept _ _ _ _ _ _ _ Hsens k x (m x))); eauto.
    rewrite A, B, D. intros [].
  Qed.

  Lemma mild_seq : forall a b, mild (SSeq a b) -> mild a /\ mild b.
  Proof.
    unfold mild; cbn; intros a b (A & B & C & D). apply app_eq_nil in A, B, D.
    apply orb_false_iff in C. tauto.
  Qed.
  Lemma mild_if : forall c a b, mild (SIf c a b) -> asks c = [] /\ mild a /\ mild b.
  Proof.
    unfold mild; cbn; intros c a b (A & B & C & D). apply app_eq_nil in A, B, D.
    destruct D as [D D']. apply app_eq_nil in D'. apply orb_false_iff in C. tauto.
  Qed.
  Lemma mild_while : forall c a b, mild (SWhile c a b) -> asks c = [] /\ mild a /\ mild b.
  Proof. intros c a b; exact (mild_if c a b). Qed.
  Lemma mild_try : forall b h o f, mild (STry b h o f) -> mild b /\ h_mild h /\ mild o /\ mild f.
  Proof.
    unfold mild, h_mild; intros b h o f (A & B & C & D).
    change (stores b ++ h_stores h ++ stores o ++ stores f = []) in A.
    change (names b ++ h_names h ++ names o ++ names f = []) in B.
    change (returns b || h_returns h || returns o || returns f = false) in C.
    change (tested b ++ h_tested h ++ tested o ++ tested f = []) in D.
    repeat match goal with
           | H : _ ++ _ = [] |- _ => apply app_eq_nil in H; destruct H
           | H : _ || _ = false |- _ => apply orb_false_iff in H; destruct H
           end. tauto.
  Qed.
  Lemma h_mild_cons : forall t x b h, h_mild (HCons t x b h) -> x = None /\ mild b /\ h_mild h.
  Proof.
    unfold mild, h_mild; intros t x b h (A & B & C & D).
    change (stores b ++ h_stores h = []) in A.
    change (the_name x ++ names b ++ h_names h = []) in B.
    change (returns b || h_returns h = false) in C.
    change (tested b ++ h_tested h = []) in D.
    repeat match goal with
           | H : _ ++ _ = [] |- _ => apply app_eq_nil in H; destruct H
           | H : _ || _ = false |- _ => apply orb_false_iff in H; destruct H
           end. destruct x as [[y w]|]; [discriminate | tauto].
  Qed.
  Lemma no_ask_restrict : forall st (c : test T V) b, asks c = [] -> restrict st c b = st.
  Proof. intros st [e|x l t neg] b; cbn; [auto | discriminate]. Qed.

  (* ---------------------------------------------------------------- quiet statements *)

  Lemma quiet_grows : forall k (s : stmt) tr st s' st' r, quiet s = true ->
    conv k tr s st = Done (s', st', r) ->
    r = true /\ forall X m, fits X false st m -> fits X false st' m.
  Proof.
    intros k. induction s; intros tr st s' st' r Q E; cbn [quiet] in Q; try discriminate.
    - inversion E; subst; auto.
    - apply andb_true_iff in Q. destruct Q as [Q1 Q2]. apply conv_seq in E.
      destruct E as (a' & sa & ra & Ea & E). destruct (IHs1 _ _ _ _ _ Q1 Ea) as [-> A].
      destruct E as [(_ & b' & Eb & ->) | (? & _)]; [|discriminate].
      destruct (IHs2 _ _ _ _ _ Q2 Eb) as [-> B]. auto.
    - cbn in E. destruct (conv_expr st e) as [[e' t]|]; inversion E; subst; auto.
    - destruct c as [c|]; [|discriminate]. apply andb_true_iff in Q. destruct Q as [Q1 Q2].
      apply conv_if in E. destruct E as (c' & a' & sa & ra & b' & sb & rb & _ & Ea & Eb & -> & -> & ->).
      destruct (IHs1 _ _ _ _ _ Q1 Ea) as [-> A]. destruct (IHs2 _ _ _ _ _ Q2 Eb) as [-> B].
      split; auto. intros X m F. apply fits_live_l. apply A. exact F.
    - destruct c as [c|]; [|discriminate]. apply andb_true_iff in Q. destruct Q as [Q1 Q2].
      cbn [Vars_Model.conv] in E.
      split.
      + apply (conv_while_fix _ _ _ _ _ _ _ Hsens) with (P := fun _ => True) in E; auto.
        destruct E as (c' & b' & sb & rb & o' & so & ro & _ & _ & Eb & Eo & _ & _ & ->).
        destruct (IHs1 _ _ _ _ _ Q1 Eb) as [-> _]. auto.
      + intros X m F.
        apply (conv_while_fix _ _ _ _ _ _ _ Hsens) with (P := fun s => fits X false s m) in E; auto.
        * destruct E as (c' & b' & sb & rb & o' & so & ro & A & _). exact A.
        * intros. now apply fits_merge_r.
    - inversion E; subst; auto.
    - inversion E; subst; auto.
    - cbn in E. destruct (conv k tr s st) as [[[a' sa] ra]|] eqn:Ea; inversion E; subst. eauto.
    - cbn in E. destruct (conv k tr s st) as [[[a' sa] ra]|] eqn:Ea; inversion E; subst. eauto.
  Qed.

  Lemma handlers_grow : forall k (h : handlers) sh sb h' sm, conv_handlers k h sh sb = Done (h', sm) ->
    forall X m, fits X false sb m -> fits X false sm m.
  Proof.
    intros k h; induction h as [|t x b h IH]; intros sh sb h' sm E X m F.
    - inversion E; subst; auto.
    - apply conv_handlers_cons in E. destruct E as (hr & sr & b' & s' & r & Eh & E).
      assert (A := IH _ _ _ _ Eh X m F).
      destruct E as [(-> & Eb & -> & ->) | (z & -> & _ & Eb & -> & ->)]; destruct r; auto;
        now apply fits_merge_l.
  Qed.

  (* ---------------------------------------------------------------- what statements mention *)

  Lemma binds_used : forall x,
    (forall s : stmt, In x (stores s ++ names s) -> In x (uses s)) /\
    (forall h : handlers, In x (h_stores h ++ h_names h) -> In x (h_uses h)).
  Proof.
    intros x; apply stmt_handlers_ind; intros; rewrite in_app_iff in *;
      try (cbn in *; rewrite ?in_app_iff in *; cbn in *; tauto).
  Qed.

  (* H: the names of handlers in the program. *)
  Variable H : nat -> Prop.

  Record fine (X : nat -> Prop) (weak : bool) (s : stmt) (st : state) : Prop := {
    f_names : forall x, In x (names s) -> H x;
    f_stores : forall x, In x (stores s) -> ~ H x;
    f_rv : ~ In rv (uses s);
    f_set : not_set st (names s);
    f_uses : forall x, In x (uses s) -> X x;
    f_ret : returns s = true -> X rv;
    f_mild : weak = true -> mild s
  }.
  Record h_fine (X : nat -> Prop) (weak : bool) (h : handlers) (st : state) : Prop := {
    hf_names : forall x, In x (h_names h) -> H x;
    hf_stores : forall x, In x (h_stores h) -> ~ H x;
    hf_rv : ~ In rv (h_uses h);
    hf_set : not_set st (h_names h);
    hf_uses : forall x, In x (h_uses h) -> X x;
    hf_ret : h_returns h = true -> X rv;
    hf_mild : weak = true -> h_mild h
  }.

  Lemma used_not_rv : forall X weak s st, fine X weak s st -> forall x, In x (uses s) -> X x /\ x <> rv.
  Proof.
    intros X weak s st F x Hx. split; [now apply (f_uses _ _ _ _ F)|].
    intros ->. now apply (f_rv _ _ _ _ F).
  Qed.

  Lemma not_set_sub : forall (st st' : state) xs ys, (forall x, In x ys -> In x xs) ->
    (forall x, In x ys -> is_set (get st x) = false -> is_set (get st' x) = false) ->
    not_set st xs -> not_set st' ys.
  Proof. intros st st' xs ys A B N x Hx. apply B; auto. Qed.

  (* Names that are handlers' are not assigned, so they are not believed set later either. *)
  Lemma names_stay : forall k tr s st s' st' r, conv k tr s st = Done (s', st', r) ->
    (forall x, In x (stores s) -> ~ H x) -> ~ H rv ->
    forall x, H x -> is_set (get st x) = false -> is_set (get st' x) = false.
  Proof.
    intros k tr s st s' st' r E S R x Hx N.
    assert (x <> rv) by (intros ->; contradiction).
    eapply (proj1 (not_set_kept _ _ _ _ _ _ _ Hsens k x H0)); eauto. intros I. now apply (S x).
  Qed.

  Section Main.
    Variable n k : nat.
    Hypothesis Hrv : ~ H rv.

    Definition ok (s : stmt) : Prop := forall tr st s' st' r X weak m,
      conv k tr s st = Done (s', st', r) -> tame s = true -> fine X weak s st ->
      fits X weak st m -> in_slots m ->
      exec n s' m = exec n s m /\ good X weak st' r (exec n s m).
    Definition h_ok (h : handlers) : Prop := forall sh sb h' sm X weak v m,
      conv_handlers k h sh sb = Done (h', sm) -> h_tame h = true -> h_fine X weak h sh ->
      fits X weak sh m -> in_slots m ->
      handle n h' v m = handle n h v m /\ good X weak sm true (handle n h v m).

    (* What is believed afterwards is so, in both modes. *)
    Lemma after : forall tr s st s' st' r X weak m, conv k tr s st = Done (s', st', r) ->
      fine X weak s st -> fits X weak st m -> good X weak st' r (exec n s m) ->
      match exec n s m with
      | Normal m' | Broke m' | Continued m' => r = true /\ fits X weak st' m' /\ in_slots m'
      | Returned _ m' | Raised _ m' => in_slots m'
      | Bad => False
      | Spin => True
      end.
    Proof.
      intros tr s st s' st' r X weak m E F Hm G.
      destruct weak.
      - assert (M := f_mild _ _ _ _ F eq_refl). assert (R := mild_run n s m M).
        assert (K := mild_fits _ _ _ _ _ _ _ X m M E Hm).
        destruct (exec n s m); cbn in *; auto; destruct G as (-> & _ & I); repeat split; auto;
          try discriminate; intros x Hx Nx; rewrite R; now apply K.
      - destruct (exec n s m); cbn in *; auto; destruct G as (-> & A & I); auto.
    Qed.

    (* One turn of a loop, or of a part of a statement: the state believed in the end is [st2]. *)
    Lemma into : forall tr s st s' st' r X weak m st2, conv k tr s st = Done (s', st', r) ->
      fine X weak s st -> good X weak st' r (exec n s m) ->
      fits X weak st2 m ->
      (r = true -> forall m', fits X false st' m' -> fits X false st2 m') ->
      match exec n s m with
      | Normal m' | Broke m' | Continued m' => r = true /\ fits X weak st2 m' /\ in_slots m'
      | Returned _ m' | Raised _ m' => in_slots m'
      | Bad => False
      | Spin => True
      end.
    Proof.
      intros tr s st s' st' r X weak m st2 E F G Hm2 L.
      destruct weak.
      - assert (R := mild_run n s m (f_mild _ _ _ _ F eq_refl)).
        destruct (exec n s m); cbn in *; auto; destruct G as (-> & _ & I); repeat split; auto;
          try discriminate; intros x Hx Nx; rewrite R; now apply Hm2.
      - destruct (exec n s m); cbn in *; auto; destruct G as (-> & A & I); repeat split; auto;
          now apply L; auto.
    Qed.

    Lemma good_of : forall X weak st (r : bool) (o : out V),
      match o with
      | Normal m' | Broke m' | Continued m' => r = true /\ fits X weak st m' /\ in_slots m'
      | Returned _ m' | Raised _ m' => in_slots m'
      | Bad => False
      | Spin => True
      end -> good X weak st r o.
    Proof.
      intros X weak st r [] A; cbn in *; auto; destruct A as (-> & B & J);
        (split; [reflexivity|]; split; [intros W; now rewrite W in B | exact J]).
    Qed.

    Lemma fine_restrict : forall X weak s st c b, fine X weak s st -> fine X weak s (restrict st c b).
    Proof.
      intros X weak s st c b []; constructor; auto. intros x Hx. rewrite is_set_restrict; auto.
    Qed.
    Lemma fine_state : forall X weak s st st', fine X weak s st ->
      (forall x, H x -> is_set (get st x) = false -> is_set (get st' x) = false) -> fine X weak s st'.
    Proof. intros X weak s st st' [] A; constructor; auto. intros x Hx. apply A; auto. Qed.

    Lemma fine_part : forall X weak s st a, fine X weak s st ->
      incl (names a) (names s) -> incl (stores a) (stores s) -> incl (uses a) (uses s) ->
      (returns a = true -> returns s = true) -> (weak = true -> mild a) -> fine X weak a st.
    Proof.
      intros X weak s st a [A B C D E F G] N S U R M; constructor; auto.
      intros x Hx; apply D; auto.
    Qed.
    Lemma h_fine_part : forall X weak s st h, fine X weak s st ->
      incl (h_names h) (names s) -> incl (h_stores h) (stores s) -> incl (h_uses h) (uses s) ->
      (h_returns h = true -> returns s = true) -> (weak = true -> h_mild h) -> h_fine X weak h st.
    Proof.
      intros X weak s st a [A B C D E F G] N S U R M; constructor; auto.
      intros x Hx; apply D; auto.
    Qed.

    Ltac part := match goal with
                 | |- incl _ _ => let x := fresh in let i := fresh in
                     intros x i; cbn; rewrite ?in_app_iff; auto
                 | |- _ = true -> _ = true => let i := fresh in
                     intros i; cbn; now rewrite i, ?orb_true_r
                 end.

    Lemma fine_seq : forall X weak a b st, fine X weak (SSeq a b) st -> fine X weak a st /\ fine X weak b st.
    Proof.
      intros X weak a b st F. assert (G := fun e => mild_seq a b (f_mild _ _ _ _ F e)).
      split; (eapply fine_part; [exact F | part | part | part | part | intros e; now apply G]).
    Qed.
    Lemma fine_if : forall X weak c a b st, fine X weak (SIf c a b) st ->
      fine X weak a st /\ fine X weak b st /\ (weak = true -> asks c = []).
    Proof.
      intros X weak c a b st F. assert (G := fun e => mild_if c a b (f_mild _ _ _ _ F e)).
      split; [|split; [|intros e; now apply G]];
        (eapply fine_part; [exact F | part | part | part | part | intros e; now apply G]).
    Qed.
    Lemma fine_while : forall X weak c a b st, fine X weak (SWhile c a b) st ->
      fine X weak a st /\ fine X weak b st /\ (weak = true -> asks c = []).
    Proof.
      intros X weak c a b st F. apply fine_if with (c := c). destruct F; constructor; auto.
    Qed.
    Lemma fine_for : forall X weak x w vs t b o st, fine X weak (SFor x w vs t b o) st ->
      weak = false /\ X x /\ x <> rv /\ ~ H x /\
      fine X false b st /\ (~ In x (uses o) -> fine (fun y => X y /\ y <> x) false o st).
    Proof.
      intros X weak x w vs t b o st F.
      assert (W : weak = false).
      { destruct weak; auto. destruct (f_mild _ _ _ _ F eq_refl) as (G1 & _). discriminate. }
      subst weak.
      assert (N : x <> rv) by (intros ->; apply (f_rv _ _ _ _ F); cbn; auto).
      split; [reflexivity|]. split; [apply (f_uses _ _ _ _ F); cbn; auto|]. split; [exact N|].
      split; [apply (f_stores _ _ _ _ F); cbn; auto|]. split.
      - eapply fine_part; [exact F | part | part | part | part | discriminate].
      - intros U. assert (G : fine X false o st).
        { eapply fine_part; [exact F | part | part | part | part | discriminate]. }
        destruct G as [G1 G2 G3 G4 G5 G6 G7]; constructor; auto.
        intros y Hy; split; auto. intros ->; contradiction.
    Qed.
    Lemma fine_try : forall X weak b h o f st, fine X weak (STry b h o f) st ->
      fine X weak b st /\ h_fine X weak h st /\ fine X weak o st /\ fine X weak f st.
    Proof.
      intros X weak b h o f st F. assert (G := fun e => mild_try b h o f (f_mild _ _ _ _ F e)).
      assert (I1 : incl (names b) (names (STry b h o f)) /\ incl (h_names h) (names (STry b h o f)) /\
                   incl (names o) (names (STry b h o f)) /\ incl (names f) (names (STry b h o f))).
      { change (names (STry b h o f)) with (names b ++ h_names h ++ names o ++ names f).
        unfold incl; repeat split; intros; rewrite !in_app_iff; auto. }
      assert (I2 : incl (stores b) (stores (STry b h o f)) /\ incl (h_stores h) (stores (STry b h o f)) /\
                   incl (stores o) (stores (STry b h o f)) /\ incl (stores f) (stores (STry b h o f))).
      { change (stores (STry b h o f)) with (stores b ++ h_stores h ++ stores o ++ stores f).
        unfold incl; repeat split; intros; rewrite !in_app_iff; auto. }
      assert (I3 : incl (uses b) (uses (STry b h o f)) /\ incl (h_uses h) (uses (STry b h o f)) /\
                   incl (uses o) (uses (STry b h o f)) /\ incl (uses f) (uses (STry b h o f))).
      { change (uses (STry b h o f)) with (uses b ++ h_uses h ++ uses o ++ uses f).
        unfold incl; repeat split; intros; rewrite !in_app_iff; auto. }
      destruct I1 as (? & ? & ? & ?), I2 as (? & ? & ? & ?), I3 as (? & ? & ? & ?).
      assert (R := returns_try b h o f).
      split; [|split; [|split]];
        [eapply fine_part | eapply h_fine_part | eapply fine_part | eapply fine_part]; try exact F; auto;
        try (rewrite R; intros e; now rewrite e, ?orb_true_r); intros e; now apply G.
    Qed.

    Lemma jumps_out : forall (s : stmt) m, jumps s = false ->
      match exec n s m with Broke _ | Continued _ => False | _ => True end.
    Proof.
      intros s m J. unfold jumps in J. apply orb_false_iff in J. destruct J as [A B].
      assert (P := proj1 (no_break hasb truthy apply unbound failed n) s A m).
      assert (Q := proj1 (no_continue hasb truthy apply unbound failed n) s B m).
      destruct (exec n s m); auto.
    Qed.

    Lemma fits_merge_weak : forall X a b m, fits X true a m -> fits X true b m -> fits X true (merge a b) m.
    Proof.
      intros X a b m [A _] [B _]; split; [|discriminate]. intros x Hx Nx. rewrite get_merge.
      apply (holds_merge_left _ _ _ _ _ _ Hsens); auto.
    Qed.
    Lemma fits_live_weak : forall X ra rb a b m, fits X true a m -> fits X true b m ->
      fits X true (merge_live ra rb a b) m.
    Proof.
      intros X [] [] a b m A B; cbn; auto.
      - now apply fits_merge_weak.
      - split; [|discriminate]. intros x Hx Nx. rewrite get_nil. cbn. auto.
    Qed.
    Lemma merge_not_set : forall a b x, is_set (get b x) = false -> is_set (get (merge a b) x) = false.
    Proof.
      intros a b x. rewrite get_merge.
      destruct (get a x) as [[t u]|], (get b x) as [[t' u']|]; cbn; auto.
      destruct u, u'; auto.
    Qed.

    Lemma good_weaken : forall X weak st st' (r r' : bool) o, good X weak st r o -> (r = true -> r' = true) ->
      (r = true -> forall m, weak = false -> fits X false st m -> fits X false st' m) -> good X weak st' r' o.
    Proof.
      intros X weak st st' r r' [] G R L; cbn in *; auto; destruct G as (-> & G & J);
        (split; [auto|]; split; auto).
    Qed.

    Lemma ok_pass : ok SPass.
    Proof.
      intros tr st s' st' r X weak m E _ F Hm J. inversion E; subst.
      split; [reflexivity|]. apply good_of. cbn. auto.
    Qed.

    Lemma ok_seq : forall a b, ok a -> ok b -> ok (SSeq a b).
    Proof.
      intros a b IHa IHb tr st s' st' r X weak m E Tm F Hm J.
      cbn [tame] in Tm. apply andb_true_iff in Tm. destruct Tm as [Tm Q].
      apply andb_true_iff in Tm. destruct Tm as [Ta Tb].
      destruct (fine_seq _ _ _ _ _ F) as [Fa Fb].
      apply conv_seq in E. destruct E as (a' & sa & ra & Ea & E).
      destruct (IHa _ _ _ _ _ _ _ _ Ea Ta Fa Hm J) as [Xa Ga].
      assert (A := after _ _ _ _ _ _ _ _ _ Ea Fa Hm Ga).
      assert (Jp := jumps_out a m).
      destruct E as [(-> & b' & Eb & ->) | (-> & -> & -> & ->)]; cbn [Vars_Model.exec]; rewrite Xa.
      - destruct (exec n a m) as [m'|m'|m'|v m'|v m'| |]; cbn in A |- *; auto.
        + destruct A as (_ & Hm' & J').
          eapply IHb; eauto. eapply fine_state; [exact Fb|].
          intros x Hx. eapply names_stay; eauto. apply (f_stores _ _ _ _ Fa).
        + destruct (jumps a); [|now destruct Jp]. cbn in Q.
          destruct (quiet_grows _ _ _ _ _ _ _ Q Eb) as [-> B]. cbn in Ga.
          destruct Ga as (_ & Ga & J'). split; [reflexivity|]. split; [reflexivity|]. split; auto.
        + destruct (jumps a); [|now destruct Jp]. cbn in Q.
          destruct (quiet_grows _ _ _ _ _ _ _ Q Eb) as [-> B]. cbn in Ga.
          destruct Ga as (_ & Ga & J'). split; [reflexivity|]. split; [reflexivity|]. split; auto.
      - destruct (exec n a m) as [m'|m'|m'|v m'|v m'| |]; cbn in A |- *; auto;
          destruct A; discriminate.
    Qed.

    Lemma ok_assign : forall x w e, ok (SAssign x w e).
    Proof.
      intros x w e tr st s' st' r X weak m E _ F Hm J.
      apply conv_assign in E. destruct E as (e' & t & -> & Ee & Fs & -> & -> & ->).
      assert (W : weak = false).
      { destruct weak; auto. destruct (f_mild _ _ _ _ F eq_refl) as (G & _). discriminate. }
      subst weak.
      destruct (expr_sound _ _ _ _ Hm J _ _ _ Ee) as [A B].
      { intros y Hy. eapply used_not_rv; [exact F|]. cbn; auto. }
      destruct (used_not_rv _ _ _ _ F x) as [Hx Nx]; [cbn; auto|].
      cbn [Vars_Model.exec]. rewrite A. destruct (eval e m) as [v|v|]; [|split; auto|contradiction].
      rewrite write_fine by (now apply Hm). cbn. split; [reflexivity|].
      split; [reflexivity|]. split; [intros _; now apply fits_assigned | eapply slots_upd; eauto].
    Qed.

    Lemma ok_expr : forall e, ok (SExpr e).
    Proof.
      intros e tr st s' st' r X weak m E _ F Hm J. cbn in E.
      destruct (conv_expr st e) as [[e' t]|] eqn:Ee; inversion E; subst.
      destruct (expr_sound _ _ _ _ Hm J _ _ _ Ee) as [A B].
      { intros y Hy. eapply used_not_rv; eauto. }
      cbn [Vars_Model.exec]. rewrite A. destruct (eval e m) as [v|v|]; [|split; auto|contradiction].
      cbn. split; [reflexivity|]. split; [reflexivity|]. split; [intros W; now rewrite W in Hm | exact J].
    Qed.

    Lemma ok_raise : forall e, ok (SRaise e).
    Proof.
      intros e tr st s' st' r X weak m E _ F Hm J. cbn in E.
      destruct (conv_expr st e) as [[e' t]|] eqn:Ee; inversion E; subst.
      destruct (expr_sound _ _ _ _ Hm J _ _ _ Ee) as [A B].
      { intros y Hy. eapply used_not_rv; eauto. }
      cbn [Vars_Model.exec]. rewrite A. destruct (eval e m) as [v|v|]; [split; auto|split; auto|contradiction].
    Qed.

    Lemma ok_assert : forall c, ok (SAssert c).
    Proof.
      intros c tr st s' st' r X weak m E _ F Hm J. cbn in E.
      destruct (conv_test st c) as [c'|] eqn:Ec; inversion E; subst.
      destruct (test_sound _ _ _ _ Hm J _ _ Ec) as (A & B & Y & N).
      { intros y Hy. eapply used_not_rv; eauto. }
      cbn [Vars_Model.exec]. rewrite A. destruct (ask c m) as [| |v|]; [|split; auto|split; auto|contradiction].
      cbn. split; [reflexivity|]. split; [reflexivity|].
      split; [intros W; subst weak; now apply Y | exact J].
    Qed.

    Lemma ok_return : forall w e, ok (SReturn w e).
    Proof.
      intros w e tr st s' st' r X weak m E _ F Hm J.
      apply conv_return in E. destruct E as (e' & t & ts & -> & Ee & Sl & Fs & -> & E).
      assert (W : weak = false).
      { destruct weak; auto. destruct (f_mild _ _ _ _ F eq_refl) as (_ & _ & G & _). discriminate. }
      subst weak.
      destruct (expr_sound _ _ _ _ Hm J _ _ _ Ee) as [A B].
      { intros y Hy. eapply used_not_rv; eauto. }
      assert (M : may_return (how_to_write st rv) (m rv) = true).
      { assert (Q := proj2 Hm eq_refl (f_ret _ _ _ _ F eq_refl)).
        unfold how_to_write. destruct (is_set (get st rv)).
        - cbn. destruct (m rv); auto. now destruct Q.
        - destruct (is_absent (get st rv)); auto. }
      destruct E as [(-> & ->) | (-> & ->)]; cbn [Vars_Model.exec]; rewrite A;
        destruct (eval e m) as [v|v|]; try contradiction; try (split; auto; fail); rewrite ?M;
        cbn; (split; [reflexivity|]); eapply slots_upd; eauto.
    Qed.

    Lemma ok_if : forall c a b, ok a -> ok b -> ok (SIf c a b).
    Proof.
      intros c a b IHa IHb tr st s' st' r X weak m E Tm F Hm J.
      cbn [tame] in Tm. apply andb_true_iff in Tm. destruct Tm as [Ta Tb].
      destruct (fine_if _ _ _ _ _ _ F) as (Fa & Fb & Fc).
      apply conv_if in E. destruct E as (c' & a' & sa & ra & b' & sb & rb & Ec & Ea & Eb & -> & -> & ->).
      destruct (test_sound _ _ _ _ Hm J _ _ Ec) as (A & B & Y & N).
      { intros y Hy. eapply used_not_rv; [exact F|]. cbn; rewrite in_app_iff; auto. }
      assert (K : weak = true -> fits X true (merge_live ra rb sa sb) m).
      { intros W; subst weak. rewrite no_ask_restrict in Ea, Eb by auto.
        apply fits_live_weak; eapply mild_fits; eauto; apply (f_mild _ _ _ _ Fa) || apply (f_mild _ _ _ _ Fb); auto. }
      cbn [Vars_Model.exec]. rewrite A. destruct (ask c m) as [| |v|]; [| |split; auto|contradiction].
      - destruct (IHa _ _ _ _ _ _ _ _ Ea Ta (fine_restrict _ _ _ _ c true Fa) (Y eq_refl) J) as [Xa Ga].
        split; auto. destruct (exec n a m); cbn in Ga |- *; auto; destruct Ga as (-> & G & J');
          (split; [reflexivity|]; split; [intros W; apply fits_live_l; auto | exact J']).
      - destruct (IHb _ _ _ _ _ _ _ _ Eb Tb (fine_restrict _ _ _ _ c false Fb) (N eq_refl) J) as [Xb Gb].
        split; auto. destruct (exec n b m); cbn in Gb |- *; auto; destruct Gb as (-> & G & J');
          (split; [apply orb_true_r|]; split; [intros W; apply fits_live_r; auto | exact J']).
    Qed.

    Lemma ok_while : forall c b o, ok b -> ok o -> ok (SWhile c b o).
    Proof.
      intros c b o IHb IHo tr st s' st' r X weak m E Tm F Hm J.
      cbn [tame] in Tm. apply andb_true_iff in Tm. destruct Tm as [Tb To].
      destruct (fine_while _ _ _ _ _ _ F) as (Fb & Fo & Fc).
      cbn [Vars_Model.conv] in E.
      apply (conv_while_fix _ _ _ _ _ _ _ Hsens)
        with (P := fun s => fits X weak s m /\ forall x, In x (names (SWhile c b o)) -> is_set (get s x) = false) in E.
      2:{ split; [exact Hm | apply (f_set _ _ _ _ F)]. }
      2:{ intros s b' sb rb o' so ro [A N] Eb Eo. split.
          - destruct weak.
            + rewrite no_ask_restrict in Eb, Eo by auto.
              apply fits_merge_weak; auto. apply fits_live_weak; eapply mild_fits; eauto;
                [apply (f_mild _ _ _ _ Fb) | apply (f_mild _ _ _ _ Fo)]; auto.
            + now apply fits_merge_r.
          - intros x Hx. apply merge_not_set. auto. }
      destruct E as (c' & b' & sb & rb & o' & so & ro & [Hm' N] & Ec & Eb & Eo & Fix & -> & ->).
      clear Hm. rename Hm' into Hm.
      assert (Gb : fine X weak b (restrict st' c true)).
      { apply fine_restrict. destruct Fb; constructor; auto. intros x Hx. apply N. cbn; rewrite in_app_iff; auto. }
      assert (Go : fine X weak o (restrict st' c false)).
      { apply fine_restrict. destruct Fo; constructor; auto. intros x Hx. apply N. cbn; rewrite in_app_iff; auto. }
      cbn [Vars_Model.exec]. generalize n at 3 6 9. intros j. revert m Hm J.
      induction j as [|j IH]; intros m Hm J; cbn [Vars_Model.while_loop];
        (destruct (test_sound _ _ _ _ Hm J _ _ Ec) as (A & B & Y & No);
         [intros y Hy; eapply used_not_rv; [exact F|]; cbn; rewrite in_app_iff; auto|]);
        rewrite A; (destruct (ask c m) as [| |v|]; [| |split; auto|contradiction]).
      - cbn; auto.
      - destruct (IHo _ _ _ _ _ _ _ _ Eo To Go (No eq_refl) J) as [Xo G]. split; [exact Xo|].
        eapply good_weaken; [exact G | intros ->; apply orb_true_r|].
        intros -> m' _ Hf. rewrite <- Fix. apply fits_merge_l, fits_live_r, Hf.
      - destruct (IHb _ _ _ _ _ _ _ _ Eb Tb Gb (Y eq_refl) J) as [Xb G]. rewrite Xb.
        assert (K := into _ _ _ _ _ _ _ _ _ st' Eb Gb G Hm).
        destruct (exec n b m) as [m'|m'|m'|v m'|v m'| |];
          try (split; [reflexivity | exact G]);
          (destruct K as (-> & Hm' & J');
            [intros -> m1 Hf; rewrite <- Fix; apply fits_merge_l, fits_live_l, Hf|]).
        + apply IH; auto.
        + split; [reflexivity|]. apply good_of. auto.
        + apply IH; auto.
      - destruct (IHo _ _ _ _ _ _ _ _ Eo To Go (No eq_refl) J) as [Xo G]. split; [exact Xo|].
        eapply good_weaken; [exact G | intros ->; apply orb_true_r|].
        intros -> m' _ Hf. rewrite <- Fix. apply fits_merge_l, fits_live_r, Hf.
    Qed.

    Lemma ok_for : forall x w vs t b o, ok b -> ok o -> ok (SFor x w vs t b o).
    Proof.
      intros x w vs t b o IHb IHo tr st s' st' r X weak m E Tm F Hm J.
      cbn [tame] in Tm. apply andb_true_iff in Tm. destruct Tm as [Tm Q].
      apply andb_true_iff in Tm. destruct Tm as [Tb To].
      assert (U : ~ In x (uses o)).
      { intros i. apply negb_true_iff in Q. unfold memb in Q. assert (existsb (Nat.eqb x) (uses o) = true); [|congruence].
        apply existsb_exists. exists x; split; auto. apply Nat.eqb_refl. }
      destruct (fine_for _ _ _ _ _ _ _ _ _ F) as (-> & Hx & Nx & NH & Fb & Fo). specialize (Fo U).
      apply conv_for_ in E. destruct E as (-> & Vs & E).
      apply (conv_for_fix _ _ _ _ _ _ _ Hsens)
        with (P := fun s => fits X false s m /\ forall y, In y (names (SFor x Free vs t b o)) -> is_set (get s y) = false) in E.
      2:{ split; [exact Hm | apply (f_set _ _ _ _ F)]. }
      2:{ intros s b' sb rb o' so ro [A N] Eb Eo. split; [now apply fits_merge_r|].
          intros y Hy. apply merge_not_set. auto. }
      destruct E as (b' & sb & rb & o' & so & ro & [Hm' N] & Fs & Eb & Eo & Fix & -> & ->).
      clear Hm. rename Hm' into Hm.
      assert (N' : forall y, H y -> get (assigned st' x t) y = get st' y).
      { intros y Hy. unfold assigned. apply get_put_other. intros ->; contradiction. }
      assert (Gb : fine X false b (assigned st' x t)).
      { destruct Fb; constructor; auto. intros y Hy. rewrite N' by auto. apply N. cbn; rewrite in_app_iff; auto. }
      assert (Go : fine (fun y => X y /\ y <> x) false o (assigned st' x t)).
      { destruct Fo; constructor; auto. intros y Hy. rewrite N' by auto. apply N. cbn; rewrite in_app_iff; auto. }
      clear F N. cbn [Vars_Model.exec]. revert m Hm J.
      induction vs as [|v vs IH]; intros m Hm J; cbn [for_loop].
      - assert (Hm0 : fits (fun y => X y /\ y <> x) false (assigned st' x t) m).
        { destruct Hm as [A B]. split.
          - intros y [Hy Ny] Nr. unfold assigned. rewrite get_put_other by auto. auto.
          - intros _ [Hr _]. unfold assigned. rewrite get_put_other by auto. auto. }
        destruct (IHo _ _ _ _ _ _ _ _ Eo To Go Hm0 J) as [Xo G]. split; [exact Xo|].
        assert (L := proj1 (unchanged hasb truthy apply unbound failed n x) o).
        assert (L' : leads (fun m' => m' x = m x) (exec n o m)).
        { apply L; auto. intros i. apply U. apply (proj1 (binds_used x)); auto. }
        assert (C : forall m', m' x = m x -> ro = true -> fits (fun y => X y /\ y <> x) false so m' -> fits X false st' m').
        { intros m' Em -> Hf.
          assert (Hf' : fits (fun y => X y /\ y <> x) false st' m')
            by (rewrite <- Fix; apply fits_merge_l, fits_live_r, Hf).
          split.
          - intros y Hy Ny. destruct (Nat.eq_dec y x) as [->|D].
            + rewrite Em. now apply Hm.
            + apply Hf'; auto.
          - intros _ Hr. apply Hf'; auto. }
        destruct (exec n o m) as [m'|m'|m'|v' m'|v' m'| |]; cbn in *; auto;
          destruct G as (-> & G & J'); (split; [apply orb_true_r|]; split; auto).
      - cbn in Vs. apply andb_true_iff in Vs. destruct Vs as [Hv Vs].
        rewrite write_fine by (apply Hm; auto). cbn [may_write].
        assert (Hm1 := fits_assigned X st' m x t v Nx Hv Hm).
        assert (J1 := slots_upd m x v t J Fs Hv).
        destruct (IHb _ _ _ _ _ _ _ _ Eb Tb Gb Hm1 J1) as [Xb G]. rewrite Xb.
        destruct (exec n b (upd m x (Some v))) as [m'|m'|m'|v' m'|v' m'| |]; cbn in G;
          try (split; [reflexivity | exact G]);
          destruct G as (-> & G & J');
          assert (Hm' : fits X false st' m') by (rewrite <- Fix; apply fits_merge_l, fits_live_l; auto).
        + apply IH; auto.
        + split; [reflexivity|]. cbn. auto.
        + apply IH; auto.
    Qed.

    Lemma ok_break_here : forall a, ok a -> ok (SBreakHere a).
    Proof.
      intros a IHa tr st s' st' r X weak m E Tm F Hm J. cbn in E.
      destruct (conv k tr a st) as [[[a' sa] ra]|] eqn:Ea; inversion E; subst.
      assert (Fa : fine X weak a st) by (destruct F; constructor; auto).
      destruct (IHa _ _ _ _ _ _ _ _ Ea Tm Fa Hm J) as [Xa G].
      cbn [Vars_Model.exec]. rewrite Xa. split; [reflexivity|].
      destruct (exec n a m); cbn in *; auto.
    Qed.
    Lemma ok_continue_here : forall a, ok a -> ok (SContinueHere a).
    Proof.
      intros a IHa tr st s' st' r X weak m E Tm F Hm J. cbn in E.
      destruct (conv k tr a st) as [[[a' sa] ra]|] eqn:Ea; inversion E; subst.
      assert (Fa : fine X weak a st) by (destruct F; constructor; auto).
      destruct (IHa _ _ _ _ _ _ _ _ Ea Tm Fa Hm J) as [Xa G].
      cbn [Vars_Model.exec]. rewrite Xa. split; [reflexivity|].
      destruct (exec n a m); cbn in *; auto.
    Qed.

    (* ---------------------------------------------------------------- handlers *)

    Lemma forget_same : forall y w r, leads (fun m' : env V => m' y <> None) r ->
      forget y w r = forget y Free r.
    Proof.
      intros y w r; unfold forget, leads. destruct (env_of r) as [e|]; auto.
      destruct w; auto; destruct (e y); auto; intros A; now destruct A.
    Qed.

    Lemma fits_uninit : forall X st m y, y <> rv -> fits X false st m ->
      fits X false (uninitialized st y) (upd m y None).
    Proof.
      intros X st m y Ny [A B]. unfold uninitialized.
      destruct (get st y) as [[t u]|] eqn:G; split.
      - intros x Hx Nx. destruct (Nat.eq_dec x y) as [->|D].
        + rewrite get_put_same, upd_same. reflexivity.
        + rewrite get_put_other, upd_other by auto. auto.
      - rewrite get_put_other, upd_other by auto. auto.
      - intros x Hx Nx. destruct (Nat.eq_dec x y) as [->|D].
        + rewrite G, upd_same. cbn; auto.
        + rewrite upd_other by auto. auto.
      - rewrite upd_other by auto. auto.
    Qed.

    Lemma h_fine_cons : forall X weak t x b h st, h_fine X weak (HCons t x b h) st ->
      fine X weak b st /\ h_fine X weak h st.
    Proof.
      intros X weak t x b h st [A B C D E F G].
      change (h_names (HCons t x b h)) with (the_name x ++ names b ++ h_names h) in *.
      change (h_stores (HCons t x b h)) with (stores b ++ h_stores h) in *.
      change (h_uses (HCons t x b h)) with (the_name x ++ uses b ++ h_uses h) in *.
      change (h_returns (HCons t x b h)) with (returns b || h_returns h) in F.
      assert (G' := fun e => h_mild_cons _ _ _ _ (G e)).
      rewrite !in_app_iff in C.
      split; constructor.
      - intros y Hy; apply A; rewrite !in_app_iff; auto.
      - intros y Hy; apply B; rewrite !in_app_iff; auto.
      - tauto.
      - intros y Hy; apply D; rewrite !in_app_iff; auto.
      - intros y Hy; apply E; rewrite !in_app_iff; auto.
      - intros e; apply F; now rewrite e.
      - intros e; now apply G'.
      - intros y Hy; apply A; rewrite !in_app_iff; auto.
      - intros y Hy; apply B; rewrite !in_app_iff; auto.
      - tauto.
      - intros y Hy; apply D; rewrite !in_app_iff; auto.
      - intros y Hy; apply E; rewrite !in_app_iff; auto.
      - intros e; apply F; now rewrite e, orb_true_r.
      - intros e; now apply G'.
    Qed.

    Lemma ok_nil : h_ok HNil.
    Proof.
      intros sh sb h' sm X weak v m E _ _ Hm J. inversion E; subst. cbn. auto.
    Qed.

    Lemma memb_In : forall x l, memb x l = false -> ~ In x l.
    Proof.
      intros x l A i. assert (memb x l = true); [|congruence].
      apply existsb_exists. exists x; split; auto. apply Nat.eqb_refl.
    Qed.
    Lemma apart_In : forall a b x, apart a b = true -> In x a -> ~ In x b.
    Proof.
      intros a b x A i. unfold apart in A. rewrite forallb_forall in A.
      apply memb_In. apply negb_true_iff. auto.
    Qed.

    Lemma ok_cons : forall t x b h, ok b -> h_ok h -> h_ok (HCons t x b h).
    Proof.
      intros t x b h IHb IHh sh sb h' sm X weak v m E Tm F Hm J.
      change (tame b && h_tame h && apart (the_name x) (names b) = true) in Tm.
      apply andb_true_iff in Tm. destruct Tm as [Tm Ap]. apply andb_true_iff in Tm. destruct Tm as [Tb Th].
      destruct (h_fine_cons _ _ _ _ _ _ _ F) as [Fb Fh].
      apply conv_handlers_cons in E. destruct E as (hr & sr & b' & s' & r & Eh & E).
      destruct (IHh _ _ _ _ _ _ v _ Eh Th Fh Hm J) as [Xh Gh].
      destruct E as [(-> & Eb & -> & ->) | (y & -> & Fs & Eb & -> & ->)]; rewrite !handle_cons.
      - destruct (hasb v t).
        + destruct (IHb _ _ _ _ _ _ _ _ Eb Tb Fb Hm J) as [Xb G]. split; [exact Xb|].
          eapply good_weaken; [exact G | auto |]. intros -> m' W Hf. now apply fits_merge_r.
        + split; [exact Xh|]. eapply good_weaken; [exact Gh | auto |].
          intros _ m' W Hf. destruct r; auto. now apply fits_merge_l.
      - assert (W : weak = false).
        { destruct weak; auto. assert (M := h_mild_cons _ _ _ _ (hf_mild _ _ _ _ F eq_refl)).
          destruct M; discriminate. }
        subst weak.
        assert (Iu : In y (h_uses (HCons t (Some (y, Free)) b h))) by (cbn; auto).
        assert (Ny : y <> rv) by (intros ->; now apply (hf_rv _ _ _ _ F)).
        assert (Hy := hf_uses _ _ _ _ F y Iu).
        assert (Nb : ~ In y (names b)) by (eapply apart_In; [exact Ap | cbn; auto]).
        destruct (hasb v t) eqn:Hv.
        + rewrite write_fine by (now apply Hm). cbn [may_write].
          assert (F1 : fine X false b (assigned sh y t)).
          { destruct Fb; constructor; auto. intros z Hz. unfold assigned.
            rewrite get_put_other; auto. intros ->; contradiction. }
          destruct (IHb _ _ _ _ _ _ _ _ Eb Tb F1 (fits_assigned _ _ _ _ _ _ Ny Hv Hm) (slots_upd _ _ _ _ J Fs Hv))
            as [Xb G].
          assert (S := proj1 (stays_bound hasb truthy apply unbound failed n y) b Nb (upd m y (Some v))).
          rewrite upd_same in S. specialize (S ltac:(discriminate)).
          rewrite Xb. rewrite (forget_same y (how_to_write sh y)) by exact S. split; [reflexivity|].
          destruct (exec n b (upd m y (Some v))) as [m'|m'|m'|v' m'|v' m'| |]; cbn in G |- *; auto;
            try (now apply slots_none);
            destruct G as (-> & G & J'); (split; [reflexivity|]; split; [|now apply slots_none]);
            intros _; apply fits_merge_r, fits_uninit; auto.
        + split; [exact Xh|]. eapply good_weaken; [exact Gh | auto |].
          intros _ m' W Hf. destruct r; auto. now apply fits_merge_l.
    Qed.

    (* ---------------------------------------------------------------- try *)

    Lemma into_handlers : forall X b st m m1, fine X false b st -> fits X false st m -> in_slots m ->
      leads (fun m' => m' = m1) (exec n b m) -> env_of (exec n b m) <> None -> in_slots m1 ->
      fits X false (unknowns st (stores b)) m1.
    Proof.
      intros X b st m m1 F Hm J L0 E0 J1.
      assert (L : forall P : env V -> Prop, leads P (exec n b m) -> P m1).
      { intros P. unfold leads in *. destruct (env_of (exec n b m)) as [e|]; [|now destruct E0].
        now subst. }
      assert (R : ~ In rv (stores b ++ names b)).
      { intros i. apply (f_rv _ _ _ _ F). now apply (proj1 (binds_used rv)). }
      rewrite in_app_iff in R. split.
      - intros x Hx Nx.
        destruct (in_dec Nat.eq_dec x (stores b)) as [I1|I1].
        + destruct (slots x) as [t|] eqn:Sl.
          * rewrite (get_unknowns_in slots _ _ _ _ I1 Sl). cbn. destruct (m1 x) as [w|] eqn:M; auto.
            destruct (J1 x w M) as (t' & S' & Hw). congruence.
          * rewrite get_unknowns_no_slot by auto.
            assert (M : m x = None).
            { destruct (m x) as [w|] eqn:M; auto. destruct (J x w M) as (t' & S' & _). congruence. }
            assert (M1 : m1 x = None).
            { destruct (m1 x) as [w|] eqn:M'; auto. destruct (J1 x w M') as (t' & S' & _). congruence. }
            rewrite M1, <- M. now apply Hm.
        + rewrite get_unknowns_other by auto. assert (Hh := proj1 Hm x Hx Nx).
          destruct (in_dec Nat.eq_dec x (names b)) as [I2|I2].
          * destruct (L _ (proj1 (unbound_after hasb truthy apply unbound failed n x Nx) b I1 m)) as [A|A];
              rewrite A; auto.
            assert (S := f_set _ _ _ _ F x I2). destruct (get st x) as [[t []]|]; cbn in *; auto; discriminate.
          * assert (A : m1 x = m x).
            { apply (L (fun m' => m' x = m x)). apply unchanged; auto. rewrite in_app_iff; tauto. }
            now rewrite A.
      - intros _ Hr. rewrite get_unknowns_other by tauto. intros S.
        apply (L (fun m' => m' rv <> None)). apply stays_bound; [tauto|]. now apply Hm.
    Qed.

    Lemma none_nil : forall l, none l = true -> l = [].
    Proof. intros []; auto; discriminate. Qed.

    Lemma ok_try : forall b h o f, ok b -> h_ok h -> ok o -> ok f -> ok (STry b h o f).
    Proof.
      intros b h o f IHb IHh IHo IHf tr st s' st' r X weak m E Tm F Hm J.
      change (tame b && h_tame h && tame o && tame f
        && (no_handlers h && negb (jumps b) || quiet o)
        && none (stores f ++ names f ++ tested f) && negb (returns f) && negb (jumps f)
        && apart (uses f) (stores b ++ names b ++ tested b ++ h_stores h ++ h_names h ++ h_tested h
                           ++ stores o ++ names o ++ tested o) = true) in Tm.
      rewrite !andb_true_iff in Tm.
      destruct Tm as ((((((((Tb & Th) & To) & Tf) & Q) & Nf) & Rf) & Jf) & Ap).
      apply none_nil in Nf. apply app_eq_nil in Nf. destruct Nf as [Nf1 Nf].
      apply app_eq_nil in Nf. destruct Nf as [Nf2 Nf3].
      apply negb_true_iff in Rf, Jf.
      assert (Mf : mild f) by (repeat split; auto).
      destruct (fine_try _ _ _ _ _ _ _ F) as (Fb & Fh & Fo & Ff).
      apply conv_try in E.
      destruct E as (b' & sb & rb & h' & sm & o' & so & ro & f' & rf & Eb & Eh & Eo & Ef & -> & ->).
      set (sh := unknowns st (stores b)) in *.
      (* what is believed set *)
      assert (Nsh : forall x, H x -> get sh x = get st x).
      { intros x Hx. apply get_unknowns_other. intros i. now apply (f_stores _ _ _ _ Fb x). }
      assert (Nsb : forall x, H x -> is_set (get st x) = false -> is_set (get sb x) = false).
      { intros x Hx. eapply names_stay; eauto. apply (f_stores _ _ _ _ Fb). }
      assert (Nsm : forall x, H x -> is_set (get st x) = false -> is_set (get sm x) = false).
      { intros x Hx A. assert (Nr : x <> rv) by (intros ->; contradiction).
        eapply (proj2 (not_set_kept _ _ _ _ _ _ _ Hsens k x Nr)); eauto.
        - intros i. now apply (hf_stores _ _ _ _ Fh x).
        - now rewrite Nsh. }
      assert (Nso : forall x, H x -> is_set (get st x) = false -> is_set (get so x) = false).
      { intros x Hx A. eapply names_stay; eauto. apply (f_stores _ _ _ _ Fo). }
      assert (Fh' : h_fine X weak h sh).
      { destruct Fh as [A B C D G I1 K]; constructor; auto. intros x Hx. rewrite Nsh by auto. auto. }
      assert (Fo' := fine_state _ _ _ _ _ Fo Nsm).
      assert (Ff' := fine_state _ _ _ _ _ Ff Nso).
      (* the body *)
      destruct (IHb _ _ _ _ _ _ _ _ Eb Tb Fb Hm J) as [Xb Gb].
      assert (Ab := after _ _ _ _ _ _ _ _ _ Eb Fb Hm Gb).
      assert (Jb := jumps_out b m).
      (* in weak mode nothing changes *)
      assert (K : weak = true -> fits X true sh m /\ fits X true sb m /\ fits X true sm m /\ fits X true so m).
      { intros W. destruct (mild_try _ _ _ _ (f_mild _ _ _ _ F W)) as (M1 & M2 & M3 & _). subst weak.
        assert (A1 : fits X true sh m) by (unfold sh; destruct M1 as (M1 & _); rewrite M1; exact Hm).
        assert (A2 : fits X true sb m) by exact (mild_fits _ _ _ _ _ _ _ _ _ M1 Eb Hm).
        assert (A3 : fits X true sm m) by exact (h_mild_fits _ _ _ _ _ _ _ _ M2 Eh A1 A2).
        split; [exact A1|]. split; [exact A2|]. split; [exact A3|].
        exact (mild_fits _ _ _ _ _ _ _ _ _ M3 Eo A3). }
      assert (Kb : weak = true -> leads (fun m' => forall x, m' x = m x) (exec n b m)).
      { intros W. apply mild_run. now apply (f_mild _ _ _ _ Fb). }
      assert (Kh : forall v m1, weak = true -> leads (fun m' => forall x, m' x = m1 x) (handle n h v m1)).
      { intros v m1 W. apply h_mild_run. now apply (hf_mild _ _ _ _ Fh). }
      assert (Sbm : forall m1, fits X weak sb m1 -> (weak = true -> forall x, m1 x = m x) -> fits X weak sm m1).
      { intros m1 A W. destruct weak.
        - eapply fits_weak_same; [exact (W eq_refl) | now apply K].
        - eapply handlers_grow; eauto. }
      assert (Smo : forall m1, (no_handlers h && negb (jumps b) = false) -> fits X weak sm m1 ->
                     (weak = true -> forall x, m1 x = m x) -> fits X weak so m1).
      { intros m1 Qh A W. rewrite Qh in Q. cbn in Q. destruct weak.
        - eapply fits_weak_same; [exact (W eq_refl) | now apply K].
        - destruct (quiet_grows _ _ _ _ _ _ _ Q Eo) as [_ G]. auto. }
      (* up to the finally *)
      rewrite !exec_try.
      assert (C1 : caught (exec n o') (handle n h') (exec n b' m) = caught (exec n o) (handle n h) (exec n b m) /\
                   match caught (exec n o) (handle n h) (exec n b m) with
                   | Normal m' | Broke m' | Continued m' => fits X weak so m' /\ in_slots m'
                   | Returned _ m' | Raised _ m' => in_slots m'
                   | Bad => False
                   | Spin => True
                   end).
      { rewrite Xb. destruct (exec n b m) as [m1|m1|m1|v m1|v m1| |] eqn:Eqb; cbn [caught];
          try (split; [reflexivity | exact Ab]).
        - destruct Ab as (_ & A & J1). assert (A' := Sbm m1 A Kb).
          destruct (IHo _ _ _ _ _ _ _ _ Eo To Fo' A' J1) as [Xo Go]. split; [exact Xo|].
          assert (Ao := after _ _ _ _ _ _ _ _ _ Eo Fo' A' Go).
          destruct (exec n o m1); auto; now destruct Ao.
        - split; [reflexivity|]. destruct Ab as (_ & A & J1). split; auto. apply Smo; auto.
          destruct (jumps b); [apply andb_false_r | now destruct Jb].
        - split; [reflexivity|]. destruct Ab as (_ & A & J1). split; auto. apply Smo; auto.
          destruct (jumps b); [apply andb_false_r | now destruct Jb].
        - assert (A : fits X weak sh m1).
          { destruct weak.
            - eapply fits_weak_same; [exact (Kb eq_refl) | now apply K].
            - eapply into_handlers; eauto; rewrite Eqb; cbn; [reflexivity | discriminate]. }
          destruct (IHh _ _ _ _ _ _ v _ Eh Th Fh' A Ab) as [Xh Gh]. split; [exact Xh|].
          assert (Kw : weak = true -> leads (fun m' => forall x, m' x = m x) (handle n h v m1)).
          { intros W. eapply leads_impl; [|exact (Kh v m1 W)]. intros m' D x. rewrite D.
            specialize (Kb W). cbn in Kb. apply Kb. }
          assert (Nh : match handle n h v m1 with Raised _ _ => True | _ => no_handlers h && negb (jumps b) = false end).
          { destruct h as [|t y c h]; [exact Logic.I | now destruct (handle n (HCons t y c h) v m1)]. }
          destruct (handle n h v m1) as [m2|m2|m2|v2 m2|v2 m2| |]; cbn in Gh, Kw |- *; auto;
            destruct Gh as (_ & Gh & J2); (split; [|exact J2]); apply Smo; auto;
            destruct weak; auto; (eapply fits_weak_same; [exact (Kw eq_refl) | now apply K]). }
      destruct C1 as [-> C].
      (* what the finally mentions is as it was *)
      assert (Y : forall x, In x (uses f) -> x <> rv ->
                leads (fun m' => m' x = m x) (caught (exec n o) (handle n h) (exec n b m)) /\
                holds true (get so x) (m x)).
      { intros x Hx Nx. assert (D := apart_In _ _ _ Ap Hx). rewrite !in_app_iff in D.
        split.
        - assert (D1 : ~ In x (stores b ++ names b)) by (rewrite in_app_iff; tauto).
          assert (D2 : ~ In x (h_stores h ++ h_names h)) by (rewrite in_app_iff; tauto).
          assert (D3 : ~ In x (stores o ++ names o)) by (rewrite in_app_iff; tauto).
          assert (U := unchanged hasb truthy apply unbound failed n x).
          apply caught_leads.
          + intros m1 A. eapply leads_impl; [|exact (proj1 U o D3 (fun _ => Nx) m1)].
            cbn. intros m2 B. now rewrite B.
          + intros v m1 A. eapply leads_impl; [|exact (proj2 U h D2 (fun _ => Nx) v m1)].
            cbn. intros m2 B. now rewrite B.
          + exact (proj1 U b D1 (fun _ => Nx) m).
        - assert (A0 : holds true (get st x) (m x)).
          { eapply holds_weak. apply Hm; auto. now apply (f_uses _ _ _ _ Ff). }
          assert (A1 : holds true (get sb x) (m x)).
          { eapply (proj1 (weaker_kept _ _ _ _ _ _ _ Hsens k x (m x))); eauto. rewrite !in_app_iff; tauto. }
          assert (A2 : holds true (get sm x) (m x)).
          { eapply (proj2 (weaker_kept _ _ _ _ _ _ _ Hsens k x (m x))); eauto.
            - rewrite !in_app_iff; tauto.
            - unfold sh. rewrite get_unknowns_other by tauto. exact A0. }
          eapply (proj1 (weaker_kept _ _ _ _ _ _ _ Hsens k x (m x))); eauto. rewrite !in_app_iff; tauto. }
      (* the finally *)
      assert (Z : forall m1, in_slots m1 -> (forall x, In x (uses f) -> x <> rv -> m1 x = m x) ->
                  exec n f' m1 = exec n f m1 /\
                  match exec n f m1 with
                  | Normal m' | Returned _ m' | Raised _ m' => in_slots m'
                  | Spin => True
                  | _ => False
                  end).
      { intros m1 J1 S.
        assert (F1 : fine (fun x => In x (uses f)) true f so).
        { destruct Ff'; constructor; auto. congruence. }
        assert (H1 : fits (fun x => In x (uses f)) true so m1).
        { split; [|discriminate]. intros x Hx Nx. rewrite S by auto. now apply Y. }
        destruct (IHf _ _ _ _ _ _ _ _ Ef Tf F1 H1 J1) as [Xf Gf]. split; [exact Xf|].
        assert (Jo := jumps_out f m1 Jf).
        destruct (exec n f m1); cbn in Gf, Jo |- *; auto. now destruct Gf. }
      assert (Zn : forall m1, fits X weak so m1 -> in_slots m1 ->
                  exec n f' m1 = exec n f m1 /\
                  match exec n f m1 with
                  | Normal m' => fits X weak st' m' /\ in_slots m'
                  | Returned _ m' | Raised _ m' => in_slots m'
                  | Spin => True
                  | _ => False
                  end).
      { intros m1 A J1. destruct (IHf _ _ _ _ _ _ _ _ Ef Tf Ff' A J1) as [Xf Gf]. split; [exact Xf|].
        assert (Af := after _ _ _ _ _ _ _ _ _ Ef Ff' A Gf).
        assert (Jo := jumps_out f m1 Jf).
        destruct (exec n f m1); cbn in Af, Jo |- *; auto. now destruct Af. }
      assert (Yl : forall m1, env_of (caught (exec n o) (handle n h) (exec n b m)) = Some m1 ->
                   forall x, In x (uses f) -> x <> rv -> m1 x = m x).
      { intros m1 E1 x Hx Nx. destruct (Y x Hx Nx) as [A _]. unfold leads in A. now rewrite E1 in A. }
      destruct (caught (exec n o) (handle n h) (exec n b m)) as [m1|m1|m1|v m1|v m1| |];
        unfold at_last; cbn [env_of] in *; try (cbn; now auto);
        [destruct C as [C J1]; destruct (Zn m1 C J1) as [-> W]
        |destruct C as [C J1]; destruct (Zn m1 C J1) as [-> W]
        |destruct C as [C J1]; destruct (Zn m1 C J1) as [-> W]
        |destruct (Z m1 C (Yl m1 eq_refl)) as [-> W]
        |destruct (Z m1 C (Yl m1 eq_refl)) as [-> W]];
        (split; [reflexivity|]); destruct (exec n f m1); cbn [with_env]; try contradiction;
        try exact W; try exact Logic.I; try (apply good_of; auto).
    Qed.

    Lemma all_ok : (forall s, ok s) /\ (forall h, h_ok h).
    Proof.
      apply stmt_handlers_ind; intros;
        auto using ok_pass, ok_seq, ok_assign, ok_expr, ok_if, ok_while, ok_for, ok_break_here,
          ok_continue_here, ok_return, ok_raise, ok_assert, ok_try, ok_nil, ok_cons.
      - intros tr st s' st' r X weak m E _ F Hm J. inversion E; subst.
        split; [reflexivity|]. apply good_of. cbn. auto.
      - intros tr st s' st' r X weak m E _ F Hm J. inversion E; subst.
        split; [reflexivity|]. apply good_of. cbn. auto.
      - intros tr st s' st' r X weak m E. discriminate.
    Qed.
  End Main.
End Sound.

(* ------------------------------------------------------------------ programs *)

Section Top.
  Context {T V : Type}.
  Variable hasb : V -> T -> bool.
  Variable teqb : T -> T -> bool.
  Variable mergeT : T -> T -> T.
  Variable removeT : T -> T -> option T.
  Variable truthy : V -> bool.
  Variable apply : nat -> V -> V -> V + V.
  Variable op_type : nat -> T -> T -> T.
  Variable unbound failed : V.
  Variable slots : nat -> option T.
  Variable Hsens : sensible hasb teqb mergeT removeT apply op_type.
  Notation conv := (conv T V hasb teqb mergeT removeT op_type slots).
  Notation exec := (exec T V hasb truthy apply unbound failed).

  Lemma agrees_fits : forall st m, agrees hasb st m -> fits hasb (fun _ => True) false st m.
  Proof.
    intros st m A; split.
    - intros x _ _. specialize (A x). unfold so in A.
      destruct (get st x) as [[t u]|], (m x); cbn; auto; contradiction.
    - intros _ _. specialize (A rv). unfold so in A.
      destruct (get st rv) as [[t u]|], (m rv); cbn; try discriminate; try contradiction.
      subst; discriminate.
  Qed.

  Lemma program_sound : forall k tr s st s' st' r m, conv k tr s st = Done (s', st', r) ->
    tame s = true -> well_named s = true -> not_set st (names s) ->
    agrees hasb st m -> in_slots hasb slots m -> forall n,
    exec n s' m = exec n s m /\ good hasb slots (fun _ => True) false st' r (exec n s m).
  Proof.
    intros k tr s st s' st' r m E Tm W N A J n.
    unfold well_named in W. apply andb_true_iff in W. destruct W as [W1 W2].
    apply negb_true_iff in W2. apply memb_In in W2.
    assert (R : ~ In rv (names s)).
    { intros i. apply W2. apply (proj1 (binds_used truthy unbound slots rv)). rewrite in_app_iff; auto. }
    apply (proj1 (all_ok hasb teqb mergeT removeT truthy apply op_type unbound failed slots Hsens
                    (fun x => In x (names s)) n k R) s tr st s' st' r (fun _ => True) false m E Tm).
    - constructor; auto.
      + intros x Hs Hn. now apply (apart_In _ _ _ W1 Hn).
      + discriminate.
    - now apply agrees_fits.
    - exact J.
  Qed.
End Top.
