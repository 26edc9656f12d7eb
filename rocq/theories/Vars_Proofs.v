(* How running a statement changes the variables, and simple facts about what is believed. *)
From Verif Require Import Base Vars_Model Vars_Spec.

Scheme stmt_mut := Induction for stmt Sort Prop
  with handlers_mut := Induction for handlers Sort Prop.
Combined Scheme stmt_handlers_ind from stmt_mut, handlers_mut.

Section Proofs.
  Context {T V : Type}.
  Variable hasb : V -> T -> bool.
  Variable truthy : V -> bool.
  Variable apply : nat -> V -> V -> V + V.
  Variable unbound failed : V.
  Notation stmt := (stmt T V).
  Notation handlers := (handlers T V).
  Notation exec := (exec T V hasb truthy apply unbound failed).
  Notation handle := (handle T V hasb truthy apply unbound failed).
  Notation while_loop := (while_loop T V hasb truthy apply unbound).
  Notation ask := (ask T V hasb truthy apply unbound).

  Lemma exec_try : forall n b h o f m,
    exec n (STry b h o f) m = at_last (exec n f) (caught (exec n o) (handle n h) (exec n b m)).
  Proof. reflexivity. Qed.
  Lemma handle_cons : forall n t x b h v m,
    handle n (HCons t x b h) v m =
    if hasb v t
    then match x with
         | None => exec n b m
         | Some (x, w) =>
             if may_write w (m x) then forget x w (exec n b (upd m x (Some v))) else Bad
         end
    else handle n h v m.
  Proof. intros n t [[x w]|] b h v m; reflexivity. Qed.
  Lemma returns_try : forall b h o f : _,
    returns (STry b h o f : stmt) = returns b || h_returns h || returns o || returns f.
  Proof. reflexivity. Qed.

  (* ---------------------------------------------------------------- outcomes *)

  Definition leads (P : env V -> Prop) (r : out V) : Prop :=
    match env_of r with Some m => P m | None => True end.

  Lemma leads_with_env : forall (P : env V -> Prop) r m, P m -> leads P (with_env r m).
  Proof. intros P [] m; cbn; auto. Qed.

  Lemma upd_same : forall (m : env V) x v, upd m x v x = v.
  Proof. intros; unfold upd; now rewrite Nat.eqb_refl. Qed.
  Lemma upd_other : forall (m : env V) x v y, y <> x -> upd m x v y = m y.
  Proof. intros; unfold upd. apply Nat.eqb_neq in H. now rewrite H. Qed.

  Lemma while_leads : forall (P : env V -> Prop) c b o,
    (forall m, P m -> leads P (b m)) -> (forall m, P m -> leads P (o m)) ->
    forall n m, P m -> leads P (while_loop c b o n m).
  Proof.
    intros P c b o Hb Ho n; induction n as [|n IH]; intros m Hm; cbn;
      destruct (ask c m); cbn; auto.
    specialize (Hb m Hm). destruct (b m); cbn in *; auto.
  Qed.

  Lemma for_leads : forall (P : env V -> Prop) x w b o,
    (forall m v, P m -> P (upd m x (Some v))) ->
    (forall m, P m -> leads P (b m)) -> (forall m, P m -> leads P (o m)) ->
    forall vs m, P m -> leads P (for_loop x w b o vs m).
  Proof.
    intros P x w b o Hx Hb Ho vs; induction vs as [|v vs IH]; intros m Hm; cbn; auto.
    destruct (may_write w (m x)); cbn; auto.
    specialize (Hb _ (Hx m v Hm)). destruct (b (upd m x (Some v))); cbn in *; auto.
  Qed.

  Lemma forget_leads : forall (P Q : env V -> Prop) x w r,
    (forall m, P m -> Q (upd m x None)) -> leads P r -> leads Q (forget x w r).
  Proof.
    intros P Q x w r H; unfold forget, leads at 1. destruct (env_of r) as [m|] eqn:E.
    - intros Hm. destruct w; try (apply leads_with_env; auto);
        destruct (m x); try (apply leads_with_env; auto); exact Logic.I.
    - intros _. unfold leads; now rewrite E.
  Qed.

  Lemma caught_leads : forall (P : env V -> Prop) o h r,
    (forall m, P m -> leads P (o m)) -> (forall v m, P m -> leads P (h v m)) ->
    leads P r -> leads P (caught o h r).
  Proof. intros P o h [] Ho Hh; cbn; auto. Qed.

  Lemma at_last_leads : forall (P : env V -> Prop) f r,
    (forall m, P m -> leads P (f m)) -> leads P r -> leads P (at_last f r).
  Proof.
    intros P f r Hf Hr. unfold at_last, leads in *. destruct (env_of r) as [m|] eqn:E.
    - specialize (Hf m Hr). destruct (f m) eqn:F; cbn in *; auto. now apply leads_with_env.
    - now rewrite E.
  Qed.

  (* A statement keeps what all its assignments keep. *)
  Lemma keeps : forall n (P : env V -> Prop),
    (forall s : stmt,
       (forall x, In x (stores s ++ names s) -> forall m v, P m -> P (upd m x (Some v))) ->
       (returns s = true -> forall m v, P m -> P (upd m rv (Some v))) ->
       (forall x, In x (names s) -> forall m, P m -> P (upd m x None)) ->
       forall m, P m -> leads P (exec n s m)) /\
    (forall h : handlers,
       (forall x, In x (h_stores h ++ h_names h) -> forall m v, P m -> P (upd m x (Some v))) ->
       (h_returns h = true -> forall m v, P m -> P (upd m rv (Some v))) ->
       (forall x, In x (h_names h) -> forall m, P m -> P (upd m x None)) ->
       forall v m, P m -> leads P (handle n h v m)).
  Proof.
    intros n P; apply stmt_handlers_ind; intros; cbn [Vars_Model.exec Vars_Model.handle] in *.
    - exact H2.
    - (* seq *)
      assert (A : leads P (exec n a m)).
      { apply H; auto; intros.
        - apply H1; auto; cbn; rewrite !in_app_iff in *; tauto.
        - apply H2; cbn; auto; now rewrite H5.
        - apply H3; auto; cbn; rewrite in_app_iff; tauto. }
      destruct (exec n a m); cbn in *; auto.
      apply H0; auto; intros.
      + apply H1; auto; cbn; rewrite !in_app_iff in *; tauto.
      + apply H2; cbn; auto; now rewrite H5, orb_true_r.
      + apply H3; auto; cbn; rewrite in_app_iff; tauto.
    - (* assign *)
      destruct (eval _ _ _ _ _ _ _); cbn; auto. destruct (may_write w (m x)); cbn; auto.
      apply H; cbn; auto.
    - destruct (eval _ _ _ _ _ _ _); cbn; auto.
    - (* if *)
      assert (A : leads P (exec n a m)).
      { apply H; auto; intros.
        - apply H1; auto; cbn; rewrite !in_app_iff in *; tauto.
        - apply H2; cbn; auto; now rewrite H5.
        - apply H3; auto; cbn; rewrite in_app_iff; tauto. }
      assert (B : leads P (exec n b m)).
      { apply H0; auto; intros.
        - apply H1; auto; cbn; rewrite !in_app_iff in *; tauto.
        - apply H2; cbn; auto; now rewrite H5, orb_true_r.
        - apply H3; auto; cbn; rewrite in_app_iff; tauto. }
      destruct (ask c m); cbn; auto.
    - (* while *)
      apply while_leads; auto; intros.
      + apply H; auto; intros.
        * apply H1; auto; cbn; rewrite !in_app_iff in *; tauto.
        * apply H2; cbn; auto; now rewrite H6.
        * apply H3; auto; cbn; rewrite in_app_iff; tauto.
      + apply H0; auto; intros.
        * apply H1; auto; cbn; rewrite !in_app_iff in *; tauto.
        * apply H2; cbn; auto; now rewrite H6, orb_true_r.
        * apply H3; auto; cbn; rewrite in_app_iff; tauto.
    - (* for *)
      apply for_leads; auto; intros.
      + apply H1; auto; cbn; auto.
      + apply H; auto; intros.
        * apply H1; auto; cbn; rewrite !in_app_iff in *; tauto.
        * apply H2; cbn; auto; now rewrite H6.
        * apply H3; auto; cbn; rewrite in_app_iff; tauto.
      + apply H0; auto; intros.
        * apply H1; auto; cbn; rewrite !in_app_iff in *; tauto.
        * apply H2; cbn; auto; now rewrite H6, orb_true_r.
        * apply H3; auto; cbn; rewrite in_app_iff; tauto.
    - exact H2.
    - exact H2.
    - assert (A : leads P (exec n s m)) by (apply H; auto).
      destruct (exec n s m); cbn in *; auto.
    - assert (A : leads P (exec n s m)) by (apply H; auto).
      destruct (exec n s m); cbn in *; auto.
    - destruct (eval _ _ _ _ _ _ _); cbn; auto. destruct (may_return w (m rv)); cbn; auto.
    - destruct (eval _ _ _ _ _ _ _); cbn; auto.
    - destruct (ask c m); cbn; auto.
    - (* try *)
      assert (S : forall x, In x (stores b ++ names b) \/ In x (h_stores h ++ h_names h) \/
                    In x (stores o ++ names o) \/ In x (stores f ++ names f) ->
                  forall m v, P m -> P (upd m x (Some v))).
      { intros x Hx m' v' Hm'. apply H3; auto. cbn. rewrite !in_app_iff in *. tauto. }
      assert (N : forall x, In x (names b) \/ In x (h_names h) \/ In x (names o) \/ In x (names f) ->
                  forall m, P m -> P (upd m x None)).
      { intros x Hx m' Hm'. apply H5; auto. cbn. rewrite !in_app_iff in *. tauto. }
      rewrite returns_try in H4.
      change (leads P (exec n (STry b h o f) m)). rewrite exec_try.
      apply at_last_leads; [|apply caught_leads].
      + intros; apply H2; auto. intros E; apply H4; rewrite E; now rewrite !orb_true_r.
      + intros; apply H1; auto. intros E; apply H4; rewrite E; now rewrite !orb_true_r.
      + intros; apply H0; auto. intros E; apply H4; rewrite E; now rewrite !orb_true_r.
      + apply H; auto. intros E; apply H4; now rewrite E.
    - exact Logic.I.
    - exact H2.
    - (* handler *)
      change (h_returns (HCons t x b h)) with (returns b || h_returns h) in H2.
      assert (B : forall m, P m -> leads P (exec n b m)).
      { intros m' Hm'. apply H; auto; intros.
        - apply H1; auto; cbn; rewrite !in_app_iff in *; tauto.
        - apply H2; auto; now rewrite H5.
        - apply H3; auto; cbn; rewrite !in_app_iff; tauto. }
      assert (R : leads P (handle n h v m)).
      { apply H0; auto; intros.
        - apply H1; auto; cbn; rewrite !in_app_iff in *; tauto.
        - apply H2; auto; now rewrite H5, orb_true_r.
        - apply H3; auto; cbn; rewrite !in_app_iff; tauto. }
      change (leads P (handle n (HCons t x b h) v m)). rewrite handle_cons.
      destruct x as [[x w]|]; destruct (hasb v t); auto.
      destruct (may_write w (m x)); [|exact Logic.I].
      apply forget_leads with (P := P).
      + intros m' Hm'. apply H3; auto; cbn; auto.
      + apply B. apply H1; auto. cbn. rewrite !in_app_iff; cbn; auto.
  Qed.

  (* A variable that is not bound in a statement is not changed by it. *)
  Lemma unchanged : forall n x,
    (forall s : stmt, ~ In x (stores s ++ names s) -> (returns s = true -> x <> rv) ->
       forall m, leads (fun m' => m' x = m x) (exec n s m)) /\
    (forall h : handlers, ~ In x (h_stores h ++ h_names h) -> (h_returns h = true -> x <> rv) ->
       forall v m, leads (fun m' => m' x = m x) (handle n h v m)).
  Proof.
    intros n x; split; intros; apply (keeps n (fun m' => m' x = m x)); auto; intros;
      rewrite upd_other; auto; intros ->; try (apply H; rewrite ?in_app_iff in *; tauto);
      now apply H0.
  Qed.

  (* A variable that is not the name of a caught exception stays bound. *)
  Lemma stays_bound : forall n x,
    (forall s : stmt, ~ In x (names s) ->
       forall m, m x <> None -> leads (fun m' => m' x <> None) (exec n s m)) /\
    (forall h : handlers, ~ In x (h_names h) ->
       forall v m, m x <> None -> leads (fun m' => m' x <> None) (handle n h v m)).
  Proof.
    intros n x; split; intros; apply (keeps n (fun m' => m' x <> None)); auto; intros;
      unfold upd; destruct (Nat.eqb x _) eqn:E; auto; try discriminate;
      apply Nat.eqb_eq in E; subst; contradiction.
  Qed.

  (* Bound only as the name of a caught exception: unchanged or unbound afterwards. *)
  Definition same_or_none (x : nat) (m m' : env V) : Prop := m' x = m x \/ m' x = None.

  Lemma same_or_none_trans : forall x m m' m'',
    same_or_none x m m' -> same_or_none x m' m'' -> same_or_none x m m''.
  Proof. unfold same_or_none; intros x m m' m'' [A|A] [B|B]; rewrite ?A, ?B in *; auto. Qed.

  Lemma leads_impl : forall (P Q : env V -> Prop) r,
    (forall m, P m -> Q m) -> leads P r -> leads Q r.
  Proof. unfold leads; intros P Q r H; destruct (env_of r); auto. Qed.

  Lemma unbound_after : forall n x, x <> rv ->
    (forall s : stmt, ~ In x (stores s) ->
       forall m, leads (same_or_none x m) (exec n s m)) /\
    (forall h : handlers, ~ In x (h_stores h) ->
       forall v m, leads (same_or_none x m) (handle n h v m)).
  Proof.
    intros n x Hx.
    assert (R0 : forall m, same_or_none x m m) by (left; reflexivity).
    apply stmt_handlers_ind; intros; cbn [Vars_Model.exec Vars_Model.handle stores h_stores] in *;
      rewrite ?in_app_iff in *.
    - apply R0.
    - assert (A := H ltac:(tauto) m). destruct (exec n a m); cbn in *; auto.
      eapply leads_impl; [|apply H0; tauto]. intros; eapply same_or_none_trans; eauto.
    - destruct (eval _ _ _ _ _ _ _); cbn; auto. destruct (may_write w (m x0)); cbn; auto.
      left. apply upd_other. cbn in H; intros ->; tauto.
    - destruct (eval _ _ _ _ _ _ _); cbn; auto.
    - destruct (ask c m); cbn; auto.
    - apply while_leads with (P := same_or_none x m); auto; intros m' Hm';
        (eapply leads_impl; [|first [apply H; tauto | apply H0; tauto]]); intros;
        eapply same_or_none_trans; eauto.
    - cbn in H1. rewrite in_app_iff in H1.
      apply for_leads with (P := same_or_none x m); auto.
      + intros m' v Hm'. unfold same_or_none in *. rewrite upd_other; auto.
      + intros m' Hm'. eapply leads_impl; [|apply H; tauto]. intros; eapply same_or_none_trans; eauto.
      + intros m' Hm'. eapply leads_impl; [|apply H0; tauto]. intros; eapply same_or_none_trans; eauto.
    - apply R0.
    - apply R0.
    - specialize (H H0 m). destruct (exec n s m); auto.
    - specialize (H H0 m). destruct (exec n s m); auto.
    - destruct (eval _ _ _ _ _ _ _); cbn; auto. destruct (may_return w (m rv)); cbn; auto.
      left. apply upd_other; auto.
    - destruct (eval _ _ _ _ _ _ _); cbn; auto.
    - destruct (ask c m); cbn; auto.
    - change (leads (same_or_none x m) (exec n (STry b h o f) m)). rewrite exec_try.
      apply at_last_leads; [|apply caught_leads].
      + intros m' Hm'. eapply leads_impl; [|apply H2; tauto]. intros; eapply same_or_none_trans; eauto.
      + intros m' Hm'. eapply leads_impl; [|apply H1; tauto]. intros; eapply same_or_none_trans; eauto.
      + intros v m' Hm'. eapply leads_impl; [|apply H0; tauto]. intros; eapply same_or_none_trans; eauto.
      + apply H; tauto.
    - exact Logic.I.
    - apply R0.
    - change (leads (same_or_none x m) (handle n (HCons t x0 b h) v m)). rewrite handle_cons.
      destruct x0 as [[y w]|]; destruct (hasb v t); auto.
      destruct (may_write w (m y)); [|exact Logic.I].
      destruct (Nat.eq_dec x y) as [->|N].
      + apply forget_leads with (P := fun _ => True).
        * intros; right. apply upd_same.
        * unfold leads; destruct (env_of _); auto.
      + apply forget_leads with (P := same_or_none x m).
        * intros m' [A|A]; unfold same_or_none; rewrite upd_other; auto.
        * eapply leads_impl; [|apply H; tauto]. intros m' A.
          eapply same_or_none_trans; [|exact A]. left. now apply upd_other.
  Qed.

  (* Without a break or continue that leaves it, a statement does not end in one. *)
  Definition not_broke (r : out V) : Prop := match r with Broke _ => False | _ => True end.
  Definition not_continued (r : out V) : Prop := match r with Continued _ => False | _ => True end.

  Lemma no_break : forall n,
    (forall s : stmt, breaks s = false -> forall m, not_broke (exec n s m)) /\
    (forall h : handlers, h_breaks h = false -> forall v m, not_broke (handle n h v m)).
  Proof.
    intros n; apply stmt_handlers_ind; intros; cbn [Vars_Model.exec Vars_Model.handle breaks h_breaks] in *;
      rewrite ?orb_false_iff in *; try exact Logic.I; try discriminate.
    - destruct H1 as [A B]. specialize (H A m). destruct (exec n a m); cbn in *; auto.
    - destruct (eval _ _ _ _ _ _ _); cbn; auto. destruct (may_write w (m x)); cbn; auto.
    - destruct (eval _ _ _ _ _ _ _); cbn; auto.
    - destruct (ask c m); cbn; auto; intuition.
    - generalize n at 3. intros k; revert m; induction k as [|k IH]; intros m; cbn;
        destruct (ask c m); cbn; auto.
      destruct (exec n b m); cbn; auto.
    - revert m; induction vs as [|v vs IH]; intros m; cbn; auto.
      destruct (may_write w (m x)); cbn; auto. destruct (exec n b (upd m x (Some v))); cbn; auto.
    - destruct (exec n s m); cbn; auto.
    - specialize (H H0 m). destruct (exec n s m); cbn in *; auto.
    - destruct (eval _ _ _ _ _ _ _); cbn; auto. destruct (may_return w (m rv)); cbn; auto.
    - destruct (eval _ _ _ _ _ _ _); cbn; auto.
    - destruct (ask c m); cbn; auto.
    - destruct H3 as [[[A B] C] D].
      change (not_broke (exec n (STry b h o f) m)). rewrite exec_try.
      assert (R : not_broke (caught (exec n o) (handle n h) (exec n b m))).
      { specialize (H A m). destruct (exec n b m); cbn in *; auto. }
      unfold at_last. destruct (env_of _) as [m'|]; auto.
      specialize (H2 D m'). destruct (exec n f m'); cbn in *; auto.
      destruct (caught _ _ _); auto.
    - destruct H1 as [A B].
      change (not_broke (handle n (HCons t x b h) v m)). rewrite handle_cons.
      destruct x as [[x w]|]; destruct (hasb v t); auto.
      destruct (may_write w (m x)); cbn; auto.
      specialize (H A (upd m x (Some v))). unfold forget.
      destruct (exec n b (upd m x (Some v))); cbn in *; auto; destruct w; cbn; auto;
        destruct (e x); cbn; auto.
  Qed.

  Lemma no_continue : forall n,
    (forall s : stmt, continues s = false -> forall m, not_continued (exec n s m)) /\
    (forall h : handlers, h_continues h = false -> forall v m, not_continued (handle n h v m)).
  Proof.
    intros n; apply stmt_handlers_ind; intros; cbn [Vars_Model.exec Vars_Model.handle continues h_continues] in *;
      rewrite ?orb_false_iff in *; try exact Logic.I; try discriminate.
    - destruct H1 as [A B]. specialize (H A m). destruct (exec n a m); cbn in *; auto.
    - destruct (eval _ _ _ _ _ _ _); cbn; auto. destruct (may_write w (m x)); cbn; auto.
    - destruct (eval _ _ _ _ _ _ _); cbn; auto.
    - destruct (ask c m); cbn; auto; intuition.
    - generalize n at 3. intros k; revert m; induction k as [|k IH]; intros m; cbn;
        destruct (ask c m); cbn; auto.
      destruct (exec n b m); cbn; auto.
    - revert m; induction vs as [|v vs IH]; intros m; cbn; auto.
      destruct (may_write w (m x)); cbn; auto. destruct (exec n b (upd m x (Some v))); cbn; auto.
    - specialize (H H0 m). destruct (exec n s m); cbn in *; auto.
    - destruct (exec n s m); cbn; auto.
    - destruct (eval _ _ _ _ _ _ _); cbn; auto. destruct (may_return w (m rv)); cbn; auto.
    - destruct (eval _ _ _ _ _ _ _); cbn; auto.
    - destruct (ask c m); cbn; auto.
    - destruct H3 as [[[A B] C] D].
      change (not_continued (exec n (STry b h o f) m)). rewrite exec_try.
      assert (R : not_continued (caught (exec n o) (handle n h) (exec n b m))).
      { specialize (H A m). destruct (exec n b m); cbn in *; auto. }
      unfold at_last. destruct (env_of _) as [m'|]; auto.
      specialize (H2 D m'). destruct (exec n f m'); cbn in *; auto.
      destruct (caught _ _ _); auto.
    - destruct H1 as [A B].
      change (not_continued (handle n (HCons t x b h) v m)). rewrite handle_cons.
      destruct x as [[x w]|]; destruct (hasb v t); auto.
      destruct (may_write w (m x)); cbn; auto.
      specialize (H A (upd m x (Some v))). unfold forget.
      destruct (exec n b (upd m x (Some v))); cbn in *; auto; destruct w; cbn; auto;
        destruct (e x); cbn; auto.
  Qed.
End Proofs.
