(** The rewriting of 'with' and 'for' keeps the meaning of programs. *)
From Verif Require Import Base PyStmt Gen_Model Gen_Spec Lower_Model Lower_Spec Gen_Proofs.
From Coq Require Import PeanoNat.
Set Implicit Arguments.

(** ** Results that differ only in how their continuations are written *)
Fixpoint req {L : lang} (r r' : res L) : Prop :=
  match r with
  | Fin o s => r' = Fin o s
  | NoFuel => r' = NoFuel
  | Yield v s k => exists k', r' = Yield v s k' /\ forall s', req (k s') (k' s')
  end.

Lemma req_refl {L : lang} : forall r : res L, req r r.
Proof. induction r as [o s|v s k IH|]; cbn; eauto. Qed.

Lemma req_trans {L : lang} : forall r1 r2 r3 : res L, req r1 r2 -> req r2 r3 -> req r1 r3.
Proof.
  induction r1 as [o s|v s k IH|]; cbn; intros r2 r3 H1 H2.
  - subst r2. exact H2.
  - destruct H1 as (k' & -> & H1). destruct H2 as (k2 & -> & H2). exists k2. split; [reflexivity|].
    intro s'. eapply IH; auto.
  - subst r2. exact H2.
Qed.

Lemma req_bind {L : lang} : forall (r r' : res L) f f', req r r' ->
  (forall o s, req (f o s) (f' o s)) -> req (bindr r f) (bindr r' f').
Proof.
  induction r as [o s|v s k IH|]; cbn; intros r' f f' H Hf.
  - subst r'. apply Hf.
  - destruct H as (k' & -> & H). cbn. eexists. split; [reflexivity|]. intro s'. apply IH; auto.
  - subst r'. reflexivity.
Qed.

Lemma req_assoc {L : lang} : forall (r : res L) f g,
  req (bindr r (fun o s => bindr (f o s) g)) (bindr (bindr r f) g).
Proof.
  induction r as [o s|v s k IH|]; cbn; intros f g.
  - apply req_refl.
  - eexists. split; [reflexivity|]. intro s'. apply IH.
  - reflexivity.
Qed.

Lemma req_assoc' {L : lang} : forall (r : res L) f g,
  req (bindr (bindr r f) g) (bindr r (fun o s => bindr (f o s) g)).
Proof.
  induction r as [o s|v s k IH|]; cbn; intros f g.
  - apply req_refl.
  - eexists. split; [reflexivity|]. intro s'. apply IH.
  - reflexivity.
Qed.

Lemma req_bapp {L : lang} : forall (b c : block L) n cur t,
  req (bindr (exec_block n cur b t) (and_then (exec_block n cur c))) (exec_block n cur (bapp b c) t).
Proof.
  induction b as [|st b IH]; intros c n cur t; cbn [bapp exec_block].
  - apply req_refl.
  - eapply req_trans; [apply req_assoc'|]. apply req_bind; [apply req_refl|].
    intros [| | | |] s; cbn [and_then bindr]; try reflexivity. apply IH.
Qed.

Section Lower.
  Variable L : lang.
  Variable unset : Exc L.
  Variable any : pattern L.
  Hypothesis any_matches : forall e, matches L any e = true.
  Variable at_ : loc -> loc.
  Notation W := (wlang unset).
  Notation lo := (lower unset any at_).
  Notation lb := (lower_block unset any at_).
  Notation lh := (lower_handlers unset any at_).
  Notation A := (aux (Obj L)).

  Definition keeps (ws : list loc) (fs : list nat) (a a' : A) : Prop :=
    (forall l, In l ws -> a_flag a' l = a_flag a l /\ a_mgr a' l = a_mgr a l) /\
    (forall i, In i fs -> a_expr a' i = a_expr a i /\ a_iter a' i = a_iter a i /\
       a_ptr a' i = a_ptr a i /\ a_else a' i = a_else a i).

  Lemma keeps_refl : forall ws fs a, keeps ws fs a a.
  Proof. intros. split; auto. Qed.
  Lemma keeps_trans : forall ws fs a b c, keeps ws fs a b -> keeps ws fs b c -> keeps ws fs a c.
  Proof.
    intros ws fs a b c [H1 H2] [H3 H4]. split.
    - intros l Hl. destruct (H1 l Hl), (H3 l Hl). split; congruence.
    - intros i Hi. destruct (H2 i Hi) as (? & ? & ? & ?), (H4 i Hi) as (? & ? & ? & ?).
      repeat split; congruence.
  Qed.
  Lemma keeps_fewer_w : forall l ws fs a b, keeps (l :: ws) fs a b -> keeps ws fs a b.
  Proof. intros l ws fs a b [H1 H2]. split; [|exact H2]. intros. apply H1. now right. Qed.
  Lemma keeps_fewer_f : forall i ws fs a b, keeps ws (i :: fs) a b -> keeps ws fs a b.
  Proof. intros i ws fs a b [H1 H2]. split; [exact H1|]. intros. apply H2. now right. Qed.

  (** As [same_run], and the variables of the enclosing 'with' and 'for' are kept. *)
  Fixpoint lrel (ws : list loc) (fs : list nat) (a0 : A) (r : res L) (r' : res W) : Prop :=
    match r with
    | NoFuel => True
    | Fin o s => exists a, r' = Fin (same_outcome o) ((s, a) : St W) /\ keeps ws fs a0 a
    | Yield v s k =>
        exists a k', r' = Yield (v : Val W) ((s, a) : St W) k' /\ keeps ws fs a0 a /\
          forall s', lrel ws fs a0 (k s') (k' (s', a))
    end.

  Lemma lrel_same : forall ws fs a r r', lrel ws fs a r r' -> same_run r r'.
  Proof.
    intros ws fs a. induction r as [o s|v s k IH|]; intros r' H; cbn in *.
    - destruct H as (b & -> & _). eauto.
    - destruct H as (b & k' & -> & _ & H). exists b, k'. split; auto.
    - exact I.
  Qed.

  Lemma lrel_req : forall ws fs a r r' r'', lrel ws fs a r r' -> req r' r'' -> lrel ws fs a r r''.
  Proof.
    intros ws fs a. induction r as [o s|v s k IH|]; intros r' r'' H Q; cbn in *.
    - destruct H as (b & -> & K). cbn in Q. subst r''. eauto.
    - destruct H as (b & k' & -> & K & H). destruct Q as (k2 & -> & Q). exists b, k2.
      split; [reflexivity|]. split; [exact K|]. intro s'. eapply IH; [apply H|apply Q].
    - exact I.
  Qed.

  Lemma lrel_from : forall ws fs a b r r', keeps ws fs a b -> lrel ws fs b r r' -> lrel ws fs a r r'.
  Proof.
    intros ws fs a b r r' K. revert r'. induction r as [o s|v s k IH|]; intros r' H; cbn in *.
    - destruct H as (c & -> & H). exists c. split; [reflexivity|]. eapply keeps_trans; eauto.
    - destruct H as (c & k' & -> & K2 & H). exists c, k'. split; [reflexivity|].
      split; [eapply keeps_trans; eauto|]. auto.
    - exact I.
  Qed.

  Lemma lrel_bind : forall ws fs a0 r r' ws2 fs2 a1 f f', lrel ws fs a0 r r' ->
    (forall a, keeps ws fs a0 a -> keeps ws2 fs2 a1 a) ->
    (forall o s a, keeps ws fs a0 a -> lrel ws2 fs2 a1 (f o s) (f' (same_outcome o) (s, a))) ->
    lrel ws2 fs2 a1 (bindr r f) (bindr r' f').
  Proof.
    intros ws fs a0. induction r as [o s|v s k IH|]; intros r' ws2 fs2 a1 f f' H K Hf; cbn in *.
    - destruct H as (a & -> & H). cbn. auto.
    - destruct H as (a & k' & -> & K2 & H). exists a. eexists. split; [reflexivity|].
      split; [auto|]. intro s'. eapply IH; eauto.
    - exact I.
  Qed.

  Lemma lrel_post : forall ws fs a r r' f, lrel ws fs a r r' -> (forall o t, f o t = Fin o t) ->
    lrel ws fs a r (bindr r' f).
  Proof.
    intros ws fs a. induction r as [o s|v s k IH|]; intros r' f H Hf; cbn in *.
    - destruct H as (b & -> & K). exists b. cbn. rewrite Hf. auto.
    - destruct H as (b & k' & -> & K & H). exists b. eexists. split; [reflexivity|].
      split; [exact K|]. intro s'. apply IH; auto.
    - exact I.
  Qed.

  Lemma and_then_done : forall (o : outcome W) t, and_then (fun s => Fin Done s) o t = Fin o t.
  Proof. intros [| | | |] t; reflexivity. Qed.

  Lemma lrel_one : forall ws fs a r n cur (st : stmt W) t, lrel ws fs a r (exec n cur st t) ->
    lrel ws fs a r (exec_block n cur (BCons st BNil) t).
  Proof. intros. cbn [exec_block]. apply lrel_post; [assumption|]. apply and_then_done. Qed.

  Lemma lrel_fin : forall ws fs a0 o s a, keeps ws fs a0 a ->
    lrel ws fs a0 (Fin o s) (Fin (same_outcome o) ((s, a) : St W)).
  Proof. intros. cbn. eauto. Qed.

  (** ** The cases *)
  Definition P_stmt (st : stmt L) : Prop :=
    forall ws fs n cur s a, placed at_ ws fs st ->
      lrel ws fs a (exec n cur st s) (@exec_block W n cur (lo st) (s, a)).
  Definition P_block (b : block L) : Prop :=
    forall ws fs n cur s a, placed_block at_ ws fs b ->
      lrel ws fs a (exec_block n cur b s) (@exec_block W n cur (lb b) (s, a)).
  Definition P_handlers (hs : handlers L) : Prop :=
    forall ws fs n e s a, placed_handlers at_ ws fs hs ->
      lrel ws fs a (exec_handlers n e hs s) (@exec_handlers W n e (lh hs) (s, a)).

  Lemma prim_case : forall p, P_stmt (SPrim p).
  Proof.
    intros p ws fs n cur s a _. cbn [lower]. apply lrel_one. unfold wp. cbn [exec do_prim wlang do_wprim].
    destruct (do_prim L p cur s) as [s1 [e|]].
    - apply (@lrel_fin ws fs a (Raised e)). apply keeps_refl.
    - apply (@lrel_fin ws fs a Done). apply keeps_refl.
  Qed.

  Lemma yield_case : forall y, P_stmt (SYield y).
  Proof.
    intros y ws fs n cur s a _. cbn [lower]. apply lrel_one. cbn [exec do_yexp wlang fst snd].
    destruct (do_yexp L y s) as [s1 [v|e]].
    - cbn. exists a. eexists. split; [reflexivity|]. split; [apply keeps_refl|].
      intro s'. exists a. split; [reflexivity|apply keeps_refl].
    - apply (@lrel_fin ws fs a (Raised e)). apply keeps_refl.
  Qed.

  Lemma if_case : forall t x y, P_block x -> P_block y -> P_stmt (SIf t x y).
  Proof.
    intros t x y Hx Hy ws fs n cur s a [H1 H2]. cbn [lower]. apply lrel_one.
    cbn [exec do_test wlang do_wtest].
    destruct (do_test L t cur s) as [s1 [[|]|e]].
    - apply Hx, H1.
    - apply Hy, H2.
    - apply (@lrel_fin ws fs a (Raised e)). apply keeps_refl.
  Qed.

  Lemma while_case : forall t x y, P_block x -> P_block y -> P_stmt (SWhile t x y).
  Proof.
    intros t x y Hx Hy ws fs n cur s a [H1 H2]. cbn [lower]. apply lrel_one. cbn [exec].
    generalize n at 3 6 as fuel. intro fuel. revert s a.
    induction fuel as [|fuel IH]; intros s a; cbn [while_loop]; [exact I|].
    cbn [do_test wlang do_wtest].
    destruct (do_test L t cur s) as [s1 [[|]|e]].
    - eapply lrel_bind; [apply Hx, H1|intros b K; exact K|].
      intros o s2 b K.
      destruct o as [| | |r|e]; cbn [next_turn same_outcome];
        [eapply lrel_from; [exact K|apply IH]
        |apply (@lrel_fin ws fs a Done); exact K
        |eapply lrel_from; [exact K|apply IH]
        |apply (@lrel_fin ws fs a (Returned r)); exact K
        |apply (@lrel_fin ws fs a (Raised e)); exact K].
    - apply Hy, H2.
    - apply (@lrel_fin ws fs a (Raised e)). apply keeps_refl.
  Qed.

  Lemma break_case : P_stmt SBreak.
  Proof. intros ws fs n cur s a _. apply lrel_one. apply (@lrel_fin ws fs a Broke). apply keeps_refl. Qed.
  Lemma continue_case : P_stmt SContinue.
  Proof. intros ws fs n cur s a _. apply lrel_one. apply (@lrel_fin ws fs a Continued). apply keeps_refl. Qed.

  Lemma return_case : forall r, P_stmt (SReturn r).
  Proof.
    intros [r|] ws fs n cur s a _; cbn [lower]; apply lrel_one; cbn [exec do_rexp wlang fst snd].
    - destruct (do_rexp L r s) as [s1 [v|e]].
      + apply (@lrel_fin ws fs a (Returned (Some v))). apply keeps_refl.
      + apply (@lrel_fin ws fs a (Raised e)). apply keeps_refl.
    - apply (@lrel_fin ws fs a (Returned None)). apply keeps_refl.
  Qed.

  Lemma block_case : forall st b, P_stmt st -> P_block b -> P_block (BCons st b).
  Proof.
    intros st b Hs Hb ws fs n cur s a [H1 H2]. cbn [lower_block exec_block].
    eapply lrel_req; [|apply req_bapp].
    eapply lrel_bind; [apply Hs, H1|intros c K; exact K|].
    intros o s2 c K. destruct o as [| | |r|e]; cbn [and_then same_outcome];
      [eapply lrel_from; [exact K|apply Hb, H2]
      |apply (@lrel_fin ws fs a Broke); exact K
      |apply (@lrel_fin ws fs a Continued); exact K
      |apply (@lrel_fin ws fs a (Returned r)); exact K
      |apply (@lrel_fin ws fs a (Raised e)); exact K].
  Qed.

  Lemma handlers_case : forall m x b hs, P_block b -> P_handlers hs -> P_handlers (HCons m x b hs).
  Proof.
    intros m x b hs Hb Hh ws fs n e s a [H1 H2]. cbn [lower_handlers exec_handlers matches wlang].
    destruct (matches L m e); [|apply Hh, H2].
    destruct x as [x|]; cbn [run_named bind_name unbind_name wlang fst snd]; [|apply Hb, H1].
    eapply lrel_bind; [apply Hb, H1|intros c K; exact K|].
    intros o s2 c K. cbn [fst snd]. apply lrel_fin. exact K.
  Qed.

  Lemma seen_same : forall (cur : option (Exc L)) (o : outcome L),
    @seen_by_final W cur (same_outcome o) = @seen_by_final L cur o.
  Proof. intros cur [| | |r|e]; reflexivity. Qed.

  Lemma try_case : forall l b hs o f, P_block b -> P_handlers hs -> P_block o -> P_block f ->
    P_stmt (STry l b hs o f).
  Proof.
    intros l b hs o f Hb Hh Ho Hf ws fs n cur s a (H1 & H2 & H3 & H4). cbn [lower]. apply lrel_one.
    cbn [exec]. eapply lrel_bind with (ws := ws) (fs := fs) (a0 := a); [|intros c K; exact K|].
    - eapply lrel_bind; [apply Hb, H1|intros c K; exact K|].
      intros o1 s1 c K. destruct o1 as [| | |r|e]; cbn [same_outcome];
        [eapply lrel_from; [exact K|apply Ho, H3]
        |apply (@lrel_fin ws fs a Broke); exact K
        |apply (@lrel_fin ws fs a Continued); exact K
        |apply (@lrel_fin ws fs a (Returned r)); exact K
        |eapply lrel_from; [exact K|apply Hh, H2]].
    - intros o1 s1 c K. unfold run_final. rewrite seen_same.
      eapply lrel_bind; [eapply lrel_from; [exact K|apply Hf, H4]|intros d K2; exact K2|].
      intros o2 s2 d K2. destruct o2 as [| | |r|e]; cbn [same_outcome];
        [apply lrel_fin; exact K2
        |apply (@lrel_fin ws fs a Broke); exact K2
        |apply (@lrel_fin ws fs a Continued); exact K2
        |apply (@lrel_fin ws fs a (Returned r)); exact K2
        |apply (@lrel_fin ws fs a (Raised e)); exact K2].
  Qed.

  (** ** Variables *)
  Lemma loc_eqb_eq : forall a b, loc_eqb a b = true <-> a = b.
  Proof.
    intros [a b] [c d]. unfold loc_eqb. cbn. rewrite andb_true_iff, !Nat.eqb_eq. split.
    - intros [-> ->]. reflexivity.
    - intros [= -> ->]. auto.
  Qed.
  Lemma put_loc_same : forall T l (v : T) f, put_loc l v f l = Some v.
  Proof. intros. unfold put_loc. rewrite (proj2 (loc_eqb_eq l l) eq_refl). reflexivity. Qed.
  Lemma put_loc_other : forall T l l' (v : T) f ws, ~ In l ws -> In l' ws -> put_loc l v f l' = f l'.
  Proof.
    intros T l l' v f ws H1 H2. unfold put_loc. destruct (loc_eqb l l') eqn:E; [|reflexivity].
    apply loc_eqb_eq in E. subst. contradiction.
  Qed.
  Lemma put_line_same : forall T i (v : T) f, put_line i v f i = Some v.
  Proof. intros. unfold put_line. rewrite Nat.eqb_refl. reflexivity. Qed.
  Lemma put_line_other : forall T i i' (v : T) f fs, ~ In i fs -> In i' fs -> put_line i v f i' = f i'.
  Proof.
    intros T i i' v f fs H1 H2. unfold put_line. destruct (Nat.eqb_spec i i'); [|reflexivity].
    subst. contradiction.
  Qed.

  Ltac keep := split; cbn [a_flag a_mgr a_expr a_iter a_ptr a_else]; intros ? ?;
    repeat split; repeat (erewrite put_loc_other by eassumption); repeat (erewrite put_line_other by eassumption);
    reflexivity.

  Lemma with_case : forall l e x b, P_block b -> P_stmt (SWith l e x b).
  Proof.
    intros l e x b Hb ws fs n cur s a (H1 & H2 & H3). cbn [lower]. set (l' := at_ l) in *.
    unfold expand_with. cbn [exec exec_block]. unfold wp.
    cbn [exec do_prim wlang do_wprim done bindr and_then].
    set (a1 := Aux (put_loc l' true (a_flag a)) (a_mgr a) (a_expr a) (a_iter a) (a_ptr a) (a_else a)).
    assert (K1 : keeps ws fs a a1) by (unfold a1; keep).
    destruct (do_oexp L e s) as [s1 [m|ex]].
    2:{ unfold raised. cbn [bindr and_then]. apply (@lrel_fin ws fs a (Raised ex)). exact K1. }
    unfold done. cbn [bindr and_then do_wprim a_mgr]. rewrite put_loc_same.
    set (a2 := Aux _ _ _ _ _ _).
    assert (K2 : keeps ws fs a a2) by (unfold a2, a1; keep).
    assert (F2 : a_flag a2 l' = Some true) by (unfold a2, a1; cbn; apply put_loc_same).
    assert (M2 : a_mgr a2 l' = Some m) by (unfold a2, a1; cbn; apply put_loc_same).
    clearbody a2. clear a1 K1.
    destruct (do_enter L m s1) as [s2 [v|ex]].
    2:{ unfold raised. cbn [bindr and_then]. apply (@lrel_fin ws fs a (Raised ex)). exact K2. }
    assert (E : exists s3,
      match x with
      | None => done s2 a2
      | Some y => let '(s3, ex) := do_assign L y v s2 in (s3, a2, ex)
      end = (s3, a2, None) /\
      match x with
      | None => exec_block n cur b s2
      | Some y => match do_assign L y v s2 with
                  | (s3, None) => exec_block n cur b s3
                  | (s3, Some ex) => Fin (Raised ex) s3
                  end
      end = exec_block n cur b s3).
    { destruct x as [y|]; [|exists s2; split; reflexivity].
      destruct (H2 y eq_refl v s2) as [s3 E]. rewrite E. exists s3. split; reflexivity. }
    destruct E as (s3 & E1 & E2).
    change (lrel ws fs a
      (bindr match x with
             | None => exec_block n cur b s2
             | Some y => match do_assign L y v s2 with
                         | (s3, None) => exec_block n cur b s3
                         | (s3, Some ex) => Fin (Raised ex) s3
                         end
             end (leave_with m))
      (bindr (match match x with
                    | None => done s2 a2
                    | Some y => let '(s3, ex) := do_assign L y v s2 in (s3, a2, ex)
                    end with
              | (s4, None) => Fin (Done : outcome W) (s4 : St W)
              | (s4, Some ex) => Fin (Raised (ex : Exc W)) (s4 : St W)
              end)
        (and_then (fun t : St W => @exec_block W n cur (BCons (STry l' (lb b)
              (HCons (any : pattern W) None
                 (BCons (wp unset (WSetFlag l' false))
                 (BCons (SIf (WExit l' : test W) BNil (BCons (wp unset WReraise) BNil)) BNil))
                 HNil)
              BNil
              (BCons (SIf (WFlag l' : test W) (BCons (wp unset (WExitNone l')) BNil) BNil) BNil)) BNil) t)))).
    rewrite E1, E2. cbn [bindr and_then]. apply lrel_one. cbn [exec].
    eapply lrel_req; [|apply req_assoc].
    eapply lrel_bind with (ws := l' :: ws) (fs := fs) (a0 := a2); [apply Hb, H3| |].
    - intros c K. eapply keeps_trans; [exact K2|]. eapply keeps_fewer_w; exact K.
    - intros o s4 c K.
      assert (F3 : a_flag c l' = Some true) by (destruct K as [K _]; destruct (K l' (or_introl eq_refl)); congruence).
      assert (M3 : a_mgr c l' = Some m) by (destruct K as [K _]; destruct (K l' (or_introl eq_refl)); congruence).
      assert (K3 : keeps ws fs a c) by (eapply keeps_trans; [exact K2|eapply keeps_fewer_w; exact K]).
      clear K K2 F2 M2 E1 E2.
      assert (N : forall o1 : outcome L, lrel ws fs a
        (match do_exit L m None s4 with
         | (s5, inl _) => Fin o1 s5
         | (s5, inr e2) => Fin (Raised e2) s5
         end)
        (@run_final W (fun c0 => @exec_block W n c0
           (BCons (SIf (WFlag l' : test W) (BCons (wp unset (WExitNone l')) BNil) BNil) BNil)) cur
           (same_outcome o1) ((s4, c) : St W))).
      { intro o1. unfold run_final. cbn [exec_block exec do_test wlang do_wtest]. rewrite F3.
        unfold wp. cbn [exec_block exec do_prim wlang do_wprim bindr]. rewrite M3.
        destruct (do_exit L m None s4) as [s5 [r|e2]]; unfold done, raised; cbn [bindr and_then].
        - apply lrel_fin. exact K3.
        - apply (@lrel_fin ws fs a (Raised e2)). exact K3. }
      destruct o as [| | |r|ex]; cbn [same_outcome exec_block bindr leave_with].
      + exact (N Done).
      + exact (N Broke).
      + exact (N Continued).
      + exact (N (Returned r)).
      + cbn [exec_handlers matches wlang]. rewrite any_matches. cbn [run_named exec_block].
        unfold wp. cbn [exec do_prim wlang do_wprim done bindr and_then exec_block do_test do_wtest a_mgr].
        rewrite M3. change (Exc W) with (Exc L).
        destruct (do_exit L m (Some ex) s4) as [s5 [[|]|e2]]; unfold raised;
          cbn [exec exec_block do_prim wlang do_wprim bindr and_then raised]; unfold run_final;
          cbn [exec exec_block do_prim do_test wlang do_wtest do_wprim bindr and_then raised a_flag]; 
          rewrite put_loc_same; cbn [bindr and_then exec_block].
        * apply (@lrel_fin ws fs a Done). eapply keeps_trans; [exact K3|keep].
        * apply (@lrel_fin ws fs a (Raised ex)). eapply keeps_trans; [exact K3|keep].
        * apply (@lrel_fin ws fs a (Raised e2)). eapply keeps_trans; [exact K3|keep].
  Qed.

  (** The 'else' of a 'for', behind the loop. *)
  Definition else_part (i : nat) (orelse : block W) : block W :=
    match orelse with
    | BNil => BNil
    | _ => BCons (SIf (WElse i : test W) orelse BNil) BNil
    end.

  Lemma else_skipped : forall n cur i b s c, a_else c i = Some false ->
    @exec_block W n cur (else_part i b) ((s, c) : St W) = Fin Done ((s, c) : St W).
  Proof.
    intros n cur i b s c H. destruct b; [reflexivity|].
    cbn [else_part exec_block exec do_test wlang do_wtest]. rewrite H. reflexivity.
  Qed.

  Lemma else_run : forall ws fs a n cur i b s c, P_block b -> placed_block at_ ws fs b ->
    keeps ws fs a c -> a_else c i = Some true ->
    lrel ws fs a (exec_block n cur b s) (@exec_block W n cur (else_part i (lb b)) ((s, c) : St W)).
  Proof.
    intros ws fs a n cur i b s c Hb Hp K H.
    assert (G : lrel ws fs a (exec_block n cur b s) (@exec_block W n cur (lb b) (s, c)))
      by (eapply lrel_from; [exact K|apply Hb, Hp]).
    destruct (lb b); [exact G|]. unfold else_part. apply lrel_one. cbn [exec do_test wlang do_wtest].
    rewrite H. exact G.
  Qed.

  Lemma for_case : forall l x e b o, P_block b -> P_block o -> P_stmt (SFor l x e b o).
  Proof.
    intros l x e b o Hb Ho ws fs n cur s a (H1 & H2 & H3). cbn [lower]. set (i := fst l) in *.
    unfold expand_for. fold (else_part i (lb o)).
    cbn [exec exec_block]. unfold wp at 1 2 3. cbn [exec do_prim wlang do_wprim].
    destruct (do_oexp L e s) as [s1 [v|ex]]; unfold done, raised; cbn [bindr and_then do_wprim a_expr].
    2:{ apply (@lrel_fin ws fs a (Raised ex)). apply keeps_refl. }
    rewrite put_line_same.
    destruct (do_iter L v s1) as [s2 [it|ex]]; unfold done, raised; cbn [bindr and_then do_wprim];
      unfold done; cbn [bindr and_then a_else a_iter a_flag a_mgr a_expr a_ptr].
    2:{ apply (@lrel_fin ws fs a (Raised ex)). keep. }
    set (a2 := Aux _ _ _ _ _ _).
    assert (K2 : keeps ws fs a a2) by (unfold a2; keep).
    assert (I2 : a_iter a2 i = Some it) by (unfold a2; cbn; apply put_line_same).
    assert (E2 : a_else a2 i = Some false) by (unfold a2; cbn; apply put_line_same).
    clearbody a2. generalize n at 3 8 as fuel. intro fuel. revert s2 a2 K2 I2 E2.
    induction fuel as [|fuel IH]; intros s2 a2 K2 I2 E2; cbn [for_loop while_loop]; [exact I|].
    cbn [do_test wlang do_wtest]. eapply lrel_req; [|apply req_assoc].
    cbn [exec_block]. unfold wp. cbn [exec do_prim wlang do_wprim]. rewrite I2.
    destruct (do_next L it s2) as [s3 [[w|]|ex]]; unfold done, raised; cbn [bindr and_then next_turn].
    - cbn [do_test wlang do_wtest a_ptr]. rewrite put_line_same.
      cbn [exec_block exec do_prim wlang do_wprim a_ptr]. rewrite put_line_same.
      set (a3 := Aux _ _ _ _ _ _).
      assert (K3 : keeps ws fs a a3) by (eapply keeps_trans; [exact K2|unfold a3; keep]).
      assert (I3 : a_iter a3 i = Some it) by (unfold a3; cbn; exact I2).
      assert (E3 : a_else a3 i = Some false) by (unfold a3; cbn; exact E2).
      clearbody a3.
      destruct (do_assign L x w s3) as [s4 [ex|]]; cbn [bindr and_then next_turn].
      + apply (@lrel_fin ws fs a (Raised ex)). exact K3.
      + eapply lrel_bind with (ws := ws) (fs := i :: fs) (a0 := a3); [apply Hb, H2| |].
        * intros c K. eapply keeps_trans; [exact K3|]. eapply keeps_fewer_f; exact K.
        * intros o1 s5 c K.
          assert (I4 : a_iter c i = Some it)
            by (destruct K as [_ K]; destruct (K i (or_introl eq_refl)) as (? & ? & ? & ?); congruence).
          assert (E4 : a_else c i = Some false)
            by (destruct K as [_ K]; destruct (K i (or_introl eq_refl)) as (? & ? & ? & ?); congruence).
          assert (K4 : keeps ws fs a c) by (eapply keeps_trans; [exact K3|eapply keeps_fewer_f; exact K]).
          destruct o1 as [| | |r|ex]; cbn [same_outcome next_turn bindr and_then].
          -- apply IH; assumption.
          -- rewrite else_skipped by exact E4. apply (@lrel_fin ws fs a Done). exact K4.
          -- apply IH; assumption.
          -- apply (@lrel_fin ws fs a (Returned r)). exact K4.
          -- apply (@lrel_fin ws fs a (Raised ex)). exact K4.
    - cbn [do_test wlang do_wtest a_ptr]. rewrite put_line_same.
      cbn [exec_block exec do_prim wlang do_wprim bindr and_then next_turn]. unfold done.
      cbn [bindr and_then next_turn]. apply else_run; auto.
      + eapply keeps_trans; [exact K2|keep].
      + cbn. apply put_line_same.
    - apply (@lrel_fin ws fs a (Raised ex)). exact K2.
  Qed.

  Theorem lower_all : (forall st, P_stmt st) /\ (forall b, P_block b) /\ (forall hs, P_handlers hs).
  Proof.
    apply stmt_block_handlers_ind.
    - exact prim_case.
    - exact yield_case.
    - intros t a Ha b Hb. apply if_case; assumption.
    - intros t a Ha b Hb. apply while_case; assumption.
    - intros l x e a Ha b Hb. apply for_case; assumption.
    - intros l e x a Ha. apply with_case; assumption.
    - exact break_case.
    - exact continue_case.
    - exact return_case.
    - intros l b Hb hs Hh o Ho f Hf. apply try_case; assumption.
    - intros ws fs n cur s a _. apply (@lrel_fin ws fs a Done). apply keeps_refl.
    - intros st Hst b Hb. apply block_case; assumption.
    - intros ws fs n e s a _. apply (@lrel_fin ws fs a (Raised e)). apply keeps_refl.
    - intros m x b Hb hs Hh. apply handlers_case; assumption.
  Qed.

  Lemma lower_block_same : forall (b : block L) n (cur : option (Exc L)) (s : St L) (a : A), placed_block at_ [] [] b ->
    same_run (exec_block n cur b s) (@exec_block W n cur (lb b) (s, a)).
  Proof. intros b n cur s a H. eapply lrel_same. apply (proj1 (proj2 lower_all) b [] [] n cur s a H). Qed.

  (** ** Inside generators *)
  Open Scope Z_scope.
  Lemma count_bapp : forall (b c : block W), count_block (bapp b c) = count_block b + count_block c.
  Proof. induction b; intro c; cbn [bapp count_block]; [lia|]. rewrite IHb. lia. Qed.

  Lemma lower_count :
    (forall st : stmt L, count_block (lo st) = count st) /\
    (forall b : block L, count_block (lb b) = count_block b) /\
    (forall hs : handlers L, count_handlers (lh hs) = count_handlers hs).
  Proof.
    apply stmt_block_handlers_ind; intros; cbn [lower lower_block lower_handlers count_block count count_handlers];
      unfold expand_for, expand_with, wp; cbn [count_block count count_handlers]; try lia.
    - destruct (lb orelse) eqn:E; cbn [count_block count] in *; lia.
    - rewrite count_bapp. lia.
  Qed.

  Lemma supported_bapp : forall sees caught (b c : block W),
    supported_block sees caught b -> supported_block sees caught c -> supported_block sees caught (bapp b c).
  Proof. induction b; intros c Hb Hc; cbn in *; [exact Hc|]. destruct Hb. split; auto. Qed.

  Lemma blind_wprim : forall p, match p with WPrim _ | WReraise => False | _ => True end ->
    @blind_prim W p.
  Proof. intros [] H c c' [s a]; try reflexivity; destruct H. Qed.

  Lemma lower_supported :
    (forall (st : stmt L) sees caught, generator_ready sees caught st -> supported_block sees caught (lo st)) /\
    (forall (b : block L) sees caught, ready_block sees caught b -> supported_block sees caught (lb b)) /\
    (forall (hs : handlers L) caught, ready_handlers caught hs -> supported_handlers caught (lh hs)).
  Proof.
    pose proof lower_count as (_ & CB & _).
    assert (BP : forall (p : prim L) sees, sees = true \/ blind_prim p -> sees = true \/ @blind_prim W (WPrim p)).
    { intros p sees [H|H]; [left; exact H|right]. intros c c' [s a]. cbn. rewrite (H c c' s). reflexivity. }
    assert (BT : forall (t : test L) sees, sees = true \/ blind_test t -> sees = true \/ @blind_test W (WTest t)).
    { intros t sees [H|H]; [left; exact H|right]. intros c c' [s a]. cbn. rewrite (H c c' s). reflexivity. }
    assert (NIL : forall f : block L, is_nil f = false -> is_nil (lb f) = false).
    { intros [|st f]; [discriminate|]. intros _. cbn [lower_block].
      destruct st; reflexivity. }
    apply stmt_block_handlers_ind; cbn [lower lower_block lower_handlers generator_ready ready_block ready_handlers].
    - intros p sees caught H. cbn [supported_block supported wp]. auto.
    - intros y sees caught H. cbn [supported_block supported]. split; [|exact I].
      intros [s a]. destruct (H s) as (s' & v & E). exists (s', a), v. cbn. rewrite E. reflexivity.
    - intros t a Ha b Hb sees caught (H1 & H2 & H3). cbn [supported_block supported]. auto.
    - intros t a Ha b Hb sees caught (H1 & H2 & H3). cbn [supported_block supported]. auto.
    - intros l x e a Ha b Hb sees caught (H1 & H2). unfold expand_for, wp.
      assert (G : supported_block sees caught (else_part (fst l) (lb b))).
      { unfold else_part. specialize (Hb _ _ H2). destruct (lb b); [exact I|].
        cbn [supported_block supported] in *. repeat split; try tauto.
        right. intros c c' [s' a']. reflexivity. }
      unfold else_part in G. cbn [supported_block supported].
      repeat split; auto; right; try (apply blind_wprim; exact I); intros c c' [s' a']; reflexivity.
    - intros l e x a Ha sees caught H. unfold expand_with, wp.
      cbn [supported_block supported supported_handlers is_nil negb orb count_block count Z.add Z.eqb].
      repeat split; auto; try discriminate; try (left; reflexivity); right;
        try (apply blind_wprim; exact I); intros c c' [s' a']; reflexivity.
    - intros; exact (conj I I).
    - intros; exact (conj I I).
    - intros [r|] sees caught H; exact (conj H I).
    - intros l b Hb hs Hh o Ho f Hf sees caught (H1 & H2 & H3 & H4 & H5 & H6).
      cbn [supported_block supported]. split; [|exact I].
      assert (E : is_nil (lb f) = is_nil f) by (destruct (is_nil f) eqn:E; [destruct f; [reflexivity|discriminate]|auto]).
      rewrite E, CB. repeat split; auto.
      intro K. assert (hs = HNil) by (destruct hs; [reflexivity|discriminate]). rewrite (H6 H). reflexivity.
    - intros; exact I.
    - intros st Hs b Hb sees caught (H1 & H2). apply supported_bapp; auto.
    - intros; exact I.
    - intros m x b Hb hs Hh caught (H1 & H2 & H3). cbn [supported_handlers]. rewrite CB. subst x. auto.
  Qed.

  (** ** Histories *)
  Variable stop_with : Ret L -> Exc L.
  Variable is_stop : Exc L -> bool.
  Notation wstop := (stop_with : Ret W -> Exc W).

  Definition same_gen (g : genobj L) (g' : genobj W) (a : A) : Prop :=
    match g, g' with
    | GFresh, GFresh => True
    | GEnded, GEnded => True
    | GSuspended k, GSuspended k' => forall s, same_run (k s) (k' ((s, a) : St W))
    | _, _ => False
    end.

  Lemma step_lower : forall r r' ev s1 g1, same_run r r' ->
    gen_step stop_with is_stop r = Some (ev, s1, g1) ->
    exists ev' a g1', gen_step (L := W) stop_with is_stop r' = Some (ev', (s1, a) : St W, g1') /\
      same_event ev' = ev /\ same_gen g1 g1' a.
  Proof.
    intros r r' ev s1 g1 S H. destruct r as [o s|v s k|]; [| |discriminate].
    - destruct S as [a ->]. destruct o as [| | |[r|]|e]; cbn [same_outcome gen_step] in *;
        injection H as <- <- <-; eexists; exists a, GEnded; (split; [reflexivity|]); split; try reflexivity;
        try exact I. destruct (is_stop e); reflexivity.
    - destruct S as (a & k' & -> & S). cbn [gen_step] in *. injection H as <- <- <-.
      eexists; exists a, (GSuspended k'). split; [reflexivity|]. split; [reflexivity|exact S].
  Qed.

  Lemma history_lower : forall b n calls g g' s a h, placed_block at_ [] [] b -> same_gen g g' a ->
    gen_history stop_with is_stop n b g s calls = Some h ->
    exists h', gen_history (L := W) stop_with is_stop n (lb b) g' ((s, a) : St W) (map (@beside L) calls) = Some h' /\
      without_aux h' = h.
  Proof.
    intros b n calls. induction calls as [|f calls IH]; intros g g' s a h Hb Hg H.
    - injection H as <-. exists []. split; reflexivity.
    - cbn [gen_history map] in *.
      destruct (gen_next stop_with is_stop n b g (f s)) as [[[ev s1] g1]|] eqn:E; [|discriminate].
      destruct (gen_history stop_with is_stop n b g1 s1 calls) as [h1|] eqn:E2; [|discriminate].
      injection H as <-.
      assert (S : exists ev' a1 g1', gen_next (L := W) stop_with is_stop n (lb b) g' ((f s, a) : St W) =
          Some (ev', (s1, a1) : St W, g1') /\ same_event ev' = ev /\ same_gen g1 g1' a1).
      { destruct g as [|k|], g' as [|k'|]; try destruct Hg; cbn [gen_next] in *.
        - eapply step_lower; [|exact E]. apply lower_block_same. exact Hb.
        - eapply step_lower; [|exact E]. apply Hg.
        - injection E as <- <- <-. exists Exhausted, a, GEnded. repeat split. }
      destruct S as (ev' & a1 & g1' & S1 & <- & S3).
      unfold beside at 1. cbn [fst snd]. rewrite S1.
      destruct (IH g1 g1' s1 a1 h1 Hb S3 E2) as (h' & -> & <-). eexists. split; reflexivity.
  Qed.
End Lower.
