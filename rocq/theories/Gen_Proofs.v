(** Compiled generators step like Python's. *)
From Verif Require Import Base PyStmt Gen_Model Gen_Spec.
From Coq Require Import ZifyBool ZifyNat.
Set Implicit Arguments.
Open Scope Z_scope.

Scheme stmt_mut := Induction for stmt Sort Prop
with block_mut := Induction for block Sort Prop
with handlers_mut := Induction for handlers Sort Prop.
Combined Scheme stmt_block_handlers_ind from stmt_mut, block_mut, handlers_mut.

(** ** Programs without yield *)
Definition never_yields {L} (r : res L) : Prop :=
  match r with Yield _ _ _ => False | _ => True end.

Lemma bindr_never {L} : forall (r : res L) f,
  never_yields r -> (forall o s, never_yields (f o s)) -> never_yields (bindr r f).
Proof. intros [o s|v s k|] f Hr Hf; cbn in *; auto. Qed.

Lemma bindr_ret {L} : forall (r : res L) f,
  never_yields r -> (forall o s, f o s = Fin o s) -> bindr r f = r.
Proof. intros [o s|v s k|] f Hr Hf; cbn in *; auto. contradiction. Qed.

Lemma bindr_assoc {L} : forall (r : res L) f g,
  never_yields r -> bindr (bindr r f) g = bindr r (fun o s => bindr (f o s) g).
Proof. intros [o s|v s k|] f g Hr; cbn in *; auto. contradiction. Qed.

Section NoYield.
  Variable L : lang.
  Hypothesis no_yexp : yexp L -> False.

  Lemma while_never : forall t (body orelse : St L -> res L),
    (forall s, never_yields (body s)) -> (forall s, never_yields (orelse s)) ->
    forall fuel s, never_yields (while_loop t body orelse fuel s).
  Proof.
    intros t body orelse Hb Ho. induction fuel as [|f IH]; intros s; cbn [while_loop].
    - exact I.
    - destruct (t s) as [s1 [[|]|e]]; [|apply Ho|exact I].
      apply bindr_never; [apply Hb|]. intros [| | | |] s2; cbn; auto.
  Qed.

  Lemma for_never : forall x it (body orelse : St L -> res L),
    (forall s, never_yields (body s)) -> (forall s, never_yields (orelse s)) ->
    forall fuel s, never_yields (for_loop x it body orelse fuel s).
  Proof.
    intros x it body orelse Hb Ho. induction fuel as [|f IH]; intros s; cbn [for_loop].
    - exact I.
    - destruct (do_next L it s) as [s1 [[v|]|e]]; [|apply Ho|exact I].
      destruct (do_assign L x v s1) as [s2 [e|]]; [exact I|].
      apply bindr_never; [apply Hb|]. intros [| | | |] s3; cbn; auto.
  Qed.

  Lemma exec_never :
    (forall st n cur s, never_yields (@exec L n cur st s))
    /\ (forall b n cur s, never_yields (@exec_block L n cur b s))
    /\ (forall hs n e s, never_yields (@exec_handlers L n e hs s)).
  Proof.
    apply stmt_block_handlers_ind.
    - intros p n cur s. cbn. destruct (do_prim L p cur s) as [s1 [e|]]; exact I.
    - intros y. destruct (no_yexp y).
    - intros t a Ha b Hb n cur s. cbn.
      destruct (do_test L t cur s) as [s1 [[|]|e]]; auto. exact I.
    - intros t a Ha b Hb n cur s. cbn. apply while_never; auto.
    - intros l x e a Ha b Hb n cur s. cbn.
      destruct (do_oexp L e s) as [s1 [v|ex]]; [|exact I].
      destruct (do_iter L v s1) as [s2 [it|ex]]; [|exact I].
      apply for_never; auto.
    - intros l e x a Ha n cur s. cbn.
      destruct (do_oexp L e s) as [s1 [v|ex]]; [|exact I].
      destruct (do_enter L v s1) as [s2 [it|ex]]; [|exact I].
      apply bindr_never.
      + destruct x as [y|]; auto. destruct (do_assign L y it s2) as [s3 [ex|]]; auto. exact I.
      + intros [| | |r|ex] s3; cbn;
          match goal with |- never_yields (match ?d with _ => _ end) =>
            destruct d as [s4 [[|]|e2]] end; exact I.
    - intros; exact I.
    - intros; exact I.
    - intros [r|] n cur s; cbn; [|exact I]. destruct (do_rexp L r s) as [s1 [v|e]]; exact I.
    - intros l b Hb hs Hhs o Ho f Hf n cur s. cbn.
      apply bindr_never.
      + apply bindr_never; auto. intros [| | |r|e] s1; cbn; auto.
      + intros out s1. unfold run_final. apply bindr_never; auto.
        intros [| | | |] s2; exact I.
    - intros; exact I.
    - intros st Hst b Hb n cur s. cbn. apply bindr_never; auto.
      intros [| | | |] s1; cbn; auto.
    - intros; exact I.
    - intros m x b Hb hs Hhs n e s. cbn. destruct (matches L m e); auto.
      destruct x as [y|]; cbn; auto. apply bindr_never; auto. intros; exact I.
  Qed.
End NoYield.

Section Sim.
  Variable L : lang.
  Variable stop_with : Ret L -> Exc L.
  Notation G := (glang stop_with).

  Lemma g_never_block : forall b n cur s, never_yields (@exec_block G n cur b s).
  Proof.
    apply (@exec_never G). intros [].
  Qed.
  Lemma g_never : forall st n cur s, never_yields (@exec G n cur st s).
  Proof.
    apply (@exec_never G). intros [].
  Qed.

  Lemma exec_one : forall n cur (st : stmt G) t,
    exec_block n cur (one st) t = exec n cur st t.
  Proof.
    intros n cur st t. unfold one. cbn [exec_block]. apply bindr_ret; [apply g_never|].
    intros [| | | |] s; reflexivity.
  Qed.

  Lemma count_nonneg :
    (forall st : stmt L, 0 <= count st) /\ (forall b : block L, 0 <= count_block b)
    /\ (forall hs : handlers L, 0 <= count_handlers hs).
  Proof.
    apply stmt_block_handlers_ind; cbn [count count_block count_handlers]; intros; lia.
  Qed.
  Definition count_st := proj1 count_nonneg.
  Definition count_bl := proj1 (proj2 count_nonneg).
  Definition count_hs := proj2 (proj2 count_nonneg).

  (** How an ending of the source shows in the rewritten body. *)
  Definition simfin (caught : bool) (o : outcome L) (s : St L) (o' : outcome G) (t : gst L)
      : Prop :=
    g_st t = s /\
    match o with
    | Done => o' = Done /\ g_slot t = -1
    | Broke => o' = Broke /\ g_slot t = -1
    | Continued => o' = Continued /\ g_slot t = -1
    | Returned None => o' = Returned (Some false : option (Ret G)) /\ g_slot t = -1
    | Returned (Some r) =>
        caught = false /\ o' = Raised (stop_with r : Exc G) /\ g_slot t = -2
    | Raised e =>
        o' = Raised (e : Exc G) /\ (g_slot t = -1 \/ (caught = false /\ g_slot t = -2))
    end.

  (** [F] is what the rewritten piece does when it is entered to resume. *)
  Fixpoint sim (caught : bool) (y c : Z) (F : gst L -> res G) (r : res L) (r' : res G) : Prop :=
    match r with
    | NoFuel => True
    | Fin o s => exists o' t, r' = Fin o' (t : St G) /\ simfin caught o s o' t
    | Yield v s k =>
        exists t, r' = Fin (Returned (Some true : option (Ret G))) (t : St G)
          /\ g_st t = s /\ g_val t = Some v /\ y <= g_slot t < y + c
          /\ forall s' w, sim caught y c F (k s') (F (GState s' (g_slot t) w))
    end.

  Lemma sim_weaken : forall caught y c F r r' caught2 y2 c2 F2,
    sim caught y c F r r' ->
    (caught2 = true -> caught = true) ->
    y2 <= y -> y + c <= y2 + c2 ->
    (forall s j w, y <= j < y + c -> F2 (GState s j w) = F (GState s j w)) ->
    sim caught2 y2 c2 F2 r r'.
  Proof.
    intros caught y c F r. induction r as [o s|v s k IH|];
      intros r' caught2 y2 c2 F2 H Hc H1 H2 HF; cbn [sim] in *.
    - destruct H as (o' & t & -> & Hs & Ho). exists o', t. split; [reflexivity|].
      split; [exact Hs|].
      destruct o as [| | |[r0|]|e]; auto.
      + destruct Ho as (E & Ho). split; [|exact Ho].
        destruct caught2; [rewrite (Hc eq_refl) in E; discriminate|reflexivity].
      + destruct Ho as (E & [Ho|[E2 Ho]]); split; auto.
        right. split; [|exact Ho].
        destruct caught2; [rewrite (Hc eq_refl) in E2; discriminate|reflexivity].
    - destruct H as (t & -> & Hs & Hv & Hj & Hk). exists t.
      split; [reflexivity|]. split; [exact Hs|]. split; [exact Hv|]. split; [lia|].
      intros s' w. rewrite HF by exact Hj. apply IH; auto.
    - exact I.
  Qed.

  (** A piece followed by another one. *)
  Lemma sim_bind : forall caught y c F r r' caught2 y2 c2 F2 f f1 f2,
    sim caught y c F r r' ->
    y2 <= y -> y + c <= y2 + c2 ->
    (forall s j w, y <= j < y + c -> F2 (GState s j w) = bindr (F (GState s j w)) f2) ->
    (forall t, y <= g_slot t < y + c ->
       f1 (Returned (Some true : option (Ret G))) t
       = Fin (Returned (Some true : option (Ret G))) (t : St G)) ->
    (forall t, y <= g_slot t < y + c ->
       f2 (Returned (Some true : option (Ret G))) t
       = Fin (Returned (Some true : option (Ret G))) (t : St G)) ->
    (forall o s o' t, simfin caught o s o' t -> sim caught2 y2 c2 F2 (f o s) (f1 o' t)) ->
    (0 < c -> forall o s o' t, simfin caught o s o' t -> sim caught2 y2 c2 F2 (f o s) (f2 o' t)) ->
    sim caught2 y2 c2 F2 (bindr r f) (bindr r' f1).
  Proof.
    intros caught y c F r. induction r as [o s|v s k IH|];
      intros r' caught2 y2 c2 F2 f f1 f2 H H1 H2 HF P1 P2 K1 K2; cbn [sim bindr] in *.
    - destruct H as (o' & t & -> & Hs). cbn [bindr]. apply K1. exact Hs.
    - destruct H as (t & -> & Hs & Hv & Hj & Hk). cbn [bindr]. rewrite P1 by exact Hj.
      exists t. split; [reflexivity|]. split; [exact Hs|]. split; [exact Hv|]. split; [lia|].
      intros s' w. rewrite HF by exact Hj.
      apply IH with (f2 := f2); auto. apply K2. lia.
    - exact I.
  Qed.

  (** What follows does nothing in the source. *)
  Lemma sim_post : forall caught y c F r r' f,
    sim caught y c F r r' -> (forall o s, f o s = Fin o s) ->
    sim caught y c F (bindr r f) r'.
  Proof.
    intros caught y c F r. induction r as [o s|v s k IH|]; intros r' f H Hf; cbn [sim bindr] in *.
    - rewrite Hf. exact H.
    - destruct H as (t & E & Hs & Hv & Hj & Hk). exists t. repeat split; auto; try lia.
    - exact I.
  Qed.

  (** A piece meets a slot past its yields: nothing happens. *)
  Lemma guarded_skip : forall n cur upper b t, upper <= g_slot t ->
    exec n cur (guarded upper b : stmt G) t = Fin Done (t : St G).
  Proof.
    intros n cur upper b t H. unfold guarded. cbn [exec do_test glang do_gtest].
    replace (g_slot t <? upper) with false by lia. reflexivity.
  Qed.

  Lemma guarded_enter : forall n cur upper b t, g_slot t < upper ->
    exec n cur (guarded upper b : stmt G) t = exec_block n cur b (t : St G).
  Proof.
    intros n cur upper b t H. unfold guarded. cbn [exec do_test glang do_gtest].
    replace (g_slot t <? upper) with true by lia. reflexivity.
  Qed.

  Lemma gen_stmt_skip : forall n cur y st t, y + count st <= g_slot t ->
    exec n cur (gen_stmt stop_with y st) t = Fin Done (t : St G).
  Proof.
    intros n cur y st t H. destruct st; cbn [gen_stmt];
      apply guarded_skip; exact H.
  Qed.

  Lemma gen_block_skip : forall n cur b y t, y + count_block b <= g_slot t ->
    exec_block n cur (gen_block stop_with y b) t = Fin Done (t : St G).
  Proof.
    intros n cur. fix IH 1. intros [|st b] y t H; cbn [gen_block exec_block count_block] in *.
    - reflexivity.
    - pose proof (count_bl b). rewrite gen_stmt_skip by lia. cbn [bindr and_then]. apply IH. lia.
  Qed.

  Lemma between_ok : forall lo hi cur (t : gst L),
    do_gtest (slot_between lo hi) cur t
    = (t, inl ((lo <=? g_slot t) && (g_slot t <=? hi))).
  Proof.
    intros lo hi cur t. unfold slot_between.
    destruct (hi <? lo) eqn:E1; [cbn; do 2 f_equal; lia|].
    destruct (lo =? hi) eqn:E2; cbn; do 2 f_equal; lia.
  Qed.

  Lemma exec_between : forall n cur lo hi a b (t : gst L),
    exec n cur (SIf (slot_between lo hi : test G) a b) (t : St G)
    = if (lo <=? g_slot t) && (g_slot t <=? hi)
      then exec_block n cur a (t : St G) else exec_block n cur b (t : St G).
  Proof.
    intros n cur lo hi a b t. cbn [exec do_test glang]. rewrite between_ok.
    destruct ((lo <=? g_slot t) && (g_slot t <=? hi)); reflexivity.
  Qed.

  (** *** Cleanup matchers *)
  Lemma matcher_in : forall n cur y c b rest (t : gst L),
    y <= g_slot t < y + c ->
    exec_block n cur (matcher y c b rest : block G) (t : St G)
    = bindr (exec_block n cur b (t : St G)) (and_then (exec_block n cur rest)).
  Proof.
    intros n cur y c b rest t H. unfold matcher.
    replace (c =? 0) with false by lia. cbn [exec_block]. rewrite exec_between.
    replace ((y <=? g_slot t) && (g_slot t <=? y + c - 1)) with true by lia. reflexivity.
  Qed.

  Lemma matcher_out : forall n cur y c b rest (t : gst L),
    ~ (y <= g_slot t < y + c) ->
    exec_block n cur (matcher y c b rest : block G) (t : St G)
    = exec_block n cur rest (t : St G).
  Proof.
    intros n cur y c b rest t H. unfold matcher.
    destruct (c =? 0) eqn:E; [reflexivity|]. cbn [exec_block]. rewrite exec_between.
    replace ((y <=? g_slot t) && (g_slot t <=? y + c - 1)) with false by lia. reflexivity.
  Qed.

  (** A piece that a running generator passes over. *)
  Definition idle (g : gst L -> res G) : Prop :=
    forall t, g_slot t = -1 -> g t = Fin Done (t : St G).

  Lemma idle_after : forall caught y c F r r' g,
    sim caught y c F r r' -> r <> NoFuel -> idle g ->
    bindr r' (@and_then G g) = r'.
  Proof.
    intros caught y c F r r' g H Hr Hg. destruct r as [o s|v s k|]; cbn [sim] in H.
    - destruct H as (o' & t & -> & Hs & Ho). destruct o as [| | |[r0|]|e];
        repeat match goal with H : _ /\ _ |- _ => destruct H end; subst o'; cbn [bindr and_then];
        auto.
    - destruct H as (t & -> & _). reflexivity.
    - contradiction.
  Qed.

  Lemma sim_idle : forall caught y c F F2 g r r',
    sim caught y c F r r' -> idle g ->
    (forall s j w, y <= j < y + c ->
       F2 (GState s j w) = bindr (F (GState s j w)) (@and_then G g)) ->
    sim caught y c F2 r r'.
  Proof.
    intros caught y c F F2 g r. induction r as [o s|v s k IH|]; intros r' H Hg HF; cbn [sim] in *.
    - exact H.
    - destruct H as (t & E & Hs & Hv & Hj & Hk). exists t.
      split; [exact E|]. split; [exact Hs|]. split; [exact Hv|]. split; [lia|].
      intros s' w. rewrite HF by exact Hj.
      specialize (Hk s' w). destruct (k s') as [o1 s1|v1 s1 k1|] eqn:Ek.
      + erewrite idle_after; [|exact Hk|discriminate|exact Hg]. rewrite <- Ek.
        apply IH; [rewrite Ek; exact Hk|exact Hg|exact HF].
      + erewrite idle_after; [|exact Hk|discriminate|exact Hg]. rewrite <- Ek.
        apply IH; [rewrite Ek; exact Hk|exact Hg|exact HF].
      + exact I.
    - exact I.
  Qed.

  Lemma cleanup_skip : forall n cur hs y rest (t : gst L),
    y + count_handlers hs <= g_slot t ->
    exec_block n cur (@gen_cleanup L stop_with y hs rest) (t : St G)
    = exec_block n cur rest (t : St G).
  Proof.
    intros n cur. fix IH 1. intros [|m x b hs] y rest t H; cbn [gen_cleanup count_handlers] in *.
    - reflexivity.
    - pose proof (count_bl b). pose proof (count_hs hs).
      rewrite matcher_out by lia. apply IH. lia.
  Qed.

  Lemma cleanup_idle : forall N cur hs y (rest : block G), 0 <= y ->
    idle (exec_block N cur rest) ->
    idle (exec_block N cur (@gen_cleanup L stop_with y hs rest)).
  Proof.
    intros N cur. fix IH 1. intros [|m x b hs] y rest Hy H t Ht; cbn [gen_cleanup] in *.
    - apply H, Ht.
    - pose proof (count_bl b). rewrite matcher_out by lia. apply IH; auto. lia.
  Qed.

  Lemma matcher_idle : forall N cur y c b (rest : block G), 0 <= y ->
    idle (exec_block N cur rest) ->
    idle (exec_block N cur (matcher y c b rest : block G)).
  Proof.
    intros N cur y c b rest Hy H t Ht. rewrite matcher_out by lia. apply H, Ht.
  Qed.

  Lemma nil_idle : forall N cur, idle (exec_block N cur (BNil : block G)).
  Proof. intros N cur t _. reflexivity. Qed.

  (** *** The main induction *)
  Variable N : nat.
  Notation gs := (gen_stmt stop_with).
  Notation gb := (gen_block stop_with).

  Definition good (sees : bool) (c : Z) (cur cur' : option (Exc L)) : Prop :=
    (sees = true -> cur = cur') /\ (sees = true -> 0 < c -> cur = None).

  Lemma good_le : forall sees c c2 cur cur', good sees c cur cur' -> c2 <= c ->
    good sees c2 cur cur'.
  Proof. intros sees c c2 cur cur' [H1 H2] H. split; auto. intros. apply H2; auto. lia. Qed.

  Lemma good_resumed : forall sees c c2 cur cur', good sees c cur cur' -> 0 < c ->
    good sees c2 cur None.
  Proof. intros sees c c2 cur cur' [H1 H2] H. split; auto. Qed.

  Definition sim_at (caught : bool) (y c : Z) (n : nat) (src : St L -> res L)
      (tgt : option (Exc L) -> gst L -> res G) (cur' : option (Exc L)) : Prop :=
    forall s w, sim caught y c (tgt None) (src s) (tgt cur' (GState s (-1) w)).

  Definition P_stmt (st : stmt L) : Prop :=
    forall sees caught y n cur cur', supported sees caught st -> 0 <= y -> (n <= N)%nat ->
      good sees (count st) cur cur' ->
      sim_at caught y (count st) n (exec n cur st) (fun c => @exec G N c (gs y st)) cur'.
  Definition P_block (b : block L) : Prop :=
    forall sees caught y n cur cur', supported_block sees caught b -> 0 <= y -> (n <= N)%nat ->
      good sees (count_block b) cur cur' ->
      sim_at caught y (count_block b) n (exec_block n cur b) (fun c => @exec_block G N c (gb y b)) cur'.
  Definition P_handlers (hs : handlers L) : Prop :=
    forall caught y n e (rest : block G) s w, supported_handlers caught hs -> 0 <= y -> (n <= N)%nat ->
      idle (exec_block N None rest) ->
      sim caught y (count_handlers hs)
        (exec_block N None (@gen_cleanup L stop_with y hs rest))
        (exec_handlers n e hs s)
        (@exec_handlers G N e (gen_handlers stop_with y hs) (GState s (-1) w : St G)).

  (** Entering a guarded piece. *)
  Lemma sim_guard : forall caught y c n src inner cur',
    0 <= y -> 0 <= c ->
    sim_at caught y c n src (fun c => @exec_block G N c inner) cur' ->
    sim_at caught y c n src (fun cu => @exec G N cu (guarded (y + c) inner : stmt G)) cur'.
  Proof.
    intros caught y c n src inner cur' Hy Hc H s w.
    rewrite guarded_enter by (cbn [g_slot]; lia).
    eapply sim_weaken; [apply H|auto|lia|lia|].
    intros s' j w' Hj. apply guarded_enter. cbn [g_slot]. lia.
  Qed.

  Lemma resume_or_running : forall y c t cur s w, 0 <= y ->
    do_gtest (resume_or y c t) cur (GState s (-1) w)
    = (GState (fst (do_test L t cur s)) (-1) w, snd (do_test L t cur s)).
  Proof.
    intros y c t cur s w Hy. unfold resume_or. cbn [do_gtest]. rewrite !between_ok.
    cbn [g_slot].
    replace ((y <=? -1) && (-1 <=? y + c - 1)) with false by lia.
    cbn [Z.leb Z.compare andb]. reflexivity.
  Qed.

  Lemma sim_fin : forall caught y c F o s o' t, simfin caught o s o' t ->
    sim caught y c F (Fin o s) (Fin o' (t : St G)).
  Proof. intros caught y c F o s o' t H. exists o', t. split; [reflexivity|exact H]. Qed.

  Lemma running_eq : forall (t : gst L) s, g_st t = s -> g_slot t = -1 ->
    t = GState s (-1) (g_val t).
  Proof. intros [s1 j w] s H1 H2. cbn in *. subst. reflexivity. Qed.

  Lemma sim_then : forall caught y c F o s o' t f f',
    simfin caught o s o' t ->
    (forall s w, sim caught y c F (f s) (f' (GState s (-1) w))) ->
    sim caught y c F (and_then f o s) (@and_then G f' o' t).
  Proof.
    intros caught y c F o s o' t f f' H Hf. pose proof H as H0.
    destruct H as [Hs Ho]. destruct o as [| | |[r|]|e]; cbn [and_then].
    - destruct Ho as [-> Hj]. cbn [and_then]. rewrite (running_eq _ Hs Hj). apply Hf.
    - destruct Ho as [-> Hj]. apply sim_fin. exact H0.
    - destruct Ho as [-> Hj]. apply sim_fin. exact H0.
    - destruct Ho as (_ & -> & Hj). apply sim_fin. exact H0.
    - destruct Ho as [-> Hj]. apply sim_fin. exact H0.
    - destruct Ho as [-> Hj]. apply sim_fin. exact H0.
  Qed.

  Lemma sim_turn : forall caught y c F o s o' t f f',
    simfin caught o s o' t ->
    (forall s w, sim caught y c F (f s) (f' (GState s (-1) w))) ->
    sim caught y c F (next_turn f o s) (@next_turn G f' o' t).
  Proof.
    intros caught y c F o s o' t f f' H Hf. pose proof H as H0.
    destruct H as [Hs Ho]. destruct o as [| | |[r|]|e]; cbn [next_turn].
    - destruct Ho as [-> Hj]. cbn [next_turn]. rewrite (running_eq _ Hs Hj). apply Hf.
    - destruct Ho as [-> Hj]. apply sim_fin. split; [exact Hs|]. split; [reflexivity|exact Hj].
    - destruct Ho as [-> Hj]. cbn [next_turn]. rewrite (running_eq _ Hs Hj). apply Hf.
    - destruct Ho as (_ & -> & Hj). apply sim_fin. exact H0.
    - destruct Ho as [-> Hj]. apply sim_fin. exact H0.
    - destruct Ho as [-> Hj]. apply sim_fin. exact H0.
  Qed.

  Lemma block_case : forall st b, P_stmt st -> P_block b -> P_block (BCons st b).
  Proof.
    intros st b Hst Hb sees caught y n cur cur' [Hs1 Hs2] Hy Hn Hg s w.
    cbn [exec_block gen_block count_block] in *.
    pose proof (count_st st) as C1. pose proof (count_bl b) as C2.
    eapply sim_bind with (y := y) (c := count st)
      (f2 := @and_then G (@exec_block G N None (gb (y + count st) b))).
    - eapply Hst; eauto. eapply good_le; [exact Hg|lia].
    - lia.
    - lia.
    - intros s' j w' Hj. reflexivity.
    - reflexivity.
    - reflexivity.
    - intros o s1 o' t H. apply sim_then; [exact H|]. intros s2 w2.
      eapply sim_weaken.
      + eapply Hb; [exact Hs2| |exact Hn|eapply good_le; [exact Hg|lia]]. lia.
      + auto.
      + lia.
      + lia.
      + intros s' j w' Hj. cbn [exec_block]. rewrite gen_stmt_skip by (cbn [g_slot]; lia).
        reflexivity.
    - intros Hpos o s1 o' t H. apply sim_then; [exact H|]. intros s2 w2.
      eapply sim_weaken.
      + eapply Hb; [exact Hs2| |exact Hn|eapply good_resumed; [exact Hg|lia]]. lia.
      + auto.
      + lia.
      + lia.
      + intros s' j w' Hj. cbn [exec_block]. rewrite gen_stmt_skip by (cbn [g_slot]; lia).
        reflexivity.
  Qed.

  Lemma test_same : forall sees c cur cur' (t : test L) s,
    sees = true \/ blind_test t -> good sees c cur cur' ->
    do_test L t cur' s = do_test L t cur s.
  Proof.
    intros sees c cur cur' t s [H|H] [G1 G2]; [rewrite (G1 H); reflexivity|apply H].
  Qed.

  Lemma if_case : forall t a b, P_block a -> P_block b -> P_stmt (SIf t a b).
  Proof.
    intros t a b Ha Hb sees caught y n cur cur' (Ht & Hsa & Hsb) Hy Hn Hg.
    cbn [gen_stmt count] in *.
    pose proof (count_bl a) as C1. pose proof (count_bl b) as C2.
    apply sim_guard; [lia|lia|]. intros s w. rewrite exec_one.
    cbn [exec do_test glang]. rewrite resume_or_running by lia.
    rewrite (@test_same _ _ _ _ _ _ Ht Hg).
    destruct (do_test L t cur s) as [s1 [[|]|e]]; cbn [fst snd].
    - eapply sim_weaken.
      + eapply Ha; eauto. eapply good_le; [exact Hg|lia].
      + auto.
      + lia.
      + lia.
      + intros s' j w' Hj. cbn beta. rewrite exec_one. cbn [exec do_test glang].
        unfold resume_or. cbn [do_gtest]. rewrite between_ok. cbn [g_slot].
        replace ((y <=? j) && (j <=? y + count_block a - 1)) with true by lia. reflexivity.
    - eapply sim_weaken.
      + eapply Hb with (y := y + count_block a); eauto; [lia|]. eapply good_le; [exact Hg|lia].
      + auto.
      + lia.
      + lia.
      + intros s' j w' Hj. cbn beta. rewrite exec_one. cbn [exec do_test glang].
        unfold resume_or. cbn [do_gtest]. rewrite !between_ok. cbn [g_slot].
        replace ((y <=? j) && (j <=? y + count_block a - 1)) with false by lia.
        replace ((-1 <=? j) && (j <=? -1)) with false by lia. reflexivity.
    - apply sim_fin. split; [reflexivity|]. split; [reflexivity|]. left. reflexivity.
  Qed.

  Lemma while_case : forall t a b, P_block a -> P_block b -> P_stmt (SWhile t a b).
  Proof.
    intros t a b Ha Hb sees caught y n cur cur' (Ht & Hsa & Hsb) Hy Hn Hg.
    cbn [gen_stmt count] in *.
    pose proof (count_bl a) as C1. pose proof (count_bl b) as C2.
    apply sim_guard; [lia|lia|]. intros s w. rewrite exec_one.
    eapply sim_weaken with (caught := caught) (y := y) (c := count_block a + count_block b)
      (F := fun t' => @exec G N None (SWhile (resume_or y (count_block a) t : test G) (gb y a)
              (gb (y + count_block a) b)) t');
      [|auto|lia|lia|intros s' j w' Hj; apply exec_one].
    cbn [exec].
    set (lp := fun cu => @while_loop G (do_gtest (resume_or y (count_block a) t) cu)
                  (@exec_block G N cu (gb y a)) (@exec_block G N cu (gb (y + count_block a) b))).
    change (@while_loop G (do_test G (resume_or y (count_block a) t) cur')
              (@exec_block G N cur' (gb y a)) (@exec_block G N cur' (gb (y + count_block a) b)))
      with (lp cur').
    change (fun t' : gst L => @while_loop G (do_test G (resume_or y (count_block a) t) None)
              (@exec_block G N None (gb y a)) (@exec_block G N None (gb (y + count_block a) b)) N t')
      with (lp None N).
    assert (Main : forall f g cu s w, (f <= g)%nat -> (g <= N)%nat ->
        good sees (count_block a + count_block b) cur cu ->
        sim caught y (count_block a + count_block b) (lp None N)
          (while_loop (do_test L t cur) (exec_block n cur a) (exec_block n cur b) f s)
          (lp cu g (GState s (-1) w))).
    { induction f as [|f IH]; intros g cu s0 w0 Hfg HgN Hgc; [exact I|].
      destruct g as [|g]; [lia|]. assert (exists N', N = S N') as [N' EN] by (exists (pred N); lia).
      unfold lp at 2. cbn [while_loop]. rewrite resume_or_running by lia.
      rewrite (@test_same _ _ _ _ _ _ Ht Hgc).
      destruct (do_test L t cur s0) as [s1 [[|]|e]]; cbn [fst snd].
      - fold (lp cu).
        eapply sim_bind with (y := y) (c := count_block a) (f2 := @next_turn G (lp None N')).
        + eapply Ha; eauto. eapply good_le; [exact Hgc|lia].
        + lia.
        + lia.
        + intros s' j w' Hj. rewrite EN at 1. unfold lp. cbn [while_loop].
          unfold resume_or at 1. cbn [do_gtest]. rewrite between_ok. cbn [g_slot].
          replace ((y <=? j) && (j <=? y + count_block a - 1)) with true by lia.
          reflexivity.
        + reflexivity.
        + reflexivity.
        + intros o s2 o' t2 H. apply sim_turn; [exact H|]. intros s3 w3.
          apply IH; [lia|lia|exact Hgc].
        + intros Hpos o s2 o' t2 H. apply sim_turn; [exact H|]. intros s3 w3.
          apply IH; [lia|lia|]. eapply good_resumed; [exact Hgc|lia].
      - eapply sim_weaken.
        + eapply Hb with (y := y + count_block a); eauto; [lia|].
          eapply good_le; [exact Hgc|lia].
        + auto.
        + lia.
        + lia.
        + intros s' j w' Hj. rewrite EN at 1. unfold lp. cbn [while_loop].
          unfold resume_or at 1. cbn [do_gtest]. rewrite !between_ok. cbn [g_slot].
          replace ((y <=? j) && (j <=? y + count_block a - 1)) with false by lia.
          replace ((-1 <=? j) && (j <=? -1)) with false by lia. reflexivity.
      - apply sim_fin. split; [reflexivity|]. split; [reflexivity|]. left. reflexivity. }
    exact (Main n N cur' s w Hn (le_n N) Hg).
  Qed.

  Lemma prim_case : forall p, P_stmt (SPrim p).
  Proof.
    intros p sees caught y n cur cur' Hp Hy Hn Hg. cbn [gen_stmt count] in *.
    apply sim_guard; [lia|lia|]. intros s w. rewrite exec_one.
    cbn [exec do_prim glang do_gprim g_st].
    assert (E : do_prim L p cur' s = do_prim L p cur s).
    { destruct Hp as [H|H]; [rewrite (proj1 Hg H); reflexivity|apply H]. }
    rewrite E. unfold on_st. cbn [g_st g_slot g_val].
    destruct (do_prim L p cur s) as [s1 [e|]]; cbn [fst snd]; apply sim_fin.
    - split; [reflexivity|]. split; [reflexivity|]. left. reflexivity.
    - split; [reflexivity|]. split; reflexivity.
  Qed.

  Lemma yield_case : forall e, P_stmt (SYield e).
  Proof.
    intros e sees caught y n cur cur' He Hy Hn Hg. cbn [gen_stmt count supported] in *.
    apply sim_guard; [lia|lia|]. intros s w. rewrite exec_one.
    cbn [exec do_test glang do_gtest g_slot]. replace (y =? -1) with false by lia.
    cbn [exec_block exec do_prim glang do_gprim bindr and_then g_st g_slot g_val].
    destruct (He s) as (s1 & v & E). rewrite E. unfold one.
    cbn [exec_block exec do_rexp glang bindr and_then sim].
    eexists. split; [reflexivity|]. cbn [g_st g_slot g_val].
    split; [reflexivity|]. split; [reflexivity|]. split; [lia|].
    intros s' w'. exists Done, (GState s' (-1) w'). split.
    - cbn [exec_block exec do_test glang do_gtest g_slot bindr and_then].
      replace (y =? y) with true by lia. reflexivity.
    - split; [reflexivity|]. split; reflexivity.
  Qed.

  Lemma return_case : forall r, P_stmt (SReturn r).
  Proof.
    intros [r|] sees caught y n cur cur' Hr Hy Hn Hg; cbn [gen_stmt count supported] in *;
      (apply sim_guard; [lia|lia|]); intros s w.
    - unfold one. cbn [exec_block exec do_prim glang do_gprim bindr and_then g_st g_slot g_val].
      destruct (do_rexp L r s) as [s1 [v|e]]; cbn [bindr and_then]; apply sim_fin.
      + split; [reflexivity|]. split; [exact Hr|]. split; reflexivity.
      + split; [reflexivity|]. split; [reflexivity|]. right. split; [exact Hr|reflexivity].
    - rewrite exec_one. cbn [exec do_rexp glang]. apply sim_fin.
      split; [reflexivity|]. split; reflexivity.
  Qed.

  Lemma break_case : P_stmt SBreak.
  Proof.
    intros sees caught y n cur cur' Hr Hy Hn Hg; cbn [gen_stmt count supported] in *.
    apply sim_guard; [lia|lia|]. intros s w. rewrite exec_one. cbn [exec]. apply sim_fin.
    split; [reflexivity|]. split; reflexivity.
  Qed.

  Lemma continue_case : P_stmt SContinue.
  Proof.
    intros sees caught y n cur cur' Hr Hy Hn Hg; cbn [gen_stmt count supported] in *.
    apply sim_guard; [lia|lia|]. intros s w. rewrite exec_one. cbn [exec]. apply sim_fin.
    split; [reflexivity|]. split; reflexivity.
  Qed.

  Lemma handlers_case : forall m x b hs, P_block b -> P_handlers hs -> P_handlers (HCons m x b hs).
  Proof.
    intros m x b hs Hb Hh caught y n e rest s w (Hx & Hsb & Hsh) Hy Hn Hrest. subst x.
    pose proof (count_bl b) as C1. pose proof (count_hs hs) as C2.
    cbn [exec_handlers gen_handlers gen_cleanup count_handlers run_named].
    change (matches G m e) with (matches L m e).
    destruct (matches L m e).
    - eapply sim_weaken with (caught := caught) (y := y) (c := count_block b)
        (F := @exec_block G N None
                (matcher y (count_block b) (gb y b)
                   (@gen_cleanup L stop_with (y + count_block b) hs rest)));
        [|auto|lia|lia|reflexivity].
      eapply sim_idle with (g := @exec_block G N None
                                   (@gen_cleanup L stop_with (y + count_block b) hs rest)).
      + eapply Hb; [exact Hsb|exact Hy|exact Hn|]. split; [reflexivity|].
        intros E Hpos. lia.
      + apply cleanup_idle; [lia|exact Hrest].
      + intros s' j w' Hj. apply matcher_in. cbn [g_slot]. exact Hj.
    - eapply sim_weaken with (caught := caught) (y := y + count_block b) (c := count_handlers hs).
      + apply Hh; [exact Hsh|lia|exact Hn|exact Hrest].
      + auto.
      + lia.
      + lia.
      + intros s' j w' Hj. apply matcher_out. cbn [g_slot]. lia.
  Qed.

  (** The body of a 'try' and its handlers. *)
  Lemma try_handlers : forall sees caught y n cur cur' b hs o rest,
    P_block b -> P_handlers hs -> P_block o ->
    supported_block sees true b -> supported_handlers caught hs ->
    supported_block sees caught o ->
    0 <= y -> (n <= N)%nat ->
    good sees (count_block b + count_handlers hs + count_block o) cur cur' ->
    idle (@exec_block G N None rest) ->
    sim_at caught y (count_block b + count_handlers hs + count_block o) n
      (fun s => bindr (exec_block n cur b s)
        (fun out s1 => match out with
                       | Raised e => exec_handlers n e hs s1
                       | Done => exec_block n cur o s1
                       | _ => Fin out s1
                       end))
      (fun c => @exec_block G N c
        (gen_try y (count_block b) (gb y b) (gen_handlers stop_with (y + count_block b) hs)
           (gb (y + count_block b + count_handlers hs) o) BNil
           (@gen_cleanup L stop_with (y + count_block b) hs
              (matcher (y + count_block b + count_handlers hs) (count_block o)
                 (gb (y + count_block b + count_handlers hs) o) rest)))) cur'.
  Proof.
    intros sees caught y n cur cur' b hs o rest Hb Hh Ho Sb Sh So Hy Hn Hg Hrest s w.
    pose proof (count_bl b) as C1. pose proof (count_hs hs) as C2. pose proof (count_bl o) as C3.
    set (ob := gb (y + count_block b + count_handlers hs) o).
    set (cl := @gen_cleanup L stop_with (y + count_block b) hs
                 (matcher (y + count_block b + count_handlers hs) (count_block o) ob rest)).
    set (hb := gen_handlers stop_with (y + count_block b) hs).
    set (k := fun (cu : option (Exc L)) (out : outcome G) (t : St G) =>
                match out with
                | Raised e => @exec_handlers G N e hb t
                | Done => @exec_block G N cu ob t
                | _ => Fin out t
                end).
    (* entering the rewritten statement *)
    assert (In1 : forall cu t, -1 <= g_slot t < y + count_block b ->
        @exec_block G N cu (gen_try y (count_block b) (gb y b) hb ob BNil cl) t
        = bindr (@exec_block G N cu (gb y b) t) (k cu)).
    { intros cu t Ht. unfold gen_try. rewrite exec_one, exec_between.
      replace ((-1 <=? g_slot t) && (g_slot t <=? y + count_block b - 1)) with true by lia.
      rewrite exec_one. cbn [exec]. apply bindr_ret.
      - apply bindr_never; [apply g_never_block|].
        intros [| | |r|e] t1; try exact I; [apply g_never_block|].
        apply (@exec_never G). intros [].
      - intros [| | |r|e] t1; reflexivity. }
    assert (In2 : forall cu t, y + count_block b <= g_slot t ->
        @exec_block G N cu (gen_try y (count_block b) (gb y b) hb ob BNil cl) t
        = @exec_block G N cu cl t).
    { intros cu t Ht. unfold gen_try. rewrite exec_one, exec_between.
      replace ((-1 <=? g_slot t) && (g_slot t <=? y + count_block b - 1)) with false by lia.
      reflexivity. }
    cbv beta. rewrite In1 by (cbn [g_slot]; lia).
    assert (K : forall cu, (sees = true -> cur = cu) ->
       (sees = true -> 0 < count_block b + count_handlers hs + count_block o -> cur = None) ->
       forall out s1 out' t, simfin true out s1 out' t ->
       sim caught y (count_block b + count_handlers hs + count_block o)
         (@exec_block G N None (gen_try y (count_block b) (gb y b) hb ob BNil cl))
         (match out with
          | Raised e => exec_handlers n e hs s1
          | Done => exec_block n cur o s1
          | _ => Fin out s1
          end) (k cu out' t)).
    { intros cu G1 G2 out s1 out' t H. pose proof H as H0. destruct H as [Hs Hout].
      destruct out as [| | |[r|]|e].
      - destruct Hout as [-> Hj]. cbn [k]. rewrite (running_eq _ Hs Hj).
        eapply sim_weaken with (caught := caught) (y := y + count_block b + count_handlers hs)
          (c := count_block o)
          (F := @exec_block G N None
                  (matcher (y + count_block b + count_handlers hs) (count_block o) ob rest));
          [|auto|lia|lia|].
        + eapply sim_idle with (g := @exec_block G N None rest).
          * eapply Ho with (y := y + count_block b + count_handlers hs) (cur' := cu);
              [exact So|lia|exact Hn|]. split; [exact G1|]. intros E Hp. apply G2; [exact E|lia].
          * exact Hrest.
          * intros s' j w' Hj'. apply matcher_in. cbn [g_slot]. exact Hj'.
        + intros s' j w' Hj'. cbv beta. rewrite In2 by (cbn [g_slot]; lia). unfold cl.
          apply cleanup_skip. cbn [g_slot]. lia.
      - destruct Hout as [-> Hj]. apply sim_fin. split; [exact Hs|]. split; [reflexivity|exact Hj].
      - destruct Hout as [-> Hj]. apply sim_fin. split; [exact Hs|]. split; [reflexivity|exact Hj].
      - destruct Hout as (Hc & _). discriminate Hc.
      - destruct Hout as [-> Hj]. apply sim_fin. split; [exact Hs|]. split; [reflexivity|exact Hj].
      - destruct Hout as [-> [Hj|[Hc _]]]; [|discriminate Hc]. cbn [k].
        rewrite (running_eq _ Hs Hj).
        eapply sim_weaken with (caught := caught) (y := y + count_block b)
          (c := count_handlers hs).
        + apply Hh with (rest := matcher (y + count_block b + count_handlers hs)
                                   (count_block o) ob rest); [exact Sh|lia|exact Hn|].
          apply matcher_idle; [lia|exact Hrest].
        + auto.
        + lia.
        + lia.
        + intros s' j w' Hj'. apply In2. cbn [g_slot]. lia. }
    eapply sim_bind with (caught := true) (y := y) (c := count_block b) (f2 := k None).
    - eapply Hb; [exact Sb|exact Hy|exact Hn|]. eapply good_le; [exact Hg|lia].
    - lia.
    - lia.
    - intros s' j w' Hj. apply In1. cbn [g_slot]. lia.
    - reflexivity.
    - reflexivity.
    - apply K; [exact (proj1 Hg)|exact (proj2 Hg)].
    - intros Hpos. apply K.
      + intros E. apply (proj2 Hg E). lia.
      + exact (proj2 Hg).
  Qed.

  Lemma sim_empty : forall caught y F r r' y2 c2 F2,
    sim caught y 0 F r r' -> sim caught y2 c2 F2 r r'.
  Proof.
    intros caught y F [o s|v s k|] r' y2 c2 F2 H; cbn [sim] in *; auto.
    destruct H as (t & _ & _ & _ & Hj & _). lia.
  Qed.

  (** A 'finally' without yields around a rewritten body [X]. *)
  Lemma try_final : forall sees caught y c n cur cur' yf f X mid,
    P_block f -> supported_block sees caught f -> count_block f = 0 -> f <> BNil ->
    0 <= y -> 0 <= c -> 0 <= yf -> (n <= N)%nat ->
    good sees c cur cur' ->
    sim_at true y c n mid (fun cu => @exec_block G N cu X) cur' ->
    sim_at caught y c n
      (fun s => bindr (mid s) (run_final (fun cu => exec_block n cu f) cur))
      (fun cu => @exec_block G N cu
         (gen_try y c X HNil BNil (final_when_running f (gb yf f)) BNil)) cur'.
  Proof.
    intros sees caught y c n cur cur' yf f X mid Hf Sf Cf Nf Hy Hc Hyf Hn Hg Hmid s w.
    assert (Efin : final_when_running f (gb yf f)
                   = one (SIf (slot_between (-1) (-1) : test G) (gb yf f) BNil)).
    { destruct f; [contradiction|reflexivity]. }
    rewrite Efin. clear Efin.
    set (fin := one (SIf (slot_between (-1) (-1) : test G) (gb yf f) BNil)).
    assert (In1 : forall cu t, -1 <= g_slot t < y + c ->
        @exec_block G N cu (gen_try y c X HNil BNil fin BNil) t
        = bindr (@exec_block G N cu X t)
            (@run_final G (fun cu => @exec_block G N cu fin) cu)).
    { intros cu t Ht. unfold gen_try. rewrite exec_one, exec_between.
      replace ((-1 <=? g_slot t) && (g_slot t <=? y + c - 1)) with true by lia.
      rewrite exec_one. cbn [exec].
      rewrite (@bindr_ret G (exec_block N cu X t)); [reflexivity|apply g_never_block|].
      intros [| | |r|e] t1; reflexivity. }
    assert (Fin1 : forall cu t, g_slot t = -1 ->
        @exec_block G N cu fin t = @exec_block G N cu (gb yf f) t).
    { intros cu t Ht. unfold fin. rewrite exec_one, exec_between, Ht. reflexivity. }
    assert (Fin2 : forall cu t, 0 <= g_slot t ->
        @exec_block G N cu fin t = Fin Done (t : St G)).
    { intros cu t Ht. unfold fin. rewrite exec_one, exec_between.
      replace ((-1 <=? g_slot t) && (g_slot t <=? -1)) with false by lia. reflexivity. }
    cbv beta. rewrite In1 by (cbn [g_slot]; lia).
    assert (K : forall cu, (sees = true -> cur = cu) ->
       forall out s1 out' t, simfin true out s1 out' t ->
       sim caught y c (@exec_block G N None (gen_try y c X HNil BNil fin BNil))
         (run_final (fun cu => exec_block n cu f) cur out s1)
         (@run_final G (fun cu => @exec_block G N cu fin) cu out' t)).
    { intros cu G1 out s1 out' t H.
      assert (Hj : g_slot t = -1).
      { destruct H as [_ H]. destruct out as [| | |[r|]|e]; try (apply H).
        - destruct H as [H _]. discriminate H.
        - destruct H as [_ [H|[H _]]]; [exact H|discriminate H]. }
      assert (Es : sees = true -> seen_by_final cur out = @seen_by_final G cu out').
      { intros E. destruct H as [_ H]. destruct out as [| | |[r|]|e]; cbn [seen_by_final];
          try (destruct H as [-> _]; cbn [seen_by_final]; auto; fail).
        destruct H as [H _]. discriminate H. }
      unfold run_final. rewrite Fin1 by exact Hj.
      rewrite (running_eq _ (proj1 H) Hj).
      eapply sim_bind with (caught := caught) (y := y) (c := 0)
        (F := @exec_block G N None (gb yf f)) (f2 := fun o t => Fin o t).
      - eapply sim_empty with (y := yf) (F := @exec_block G N None (gb yf f)).
        rewrite <- Cf. eapply Hf; [exact Sf|exact Hyf|exact Hn|].
        split; [exact Es|]. intros _ Hp. rewrite Cf in Hp. lia.
      - lia.
      - lia.
      - intros s' j w' Hj'. lia.
      - intros t' Hj'. lia.
      - intros t' Hj'. lia.
      - intros o2 s2 o2' t2 H2. pose proof H2 as H3. destruct H2 as [Hs2 Ho2].
        destruct o2 as [| | |[r2|]|e2].
        + destruct Ho2 as [-> Hj2]. apply sim_fin. split; [exact Hs2|].
          destruct H as [_ H]. destruct out as [| | |[r|]|e]; cbn in *;
            try (destruct H as [-> _]; split; [reflexivity|auto]; fail).
          destruct H as [H _]. discriminate H.
        + destruct Ho2 as [-> Hj2]. apply sim_fin. exact H3.
        + destruct Ho2 as [-> Hj2]. apply sim_fin. exact H3.
        + destruct Ho2 as (_ & -> & Hj2). apply sim_fin. exact H3.
        + destruct Ho2 as [-> Hj2]. apply sim_fin. exact H3.
        + destruct Ho2 as [-> Hj2]. apply sim_fin. exact H3.
      - intros Hpos. lia. }
    eapply sim_bind with (caught := true) (y := y) (c := c)
      (f2 := @run_final G (fun cu => @exec_block G N cu fin) None).
    - apply Hmid.
    - lia.
    - lia.
    - intros s' j w' Hj. apply In1. cbn [g_slot]. lia.
    - intros t Ht. unfold run_final. rewrite Fin2 by lia. reflexivity.
    - intros t Ht. unfold run_final. rewrite Fin2 by lia. reflexivity.
    - apply K. exact (proj1 Hg).
    - intros Hpos. apply K. intros E. apply (proj2 Hg E Hpos).
  Qed.

  Definition mid_of (n : nat) (cur : option (Exc L)) (b : block L) (hs : handlers L)
      (o : block L) (s : St L) : res L :=
    bindr (exec_block n cur b s)
      (fun out s1 => match out with
                     | Raised e => exec_handlers n e hs s1
                     | Done => exec_block n cur o s1
                     | _ => Fin out s1
                     end).

  Lemma sim_one : forall caught y c n src st cur',
    sim_at caught y c n src (fun cu => @exec G N cu st) cur' ->
    sim_at caught y c n src (fun cu => @exec_block G N cu (one st)) cur'.
  Proof.
    intros caught y c n src st cur' H s w. rewrite exec_one.
    eapply sim_weaken; [apply H|auto|lia|lia|]. intros s' j w' Hj. apply exec_one.
  Qed.

  Lemma try_case : forall l b hs o f, P_block b -> P_handlers hs -> P_block o -> P_block f ->
    P_stmt (STry l b hs o f).
  Proof.
    intros l b hs o f Hb Hh Ho Hf sees caught y n cur cur' (Sb & Sh & So & Sf & Cf & Hno) Hy Hn Hg.
    pose proof (count_bl b) as C1. pose proof (count_hs hs) as C2. pose proof (count_bl o) as C3.
    cbn [gen_stmt count] in *. rewrite Cf in *.
    replace (count_block b + count_handlers hs + count_block o + 0)
      with (count_block b + count_handlers hs + count_block o) in * by lia.
    apply sim_guard; [lia|lia|].
    destruct f as [|fs fb].
    - (* no finally block *)
      cbn [is_nil negb orb final_when_running matcher Z.eqb] in *.
      rewrite Bool.orb_false_r in *.
      intros s w. cbn [exec]. apply sim_post.
      + assert (E : match hs with
                    | HNil => gen_try y (count_block b) (gb y b)
                        (gen_handlers stop_with (y + count_block b) hs)
                        (gb (y + count_block b + count_handlers hs) o) BNil
                        (@gen_cleanup L stop_with (y + count_block b) hs
                           (matcher (y + count_block b + count_handlers hs) (count_block o)
                              (gb (y + count_block b + count_handlers hs) o) BNil))
                    | HCons _ _ _ _ => gen_try y (count_block b) (gb y b)
                        (gen_handlers stop_with (y + count_block b) hs)
                        (gb (y + count_block b + count_handlers hs) o) BNil
                        (@gen_cleanup L stop_with (y + count_block b) hs
                           (matcher (y + count_block b + count_handlers hs) (count_block o)
                              (gb (y + count_block b + count_handlers hs) o) BNil))
                    end = gen_try y (count_block b) (gb y b)
                        (gen_handlers stop_with (y + count_block b) hs)
                        (gb (y + count_block b + count_handlers hs) o) BNil
                        (@gen_cleanup L stop_with (y + count_block b) hs
                           (matcher (y + count_block b + count_handlers hs) (count_block o)
                              (gb (y + count_block b + count_handlers hs) o) BNil)))
          by (destruct hs; reflexivity).
        rewrite E.
        exact (@try_handlers sees caught y n cur cur' b hs o BNil Hb Hh Ho Sb Sh So Hy Hn Hg
                 (@nil_idle N None) s w).
      + intros out s1. unfold run_final. cbn. reflexivity.
    - cbn [is_nil negb] in *. rewrite Bool.orb_true_r in *.
      destruct hs as [|m x hb hs'].
      + (* only a finally block *)
        rewrite (Hno eq_refl) in *.
        cbn [count_handlers count_block gen_handlers gen_cleanup gen_block matcher Z.eqb] in *.
        replace (count_block b + 0 + 0) with (count_block b) in * by lia.
        intros s w. cbn [exec].
        refine (@try_final sees caught y (count_block b) n cur cur' (y + count_block b + 0 + 0)
                  (BCons fs fb) (gb y b) (mid_of n cur b HNil BNil) Hf Sf Cf _ Hy C1 _ Hn Hg _
                  s w).
        * discriminate.
        * lia.
        * intros s1 w1. apply sim_post.
          -- eapply Hb; [exact Sb|exact Hy|exact Hn|exact Hg].
          -- intros [| | |r|e] s2; reflexivity.
      + (* handlers and a finally block *)
        change (matcher ?a 0 ?c BNil) with (BNil : block G).
        apply sim_one. apply sim_guard; [lia|lia|].
        intros s w. cbn [exec].
        refine (@try_final sees caught y _ n cur cur' _ (BCons fs fb) _
                  (mid_of n cur b (HCons m x hb hs') o) Hf Sf Cf _ Hy _ _ Hn Hg _ s w).
        * discriminate.
        * lia.
        * lia.
        * apply sim_one. apply sim_guard; [lia|lia|].
          apply try_handlers with (sees := sees); auto. apply nil_idle.
  Qed.

  Theorem sim_all : (forall st, P_stmt st) /\ (forall b, P_block b) /\ (forall hs, P_handlers hs).
  Proof.
    apply stmt_block_handlers_ind.
    - exact prim_case.
    - exact yield_case.
    - intros t a Ha b Hb. apply if_case; assumption.
    - intros t a Ha b Hb. apply while_case; assumption.
    - intros l x e a Ha b Hb sees caught y n cur cur' [].
    - intros l e x a Ha sees caught y n cur cur' [].
    - exact break_case.
    - exact continue_case.
    - exact return_case.
    - intros l b Hb hs Hh o Ho f Hf. apply try_case; assumption.
    - intros sees caught y n cur cur' _ Hy Hn Hg s w. apply sim_fin.
      split; [reflexivity|]. split; reflexivity.
    - intros st Hst b Hb. apply block_case; assumption.
    - intros caught y n e rest s w _ Hy Hn Hr. apply sim_fin.
      split; [reflexivity|]. split; [reflexivity|]. left. reflexivity.
    - intros m x b Hb hs Hh. apply handlers_case; assumption.
  Qed.

  (** ** Whole generators *)

  Definition plain (ev : event L) : event L := match ev with Leaked e => Threw e | _ => ev end.

  (** What the outer finally block does to '..slot'. *)
  Definition close (t : gst L) : gst L :=
    if g_slot t =? -1 then GState (g_st t) (-2) (g_val t) else t.

  Definition at_end (o : outcome G) : outcome G :=
    match o with Done => Returned (Some false : option (Ret G)) | _ => o end.

  Lemma exec_bapp : forall (b c : block G) n cur t o t',
    exec_block n cur b t = Fin o t' ->
    exec_block n cur (bapp b c) t
    = match o with Done => exec_block n cur c t' | _ => Fin o t' end.
  Proof.
    induction b as [|st b IH]; intros c n cur t o t' H; cbn [bapp exec_block] in *.
    - injection H as <- <-. reflexivity.
    - pose proof (g_never st n cur t) as V. destruct (exec n cur st t) as [o1 t1|v t1 k|].
      + cbn [bindr] in *. destruct o1; cbn [and_then] in *; try (injection H as <- <-; reflexivity).
        now apply IH.
      + destruct V.
      + discriminate.
  Qed.

  Lemma fastnext_run : forall body (t : gst L) o t', g_slot t <> -2 ->
    @exec_block G N None (gb 0 body) t = Fin o t' ->
    exec_block N None (fastnext stop_with body) (t : St G) = Fin (at_end o) (close t' : St G).
  Proof.
    intros body t o t' Ht H. unfold fastnext.
    set (fin := one (SIf (slot_between (-1) (-1) : test G) _ BNil)).
    assert (K : forall c (u : gst L), exec_block N c fin (u : St G) = Fin Done (close u : St G)).
    { intros c u. unfold fin. rewrite exec_one, exec_between. unfold close.
      destruct (Z.eqb_spec (g_slot u) (-1)).
      - replace ((-1 <=? g_slot u) && (g_slot u <=? -1)) with true by lia. reflexivity.
      - replace ((-1 <=? g_slot u) && (g_slot u <=? -1)) with false by lia. reflexivity. }
    clearbody fin. rewrite exec_one. cbn [exec]. unfold run_final.
    cbn [exec_block]. rewrite exec_between.
    replace ((-2 <=? g_slot t) && (g_slot t <=? -2)) with false by lia. cbn [exec_block bindr and_then].
    rewrite (exec_bapp _ _ _ _ _ H).
    destruct o; cbn [exec_handlers exec_block exec bindr and_then at_end return_null one do_rexp glang];
      rewrite K; reflexivity.
  Qed.

  Lemma fastnext_ended : forall body (t : gst L), g_slot t = -2 ->
    exec_block N None (fastnext stop_with body) (t : St G)
    = Fin (Returned (Some false : option (Ret G))) (t : St G).
  Proof.
    intros body [s z w] Ht. cbn in Ht. subst z. reflexivity.
  Qed.

  (** A generator of Python and its compiled counterpart stand at the same place. *)
  Definition same_place (body : block L) (g : genobj L) (t : gst L) : Prop :=
    match g with
    | GFresh => g_slot t = -1
    | GSuspended k =>
        0 <= g_slot t < count_block body /\
        forall s w, sim false 0 (count_block body) (@exec_block G N None (gb 0 body)) (k s)
          (@exec_block G N None (gb 0 body) (GState s (g_slot t) w))
    | GEnded => g_slot t = -2
    end.

  Variable is_stop : Exc L -> bool.

  Lemma step_same : forall body (t : gst L) r ev s1 g1, g_slot t <> -2 ->
    sim false 0 (count_block body) (@exec_block G N None (gb 0 body)) r
      (@exec_block G N None (gb 0 body) t) ->
    gen_step stop_with is_stop r = Some (ev, s1, g1) ->
    exists t1, typed_next stop_with N body t = Some (plain ev, t1) /\ g_st t1 = s1 /\
      same_place body g1 t1.
  Proof.
    intros body t r ev s1 g1 Ht S H. unfold typed_next. destruct r as [o s|v s k|]; [| |discriminate].
    - destruct S as (o' & t' & E & <- & S). rewrite (fastnext_run body t Ht E). exists (close t').
      assert (A : g_st (close t') = g_st t') by (unfold close; destruct (g_slot t' =? -1); reflexivity).
      assert (B : g_slot t' = -1 \/ g_slot t' = -2 -> g_slot (close t') = -2)
        by (unfold close; intros [K|K]; rewrite K; [reflexivity|exact K]).
      destruct o as [| | |[r|]|e]; cbn [gen_step] in H; injection H as <- <- <-;
        [destruct S as [-> S]|destruct S as [-> S]|destruct S as [-> S]|destruct S as (_ & -> & S)
        |destruct S as [-> S]|destruct S as [-> S]]; cbn [at_end typed_step same_place];
        (split; [|split; [exact A|apply B; tauto]]); try reflexivity.
      destruct (is_stop e); reflexivity.
    - destruct S as (t' & E & <- & V & Y & K). rewrite (fastnext_run body t Ht E).
      assert (C : close t' = t') by (unfold close; destruct (Z.eqb_spec (g_slot t') (-1)); [lia|reflexivity]).
      rewrite C. cbn [gen_step] in H. injection H as <- <- <-. exists t'. cbn [at_end typed_step].
      rewrite V. split; [reflexivity|]. split; [reflexivity|]. split; [lia|exact K].
  Qed.

  Lemma next_same : forall body n g (t : gst L) s ev s1 g1,
    supported_generator body -> (n <= N)%nat -> same_place body g t ->
    gen_next stop_with is_stop n body g s = Some (ev, s1, g1) ->
    exists t1, typed_next stop_with N body (GState s (g_slot t) (g_val t)) = Some (plain ev, t1) /\
      g_st t1 = s1 /\ same_place body g1 t1.
  Proof.
    intros body n g t s ev s1 g1 Hb Hn Hg H. destruct g as [|k|]; cbn [same_place gen_next] in *.
    - rewrite Hg. eapply step_same; [cbn; lia| |exact H].
      apply (proj1 (proj2 sim_all) body true false 0 n None None Hb); [lia|exact Hn|].
      split; reflexivity.
    - destruct Hg as [Hj Hk]. eapply step_same; [cbn; lia| |exact H]. apply Hk.
    - injection H as <- <- <-. unfold typed_next. rewrite fastnext_ended by exact Hg.
      eexists. split; [reflexivity|]. split; [reflexivity|exact Hg].
  Qed.

  Lemma history_same : forall body n calls g (t : gst L) h,
    supported_generator body -> (n <= N)%nat -> same_place body g t ->
    gen_history stop_with is_stop n body g (g_st t) calls = Some h ->
    typed_history stop_with N body t calls = Some (without_pep479 h).
  Proof.
    intros body n calls. induction calls as [|f calls IH]; intros g t h Hb Hn Hg H.
    - injection H as <-. reflexivity.
    - cbn [gen_history typed_history] in *.
      destruct (gen_next stop_with is_stop n body g (f (g_st t))) as [[[ev s1] g1]|] eqn:E; [|discriminate].
      destruct (next_same _ _ _ _ Hb Hn Hg E) as (t1 & E1 & <- & G1). rewrite E1.
      destruct (gen_history stop_with is_stop n body g1 (g_st t1) calls) as [h1|] eqn:E2; [|discriminate].
      injection H as <-. rewrite (IH g1 t1 h1 Hb Hn G1 E2). destruct ev; reflexivity.
  Qed.
End Sim.

Lemma no_leak_plain {L : lang} : forall h : list (event L * St L), no_leak h -> without_pep479 h = h.
Proof.
  induction h as [|[ev s] h IH]; intro H; [reflexivity|]. unfold without_pep479 in *. cbn [map fst snd].
  rewrite IH by (intros e s' K; exact (H e s' (or_intror K))).
  destruct ev; try reflexivity. exfalso. exact (H e s (or_introl eq_refl)).
Qed.
