(** Proofs about the data members of classes: a class begins with the members of each class that it inherits from. *)
From Verif Require Import Base Class_Model Class_Spec Class_Order_Proofs Class_Proofs Inst_Model Inst_Spec Inst_Proofs.
From Coq Require Import ZArith Lia ZifyBool ZifyNat.
Open Scope list_scope.

Definition laid_out (w : world) : Prop := forall c k, nth_error w c = Some k ->
  NoDup (map m_name (c_members k)) /\
  forall b, In b (c_bases k) -> exists kb, nth_error w b = Some kb /\ b_final (c_body kb) = false /\
                                 exists more, c_members k = c_members kb ++ more.

Lemma NoDup_app_intro : forall A (a b : list A), NoDup a -> NoDup b -> (forall x, In x a -> In x b -> False) -> NoDup (a ++ b).
Proof.
  induction a as [|x a IH]; intros b NA NB D; [exact NB|]. inversion NA as [|? ? NI NA']. subst. cbn [app]. constructor.
  - intros I. apply in_app_or in I. destruct I as [I|I]; [contradiction|]. exact (D x (or_introl eq_refl) I).
  - apply IH; auto. intros y I J. exact (D y (or_intror I) J).
Qed.

Lemma laid_out_step : forall w bs b w', sound w -> NoDup bs -> laid_out w -> make w bs b = Ok w' -> laid_out w'.
Proof.
  intros w bs b w' S N LO E. assert (M := make_right w bs b S N). rewrite E in M.
  destruct M as ((A1 & A2 & A3 & A4) & k & -> & EB & EBD & _ & EM).
  intros c k' NC. destruct (Nat.lt_ge_cases c (List.length w)) as [L|L].
  - rewrite nth_error_app1 in NC by exact L. destruct (LO c k' NC) as (ND & H). split; [exact ND|].
    intros x I. destruct (H x I) as (kb & NB & R). exists kb. split; [|exact R]. rewrite nth_error_app1; [exact NB|].
    apply nth_error_Some. congruence.
  - rewrite nth_error_app2 in NC by exact L. destruct (c - List.length w)%nat as [|d]; [|destruct d; discriminate].
    injection NC as <-. rewrite EM, EB.
    assert (G : Forall2 (fun c k => nth_error w c = Some k) bs (flat_map (fun c => match nth_error w c with Some x => [x] | None => nil end) bs)).
    { clear - A1. assert (H : forall l, (forall c, In c l -> In c bs) ->
        Forall2 (fun c k => nth_error w c = Some k) l (flat_map (fun c => match nth_error w c with Some x => [x] | None => nil end) l)).
      { induction l as [|c l IH]; intros I; cbn [flat_map]; [constructor|].
        destruct (A1 c (I c (or_introl eq_refl))) as (k & Y & _). rewrite Y. cbn [app]. constructor; [exact Y|].
        apply IH. intros x J. apply I. now right. }
      apply H. auto. }
    set (ks := flat_map _ bs) in *.
    assert (X := proj2 (one_base w bs ks N G) A2). assert (IM := inherited_members_right ks X). split.
    + rewrite map_app. apply NoDup_app_intro; [|exact A3|].
      * destruct IM as [(-> & _)|(k0 & I0 & <- & _)]; [constructor|].
        destruct (Forall2_right _ _ _ _ _ _ G I0) as (x & J & Y). exact (proj1 (LO x k0 Y)).
      * intros n I J. apply in_map_iff in I. destruct I as (m & <- & I). apply in_map_iff in J. destruct J as (x & EX & J).
        destruct IM as [(Z0 & _)|(k0 & I0 & Z0 & _)]; [rewrite Z0 in I; destruct I|]. rewrite <- Z0 in I.
        destruct (Forall2_right _ _ _ _ _ _ G I0) as (y & JY & Y). exact (A4 y k0 m x JY Y I J (eq_sym EX)).
    + intros x I. destruct (A1 x I) as (kb & Y & F & _). exists kb. split; [rewrite nth_error_app1; [exact Y|apply nth_error_Some; congruence]|].
      split; [exact F|]. destruct (Forall2_left _ _ _ _ _ _ G I) as (kb' & J & Y'). rewrite Y in Y'. injection Y' as <-.
      destruct IM as [(_ & Z0)|(k0 & _ & _ & _ & U)].
      * exists (inherited_members ks ++ b_members b). now rewrite (Z0 kb J).
      * destruct (c_members kb) as [|m ms] eqn:EK; [eexists; reflexivity|]. exists (b_members b). f_equal.
        rewrite <- EK. symmetry. apply U; [exact J|]. unfold has_members. rewrite EK. discriminate.
Qed.

Lemma laid_out_again : forall w d, laid_out w -> laid_out (merge_again w d).
Proof.
  intros w d LO c k N. destruct (merge_again_nth _ _ _ _ N) as (k' & N' & E1 & E2 & E3 & E4).
  destruct (LO c k' N') as (ND & H). rewrite E1, E4. split; [exact ND|]. intros b I. destruct (H b I) as (kb & NB & F & more & EM).
  destruct (nth_error (merge_again w d) b) as [kb'|] eqn:NB'.
  - destruct (merge_again_nth _ _ _ _ NB') as (kb2 & X & _ & E2' & _ & E4'). rewrite NB in X. injection X as <-.
    exists kb'. rewrite E2', E4'. split; [reflexivity|]. eauto.
  - exfalso. apply nth_error_None in NB'. rewrite merge_again_length in NB'. apply nth_error_None in NB'. congruence.
Qed.

Lemma history_laid_out : forall es, no_base_twice es -> laid_out (history es).
Proof.
  intros es F. unfold history.
  assert (H : forall es w, no_base_twice es -> sound w -> laid_out w -> laid_out (fold_left happen es w)).
  { clear. induction es as [|e es IH]; intros w F S LO; [exact LO|]. cbn [fold_left].
    assert (F' : no_base_twice es) by (intros bs b I; apply (F bs b); now right).
    destruct e as [bs b|c]; cbn [happen].
    - destruct (make w bs b) as [w'|e] eqn:E; [|now apply IH].
      assert (N : NoDup bs) by (apply (F bs b); now left).
      apply IH; [exact F'|eapply sound_step; eauto|eapply laid_out_step; eauto].
    - apply IH; [exact F'|now apply sound_again|now apply laid_out_again]. }
  apply H; [exact F| |]; intros [|c] k E; discriminate.
Qed.

(** Every class that is inherited from is a prefix, and a final class has no subclass. *)
Lemma ancestor_prefix : forall w c a, laid_out w -> ancestor (bases_of w) c a -> prefix (view_of w a) (members_of w c) /\
  exists k, nth_error w c = Some k.
Proof.
  intros w c a LO A. induction A as [c bs N|c bs b a N I A IH].
  - apply nth_bases_inv in N. destruct N as (k & N & _). unfold view_of, members_of. rewrite N. split; [|eauto].
    split; [exists nil; cbn [own]; now rewrite app_nil_r|reflexivity].
  - apply nth_bases_inv in N. destruct N as (k & N & EB). subst bs. split; [|eauto].
    destruct (LO c k N) as (_ & H). destruct (H b I) as (kb & NB & F & more & EM).
    destruct IH as (((more' & EM') & F') & _). split.
    + exists (more' ++ more). unfold members_of in *. rewrite N, EM. rewrite NB in EM'. rewrite EM'. now rewrite app_assoc.
    + intros FA. exfalso. assert (X : b = a \/ exists k', nth_error w a = Some k' /\ b_final (c_body k') = false).
      { clear - A LO. remember (bases_of w) as D eqn:ED.
        induction A as [x bs N|x bs y a N I A IH]; [now left|]. right. rewrite ED in N. apply nth_bases_inv in N. destruct N as (k & N & EB). subst bs.
        destruct (LO x k N) as (_ & H). destruct (H y I) as (kb & NB & F & _). destruct IH as [-> | X]; [eauto|exact X]. }
      unfold view_of in FA. destruct X as [<-|(k' & X & Y)].
      * rewrite NB in FA. cbn [final] in FA. congruence.
      * rewrite X in FA. cbn [final] in FA. congruence.
Qed.

Lemma names_nodup : forall w c, laid_out w -> NoDup (map m_name (members_of w c)).
Proof. intros w c LO. unfold members_of. destruct (nth_error w c) as [k|] eqn:N; [exact (proj1 (LO c k N))|constructor]. Qed.
