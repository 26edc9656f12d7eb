(** Proofs about compiled [isinstance] and [issubclass], for Isa_Props. *)
From Coq Require Import String List ZArith Lia ZifyBool ZifyNat.
From Verif Require Import Base Class_Model Class_Spec Class_Proofs Inst_Class_Proofs Isa_Model Isa_Spec.
Open Scope list_scope.

(** ** Worlds that grow *)

Definition grown (w w' : world) : Prop := forall c k, nth_error w c = Some k ->
  exists k', nth_error w' c = Some k' /\ c_bases k' = c_bases k /\ c_body k' = c_body k /\ c_mro k' = c_mro k /\ c_members k' = c_members k.

Lemma grown_refl : forall w, grown w w.
Proof. intros w c k N. eauto 10. Qed.
Lemma grown_trans : forall a b c, grown a b -> grown b c -> grown a c.
Proof.
  intros a b c H G x k N. destruct (H x k N) as (k1 & N1 & e1 & e2 & e3 & e4). destruct (G x k1 N1) as (k2 & N2 & f1 & f2 & f3 & f4).
  exists k2. repeat split; congruence.
Qed.

(** At most one base of a class has data members. *)
Definition single (w : world) : Prop := forall c k x y kx ky, nth_error w c = Some k -> In x (c_bases k) -> In y (c_bases k) ->
  nth_error w x = Some kx -> nth_error w y = Some ky -> c_members kx <> nil -> c_members ky <> nil -> x = y.

Lemma happen_grown : forall w e, sound w -> (forall bs b, e = Define bs b -> NoDup bs) -> grown w (happen w e).
Proof.
  intros w [bs b|c] S N; cbn [happen].
  - assert (M := make_right w bs b S (N bs b eq_refl)). destruct (make w bs b) as [w'|e]; [|apply grown_refl].
    destruct M as (_ & k & -> & _). intros x k' E. exists k'. split; [now apply nth_error_more|auto].
  - intros x k E. destruct (nth_error (merge_again w c) x) as [k'|] eqn:E'.
    + destruct (merge_again_nth _ _ _ _ E') as (k2 & N2 & e1 & e2 & e3 & e4). rewrite E in N2. injection N2 as <-. exists k'. auto.
    + exfalso. apply nth_error_None in E'. rewrite merge_again_length in E'. apply nth_error_None in E'. congruence.
Qed.

Lemma single_step : forall w e, sound w -> (forall bs b, e = Define bs b -> NoDup bs) -> single w -> single (happen w e).
Proof.
  intros w [bs b|d] S N SI; cbn [happen].
  - assert (M := make_right w bs b S (N bs b eq_refl)). destruct (make w bs b) as [w'|e] eqn:EM; [|exact SI].
    assert (S' := sound_step _ _ _ _ S (N bs b eq_refl) EM). destruct M as ((_ & A2 & _) & k0 & -> & EB & _).
    intros c k x y kx ky NC IX IY NX NY MX MY.
    assert (LT : (forall z, In z (c_bases k) -> (z < c)%nat) /\ (c < length w + 1)%nat).
    { split.
      - intros z I. destruct (S' c k NC) as (_ & F). rewrite Forall_forall in F. now apply F.
      - assert (H : nth_error (w ++ [k0]) c <> None) by congruence. apply nth_error_Some in H. rewrite app_length in H. cbn [length] in H. lia. }
    destruct LT as (LT & LC). rewrite nth_error_app1 in NX by (specialize (LT x IX); lia). rewrite nth_error_app1 in NY by (specialize (LT y IY); lia).
    destruct (Nat.eq_dec c (length w)) as [->|NE].
    + rewrite nth_error_app2 in NC by lia. rewrite Nat.sub_diag in NC. injection NC as <-. rewrite EB in IX, IY.
      exact (A2 x y kx ky IX IY NX NY MX MY).
    + rewrite nth_error_app1 in NC by lia. exact (SI c k x y kx ky NC IX IY NX NY MX MY).
  - intros c k x y kx ky NC IX IY NX NY MX MY. destruct (merge_again_nth _ _ _ _ NC) as (k1 & N1 & e1 & _).
    destruct (merge_again_nth _ _ _ _ NX) as (k2 & N2 & _ & _ & _ & e2). destruct (merge_again_nth _ _ _ _ NY) as (k3 & N3 & _ & _ & _ & e3).
    rewrite e1 in IX, IY. rewrite e2 in MX. rewrite e3 in MY. exact (SI c k1 x y k2 k3 N1 IX IY N2 N3 MX MY).
Qed.

Lemma history_later : forall es es', no_base_twice (es ++ es') ->
  grown (history es) (history (es ++ es')) /\ sound (history es) /\ sound (history (es ++ es')) /\ laid_out (history (es ++ es')) /\ single (history (es ++ es')).
Proof.
  intros es es' N. assert (N1 : no_base_twice es) by (intros bs b I; apply (N bs b); apply in_or_app; now left).
  split; [|split; [now apply history_sound|split; [now apply history_sound|split; [now apply history_laid_out|]]]].
  - unfold history. rewrite fold_left_app. assert (S := history_sound es N1). unfold history in S.
    assert (N2 : no_base_twice es') by (intros bs b I; apply (N bs b); apply in_or_app; now right).
    revert S. generalize (fold_left happen es nil) as w. clear N N1. induction es' as [|e es' IH]; intros w S; [apply grown_refl|].
    cbn [fold_left]. assert (NE : forall bs b, e = Define bs b -> NoDup bs) by (intros bs b ->; apply (N2 bs b); now left).
    apply (grown_trans _ (happen w e)); [now apply happen_grown|]. apply IH; [intros bs b I; apply (N2 bs b); now right|].
    exact (happen_sound [e] w (fun bs b I => match I with or_introl H => NE bs b H | or_intror F => match F with end end) S).
  - unfold history. assert (SN : sound (@nil cls)) by (intros [|c] k E; discriminate).
    assert (IN : single (@nil cls)) by (intros [|c] k x y kx ky E; discriminate).
    revert SN IN N. generalize (@nil cls) as w. induction (es ++ es') as [|e l IH]; intros w SN IN N; [exact IN|]. cbn [fold_left].
    assert (NE : forall bs b, e = Define bs b -> NoDup bs) by (intros bs b ->; apply (N bs b); now left). apply IH.
    + exact (happen_sound [e] w (fun bs b I => match I with or_introl H => NE bs b H | or_intror F => match F with end end) SN).
    + now apply single_step.
    + intros bs b I. apply (N bs b). now right.
Qed.

(** ** Ancestors *)

Lemma mro_ancestor : forall w c a, sound w -> mem a (class_mro w c) = true <-> ancestor (bases_of w) c a.
Proof.
  intros w c a S. unfold class_mro, mem. rewrite existsb_exists. destruct (nth_error w c) as [k|] eqn:N.
  - destruct (S c k N) as (M & _). rewrite <- (python_mro_ancestors _ _ _ M a). split.
    + intros (x & I & E). apply Nat.eqb_eq in E. now subst x.
    + intros I. exists a. split; [exact I|apply Nat.eqb_refl].
  - split; [intros (x & [] & _)|]. intros A. exfalso. destruct A as [c bs B|c bs b a B _ _]; apply nth_bases_inv in B;
      destruct B as (k & B & _); congruence.
Qed.
Lemma subclass_ancestor : forall w c a, sound w -> is_subclass w c a = true <-> ancestor (bases_of w) c a.
Proof. intros w c a S. rewrite <- mro_ancestor by exact S. unfold is_subclass, class_mro. destruct (nth_error w c); reflexivity. Qed.

Lemma ancestor_transitive : forall D c a b, ancestor D c a -> ancestor D a b -> ancestor D c b.
Proof. intros D c a b A B. induction A as [|c bs x a N I A IH]; [exact B|]. eapply ancestor_base; eauto. Qed.

Lemma mro_grown : forall w w' c, grown w w' -> (c < length w)%nat -> class_mro w' c = class_mro w c.
Proof.
  intros w w' c G L. unfold class_mro. destruct (nth_error w c) as [k|] eqn:N; [|apply nth_error_None in N; lia].
  destruct (G c k N) as (k' & -> & _ & _ & E & _). exact E.
Qed.
Lemma final_grown : forall w w' c, grown w w' -> (c < length w)%nat -> class_final w' c = class_final w c.
Proof.
  intros w w' c G L. unfold class_final. destruct (nth_error w c) as [k|] eqn:N; [|apply nth_error_None in N; lia].
  destruct (G c k N) as (k' & -> & _ & E & _). now rewrite E.
Qed.
Lemma data_grown : forall w w' c, grown w w' -> (c < length w)%nat -> has_data w' c = has_data w c.
Proof.
  intros w w' c G L. unfold has_data. destruct (nth_error w c) as [k|] eqn:N; [|apply nth_error_None in N; lia].
  destruct (G c k N) as (k' & -> & _ & _ & _ & E). now rewrite E.
Qed.
Lemma grown_length : forall w w', grown w w' -> (length w <= length w')%nat.
Proof.
  intros w w' G. destruct (length w) as [|n] eqn:L; [lia|]. destruct (nth_error w n) as [k|] eqn:N; [|apply nth_error_None in N; lia].
  destruct (G n k N) as (k' & N' & _). assert (H : nth_error w' n <> None) by congruence. apply nth_error_Some in H. lia.
Qed.

(** Nothing inherits from a final class. *)
Lemma final_ancestor : forall w c a, laid_out w -> ancestor (bases_of w) c a -> class_final w a = true -> c = a.
Proof.
  intros w c a LO A. induction A as [c bs N|c bs b a N I A IH]; intros F; [reflexivity|]. exfalso. specialize (IH F). subst b.
  apply nth_bases_inv in N. destruct N as (k & N & EB). subst bs. destruct (LO c k N) as (_ & H). destruct (H a I) as (ka & NA & FA & _).
  unfold class_final in F. rewrite NA in F. congruence.
Qed.

(** Data members are inherited. *)
Lemma data_inherited : forall w c a, laid_out w -> ancestor (bases_of w) c a -> has_data w a = true -> has_data w c = true.
Proof.
  intros w c a LO A. induction A as [c bs N|c bs b a N I A IH]; intros F; [exact F|]. specialize (IH F).
  apply nth_bases_inv in N. destruct N as (k & N & EB). subst bs. destruct (LO c k N) as (_ & H). destruct (H b I) as (kb & NB & _ & more & EM).
  unfold has_data in *. rewrite NB in IH. rewrite N, EM. destruct (c_members kb); [discriminate|reflexivity].
Qed.

(** Of two classes with data members that one class inherits from, one inherits from the other. *)
Lemma data_chain : forall w, sound w -> laid_out w -> single w -> forall c a b, ancestor (bases_of w) c a -> ancestor (bases_of w) c b ->
  has_data w a = true -> has_data w b = true -> ancestor (bases_of w) a b \/ ancestor (bases_of w) b a.
Proof.
  intros w S LO SI c a b A. revert b. induction A as [c bs N|c bs x a N I A IH]; intros b B DA DB; [now left|].
  inversion B as [c' bs' N' E1|c' bs' y b' N' J B' E1]; subst.
  - right. exact (ancestor_base _ _ _ _ _ N I A).
  - assert (bs' = bs) as -> by congruence. apply IH; auto. apply nth_bases_inv in N. destruct N as (k & N & EB). subst bs.
    assert (DX := data_inherited _ _ _ LO A DA). assert (DY := data_inherited _ _ _ LO B' DB). unfold has_data in DX, DY.
    destruct (nth_error w x) as [kx|] eqn:NX; [|discriminate]. destruct (nth_error w y) as [ky|] eqn:NY; [|discriminate].
    assert (x = y) as ->; [|exact B']. apply (SI c k x y kx ky); auto; intros E; [rewrite E in DX|rewrite E in DY]; discriminate.
Qed.

(** ** Types *)

Lemma same_type_right : forall a b, same_type a b = true <-> a = b.
Proof.
  intros a b. split.
  - destruct a, b; cbn [same_type]; intros H; try discriminate; try reflexivity; try (apply Nat.eqb_eq in H; congruence).
    apply andb_true_iff in H. destruct H as (H1 & H2). apply Nat.eqb_eq in H1, H2. congruence.
  - intros <-. destruct a; cbn; rewrite ?Nat.eqb_refl; reflexivity.
Qed.
Lemma subtype_right : forall w a b, sound w -> subtype w a b = true <-> inherits w a b.
Proof.
  intros w a b S. destruct a, b; cbn; try (now split); try (rewrite Nat.eqb_eq; tauto); try now apply subclass_ancestor.
  rewrite andb_true_iff, !Nat.eqb_eq. tauto.
Qed.
Lemma inherits_trans : forall w a b c, inherits w a b -> inherits w b c -> inherits w a c.
Proof.
  intros w a b c H G. destruct a, b, c; cbn in *; try tauto; try (subst; tauto); try (eapply ancestor_transitive; eauto).
  destruct H. congruence.
Qed.
Lemma inherits_self : forall w a, exists_type w a -> inherits w a a.
Proof.
  intros w [| |c|k|k i] E; cbn in *; auto. destruct (nth_error w c) as [k|] eqn:N; [|apply nth_error_None in N; lia].
  econstructor. apply nth_bases. exact N.
Qed.
Lemma ask_right : forall w a b, sound w -> exists_type w b -> ask w a b = true <-> inherits w a b.
Proof.
  intros w a b S E. unfold ask. destruct (same_type a b) eqn:H; [|now apply subtype_right].
  apply same_type_right in H. subst b. split; [intros _; now apply inherits_self|reflexivity].
Qed.
Lemma inherits_grown : forall w w' a b, grown w w' -> sound w -> sound w' -> exists_type w a -> inherits w' a b <-> inherits w a b.
Proof.
  intros w w' a b G S S' E. destruct a, b; cbn in *; try tauto. rewrite <- !mro_ancestor by assumption.
  now rewrite (mro_grown w w' _ G E).
Qed.
Lemma exists_grown : forall w w' t, grown w w' -> exists_type w t -> exists_type w' t.
Proof. intros w w' t G E. destruct t; cbn in *; auto. apply grown_length in G. lia. Qed.

Lemma ignored_right : forall n, ignored n = true ->
  In n ("__qualname__" :: "__name__" :: "__module__" :: "__typed_python_template__" :: "__classcell__" :: nil)%string.
Proof.
  intros n H. unfold ignored in H. apply existsb_exists in H. destruct H as (x & I & E). apply String.eqb_eq in E. now subst x.
Qed.

Lemma no_conflict : forall w c d, members_agree w (TClass c) (TClass d) -> conflict (class_members w c) (class_members w d) = true ->
  exists n, ignored n = false /\ In n ("__qualname__" :: "__name__" :: "__module__" :: "__typed_python_template__" :: "__classcell__" :: nil)%string.
Proof.
  intros w c d A H. unfold conflict in H. apply existsb_exists in H. destruct H as (e & I & H).
  destruct (lookup (class_members w c) (fst e)) as [x|] eqn:LX; [|discriminate].
  destruct (lookup (class_members w d) (fst e)) as [y|] eqn:LY; [|discriminate].
  apply andb_true_iff in H. destruct H as (H1 & H2). apply negb_true_iff in H1. apply negb_true_iff, Z.eqb_neq in H2.
  unfold class_members in LX, LY. destruct (nth_error w c) as [k|] eqn:NC; [|discriminate]. destruct (nth_error w d) as [l|] eqn:ND; [|discriminate].
  destruct (A k l (fst e) x y NC ND LX LY) as [->|J]; [congruence|]. exists (fst e). auto.
Qed.

Lemma agree_no_conflict : forall w c d, members_agree w (TClass c) (TClass d) -> conflict (class_members w c) (class_members w d) = false.
Proof.
  intros w c d A. destruct (conflict (class_members w c) (class_members w d)) eqn:H; [|reflexivity].
  destruct (no_conflict w c d A H) as (n & IG & I). exfalso. rewrite <- not_true_iff_false in IG. apply IG. unfold ignored. apply existsb_exists.
  exists n. split; [exact I|apply String.eqb_refl].
Qed.

(** What the compiler decides is right for all types that there are later. *)
Lemma could_be_right : forall w w' s t a, grown w w' -> sound w -> sound w' -> laid_out w' -> single w' -> exists_type w s -> exists_type w t ->
  members_agree w s t -> inherits w' a s ->
  match could_be w s t with
  | Yes => inherits w' a t
  | No => ~ inherits w' a t
  | Maybe => True
  end.
Proof.
  intros w w' s t a G S S' LO SI ES ET AG H.
  assert (CM : forall c d, (c < length w)%nat -> mem d (class_mro w c) = true <-> ancestor (bases_of w') c d).
  { intros c d L. rewrite <- (mro_grown w w' c G L). now apply mro_ancestor. }
  destruct s as [| |c|k|k i], t as [| |d|l|l j]; cbn [could_be is_a_class is_an_alternative negb same_type to_verdict subtype] in *; auto;
    try (destruct a; cbn in *; tauto).
  - destruct a as [| |x| |]; cbn [inherits] in H; try tauto. destruct (mem d (class_mro w c)) eqn:M1.
    + cbn [inherits]. apply CM in M1; [|exact ES]. eapply ancestor_transitive; eauto.
    + destruct (mem c (class_mro w d)) eqn:M2; [exact I|]. rewrite agree_no_conflict by exact AG.
      assert (X : forall A : Prop, mem d (class_mro w c) = true \/ mem c (class_mro w d) = true -> A) by (intros A [Q|Q]; congruence).
      destruct (class_final w c || class_final w d) eqn:F.
      { cbn [inherits]. intros B. apply orb_true_iff in F. destruct F as [F|F].
        - rewrite <- (final_grown w w' c G ES) in F. assert (x = c) by (eapply final_ancestor; eauto). subst x. apply X. left. now apply CM.
        - rewrite <- (final_grown w w' d G ET) in F. assert (x = d) by (eapply final_ancestor; eauto). subst x. apply X. right. now apply CM. }
      destruct (has_data w c && has_data w d) eqn:D; [|exact I]. cbn [inherits]. intros B. apply andb_true_iff in D. destruct D as (D1 & D2).
      rewrite <- (data_grown w w' c G ES) in D1. rewrite <- (data_grown w w' d G ET) in D2.
      apply X. destruct (data_chain w' S' LO SI x c d H B D1 D2) as [Q|Q]; [left|right]; now apply CM.
  - destruct (Nat.eqb_spec k l) as [->|N]; destruct a as [| |x| |]; cbn in *; try tauto; congruence.
  - destruct (Nat.eqb_spec l k) as [->|N]; [exact I|]. destruct a as [| |x|m|m p]; cbn in *; try tauto; try (intros (? & ?)); congruence.
  - destruct (Nat.eqb_spec k l) as [->|N]; cbn [to_verdict]; destruct a as [| |x|m|m p]; cbn in *; try tauto; destruct H; congruence.
  - destruct (Nat.eqb_spec k l) as [->|N]; cbn [andb to_verdict].
    + destruct (Nat.eqb_spec i j) as [->|N]; cbn [to_verdict]; [exact H|]. destruct a as [| |x|m|m p]; cbn in *; try tauto. destruct H; intros (? & ?); congruence.
    + destruct a as [| |x|m|m p]; cbn in *; try tauto. destruct H; intros (? & ?); congruence.
Qed.

Lemma known_right : forall w w' o t a, grown w w' -> sound w -> sound w' -> laid_out w' -> single w' ->
  exists_type w (operand_type o) -> exists_type w t -> members_agree w (operand_type o) t -> may_be w' o a ->
  compiled_issubclass w w' o (Known t) a t = true <-> inherits w' a t.
Proof.
  intros w w' o t a G S S' LO SI ES ET AG H. destruct o as [s|s]; cbn [operand_type may_be compiled_issubclass] in *.
  - subst a. rewrite (inherits_grown w w' s t G S S' ES). now apply subtype_right.
  - destruct (is_a_class s && negb (is_a_class t)) eqn:C.
    + split; [discriminate|]. intros B. apply andb_true_iff in C. destruct C as (C1 & C2). destruct s, t, a; cbn in *; try discriminate; tauto.
    + assert (R := could_be_right w w' s t a G S S' LO SI ES ET AG H). destruct (could_be w s t).
      * now split.
      * split; [discriminate|contradiction].
      * destruct (is_a_class t && match t with TClass d => class_final w d | _ => false end) eqn:F.
        -- apply andb_true_iff in F. destruct F as (_ & F). destruct t as [| |d| |]; try discriminate.
           rewrite same_type_right. split.
           ++ intros ->. apply inherits_self. now apply (exists_grown w w').
           ++ intros B. destruct a as [| |x| |]; cbn in B; try tauto. f_equal. rewrite <- (final_grown w w' d G ET) in F.
              eapply final_ancestor; eauto.
        -- apply ask_right; [exact S'|]. now apply (exists_grown w w').
Qed.

Lemma unknown_right : forall w w' s t a b, grown w w' -> sound w -> sound w' -> laid_out w' -> single w' ->
  exists_type w s -> exists_type w t -> exists_type w' b -> members_agree w s t -> inherits w' a s -> inherits w' b t ->
  compiled_issubclass w w' (SomeSubtype s) (SomeSubtype t) a b = true <-> inherits w' a b.
Proof.
  intros w w' s t a b G S S' LO SI ES ET EB AG H HB. cbn [compiled_issubclass].
  assert (R := could_be_right w w' s t a G S S' LO SI ES ET AG H).
  assert (Q : could_be w s t = No -> ~ inherits w' a b).
  { intros E B. rewrite E in R. apply R. eapply inherits_trans; eauto. }
  destruct (could_be w s t); [now apply ask_right| |now apply ask_right]. split; [discriminate|]. intros B. destruct (Q eq_refl B).
Qed.
