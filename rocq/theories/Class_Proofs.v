(** Proofs about programs that define classes.  Property C66. *)
From Verif Require Import Base Class_Model Class_Spec Class_Order_Proofs.
From Coq Require Import Arith PeanoNat ZifyBool ZifyNat.
Open Scope list_scope.

(** ** Python's order of a declared class *)

Lemma python_mro_induction : forall (D : list (list nat)) (P : nat -> list nat -> Prop),
  (forall c bs mros out, nth_error D c = Some bs -> Forall2 (python_mro D) bs mros -> Forall2 P bs mros ->
     c3_merge (mros ++ [bs]) out -> P c (c :: out)) ->
  forall c l, python_mro D c l -> P c l.
Proof.
  intros D P H. fix F 3. intros c l M. destruct M as [c bs mros out E B M].
  refine (H c bs mros out E B _ M). clear - F B. induction B as [|b m bs mros X B IH]; constructor; [exact (F b m X)|exact IH].
Qed.

Lemma nth_error_more : forall A (l m : list A) i x, nth_error l i = Some x -> nth_error (l ++ m) i = Some x.
Proof. intros A l m i x E. rewrite nth_error_app1; [exact E|]. apply nth_error_Some. congruence. Qed.

Lemma python_mro_more : forall D E c l, python_mro D c l -> python_mro (D ++ E) c l.
Proof.
  intros D E. apply python_mro_induction. intros c bs mros out N _ F M.
  econstructor; [apply nth_error_more; exact N|exact F|exact M].
Qed.

Lemma python_mro_deterministic : forall D c l, python_mro D c l -> forall l', python_mro D c l' -> l = l'.
Proof.
  intros D. apply (python_mro_induction D (fun c l => forall l', python_mro D c l' -> l = l')).
  intros c bs mros out N _ F M l' H. destruct H as [c bs' mros' out' N' F' M']. rewrite N in N'. injection N' as <-.
  assert (E : mros = mros').
  { clear - F F'. revert mros' F'. induction F as [|b m bs mros X F IH]; intros mros' F'; inversion F'; subst; [reflexivity|].
    f_equal; auto. }
  subst mros'. f_equal. eapply c3_deterministic; eauto.
Qed.

Lemma Forall2_left : forall A B (R : A -> B -> Prop) l m a, Forall2 R l m -> In a l -> exists b, In b m /\ R a b.
Proof.
  intros A B R l m a H. induction H as [|x y l m X H IH]; intros I; [destruct I|]. destruct I as [->|I].
  - exists y. split; [now left|exact X].
  - destruct (IH I) as (b & J & Y). exists b. split; [now right|exact Y].
Qed.
Lemma Forall2_right : forall A B (R : A -> B -> Prop) l m b, Forall2 R l m -> In b m -> exists a, In a l /\ R a b.
Proof.
  intros A B R l m b H. induction H as [|x y l m X H IH]; intros I; [destruct I|]. destruct I as [->|I].
  - exists x. split; [now left|exact X].
  - destruct (IH I) as (a & J & Y). exists a. split; [now right|exact Y].
Qed.

Lemma Forall2_weaken : forall A B (R Q : A -> B -> Prop) l m, (forall a b, R a b -> Q a b) -> Forall2 R l m -> Forall2 Q l m.
Proof. intros A B R Q l m H F. induction F; constructor; auto. Qed.

Lemma python_mro_ancestors : forall D c l, python_mro D c l -> forall a, In a l <-> ancestor D c a.
Proof.
  intros D. apply (python_mro_induction D (fun c l => forall a, In a l <-> ancestor D c a)).
  intros c bs mros out N F IH M a. destruct (c3_sound _ _ M) as (_ & I & _). split.
  - intros [<-|J]; [econstructor; exact N|]. apply I in J. destruct J as (l & L & J). apply in_app_or in L.
    destruct L as [L|[<-|[]]].
    + destruct (Forall2_right _ _ _ _ _ _ IH L) as (b & B & X). eapply ancestor_base; [exact N|exact B|]. now apply X.
    + eapply ancestor_base; [exact N|exact J|].
      destruct (Forall2_left _ _ _ _ _ _ F J) as (m & _ & X). destruct X. econstructor; eauto.
  - intros A. destruct A as [c bs' N'|c bs' b a N' B A]; [now left|]. right. apply I.
    rewrite N in N'. injection N' as <-. destruct (Forall2_left _ _ _ _ _ _ IH B) as (m & L & X).
    exists m. split; [apply in_or_app; now left|]. now apply X.
Qed.

Definition declared_before (D : list (list nat)) : Prop :=
  forall c bs, nth_error D c = Some bs -> Forall (fun b => (b < c)%nat) bs.

Lemma ancestor_le : forall D, declared_before D -> forall c a, ancestor D c a -> (a <= c)%nat.
Proof.
  intros D H c a A. induction A as [c bs N|c bs b a N B A IH]; [lia|].
  specialize (H _ _ N). rewrite Forall_forall in H. specialize (H _ B). lia.
Qed.

Lemma python_mro_facts : forall D, declared_before D -> forall c l, python_mro D c l ->
  exists bs mros out, nth_error D c = Some bs /\ Forall2 (python_mro D) bs mros /\ l = c :: out /\ NoDup l /\
    linearizes (mros ++ [bs]) out.
Proof.
  intros D H c l M. assert (A := python_mro_ancestors _ _ _ M). destruct M as [c bs mros out N F M].
  exists bs, mros, out. assert (S := c3_sound _ _ M). repeat split; try (now apply S); auto.
  constructor; [|apply S]. intros I. apply S in I. destruct I as (l & L & J). apply in_app_or in L.
  assert (B : exists b, In b bs /\ ancestor D b c).
  { destruct L as [L|[<-|[]]].
    - destruct (Forall2_right _ _ _ _ _ _ F L) as (b & B & X). exists b. split; [exact B|].
      now apply (python_mro_ancestors _ _ _ X).
    - exists c. split; [exact J|]. destruct (Forall2_left _ _ _ _ _ _ F J) as (m & _ & X). destruct X. econstructor; eauto. }
  destruct B as (b & B & AB). apply (ancestor_le D H) in AB. specialize (H _ _ N). rewrite Forall_forall in H.
  specialize (H _ B). lia.
Qed.

(** ** Definitions of classes *)

Definition sound (w : world) : Prop :=
  forall c k, nth_error w c = Some k -> python_mro (bases_of w) c (c_mro k) /\ Forall (fun b => (b < c)%nat) (c_bases k).

Lemma nth_bases : forall w c k, nth_error w c = Some k -> nth_error (bases_of w) c = Some (c_bases k).
Proof. intros w c k N. unfold bases_of. now apply map_nth_error. Qed.
Lemma nth_bases_inv : forall w c bs, nth_error (bases_of w) c = Some bs -> exists k, nth_error w c = Some k /\ c_bases k = bs.
Proof.
  unfold bases_of. induction w as [|k w IH]; intros [|c] bs N; cbn in *; try discriminate; [|eauto].
  injection N as <-. eauto.
Qed.

Lemma sound_before : forall w, sound w -> declared_before (bases_of w).
Proof. intros w S c bs N. apply nth_bases_inv in N. destruct N as (k & N & <-). now apply (S c k). Qed.

Lemma get_bases_right : forall w bs,
  match get_bases w bs with
  | Ok ks => Forall2 (fun c k => nth_error w c = Some k) bs ks
  | Err e => e = TypeError /\ exists c, In c bs /\ nth_error w c = None
  end.
Proof.
  intros w. induction bs as [|c bs IH]; cbn [get_bases]; [constructor|].
  destruct (nth_error w c) as [k|] eqn:N.
  - destruct (get_bases w bs) as [ks|e]; cbn [bind]; [now constructor|].
    destruct IH as (-> & d & I & X). split; [reflexivity|]. exists d. split; [now right|exact X].
  - split; [reflexivity|]. exists c. split; [now left|exact N].
Qed.

Lemma add_members_right : forall own ms,
  match add_members ms own with
  | Ok all => all = ms ++ own /\ NoDup (map m_name own) /\
              (forall m x, In m ms -> In x own -> m_name m <> m_name x)
  | Err e => e = TypeError /\
             ~ (NoDup (map m_name own) /\ forall m x, In m ms -> In x own -> m_name m <> m_name x)
  end.
Proof.
  induction own as [|m own IH]; intros ms; cbn [add_members].
  - split; [now rewrite app_nil_r|]. split; [constructor|]. intros ? ? ? [].
  - destruct (existsb (fun x => String.eqb (m_name x) (m_name m)) ms) eqn:X.
    + split; [reflexivity|]. intros (_ & D). apply existsb_exists in X. destruct X as (x & I & E).
      apply String.eqb_eq in E. exact (D x m I (or_introl eq_refl) E).
    + assert (Fresh : forall x, In x ms -> m_name x <> m_name m).
      { intros x I E. assert (Y : existsb (fun x => String.eqb (m_name x) (m_name m)) ms = true); [|congruence].
        apply existsb_exists. exists x. split; [exact I|]. now apply String.eqb_eq. }
      specialize (IH (ms ++ [m])). destruct (add_members (ms ++ [m]) own) as [all|e].
      * destruct IH as (-> & N & D). split; [now rewrite <- app_assoc|]. cbn [map]. split.
        -- constructor; [|exact N]. intros I. apply in_map_iff in I. destruct I as (x & E & I).
           apply (D m x); [apply in_or_app; right; now left|exact I|now symmetry].
        -- intros a x I [<-|J]; [now apply Fresh|]. apply D; [apply in_or_app; now left|exact J].
      * destruct IH as (-> & NO). split; [reflexivity|]. intros (N & D). cbn [map] in N. inversion N as [|? ? N1 N2]; subst.
        apply NO. split; [exact N2|]. intros a x I J. apply in_app_or in I. destruct I as [I|[<-|[]]].
        -- apply D; [exact I|now right].
        -- intros E. apply N1. rewrite E. now apply in_map.
Qed.

Definition membered (k : cls) : bool := match c_members k with nil => false | _ => true end.
Lemma membered_right : forall k, membered k = true <-> has_members k.
Proof. intros k. unfold membered, has_members. destruct (c_members k); split; congruence. Qed.

Lemma filter_none : forall A (p : A -> bool) l, filter p l = nil -> forall x, In x l -> p x = false.
Proof.
  intros A p l E x I. destruct (p x) eqn:P; [|reflexivity]. assert (J : In x (filter p l)) by now apply filter_In.
  rewrite E in J. destruct J.
Qed.

Lemma inherited_in : forall ks start,
  (forall k, In k ks -> membered k = false) -> 
  fold_left (fun ms b => match c_members b with nil => ms | _ => c_members b end) ks start = start.
Proof.
  induction ks as [|k ks IH]; intros start H; [reflexivity|]. cbn [fold_left].
  assert (M := H k (or_introl eq_refl)). unfold membered in M. destruct (c_members k); [|discriminate].
  apply IH. intros x I. apply H. now right.
Qed.

Lemma inherited_members_right : forall ks, (List.length (filter membered ks) <= 1)%nat ->
  (inherited_members ks = nil /\ forall k, In k ks -> c_members k = nil) \/
  (exists k, In k ks /\ c_members k = inherited_members ks /\ has_members k /\
     forall x, In x ks -> has_members x -> c_members x = inherited_members ks).
Proof.
  unfold inherited_members. intros ks.
  assert (H : forall ks start, (List.length (filter membered ks) <= 1)%nat ->
    (fold_left (fun ms b => match c_members b with nil => ms | _ => c_members b end) ks start = start /\
       forall k, In k ks -> c_members k = nil) \/
    (exists k, In k ks /\ c_members k = fold_left (fun ms b => match c_members b with nil => ms | _ => c_members b end) ks start
       /\ has_members k /\
       forall x, In x ks -> has_members x ->
         c_members x = fold_left (fun ms b => match c_members b with nil => ms | _ => c_members b end) ks start)).
  { clear ks. induction ks as [|k ks IH]; intros start L.
    - left. split; [reflexivity|]. intros k [].
    - cbn [fold_left filter] in *. destruct (c_members k) as [|m ms] eqn:M.
      + assert (E : membered k = false) by (unfold membered; now rewrite M). rewrite E in L.
        destruct (IH start L) as [(F & A)|(x & I & F & P & A)].
        * left. split; [exact F|]. intros x [<-|I]; auto.
        * right. exists x. split; [now right|]. split; [exact F|]. split; [exact P|].
          intros y [<-|J] Y; [unfold has_members in Y; congruence|auto].
      + assert (E : membered k = true) by (unfold membered; now rewrite M). rewrite E in L. cbn [List.length] in L.
        assert (Z : filter membered ks = nil) by (destruct (filter membered ks); [reflexivity|cbn in L; lia]).
        rewrite inherited_in; [|now apply filter_none].
        right. exists k. split; [now left|]. split; [exact M|]. split; [unfold has_members; congruence|].
        intros y [<-|J] Y; [exact M|]. exfalso. apply membered_right in Y. rewrite (filter_none _ _ _ Z y J) in Y. discriminate. }
  intros L. destruct (H ks nil L) as [A|B]; [left; exact A|right; exact B].
Qed.

(** At most one base with members. *)
Lemma one_base : forall w bs ks, NoDup bs -> Forall2 (fun c k => nth_error w c = Some k) bs ks ->
  ((List.length (filter membered ks) <= 1)%nat <->
   forall c d k l, In c bs -> In d bs -> nth_error w c = Some k -> nth_error w d = Some l ->
     has_members k -> has_members l -> c = d).
Proof.
  intros w bs ks N F. induction F as [|b k0 bs ks E F IH].
  - split; [intros _ ? ? ? ? []|cbn; lia].
  - inversion N as [|? ? N1 N2]; subst. specialize (IH N2). cbn [filter].
    destruct (membered k0) eqn:M; cbn [List.length].
    + split.
      * intros L. assert (Z : filter membered ks = nil) by (destruct (filter membered ks); [reflexivity|cbn in L; lia]).
        assert (Q : forall c k, In c bs -> nth_error w c = Some k -> ~ has_members k).
        { intros c k I X P. apply membered_right in P. destruct (Forall2_left _ _ _ _ _ _ F I) as (k' & J & X').
          rewrite X in X'. injection X' as <-. rewrite (filter_none _ _ _ Z k J) in P. discriminate. }
        intros c d k l [<-|I] [<-|J] X Y P R; [reflexivity| | |]; exfalso; eapply Q; eauto.
      * intros H. destruct (filter membered ks) as [|k1 r] eqn:Z; [cbn; lia|]. exfalso.
        assert (I : In k1 (filter membered ks)) by (rewrite Z; now left). apply filter_In in I. destruct I as (I & P).
        destruct (Forall2_right _ _ _ _ _ _ F I) as (d & J & Y). apply N1.
        rewrite (H b d k0 k1 (or_introl eq_refl) (or_intror J) E Y); [exact J| |]; now apply membered_right.
    + rewrite IH. split.
      * intros H c d k l [<-|I] [<-|J] X Y P R; [reflexivity| | |eauto].
        -- rewrite E in X. injection X as <-. apply membered_right in P. congruence.
        -- rewrite E in Y. injection Y as <-. apply membered_right in R. congruence.
      * intros H c d k l I J. apply H; now right.
Qed.

Lemma mros_of_bases : forall w bs ks, sound w -> Forall2 (fun c k => nth_error w c = Some k) bs ks ->
  Forall2 (python_mro (bases_of w)) bs (map c_mro ks).
Proof. intros w bs ks S F. induction F as [|c k bs ks E F IH]; cbn; constructor; [now apply (S c k)|exact IH]. Qed.

Lemma nodup_mros : forall D bs mros, declared_before D -> Forall2 (python_mro D) bs mros -> Forall (@NoDup nat) mros.
Proof.
  intros D bs mros H F. induction F as [|c m bs mros X F IH]; constructor; [|exact IH].
  destruct (python_mro_facts D H c m X) as (? & ? & ? & _ & _ & _ & N & _). exact N.
Qed.

Lemma bases_app : forall w k, bases_of (w ++ [k]) = bases_of w ++ [c_bases k].
Proof. intros w k. unfold bases_of. now rewrite map_app. Qed.

Lemma new_class_mro : forall w bs mros l, Forall2 (python_mro (bases_of w)) bs mros ->
  (python_mro (bases_of w ++ [bs]) (List.length w) l <-> exists out, l = List.length w :: out /\ c3_merge (mros ++ [bs]) out).
Proof.
  intros w bs mros l F.
  assert (NT : nth_error (bases_of w ++ [bs]) (List.length w) = Some bs).
  { rewrite nth_error_app2; unfold bases_of; rewrite map_length; [|lia]. now rewrite Nat.sub_diag. }
  assert (F' : Forall2 (python_mro (bases_of w ++ [bs])) bs mros).
  { eapply Forall2_weaken; [|exact F]. intros c m. apply python_mro_more. }
  split.
  - intros M. remember (List.length w) as c eqn:E. destruct M as [c bs' mros' out N M' M]. subst c.
    rewrite NT in N. injection N as <-. exists out. split; [reflexivity|].
    assert (X : mros = mros').
    { clear - F' M'. revert F' M'. generalize (bases_of w ++ [bs]) as D. intros D F' M'. revert mros' M'. induction F' as [|c m l mros X F' IH]; intros mros' M'; inversion M'; subst; [reflexivity|].
      f_equal; [eapply python_mro_deterministic; eauto|auto]. }
    now subst mros'.
  - intros (out & -> & M). econstructor; eauto.
Qed.

Lemma redefines_right : forall k b, redefines k b = false <-> redefines_nothing k b.
Proof.
  intros k b. unfold redefines, redefines_nothing. rewrite <- Bool.not_true_iff_false, existsb_exists. split.
  - intros H n new old I L. destruct (Z.eq_dec old new) as [<-|NE]; [now left|]. right.
    destruct (free_to_redefine n) eqn:E.
    + unfold free_to_redefine in E. apply existsb_exists in E. destruct E as (x & J & E). apply String.eqb_eq in E. now subst x.
    + exfalso. apply H. exists (n, new). split; [exact I|]. cbn [fst snd]. rewrite L, E.
      apply Z.eqb_neq in NE. now rewrite NE.
  - intros H ((n & new) & I & E). cbn [fst snd] in E. destruct (lookup (b_classmembers (c_body k)) n) as [old|] eqn:L; [|discriminate].
    apply andb_prop in E. destruct E as (E1 & E2). destruct (H n new old I L) as [-> | J].
    + now rewrite Z.eqb_refl in E1.
    + assert (X : free_to_redefine n = true); [|now rewrite X in E2].
      unfold free_to_redefine. apply existsb_exists. exists n. split; [exact J|apply String.eqb_refl].
Qed.

(** When a definition is accepted, and what it adds. *)
Lemma make_right : forall w bs b, sound w -> NoDup bs ->
  match make w bs b with
  | Ok w' => allowed w bs b /\ exists k, w' = w ++ [k] /\ c_bases k = bs /\ c_body k = b /\
               python_mro (bases_of w ++ [bs]) (List.length w) (c_mro k) /\
               c_members k = inherited_members (flat_map (fun c => match nth_error w c with Some x => [x] | None => nil end) bs)
                               ++ b_members b
  | Err e => e = TypeError /\ ~ (allowed w bs b /\ exists l, python_mro (bases_of w ++ [bs]) (List.length w) l)
  end.
Proof.
  intros w bs b S N. unfold make. assert (G := get_bases_right w bs). destruct (get_bases w bs) as [ks|e]; cbn [bind].
  2:{ destruct G as (-> & c & I & X). split; [reflexivity|]. intros ((A & _) & _). destruct (A _ I) as (k & Y & _). congruence. }
  assert (EK : flat_map (fun c => match nth_error w c with Some x => [x] | None => nil end) bs = ks).
  { clear - G. induction G as [|c k bs ks E G IH]; [reflexivity|]. cbn [flat_map]. rewrite E. cbn. now f_equal. }
  destruct (existsb (fun k => b_final (c_body k) || redefines k b) ks) eqn:X1.
  { split; [reflexivity|]. intros ((A & _) & _). apply existsb_exists in X1. destruct X1 as (k & I & E).
    destruct (Forall2_right _ _ _ _ _ _ G I) as (c & J & Y). destruct (A _ J) as (k' & Y' & F1 & F2).
    rewrite Y in Y'. injection Y' as <-. apply redefines_right in F2. rewrite F1, F2 in E. discriminate. }
  assert (A1 : forall c, In c bs -> exists k, nth_error w c = Some k /\ b_final (c_body k) = false /\ redefines_nothing k b).
  { intros c I. destruct (Forall2_left _ _ _ _ _ _ G I) as (k & J & Y). exists k. split; [exact Y|].
    assert (Z : b_final (c_body k) || redefines k b = false).
    { destruct (b_final (c_body k) || redefines k b) eqn:Z; [|reflexivity].
      assert (existsb (fun k => b_final (c_body k) || redefines k b) ks = true); [|congruence].
      apply existsb_exists. eauto. }
    apply orb_false_iff in Z. destruct Z as (Z1 & Z2). split; [exact Z1|]. now apply redefines_right. }
  change (fun k => match c_members k with nil => false | _ => true end) with membered.
  assert (OB := one_base w bs ks N G).
  destruct (Nat.ltb 1 (List.length (filter membered ks))) eqn:X2.
  { split; [reflexivity|]. intros ((_ & A & _) & _). apply Nat.ltb_lt in X2. apply OB in A. lia. }
  apply Nat.ltb_ge in X2. assert (A2 := proj1 OB X2).
  assert (FM := mros_of_bases w bs ks S G).
  assert (C := compute_mro_right (List.length w) (map c_mro ks) bs (nodup_mros _ _ _ (sound_before w S) FM) N).
  destruct (compute_mro (List.length w) (map c_mro ks) bs) as [mro|e]; cbn [bind].
  2:{ destruct C as (-> & NO). split; [reflexivity|]. intros (_ & l & M). apply (new_class_mro w bs _ l FM) in M.
      destruct M as (out & _ & M). exact (NO _ M). }
  assert (PM : python_mro (bases_of w ++ [bs]) (List.length w) mro) by (apply (new_class_mro w bs _ mro FM); exact C).
  assert (AM := add_members_right (b_members b) (inherited_members ks)).
  assert (IM := inherited_members_right ks X2).
  assert (EQ : (forall m x, In m (inherited_members ks) -> In x (b_members b) -> m_name m <> m_name x) <->
    (forall c k m x, In c bs -> nth_error w c = Some k -> In m (c_members k) -> In x (b_members b) -> m_name m <> m_name x)).
  { split.
    - intros H c k m x I Y J. destruct (Forall2_left _ _ _ _ _ _ G I) as (k' & K & Y'). rewrite Y in Y'. injection Y' as <-.
      destruct IM as [(_ & Z)|(k0 & I0 & E0 & P0 & U)].
      + rewrite (Z k K) in J. destruct J.
      + assert (P : has_members k) by (unfold has_members; intros Z; rewrite Z in J; destruct J).
        rewrite (U k K P) in J. now apply H.
    - intros H m x J. destruct IM as [(Z & _)|(k0 & I0 & E0 & P0 & U)].
      + rewrite Z in J. destruct J.
      + destruct (Forall2_right _ _ _ _ _ _ G I0) as (c & I & Y). rewrite <- E0 in J. eapply H; eauto. }
  destruct (add_members (inherited_members ks) (b_members b)) as [ms|e]; cbn [bind].
  - destruct AM as (-> & ND & DJ). split.
    + split; [exact A1|]. split; [exact A2|]. split; [exact ND|]. now apply EQ.
    + eexists. split; [reflexivity|]. cbn [c_bases c_body c_mro c_members]. rewrite EK. auto.
  - destruct AM as (-> & NO). split; [reflexivity|]. intros ((_ & _ & ND & DJ) & _). apply NO. split; [exact ND|]. now apply EQ.
Qed.

Lemma python_mro_defined : forall D c l, python_mro D c l -> exists bs, nth_error D c = Some bs.
Proof. intros D c l H. destruct H. eauto. Qed.

Lemma sound_step : forall w bs b w', sound w -> NoDup bs -> make w bs b = Ok w' -> sound w'.
Proof.
  intros w bs b w' S N E. assert (M := make_right w bs b S N). rewrite E in M.
  destruct M as ((A & _) & k & -> & EB & _ & PM & _). intros c k' Y. rewrite bases_app, EB.
  destruct (Nat.lt_ge_cases c (List.length w)) as [L|L].
  - rewrite nth_error_app1 in Y by exact L. destruct (S c k' Y) as (P & F). split; [now apply python_mro_more|exact F].
  - rewrite nth_error_app2 in Y by exact L. destruct (c - List.length w)%nat as [|i] eqn:Z; [|destruct i; discriminate].
    cbn in Y. injection Y as <-. assert (c = List.length w) as -> by lia. split; [exact PM|].
    rewrite EB. apply Forall_forall. intros x I. destruct (A x I) as (kx & X & _).
    assert (nth_error w x <> None) by congruence. now apply nth_error_Some.
Qed.

Lemma merge_again_nth : forall w c d k, nth_error (merge_again w c) d = Some k ->
  exists k', nth_error w d = Some k' /\ c_bases k = c_bases k' /\ c_body k = c_body k' /\ c_mro k = c_mro k' /\
    c_members k = c_members k'.
Proof.
  intros w c d k. unfold merge_again. destruct (nth_error w c) as [k0|] eqn:N; [|eauto 10].
  assert (L : List.length (firstn c w) = c).
  { apply firstn_length_le. assert (nth_error w c <> None) by congruence. apply nth_error_Some in H. lia. }
  intros E. destruct (Nat.lt_trichotomy d c) as [X|[->|X]].
  - rewrite nth_error_app1 in E by lia. exists k. split; [|auto]. rewrite <- (firstn_skipn c w).
    rewrite nth_error_app1 by lia. exact E.
  - rewrite nth_error_app2 in E by lia. rewrite L, Nat.sub_diag in E. cbn in E. injection E as <-. exists k0. auto.
  - rewrite nth_error_app2 in E by lia. rewrite L in E. destruct (d - c)%nat as [|j] eqn:J; [lia|]. cbn in E.
    exists k. split; [|auto]. rewrite <- (firstn_skipn (S c) w).
    assert (L2 : List.length (firstn (S c) w) = S c).
    { apply firstn_length_le. assert (nth_error w c <> None) by congruence. apply nth_error_Some in H. lia. }
    rewrite nth_error_app2 by lia. rewrite L2. replace (d - S c)%nat with j by lia. exact E.
Qed.

Lemma merge_again_length : forall w c, List.length (merge_again w c) = List.length w.
Proof.
  intros w c. unfold merge_again. destruct (nth_error w c) as [k0|] eqn:N; [|reflexivity].
  assert (nth_error w c <> None) by congruence. apply nth_error_Some in H. rewrite app_length. cbn [List.length].
  rewrite firstn_length, skipn_length. lia.
Qed.

Lemma nth_error_ext : forall A (l m : list A), (forall i, nth_error l i = nth_error m i) -> l = m.
Proof.
  induction l as [|x l IH]; intros [|y m] H; [reflexivity|specialize (H O); discriminate|specialize (H O); discriminate|].
  f_equal; [specialize (H O); cbn in H; congruence|]. apply IH. intros i. exact (H (S i)).
Qed.

Lemma merge_again_map : forall A (f : cls -> A) w c,
  (forall k k', c_bases k = c_bases k' -> c_body k = c_body k' -> c_mro k = c_mro k' -> c_members k = c_members k' -> f k = f k') ->
  map f (merge_again w c) = map f w.
Proof.
  intros A f w c H. apply nth_error_ext. intros i. destruct (nth_error (merge_again w c) i) as [k|] eqn:E.
  - rewrite (map_nth_error f _ _ E). destruct (merge_again_nth _ _ _ _ E) as (k' & N & E1 & E2 & E3 & E4).
    rewrite (map_nth_error f _ _ N). f_equal. now apply H.
  - assert (X : (List.length w <= i)%nat) by (apply nth_error_None in E; rewrite merge_again_length in E; exact E).
    assert (Y : nth_error (map f w) i = None) by (apply nth_error_None; now rewrite map_length).
    rewrite Y. apply nth_error_None. rewrite map_length, merge_again_length. exact X.
Qed.

Lemma merge_again_bases : forall w c, bases_of (merge_again w c) = bases_of w.
Proof. intros w c. apply merge_again_map. auto. Qed.

Lemma sound_again : forall w c, sound w -> sound (merge_again w c).
Proof.
  intros w c S d k N. destruct (merge_again_nth _ _ _ _ N) as (k' & N' & -> & _ & -> & _). rewrite merge_again_bases.
  exact (S d k' N').
Qed.

Lemma happen_sound : forall es w, no_base_twice es -> sound w -> sound (fold_left happen es w).
Proof.
  induction es as [|e es IH]; intros w F S; [exact S|]. cbn [fold_left]. apply IH.
  - intros bs b I. apply (F bs b). now right.
  - destruct e as [bs b|c]; cbn [happen]; [|now apply sound_again].
    destruct (make w bs b) as [w'|e] eqn:E; [|exact S]. eapply sound_step; [exact S|eapply F; now left|exact E].
Qed.

Lemma history_sound : forall es, no_base_twice es -> sound (history es).
Proof. intros es F. apply happen_sound; [exact F|]. intros [|c] k E; discriminate. Qed.

(** ** Indices *)

Lemma index_map_right : forall order i t, NoDup order -> (forall e, In e t -> ~ In (fst e) order) -> forall a,
  find_index (fold_left (fun t e => (snd e, fst e) :: t) (combine (seq i (List.length order)) order) t) a =
  match find_index t a with
  | Some j => Some j
  | None => match find (fun x => Nat.eqb (snd x) a) (combine (seq i (List.length order)) order) with
            | Some e => Some (fst e)
            | None => None
            end
  end.
Proof.
  induction order as [|c order IH]; intros i t N D a; cbn [List.length seq combine fold_left find].
  - now destruct (find_index t a).
  - inversion N as [|? ? N1 N2]; subst. rewrite IH; [|exact N2|].
    2:{ intros e [<-|I]; cbn; [exact N1|]. intros J. exact (D e I (or_intror J)). }
    cbn [fst snd find_index]. destruct (Nat.eqb_spec c a) as [->|X]; [|reflexivity].
    destruct (find_index t a) as [j|] eqn:E; [|reflexivity]. exfalso.
    assert (Z : exists e, In e t /\ fst e = a).
    { clear - E. induction t as [|(k, i) t IH]; cbn in E; [discriminate|]. destruct (Nat.eqb_spec k a) as [->|].
      - exists (a, i). split; [now left|reflexivity].
      - destruct (IH E) as (e & I & F). exists e. split; [now right|exact F]. }
    destruct Z as (e & I & <-). exact (D e I (or_introl eq_refl)).
Qed.

Lemma find_combine : forall order k a i, NoDup order ->
  (match find (fun x => Nat.eqb (snd x) a) (combine (seq k (List.length order)) order) with
   | Some e => Some (fst e) | None => None end = Some i <-> (k <= i)%nat /\ nth_error order (i - k) = Some a).
Proof.
  induction order as [|c order IH]; intros k a i N; cbn [List.length seq combine find].
  - split; [discriminate|]. intros (_ & E). destruct (i - k)%nat; discriminate.
  - inversion N as [|? ? N1 N2]; subst. cbn [fst snd]. destruct (Nat.eqb_spec c a) as [->|X].
    + split.
      * intros E. injection E as <-. split; [lia|]. now rewrite Nat.sub_diag.
      * intros (L & E). destruct (i - k)%nat as [|j] eqn:J; [cbn [fst]; f_equal; lia|]. cbn in E. exfalso. apply N1. eapply nth_error_In; eauto.
    + rewrite IH by exact N2. split.
      * intros (L & E). split; [lia|]. replace (i - k)%nat with (S (i - S k)) by lia. exact E.
      * intros (L & E). destruct (i - k)%nat as [|j] eqn:J; [cbn in E; congruence|]. cbn in E. split; [lia|].
        now replace (i - S k)%nat with j by lia.
Qed.

Lemma mro_index_right : forall order a i, NoDup order ->
  find_index (index_map order) a = Some i <-> nth_error order i = Some a.
Proof.
  intros order a i N. unfold index_map. rewrite index_map_right; [|exact N|intros e []]. cbn [find_index].
  rewrite find_combine by exact N. rewrite Nat.sub_0_r. split; [tauto|]. intros E. split; [lia|exact E].
Qed.
