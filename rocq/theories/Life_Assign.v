(** Proofs that assignments keep the counts. *)
From Coq Require Import ZifyBool ZifyNat.
From Verif Require Import Base Life_Model Life_Spec Life_Proofs Life_Memory.
Open Scope Z_scope.
Open Scope list_scope.
Open Scope result_scope.

Local Arguments tm : simpl never.
Local Arguments Z.add : simpl never.

Lemma zero_nonneg a : 0 <= zero a.
Proof. unfold zero. lia. Qed.

Lemma tm_plain a x : tm a (Plain x) = 0.
Proof. reflexivity. Qed.

Lemma tm_tag a x : tm a (Tag x) = 0.
Proof. reflexivity. Qed.

Lemma read_proper m E p v : good m E -> read m p = Ok v -> proper v = true.
Proof. intros G R. apply read_ok in R as (u & H & S). eapply proper_sub; [| eassumption]. eapply g_proper; eassumption. Qed.

Lemma read_found m E p v a : good m E -> (forall a, 0 <= E a) -> read m p = Ok v -> 0 < tm a v -> find (objects m) a <> None.
Proof.
  intros G N R T. apply read_ok in R as (u & H & S). pose proof (tm_sub a _ _ _ S).
  destruct (good_found m E (root p) u a G N H) as (n & F); [| congruence]. apply times_In. fold (tm a u). lia.
Qed.

Lemma write_found m p x m' a : write m p x = Ok m' -> find (objects m) a <> None -> find (objects m') a <> None.
Proof.
  intros H F. apply write_inv in H as (v & w & H & S & ->). pose proof (find_store m (root p) (put v (path p) x) a) as G.
  destruct (find (objects m) a); [| congruence]. destruct (find (objects (store m (root p) (put v (path p) x))) a); discriminate.
Qed.

Lemma changed_refl m p v : read m p = Ok v -> changed m m p v.
Proof.
  intros R. apply read_ok in R as (u & H & S). exists m. split; [| auto]. rewrite (write_ok _ _ _ _ v H S), (put_same _ _ _ S). f_equal.
  destruct (root p) as [x | s].
  - apply whole_var in H. cbn. rewrite replace_same by assumption. destruct m; reflexivity.
  - apply whole_at in H as (n & F & <-). unfold store. rewrite F, set_found; [destruct m; reflexivity |]. rewrite F. destruct n; reflexivity.
Qed.

Lemma changed_alike m m2 m3 p x : changed m m2 p x -> alike m2 m3 -> changed m m3 p x.
Proof.
  intros (w & H & V & A) AL. exists w. split; [assumption |]. split; [destruct AL; congruence |].
  intros a v Q. rewrite (alike_whole _ _ _ AL) in Q. auto.
Qed.

Lemma safe_apart m self other : safe m self other ->
  root other <> root self \/ root other = root self /\ diverge (path self) (path other).
Proof. intros [_ [[D _] | D]]; auto. Qed.

(** The new value is stored before the old one is destroyed. *)
Lemma swap_early c m self other old new : good m zero -> safe m self other -> read m self = Ok old -> read m other = Ok new ->
  exists m1 m2 m3, write m self new = Ok m1 /\ copies m1 new = Ok m2 /\ destroys c m2 old = Ok m3 /\ good m3 zero /\ changed m m3 self new.
Proof.
  intros G S R1 R2. pose proof (read_proper _ _ _ _ G R1) as P1. pose proof (read_proper _ _ _ _ G R2) as P2.
  destruct (good_write _ _ _ _ new G R1 P2) as (m1 & W1 & G1).
  destruct (copies_good m1 _ new G1 P2) as (m2 & C2 & G2 & A2).
  { intros a T. eapply write_found; [eassumption |]. eapply read_found; [exact G | apply zero_nonneg | exact R2 | exact T]. }
  destruct (destroys_good c m2 zero old) as (m3 & D3 & G3 & V3 & B3).
  - revert G2. apply good_ext. intros a. unfold zero. lia.
  - apply zero_nonneg.
  - assumption.
  - exists m1, m2, m3. repeat (split; [assumption |]). destruct A2 as [A2 B2].
    exists m1. split; [assumption |]. split; [congruence |]. intros a v Q. apply B3 in Q. rewrite B2 in Q. assumption.
Qed.

(** The new value is stored after the old one was destroyed. *)
Lemma swap_late c m self other old new : good m zero -> safe m self other -> read m self = Ok old -> read m other = Ok new ->
  exists m1 m2 m3, copies m new = Ok m1 /\ destroys c m1 old = Ok m2 /\ read m2 other = Ok new /\ write m2 self new = Ok m3 /\
    good m3 zero /\ changed m m3 self new.
Proof.
  intros G S R1 R2. pose proof (read_proper _ _ _ _ G R1) as P1. pose proof (read_proper _ _ _ _ G R2) as P2.
  destruct (copies_good m _ new G P2) as (m1 & C1 & G1 & A1).
  { intros a T. eapply read_found; [exact G | apply zero_nonneg | exact R2 | exact T]. }
  pose proof (alike_safe _ _ _ _ A1 S) as S1.
  assert (N1 : forall a, 0 <= zero a + tm a new) by (intros a; unfold zero; pose proof (tm_nonneg a new); lia).
  destruct (release c m1 _ self old (Plain 0) old G1 N1) as (m2 & g & D2 & R2' & W2 & CG & GG).
  - rewrite (alike_read _ _ _ A1). assumption.
  - reflexivity.
  - cbn [size]. apply size_pos.
  - intros a. rewrite tm_plain. lia.
  - assumption.
  - apply S1.
  - assert (RO : read m2 other = Ok new).
    { rewrite <- (read_write_apart _ _ other _ _ W2 (safe_apart _ _ _ S)).
      eapply changed_other; [exact S1 | rewrite (alike_read _ _ _ A1); exact R2 | exact CG | exact GG | exact N1]. }
    destruct (good_write _ _ _ _ new GG (read_write_same _ _ _ _ W2) P2) as (m3 & W3 & G3).
    rewrite (write_write _ _ _ _ new W2) in W3.
    exists m1, m2, m3. repeat (split; [assumption |]). split.
    + revert G3. apply good_ext. intros a. rewrite tm_plain. unfold zero. lia.
    + eapply alike_changed; [eassumption |]. eapply changed_trans; [exact CG |]. apply write_changed.
      rewrite (write_write _ _ _ _ new W2). assumption.
Qed.

(** ** Loops *)

Lemma down_loop f (Q : nat -> mem -> Prop) n : (forall k m, (k < n)%nat -> Q (S k) m -> exists m', f k m = Ok m' /\ Q k m') ->
  forall k m, (k <= n)%nat -> Q k m -> exists m', down f k m = Ok m' /\ Q O m'.
Proof.
  intros H. induction k as [| k IH]; intros m B X; cbn [down]; [eauto |].
  destruct (H k m) as (m' & E & X'); [lia | assumption |]. rewrite E. cbn [bind]. apply IH; [lia | assumption].
Qed.

Lemma upto_loop f (Q : nat -> mem -> Prop) n : (forall k m, (k < n)%nat -> Q k m -> exists m', f k m = Ok m' /\ Q (S k) m') ->
  forall k m, (k <= n)%nat -> Q O m -> exists m', upto f k m = Ok m' /\ Q k m'.
Proof.
  intros H. induction k as [| k IH]; intros m B X; cbn [upto]; [eauto |].
  destruct (IH m) as (m' & E & X'); [lia | assumption |]. rewrite E. cbn [bind]. apply H; [lia | assumption].
Qed.

Lemma mix_nth {A} (vs ws : list A) k v : nth_error vs k = Some v -> nth_error (firstn (S k) vs ++ skipn (S k) ws) k = Some v.
Proof.
  revert ws k. induction vs as [| x vs IH]; intros ws [| k] H; try discriminate; [exact H |].
  cbn [nth_error] in H. destruct ws as [| y ws].
  - rewrite skipn_nil, app_nil_r. rewrite firstn_cons. cbn [nth_error]. specialize (IH [] k H). rewrite skipn_nil, app_nil_r in IH. exact IH.
  - rewrite firstn_cons, skipn_cons. cbn [app nth_error]. apply IH. assumption.
Qed.

Lemma mix_replace {A} (vs ws : list A) k v w : nth_error vs k = Some v -> nth_error ws k = Some w ->
  replace (firstn (S k) vs ++ skipn (S k) ws) k w = firstn k vs ++ skipn k ws.
Proof.
  revert ws k. induction vs as [| x vs IH]; intros [| y ws] [| k] H G; try discriminate; cbn [nth_error] in *.
  - rewrite firstn_cons, skipn_cons, firstn_O, skipn_O. cbn. inversion G. reflexivity.
  - rewrite (firstn_cons k), (skipn_cons k), (firstn_cons (S k)), (skipn_cons (S k)). cbn [app replace]. f_equal. apply IH; assumption.
Qed.

Lemma mix_up_nth {A} (vs ws : list A) k v : length vs = length ws -> nth_error vs k = Some v -> nth_error (firstn k ws ++ skipn k vs) k = Some v.
Proof.
  revert ws k. induction vs as [| x vs IH]; intros [| y ws] [| k] E H; try discriminate; [exact H |].
  rewrite firstn_cons, skipn_cons. cbn [app nth_error] in *. apply IH; [cbn in E; lia | assumption].
Qed.

Lemma mix_up_replace {A} (vs ws : list A) k v w : nth_error vs k = Some v -> nth_error ws k = Some w ->
  replace (firstn k ws ++ skipn k vs) k w = firstn (S k) ws ++ skipn (S k) vs.
Proof.
  revert ws k. induction vs as [| x vs IH]; intros [| y ws] [| k] H G; try discriminate; cbn [nth_error] in *.
  - rewrite firstn_cons, skipn_cons, !firstn_O, !skipn_O. cbn. inversion G. reflexivity.
  - rewrite (firstn_cons k), (skipn_cons k), (firstn_cons (S k)), (skipn_cons (S k)). cbn [app replace]. f_equal. apply IH; assumption.
Qed.

(** ** Values of one type *)

Lemma fits_parts c vs ws : fits (Parts vs) (Parts ws) = true -> settled c (Parts vs) (Parts ws) = true ->
  length vs = length ws /\ forall k v w, nth_error vs k = Some v -> nth_error ws k = Some w -> fits v w = true /\ settled c v w = true.
Proof.
  cbn [fits settled]. revert ws. induction vs as [| v vs IH]; intros [| w ws] F S; try discriminate.
  - split; [reflexivity |]. intros [| k]; discriminate.
  - apply andb_prop in F as [F1 F2]. apply andb_prop in S as [S1 S2]. destruct (IH _ F2 S2) as [L H]. split; [cbn; lia |].
    intros [| k] x y X Y; cbn in X, Y; [inversion X; inversion Y; subst; auto | eauto].
Qed.

Lemma fits_members c ms ls : fits (Members ms) (Members ls) = true -> settled c (Members ms) (Members ls) = true ->
  length ms = length ls /\ forall k o q, nth_error ms k = Some o -> nth_error ls k = Some q ->
    match o, q with Some v, Some w => fits v w = true /\ settled c v w = true | None, Some _ => False | _, None => True end.
Proof.
  cbn [fits settled]. revert ls. induction ms as [| o ms IH]; intros [| q ls] F S; try discriminate.
  - split; [reflexivity |]. intros [| k]; discriminate.
  - apply andb_prop in F as [F1 F2]. apply andb_prop in S as [S1 S2]. destruct (IH _ F2 S2) as [L H]. split; [cbn; lia |].
    intros [| k] x y X Y; cbn in X, Y; [| apply (H k); assumption].
    inversion X; inversion Y; subst. destruct x as [v |], y as [w |]; auto; try discriminate.
Qed.

Lemma sizes_nth vs k v : nth_error vs k = Some v -> (size v <= sizes vs)%nat.
Proof.
  revert k. induction vs as [| x vs IH]; intros [| k] H; try discriminate; cbn in H |- *; fold (sizes vs).
  - inversion H; subst. lia.
  - specialize (IH _ H). lia.
Qed.

Lemma present_nth ms k v : nth_error ms k = Some (Some v) -> (size v <= sizes (present ms))%nat.
Proof.
  revert k. induction ms as [| o ms IH]; intros [| k] H; try discriminate; cbn in H.
  - inversion H; subst. cbn. lia.
  - specialize (IH _ H). destruct o; cbn; [fold (sizes (present ms)); lia | assumption].
Qed.

Lemma present_unset ms k : (sizes (present (replace ms k None)) <= sizes (present ms))%nat.
Proof.
  revert k. induction ms as [| o ms IH]; intros [| k]; cbn; try lia.
  - destruct o; cbn; fold (sizes (present ms)); lia.
  - specialize (IH k). destruct o; cbn; [fold (sizes (present ms)); fold (sizes (present (replace ms k None))); lia | assumption].
Qed.

(** ** Assignments *)

Section Loop.
  Variables (m0 : mem) (self other : place) (new : val).

  Definition inv (cur : val) (m : mem) : Prop :=
    good m zero /\ safe m self other /\ read m other = Ok new /\ changed m0 m self cur /\ read m self = Ok cur.

  Lemma advance m m' cur cur' : inv cur m -> changed m m' self cur' -> good m' zero -> inv cur' m'.
  Proof.
    intros (G & S & R & C & _) C' G'.
    split; [assumption |]. split; [eapply safe_changed; [exact S | exact C' | exact G' | apply zero_nonneg] |].
    split; [eapply changed_other; [exact S | exact R | exact C' | exact G' | apply zero_nonneg] |].
    split; [eapply changed_trans; eassumption |].
    eapply changed_read; [exact C' | apply S | exact G' | apply zero_nonneg].
  Qed.
End Loop.

Definition assigns_well (c : bool) (f : mem -> place -> place -> result mem) (n : nat) : Prop := forall m self other old new,
  (size old <= n)%nat -> good m zero -> safe m self other -> read m self = Ok old -> read m other = Ok new ->
  fits old new = true -> settled c old new = true ->
  exists m', f m self other = Ok m' /\ good m' zero /\ changed m m' self new.

Lemma part_step c f n m0 m self other vs ws k v w cur : assigns_well c f n -> inv m0 self other (Parts ws) (Parts cur) m ->
  nth_error vs k = Some v -> nth_error ws k = Some w -> nth_error cur k = Some v -> (size v <= n)%nat -> fits v w = true -> settled c v w = true ->
  exists m', f m (within self k) (within other k) = Ok m' /\ inv m0 self other (Parts ws) (Parts (replace cur k w)) m'.
Proof.
  intros A I V W C SZ F S. pose proof I as (G & SF & RO & CH & RS).
  destruct (A m (within self k) (within other k) v w) as (m' & E & G' & C'); auto.
  - apply safe_within. assumption.
  - rewrite (within_read _ _ _ _ RS). cbn [sub]. rewrite C. reflexivity.
  - rewrite (within_read _ _ _ _ RO). cbn [sub]. rewrite W. reflexivity.
  - exists m'. split; [assumption |]. eapply advance; [exact I | | assumption].
    assert (P : put (Parts cur) [k] w = Parts (replace cur k w)) by (cbn [put]; rewrite C; reflexivity).
    rewrite <- P. apply (changed_within _ _ _ _ _ v w RS); [cbn [sub]; rewrite C; reflexivity | assumption].
Qed.

Lemma member_step c f n m0 m self other ls k o q cur : assigns_well c f n -> inv m0 self other (Members ls) (Members cur) m ->
  nth_error ls k = Some q -> nth_error cur k = Some o ->
  match o with Some v => (size v <= n)%nat | None => True end ->
  match o, q with Some v, Some w => fits v w = true /\ settled c v w = true | None, Some _ => False | _, None => True end ->
  exists m', (match o, q with
              | Some _, Some _ => f m (within self k) (within other k)
              | Some v, None => m1 <- destroys c m v ;; write m1 self (unset (Members cur) k)
              | None, Some v => m1 <- copies m v ;; write m1 self (unset (Members cur) k)
              | None, None => Ok m
              end) = Ok m' /\ inv m0 self other (Members ls) (Members (replace cur k q)) m'.
Proof.
  intros A I W C SZ F. pose proof I as (G & SF & RO & CH & RS).
  destruct o as [v |]; destruct q as [w |].
  - destruct F as [F S]. destruct (A m (within self k) (within other k) v w) as (m' & E & G' & C'); auto.
    + apply safe_within. assumption.
    + rewrite (within_read _ _ _ _ RS). cbn [sub]. rewrite C. reflexivity.
    + rewrite (within_read _ _ _ _ RO). cbn [sub]. rewrite W. reflexivity.
    + exists m'. split; [assumption |]. eapply advance; [exact I | | assumption].
      assert (P : put (Members cur) [k] w = Members (replace cur k (Some w))) by (cbn [put]; rewrite C; reflexivity).
      rewrite <- P. apply (changed_within _ _ _ _ _ v w RS); [cbn [sub]; rewrite C; reflexivity | assumption].
  - pose proof (read_proper _ _ _ _ G RS) as P. cbn [proper] in P.
    destruct (release c m zero self (Members cur) (Members (replace cur k None)) v G zero_nonneg RS) as (m1 & g & D & _ & WH & CG & GG).
    + cbn [proper]. apply forallb_replace; [assumption | reflexivity].
    + cbn [size]. rewrite !size_members. pose proof (present_unset cur k). lia.
    + intros a. rewrite !tm_members, (sum_replace _ _ _ _ _ C). cbn [tmo]. lia.
    + apply (forallb_nth _ _ _ _ P C).
    + apply SF.
    + rewrite D. cbn [bind unset]. exists g. split; [assumption |]. eapply advance; eassumption.
  - contradiction.
  - exists m. split; [reflexivity |]. rewrite replace_same by assumption. assumption.
Qed.

Lemma member_of ms k : member (Members ms) k = match nth_error ms k with Some o => o | None => None end.
Proof. reflexivity. Qed.

Lemma inv_start m self other old new : good m zero -> safe m self other -> read m self = Ok old -> read m other = Ok new ->
  inv m self other new old m.
Proof. intros G S R1 R2. split; [assumption |]. split; [assumption |]. split; [assumption |]. split; [apply changed_refl |]; assumption. Qed.

Lemma nth_some {A} (l : list A) k : (k < length l)%nat -> exists x, nth_error l k = Some x.
Proof. intros H. destruct (nth_error l k) eqn:E; [eauto |]. apply nth_error_None in E. lia. Qed.

Lemma write_plain m self other old new : good m zero -> read m self = Ok old -> read m other = Ok new ->
  (forall a, tm a old = tm a new) -> exists m', write m self new = Ok m' /\ good m' zero /\ changed m m' self new.
Proof.
  intros G R1 R2 T. destruct (good_write _ _ _ _ new G R1 (read_proper _ _ _ _ G R2)) as (m' & W & G'). exists m'. split; [assumption |].
  split; [| apply write_changed; assumption]. revert G'. apply good_ext. intros a. rewrite T. unfold zero. lia.
Qed.

Lemma same_kind_eq k l : same_kind k l = true -> k = l.
Proof. destruct k, l; cbn; congruence. Qed.

Lemma same_pointer_eq p q : same_pointer p q = true -> p = q.
Proof. destruct p, q; cbn; try congruence. intros H. f_equal. lia. Qed.

Lemma same_base_eq b c : same_base b c = true -> b = c.
Proof. destruct b, c; cbn; try congruence; intros H; f_equal; lia. Qed.

Lemma same_path_eq p q : same_path p q = true -> p = q.
Proof. revert q. induction p as [| x p IH]; intros [| y q]; cbn; try congruence. intros H. apply andb_prop in H as [H1 H2]. f_equal; [lia | auto]. Qed.

Lemma diverge_same p : ~ diverge p p.
Proof. intros (c & i & j & p' & q' & E1 & E2 & D). rewrite E1 in E2. apply app_inv_head in E2. congruence. Qed.

Theorem assign_well : forall fuel, assigns_well false (assign fuel) fuel.
Proof.
  induction fuel as [| fuel IH]; intros m self other old new SZ G S R1 R2 F ST; [pose proof (size_pos old); lia |].
  cbn [assign]. rewrite R1. cbn [bind].
  destruct old as [x | x | k p | vs | n v | ms | es].
  - rewrite R2. cbn [bind]. apply (write_plain m self other (Plain x)); auto. destruct new; try discriminate F. reflexivity.
  - discriminate ST.
  - assert (LATE : forall q, new = Ref k q ->
       exists m', (m1 <- copies m new ;; m2 <- destroys false m1 (Ref k p) ;; new' <- read m2 other ;; write m2 self new') = Ok m' /\ good m' zero /\ changed m m' self new).
    { intros q _. destruct (swap_late false m self other (Ref k p) new G S R1 R2) as (m1 & m2 & m3 & E1 & E2 & E3 & E4 & G3 & C3).
      exists m3. rewrite E1. cbn [bind]. rewrite E2. cbn [bind]. rewrite E3. cbn [bind]. auto. }
    assert (EARLY : exists m', (new <- read m other ;; m1 <- write m self new ;; m2 <- copies m1 new ;; destroys false m2 (Ref k p)) = Ok m' /\ good m' zero /\ changed m m' self new).
    { destruct (swap_early false m self other (Ref k p) new G S R1 R2) as (m1 & m2 & m3 & E1 & E2 & E3 & G3 & C3).
      exists m3. rewrite R2. cbn [bind]. rewrite E1. cbn [bind]. rewrite E2. cbn [bind]. auto. }
    destruct new as [y | y | l q | ws | n' w | ls | es]; try discriminate F. cbn [fits] in F. apply same_kind_eq in F. subst l.
    assert (Q : same_kind k Array && same_base (root self) (root other) && same_path (path self) (path other) = false).
    { destruct (same_base (root self) (root other) && same_path (path self) (path other)) eqn:B; [| rewrite <- andb_assoc, B; apply andb_false_r].
      exfalso. apply andb_prop in B as [B1 B2]. apply same_base_eq in B1. apply same_path_eq in B2.
      destruct (safe_apart _ _ _ S) as [D | [_ D]]; [congruence |]. rewrite B2 in D. revert D. apply diverge_same. }
    destruct k; try (rewrite Q; exact EARLY). rewrite R2. cbn [bind]. destruct (same_pointer p q) eqn:SP.
    + apply same_pointer_eq in SP. subst q. exists m. split; [reflexivity |]. split; [assumption |]. apply changed_refl. assumption.
    + apply (LATE q). reflexivity.
  - destruct new as [y | y | l q | ws | n' w | ls | es]; try discriminate F. destruct (fits_parts _ _ _ F ST) as [LN FN].
    cbn [size] in SZ. fold (sizes vs) in SZ.
    destruct (down_loop (fun k m => assign fuel m (within self k) (within other k))
      (fun k m' => inv m self other (Parts ws) (Parts (firstn k vs ++ skipn k ws)) m') (length vs)) with (k := length vs) (m := m) as (m' & E & I).
    + intros k m1 LK I. destruct (nth_some vs k LK) as (v & V). destruct (nth_some ws k) as (w & Wk); [lia |].
      destruct (FN _ _ _ V Wk) as [F1 S1]. pose proof (sizes_nth _ _ _ V).
      destruct (part_step _ _ _ _ _ _ _ vs _ k v w _ IH I V Wk (mix_nth _ _ _ _ V)) as (m2 & E2 & I2); auto; [lia |].
      exists m2. split; [assumption |]. rewrite (mix_replace _ _ _ _ _ V Wk) in I2. assumption.
    + lia.
    + rewrite firstn_all. rewrite LN, skipn_all, app_nil_r. apply inv_start; assumption.
    + exists m'. split; [assumption |]. destruct I as (G' & _ & _ & C & _). split; assumption.
  - rewrite R2. cbn [bind]. destruct new as [y | y | l q | ws | n' w | ls | es]; try discriminate F. cbn [fits settled] in F, ST.
    destruct (Nat.eqb n n') eqn:NN; cbn in F, ST.
    + destruct (IH m (within self 0) (within other 0) v w) as (m' & E & G' & C'); auto.
      * cbn [size] in SZ. lia.
      * apply safe_within. assumption.
      * rewrite (within_read _ _ _ _ R1). reflexivity.
      * rewrite (within_read _ _ _ _ R2). reflexivity.
      * exists m'. split; [assumption |]. split; [assumption |]. apply Nat.eqb_eq in NN. subst n'.
        change (OneOf n w) with (put (OneOf n v) [O] w). apply (changed_within _ _ _ _ _ v w R1); [reflexivity | assumption].
    + destruct (release false m zero self (OneOf n v) (Plain 0) v G zero_nonneg R1) as (m1 & g & D & _ & WH & CG & GG).
      * reflexivity.
      * cbn [size]. lia.
      * intros a. rewrite tm_plain. unfold tm. cbn [owned]. lia.
      * apply (read_proper _ _ _ _ G R1).
      * apply S.
      * pose proof (read_proper _ _ _ _ G R2) as P2. rewrite D. cbn [bind].
        assert (RG : read g other = Ok (OneOf n' w)) by (eapply changed_other; [exact S | exact R2 | exact CG | exact GG | apply zero_nonneg]).
        assert (RO : read m1 other = Ok (OneOf n' w)) by (rewrite <- (read_write_apart _ _ other _ _ WH (safe_apart _ _ _ S)); assumption).
        rewrite RO. cbn [bind].
        destruct (good_write _ _ _ _ (OneOf n' w) GG (read_write_same _ _ _ _ WH) P2) as (m2 & W2 & G2).
        pose proof W2 as W2'. rewrite (write_write _ _ _ _ _ WH) in W2'. rewrite W2'. cbn [bind].
        destruct (copies_good m2 _ (OneOf n' w) G2 P2) as (m3 & C3 & G3 & A3).
        { intros a T. eapply write_found; [exact W2 |]. eapply read_found; [exact GG | apply zero_nonneg | exact RG | exact T]. }
        exists m3. split; [assumption |]. split.
        { revert G3. apply good_ext. intros a. rewrite tm_plain. unfold zero. lia. }
        eapply changed_alike; [| eassumption]. eapply changed_trans; [exact CG |]. apply write_changed. assumption.
  - destruct new as [y | y | l q | ws | n' w | ls | es]; try discriminate F. destruct (fits_members _ _ _ F ST) as [LN FN].
    cbn [size] in SZ. rewrite size_members in SZ.
    match goal with |- context [down ?f (length ms) m] =>
      destruct (down_loop f (fun k m' => inv m self other (Members ls) (Members (firstn k ms ++ skipn k ls)) m') (length ms)) with (k := length ms) (m := m) as (m' & E & I) end.
    + intros k m1 LK I. destruct (nth_some ms k LK) as (o & V). destruct (nth_some ls k) as (q & Wk); [lia |].
      pose proof I as (_ & _ & RO & _ & RS). rewrite RS, RO. cbn [bind]. rewrite !member_of, (mix_nth _ _ _ _ V), Wk.
      destruct (member_step false (assign fuel) fuel m m1 self other ls k o q _ IH I Wk (mix_nth _ _ _ _ V)) as (m2 & E2 & I2).
      { destruct o as [v |]; [| exact Logic.I]. pose proof (present_nth _ _ _ V). lia. }
      { apply (FN _ _ _ V Wk). }
      exists m2. split; [exact E2 |]. rewrite (mix_replace _ _ _ _ _ V Wk) in I2. assumption.
    + lia.
    + rewrite firstn_all. rewrite LN, skipn_all, app_nil_r. apply inv_start; assumption.
    + exists m'. split; [assumption |]. destruct I as (G' & _ & _ & C & _). split; assumption.
  - discriminate F.
Qed.

Theorem compiled_assign_well : forall fuel, assigns_well true (compiled_assign fuel) fuel.
Proof.
  induction fuel as [| fuel IH]; intros m self other old new SZ G S R1 R2 F ST; [pose proof (size_pos old); lia |].
  cbn [compiled_assign]. rewrite R1. cbn [bind].
  destruct old as [x | x | k p | vs | n v | ms | es].
  - rewrite R2. cbn [bind]. apply (write_plain m self other (Plain x)); auto. destruct new; try discriminate F. reflexivity.
  - rewrite R2. cbn [bind]. apply (write_plain m self other (Tag x)); auto. destruct new; try discriminate F. reflexivity.
  - destruct (swap_late true m self other (Ref k p) new G S R1 R2) as (m1 & m2 & m3 & E1 & E2 & E3 & E4 & G3 & C3).
    exists m3. rewrite R2. cbn [bind]. rewrite E1. cbn [bind]. rewrite E2. cbn [bind]. rewrite E3. cbn [bind]. auto.
  - destruct new as [y | y | l q | ws | n' w | ls | es]; try discriminate F. destruct (fits_parts _ _ _ F ST) as [LN FN].
    cbn [size] in SZ. fold (sizes vs) in SZ.
    destruct (upto_loop (fun k m => compiled_assign fuel m (within self k) (within other k))
      (fun k m' => inv m self other (Parts ws) (Parts (firstn k ws ++ skipn k vs)) m') (length vs)) with (k := length vs) (m := m) as (m' & E & I).
    + intros k m1 LK I. destruct (nth_some vs k LK) as (v & V). destruct (nth_some ws k) as (w & Wk); [lia |].
      destruct (FN _ _ _ V Wk) as [F1 S1]. pose proof (sizes_nth _ _ _ V).
      destruct (part_step _ _ _ _ _ _ _ vs _ k v w _ IH I V Wk (mix_up_nth _ _ _ _ LN V)) as (m2 & E2 & I2); auto; [lia |].
      exists m2. split; [assumption |]. rewrite (mix_up_replace _ _ _ _ _ V Wk) in I2. assumption.
    + lia.
    + cbn [firstn skipn app]. apply inv_start; assumption.
    + exists m'. split; [assumption |]. destruct I as (G' & _ & _ & C & _). split; [assumption |].
      rewrite skipn_all, app_nil_r, LN, firstn_all in C. assumption.
  - rewrite R2. cbn [bind]. destruct (swap_early true m self other (OneOf n v) new G S R1 R2) as (m1 & m2 & m3 & E1 & E2 & E3 & G3 & C3).
    exists m3. rewrite E1. cbn [bind]. rewrite E2. cbn [bind]. auto.
  - destruct new as [y | y | l q | ws | n' w | ls | es]; try discriminate F. destruct (fits_members _ _ _ F ST) as [LN FN].
    cbn [size] in SZ. rewrite size_members in SZ.
    match goal with |- context [upto ?f (length ms) m] =>
      destruct (upto_loop f (fun k m' => inv m self other (Members ls) (Members (firstn k ls ++ skipn k ms)) m') (length ms)) with (k := length ms) (m := m) as (m' & E & I) end.
    + intros k m1 LK I. destruct (nth_some ms k LK) as (o & V). destruct (nth_some ls k) as (q & Wk); [lia |].
      pose proof I as (_ & _ & RO & _ & RS). rewrite RS, RO. cbn [bind]. rewrite !member_of, (mix_up_nth _ _ _ _ LN V), Wk.
      destruct (member_step true (compiled_assign fuel) fuel m m1 self other ls k o q _ IH I Wk (mix_up_nth _ _ _ _ LN V)) as (m2 & E2 & I2).
      { destruct o as [v |]; [| exact Logic.I]. pose proof (present_nth _ _ _ V). lia. }
      { apply (FN _ _ _ V Wk). }
      exists m2. split; [destruct o, q; exact E2 |]. rewrite (mix_up_replace _ _ _ _ _ V Wk) in I2. assumption.
    + lia.
    + cbn [firstn skipn app]. apply inv_start; assumption.
    + exists m'. split; [assumption |]. destruct I as (G' & _ & _ & C & _). split; [assumption |].
      rewrite skipn_all, app_nil_r, LN, firstn_all in C. assumption.
  - discriminate F.
Qed.
