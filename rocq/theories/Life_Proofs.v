(** Proofs about reference counts. *)
From Coq Require Import ZifyBool ZifyNat Permutation.
From Verif Require Import Base Life_Model Life_Spec.
Open Scope Z_scope.
Open Scope list_scope.
Open Scope result_scope.

(** ** Counting references *)

Definition tm (a : Z) (v : val) : Z := times a (owned v).
Definition tmo (a : Z) (o : option val) : Z := match o with Some v => tm a v | None => 0 end.

Local Arguments tm : simpl never.

Fixpoint sum {A} (f : A -> Z) (l : list A) : Z := match l with [] => 0 | x :: r => f x + sum f r end.

Lemma times_nil a : times a [] = 0.
Proof. reflexivity. Qed.

Lemma times_app a l l' : times a (l ++ l') = times a l + times a l'.
Proof. unfold times. rewrite count_occ_app. lia. Qed.

Lemma times_nonneg a l : 0 <= times a l.
Proof. unfold times. lia. Qed.

Lemma times_In a l : In a l <-> 0 < times a l.
Proof. unfold times. rewrite (count_occ_In Z.eq_dec). lia. Qed.

Lemma tm_nonneg a v : 0 <= tm a v.
Proof. apply times_nonneg. Qed.

Lemma times_flat {A} a (f : A -> list Z) l : times a (flat_map f l) = sum (fun x => times a (f x)) l.
Proof. induction l; cbn; [reflexivity |]. rewrite times_app, IHl. reflexivity. Qed.

Lemma sum_ext {A} (f g : A -> Z) l : (forall x, f x = g x) -> sum f l = sum g l.
Proof. intros H. induction l; cbn; [reflexivity |]. rewrite H, IHl. reflexivity. Qed.

Lemma sum_app {A} (f : A -> Z) l l' : sum f (l ++ l') = sum f l + sum f l'.
Proof. induction l; cbn; [lia |]. rewrite IHl. lia. Qed.

Lemma sum_rev {A} (f : A -> Z) l : sum f (rev l) = sum f l.
Proof. induction l; cbn; [lia |]. rewrite sum_app, IHl. cbn. lia. Qed.

Lemma sum_nonneg {A} (f : A -> Z) l : (forall x, 0 <= f x) -> 0 <= sum f l.
Proof. intros H. induction l as [| x l]; cbn; [lia |]. specialize (H x). lia. Qed.

Lemma tm_parts a vs : tm a (Parts vs) = sum (tm a) vs.
Proof. unfold tm. cbn [owned]. apply times_flat. Qed.

Lemma tm_members a ms : tm a (Members ms) = sum (tmo a) ms.
Proof.
  unfold tm. cbn [owned]. rewrite times_flat. apply sum_ext. intros [v |]; reflexivity.
Qed.

Lemma tm_row a ms : tm a (Row ms) = sum (tmo a) ms.
Proof.
  unfold tm. cbn [owned]. rewrite times_flat. apply sum_ext. intros [v |]; reflexivity.
Qed.

Lemma tm_ref a k b : tm a (Ref k (Some b)) = if b =? a then 1 else 0.
Proof.
  unfold tm, times. cbn [owned count_occ]. destruct (Z.eq_dec b a); destruct (Z.eqb_spec b a); lia.
Qed.

Lemma sum_present a ms : sum (tm a) (present ms) = sum (tmo a) ms.
Proof. induction ms as [| [v |] ms IH]; cbn [present sum tmo]; lia. Qed.

Lemma proper_present ms : forallb (fun o => match o with Some v => proper v | None => true end) ms = forallb proper (present ms).
Proof. induction ms as [| [v |] ms IH]; cbn; [reflexivity | rewrite IH; reflexivity | exact IH]. Qed.

Definition sizes (vs : list val) : nat := fold_right (fun v n => size v + n)%nat O vs.

Lemma size_members ms :
  fold_right (fun o n => match o with Some v => size v + n | None => n end)%nat O ms = sizes (present ms).
Proof. induction ms as [| [v |] ms IH]; cbn; [reflexivity | rewrite IH; reflexivity | exact IH]. Qed.

Lemma sizes_app vs ws : (sizes (vs ++ ws) = sizes vs + sizes ws)%nat.
Proof. induction vs; cbn; [reflexivity |]. fold (sizes (vs ++ ws)). fold (sizes vs). lia. Qed.

Lemma sizes_rev vs : sizes (rev vs) = sizes vs.
Proof. induction vs; cbn; [reflexivity |]. rewrite sizes_app. cbn. fold (sizes vs). lia. Qed.

Lemma size_pos v : (1 <= size v)%nat.
Proof. destruct v; cbn; lia. Qed.

(** ** Objects *)

Lemma find_set_same h a n o : find h a = Some o -> find (set h a n) a = Some n.
Proof.
  induction h as [| [b x] h IH]; cbn; [discriminate |].
  destruct (b =? a) eqn:E; cbn; rewrite E; auto.
Qed.

Lemma find_set_other h a n b : b <> a -> find (set h a n) b = find h b.
Proof.
  intros D. induction h as [| [c x] h IH]; cbn; [reflexivity |].
  destruct (c =? a) eqn:E; cbn; destruct (c =? b) eqn:F; auto; lia.
Qed.

Lemma keys_set h a n : map fst (set h a n) = map fst h.
Proof.
  induction h as [| [b x] h IH]; cbn; [reflexivity |]. destruct (b =? a); cbn; congruence.
Qed.

Lemma set_set h a n o : set (set h a n) a o = set h a o.
Proof.
  induction h as [| [b x] h IH]; cbn; [reflexivity |].
  destruct (b =? a) eqn:E; cbn; rewrite E; congruence.
Qed.

Lemma set_found h a n : find h a = Some n -> set h a n = h.
Proof.
  induction h as [| [b x] h IH]; cbn; [discriminate |].
  destruct (b =? a) eqn:E; intros F; [congruence |]. rewrite IH; auto.
Qed.

Lemma set_swap h a b n o : a <> b -> set (set h a n) b o = set (set h b o) a n.
Proof.
  intros D. induction h as [| [c x] h IH]; cbn; [reflexivity |].
  destruct (c =? a) eqn:E; destruct (c =? b) eqn:F; cbn; rewrite ?E, ?F; try lia; try reflexivity. congruence.
Qed.

Lemma find_In h a n : find h a = Some n -> In (a, n) h.
Proof.
  induction h as [| [b x] h IH]; cbn; [discriminate |].
  destruct (b =? a) eqn:E; intros F; [left; f_equal; [lia | congruence] | right; auto].
Qed.

Lemma find_keys h a : find h a <> None <-> In a (map fst h).
Proof.
  induction h as [| [b x] h IH]; cbn; [tauto |].
  destruct (b =? a) eqn:E; [split; [left; lia | discriminate] |].
  rewrite IH. split; [right; assumption |]. intros [F | F]; [lia | assumption].
Qed.

Lemma find_free_other h a b : b <> a -> find (free h a) b = find h b.
Proof.
  intros D. induction h as [| [c x] h IH]; cbn; [reflexivity |].
  destruct (c =? a) eqn:E; cbn; destruct (c =? b) eqn:F; auto; lia.
Qed.

Lemma keys_free h a x : In x (map fst (free h a)) -> In x (map fst h).
Proof.
  induction h as [| [b y] h IH]; cbn; [tauto |].
  destruct (b =? a); cbn; tauto.
Qed.

Lemma nodup_free h a : NoDup (map fst h) -> NoDup (map fst (free h a)).
Proof.
  induction h as [| [b y] h IH]; cbn; [auto |]. intros N. inversion N; subst.
  destruct (b =? a); cbn; [assumption |]. constructor; [| auto]. intros F. apply keys_free in F. contradiction.
Qed.

Lemma find_free_same h a : NoDup (map fst h) -> find (free h a) a = None.
Proof.
  induction h as [| [b y] h IH]; cbn; [auto |]. intros N. inversion N; subst.
  destruct (b =? a) eqn:E; cbn.
  - destruct (find h a) eqn:F; [| reflexivity]. exfalso.
    assert (In a (map fst h)) by (apply find_keys; congruence). assert (b = a) by lia. subst. contradiction.
  - rewrite E. auto.
Qed.

(** The references from the objects that are not being taken apart. *)
Definition lv (x : Z) (n : node) : Z := if 0 <? count n then tm x (body n) else 0.
Definition L (h : heap) (x : Z) : Z := sum (fun p => lv x (snd p)) h.

Local Arguments lv : simpl never.
Local Arguments L : simpl never.
Local Arguments Z.add : simpl never.

Lemma lv_nonneg x n : 0 <= lv x n.
Proof. unfold lv. destruct (0 <? count n); [apply tm_nonneg | lia]. Qed.

Lemma L_nonneg h x : 0 <= L h x.
Proof. apply sum_nonneg. intros. apply lv_nonneg. Qed.

Lemma L_set h a n o x : find h a = Some o -> L (set h a n) x = L h x - lv x o + lv x n.
Proof.
  unfold L. induction h as [| [b y] h IH]; cbn; [discriminate |].
  destruct (b =? a) eqn:E; intros F; cbn; [inversion F; subst; lia |]. rewrite IH by assumption. lia.
Qed.

Lemma L_free h a x : L (free h a) x = L h x - match find h a with Some n => lv x n | None => 0 end.
Proof.
  unfold L. induction h as [| [b y] h IH]; cbn; [lia |].
  destruct (b =? a) eqn:E; cbn; [lia |]. rewrite IH. lia.
Qed.

(** The steps that taking apart the rest may need. *)
Definition wn (n : node) : nat := if 0 <? count n then S (size (body n)) else O.
Fixpoint W (h : heap) : nat := match h with [] => O | p :: r => (wn (snd p) + W r)%nat end.

Local Arguments wn : simpl never.

Lemma W_set h a n o : find h a = Some o -> (W (set h a n) + wn o = W h + wn n)%nat.
Proof.
  induction h as [| [b y] h IH]; cbn; [discriminate |].
  destruct (b =? a) eqn:E; intros F; cbn; [inversion F; subst; lia |].
  specialize (IH F). lia.
Qed.

Lemma W_free h a : (W (free h a) <= W h)%nat.
Proof.
  induction h as [| [b y] h IH]; cbn; [lia |].
  destruct (b =? a) eqn:E; cbn; [lia |]. lia.
Qed.

(** An object that holds something else. *)
Definition retouch (h : heap) (s : Z) (b : val) : heap :=
  match find h s with Some n => set h s (Node (count n) b) | None => h end.

Definition alive (h : heap) (s : Z) : Prop := exists n, find h s = Some n /\ 0 < count n.

Lemma find_retouch_other h s b a : a <> s -> find (retouch h s b) a = find h a.
Proof. intros D. unfold retouch. destruct (find h s); [| reflexivity]. apply find_set_other. assumption. Qed.

Lemma find_retouch_same h s b : find (retouch h s b) s = option_map (fun n => Node (count n) b) (find h s).
Proof.
  unfold retouch. destruct (find h s) as [n |] eqn:F; cbn; [eapply find_set_same; eassumption | assumption].
Qed.

Lemma keys_retouch h s b : map fst (retouch h s b) = map fst h.
Proof. unfold retouch. destruct (find h s); [apply keys_set | reflexivity]. Qed.

Lemma retouch_set_other h s b a n : a <> s -> retouch (set h a n) s b = set (retouch h s b) a n.
Proof.
  intros D. unfold retouch. rewrite find_set_other by lia. destruct (find h s); [| reflexivity].
  apply set_swap. assumption.
Qed.

Lemma retouch_retouch h s b c : retouch (retouch h s b) s c = retouch h s c.
Proof.
  unfold retouch at 1. rewrite find_retouch_same. unfold retouch. destruct (find h s) as [n |] eqn:F; cbn; [| reflexivity].
  apply set_set.
Qed.

Lemma retouch_same h s n : find h s = Some n -> retouch h s (body n) = h.
Proof. intros F. unfold retouch. rewrite F. apply set_found. rewrite F. destruct n; reflexivity. Qed.

Lemma free_set h s a n : a <> s -> free (set h s n) a = set (free h a) s n.
Proof.
  intros D. induction h as [| [c x] h IH]; cbn; [reflexivity |].
  destruct (c =? s) eqn:E; destruct (c =? a) eqn:F; cbn; rewrite ?E, ?F; try lia; try reflexivity. congruence.
Qed.

Lemma free_retouch h s b a : a <> s -> free (retouch h s b) a = retouch (free h a) s b.
Proof.
  intros D. unfold retouch. rewrite find_free_other by lia. destruct (find h s); [| reflexivity].
  apply free_set. assumption.
Qed.

(** ** [destroy] *)

Record counted (h : heap) (E : Z -> Z) : Prop := Counted {
  c_keys : NoDup (map fst h);
  c_count : forall a n, find h a = Some n -> 0 <= count n /\ count n = L h a + E a;
  c_closed : forall a, 0 < L h a + E a -> find h a <> None;
  c_proper : forall a n, find h a = Some n -> proper (body n) = true
}.

Lemma counted_ext h E F : (forall a, E a = F a) -> counted h E -> counted h F.
Proof.
  intros X [A B C D]. constructor; auto.
  - intros. rewrite <- X. auto.
  - intros a. rewrite <- X. auto.
Qed.

Definition shrinks (h h' : heap) : Prop :=
  (W h' <= W h)%nat /\
  forall a n', find h' a = Some n' -> exists n, find h a = Some n /\ body n' = body n /\ (0 < count n' <-> 0 < count n).

Lemma shrinks_refl h : shrinks h h.
Proof. split; [lia |]. intros a n' F. exists n'. tauto. Qed.

Lemma shrinks_trans h h1 h2 : shrinks h h1 -> shrinks h1 h2 -> shrinks h h2.
Proof.
  intros [A B] [C D]. split; [lia |]. intros a n' F.
  destruct (D _ _ F) as (n1 & F1 & G1 & H1). destruct (B _ _ F1) as (n & F0 & G0 & H0).
  exists n. rewrite G1, G0. split; [assumption |]. split; [reflexivity |]. tauto.
Qed.

Definition destroys_well (c : bool) (fuel : nat) : Prop := forall h v E,
  counted h (fun a => tm a v + E a) -> proper v = true -> (forall a, 0 <= E a) -> (size v + W h <= fuel)%nat ->
  exists h', destroy c fuel h v = Ok h' /\ counted h' E /\ shrinks h h' /\
    forall s b, alive h' s -> destroy c fuel (retouch h s b) v = Ok (retouch h' s b).

Lemma shrinks_alive h h' s : shrinks h h' -> alive h' s -> alive h s.
Proof. intros [_ A] (n' & F & G). destruct (A _ _ F) as (n & F1 & _ & G1). exists n. tauto. Qed.

Lemma each_well c fuel : destroys_well c fuel -> forall vs h E,
  counted h (fun a => sum (tm a) vs + E a) -> forallb proper vs = true -> (forall a, 0 <= E a) -> (sizes vs + W h <= fuel)%nat ->
  exists h', each (destroy c fuel) h vs = Ok h' /\ counted h' E /\ shrinks h h' /\
    forall s b, alive h' s -> each (destroy c fuel) (retouch h s b) vs = Ok (retouch h' s b).
Proof.
  intros D. induction vs as [| v vs IH]; intros h E C P N SZ; cbn [each].
  - exists h. split; [reflexivity |]. split; [exact C |]. split; [apply shrinks_refl | auto].
  - cbn in P. apply andb_prop in P as [P1 P2]. cbn in SZ. fold (sizes vs) in SZ.
    destruct (D h v (fun a => sum (tm a) vs + E a)) as (h1 & R1 & C1 & S1 & T1).
    + revert C. apply counted_ext. intros a. cbn. lia.
    + assumption.
    + intros a. specialize (N a). pose proof (sum_nonneg (tm a) vs (tm_nonneg a)). lia.
    + lia.
    + rewrite R1. cbn [bind]. destruct (IH h1 E) as (h2 & R2 & C2 & S2 & T2); auto.
      * destruct S1 as [S1 _]. lia.
      * exists h2. split; [assumption |]. split; [assumption |]. split; [eapply shrinks_trans; eassumption |].
        intros s b A. rewrite T1 by (eapply shrinks_alive; eassumption). cbn [bind]. apply T2. assumption.
Qed.

Lemma destroy_well c : forall fuel, destroys_well c fuel.
Proof.
  induction fuel as [| fuel IH]; intros h v E C P N SZ.
  { pose proof (size_pos v). lia. }
  destruct v as [x | x | k [a |] | vs | w v | ms | es]; cbn [destroy].
  - exists h. split; [reflexivity |]. split; [| split; [apply shrinks_refl | auto]]. revert C. apply counted_ext. intros a. unfold tm. cbn [owned]. rewrite times_nil. lia.
  - exists h. split; [reflexivity |]. split; [| split; [apply shrinks_refl | auto]]. revert C. apply counted_ext. intros a. unfold tm. cbn [owned]. rewrite times_nil. lia.
  - assert (C' : counted h (fun b => (if a =? b then 1 else 0) + E b)).
    { revert C. apply counted_ext. intros b. rewrite tm_ref. reflexivity. }
    clear C. destruct C' as [CK CC CL CP].
    assert (F : find h a <> None).
    { apply CL. rewrite Z.eqb_refl. pose proof (L_nonneg h a). specialize (N a). lia. }
    unfold object. destruct (find h a) as [n |] eqn:Fa; [clear F | congruence]. cbn [bind].
    destruct (CC _ _ Fa) as [C0 C1]. rewrite Z.eqb_refl in C1. cbn beta iota in C1.
    set (n1 := Node (count n - 1) (body n)).
    assert (L1 : forall x, L (set h a n1) x = L h x - lv x n + lv x n1) by (intros; eapply L_set; eassumption).
    pose proof (L_nonneg h a) as La. pose proof (N a) as Ea.
    assert (Ln : forall x, lv x n = tm x (body n)) by (intros x; unfold lv; destruct (0 <? count n) eqn:Q; [reflexivity | lia]).
    assert (FS : forall x, find (set h a n1) x = if a =? x then Some n1 else find h x).
    { intros x. destruct (a =? x) eqn:Q.
      - assert (a = x) by lia. subst x. eapply find_set_same; eassumption.
      - apply find_set_other. lia. }
    destruct (count n =? 1) eqn:Q.
    + (* the last reference *)
      assert (Ln1 : forall x, lv x n1 = 0) by (intros x; unfold lv, n1; cbn [count]; destruct (0 <? count n - 1) eqn:Q'; [lia | reflexivity]).
      assert (C2 : counted (set h a n1) (fun x => tm x (body n) + E x)).
      { constructor.
        - rewrite keys_set. assumption.
        - intros x m Fx. rewrite FS in Fx. rewrite L1, Ln, Ln1. destruct (a =? x) eqn:Qx.
          + assert (a = x) by lia. subst x. inversion Fx; subst m. unfold n1. cbn [count]. lia.
          + destruct (CC _ _ Fx) as [D0 D1]. rewrite Qx in D1. cbn beta iota in D1. lia.
        - intros x. rewrite L1, Ln, Ln1, FS. destruct (a =? x) eqn:Qx; [discriminate |]. intros G. apply CL. rewrite Qx. cbn beta iota. lia.
        - intros x m Fx. rewrite FS in Fx. destruct (a =? x); [inversion Fx; subst; cbn; eauto | eauto]. }
      destruct (IH (set h a n1) (body n) E C2) as (h2 & R2 & C3 & S3 & T3).
      * eauto.
      * assumption.
      * pose proof (W_set h a n1 n Fa) as W1. cbn [size] in SZ. unfold wn, n1 in W1. cbn [count body] in W1.
        replace (0 <? count n) with true in W1 by lia. replace (0 <? count n - 1) with false in W1 by lia. fold n1 in W1. lia.
      * rewrite R2. cbn [bind]. exists (free h2 a). split; [reflexivity |].
        destruct S3 as [S3w S3]. destruct C3 as [DK DC DL DP].
        assert (Z2 : match find h2 a with Some m => count m = 0 | None => True end).
        { destruct (find h2 a) as [m |] eqn:G; [| exact Logic.I]. destruct (S3 _ _ G) as (m0 & G0 & _ & G1).
          rewrite FS, Z.eqb_refl in G0. inversion G0; subst m0. destruct (DC _ _ G). cbn [count n1] in G1. lia. }
        assert (LF : forall x, L (free h2 a) x = L h2 x).
        { intros x. rewrite L_free. destruct (find h2 a) as [m |]; [| lia]. unfold lv. rewrite Z2. cbn. lia. }
        assert (FF : forall x, find (free h2 a) x = if a =? x then None else find h2 x).
        { intros x. destruct (a =? x) eqn:Qx.
          - assert (a = x) by lia. subst x. apply find_free_same. assumption.
          - apply find_free_other. lia. }
        split.
        { constructor.
          - apply nodup_free. assumption.
          - intros x m Fx. rewrite FF in Fx. destruct (a =? x); [discriminate |]. rewrite LF. auto.
          - intros x. rewrite LF, FF. intros G. pose proof (DL x G) as G'. destruct (a =? x) eqn:Qx; [| assumption].
            assert (a = x) by lia. subst x. destruct (find h2 a) as [m |] eqn:G2; [| congruence].
            destruct (DC _ _ G2). lia.
          - intros x m Fx. rewrite FF in Fx. destruct (a =? x); [discriminate |]. eauto. }
        split.
        2:{ intros s b (m & G0 & G1). rewrite FF in G0. destruct (a =? s) eqn:Qs; [discriminate |].
            unfold object. rewrite find_retouch_other by lia. rewrite Fa. cbn [bind]. fold n1. rewrite Q.
            rewrite <- retouch_set_other by lia. rewrite T3 by (exists m; tauto). cbn [bind].
            rewrite free_retouch by lia. reflexivity. }
        split.
        { pose proof (W_free h2 a). pose proof (W_set h a n1 n Fa) as W1. unfold wn, n1 in W1. cbn [count body] in W1.
          replace (0 <? count n - 1) with false in W1 by lia. fold n1 in W1. lia. }
        intros x m Fx. rewrite FF in Fx. destruct (a =? x) eqn:Qx; [discriminate |].
        destruct (S3 _ _ Fx) as (m0 & G0 & G1 & G2). rewrite FS, Qx in G0. exists m0. auto.
    + exists (set h a n1). split; [reflexivity |].
      assert (Ln1 : forall x, lv x n1 = tm x (body n)) by (intros x; unfold lv, n1; cbn [count body]; destruct (0 <? count n - 1) eqn:Q'; [reflexivity | lia]).
      split.
      { constructor.
        - rewrite keys_set. assumption.
        - intros x m Fx. rewrite FS in Fx. rewrite L1, Ln, Ln1. destruct (a =? x) eqn:Qx.
          + assert (a = x) by lia. subst x. inversion Fx; subst m. unfold n1. cbn [count]. lia.
          + destruct (CC _ _ Fx) as [D0 D1]. rewrite Qx in D1. cbn beta iota in D1. lia.
        - intros x. rewrite L1, Ln, Ln1, FS. destruct (a =? x) eqn:Qx; [discriminate |]. intros G. apply CL. rewrite Qx. cbn beta iota. lia.
        - intros x m Fx. rewrite FS in Fx. destruct (a =? x); [inversion Fx; subst; cbn; eauto | eauto]. }
      split.
      2:{ intros s b (m & G0 & G1). unfold object. destruct (Z.eq_dec a s) as [-> | Ds].
          - rewrite find_retouch_same, Fa. cbn [option_map bind count body]. rewrite Q. f_equal.
            unfold retouch. rewrite Fa, (find_set_same _ _ _ _ Fa), !set_set. reflexivity.
          - rewrite find_retouch_other by assumption. rewrite Fa. cbn [bind]. fold n1. rewrite Q.
            rewrite retouch_set_other by assumption. reflexivity. }
      split.
      { pose proof (W_set h a n1 n Fa) as W1. unfold wn, n1 in W1. cbn [count body] in W1.
        replace (0 <? count n - 1) with true in W1 by lia. replace (0 <? count n) with true in W1 by lia. fold n1 in W1. lia. }
      intros x m Fx. rewrite FS in Fx. destruct (a =? x) eqn:Qx.
      * assert (a = x) by lia. subst x. inversion Fx; subst m. exists n. unfold n1; cbn [count body]. repeat split; auto; lia.
      * exists m. tauto.
  - cbn in P. unfold nullable; rewrite P. exists h. split; [reflexivity |]. split; [| split; [apply shrinks_refl | auto]]. revert C. apply counted_ext. intros a. unfold tm. cbn [owned]. rewrite times_nil. lia.
  - cbn [proper] in P. cbn [size] in SZ. fold (sizes vs) in SZ.
    destruct c.
    + apply (each_well true fuel IH); auto; [| lia]. revert C. apply counted_ext. intros a. rewrite tm_parts. reflexivity.
    + apply (each_well false fuel IH); auto; [| | rewrite sizes_rev; lia].
      * revert C. apply counted_ext. intros a. rewrite tm_parts, sum_rev. reflexivity.
      * rewrite forallb_forall in *. intros x I. apply P. apply in_rev. assumption.
  - apply (IH h v E); auto. cbn [size] in SZ. lia.
  - cbn [proper] in P. rewrite proper_present in P. cbn [size] in SZ. rewrite size_members in SZ.
    destruct c.
    + apply (each_well true fuel IH); auto; [| lia]. revert C. apply counted_ext. intros a. rewrite tm_members, sum_present. reflexivity.
    + apply (each_well false fuel IH); auto; [| | rewrite sizes_rev; lia].
      * revert C. apply counted_ext. intros a. rewrite tm_members, sum_rev, sum_present. reflexivity.
      * rewrite forallb_forall in *. intros x I. apply P. apply in_rev. assumption.
  - cbn [proper] in P. rewrite proper_present in P. cbn [size] in SZ. rewrite size_members in SZ.
    apply (each_well c fuel IH); auto; [| lia]. revert C. apply counted_ext. intros a. rewrite tm_row, sum_present. reflexivity.
Qed.

(** ** [copy_constructor] *)

Fixpoint raise (h : heap) (f : Z -> Z) : heap :=
  match h with [] => [] | (a, n) :: r => (a, Node (count n + f a) (body n)) :: raise r f end.

Lemma find_raise h f a : find (raise h f) a = option_map (fun n => Node (count n + f a) (body n)) (find h a).
Proof.
  induction h as [| [b n] h IH]; cbn; [reflexivity |].
  destruct (b =? a) eqn:E; [| exact IH]. assert (b = a) by lia. subst. reflexivity.
Qed.

Lemma keys_raise h f : map fst (raise h f) = map fst h.
Proof. induction h as [| [b n] h IH]; cbn; [reflexivity |]. rewrite IH. reflexivity. Qed.

Lemma raise_ext h f g : (forall a, f a = g a) -> raise h f = raise h g.
Proof. intros X. induction h as [| [b n] h IH]; cbn; [reflexivity |]. rewrite IH, X. reflexivity. Qed.

Lemma raise_0 h f : (forall a, f a = 0) -> raise h f = h.
Proof.
  intros X. induction h as [| [b n] h IH]; cbn; [reflexivity |]. rewrite IH, X. destruct n as [c v]. cbn.
  replace (c + 0) with c by lia. reflexivity.
Qed.

Lemma raise_raise h f g : raise (raise h f) g = raise h (fun a => f a + g a).
Proof. induction h as [| [b n] h IH]; cbn; [reflexivity |]. rewrite IH. do 3 f_equal. lia. Qed.

Lemma raise_1 h a n : NoDup (map fst h) -> find h a = Some n ->
  set h a (Node (count n + 1) (body n)) = raise h (fun x => if a =? x then 1 else 0).
Proof.
  induction h as [| [b o] h IH]; cbn; [discriminate |]. intros N F. inversion N; subst.
  destruct (b =? a) eqn:E.
  - inversion F; subst o. assert (a = b) by lia. subst b. rewrite Z.eqb_refl. f_equal. symmetry.
    clear - H1. induction h as [| [c x] h IH]; cbn; [reflexivity |]. cbn in H1.
    destruct (a =? c) eqn:G; [exfalso; apply H1; left; lia |]. rewrite IH by tauto.
    destruct x. cbn. replace (count + 0) with count by lia. reflexivity.
  - assert (a =? b = false) as -> by lia. rewrite IH by assumption. destruct o. cbn. replace (count + 0) with count by lia. reflexivity.
Qed.

Definition present_in (h : heap) (v : val) : Prop := forall a, 0 < tm a v -> find h a <> None.

Lemma sum_In {A} (f : A -> Z) x l : In x l -> (forall y, 0 <= f y) -> f x <= sum f l.
Proof.
  intros I N. induction l as [| y l IH]; [contradiction |]. cbn. pose proof (N y). pose proof (sum_nonneg f l N).
  destruct I as [<- | I]; [lia |]. specialize (IH I). lia.
Qed.

Lemma tmo_nonneg a o : 0 <= tmo a o.
Proof. destruct o; cbn; [apply tm_nonneg | lia]. Qed.

Lemma present_raise h f v : present_in h v -> present_in (raise h f) v.
Proof. intros P a T. rewrite find_raise. specialize (P a T). destruct (find h a); [discriminate | congruence]. Qed.

Lemma copied_raise : forall n v h, (size v <= n)%nat -> NoDup (map fst h) -> proper v = true -> present_in h v ->
  copied v h = Ok (raise h (fun a => tm a v)).
Proof.
  induction n as [| n IH]; intros v h SZ N P I; [pose proof (size_pos v); lia |].
  destruct v as [x | x | k [a |] | vs | w v | ms | es]; cbn [copied].
  - rewrite raise_0 by reflexivity. reflexivity.
  - rewrite raise_0 by reflexivity. reflexivity.
  - unfold incref, object. assert (F : find h a <> None). { apply I. rewrite tm_ref, Z.eqb_refl. lia. }
    destruct (find h a) as [o |] eqn:G; [| congruence]. cbn [bind]. rewrite raise_1 by assumption. f_equal. apply raise_ext.
    intros x. rewrite tm_ref. reflexivity.
  - cbn in P. unfold nullable; rewrite P. rewrite raise_0 by reflexivity. reflexivity.
  - cbn [size] in SZ. fold (sizes vs) in SZ. cbn [proper] in P.
    assert (I' : forall v, In v vs -> present_in h v).
    { intros v J a T. apply I. rewrite tm_parts. pose proof (sum_In (tm a) v vs J (tm_nonneg a)). lia. }
    clear I.
    match goal with |- ?F vs = _ => assert (X : F vs = Ok (raise h (fun a => sum (tm a) vs))) end.
    { clear - IH SZ N P I'. induction vs as [| v vs IHv]; [rewrite raise_0 by reflexivity; reflexivity |].
      cbn in P. apply andb_prop in P as [P1 P2]. cbn in SZ. fold (sizes vs) in SZ.
      rewrite IHv; [| lia | assumption | intros; apply I'; right; assumption]. cbn [bind].
      rewrite IH; [| lia | rewrite keys_raise; assumption | assumption | apply present_raise, I'; left; reflexivity].
      rewrite raise_raise. f_equal. apply raise_ext. intros a. cbn. lia. }
    rewrite X. f_equal. apply raise_ext. intros a. rewrite tm_parts. reflexivity.
  - cbn [size] in SZ. rewrite (IH v h) by (auto; lia). reflexivity.
  - cbn [size] in SZ. cbn [proper] in P.
    assert (I' : forall v, In (Some v) ms -> present_in h v).
    { intros v J a T. apply I. rewrite tm_members. pose proof (sum_In (tmo a) (Some v) ms J (tmo_nonneg a)). cbn in H. lia. }
    clear I.
    match goal with |- ?F ms = _ => assert (X : F ms = Ok (raise h (fun a => sum (tmo a) ms))) end.
    { clear - IH SZ N P I'. induction ms as [| [v |] ms IHv]; [rewrite raise_0 by reflexivity; reflexivity | |].
      - cbn in P. apply andb_prop in P as [P1 P2]. cbn in SZ.
        rewrite IHv; [| lia | assumption | intros; apply I'; right; assumption]. cbn [bind].
        rewrite IH; [| lia | rewrite keys_raise; assumption | assumption | apply present_raise, I'; left; reflexivity].
        rewrite raise_raise. f_equal. apply raise_ext. intros a. cbn. lia.
      - cbn in P. cbn in SZ. rewrite IHv; [| lia | assumption | intros; apply I'; right; assumption].
        f_equal. }
    rewrite X. f_equal. apply raise_ext. intros a. rewrite tm_members. reflexivity.
  - cbn [size] in SZ. cbn [proper] in P.
    assert (I' : forall v, In (Some v) es -> present_in h v).
    { intros v J a T. apply I. rewrite tm_row. pose proof (sum_In (tmo a) (Some v) es J (tmo_nonneg a)). cbn in H. lia. }
    clear I.
    match goal with |- ?F es = _ => assert (X : F es = Ok (raise h (fun a => sum (tmo a) es))) end.
    { clear - IH SZ N P I'. induction es as [| [v |] ms IHv]; [rewrite raise_0 by reflexivity; reflexivity | |].
      - cbn in P. apply andb_prop in P as [P1 P2]. cbn in SZ.
        rewrite IHv; [| lia | assumption | intros; apply I'; right; assumption]. cbn [bind].
        rewrite IH; [| lia | rewrite keys_raise; assumption | assumption | apply present_raise, I'; left; reflexivity].
        rewrite raise_raise. f_equal. apply raise_ext. intros a. cbn. lia.
      - cbn in P. cbn in SZ. rewrite IHv; [| lia | assumption | intros; apply I'; right; assumption].
        f_equal. }
    rewrite X. f_equal. apply raise_ext. intros a. rewrite tm_row. reflexivity.
Qed.

(** ** Parts of values *)

Lemma nth_replace_same {A} (l : list A) i x y : nth_error l i = Some y -> nth_error (replace l i x) i = Some x.
Proof. revert i. induction l as [| z l IH]; intros [| i]; cbn; try discriminate; auto. Qed.

Lemma nth_replace_other {A} (l : list A) i j x : i <> j -> nth_error (replace l i x) j = nth_error l j.
Proof. revert i j. induction l as [| z l IH]; intros [| i] [| j] D; cbn; try reflexivity; try congruence. apply IH. congruence. Qed.

Lemma replace_replace {A} (l : list A) i x y : replace (replace l i x) i y = replace l i y.
Proof. revert i. induction l as [| z l IH]; intros [| i]; cbn; try reflexivity. rewrite IH. reflexivity. Qed.

Lemma replace_same {A} (l : list A) i x : nth_error l i = Some x -> replace l i x = l.
Proof. revert i. induction l as [| z l IH]; intros [| i] H; cbn in *; try reflexivity; [congruence |]. rewrite IH; auto. Qed.

Lemma length_replace {A} (l : list A) i x : length (replace l i x) = length l.
Proof. revert i. induction l as [| z l IH]; intros [| i]; cbn; auto. Qed.

Lemma sum_replace {A} (f : A -> Z) l i x y : nth_error l i = Some y -> sum f (replace l i x) = sum f l - f y + f x.
Proof.
  revert i. induction l as [| z l IH]; intros [| i] H; cbn in *; try discriminate.
  - inversion H; subst. lia.
  - rewrite (IH _ H). lia.
Qed.

Lemma forallb_replace {A} (f : A -> bool) l i x : forallb f l = true -> f x = true -> forallb f (replace l i x) = true.
Proof.
  revert i. induction l as [| z l IH]; intros [| i] H G; cbn in *; try reflexivity; apply andb_prop in H as [H1 H2].
  - rewrite G. assumption.
  - rewrite H1. apply IH; assumption.
Qed.

Lemma forallb_nth {A} (f : A -> bool) l i x : forallb f l = true -> nth_error l i = Some x -> f x = true.
Proof. intros H N. rewrite forallb_forall in H. apply H. eapply nth_error_In; eassumption. Qed.

Lemma tm_put a : forall p v w x, sub v p = Some w -> tm a (put v p x) = tm a v - tm a w + tm a x.
Proof.
  induction p as [| i p IH]; intros v w x H.
  - cbn in H. inversion H; subst. cbn. lia.
  - destruct v as [y | y | k q | vs | n v | ms | es]; cbn [sub put] in *; try discriminate.
    + destruct (nth_error vs i) as [u |] eqn:N; [| discriminate]. rewrite !tm_parts, (sum_replace _ _ _ _ _ N), (IH _ _ x H). lia.
    + destruct (Nat.eqb i 0); [| discriminate]. apply (IH _ _ x H).
    + destruct (nth_error ms i) as [[u |] |] eqn:N; try discriminate. rewrite !tm_members, (sum_replace _ _ _ _ _ N).
      cbn [tmo]. rewrite (IH _ _ x H). lia.
    + destruct (nth_error es i) as [[u |] |] eqn:N; try discriminate. rewrite !tm_row, (sum_replace _ _ _ _ _ N).
      cbn [tmo]. rewrite (IH _ _ x H). lia.
Qed.

Lemma sub_put_same : forall p v w x, sub v p = Some w -> sub (put v p x) p = Some x.
Proof.
  induction p as [| i p IH]; intros v w x H; [reflexivity |].
  destruct v as [y | y | k q | vs | n v | ms | es]; cbn [sub put] in *; try discriminate.
  - destruct (nth_error vs i) as [u |] eqn:N; [| discriminate]. cbn [sub]. rewrite (nth_replace_same _ _ _ _ N). eauto.
  - destruct (Nat.eqb i 0); [| discriminate]. eauto.
  - destruct (nth_error ms i) as [[u |] |] eqn:N; try discriminate. cbn [sub]. rewrite (nth_replace_same _ _ _ _ N). eauto.
  - destruct (nth_error es i) as [[u |] |] eqn:N; try discriminate. cbn [sub]. rewrite (nth_replace_same _ _ _ _ N). eauto.
Qed.

Lemma put_put : forall p v w x y, sub v p = Some w -> put (put v p x) p y = put v p y.
Proof.
  induction p as [| i p IH]; intros v w x y H; [reflexivity |].
  destruct v as [z | z | k q | vs | n v | ms | es]; cbn [sub put] in *; try discriminate.
  - destruct (nth_error vs i) as [u |] eqn:N; [| discriminate]. cbn [put]. rewrite (nth_replace_same _ _ _ _ N), replace_replace.
    rewrite (IH _ _ x y H). reflexivity.
  - destruct (Nat.eqb i 0); [| discriminate]. rewrite (IH _ _ x y H). reflexivity.
  - destruct (nth_error ms i) as [[u |] |] eqn:N; try discriminate. cbn [put]. rewrite (nth_replace_same _ _ _ _ N), replace_replace.
    rewrite (IH _ _ x y H). reflexivity.
  - destruct (nth_error es i) as [[u |] |] eqn:N; try discriminate. cbn [put]. rewrite (nth_replace_same _ _ _ _ N), replace_replace.
    rewrite (IH _ _ x y H). reflexivity.
Qed.

Lemma put_same : forall p v w, sub v p = Some w -> put v p w = v.
Proof.
  induction p as [| i p IH]; intros v w H; [cbn in *; congruence |].
  destruct v as [z | z | k q | vs | n v | ms | es]; cbn [sub put] in *; try discriminate.
  - destruct (nth_error vs i) as [u |] eqn:N; [| discriminate]. rewrite (IH _ _ H), replace_same; auto.
  - destruct (Nat.eqb i 0); [| discriminate]. rewrite (IH _ _ H). reflexivity.
  - destruct (nth_error ms i) as [[u |] |] eqn:N; try discriminate. rewrite (IH _ _ H), replace_same; auto.
  - destruct (nth_error es i) as [[u |] |] eqn:N; try discriminate. rewrite (IH _ _ H), replace_same; auto.
Qed.

Lemma sub_app : forall p q v w, sub v p = Some w -> sub v (p ++ q) = sub w q.
Proof.
  induction p as [| i p IH]; intros q v w H; [cbn in *; congruence |].
  destruct v as [z | z | k r | vs | n v | ms | es]; cbn [sub app] in *; try discriminate.
  - destruct (nth_error vs i) as [u |]; [| discriminate]. auto.
  - destruct (Nat.eqb i 0); [| discriminate]. auto.
  - destruct (nth_error ms i) as [[u |] |]; try discriminate. auto.
  - destruct (nth_error es i) as [[u |] |]; try discriminate. auto.
Qed.

Lemma put_app : forall p q v w x, sub v p = Some w -> put v (p ++ q) x = put v p (put w q x).
Proof.
  induction p as [| i p IH]; intros q v w x H; [cbn in *; congruence |].
  destruct v as [z | z | k r | vs | n v | ms | es]; cbn [sub put app] in *; try discriminate.
  - destruct (nth_error vs i) as [u |]; [| discriminate]. rewrite (IH q _ _ x H). reflexivity.
  - destruct (Nat.eqb i 0); [| discriminate]. rewrite (IH q _ _ x H). reflexivity.
  - destruct (nth_error ms i) as [[u |] |]; try discriminate. rewrite (IH q _ _ x H). reflexivity.
  - destruct (nth_error es i) as [[u |] |]; try discriminate. rewrite (IH q _ _ x H). reflexivity.
Qed.

Lemma proper_put : forall p v x, proper v = true -> proper x = true -> proper (put v p x) = true.
Proof.
  induction p as [| i p IH]; intros v x H G; [assumption |].
  destruct v as [z | z | k r | vs | n v | ms | es]; cbn [put] in *; try assumption.
  - destruct (nth_error vs i) as [u |] eqn:N; [| assumption]. cbn [proper] in *. apply forallb_replace; [assumption |].
    apply IH; [| assumption]. eapply forallb_nth; eassumption.
  - cbn [proper] in *. auto.
  - destruct (nth_error ms i) as [[u |] |] eqn:N; try assumption. cbn [proper] in *. apply forallb_replace; [assumption |].
    apply IH; [| assumption]. apply (forallb_nth _ _ _ _ H N).
  - destruct (nth_error es i) as [[u |] |] eqn:N; try assumption. cbn [proper] in *. apply forallb_replace; [assumption |].
    apply IH; [| assumption]. apply (forallb_nth _ _ _ _ H N).
Qed.

Lemma proper_sub : forall p v w, proper v = true -> sub v p = Some w -> proper w = true.
Proof.
  induction p as [| i p IH]; intros v w H G; [cbn in *; congruence |].
  destruct v as [z | z | k r | vs | n v | ms | es]; cbn [sub proper] in *; try discriminate.
  - destruct (nth_error vs i) as [u |] eqn:N; [| discriminate]. eapply IH; [| eassumption]. eapply forallb_nth; eassumption.
  - destruct (Nat.eqb i 0); [| discriminate]. eauto.
  - destruct (nth_error ms i) as [[u |] |] eqn:N; try discriminate. eapply IH; [| eassumption]. apply (forallb_nth _ _ _ _ H N).
  - destruct (nth_error es i) as [[u |] |] eqn:N; try discriminate. eapply IH; [| eassumption]. apply (forallb_nth _ _ _ _ H N).
Qed.

Lemma tm_sub a : forall p v w, sub v p = Some w -> tm a w <= tm a v.
Proof. intros p v w H. pose proof (tm_put a p v w (Plain 0) H). pose proof (tm_nonneg a (put v p (Plain 0))). assert (tm a (Plain 0) = 0) by reflexivity. lia. Qed.

Lemma sizes_replace vs i x y : nth_error vs i = Some y -> (sizes (replace vs i x) + size y = sizes vs + size x)%nat.
Proof.
  revert i. induction vs as [| z l IH]; intros [| i] H; cbn in *; try discriminate.
  - inversion H; subst. fold (sizes l). lia.
  - specialize (IH _ H). fold (sizes l). fold (sizes (replace l i x)). lia.
Qed.

Lemma sizes_replace_some vs i x y : nth_error vs i = Some (Some y) ->
  (sizes (present (replace vs i (Some x))) + size y = sizes (present vs) + size x)%nat.
Proof.
  revert i. induction vs as [| z l IH]; intros [| i] H; cbn in *; try discriminate.
  - inversion H; subst. cbn. fold (sizes (present l)). lia.
  - specialize (IH _ H). destruct z; cbn; [| assumption]. fold (sizes (present l)). fold (sizes (present (replace l i (Some x)))). lia.
Qed.

Lemma size_put : forall p v w x, sub v p = Some w -> (size (put v p x) + size w = size v + size x)%nat.
Proof.
  induction p as [| i p IH]; intros v w x H.
  - cbn in H. inversion H; subst. cbn. lia.
  - destruct v as [y | y | k q | vs | n v | ms | es]; cbn [sub put] in *; try discriminate.
    + destruct (nth_error vs i) as [u |] eqn:N; [| discriminate]. cbn [size]. fold (sizes vs).
      match goal with |- context [fold_right _ _ ?l] => fold (sizes l) end.
      pose proof (sizes_replace vs i (put u p x) u N). specialize (IH _ _ x H). lia.
    + destruct (Nat.eqb i 0); [| discriminate]. cbn [size]. specialize (IH _ _ x H). lia.
    + destruct (nth_error ms i) as [[u |] |] eqn:N; try discriminate. cbn [size]. rewrite !size_members.
      pose proof (sizes_replace_some ms i (put u p x) u N). specialize (IH _ _ x H). lia.
    + destruct (nth_error es i) as [[u |] |] eqn:N; try discriminate. cbn [size]. rewrite !size_members.
      pose proof (sizes_replace_some es i (put u p x) u N). specialize (IH _ _ x H). lia.
Qed.

Lemma sub_put_diverge v p q w x : sub v p = Some w -> diverge p q -> sub (put v p x) q = sub v q.
Proof.
  intros H (c & i & j & p' & q' & -> & -> & D). revert v w H. induction c as [| z c IH]; intros v w H; cbn [app] in *.
  - destruct v as [y | y | k r | vs | n v | ms | es]; cbn [sub put] in *; try discriminate.
    + destruct (nth_error vs i) as [u |] eqn:N; [| discriminate]. cbn [sub]. rewrite nth_replace_other by assumption. reflexivity.
    + destruct (Nat.eqb i 0) eqn:E; [| discriminate]. destruct (Nat.eqb j 0) eqn:F; [lia | reflexivity].
    + destruct (nth_error ms i) as [[u |] |] eqn:N; try discriminate. cbn [sub]. rewrite nth_replace_other by assumption. reflexivity.
    + destruct (nth_error es i) as [[u |] |] eqn:N; try discriminate. cbn [sub]. rewrite nth_replace_other by assumption. reflexivity.
  - destruct v as [y | y | k r | vs | n v | ms | es]; cbn [sub put] in *; try discriminate.
    + destruct (nth_error vs z) as [u |] eqn:N; [| discriminate]. cbn [sub]. rewrite (nth_replace_same _ _ _ _ N). eauto.
    + destruct (Nat.eqb z 0); [| discriminate]. eauto.
    + destruct (nth_error ms z) as [[u |] |] eqn:N; try discriminate. cbn [sub]. rewrite (nth_replace_same _ _ _ _ N). eauto.
    + destruct (nth_error es z) as [[u |] |] eqn:N; try discriminate. cbn [sub]. rewrite (nth_replace_same _ _ _ _ N). eauto.
Qed.
