(** Proofs about whole programs. *)
From Coq Require Import ZifyBool ZifyNat.
From Verif Require Import Base Life_Model Life_Spec Life_Proofs Life_Memory Life_Assign.
Open Scope Z_scope.
Open Scope list_scope.
Open Scope result_scope.

Local Arguments tm : simpl never.
Local Arguments lv : simpl never.
Local Arguments Z.add : simpl never.

Lemma find_unique h a n : NoDup (map fst h) -> In (a, n) h -> Life_Model.find h a = Some n.
Proof.
  induction h as [| [b x] h IH]; [contradiction |]. cbn [map fst Life_Model.find]. intros N I. inversion N; subst. destruct I as [I | I].
  - inversion I; subst. rewrite Z.eqb_refl. reflexivity.
  - destruct (b =? a) eqn:E; [| auto]. exfalso. assert (b = a) by lia. subst. apply H1. apply (in_map fst) in I. exact I.
Qed.

Lemma times_references m a : NoDup (map fst (objects m)) -> (forall s n, find (objects m) s = Some n -> 0 < count n) ->
  times a (references m) = total m a.
Proof.
  intros N P. unfold references, total. rewrite times_app, !times_flat. f_equal.
  - apply sum_ext. intros [v |]; reflexivity.
  - unfold L. assert (Q : forall p, In p (objects m) -> 0 < count (snd p)).
    { intros [s n] I. apply (P s). apply find_unique; assumption. }
    clear N P. induction (objects m) as [| p h IH]; [reflexivity |]. cbn [sum]. rewrite IH by (intros; apply Q; right; assumption). f_equal.
    unfold lv. rewrite (proj2 (Z.ltb_lt _ _)); [reflexivity |]. apply Q. left. reflexivity.
Qed.

Lemma good_sound m : good m zero -> sound m.
Proof.
  intros [K C D P]. assert (Q : forall s n, find (objects m) s = Some n -> 0 < count n) by (intros; eapply C; eassumption).
  constructor; [assumption | | | assumption].
  - intros a n F. rewrite times_references by assumption. destruct (C _ _ F). unfold zero in *. lia.
  - intros a I. apply times_In in I. rewrite times_references in I by assumption. apply D. unfold zero. lia.
Qed.

Lemma sound_good m : sound m -> good m zero.
Proof.
  intros [K C D P]. assert (Q : forall s n, find (objects m) s = Some n -> 0 < count n) by (intros s n F; destruct (C _ _ F); lia).
  constructor; [assumption | | | assumption].
  - intros a n F. rewrite <- times_references by assumption. destruct (C _ _ F). unfold zero. lia.
  - intros a I. apply D. apply times_In. rewrite times_references by assumption. unfold zero in I. lia.
Qed.

(** ** Values that a program of the model has *)

Fixpoint flat (v : val) : bool :=
  match v with
  | Plain _ | Ref _ _ => true
  | Parts vs => forallb flat vs
  | OneOf _ v => flat v
  | _ => false
  end.

Definition oflat (o : option val) : bool := match o with Some v => flat v | None => true end.

Definition layer (v : val) : bool :=
  match v with
  | Plain _ => true
  | Parts vs => forallb flat vs
  | Members ms | Row ms => forallb oflat ms
  | _ => false
  end.

Lemma flat_settled : forall n v w, (size v <= n)%nat -> flat v = true -> settled false v w = true.
Proof.
  induction n as [| n IH]; intros v w SZ F; [pose proof (size_pos v); lia |]. destruct v as [x | x | k p | vs | l v | ms | es]; try discriminate; try reflexivity.
  - destruct w as [y | y | k' q | ws | l' w | ls | es]; try reflexivity. cbn [settled flat size] in *. fold (sizes vs) in SZ.
    revert ws. induction vs as [| v vs IV]; intros [| w ws]; try reflexivity. cbn in F. apply andb_prop in F as [F1 F2].
    cbn in SZ. fold (sizes vs) in SZ. rewrite IH by (assumption || lia). apply IV; [lia | assumption].
  - destruct w as [y | y | k' q | ws | l' w | ls | es]; try reflexivity. cbn [settled flat size] in *. rewrite IH by (assumption || lia). apply orb_true_r.
Qed.

Lemma flat_sub : forall p v w, flat v = true -> sub v p = Some w -> flat w = true.
Proof.
  induction p as [| i p IH]; intros v w F S; [inversion S; subst; assumption |]. destruct v as [x | x | k q | vs | l v | ms | es]; try discriminate.
  - cbn [sub flat] in *. destruct (nth_error vs i) as [u |] eqn:N; [| discriminate]. eapply IH; [| eassumption]. eapply forallb_nth; eassumption.
  - cbn [sub flat] in *. destruct (Nat.eqb i 0); [| discriminate]. eapply IH; eassumption.
Qed.

Lemma layer_sub p v w : layer v = true -> p <> [] -> sub v p = Some w -> flat w = true.
Proof.
  destruct p as [| i p]; [congruence |]. intros F _ S. destruct v as [x | x | k q | vs | l v | ms | es]; try discriminate; cbn [sub layer] in *.
  - destruct (nth_error vs i) as [u |] eqn:N; [| discriminate]. eapply flat_sub; [| eassumption]. eapply forallb_nth; eassumption.
  - destruct (nth_error ms i) as [[u |] |] eqn:N; try discriminate. eapply flat_sub; [| eassumption]. apply (forallb_nth _ _ _ _ F N).
  - destruct (nth_error es i) as [[u |] |] eqn:N; try discriminate. eapply flat_sub; [| eassumption]. apply (forallb_nth _ _ _ _ F N).
Qed.

Lemma flat_put x : flat x = true -> forall p v, flat v = true -> flat (put v p x) = true.
Proof.
  intros X. induction p as [| i p IH]; intros v F; [assumption |]. destruct v as [y | y | k q | vs | l v | ms | es]; try discriminate; try reflexivity; cbn [put flat] in *.
  - destruct (nth_error vs i) as [u |] eqn:N; [| assumption]. cbn [flat]. apply forallb_replace; [assumption |]. apply IH. eapply forallb_nth; eassumption.
  - apply IH. assumption.
Qed.

Lemma layer_put p v x : layer v = true -> flat x = true -> p <> [] -> layer (put v p x) = true.
Proof.
  destruct p as [| i p]; [congruence |]. intros F X _. destruct v as [y | y | k q | vs | l v | ms | es]; try discriminate; try reflexivity; cbn [put layer] in *.
  - destruct (nth_error vs i) as [u |] eqn:N; [| assumption]. cbn [layer]. apply forallb_replace; [assumption |].
    apply flat_put; [assumption |]. eapply forallb_nth; eassumption.
  - destruct (nth_error ms i) as [[u |] |] eqn:N; try assumption. cbn [layer]. apply forallb_replace; [assumption |].
    apply flat_put; [assumption |]. apply (forallb_nth _ _ _ _ F N).
  - destruct (nth_error es i) as [[u |] |] eqn:N; try assumption. cbn [layer]. apply forallb_replace; [assumption |].
    apply flat_put; [assumption |]. apply (forallb_nth _ _ _ _ F N).
Qed.

Record fine (m : mem) : Prop := Fine {
  f_good : good m zero;
  f_vars : forall x v, whole m (Var x) = Some v -> flat v = true;
  f_objects : forall a v, whole m (At a) = Some v -> layer v = true
}.

Definition ends_well (r : result mem) : Prop := match r with Ok m => fine m | Err e => harmless e end.

Lemma type_error : harmless TypeError.
Proof. split; discriminate. Qed.

Lemma index_error : harmless IndexError.
Proof. split; discriminate. Qed.

(** ** Making variables *)

Lemma good_push m E v : good m (fun a => E a + tm a v) -> proper v = true -> good (push m v) E.
Proof.
  intros [K C D P] X. assert (T : forall a, total (push m v) a = total m a + tm a v).
  { intros a. unfold total. cbn [push vars objects]. rewrite sum_app. cbn [sum tmo]. lia. }
  constructor; cbn [push objects].
  - assumption.
  - intros a n F. rewrite T. destruct (C _ _ F). lia.
  - intros a. rewrite T. intros H. apply D. lia.
  - intros b w H. destruct b as [y | s].
    + apply whole_var in H. cbn [push vars] in H. destruct (Nat.lt_ge_cases y (length (vars m))) as [LT | GE].
      * rewrite nth_error_app1 in H by assumption. apply (P (Var y)). apply whole_var. assumption.
      * rewrite nth_error_app2 in H by assumption. destruct (y - length (vars m))%nat as [| z]; [cbn in H; congruence | destruct z; discriminate].
    + apply (P (At s)). exact H.
Qed.

Lemma push_fine m v : good m (fun a => tm a v) -> (forall x v, whole m (Var x) = Some v -> flat v = true) ->
  (forall a v, whole m (At a) = Some v -> layer v = true) -> proper v = true -> flat v = true -> fine (push m v).
Proof.
  intros G V O P F. constructor.
  - apply good_push; [| assumption]. revert G. apply good_ext. reflexivity.
  - intros y w H. apply whole_var in H. cbn [push vars] in H. destruct (Nat.lt_ge_cases y (length (vars m))) as [LT | GE].
    + rewrite nth_error_app1 in H by assumption. apply (V y). apply whole_var. assumption.
    + rewrite nth_error_app2 in H by assumption. destruct (y - length (vars m))%nat as [| z]; [cbn in H; congruence | destruct z; discriminate].
  - intros a w H. apply (O a). exact H.
Qed.

Lemma copy_push m v : fine m -> proper v = true -> flat v = true -> (forall a, 0 < tm a v -> find (objects m) a <> None) ->
  ends_well (m1 <- copies m v ;; Ok (push m1 v)).
Proof.
  intros [G V O] P F I. destruct (copies_good m _ v G P I) as (m1 & E & G1 & A). rewrite E. cbn [bind ends_well].
  apply push_fine; auto.
  - intros x w H. rewrite (alike_whole _ _ _ A) in H. eauto.
  - intros a w H. rewrite (alike_whole _ _ _ A) in H. eauto.
Qed.

Lemma values_well m ys : fine m ->
  match values m ys with
  | Ok vs => forallb proper vs = true /\ forallb flat vs = true /\ (forall a, 0 < sum (tm a) vs -> find (objects m) a <> None) /\ length vs = length ys
  | Err e => harmless e
  end.
Proof.
  intros I. induction ys as [| y ys IH]; cbn [values].
  - split; [reflexivity |]. split; [reflexivity |]. split; [| reflexivity]. intros a H. cbn in H. lia.
  - destruct (whole m (Var y)) as [v |] eqn:H; [| apply type_error]. destruct (values m ys) as [vs | e]; cbn [bind]; [| assumption].
    destruct IH as (P & F & Q & L). cbn [forallb length sum]. rewrite P, F, (g_proper _ _ (f_good _ I) _ _ H), (f_vars _ I _ _ H).
    split; [reflexivity |]. split; [reflexivity |]. split; [| congruence].
    intros a T. destruct (Z_lt_le_dec 0 (tm a v)) as [B | B].
    + destruct (good_found m zero (Var y) v a (f_good _ I) zero_nonneg H) as (n & N); [apply times_In; assumption | congruence].
    + apply Q. lia.
Qed.

Lemma tm_made a k vs : tm a (made k vs) = 0 \/ tm a (made k vs) = sum (tm a) vs.
Proof.
  destruct k; cbn [made]; [left; reflexivity | right..]; rewrite ?tm_row, ?tm_members, ?tm_parts; try reflexivity.
  all: induction vs as [| v vs IH]; [reflexivity | cbn [map sum tmo]; rewrite IH; reflexivity].
Qed.

Lemma proper_made k vs : forallb proper vs = true -> proper (made k vs) = true.
Proof.
  intros P. destruct k; cbn [made proper]; try reflexivity; try assumption.
  all: rewrite forallb_forall in P |- *; intros o I; apply in_map_iff in I as (v & <- & I); apply (P v); assumption.
Qed.

Lemma layer_made k vs : forallb flat vs = true -> layer (made k vs) = true.
Proof.
  intros P. destruct k; cbn [made layer]; try reflexivity; try assumption.
  all: rewrite forallb_forall in P |- *; intros o I; apply in_map_iff in I as (v & <- & I); apply (P v); assumption.
Qed.

Lemma good_new m a b k : good m (fun x => tm x b) -> find (objects m) a = None -> proper b = true ->
  good (push (Mem (vars m) ((a, Node 1 b) :: objects m)) (Ref k (Some a))) zero.
Proof.
  intros [K C D P] F X.
  assert (T : total m a = 0 /\ tm a b = 0).
  { pose proof (tm_nonneg a b). assert (0 <= total m a).
    { unfold total. pose proof (sum_nonneg (tmo a) (vars m) (tmo_nonneg a)). pose proof (L_nonneg (objects m) a). lia. }
    destruct (Z_lt_le_dec 0 (total m a + tm a b)) as [B | B]; [| lia]. exfalso. apply (D a); assumption. }
  apply good_push; [| reflexivity].
  assert (TT : forall x, total (Mem (vars m) ((a, Node 1 b) :: objects m)) x = total m x + tm x b).
  { intros x. unfold total, L. cbn [vars objects sum snd]. unfold lv at 1. cbn [count body]. change (0 <? 1) with true. cbn beta iota. lia. }
  constructor; cbn [objects].
  - cbn [map fst]. constructor; [| assumption]. rewrite <- find_keys. congruence.
  - intros x n. cbn [Life_Model.find]. rewrite TT, tm_ref. unfold zero. destruct (a =? x) eqn:E; intros H.
    + inversion H; subst. cbn [count]. assert (a = x) by lia. subst. lia.
    + destruct (C _ _ H). lia.
  - intros x. rewrite TT, tm_ref. unfold zero. cbn [Life_Model.find]. destruct (a =? x) eqn:E; intros H; [discriminate |]. apply D. lia.
  - intros c v H. destruct c as [y | s]; [apply (P (Var y)); exact H |]. apply whole_at in H as (n & H & <-). cbn [objects Life_Model.find] in H.
    destruct (a =? s); [inversion H; subst; assumption |]. apply (P (At s)). apply whole_at. eauto.
Qed.

(** ** Changing objects *)

Lemma referred_held m k x a : referred m k x = Ok a -> held m (At a) a /\ exists l, whole m (Var x) = Some (Ref l (Some a)) /\ k l = true.
Proof.
  unfold referred. destruct (whole m (Var x)) as [[| | l [b |] | | | |] |] eqn:H; try discriminate. destruct (k l) eqn:K; [| discriminate]. intros E.
  inversion E; subst. split; [| eauto]. eapply by_variable; [| exact H |]; [discriminate | left; reflexivity].
Qed.

Lemma referred_fails m k x e : referred m k x = Err e -> harmless e.
Proof.
  unfold referred. intros H. assert (e = TypeError) as ->; [| apply type_error].
  destruct (whole m (Var x)) as [[| | l [b |] | | | |] |]; try congruence. destruct (k l); congruence.
Qed.

Lemma referred_whole m k x a : good m zero -> referred m k x = Ok a -> exists b, whole m (At a) = Some b.
Proof.
  intros G H. apply referred_held in H as (_ & l & H & _).
  destruct (good_found m zero (Var x) _ a G zero_nonneg H) as (n & F); [left; reflexivity |]. exists (body n). apply whole_at. eauto.
Qed.

Lemma changed_fine m m' a p x b : fine m -> good m' zero -> changed m m' (Place (At a) p) x -> whole m (At a) = Some b -> layer (put b p x) = true -> fine m'.
Proof.
  intros [G V O] G' (w & W & VV & A) H LP. constructor; [assumption | |]; apply write_inv in W as (v & u & H' & S & ->);
    cbn [root path] in *; rewrite H in H'; inversion H'; subst v.
  - intros y z Q. apply (V y). rewrite <- Q. cbn [whole]. rewrite VV. cbn [store]. destruct (find (objects m) a); reflexivity.
  - intros s z Q. apply A in Q. destruct (Z.eq_dec s a) as [-> | D].
    + rewrite (whole_store_same _ _ _ _ H) in Q. inversion Q; subst. assumption.
    + rewrite whole_store_other in Q by congruence. eauto.
Qed.

Lemma safe_step m a y p : held m (At a) a -> safe m (Place (At a) p) (Place (Var y) []).
Proof. intros H. split; [exact H |]. left. split; [discriminate | exact I]. Qed.

Lemma assign_fine m a p b old new y : fine m -> held m (At a) a -> whole m (At a) = Some b -> p <> [] -> sub b p = Some old ->
  whole m (Var y) = Some new -> fits old new = true -> ends_well (assigns false m (Place (At a) p) (Place (Var y) [])).
Proof.
  intros I H W NE S N F. assert (R1 : read m (Place (At a) p) = Ok old) by (apply read_ok; exists b; auto).
  assert (R2 : read m (Place (Var y) []) = Ok new) by (apply read_ok; exists new; auto).
  unfold assigns. rewrite R1. cbn [bind].
  destruct (assign_well (size old) m (Place (At a) p) (Place (Var y) []) old new) as (m' & E & G' & C'); auto.
  - apply f_good; assumption.
  - apply safe_step. assumption.
  - eapply flat_settled; [apply le_n |]. eapply layer_sub; [| eassumption | eassumption]. eapply f_objects; eassumption.
  - rewrite E. cbn [ends_well]. eapply changed_fine; [exact I | exact G' | exact C' | exact W |]. apply layer_put; [eapply f_objects; eassumption | eapply f_vars; eassumption | assumption].
Qed.

Lemma release_fine m a b hole v : fine m -> held m (At a) a -> whole m (At a) = Some b -> proper hole = true -> layer hole = true ->
  (size hole <= size b)%nat -> (forall x, tm x b = tm x hole + tm x v) -> proper v = true ->
  ends_well (m1 <- destroys false m v ;; write m1 (Place (At a) []) hole).
Proof.
  intros I H W PH LH SZ T PV.
  destruct (release false m zero (Place (At a) []) b hole v (f_good _ I) zero_nonneg) as (m1 & g & D & _ & WH & CG & GG); auto.
  - apply read_ok. exists b. auto.
  - rewrite D. cbn [bind]. rewrite WH. cbn [ends_well]. eapply changed_fine; [exact I | exact GG | exact CG | exact W | assumption].
Qed.

Lemma add_fine m a b full new : fine m -> whole m (At a) = Some b -> proper full = true -> layer full = true ->
  (forall x, tm x full = tm x b + tm x new) -> proper new = true -> (forall x, 0 < tm x new -> find (objects m) x <> None) ->
  ends_well (m1 <- copies m new ;; write m1 (Place (At a) []) full) /\ forall m1, copies m new = Ok m1 -> alike m m1.
Proof.
  intros I W PF LF T PN Q. destruct (copies_good m zero new (f_good _ I) PN Q) as (m1 & E & G1 & A). split; [| intros m2 E2; congruence].
  rewrite E. cbn [bind].
  assert (R : read m1 (Place (At a) []) = Ok b) by (rewrite (alike_read _ _ _ A); apply read_ok; exists b; auto).
  destruct (good_write _ _ _ _ full G1 R PF) as (m2 & W2 & G2). rewrite W2. cbn [ends_well].
  apply (changed_fine m m2 a [] full b I); [| | exact W | exact LF].
  - revert G2. apply good_ext. intros x. rewrite T. unfold zero. lia.
  - eapply alike_changed; [exact A |]. apply write_changed. assumption.
Qed.

Lemma unset_fine m a b k v : fine m -> held m (At a) a -> whole m (At a) = Some b -> member b k = Some v ->
  ends_well (m1 <- destroys false m v ;; write m1 (Place (At a) []) (unset b k)).
Proof.
  intros I H W M. pose proof (g_proper _ _ (f_good _ I) _ _ W) as P. pose proof (f_objects _ I _ _ W) as F.
  unfold member in M. destruct b as [x | x | l p | vs | n u | ms | es]; try discriminate. cbn [unset].
  destruct (nth_error ms k) as [o |] eqn:N; [| discriminate]. subst o. cbn [proper layer] in P, F.
  apply (release_fine m a (Members ms)); auto.
  - cbn [proper]. apply forallb_replace; [assumption | reflexivity].
  - cbn [layer]. apply forallb_replace; [assumption | reflexivity].
  - cbn [size]. rewrite !size_members. pose proof (present_unset ms k). lia.
  - intros x. rewrite !tm_members, (sum_replace _ _ _ _ _ N). cbn [tmo]. lia.
  - apply (forallb_nth _ _ _ _ P N).
Qed.

Lemma forallb_cut {A} (f : A -> bool) l i : forallb f l = true -> forallb f (firstn i l ++ skipn (S i) l) = true.
Proof.
  intros H. rewrite forallb_forall in H |- *. intros x I. apply H. apply in_app_or in I as [I | I];
    [rewrite <- (firstn_skipn i l) | rewrite <- (firstn_skipn (S i) l)]; apply in_or_app; auto.
Qed.

Lemma sum_cut {A} (f : A -> Z) l i x : nth_error l i = Some x -> sum f l = sum f (firstn i l ++ skipn (S i) l) + f x.
Proof.
  revert i. induction l as [| y l IH]; intros [| i] H; try discriminate.
  - cbn in H. inversion H; subst. rewrite firstn_O, skipn_cons, skipn_O. cbn [app sum]. lia.
  - cbn [nth_error] in H. rewrite firstn_cons, (skipn_cons (S i)). cbn [app sum]. rewrite (IH _ H). lia.
Qed.

Lemma present_cut ms i : (sizes (present (firstn i ms ++ skipn (S i) ms)) <= sizes (present ms))%nat.
Proof.
  revert i. induction ms as [| o ms IH]; intros [| i]; [cbn; lia | cbn; lia | |].
  - rewrite firstn_O, skipn_cons, skipn_O. cbn [app]. destruct o; cbn; fold (sizes (present ms)); lia.
  - rewrite firstn_cons, (skipn_cons (S i)). cbn [app]. specialize (IH i).
    destruct o; cbn [present]; [cbn [sizes fold_right]; fold (sizes (present ms)); fold (sizes (present (firstn i ms ++ skipn (S i) ms))); lia | assumption].
Qed.

Lemma good_drop m x v : good m zero -> whole m (Var x) = Some v -> good (Mem (replace (vars m) x None) (objects m)) (fun a => tm a v).
Proof.
  intros [K C D P] H. apply whole_var in H.
  assert (T : forall a, total (Mem (replace (vars m) x None) (objects m)) a = total m a - tm a v).
  { intros a. unfold total. cbn [vars objects]. rewrite (sum_replace _ _ _ _ _ H). cbn [tmo]. lia. }
  constructor; cbn [objects].
  - assumption.
  - intros a n F. rewrite T. destruct (C _ _ F). unfold zero in *. lia.
  - intros a. rewrite T. intros Q. apply D. unfold zero. lia.
  - intros [y | s] w Q; [| apply (P (At s)); exact Q]. apply whole_var in Q. cbn [vars] in Q. apply (P (Var y)). apply whole_var.
    destruct (Nat.eq_dec x y) as [-> | N]; [rewrite (nth_replace_same _ _ _ _ H) in Q; discriminate | rewrite nth_replace_other in Q by assumption; assumption].
Qed.

Lemma found m b v x : fine m -> whole m b = Some v -> 0 < tm x v -> find (objects m) x <> None.
Proof.
  intros I H T. destruct (good_found m zero b v x (f_good _ I) zero_nonneg H) as (n & F); [apply times_In; assumption | congruence].
Qed.

Theorem perform_well m s : fine m -> ends_well (perform m s).
Proof.
  intros I. destruct s as [x | a k ys | ys | n y | x | x p | x p y | x k y | x k | x y | x i | x | x]; cbn [perform].
  - cbn [ends_well]. apply push_fine; try reflexivity.
    + generalize (f_good _ I). apply good_ext. reflexivity.
    + apply f_vars. assumption.
    + apply f_objects. assumption.
  - pose proof (values_well m ys I) as V. destruct (values m ys) as [vs | e]; cbn [bind]; [| exact V]. destruct V as (P & F & Q & _).
    destruct (find (objects m) a) as [n |] eqn:N; [apply type_error |].
    destruct (copies_good m zero (made k vs) (f_good _ I) (proper_made _ _ P)) as (m1 & E & G1 & A).
    { intros x T. apply Q. destruct (tm_made x k vs); lia. }
    rewrite E. cbn [bind ends_well]. constructor.
    + apply good_new; [revert G1; apply good_ext; reflexivity | | apply proper_made; assumption].
      destruct A as [_ A]. specialize (A a). cbn in A. rewrite N in A. destruct (find (objects m1) a); [discriminate | reflexivity].
    + intros y v H. apply whole_var in H. cbn [push vars] in H. destruct A as [A _]. rewrite A in H. destruct (Nat.lt_ge_cases y (length (vars m))) as [LT | GE].
      * rewrite nth_error_app1 in H by assumption. apply (f_vars _ I y). apply whole_var. assumption.
      * rewrite nth_error_app2 in H by assumption. destruct (y - length (vars m))%nat as [| z]; [cbn in H; inversion H; reflexivity | destruct z; discriminate].
    + intros s v H. apply whole_at in H as (n & H & <-). cbn [push objects Life_Model.find] in H. destruct (a =? s).
      * inversion H; subst. apply layer_made. assumption.
      * apply (f_objects _ I s). rewrite <- (alike_whole _ _ _ A). apply whole_at. eauto.
  - pose proof (values_well m ys I) as V. destruct (values m ys) as [vs | e]; cbn [bind]; [| exact V]. destruct V as (P & F & Q & _).
    apply copy_push; auto. intros a. rewrite tm_parts. apply Q.
  - pose proof (values_well m [y] I) as V. destruct (values m [y]) as [vs | e]; cbn [bind]; [| exact V]. destruct V as (P & F & Q & LN).
    destruct vs as [| v [| u vs]]; try discriminate. cbn [hd forallb sum] in *. apply andb_prop in P as [P _]. apply andb_prop in F as [F _].
    apply copy_push; auto. intros a T. apply Q. replace (tm a (OneOf n v)) with (tm a v) in T by reflexivity. lia.
  - pose proof (values_well m [x] I) as V. destruct (values m [x]) as [vs | e]; cbn [bind]; [| exact V]. destruct V as (P & F & Q & LN).
    destruct vs as [| v [| u vs]]; try discriminate. cbn [hd forallb sum] in *. apply andb_prop in P as [P _]. apply andb_prop in F as [F _].
    apply copy_push; auto. intros a T. apply Q. lia.
  - match goal with |- context [referred m ?f x] => destruct (referred m f x) as [a | e] eqn:R end; cbn [bind]; [| eapply referred_fails; eassumption].
    destruct p as [| i p]; [apply type_error |]. destruct (referred_whole _ _ _ _ (f_good _ I) R) as (b & W). rewrite W.
    destruct (sub b (i :: p)) as [v |] eqn:S; [| apply type_error]. apply copy_push; auto.
    + eapply proper_sub; [| eassumption]. eapply g_proper; [apply f_good |]; eassumption.
    + eapply layer_sub; [eapply f_objects; eassumption | | eassumption]. discriminate.
    + intros s T. apply (found m (At a) b); auto. pose proof (tm_sub s _ _ _ S). lia.
  - match goal with |- context [referred m ?f x] => destruct (referred m f x) as [a | e] eqn:R end; cbn [bind]; [| eapply referred_fails; eassumption].
    destruct p as [| i p]; [apply type_error |]. destruct (referred_whole _ _ _ _ (f_good _ I) R) as (b & W). rewrite W.
    destruct (whole m (Var y)) as [new |] eqn:N; [| apply type_error]. destruct (sub b (i :: p)) as [old |] eqn:S; [| apply type_error].
    destruct (fits old new) eqn:F; [| apply type_error]. eapply assign_fine; try eassumption; [eapply referred_held; eassumption | discriminate].
  - match goal with |- context [referred m ?f x] => destruct (referred m f x) as [a | e] eqn:R end; cbn [bind]; [| eapply referred_fails; eassumption].
    destruct (referred_whole _ _ _ _ (f_good _ I) R) as (b & W). rewrite W. apply referred_held in R as [H _].
    destruct (whole m (Var y)) as [new |] eqn:N; [| apply type_error].
    destruct b as [z | z | l p | vs | n u | ms | es]; try apply type_error.
    assert (RD : read m (Place (At a) []) = Ok (Members ms)) by (apply read_ok; exists (Members ms); auto).
    destruct (nth_error ms k) as [[old |] |] eqn:E; [| | apply type_error].
    + destruct (fits old new) eqn:F; [| apply type_error]. unfold set_attribute. rewrite RD. cbn [bind]. rewrite member_of, E.
      eapply assign_fine; try eassumption; [discriminate |]. cbn [sub]. rewrite E. reflexivity.
    + unfold set_attribute. rewrite RD. cbn [bind]. rewrite member_of, E.
      assert (RN : read m (Place (Var y) []) = Ok new) by (apply read_ok; exists new; auto). rewrite RN. cbn [bind].
      pose proof (g_proper _ _ (f_good _ I) _ _ W) as P. pose proof (f_objects _ I _ _ W) as LY. pose proof (g_proper _ _ (f_good _ I) _ _ N) as PN.
      destruct (add_fine m a (Members ms) (Members (replace ms k (Some new))) new) as [A B]; auto.
      * cbn [proper] in *. apply forallb_replace; assumption.
      * cbn [layer] in *. apply forallb_replace; [assumption |]. eapply f_vars; eassumption.
      * intros s. rewrite !tm_members, (sum_replace _ _ _ _ _ E). cbn [tmo]. lia.
      * intros s T. eapply found; eassumption.
      * destruct (copies m new) as [m1 | e]; cbn [bind] in *; [| assumption]. rewrite (alike_read _ _ _ (B m1 eq_refl)), RD. exact A.
  - match goal with |- context [referred m ?f x] => destruct (referred m f x) as [a | e] eqn:R end; cbn [bind]; [| eapply referred_fails; eassumption].
    destruct (referred_whole _ _ _ _ (f_good _ I) R) as (b & W). apply referred_held in R as [H _].
    assert (RD : read m (Place (At a) []) = Ok b) by (apply read_ok; exists b; auto). unfold del_attribute. rewrite RD. cbn [bind].
    destruct (member b k) as [v |] eqn:M; [| exact I]. apply unset_fine; assumption.
  - match goal with |- context [referred m ?f x] => destruct (referred m f x) as [a | e] eqn:R end; cbn [bind]; [| eapply referred_fails; eassumption].
    destruct (referred_whole _ _ _ _ (f_good _ I) R) as (b & W). destruct (whole m (Var y)) as [new |] eqn:N; [| apply type_error].
    assert (RD : read m (Place (At a) []) = Ok b) by (apply read_ok; exists b; auto).
    assert (RN : read m (Place (Var y) []) = Ok new) by (apply read_ok; exists new; auto).
    unfold append. rewrite RD. cbn [bind]. destruct b as [z | z | l p | vs | n u | ms | es]; try apply type_error. rewrite RN. cbn [bind].
    pose proof (g_proper _ _ (f_good _ I) _ _ W) as P. pose proof (f_objects _ I _ _ W) as LY. pose proof (g_proper _ _ (f_good _ I) _ _ N) as PN.
    pose proof (f_vars _ I _ _ N) as FN.
    apply (add_fine m a (Row es) (Row (es ++ [Some new])) new); auto.
    + cbn [proper] in *. rewrite forallb_app, P. cbn. rewrite PN. reflexivity.
    + cbn [layer] in *. rewrite forallb_app, LY. cbn. rewrite FN. reflexivity.
    + intros s. rewrite !tm_row, sum_app. cbn [sum tmo]. lia.
    + intros s T. eapply found; eassumption.
  - match goal with |- context [referred m ?f x] => destruct (referred m f x) as [a | e] eqn:R end; cbn [bind]; [| eapply referred_fails; eassumption].
    destruct (referred_whole _ _ _ _ (f_good _ I) R) as (b & W). rewrite W. apply referred_held in R as [H _].
    assert (RD : read m (Place (At a) []) = Ok b) by (apply read_ok; exists b; auto).
    destruct b as [z | z | l p | vs | n u | ms | es]; try apply type_error. destruct (nth_error es i) as [[v |] |] eqn:E; try apply index_error.
    unfold remove. rewrite RD. cbn [bind]. rewrite E.
    pose proof (g_proper _ _ (f_good _ I) _ _ W) as P. pose proof (f_objects _ I _ _ W) as LY. cbn [proper layer] in *.
    apply (release_fine m a (Row es)); auto.
    + cbn [proper]. apply forallb_cut. assumption.
    + cbn [layer]. apply forallb_cut. assumption.
    + cbn [size]. rewrite !size_members. pose proof (present_cut es i). lia.
    + intros s. rewrite !tm_row. rewrite (sum_cut _ _ _ _ E). reflexivity.
    + apply (forallb_nth _ _ _ _ P E).
  - match goal with |- context [referred m ?f x] => destruct (referred m f x) as [a | e] eqn:R end; cbn [bind]; [| eapply referred_fails; eassumption].
    destruct (referred_whole _ _ _ _ (f_good _ I) R) as (b & W). apply referred_held in R as [H _].
    assert (RD : read m (Place (At a) []) = Ok b) by (apply read_ok; exists b; auto). unfold cell_clear. rewrite RD. cbn [bind].
    destruct (member b 0) as [v |] eqn:M; [| exact I]. apply unset_fine; assumption.
  - destruct (whole m (Var x)) as [v |] eqn:H; [| apply type_error].
    pose proof (good_drop m x v (f_good _ I) H) as G.
    destruct (destroys_good false (Mem (replace (vars m) x None) (objects m)) zero v) as (m' & E & G' & V & A).
    + revert G. apply good_ext. intros a. unfold zero. lia.
    + apply zero_nonneg.
    + eapply g_proper; [apply f_good |]; eassumption.
    + unfold destroys in *. cbn [objects vars] in E. destruct (destroyed false (objects m) v) as [h | e]; [| discriminate]. cbn [bind] in *.
      inversion E; subst m'. cbn [vars objects ends_well] in *. constructor.
      * assumption.
      * intros y w Q. apply whole_var in Q. cbn [vars] in Q. apply whole_var in H. apply (f_vars _ I y). apply whole_var.
        destruct (Nat.eq_dec x y) as [-> | N]; [rewrite (nth_replace_same _ _ _ _ H) in Q; discriminate | rewrite nth_replace_other in Q by assumption; assumption].
      * intros a w Q. apply A in Q. apply (f_objects _ I a). exact Q.
Qed.

Lemma fine_nothing : fine nothing.
Proof.
  constructor.
  - constructor; cbn; try discriminate.
    + constructor.
    + intros [x | a] v H; cbn in H; [destruct x; discriminate | discriminate].
  - intros x v H. cbn in H. destruct x; discriminate.
  - intros a v H. discriminate.
Qed.

Theorem run_well ss : forall m, fine m -> ends_well (run m ss).
Proof.
  induction ss as [| s ss IH]; intros m I; cbn [run]; [exact I |]. pose proof (perform_well m s I) as P.
  destruct (perform m s) as [m' | e]; cbn [bind]; [apply IH; exact P | exact P].
Qed.

(** ** What is allocated *)

Fixpoint highest (rank : Z -> nat) (h : heap) : nat := match h with [] => O | p :: r => Nat.max (rank (fst p)) (highest rank r) end.

Lemma highest_ge rank h a n : In (a, n) h -> (rank a <= highest rank h)%nat.
Proof. induction h as [| p h IH]; [contradiction |]. cbn [highest]. intros [-> | I]; [cbn [fst]; lia | specialize (IH I); lia]. Qed.

Lemma allocated_reached m : sound m -> acyclic m -> forall a, find (objects m) a <> None -> reached m a.
Proof.
  intros [K C D P] (rank & R). assert (Q : forall j a, (highest rank (objects m) - rank a <= j)%nat -> find (objects m) a <> None -> reached m a).
  { induction j as [j IH] using lt_wf_ind. intros a B F. destruct (find (objects m) a) as [n |] eqn:E; [| congruence].
    destruct (C _ _ E) as [C1 C2]. assert (T : In a (references m)) by (apply times_In; lia). unfold references in T. apply in_app_or in T as [T | T].
    - apply in_flat_map in T as ([v |] & I & O); [| contradiction]. apply In_nth_error in I as (y & I).
      eapply from_variable; [| exact O]. apply whole_var. exact I.
    - apply in_flat_map in T as ([c o] & I & O). cbn [snd] in O. pose proof (find_unique _ _ _ K I) as F'.
      pose proof (R _ _ _ F' O) as LT. pose proof (highest_ge rank _ _ _ I) as HC.
      eapply from_object; [| apply whole_at; eauto | exact O].
      assert (highest rank (objects m) - rank c < j)%nat by lia. apply (IH (highest rank (objects m) - rank c)%nat); [assumption | lia | congruence]. }
  intros a. apply (Q (highest rank (objects m) - rank a)%nat). lia.
Qed.

Lemma reached_allocated m a : sound m -> reached m a -> find (objects m) a <> None.
Proof.
  intros S H. apply sound_good in S. assert (Q : exists b v, whole m b = Some v /\ In a (owned v)) by (destruct H; eauto).
  destruct Q as (b & v & W & I). destruct (good_found m zero b v a S zero_nonneg W I) as (n & F). congruence.
Qed.

(** ** Effects on one object *)

Lemma release_sound c m a b hole v : sound m -> held m (At a) a -> whole m (At a) = Some b -> proper hole = true ->
  (size hole <= size b)%nat -> (forall x, tm x b = tm x hole + tm x v) -> proper v = true ->
  exists m', (m1 <- destroys c m v ;; write m1 (Place (At a) []) hole) = Ok m' /\ sound m' /\ changed m m' (Place (At a) []) hole.
Proof.
  intros I H W PH SZ T PV. apply sound_good in I.
  destruct (release c m zero (Place (At a) []) b hole v I zero_nonneg) as (m1 & g & D & _ & WH & CG & GG); auto.
  - apply read_ok. exists b. auto.
  - rewrite D. cbn [bind]. exists g. split; [assumption |]. split; [apply good_sound |]; assumption.
Qed.

Lemma add_sound m a b full other new : sound m -> whole m (At a) = Some b -> proper full = true -> read m other = Ok new ->
  (forall x, tm x full = tm x b + tm x new) ->
  exists m1 m', copies m new = Ok m1 /\ alike m m1 /\ write m1 (Place (At a) []) full = Ok m' /\ sound m' /\ changed m m' (Place (At a) []) full.
Proof.
  intros I W PF R T. apply sound_good in I.
  destruct (copies_good m zero new I (read_proper _ _ _ _ I R)) as (m1 & E & G1 & A).
  { intros x P. eapply read_found; [exact I | apply zero_nonneg | exact R | exact P]. }
  assert (R1 : read m1 (Place (At a) []) = Ok b) by (rewrite (alike_read _ _ _ A); apply read_ok; exists b; auto).
  destruct (good_write _ _ _ _ full G1 R1 PF) as (m2 & W2 & G2). exists m1, m2. split; [assumption |]. split; [assumption |]. split; [assumption |].
  split; [apply good_sound | eapply alike_changed; [exact A | apply write_changed; assumption]].
  revert G2. apply good_ext. intros x. rewrite T. unfold zero. lia.
Qed.

Lemma set_attribute_sound c m a k other ms new : sound m -> whole m (At a) = Some (Members ms) -> nth_error ms k = Some None ->
  read m other = Ok new ->
  exists m', set_attribute c m a k other = Ok m' /\ sound m' /\ changed m m' (Place (At a) []) (Members (replace ms k (Some new))).
Proof.
  intros I W N R. pose proof (no_bad_nulls _ I _ _ W) as P. cbn [proper] in P.
  destruct (add_sound m a (Members ms) (Members (replace ms k (Some new))) other new) as (m1 & m' & E & A & W1 & S & C); auto.
  - cbn [proper]. apply forallb_replace; [assumption |]. eapply read_proper; [apply sound_good |]; eassumption.
  - intros x. rewrite !tm_members, (sum_replace _ _ _ _ _ N). cbn [tmo]. lia.
  - assert (RD : read m (Place (At a) []) = Ok (Members ms)) by (apply read_ok; exists (Members ms); auto).
    exists m'. unfold set_attribute. rewrite RD. cbn [bind]. rewrite member_of, N, R. cbn [bind]. rewrite E. cbn [bind].
    rewrite (alike_read _ _ _ A), RD. cbn [bind set_member]. auto.
Qed.

Lemma del_attribute_sound c m a k ms v : sound m -> held m (At a) a -> whole m (At a) = Some (Members ms) -> nth_error ms k = Some (Some v) ->
  exists m', del_attribute c m a k = Ok m' /\ sound m' /\ changed m m' (Place (At a) []) (Members (replace ms k None)).
Proof.
  intros I H W N. pose proof (no_bad_nulls _ I _ _ W) as P. cbn [proper] in P.
  assert (RD : read m (Place (At a) []) = Ok (Members ms)) by (apply read_ok; exists (Members ms); auto).
  unfold del_attribute. rewrite RD. cbn [bind]. rewrite member_of, N. cbn [unset].
  apply (release_sound c m a (Members ms)); auto.
  - cbn [proper]. apply forallb_replace; [assumption | reflexivity].
  - cbn [size]. rewrite !size_members. pose proof (present_unset ms k). lia.
  - intros x. rewrite !tm_members, (sum_replace _ _ _ _ _ N). cbn [tmo]. lia.
  - apply (forallb_nth _ _ _ _ P N).
Qed.

Lemma append_sound m a es other new : sound m -> whole m (At a) = Some (Row es) -> read m other = Ok new ->
  exists m', append m a other = Ok m' /\ sound m' /\ changed m m' (Place (At a) []) (Row (es ++ [Some new])).
Proof.
  intros I W R. pose proof (no_bad_nulls _ I _ _ W) as P. cbn [proper] in P. pose proof (read_proper _ _ _ _ (sound_good _ I) R) as PN.
  destruct (add_sound m a (Row es) (Row (es ++ [Some new])) other new) as (m1 & m' & E & A & W1 & S & C); auto.
  - cbn [proper]. rewrite forallb_app, P. cbn. rewrite PN. reflexivity.
  - intros s. rewrite !tm_row, sum_app. cbn [sum tmo]. lia.
  - assert (RD : read m (Place (At a) []) = Ok (Row es)) by (apply read_ok; exists (Row es); auto).
    exists m'. unfold append. rewrite RD. cbn [bind]. rewrite R. cbn [bind]. rewrite E. cbn [bind]. auto.
Qed.

Lemma remove_sound m a es i v : sound m -> held m (At a) a -> whole m (At a) = Some (Row es) -> nth_error es i = Some (Some v) ->
  exists m', remove m a i = Ok m' /\ sound m' /\ changed m m' (Place (At a) []) (Row (firstn i es ++ skipn (S i) es)).
Proof.
  intros I H W N. pose proof (no_bad_nulls _ I _ _ W) as P. cbn [proper] in P.
  assert (RD : read m (Place (At a) []) = Ok (Row es)) by (apply read_ok; exists (Row es); auto).
  unfold remove. rewrite RD. cbn [bind]. rewrite N. apply (release_sound false m a (Row es)); auto.
  - cbn [proper]. apply forallb_cut. assumption.
  - cbn [size]. rewrite !size_members. pose proof (present_cut es i). lia.
  - intros s. rewrite !tm_row. rewrite (sum_cut _ _ _ _ N). reflexivity.
  - apply (forallb_nth _ _ _ _ P N).
Qed.

Lemma cell_clear_sound m a v : sound m -> held m (At a) a -> whole m (At a) = Some (Members [Some v]) ->
  exists m', cell_clear false m a = Ok m' /\ sound m' /\ changed m m' (Place (At a) []) (Members [None]).
Proof.
  intros I H W. assert (RD : read m (Place (At a) []) = Ok (Members [Some v])) by (apply read_ok; exists (Members [Some v]); auto).
  pose proof (del_attribute_sound false m a 0 [Some v] v I H W eq_refl) as Q. unfold del_attribute in Q. unfold cell_clear.
  rewrite RD in *. cbn [bind] in *. exact Q.
Qed.

Lemma drop_well m x : fine m -> forall v, whole m (Var x) = Some v -> exists m', perform m (Drop x) = Ok m' /\ fine m' /\ vars m' = replace (vars m) x None.
Proof.
  intros I v H. pose proof (perform_well m (Drop x) I) as P. cbn [perform] in *. rewrite H in *.
  destruct (destroys_good false (Mem (replace (vars m) x None) (objects m)) zero v) as (m' & E & _).
  - generalize (good_drop m x v (f_good _ I) H). apply good_ext. intros a. unfold zero. lia.
  - apply zero_nonneg.
  - eapply g_proper; [apply f_good |]; eassumption.
  - unfold destroys in *. cbn [objects] in E. destruct (destroyed false (objects m) v) as [h | e]; [| discriminate].
    cbn [bind] in *. eexists. split; [reflexivity |]. split; [exact P | reflexivity].
Qed.

(** ** The statements *)

Lemma assigns_sound c m self other old new : sound m -> safe m self other -> read m self = Ok old -> read m other = Ok new ->
  fits old new = true -> settled c old new = true ->
  exists m', assigns c m self other = Ok m' /\ sound m' /\ changed m m' self new /\ read m' self = Ok new /\ read m' other = Ok new.
Proof.
  intros I S R1 R2 F ST. apply sound_good in I.
  assert (Q : exists m', assigns c m self other = Ok m' /\ good m' zero /\ changed m m' self new).
  { unfold assigns. rewrite R1. cbn [bind]. destruct c; [apply (compiled_assign_well (size old)) with (old := old) | apply (assign_well (size old)) with (old := old)]; auto. }
  destruct Q as (m' & E & G & C). exists m'. split; [assumption |]. split; [apply good_sound; assumption |]. split; [assumption |]. split.
  - eapply changed_read; [exact C | apply S | exact G | apply zero_nonneg].
  - eapply changed_other; [exact S | exact R2 | exact C | exact G | apply zero_nonneg].
Qed.

Lemma programs_sound ss : match run nothing ss with Ok m => sound m | Err e => harmless e end.
Proof.
  pose proof (run_well ss nothing fine_nothing) as P. destruct (run nothing ss) as [m | e]; [| exact P]. apply good_sound. apply f_good. exact P.
Qed.

Lemma all_freed m : sound m -> acyclic m -> no_values m -> objects m = [].
Proof.
  intros I A N. destruct (objects m) as [| [a n] h] eqn:O; [reflexivity |]. exfalso.
  assert (R : reached m a) by (apply allocated_reached; auto; rewrite O; cbn [Life_Model.find]; rewrite Z.eqb_refl; discriminate).
  clear - R N. induction R as [y v a W _ | c v a _ IH _ _]; [| assumption]. apply whole_var in W. apply nth_error_In in W.
  unfold no_values in N. rewrite Forall_forall in N. specialize (N _ W). discriminate.
Qed.
