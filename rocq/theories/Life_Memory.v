(** Proofs about places in memory and what is assigned to them. *)
From Coq Require Import ZifyBool ZifyNat.
From Verif Require Import Base Life_Model Life_Spec Life_Proofs.
Open Scope Z_scope.
Open Scope list_scope.
Open Scope result_scope.

Local Arguments tm : simpl never.
Local Arguments L : simpl never.
Local Arguments Z.add : simpl never.

Definition total (m : mem) (a : Z) : Z := sum (tmo a) (vars m) + L (objects m) a.

Record good (m : mem) (E : Z -> Z) : Prop := Good {
  g_keys : NoDup (map fst (objects m));
  g_count : forall a n, find (objects m) a = Some n -> 0 < count n /\ count n = total m a + E a;
  g_closed : forall a, 0 < total m a + E a -> find (objects m) a <> None;
  g_proper : forall b v, whole m b = Some v -> proper v = true
}.

Definition zero (a : Z) : Z := 0.

Lemma good_ext m E F : (forall a, E a = F a) -> good m E -> good m F.
Proof.
  intros X [A B C D]. constructor; auto.
  - intros. rewrite <- X. auto.
  - intros a. rewrite <- X. auto.
Qed.

(** ** Writing *)

Lemma whole_var m x v : whole m (Var x) = Some v <-> nth_error (vars m) x = Some (Some v).
Proof. cbn. destruct (nth_error (vars m) x) as [[u |] |]; split; congruence. Qed.

Lemma whole_at m a v : whole m (At a) = Some v <-> exists n, find (objects m) a = Some n /\ body n = v.
Proof.
  cbn. destruct (find (objects m) a) as [n |]; cbn; split; try discriminate.
  - intros H. exists n. split; congruence.
  - intros (o & H & G). congruence.
  - intros (o & H & G). congruence.
Qed.

Lemma whole_store_same m b v x : whole m b = Some v -> whole (store m b x) b = Some x.
Proof.
  destruct b as [y | a]; intros H.
  - apply whole_var in H. apply whole_var. cbn. eapply nth_replace_same; eassumption.
  - apply whole_at in H as (n & F & <-). unfold store. rewrite F. apply whole_at. cbn. eexists. split; [eapply find_set_same; eassumption | reflexivity].
Qed.

Lemma whole_store_other m b c x : c <> b -> whole (store m b x) c = whole m c.
Proof.
  intros D. destruct b as [y | a]; cbn [store].
  - destruct c as [z | s]; [| reflexivity]. cbn. rewrite nth_replace_other by congruence. reflexivity.
  - destruct (find (objects m) a) as [n |]; [| reflexivity]. destruct c as [z | s]; [reflexivity |]. cbn.
    rewrite find_set_other by congruence. reflexivity.
Qed.

Lemma store_store m b x y : store (store m b x) b y = store m b y.
Proof.
  destruct b as [z | a]; cbn [store].
  - cbn. rewrite replace_replace. reflexivity.
  - destruct (find (objects m) a) as [n |] eqn:F; cbn; [| rewrite F; reflexivity].
    rewrite (find_set_same _ _ _ _ F). cbn. rewrite set_set. reflexivity.
Qed.

Lemma find_store m b x a : option_map count (find (objects (store m b x)) a) = option_map count (find (objects m) a).
Proof.
  destruct b as [z | s]; cbn [store]; [reflexivity |].
  destruct (find (objects m) s) as [n |] eqn:F; [| reflexivity]. cbn.
  destruct (Z.eq_dec a s) as [-> | D]; [rewrite (find_set_same _ _ _ _ F), F; reflexivity |].
  rewrite find_set_other by assumption. reflexivity.
Qed.

Lemma keys_store m b x : map fst (objects (store m b x)) = map fst (objects m).
Proof.
  destruct b as [z | s]; cbn [store]; [reflexivity |].
  destruct (find (objects m) s) as [n |]; [| reflexivity]. cbn. apply keys_set.
Qed.

Lemma total_store m b v x a : (forall s n, find (objects m) s = Some n -> 0 < count n) -> whole m b = Some v ->
  total (store m b x) a = total m a - tm a v + tm a x.
Proof.
  intros P H. destruct b as [y | s].
  - apply whole_var in H. unfold total. cbn [store vars objects]. rewrite (sum_replace _ _ _ _ _ H). cbn [tmo]. lia.
  - apply whole_at in H as (n & F & <-). unfold total, store. rewrite F. cbn [vars objects].
    rewrite (L_set _ _ _ _ _ F). unfold lv. cbn [count body]. pose proof (P _ _ F). destruct (0 <? count n) eqn:Q; lia.
Qed.

Lemma good_store m E b v x : good m E -> whole m b = Some v -> proper x = true ->
  good (store m b x) (fun a => E a + tm a v - tm a x).
Proof.
  intros [K C D P] H X.
  assert (T : forall a, total (store m b x) a = total m a - tm a v + tm a x).
  { intros a. apply total_store; [| assumption]. intros s n F. apply (C _ _ F). }
  constructor.
  - rewrite keys_store. assumption.
  - intros a n F. pose proof (find_store m b x a) as G. rewrite F in G. cbn in G.
    destruct (find (objects m) a) as [o |] eqn:F0; [| discriminate]. cbn in G. inversion G as [G']. destruct (C _ _ F0). rewrite T. lia.
  - intros a. rewrite T. intros Q. pose proof (find_store m b x a) as G. specialize (D a).
    destruct (find (objects m) a) as [o |] eqn:F0; [| exfalso; apply D; [lia | reflexivity]].
    destruct (find (objects (store m b x)) a); [discriminate |]. discriminate.
  - intros c w G. destruct (whole m c) as [u |] eqn:Q.
    + assert (EB : {c = b} + {c <> b}) by (decide equality; [apply Nat.eq_dec | apply Z.eq_dec]).
      destruct EB as [-> | NB]; [rewrite (whole_store_same _ _ _ _ H) in G; congruence |].
      rewrite whole_store_other in G by assumption. eauto.
    + assert (NB : c <> b) by congruence. rewrite whole_store_other in G by assumption. eauto.
Qed.

Lemma read_ok m p w : read m p = Ok w <-> exists v, whole m (root p) = Some v /\ sub v (path p) = Some w.
Proof.
  unfold read. destruct (whole m (root p)) as [v |]; [| split; [discriminate | intros (v & H & _); discriminate]].
  destruct (sub v (path p)) as [u |] eqn:S.
  - split; [intros H; exists v; split; congruence | intros (x & H & G); congruence].
  - split; [discriminate | intros (x & H & G); congruence].
Qed.

Lemma write_ok m p v w x : whole m (root p) = Some v -> sub v (path p) = Some w ->
  write m p x = Ok (store m (root p) (put v (path p) x)).
Proof. intros H S. unfold write. rewrite H, S. reflexivity. Qed.

Lemma write_inv m p x m' : write m p x = Ok m' ->
  exists v w, whole m (root p) = Some v /\ sub v (path p) = Some w /\ m' = store m (root p) (put v (path p) x).
Proof.
  unfold write. destruct (whole m (root p)) as [v |]; [| discriminate].
  destruct (sub v (path p)) as [w |] eqn:S; [| discriminate]. intros H. exists v, w. split; [reflexivity |]. split; congruence.
Qed.

Lemma read_write_same m p x m' : write m p x = Ok m' -> read m' p = Ok x.
Proof.
  intros H. apply write_inv in H as (v & w & H & S & ->). apply read_ok. eexists. split; [eapply whole_store_same; eassumption |].
  eapply sub_put_same; eassumption.
Qed.

Lemma write_write m p x m' y : write m p x = Ok m' -> write m' p y = write m p y.
Proof.
  intros H. apply write_inv in H as (v & w & H & S & ->).
  rewrite (write_ok _ _ _ _ y H S). rewrite (write_ok _ _ (put v (path p) x) x).
  - rewrite store_store, (put_put _ _ _ _ _ S). reflexivity.
  - eapply whole_store_same; eassumption.
  - eapply sub_put_same; eassumption.
Qed.

Lemma good_write m E p old x : good m E -> read m p = Ok old -> proper x = true ->
  exists m', write m p x = Ok m' /\ good m' (fun a => E a + tm a old - tm a x).
Proof.
  intros G R X. apply read_ok in R as (v & H & S). rewrite (write_ok _ _ _ _ x H S). eexists. split; [reflexivity |].
  assert (P : proper (put v (path p) x) = true) by (apply proper_put; [eapply g_proper; eassumption | assumption]).
  pose proof (good_store _ _ _ _ _ G H P) as G'. revert G'. apply good_ext. intros a. rewrite (tm_put a _ _ _ x S). lia.
Qed.

(** ** What stays *)

Lemma base_dec (b c : base) : {b = c} + {b <> c}.
Proof. decide equality; [apply Nat.eq_dec | apply Z.eq_dec]. Qed.

Definition outside (b : base) (m m' : mem) : Prop :=
  (forall x, Var x <> b -> whole m' (Var x) = whole m (Var x)) /\
  (forall a v, At a <> b -> whole m' (At a) = Some v -> whole m (At a) = Some v).

Lemma changed_outside m m' p x : changed m m' p x -> outside (root p) m m'.
Proof.
  intros (w & H & V & A). apply write_inv in H as (v & u & H & S & ->). split.
  - intros y D. transitivity (whole (store m (root p) (put v (path p) x)) (Var y)); [cbn; rewrite V; reflexivity |].
    apply whole_store_other. assumption.
  - intros a y D G. apply A in G. rewrite whole_store_other in G by assumption. assumption.
Qed.

Lemma tm_total m b v a : (forall s n, find (objects m) s = Some n -> 0 < count n) -> whole m b = Some v -> tm a v <= total m a.
Proof.
  intros P H. pose proof (total_store m b v (Plain 0) a P H) as T.
  assert (tm a (Plain 0) = 0) by reflexivity.
  assert (0 <= total (store m b (Plain 0)) a); [| lia].
  unfold total. pose proof (L_nonneg (objects (store m b (Plain 0))) a). pose proof (sum_nonneg (tmo a) (vars (store m b (Plain 0))) (tmo_nonneg a)). lia.
Qed.

Lemma good_found m E b v a : good m E -> (forall a, 0 <= E a) -> whole m b = Some v -> In a (owned v) -> exists n, find (objects m) a = Some n.
Proof.
  intros G N H I. destruct (find (objects m) a) as [n |] eqn:F; [eauto |]. exfalso. apply (g_closed _ _ G a); [| assumption].
  assert (P : forall s n, find (objects m) s = Some n -> 0 < count n) by (intros s n Q; apply (g_count _ _ G _ _ Q)).
  pose proof (tm_total m b v a P H). apply times_In in I. fold (tm a v) in I. specialize (N a). lia.
Qed.

Lemma held_outside m m' b a E : good m' E -> (forall a, 0 <= E a) -> outside b m m' -> held m b a ->
  held m' b a /\ exists v, whole m' (At a) = Some v.
Proof.
  intros G N [O1 O2] H. induction H as [y v a D H I | c v a Hc IH D H I].
  - rewrite <- O1 in H by assumption. split; [econstructor; eassumption |].
    destruct (good_found _ _ _ _ _ G N H I) as (n & F). exists (body n). apply whole_at. eauto.
  - destruct IH as (IH & u & W). pose proof (O2 _ _ D W) as W'. rewrite H in W'. inversion W'; subst u.
    split; [eapply by_object; eassumption |].
    destruct (good_found _ _ _ _ _ G N W I) as (n & F). exists (body n). apply whole_at. eauto.
Qed.

Lemma kept_outside m m' b c E : good m' E -> (forall a, 0 <= E a) -> outside b m m' -> kept m b c -> kept m' b c.
Proof. intros G N O. destruct c; cbn; [auto |]. intros H. eapply held_outside; eassumption. Qed.

Lemma changed_read m m' p x E : changed m m' p x -> kept m (root p) (root p) -> good m' E -> (forall a, 0 <= E a) -> read m' p = Ok x.
Proof.
  intros C K G N. pose proof (changed_outside _ _ _ _ C) as O. destruct C as (w & H & V & A). apply write_inv in H as (v & u & H & S & ->).
  apply read_ok. exists (put v (path p) x). split; [| eapply sub_put_same; eassumption].
  pose proof (whole_store_same m (root p) v (put v (path p) x) H) as W. destruct (root p) as [y | s].
  - rewrite <- W. cbn [whole]. rewrite V. reflexivity.
  - cbn in K. destruct (held_outside _ _ _ _ _ G N O K) as (_ & y & Y). pose proof (A _ _ Y). congruence.
Qed.

Lemma safe_changed m m' self other x E : safe m self other -> changed m m' self x -> good m' E -> (forall a, 0 <= E a) -> safe m' self other.
Proof.
  intros [K S] C G N. pose proof (changed_outside _ _ _ _ C) as O. split; [eapply kept_outside; eassumption |].
  destruct S as [[D K'] | S]; [left | right; assumption]. split; [assumption |]. eapply kept_outside; eassumption.
Qed.

Lemma changed_other m m' self other x v E : safe m self other -> read m other = Ok v -> changed m m' self x -> good m' E ->
  (forall a, 0 <= E a) -> read m' other = Ok v.
Proof.
  intros [K S] R C G N. pose proof (changed_outside _ _ _ _ C) as O. apply read_ok in R as (u & H & R). apply read_ok.
  destruct S as [[D K'] | [D S]].
  - exists u. split; [| assumption]. destruct O as [O1 O2] eqn:OO. destruct (root other) as [y | s].
    + rewrite O1 by congruence. assumption.
    + cbn in K'. destruct (held_outside _ _ _ _ _ G N O K') as (_ & y & Y). pose proof (O2 _ _ D Y). congruence.
  - pose proof (changed_read _ _ _ _ _ C K G N) as R'. apply read_ok in R' as (u' & H' & R').
    destruct C as (w & Hw & V & A). apply write_inv in Hw as (v0 & w0 & H0 & S0 & ->).
    rewrite D in *. exists (put v0 (path self) x). rewrite H in H0. inversion H0; subst v0.
    split; [| rewrite (sub_put_diverge _ _ _ _ _ S0 S); assumption].
    pose proof (whole_store_same m (root self) u (put u (path self) x) H) as W. destruct (root self) as [y | s].
    + rewrite <- W. cbn [whole]. rewrite V. reflexivity.
    + pose proof (A _ _ H'). congruence.
Qed.

Lemma read_write_apart m p q x m' : write m p x = Ok m' -> root q <> root p \/ root q = root p /\ diverge (path p) (path q) -> read m' q = read m q.
Proof.
  intros H D. apply write_inv in H as (v & w & H & S & ->). unfold read. destruct D as [D | [D E]].
  - rewrite whole_store_other by assumption. reflexivity.
  - rewrite D, (whole_store_same _ _ _ _ H), H, (sub_put_diverge _ _ _ _ _ S E). reflexivity.
Qed.

Lemma write_changed m p x m' : write m p x = Ok m' -> changed m m' p x.
Proof. intros H. exists m'. auto. Qed.

Lemma changed_trans m m1 m2 p x y : changed m m1 p x -> changed m1 m2 p y -> changed m m2 p y.
Proof.
  intros (w1 & H1 & V1 & A1) (w2 & H2 & V2 & A2). apply write_inv in H1 as (v & w & H & S & ->).
  apply write_inv in H2 as (v' & w' & H' & S' & ->). exists (store m (root p) (put v (path p) y)).
  split; [eapply write_ok; eassumption |].
  pose proof (whole_store_same m (root p) v (put v (path p) x) H) as W.
  assert (v' = put v (path p) x).
  { destruct (root p) as [z | s].
    - cbn [whole] in H', W. rewrite V1 in H'. congruence.
    - pose proof (A1 _ _ H'). congruence. }
  subst v'. rewrite (put_put _ _ _ _ _ S) in V2, A2. split.
  - rewrite V2. destruct (root p) as [z | s]; cbn [store vars].
    + rewrite V1. cbn [store vars]. rewrite replace_replace. reflexivity.
    + destruct (find (objects m1) s); destruct (find (objects m) s) eqn:F; cbn [vars]; rewrite V1; cbn [store]; rewrite F; reflexivity.
  - intros a u U. apply A2 in U. destruct (base_dec (At a) (root p)) as [D | D].
    + rewrite D in U |- *. rewrite (whole_store_same _ _ _ _ H') in U. rewrite (whole_store_same _ _ _ _ H). assumption.
    + rewrite whole_store_other in U by assumption. apply A1 in U. rewrite whole_store_other in U by assumption.
      rewrite whole_store_other by assumption. assumption.
Qed.

Lemma within_write m p k v u x : read m p = Ok v -> sub v [k] = Some u -> write m (within p k) x = write m p (put v [k] x).
Proof.
  intros R S. apply read_ok in R as (w & H & R). unfold within, write. cbn [root path]. rewrite H.
  rewrite (sub_app _ _ _ _ R), S, R, (put_app _ _ _ _ _ R). reflexivity.
Qed.

Lemma within_read m p k v : read m p = Ok v -> read m (within p k) = match sub v [k] with Some u => Ok u | None => Err UndefinedBehaviour end.
Proof.
  intros R. apply read_ok in R as (w & H & R). unfold within, read. cbn [root path]. rewrite H, (sub_app _ _ _ _ R). reflexivity.
Qed.

Lemma changed_within m m' p k v u x : read m p = Ok v -> sub v [k] = Some u -> changed m m' (within p k) x -> changed m m' p (put v [k] x).
Proof. intros R S (w & H & V & A). rewrite (within_write _ _ _ _ _ _ R S) in H. exists w. auto. Qed.

Lemma diverge_within p q i j : diverge p q -> diverge (p ++ i) (q ++ j).
Proof.
  intros (c & x & y & p' & q' & -> & -> & D). exists c, x, y, (p' ++ i), (q' ++ j). rewrite <- !app_assoc. auto.
Qed.

Lemma safe_within m self other i j : safe m self other -> safe m (within self i) (within other j).
Proof.
  intros [K S]. split; [exact K |]. unfold within. cbn [root path]. destruct S as [S | [D S]]; [left; exact S | right].
  split; [assumption |]. apply diverge_within. assumption.
Qed.

(** ** Copies and destruction *)

Definition alike (m m' : mem) : Prop := vars m' = vars m /\ forall a, whole m' (At a) = whole m (At a).

Lemma alike_whole m m' b : alike m m' -> whole m' b = whole m b.
Proof. intros [V A]. destruct b; [cbn; rewrite V; reflexivity | apply A]. Qed.

Lemma alike_read m m' p : alike m m' -> read m' p = read m p.
Proof. intros A. unfold read. rewrite (alike_whole _ _ _ A). reflexivity. Qed.

Lemma alike_outside m m' b : alike m m' -> outside b m m'.
Proof. intros A. split; intros; rewrite (alike_whole _ _ _ A) in *; auto. Qed.

Lemma alike_changed m m1 m' p x : alike m m1 -> changed m1 m' p x -> changed m m' p x.
Proof.
  intros A (w & H & V & B). apply write_inv in H as (v & u & H & S & ->). rewrite (alike_whole _ _ _ A) in H.
  exists (store m (root p) (put v (path p) x)). split; [eapply write_ok; eassumption |].
  split.
  - rewrite V. destruct A as [A _]. destruct (root p) as [z | s]; cbn [store vars]; [rewrite A; reflexivity |].
    destruct (find (objects m1) s); destruct (find (objects m) s); cbn [vars]; assumption.
  - intros a y Y. apply B in Y. destruct (base_dec (At a) (root p)) as [D | D].
    + rewrite D in Y |- *. rewrite (whole_store_same m1 _ v) in Y by (rewrite (alike_whole _ _ _ A); assumption).
      rewrite (whole_store_same m _ v) by assumption. assumption.
    + rewrite whole_store_other in * by assumption. rewrite (alike_whole _ _ _ A) in Y. assumption.
Qed.

Lemma alike_safe m m1 self other : alike m m1 -> safe m self other -> safe m1 self other.
Proof.
  intros A. assert (H : forall b a, held m b a -> held m1 b a).
  { intros b a X. induction X; [eapply by_variable | eapply by_object]; eauto; rewrite (alike_whole _ _ _ A); assumption. }
  assert (K : forall b c, kept m b c -> kept m1 b c) by (intros b [x | s]; cbn; auto).
  intros [K1 S]. split; [auto |]. destruct S as [[D S] | S]; [left; auto | right; auto].
Qed.

Lemma copies_good m E v : good m E -> proper v = true -> (forall a, 0 < tm a v -> find (objects m) a <> None) ->
  exists m', copies m v = Ok m' /\ good m' (fun a => E a + tm a v) /\ alike m m'.
Proof.
  intros [K C D P] X I. unfold copies. rewrite (copied_raise (size v) v _ (le_n _) K X I). cbn [bind].
  eexists. split; [reflexivity |].
  assert (F : forall a, find (raise (objects m) (fun a => tm a v)) a = option_map (fun n => Node (count n + tm a v) (body n)) (find (objects m) a))
    by (intros; apply find_raise).
  assert (LL : forall x, L (raise (objects m) (fun a => tm a v)) x = L (objects m) x).
  { assert (Q : forall a n, In (a, n) (objects m) -> 0 < count n).
    { intros a n J. apply (C a). clear - K J. induction (objects m) as [| [b o] h IH]; [contradiction |]. cbn in *. inversion K; subst.
      destruct J as [J | J]; [inversion J; subst; rewrite Z.eqb_refl; reflexivity |].
      destruct (b =? a) eqn:E; [| auto]. exfalso. apply H1. assert (b = a) by lia. subst. apply (in_map fst) in J. exact J. }
    intros x. clear - Q. unfold L. induction (objects m) as [| [b o] h IH]; [reflexivity |].
    cbn [raise sum snd]. rewrite IH by (intros; eapply Q; right; eassumption). f_equal. unfold lv. cbn [count body].
    pose proof (Q b o (or_introl eq_refl)). pose proof (tm_nonneg b v).
    destruct (0 <? count o) eqn:E1; destruct (0 <? count o + tm b v) eqn:E2; try reflexivity; lia. }
  split.
  - constructor; cbn [objects vars].
    + rewrite keys_raise. assumption.
    + intros a n G. rewrite F in G. destruct (find (objects m) a) as [o |] eqn:G0; [| discriminate]. inversion G; subst n. cbn [count].
      destruct (C _ _ G0) as [C1 C2]. unfold total in *. cbn [vars objects]. rewrite LL. pose proof (tm_nonneg a v). lia.
    + intros a. unfold total. cbn [vars objects]. rewrite LL, F. intros Q.
      destruct (find (objects m) a) as [o |] eqn:G; [discriminate |]. exfalso.
      destruct (Z_lt_le_dec 0 (tm a v)) as [T | T]; [apply (I a T); assumption |]. apply (D a); [unfold total; lia | assumption].
    + intros [y | a] w W; [apply (P (Var y)); exact W |]. apply (P (At a)). cbn in W |- *. rewrite F in W.
      destruct (find (objects m) a); cbn in *; congruence.
  - split; [reflexivity |]. intros a. cbn. rewrite F. destruct (find (objects m) a); reflexivity.
Qed.

Lemma sizes_enough h : (W h <= fold_right (fun p n => S (size (body (snd p))) + n)%nat O h)%nat.
Proof. induction h as [| [a n] h IH]; [cbn; lia |]. cbn [W fold_right snd]. unfold wn. destruct (0 <? count n); lia. Qed.

Lemma good_counted m E v : good m (fun a => tm a v + E a) -> counted (objects m) (fun a => tm a v + (sum (tmo a) (vars m) + E a)).
Proof.
  intros [K C D P]. constructor.
  - assumption.
  - intros a n F. destruct (C _ _ F). unfold total in *. lia.
  - intros a Q. apply D. unfold total. lia.
  - intros a n F. apply (P (At a)). apply whole_at. eauto.
Qed.

Lemma counted_good m E h : (forall a n, find (objects m) a = Some n -> 0 < count n) -> (forall b v, whole m b = Some v -> proper v = true) ->
  counted h (fun a => sum (tmo a) (vars m) + E a) -> shrinks (objects m) h -> good (Mem (vars m) h) E.
Proof.
  intros P Q [K C D R] [_ S]. constructor; cbn [objects].
  - assumption.
  - intros a n F. destruct (C _ _ F) as [C1 C2]. unfold total. cbn [vars objects]. destruct (S _ _ F) as (o & O1 & _ & O2). pose proof (P _ _ O1). lia.
  - intros a. unfold total. cbn [vars objects]. intros G. apply D. lia.
  - intros [y | a] v W; [apply (Q (Var y)); exact W |]. apply whole_at in W as (n & F & <-). eauto.
Qed.

Lemma destroys_good c m E v : good m (fun a => tm a v + E a) -> (forall a, 0 <= E a) -> proper v = true ->
  exists m', destroys c m v = Ok m' /\ good m' E /\ vars m' = vars m /\ forall a w, whole m' (At a) = Some w -> whole m (At a) = Some w.
Proof.
  intros G N P. destruct (destroy_well c (enough (objects m) v) (objects m) v (fun a => sum (tmo a) (vars m) + E a)) as (h & R & C & S & _).
  - apply good_counted. assumption.
  - assumption.
  - intros a. specialize (N a). pose proof (sum_nonneg (tmo a) (vars m) (tmo_nonneg a)). lia.
  - unfold enough. pose proof (sizes_enough (objects m)). lia.
  - unfold destroys, destroyed. rewrite R. cbn [bind]. eexists. split; [reflexivity |]. split; [| split; [reflexivity |]].
    + apply counted_good with (E := E); auto; [intros a n F; apply (g_count _ _ G _ _ F) | apply (g_proper _ _ G)].
    + intros a w H. apply whole_at in H as (n & F & <-). cbn [objects] in F. destruct S as [_ S]. destruct (S _ _ F) as (o & O1 & O2 & _).
      apply whole_at. eauto.
Qed.

Lemma enough_store m b v x y : whole m b = Some v -> (size x <= size v)%nat -> (enough (objects (store m b x)) y <= enough (objects m) y)%nat.
Proof.
  intros H S. unfold enough. destruct b as [z | s]; [cbn [store objects]; lia |].
  apply whole_at in H as (n & F & <-). unfold store. rewrite F. cbn [objects]. clear - F S.
  induction (objects m) as [| [a o] h IH]; [discriminate |]. cbn [Life_Model.find Life_Model.set fold_right snd] in *. destruct (a =? s).
  - inversion F; subst o. cbn [fold_right snd body]. lia.
  - specialize (IH F). cbn [fold_right snd]. lia.
Qed.

(** Destroying a value, or a part of it, that is still in its place. *)
Lemma release c m E p old hole v : good m E -> (forall a, 0 <= E a) -> read m p = Ok old -> proper hole = true -> (size hole <= size old)%nat ->
  (forall a, tm a old = tm a hole + tm a v) -> proper v = true -> kept m (root p) (root p) ->
  exists m' g, destroys c m v = Ok m' /\ read m' p = Ok old /\ write m' p hole = Ok g /\ changed m g p hole /\ good g E.
Proof.
  intros G N R PH SZ T PV K. destruct (good_write _ _ _ _ hole G R PH) as (mh & WH & GH).
  pose proof (write_changed _ _ _ _ WH) as CH0.
  apply read_ok in R as (u & H & S). pose proof WH as WH'. rewrite (write_ok _ _ _ _ hole H S) in WH'. inversion WH' as [MH]. clear WH'.
  set (b' := put u (path p) hole) in *.
  assert (GH' : good mh (fun a => tm a v + E a)). { revert GH. apply good_ext. intros a. rewrite T. lia. }
  destruct (destroy_well c (enough (objects m) v) (objects mh) v (fun a => sum (tmo a) (vars mh) + E a)) as (h & RD & C & SH & CO).
  - apply good_counted. assumption.
  - assumption.
  - intros a. specialize (N a). pose proof (sum_nonneg (tmo a) (vars mh) (tmo_nonneg a)). lia.
  - pose proof (sizes_enough (objects mh)).
    assert (enough (objects mh) v <= enough (objects m) v)%nat.
    { rewrite <- MH. eapply enough_store; [eassumption |]. pose proof (size_put _ _ _ hole S) as SP. unfold b'. lia. }
    unfold enough in *. lia.
  - set (g := Mem (vars mh) h).
    assert (GG : good g E).
    { apply counted_good; auto; [intros a n F; apply (g_count _ _ GH' _ _ F) | apply (g_proper _ _ GH')]. }
    assert (CG : changed m g p hole).
    { exists mh. split; [assumption |]. split; [reflexivity |]. intros a w Q. apply whole_at in Q as (n & F & <-). cbn [g objects] in F.
      destruct SH as [_ SH]. destruct (SH _ _ F) as (o & O1 & O2 & _). apply whole_at. eauto. }
    pose proof (changed_outside _ _ _ _ CG) as O.
    unfold destroys, destroyed. destruct (root p) as [x | s] eqn:RP.
    + assert (OB : objects mh = objects m) by (rewrite <- MH; reflexivity). rewrite OB in RD. rewrite RD. cbn [bind].
      exists (Mem (vars m) h), g. split; [reflexivity |].
      assert (H2 : whole (Mem (vars m) h) (root p) = Some u) by (rewrite RP; exact H).
      split; [apply read_ok; exists u; split; assumption |].
      rewrite (write_ok _ _ _ _ hole H2 S). split; [| auto]. fold b'. rewrite RP. unfold g. rewrite <- MH. reflexivity.
    + cbn in K. destruct (held_outside _ _ _ _ _ GG N O K) as (_ & y & Y).
      apply whole_at in Y as (n & F & BN). cbn [g objects] in F.
      assert (AL : alive h s). { exists n. split; [assumption |]. apply (g_count _ _ GG s). exact F. }
      apply whole_at in H as (n0 & F0 & BU).
      assert (OB : objects mh = retouch (objects m) s b') by (rewrite <- MH; unfold store, retouch; rewrite F0; reflexivity).
      pose proof (CO s u AL) as RD'. rewrite OB, retouch_retouch in RD'. rewrite <- BU in RD' at 1. rewrite (retouch_same _ _ _ F0) in RD'.
      rewrite RD'. cbn [bind]. exists (Mem (vars m) (retouch h s u)), g. split; [reflexivity |].
      assert (H2 : whole (Mem (vars m) (retouch h s u)) (root p) = Some u).
      { rewrite RP. apply whole_at. cbn [objects]. rewrite find_retouch_same, F. cbn. eexists. split; reflexivity. }
      split; [apply read_ok; exists u; split; assumption |].
      rewrite (write_ok _ _ _ _ hole H2 S). split; [| auto]. fold b'. rewrite RP. unfold g. f_equal. unfold store. cbn [objects vars].
      rewrite find_retouch_same, F. cbn [option_map count body].
      replace (vars mh) with (vars m) by (rewrite <- MH; unfold store; rewrite F0; reflexivity). f_equal.
      assert (BB : body n = b').
      { destruct SH as [_ SH]. destruct (SH _ _ F) as (o & O1 & O2 & _). rewrite OB, find_retouch_same, F0 in O1. cbn in O1. inversion O1; subst o. exact O2. }
      unfold retouch. rewrite F, set_set. apply set_found. rewrite F. rewrite <- BB. destruct n; reflexivity.
Qed.
