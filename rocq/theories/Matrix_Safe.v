(** No program can make arrays or matrices reach outside of their lists. *)

From Verif Require Import Base Matrix_Model Matrix_Spec Matrix_Proofs Matrix_Ops.
From Coq Require Import ZifyBool ZifyNat.
Open Scope list_scope.
Open Scope Z_scope.

Section Safe.
Context {A : Type}.

Notation store := (store A).
Implicit Types s : store.

(* -------------------------------------------------------------- *)
(** * Lengths *)

Lemma fits_inside s s' a : fits s s' -> inside s a -> inside s' a.
Proof.
  intros F [P B]. split; [exact P|]. intros i Hi. rewrite (fits_length _ _ _ F). auto.
Qed.

Lemma fits_minside s s' m : fits s s' -> minside s m -> minside s' m.
Proof.
  intros F (P & Q & B). split; [exact P|]. split; [exact Q|].
  intros i j Hi Hj. rewrite (fits_length _ _ _ F). auto.
Qed.

Lemma grown_nth s s' l : grown s s' -> (l < length s)%nat -> nth l s' [] = nth l s [].
Proof. intros [t ->] L. now rewrite app_nth1. Qed.

Lemma grown_inside s s' a : grown s s' -> (vals a < length s)%nat -> inside s a -> inside s' a.
Proof. intros G L [P B]. split; [exact P|]. now rewrite (grown_nth _ _ _ G L). Qed.

Lemma grown_minside s s' m : grown s s' -> (mvals m < length s)%nat -> minside s m -> minside s' m.
Proof. intros G L (P & Q & B). split; [exact P|]. split; [exact Q|]. now rewrite (grown_nth _ _ _ G L). Qed.

Lemma grown_length s s' : grown s s' -> (length s <= length s')%nat.
Proof. intros [t ->]. rewrite app_length. lia. Qed.

Lemma save_fits s l k v s' : save s l k v = Done s' -> fits s s'.
Proof.
  intros E. destruct (cell s l k) as [x|] eqn:C.
  - destruct (cell_save s l k v x C) as (s1 & E1 & F & _). congruence.
  - unfold save in E. rewrite C in E. discriminate.
Qed.

Lemma list_set_fits s l k v s' : list_set s l k v = Done s' -> fits s s'.
Proof.
  unfold list_set. destruct (cell s l (listed s l k)); [apply save_fits|discriminate].
Qed.

Lemma list_set_tame s l k v : list_set s l k v <> Wild.
Proof.
  unfold list_set. destruct (cell s l (listed s l k)) eqn:E; [|discriminate].
  unfold save. rewrite E. discriminate.
Qed.

Lemma list_get_tame s l k : list_get s l k <> Wild.
Proof. unfold list_get. destruct (cell s l (listed s l k)); discriminate. Qed.

Lemma copy_loop_fits n : forall l p st l2 p2 st2 s s',
  copy_loop n l p st l2 p2 st2 s = Done s' -> fits s s'.
Proof.
  induction n as [|n IH]; intros l p st l2 p2 st2 s s'; cbn [copy_loop].
  - intros [= <-]. apply fits_refl.
  - destruct (load s l2 p2) as [x| | |]; cbn [bind]; try discriminate.
    destruct (save s l p x) as [s1| | |] eqn:E; cbn [bind]; try discriminate.
    intros E2. eapply fits_trans; [exact (save_fits _ _ _ _ _ E)|exact (IH _ _ _ _ _ _ _ _ E2)].
Qed.

(* -------------------------------------------------------------- *)
(** * Values *)

(** Whatever is inside has elements. *)
Lemma some_array (d : A) s a : inside s a -> exists g, array_is s a (len a) g.
Proof.
  intros [P B].
  exists (fun i => match cell s (vals a) (offset a + i * stride a) with Some x => x | None => d end).
  apply cells_array; [reflexivity|exact P|].
  intros i Hi. specialize (B i ltac:(lia)). apply cell_some in B as [x ->]. reflexivity.
Qed.

Lemma some_matrix (d : A) s m : minside s m -> exists g, matrix_is s m (rows m) (cols m) g.
Proof.
  intros (P & Q & B).
  exists (fun i j => match cell s (mvals m) (moffset m + i * stride0 m + j * stride1 m) with
                     | Some x => x | None => d end).
  apply cells_matrix; try reflexivity; try assumption.
  intros i j Hi Hj. specialize (B i j ltac:(lia) ltac:(lia)). apply cell_some in B as [x ->]. reflexivity.
Qed.

(* -------------------------------------------------------------- *)
(** * Arrays of a program *)

Lemma sound_matrix (e : state A) m : sound e -> In m (matrices e) ->
  minside (memory e) m /\ mdistinct m /\ moffset m = 0 /\ (mvals m < length (memory e))%nat.
Proof. intros (H & _) I. destruct (H m I) as (a & b & c & d & _). auto. Qed.

Lemma row_shape m i a : row m i = Done a ->
  0 <= i < rows m /\ a = Arr (mvals m) (moffset m + i * stride0 m) (stride1 m) (cols m).
Proof.
  unfold row. destruct ((i <? 0) || (rows m <=? i))%bool eqn:E; [discriminate|].
  intros [= <-]. split; [lia|reflexivity].
Qed.

Lemma sound_array (d : A) (e : state A) a : sound e -> In a (arrays e) ->
  inside (memory e) a /\ distinct a /\ 0 < stride a /\ (vals a < length (memory e))%nat.
Proof.
  intros (HM & HU & HA) I. destruct (HA a I) as [(m & Im & V)|(B & O & S1 & L & _)].
  - destruct (HM m Im) as (B & D & O & L & P0 & P1 & PS & PR & PC).
    destruct (some_matrix d _ _ B) as [g Hg].
    destruct V as [->|[i E]].
    + destruct (diagonal_ok _ _ _ _ _ B Hg) as (_ & B' & D'). cbn [diagonal stride vals].
      split; [exact B'|]. split; [auto|]. split; [lia|exact L].
    + destruct (row_shape _ _ _ E) as [Hi F].
      destruct (row_ok _ _ _ _ _ i B Hg Hi) as (a' & E' & _ & B' & D' & F').
      assert (a' = a) by congruence. clear F'. subst a'. rewrite F. cbn [stride vals]. rewrite <- F.
      split; [exact B'|]. split; [auto|]. split; [apply PR; lia|exact L].
  - split; [exact B|]. split; [|split; [lia|exact L]].
    intros i j Hi Hj N. rewrite S1. lia.
Qed.

Lemma view_list m a : view_of m a -> vals a = mvals m.
Proof. intros [->|[i E]]; [reflexivity|]. destruct (row_shape _ _ _ E) as [_ ->]. reflexivity. Qed.

Lemma sound_aligned (e : state A) a b : sound e -> In a (arrays e) -> In b (arrays e) -> aligned a b.
Proof.
  intros (HM & HU & HA) Ia Ib.
  destruct (HA a Ia) as [(m & Im & V)|(_ & O & S1 & _ & N)];
  destruct (HA b Ib) as [(o & Io & V2)|(_ & O2 & S2 & _ & N2)].
  - intros i j Hi Hj Nij [E1 E2].
    assert (m = o) by (apply HU; auto; rewrite <- (view_list _ _ V), <- (view_list _ _ V2); exact E1).
    subst o. destruct (HM m Im) as (_ & D & _).
    destruct V as [->|[x Ex]], V2 as [->|[y Ey]].
    + cbn [diagonal offset stride len] in *.
      assert (L : i < rows m /\ i < cols m /\ j < rows m /\ j < cols m)
        by (destruct (Z.ltb_spec (rows m) (cols m)); lia).
      apply (D i i j j); try lia. congruence.
    + apply (proj2 (row_diagonal_aligned m y b D Ey) i j Hi Hj Nij). auto.
    + apply (proj1 (row_diagonal_aligned m x a D Ex) i j Hi Hj Nij). auto.
    + apply (rows_aligned m x y a b D Ex Ey i j Hi Hj Nij). auto.
  - intros i j _ _ _ [E _]. apply (N2 m Im). rewrite <- (view_list _ _ V). exact E.
  - intros i j _ _ _ [E _]. apply (N o Io). rewrite <- (view_list _ _ V2). now symmetry.
  - intros i j _ _ Nij [_ E]. rewrite O, S1, O2, S2 in E. lia.
Qed.

Lemma sound_row_aligned (e : state A) m i b a :
  sound e -> In m (matrices e) -> row m i = Done b -> In a (arrays e) -> aligned b a.
Proof.
  intros H Im E Ia. pose proof H as (HM & HU & HA).
  refine (sound_aligned (State (memory e) (b :: arrays e) (matrices e)) b a _ (or_introl eq_refl) (or_intror Ia)).
  split; [exact HM|]. split; [exact HU|]. intros c [<-|Ic]; [|exact (HA c Ic)].
  left. exists m. split; [exact Im|]. right. eauto.
Qed.

Lemma sound_maligned (e : state A) m o :
  sound e -> In m (matrices e) -> In o (matrices e) -> maligned m o.
Proof.
  intros (HM & HU & _) Im Io i j i' j' Hi Hj Hi' Hj' N [E1 E2].
  assert (m = o) by auto. subst o. destruct (HM m Im) as (_ & D & _).
  apply (D i j i' j' Hi Hj Hi' Hj' N E2).
Qed.

(* -------------------------------------------------------------- *)
(** * Rows and diagonals are views *)

Lemma row_changed s s' m r c g i a G :
  minside s m -> mdistinct m -> matrix_is s m r c g -> row m i = Done a ->
  changed s s' a c G ->
  matrix_is s' m r c (fun i' j => if i' =? i then G j else g i' j).
Proof.
  intros B D H E (Ha & Ba & Fr). pose proof (matrix_cells _ _ _ _ _ B H) as C.
  destruct H as (R & Cc & Pr & Pc & _). destruct (row_shape _ _ _ E) as [Hi Es].
  pose proof (array_cells _ _ _ _ Ba Ha) as Ca.
  apply cells_matrix; auto. intros i' j Hi' Hj. destruct (Z.eqb_spec i' i) as [->|N].
  - specialize (Ca j Hj). rewrite Es in Ca. cbn [vals offset stride] in Ca. exact Ca.
  - rewrite Fr; [exact (C i' j Hi' Hj)|].
    intros x Hx [_ Q]. rewrite Es in Hx, Q. cbn [vals offset stride len] in Hx, Q.
    apply (D i' j i x); try lia; try congruence.
Qed.

Lemma diagonal_changed s s' m r c g G :
  minside s m -> mdistinct m -> matrix_is s m r c g ->
  changed s s' (diagonal m) (Z.min r c) G ->
  matrix_is s' m r c (fun i j => if i =? j then G i else g i j).
Proof.
  intros B D H (Ha & Ba & Fr). pose proof (matrix_cells _ _ _ _ _ B H) as C.
  destruct H as (R & Cc & Pr & Pc & _).
  pose proof (array_cells _ _ _ _ Ba Ha) as Ca.
  apply cells_matrix; auto. intros i j Hi Hj. destruct (Z.eqb_spec i j) as [<-|N].
  - specialize (Ca i ltac:(lia)). cbn [diagonal vals offset stride] in Ca.
    replace (moffset m + i * stride0 m + i * stride1 m) with (moffset m + i * (stride0 m + stride1 m)) by ring.
    exact Ca.
  - rewrite Fr; [exact (C i j Hi Hj)|].
    intros x Hx [_ Q]. cbn [diagonal vals offset stride len] in Hx, Q.
    assert (x < rows m /\ x < cols m) by (destruct (Z.ltb_spec (rows m) (cols m)); lia).
    apply (D i j x x); try lia; try congruence.
Qed.

(* -------------------------------------------------------------- *)
(** * States *)

Lemma sound_store (e : state A) s' : sound e -> fits (memory e) s' -> sound (State s' (arrays e) (matrices e)).
Proof.
  intros (HM & HU & HA) F. pose proof (fits_stores _ _ F) as FL.
  split; [|split; [exact HU|]]; cbn [memory arrays matrices].
  - intros m Im. destruct (HM m Im) as (B & D & O & L & R).
    split; [exact (fits_minside _ _ _ F B)|]. split; [exact D|]. split; [exact O|]. split; [lia|exact R].
  - intros a Ia. destruct (HA a Ia) as [V|(B & O & S1 & L & N)]; [left; exact V|right].
    split; [exact (fits_inside _ _ _ F B)|]. split; [exact O|]. split; [exact S1|]. split; [lia|exact N].
Qed.

Lemma sound_grown (e : state A) s' : sound e -> grown (memory e) s' -> sound (State s' (arrays e) (matrices e)).
Proof.
  intros (HM & HU & HA) G. pose proof (grown_length _ _ G) as FL.
  split; [|split; [exact HU|]]; cbn [memory arrays matrices].
  - intros m Im. destruct (HM m Im) as (B & D & O & L & R).
    split; [exact (grown_minside _ _ _ G L B)|]. split; [exact D|]. split; [exact O|]. split; [lia|exact R].
  - intros a Ia. destruct (HA a Ia) as [V|(B & O & S1 & L & N)]; [left; exact V|right].
    split; [exact (grown_inside _ _ _ G L B)|]. split; [exact O|]. split; [exact S1|]. split; [lia|exact N].
Qed.

Lemma sound_new_array (e : state A) s' a :
  sound e -> newly (memory e) s' a -> sound (State s' (arrays e ++ [a]) (matrices e)).
Proof.
  intros H (G & V & B & D & S1 & O).
  destruct (sound_grown _ _ H G) as (HM & HU & HA). destruct H as (HM0 & _).
  split; [exact HM|]. split; [exact HU|]. cbn [memory arrays matrices] in *.
  intros c Ic. apply in_app_iff in Ic as [Ic|[<-|[]]]; [auto|]. right.
  split; [exact B|]. split; [exact O|]. split; [exact S1|]. split; [lia|].
  intros m Im. destruct (HM0 m Im) as (_ & _ & _ & L & _). lia.
Qed.

Lemma sound_view (e : state A) m a :
  sound e -> In m (matrices e) -> view_of m a ->
  sound (State (memory e) (arrays e ++ [a]) (matrices e)).
Proof.
  intros (HM & HU & HA) Im V. split; [exact HM|]. split; [exact HU|]. cbn [memory arrays matrices] in *.
  intros c Ic. apply in_app_iff in Ic as [Ic|[<-|[]]]; [auto|]. left. eauto.
Qed.

Lemma sound_new_matrix (d : A) (e : state A) s' m :
  sound e -> grown (memory e) s' -> (length (memory e) <= mvals m < length s')%nat ->
  minside s' m -> mdistinct m -> moffset m = 0 ->
  0 <= stride0 m -> 0 <= stride1 m -> 0 < stride0 m + stride1 m ->
  (0 < rows m -> 0 < stride1 m) -> (0 < cols m -> 0 < stride0 m) ->
  sound (State s' (arrays e) (matrices e ++ [m])).
Proof.
  intros H G V B D O P0 P1 PS PR PC.
  destruct (sound_grown _ _ H G) as (HM & HU & HA). pose proof H as (HM0 & HU0 & _).
  split; [|split]; cbn [memory arrays matrices] in *.
  - intros c Ic. apply in_app_iff in Ic as [Ic|[<-|[]]]; [auto|].
    repeat (split; [first [assumption|lia]|]). assumption.
  - intros c c' Ic Ic' E.
    apply in_app_iff in Ic as [Ic|[<-|[]]]; apply in_app_iff in Ic' as [Ic'|[<-|[]]]; auto.
    + destruct (HM0 c Ic) as (_ & _ & _ & L & _). lia.
    + destruct (HM0 c' Ic') as (_ & _ & _ & L & _). lia.
  - intros a Ia. destruct (HA a Ia) as [(c & Ic & W)|(Ba & Oa & S1 & L & N)].
    + left. exists c. split; [apply in_app_iff; auto|exact W].
    + right. repeat (split; [assumption|]). intros c Ic.
      apply in_app_iff in Ic as [Ic|[<-|[]]]; [auto|].
      destruct (sound_array d e a H Ia) as (_ & _ & _ & L'). lia.
Qed.

Lemma sound_mnewly (d : A) (e : state A) s' m :
  sound e -> mnewly (memory e) s' m -> sound (State s' (arrays e) (matrices e ++ [m])).
Proof.
  intros H (G & V & B & D & O & K). destruct (canonical_strides _ K) as [E0 E1].
  pose proof B as (Pr & Pc & _).
  apply (sound_new_matrix d); try assumption; try lia.
Qed.

(* -------------------------------------------------------------- *)
(** * Calls *)

(** A result that is not wild and is sound. *)
Definition good (r : res (state A)) : Prop :=
  r <> Wild /\ forall e, r = Done e -> sound e.

Lemma good_done (e : state A) : sound e -> good (Done e).
Proof. intros H. split; [discriminate|]. now intros e' [= <-]. Qed.

Lemma good_raise : good Raise.
Proof. split; discriminate. Qed.

Lemma good_reject : good Reject.
Proof. split; discriminate. Qed.

Lemma good_value (e : state A) (r : res A) : sound e -> r <> Wild -> good (with_value e r).
Proof.
  intros H N. destruct r; cbn; auto using good_done, good_raise, good_reject. congruence.
Qed.

Lemma good_store (e : state A) (r : res store) :
  sound e -> r <> Wild -> (forall s', r = Done s' -> fits (memory e) s') -> good (with_store e r).
Proof.
  intros H N F. destruct r as [s'| | |]; cbn; auto using good_raise, good_reject; [|congruence].
  apply good_done, sound_store; auto.
Qed.

Lemma good_array (e : state A) a (k : array -> res (state A)) :
  (forall x, nth_error (arrays e) a = Some x -> In x (arrays e) -> good (k x)) -> good (an_array e a k).
Proof.
  intros H. unfold an_array. destruct (nth_error (arrays e) a) eqn:E; [|apply good_raise].
  apply (H _ eq_refl). eapply nth_error_In; exact E.
Qed.

Lemma good_matrix (e : state A) m (k : matrix -> res (state A)) :
  (forall x, In x (matrices e) -> good (k x)) -> good (a_matrix e m k).
Proof.
  intros H. unfold a_matrix. destruct (nth_error (matrices e) m) eqn:E; [|apply good_raise].
  apply H. eapply nth_error_In; exact E.
Qed.

Lemma good_new_array (e : state A) r :
  sound e -> (r = Raise \/ r = Reject \/ exists s' a, r = Done (s', a) /\ newly (memory e) s' a) ->
  good (with_array e r).
Proof.
  intros H [->|[->|(s' & a & -> & N)]]; [apply good_raise|apply good_reject|].
  apply good_done. now apply sound_new_array.
Qed.

Lemma good_new_matrix (d : A) (e : state A) r :
  sound e -> (r = Raise \/ r = Reject \/ exists s' m, r = Done (s', m) /\ mnewly (memory e) s' m) ->
  good (with_matrix e r).
Proof.
  intros H [->|[->|(s' & m & -> & N)]]; [apply good_raise|apply good_reject|].
  apply good_done. now apply (sound_mnewly d).
Qed.

Variables (zero one : A) (add mul : A -> A -> A).
Hypothesis mul_one : forall x, mul one x = x.
Hypothesis mul_comm : forall x y, mul x y = mul y x.
Hypothesis add_zero : forall x, add x zero = x.

Lemma call_good flt e c :
  sound e -> fair flt e c -> good (call zero one add mul flt e c).
Proof.
  intros H Hc. destruct c; cbn [call].
  - (* CArray *)
    apply good_new_array; [exact H|]. right; right.
    pose proof (array_of_ok (memory e) (Z.of_nat (length xs)) (fun i => nth (Z.to_nat i) xs zero) ltac:(lia)) as N.
    assert (E : map (fun i => nth (Z.to_nat i) xs zero) (count (Z.to_nat (Z.of_nat (length xs)))) = xs).
    { rewrite Nat2Z.id. apply nth_error_ext. intros i.
      destruct (Nat.lt_ge_cases i (length xs)) as [L|L].
      - rewrite nth_error_map, nth_error_count by exact L. cbn. rewrite Nat2Z.id.
        symmetry. now apply nth_error_nth'.
      - rewrite !(proj2 (nth_error_None _ _)); [reflexivity|exact L|]. now rewrite map_length, length_count. }
    rewrite E in N. destruct (array_of (memory e) xs) as [s' a]. exists s', a. split; [reflexivity|apply N].
  - (* CFull *)
    apply good_new_array; [exact H|]. destruct (Z.lt_ge_cases n 0) as [L|L].
    + left. unfold full. now replace (n <? 0) with true by lia.
    + right; right. destruct (full_ok (memory e) n v L) as (s' & a & E & N & _). eauto.
  - (* CClone *)
    apply good_array. intros x Nx Ix. destruct (sound_array zero e x H Ix) as (B & _).
    destruct (some_array zero _ _ B) as [g Hg].
    apply good_new_array; [exact H|]. right; right.
    destruct (clone_ok _ _ _ _ B Hg) as (s' & a' & E & N & _). eauto.
  - (* CItem *)
    apply good_array. intros x Nx Ix. apply good_value; [exact H|].
    unfold item. destruct (_ || _)%bool; [discriminate|apply list_get_tame].
  - (* CSetItem *)
    apply good_array. intros x Nx Ix. apply good_store; [exact H| |].
    + unfold set_item. destruct (_ || _)%bool; [discriminate|apply list_set_tame].
    + intros s'. unfold set_item. destruct (_ || _)%bool; [discriminate|apply list_set_fits].
  - (* CGet *)
    apply good_array. intros x Nx Ix. apply good_value; [exact H|apply list_get_tame].
  - (* CSet *)
    apply good_array. intros x Nx Ix. apply good_store; [exact H|apply list_set_tame|].
    intros s'. apply list_set_fits.
  - (* CPlus *)
    apply good_array. intros x Nx Ix. apply good_array. intros y Ny Iy.
    destruct (sound_array zero e x H Ix) as (B & _). destruct (sound_array zero e y H Iy) as (B2 & _).
    destruct (some_array zero _ _ B) as [g Hg]. destruct (some_array zero _ _ B2) as [h Hh].
    apply good_new_array; [exact H|].
    destruct (Z.eq_dec (len x) (len y)) as [E|E].
    + right; right. rewrite <- E in Hh.
      destruct (plus_ok zero one add mul (memory e) x y (len x) g h flt mul_one) as (s' & c & E1 & N & _);
        [intros F; exact (Hc F y Ny)|assumption..|]. eauto.
    + left. now apply (lengths_differ zero one add mul add flt).
  - (* CIadd *)
    apply good_array. intros x Nx Ix. apply good_array. intros y Ny Iy.
    destruct (sound_array zero e x H Ix) as (B & D & Px & _). destruct (sound_array zero e y H Iy) as (B2 & _).
    destruct (some_array zero _ _ B) as [g Hg]. destruct (some_array zero _ _ B2) as [h Hh].
    destruct (Z.eq_dec (len x) (len y)) as [E|E].
    + rewrite <- E in Hh.
      destruct (iadd_ok zero one add mul (memory e) x y (len x) g h flt mul_one) as (s' & E1 & _ & U);
        [intros F; split; [exact (Hc F x y Nx Ny)|lia]|assumption..|exact (sound_aligned e x y H Ix Iy)|].
      rewrite E1. apply good_done, sound_store; [exact H|]. apply U.
    + rewrite (proj2 (proj2 (proj2 (proj2 (lengths_differ zero one add mul add flt (memory e) x y E))))).
      apply good_raise.
  - (* COp *)
    apply good_array. intros x Nx Ix. apply good_array. intros y Ny Iy.
    destruct (sound_array zero e x H Ix) as (B & _). destruct (sound_array zero e y H Iy) as (B2 & _).
    destruct (some_array zero _ _ B) as [g Hg]. destruct (some_array zero _ _ B2) as [h Hh].
    apply good_new_array; [exact H|].
    destruct (Z.eq_dec (len x) (len y)) as [E|E].
    + right; right. rewrite <- E in Hh.
      destruct (op_ok f (memory e) x y (len x) g h B Hg B2 Hh) as (s' & c & E1 & N & _). eauto.
    + left. now apply (lengths_differ zero one add mul f flt).
  - (* CIop *)
    apply good_array. intros x Nx Ix. apply good_array. intros y Ny Iy.
    destruct (sound_array zero e x H Ix) as (B & D & _). destruct (sound_array zero e y H Iy) as (B2 & _).
    destruct (some_array zero _ _ B) as [g Hg]. destruct (some_array zero _ _ B2) as [h Hh].
    unfold iop, same_length. destruct (Z.eqb_spec (len y) (len x)) as [E|E]; [|apply good_raise].
    rewrite E in Hh.
    destruct (binop_ok f (memory e) x y (len x) g h B D Hg B2 Hh (sound_aligned e x y H Ix Iy))
      as (s' & E1 & _ & U).
    rewrite E1. apply good_done, sound_store; [exact H|]. apply U.
  - (* CMap *)
    apply good_array. intros x Nx Ix. destruct (sound_array zero e x H Ix) as (B & _).
    destruct (some_array zero _ _ B) as [g Hg].
    apply good_new_array; [exact H|]. right; right.
    destruct (map_array_ok f _ _ _ _ B Hg) as (s' & a' & E & N & _). eauto.
  - (* CImap *)
    apply good_array. intros x Nx Ix. destruct (sound_array zero e x H Ix) as (B & D & _).
    destruct (some_array zero _ _ B) as [g Hg].
    destruct (unary_ok f _ _ _ _ B D Hg) as (s' & E & _ & U).
    rewrite E. apply good_done, sound_store; [exact H|]. apply U.
  - (* CSum *)
    apply good_array. intros x Nx Ix. destruct (sound_array zero e x H Ix) as (B & _).
    destruct (some_array zero _ _ B) as [g Hg].
    rewrite (sum_ok zero one add mul _ _ _ _ B Hg). apply good_value; [exact H|discriminate].
  - (* CDot *)
    apply good_array. intros x Nx Ix. apply good_array. intros y Ny Iy.
    destruct (sound_array zero e x H Ix) as (B & _). destruct (sound_array zero e y H Iy) as (B2 & _).
    destruct (some_array zero _ _ B) as [g Hg]. destruct (some_array zero _ _ B2) as [h Hh].
    apply good_value; [exact H|].
    destruct (Z.eq_dec (len x) (len y)) as [E|E].
    + rewrite <- E in Hh. rewrite (dot_ok zero one add mul _ _ _ _ _ _ B Hg B2 Hh). discriminate.
    + rewrite (proj1 (proj2 (proj2 (lengths_differ zero one add mul add flt (memory e) x y E)))). discriminate.
  - (* CMake *)
    apply (good_new_matrix zero); [exact H|].
    destruct ((r <? 0) || (c <? 0))%bool eqn:E.
    + left. unfold make. now rewrite E.
    + right; right. destruct (make_ok (memory e) r c f) as (s' & m & E1 & N & _); [lia|lia|]. eauto.
  - (* CMfull *)
    apply (good_new_matrix zero); [exact H|].
    destruct ((r <? 0) || (c <? 0))%bool eqn:E.
    + left. unfold mfull. now rewrite E.
    + right; right. destruct (mfull_ok (memory e) r c v) as (s' & m & E1 & N & _); [lia|lia|]. eauto.
  - (* CIdentity *)
    apply (good_new_matrix zero); [exact H|]. destruct (Z.lt_ge_cases n 0) as [L|L].
    + left. unfold identity, mfull. now replace ((n <? 0) || (n <? 0))%bool with true by lia.
    + right; right. destruct (identity_ok zero one add mul (memory e) n L) as (s' & m & E & N & _). eauto.
  - (* CMclone *)
    apply good_matrix. intros x Ix. destruct (sound_matrix e x H Ix) as (B & _).
    destruct (some_matrix zero _ _ B) as [g Hg].
    apply (good_new_matrix zero); [exact H|]. right; right.
    destruct (mclone_ok _ _ _ _ _ B Hg) as (s' & d & E & N & _). eauto.
  - (* CRow *)
    apply good_matrix. intros x Ix. unfold with_array.
    destruct (row x i) as [a| | |] eqn:E; cbn [bind fst snd].
    + apply good_done. apply (sound_view e x); [exact H|exact Ix|]. right. eauto.
    + apply good_raise.
    + unfold row in E. destruct (_ || _)%bool in E; discriminate.
    + apply good_reject.
  - (* CSetRow *)
    apply good_matrix. intros x Ix. apply good_array. intros y Ny Iy.
    destruct (sound_matrix e x H Ix) as (B & D & _). destruct (sound_array zero e y H Iy) as (B2 & _).
    destruct (some_matrix zero _ _ B) as [g Hg]. destruct (some_array zero _ _ B2) as [h Hh].
    apply good_store; [exact H| |].
    + destruct ((i <? 0) || (rows x <=? i))%bool eqn:Ei; [unfold set_row; rewrite Ei; discriminate|].
      destruct (Z.eqb_spec (len y) (cols x)) as [E|E].
      * rewrite E in Hh.
        destruct (set_row_ok (memory e) x (rows x) (cols x) g i y h B D Hg ltac:(lia) B2 Hh) as (s' & E1 & _).
        { intros b Eb. exact (sound_row_aligned e x i b y H Ix Eb Iy). }
        rewrite E1. discriminate.
      * unfold set_row. rewrite Ei. replace (len y =? cols x) with false by lia. discriminate.
    + intros s'. unfold set_row. destruct (_ || _)%bool; [discriminate|].
      destruct (len y =? cols x); [apply copy_loop_fits|discriminate].
  - (* CTranspose *)
    apply good_matrix. intros x Ix. pose proof H as (HM & _).
    destruct (HM x Ix) as (B & D & O & L & P0 & P1 & PS & PR & PC).
    destruct (some_matrix zero _ _ B) as [g Hg].
    pose proof (transpose_ok _ _ _ _ _ B Hg) as T.
    unfold transpose, new_matrix, alloc in T |- *. cbn [with_matrix bind fst snd].
    destruct T as (G & V & LL & B' & _ & D').
    apply good_done. apply (sound_new_matrix zero); cbn [mvals moffset stride0 stride1 rows cols] in *; auto; lia.
  - (* CDiagonal *)
    apply good_matrix. intros x Ix. apply good_done. apply (sound_view e x); [exact H|exact Ix|]. now left.
  - (* CMget *)
    apply good_matrix. intros x Ix. apply good_value; [exact H|apply list_get_tame].
  - (* CMset *)
    apply good_matrix. intros x Ix. apply good_store; [exact H|apply list_set_tame|].
    intros s'. apply list_set_fits.
  - (* CMop *)
    apply good_matrix. intros x Ix. apply good_matrix. intros y Iy.
    destruct (sound_matrix e x H Ix) as (B & _). destruct (sound_matrix e y H Iy) as (B2 & _ & O2 & _).
    destruct (some_matrix zero _ _ B) as [g Hg]. destruct (some_matrix zero _ _ B2) as [h Hh].
    apply (good_new_matrix zero); [exact H|].
    destruct (Z.eq_dec (rows x) (rows y)) as [E|E]; [destruct (Z.eq_dec (cols x) (cols y)) as [E2|E2]|].
    + right; right. rewrite <- E, <- E2 in Hh.
      destruct (mop_ok f (memory e) x y _ _ g h B Hg B2 Hh O2) as (s' & d & E1 & N & _). eauto.
    + left. now apply shapes_differ; right.
    + left. now apply shapes_differ; left.
  - (* CMiop *)
    apply good_matrix. intros x Ix. apply good_matrix. intros y Iy.
    destruct (sound_matrix e x H Ix) as (B & D & O & _). destruct (sound_matrix e y H Iy) as (B2 & _ & O2 & _).
    destruct (some_matrix zero _ _ B) as [g Hg]. destruct (some_matrix zero _ _ B2) as [h Hh].
    unfold miop. destruct (same_shape x y) eqn:E; [|apply good_raise].
    unfold same_shape in E. replace (rows y) with (rows x) in Hh by lia. replace (cols y) with (cols x) in Hh by lia.
    destruct (mbinop_ok f (memory e) x y _ _ g h B D Hg B2 Hh) as (s' & E1 & _ & U).
    { congruence. }
    { exact (sound_maligned e x y H Ix Iy). }
    rewrite E1. apply good_done, sound_store; [exact H|]. apply U.
  - (* CMmap *)
    apply good_matrix. intros x Ix. destruct (sound_matrix e x H Ix) as (B & _).
    destruct (some_matrix zero _ _ B) as [g Hg].
    apply (good_new_matrix zero); [exact H|]. right; right.
    destruct (map_matrix_ok f _ _ _ _ _ B Hg) as (s' & d & E & N & _). eauto.
  - (* CMimap *)
    apply good_matrix. intros x Ix. destruct (sound_matrix e x H Ix) as (B & D & _).
    destruct (some_matrix zero _ _ B) as [g Hg].
    destruct (munary_ok f _ _ _ _ _ B D Hg) as (s' & E & _ & U).
    rewrite E. apply good_done, sound_store; [exact H|]. apply U.
  - (* CFlatten *)
    apply good_matrix. intros x Ix. destruct (sound_matrix e x H Ix) as (B & _).
    destruct (some_matrix zero _ _ B) as [g Hg].
    apply good_new_array; [exact H|]. right; right.
    destruct (flatten_ok _ _ _ _ _ B Hg) as (s' & a & E & N & _). eauto.
  - (* CMatmul *)
    destruct flt; [|apply good_raise].
    apply good_matrix. intros x Ix. apply good_matrix. intros y Iy.
    destruct (sound_matrix e x H Ix) as (B & _). destruct (sound_matrix e y H Iy) as (B2 & _).
    destruct (some_matrix zero _ _ B) as [g Hg]. destruct (some_matrix zero _ _ B2) as [h Hh].
    apply (good_new_matrix zero); [exact H|].
    destruct (Z.eq_dec (cols x) (rows y)) as [E|E].
    2:{ left. unfold matmul. now replace (cols x =? rows y) with false by lia. }
    rewrite <- E in Hh. right.
    assert (P : 0 <= cols x /\ 0 <= cols y) by (split; [apply B|apply B2]).
    destruct (Z.eq_dec (cols x) 0) as [Ek|Nk]; [|destruct (Z.eq_dec (cols y) 0) as [Ec|Nc]].
    + left. now apply (matmul_rejects zero one add mul (memory e) x y _ _ _ g h B Hg B2 Hh); left.
    + left. now apply (matmul_rejects zero one add mul (memory e) x y _ _ _ g h B Hg B2 Hh); right.
    + right. destruct (matmul_ok zero one add mul (memory e) x y _ _ _ g h mul_one mul_comm B Hg B2 Hh)
        as (s' & p & E1 & N & _); [lia|lia|]. eauto.
  - (* CMatvec *)
    destruct flt; [|apply good_raise].
    apply good_matrix. intros x Ix. apply good_array. intros y Ny Iy.
    destruct (sound_matrix e x H Ix) as (B & _ & O & _).
    destruct (sound_array zero e y H Iy) as (B2 & _ & PS & _).
    destruct (some_matrix zero _ _ B) as [g Hg]. destruct (some_array zero _ _ B2) as [h Hh].
    apply good_new_array; [exact H|].
    destruct (Z.eq_dec (cols x) (len y)) as [E|E].
    2:{ left. now apply (matvec_raises zero one add mul (memory e) x y _ _ g B Hg). }
    rewrite <- E in Hh. right.
    destruct (Z.eq_dec (cols x) 0) as [Ek|Nk].
    + left. now apply (matvec_rejects zero one add mul (memory e) x y _ _ g B Hg).
    + right. destruct (matvec_ok zero one add mul (memory e) x y _ _ g h mul_one add_zero B Hg B2 Hh)
        as (s' & p & E1 & N & _); [destruct B as (_ & ? & _); lia|exact PS|now right|]. eauto.
  - (* CVecmat *)
    destruct flt; [|apply good_raise].
    apply good_array. intros y Ny Iy. apply good_matrix. intros x Ix.
    destruct (sound_matrix e x H Ix) as (B & _ & O & _).
    destruct (sound_array zero e y H Iy) as (B2 & _ & PS & _).
    destruct (some_matrix zero _ _ B) as [g Hg]. destruct (some_array zero _ _ B2) as [h Hh].
    apply good_new_array; [exact H|].
    destruct (Z.eq_dec (rows x) (len y)) as [E|E].
    2:{ left. now apply (vecmat_raises zero one add mul (memory e) x y _ _ g B Hg). }
    rewrite <- E in Hh. right.
    destruct (Z.eq_dec (cols x) 0) as [Ek|Nk].
    + left. now apply (vecmat_rejects zero one add mul (memory e) x y _ _ g B Hg).
    + right. destruct (Z.eq_dec (rows x) 0) as [Er|Nr].
      * apply (vecmat_empty zero one add mul (memory e) x y (cols x) g); auto.
        -- rewrite <- Er. exact Hg.
        -- lia.
        -- destruct B as (_ & ? & _); lia.
      * destruct (vecmat_ok zero one add mul (memory e) x y _ _ g h mul_one add_zero mul_comm B Hg B2 Hh)
          as (s' & p & E1 & N & _); [destruct B as (? & _); lia|destruct B as (_ & ? & _); lia|exact PS|now right|]. eauto.
Qed.

Lemma reached_sound flt e : reached zero one add mul flt e -> sound e.
Proof.
  induction 1 as [|e c e' R IH F E].
  - split; [intros ? []|split; [intros ? ? []|intros ? []]].
  - exact (proj2 (call_good flt e c IH F) e' E).
Qed.

(** Without floats, every program will do. *)
Lemma calls_reached cs : forall e,
  reached zero one add mul false e ->
  calls zero one add mul false e cs <> Wild /\
  forall e', calls zero one add mul false e cs = Done e' -> reached zero one add mul false e'.
Proof.
  induction cs as [|c cs IH]; intros e R; cbn [calls].
  - split; [discriminate|]. now intros e' [= <-].
  - assert (F : fair false e c) by discriminate.
    pose proof (call_good false e c (reached_sound _ _ R) F) as [NW _].
    destruct (call zero one add mul false e c) as [e'| | |] eqn:E.
    + apply IH. exact (reached_call _ _ _ _ _ e c e' R F E).
    + apply IH, R.
    + congruence.
    + split; discriminate.
Qed.

End Safe.

(* -------------------------------------------------------------- *)
(** * What programs have *)

Section Reached.
Context {A : Type} {zero one : A} {add mul : A -> A -> A} {flt : bool} {e : state A}.
Hypothesis N : numbers zero one add mul.
Hypothesis R : reached zero one add mul flt e.

Lemma reached_is_sound : sound e.
Proof. destruct N as (N1 & N2 & N3). exact (reached_sound zero one add mul N1 N2 N3 flt e R). Qed.

Lemma reached_array a : In a (arrays e) ->
  inside (memory e) a /\ distinct a /\ 0 < stride a /\ (vals a < length (memory e))%nat.
Proof. exact (sound_array zero e a reached_is_sound). Qed.

Lemma reached_matrix m : In m (matrices e) ->
  minside (memory e) m /\ mdistinct m /\ moffset m = 0 /\ (mvals m < length (memory e))%nat.
Proof. exact (sound_matrix e m reached_is_sound). Qed.

End Reached.

(** Programs that do not add arrays. *)
Definition quiet {A} (c : command A) : bool :=
  match c with
  | CPlus _ _ | CIadd _ _ => false
  | _ => true
  end.

Lemma quiet_reached {A} (zero one : A) add mul flt cs : forall e e',
  reached zero one add mul flt e -> forallb quiet cs = true ->
  calls zero one add mul flt e cs = Done e' -> reached zero one add mul flt e'.
Proof.
  induction cs as [|c cs IH]; intros e e' R Q; cbn [calls forallb] in *.
  - now intros [= <-].
  - apply andb_prop in Q as [Qc Q].
    destruct (call zero one add mul flt e c) as [e1| | |] eqn:E; try discriminate.
    + apply IH; [|exact Q]. refine (reached_call _ _ _ _ _ e c e1 R _ E).
      intros _. destruct c; try exact Logic.I; discriminate.
    + now apply IH.
Qed.
