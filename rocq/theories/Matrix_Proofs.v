(** What the loops of arrays and matrices do to memory. *)

From Verif Require Import Base Matrix_Model Matrix_Spec.
From Coq Require Import ZifyBool ZifyNat.
Open Scope list_scope.
Open Scope Z_scope.

Section Proofs.
Context {A : Type}.

Notation store := (store A).
Implicit Types s : store.

(* -------------------------------------------------------------- *)
(** * Memory *)

Lemma length_replace {X} (xs : list X) n v : length (replace xs n v) = length xs.
Proof. revert n; induction xs as [|x xs IH]; intros [|n]; cbn; auto. Qed.

Lemma nth_error_replace {X} (xs : list X) n v k :
  nth_error (replace xs n v) k =
  if (Nat.eqb k n && Nat.ltb n (length xs))%bool then Some v else nth_error xs k.
Proof.
  revert n k; induction xs as [|x xs IH]; intros n k; cbn [replace].
  - destruct (Nat.ltb_spec n (length (@nil X))); cbn in *; [lia|].
    now rewrite andb_false_r.
  - destruct n as [|n], k as [|k]; cbn [nth_error]; try reflexivity.
    + rewrite IH. cbn [length Nat.eqb].
      replace (Nat.ltb (S n) (S (length xs))) with (Nat.ltb n (length xs)); [reflexivity|].
      destruct (Nat.ltb_spec n (length xs)), (Nat.ltb_spec (S n) (S (length xs))); lia.
Qed.

(** The lists keep their lengths. *)
Definition fits (s s' : store) : Prop := map (@length A) s' = map (@length A) s.

Lemma fits_refl s : fits s s.
Proof. reflexivity. Qed.

Lemma fits_trans s1 s2 s3 : fits s1 s2 -> fits s2 s3 -> fits s1 s3.
Proof. unfold fits. congruence. Qed.

Lemma nth_map_length (s : store) l : length (nth l s []) = nth l (map (@length A) s) 0%nat.
Proof. exact (eq_sym (map_nth (@length A) s [] l)). Qed.

Lemma fits_length s s' l :
  fits s s' -> length (nth l s' []) = length (nth l s []).
Proof. unfold fits. intros H. rewrite !nth_map_length. now rewrite H. Qed.

Lemma fits_stores (s s' : store) : fits s s' -> length s' = length s.
Proof. unfold fits. intros H. apply (f_equal (@length nat)) in H. now rewrite !map_length in H. Qed.

Lemma cell_some s l k :
  (exists x, cell s l k = Some x) <-> 0 <= k < Z.of_nat (length (nth l s [])).
Proof.
  unfold cell. destruct (Z.ltb_spec k 0).
  - split; [intros [x E]; discriminate | lia].
  - destruct (nth_error s l) as [xs|] eqn:E.
    + rewrite (nth_error_nth _ _ [] E). split.
      * intros [x Ex]. assert (Z.to_nat k < length xs)%nat by (apply nth_error_Some; congruence). lia.
      * intros Hk. destruct (nth_error xs (Z.to_nat k)) eqn:Ex; eauto.
        apply nth_error_None in Ex. lia.
    + apply nth_error_None in E. rewrite nth_overflow by exact E. cbn.
      split; [intros [x Ex]; discriminate | lia].
Qed.

Lemma cell_bound s l k x : cell s l k = Some x -> 0 <= k < Z.of_nat (length (nth l s [])).
Proof. intros H. apply cell_some. eauto. Qed.

Lemma load_cell s l k x : cell s l k = Some x -> load s l k = Done x.
Proof. unfold load. now intros ->. Qed.

Lemma list_get_cell s l k x : cell s l k = Some x -> list_get s l k = Done x.
Proof.
  intros H. pose proof (cell_bound _ _ _ _ H). unfold list_get, listed.
  destruct (Z.ltb_spec k 0); [lia|]. now rewrite H.
Qed.

Lemma cell_save s l k v x :
  cell s l k = Some x ->
  exists s', save s l k v = Done s' /\ fits s s' /\
    forall l' k', cell s' l' k' =
      if (Nat.eqb l' l && (k' =? k))%bool then Some v else cell s l' k'.
Proof.
  intros H. unfold save. rewrite H. eexists; split; [reflexivity|].
  pose proof (cell_bound _ _ _ _ H) as B.
  assert (L : (l < length s)%nat).
  { destruct (Nat.lt_ge_cases l (length s)) as [L|L]; [exact L|].
    rewrite nth_overflow in B by exact L. cbn in B. lia. }
  split.
  - unfold fits. clear H.
    assert (G : forall (t : store) n xs, length xs = length (nth n t []) ->
              map (@length A) (replace t n xs) = map (@length A) t).
    { induction t as [|y t IH]; intros [|n] xs E; cbn in *; try reflexivity.
      - now rewrite E.
      - now rewrite IH. }
    apply G. now rewrite length_replace.
  - intros l' k'. unfold cell at 1. rewrite nth_error_replace.
    destruct (Nat.eqb_spec l' l) as [->|N]; cbn [andb].
    + replace (Nat.ltb l (length s)) with true by lia.
      destruct (Z.ltb_spec k' 0).
      * replace (k' =? k) with false by lia. unfold cell. now replace (k' <? 0) with true by lia.
      * rewrite nth_error_replace. unfold cell. replace (k' <? 0) with false by lia.
        rewrite (nth_error_nth' s []) by exact L.
        destruct (Z.eqb_spec k' k) as [->|N].
        -- rewrite Nat.eqb_refl. now replace (Nat.ltb (Z.to_nat k) (length (nth l s []))) with true by lia.
        -- now replace (Nat.eqb (Z.to_nat k') (Z.to_nat k)) with false by lia.
    + reflexivity.
Qed.

Lemma list_set_save s l k v x :
  cell s l k = Some x -> list_set s l k v = save s l k v.
Proof.
  intros H. pose proof (cell_bound _ _ _ _ H). unfold list_set, listed.
  destruct (Z.ltb_spec k 0); [lia|]. now rewrite H.
Qed.

(** Nothing that was there moves when a list is made. *)
Lemma cell_grown s t l k x : cell s l k = Some x -> cell (s ++ t) l k = Some x.
Proof.
  unfold cell. destruct (k <? 0); [discriminate|].
  destruct (nth_error s l) as [xs|] eqn:E; [|discriminate].
  rewrite nth_error_app1 by (apply nth_error_Some; congruence). now rewrite E.
Qed.

Lemma cell_new (s : store) xs k : 0 <= k -> cell (s ++ [xs]) (length s) k = nth_error xs (Z.to_nat k).
Proof.
  intros Hk. unfold cell. replace (k <? 0) with false by lia.
  rewrite nth_error_app2 by lia. now rewrite Nat.sub_diag.
Qed.

(* -------------------------------------------------------------- *)
(** * Changes *)

(** In list l, the places that [D] speaks of get the values that it says,
    and no other place changes. *)
Definition updated (s s' : store) (l : nat) (D : Z -> A -> Prop) : Prop :=
  fits s s' /\
  (forall k v, D k v -> cell s' l k = Some v) /\
  (forall l' k, (forall v, ~ (l' = l /\ D k v)) -> cell s' l' k = cell s l' k).

Lemma updated_same s l (D : Z -> A -> Prop) : (forall k v, ~ D k v) -> updated s s l D.
Proof.
  intros H. split; [apply fits_refl|]. split; [intros k v d; now apply H in d|auto].
Qed.

Lemma updated_one s l k v x (D : Z -> A -> Prop) :
  cell s l k = Some x -> (forall k' v', D k' v' <-> k' = k /\ v' = v) ->
  exists s', save s l k v = Done s' /\ updated s s' l D.
Proof.
  intros H HD. destruct (cell_save s l k v x H) as (s' & E & F & C).
  exists s'. split; [exact E|]. split; [exact F|]. split.
  - intros k' v' d. apply HD in d as [-> ->]. rewrite C, Nat.eqb_refl, Z.eqb_refl. reflexivity.
  - intros l' k' N. rewrite C.
    destruct (Nat.eqb_spec l' l); [|reflexivity].
    destruct (Z.eqb_spec k' k); [|reflexivity].
    exfalso. apply (N v). split; [assumption|]. apply HD. auto.
Qed.

Lemma updated_both s s1 s2 l (D1 D2 D : Z -> A -> Prop) :
  updated s s1 l D1 -> updated s1 s2 l D2 ->
  (forall k v w, D1 k v -> D2 k w -> False) ->
  (forall k v, D k v <-> D1 k v \/ D2 k v) ->
  updated s s2 l D.
Proof.
  intros (F1 & P1 & K1) (F2 & P2 & K2) N HD.
  split; [eapply fits_trans; eassumption|]. split.
  - intros k v d. apply HD in d as [d|d]; [|auto].
    rewrite K2; [auto|]. intros w [_ d2]. eapply N; eassumption.
  - intros l' k H. rewrite K2, K1; [reflexivity| |].
    + intros v [E d]. apply (H v). split; [exact E|]. apply HD. auto.
    + intros v [E d]. apply (H v). split; [exact E|]. apply HD. auto.
Qed.

Lemma updated_ext s s' l (D D' : Z -> A -> Prop) :
  updated s s' l D -> (forall k v, D k v <-> D' k v) -> updated s s' l D'.
Proof.
  intros (F & P & K) H. split; [exact F|]. split.
  - intros k v d. apply P, H, d.
  - intros l' k N. apply K. intros v [E d]. apply (N v). split; [exact E|now apply H].
Qed.

(* -------------------------------------------------------------- *)
(** * Reading *)

Lemma count_S n : count (S n) = 0 :: map (fun i => i + 1) (count n).
Proof.
  unfold count. cbn [seq map]. f_equal. rewrite <- seq_shift, !map_map.
  apply map_ext. intros i. lia.
Qed.

Lemma map_count_S {X} (g : Z -> X) n : map g (count (S n)) = g 0 :: map (fun i => g (i + 1)) (count n).
Proof. rewrite count_S. cbn [map]. now rewrite map_map. Qed.

Lemma length_count n : length (count n) = n.
Proof. unfold count. now rewrite map_length, seq_length. Qed.

Lemma nth_error_count n i : (i < n)%nat -> nth_error (count n) i = Some (Z.of_nat i).
Proof.
  intros H. unfold count. rewrite nth_error_map, (nth_error_nth' _ 0%nat) by (rewrite seq_length; lia).
  cbn [option_map]. rewrite seq_nth by lia. f_equal.
Qed.

Definition shows (s : store) (l : nat) (n : nat) (p st : Z) (g : Z -> A) : Prop :=
  forall i, 0 <= i < Z.of_nat n -> cell s l (p + i * st) = Some (g i).

Lemma shows_head s l n p st g : shows s l (S n) p st g -> cell s l p = Some (g 0).
Proof. intros H. specialize (H 0 ltac:(lia)). now replace (p + 0 * st) with p in H by lia. Qed.

Lemma shows_tail s l n p st g :
  shows s l (S n) p st g -> shows s l n (p + st) st (fun i => g (i + 1)).
Proof.
  intros H i Hi. specialize (H (i + 1) ltac:(lia)).
  now replace (p + st + i * st) with (p + (i + 1) * st) by lia.
Qed.

Lemma read_loop_ok s l n : forall p st g,
  shows s l n p st g -> read_loop s l n p st = Done (map g (count n)).
Proof.
  induction n as [|n IH]; intros p st g H; [reflexivity|].
  cbn [read_loop]. rewrite (load_cell _ _ _ _ (shows_head _ _ _ _ _ _ H)). cbn [bind].
  rewrite (IH _ _ _ (shows_tail _ _ _ _ _ _ H)). cbn [bind]. now rewrite map_count_S.
Qed.

Definition total_from (add : A -> A -> A) (acc : A) (n : nat) (f : Z -> A) : A :=
  fold_left (fun acc k => add acc (f k)) (count n) acc.

Lemma total_from_S (add : A -> A -> A) acc n f :
  total_from add acc (S n) f = total_from add (add acc (f 0)) n (fun i => f (i + 1)).
Proof.
  unfold total_from. rewrite count_S. cbn [fold_left].
  generalize (add acc (f 0)) as a. generalize (count n) as ks.
  induction ks as [|k ks IH]; intros a; cbn; auto.
Qed.

Lemma total_total_from (zero : A) (add : A -> A -> A) n f : total zero add n f = total_from add zero (Z.to_nat n) f.
Proof. reflexivity. Qed.

Lemma total_from_ext (add : A -> A -> A) acc n f g :
  (forall i, 0 <= i < Z.of_nat n -> f i = g i) -> total_from add acc n f = total_from add acc n g.
Proof.
  revert acc f g; induction n as [|n IH]; intros acc f g H; [reflexivity|].
  rewrite !total_from_S. rewrite (H 0) by lia. apply IH. intros i Hi. apply H. lia.
Qed.

Lemma sum_loop_ok (add : A -> A -> A) s l n : forall p st g acc,
  shows s l n p st g -> sum_loop add s l n p st acc = Done (total_from add acc n g).
Proof.
  induction n as [|n IH]; intros p st g acc H; [reflexivity|].
  cbn [sum_loop]. rewrite (load_cell _ _ _ _ (shows_head _ _ _ _ _ _ H)). cbn [bind].
  rewrite (IH _ _ _ _ (shows_tail _ _ _ _ _ _ H)). now rewrite total_from_S.
Qed.

Lemma dot_loop_ok (add mul : A -> A -> A) s l l2 n : forall p st p2 st2 g h acc,
  shows s l n p st g -> shows s l2 n p2 st2 h ->
  dot_loop add mul s l p st l2 p2 st2 n acc =
    Done (total_from add acc n (fun i => mul (g i) (h i))).
Proof.
  induction n as [|n IH]; intros p st p2 st2 g h acc H H2; [reflexivity|].
  cbn [dot_loop]. rewrite (load_cell _ _ _ _ (shows_head _ _ _ _ _ _ H)). cbn [bind].
  rewrite (load_cell _ _ _ _ (shows_head _ _ _ _ _ _ H2)). cbn [bind].
  rewrite (IH _ _ _ _ _ _ _ (shows_tail _ _ _ _ _ _ H) (shows_tail _ _ _ _ _ _ H2)).
  now rewrite total_from_S.
Qed.

(** The cells of a matrix. *)
Definition mshows (s : store) (l : nat) (n0 n1 : nat) (p st0 st1 : Z) (g : Z -> Z -> A) : Prop :=
  forall i j, 0 <= i < Z.of_nat n0 -> 0 <= j < Z.of_nat n1 ->
    cell s l (p + i * st0 + j * st1) = Some (g i j).

Lemma mshows_head s l n0 n1 p st0 st1 g :
  mshows s l (S n0) n1 p st0 st1 g -> shows s l n1 p st1 (g 0).
Proof.
  intros H j Hj. specialize (H 0 j ltac:(lia) Hj).
  now replace (p + 0 * st0 + j * st1) with (p + j * st1) in H by lia.
Qed.

Lemma mshows_tail s l n0 n1 p st0 st1 g :
  mshows s l (S n0) n1 p st0 st1 g -> mshows s l n0 n1 (p + st0) st0 st1 (fun i => g (i + 1)).
Proof.
  intros H i j Hi Hj. specialize (H (i + 1) j ltac:(lia) Hj).
  now replace (p + st0 + i * st0 + j * st1) with (p + (i + 1) * st0 + j * st1) by lia.
Qed.

(** The elements of a matrix, row by row. *)
Definition flat {X} (n0 n1 : nat) (g : Z -> Z -> X) : list X :=
  flat_map (fun i => map (g i) (count n1)) (count n0).

Lemma flat_S {X} n0 n1 (g : Z -> Z -> X) :
  flat (S n0) n1 g = map (g 0) (count n1) ++ flat n0 n1 (fun i => g (i + 1)).
Proof.
  unfold flat. rewrite count_S. cbn [flat_map]. f_equal.
  generalize (count n0) as ks. induction ks as [|k ks IH]; [reflexivity|].
  cbn [map flat_map]. now rewrite IH.
Qed.

Lemma mread_loop_ok s l n1 n0 : forall p st0 st1 g,
  mshows s l n0 n1 p st0 st1 g -> mread_loop s l n0 n1 p st0 st1 = Done (flat n0 n1 g).
Proof.
  induction n0 as [|n0 IH]; intros p st0 st1 g H; [reflexivity|].
  cbn [mread_loop]. rewrite (read_loop_ok _ _ _ _ _ _ (mshows_head _ _ _ _ _ _ _ _ H)). cbn [bind].
  rewrite (IH _ _ _ _ (mshows_tail _ _ _ _ _ _ _ _ H)). cbn [bind]. now rewrite flat_S.
Qed.

Lemma length_flat {X} n0 n1 (g : Z -> Z -> X) : length (flat n0 n1 g) = (n0 * n1)%nat.
Proof.
  revert g; induction n0 as [|n0 IH]; intros g; [reflexivity|].
  rewrite flat_S, app_length, IH, map_length, length_count. lia.
Qed.

Lemma nth_error_flat {X} n0 n1 (g : Z -> Z -> X) i j :
  0 <= i < Z.of_nat n0 -> 0 <= j < Z.of_nat n1 ->
  nth_error (flat n0 n1 g) (Z.to_nat (i * Z.of_nat n1 + j)) = Some (g i j).
Proof.
  revert g i; induction n0 as [|n0 IH]; intros g i Hi Hj; [lia|].
  rewrite flat_S. destruct (Z.eq_dec i 0) as [->|N].
  - rewrite nth_error_app1 by (rewrite map_length, length_count; lia).
    rewrite nth_error_map.
    replace (Z.to_nat (0 * Z.of_nat n1 + j)) with (Z.to_nat j) by lia.
    rewrite nth_error_count by lia. cbn. now rewrite Z2Nat.id by lia.
  - rewrite nth_error_app2 by (rewrite map_length, length_count; nia).
    rewrite map_length, length_count.
    replace (Z.to_nat (i * Z.of_nat n1 + j) - n1)%nat with (Z.to_nat ((i - 1) * Z.of_nat n1 + j)) by nia.
    rewrite (IH (fun i => g (i + 1)) (i - 1)) by lia. f_equal. f_equal. lia.
Qed.

(* -------------------------------------------------------------- *)
(** * Writing *)

(** The places of n elements and their new values. *)
Definition line (n : nat) (p st : Z) (g : Z -> A) (k : Z) (v : A) : Prop :=
  exists i, 0 <= i < Z.of_nat n /\ k = p + i * st /\ v = g i.

Definition apart (n : nat) (st : Z) : Prop :=
  forall i j, 0 <= i < Z.of_nat n -> 0 <= j < Z.of_nat n -> i <> j -> i * st <> j * st.

Lemma apart_tail n st : apart (S n) st -> apart n st.
Proof. intros H i j Hi Hj N. apply H; lia. Qed.

Lemma line_split n p st g k v :
  line (S n) p st g k v <-> (k = p /\ v = g 0) \/ line n (p + st) st (fun i => g (i + 1)) k v.
Proof.
  split.
  - intros (i & Hi & -> & ->). destruct (Z.eq_dec i 0) as [->|N].
    + left. split; [lia|reflexivity].
    + right. exists (i - 1). split; [lia|]. split; [lia|]. f_equal. lia.
  - intros [[-> ->]|(i & Hi & -> & ->)].
    + exists 0. split; [lia|]. split; [lia|reflexivity].
    + exists (i + 1). split; [lia|]. split; [lia|reflexivity].
Qed.

Lemma line_fresh n p st g k v :
  apart (S n) st -> k = p -> line n (p + st) st g k v -> False.
Proof.
  intros H -> (i & Hi & E & _). apply (H (i + 1) 0); lia.
Qed.

Lemma shows_later s s1 l n p st g v l2 k (Hk : forall i, 0 <= i < Z.of_nat n -> ~ (l2 = l /\ p + i * st = k)) :
  shows s l n p st g -> updated s s1 l2 (fun k' v' => k' = k /\ v' = v) -> shows s1 l n p st g.
Proof.
  intros H (_ & _ & K) i Hi. rewrite K; [auto|]. intros w [E [E2 _]].
  apply (Hk i Hi). split; auto.
Qed.

Lemma unary_loop_ok f n : forall l p st g s,
  shows s l n p st g -> apart n st ->
  exists s', unary_loop f n l p st s = Done s' /\ updated s s' l (line n p st (fun i => f (g i))).
Proof.
  induction n as [|n IH]; intros l p st g s H N.
  - exists s. split; [reflexivity|]. apply updated_same. intros k v (i & Hi & _). lia.
  - cbn [unary_loop]. rewrite (load_cell _ _ _ _ (shows_head _ _ _ _ _ _ H)). cbn [bind].
    destruct (updated_one s l p (f (g 0)) _ (fun k v => k = p /\ v = f (g 0))
                (shows_head _ _ _ _ _ _ H) ltac:(tauto)) as (s1 & E1 & U1).
    rewrite E1. cbn [bind].
    assert (H1 : shows s1 l n (p + st) st (fun i => g (i + 1))).
    { eapply shows_later; [|exact (shows_tail _ _ _ _ _ _ H)|exact U1].
      intros i Hi [_ E]. apply (N (i + 1) 0); lia. }
    destruct (IH _ _ _ _ _ H1 (apart_tail _ _ N)) as (s2 & E2 & U2).
    exists s2. split; [exact E2|].
    eapply updated_both; [exact U1|exact U2| |].
    + intros k v w [-> _] d. exact (line_fresh _ _ _ _ _ _ N eq_refl d).
    + intros k v. apply line_split.
Qed.

(** Two lines overlap at most at the same index. *)
Definition along (n : nat) (l : nat) (p st : Z) (l2 : nat) (p2 st2 : Z) : Prop :=
  forall i j, 0 <= i < Z.of_nat n -> 0 <= j < Z.of_nat n -> i <> j ->
    ~ (l = l2 /\ p + i * st = p2 + j * st2).

Lemma along_tail n l p st l2 p2 st2 :
  along (S n) l p st l2 p2 st2 -> along n l (p + st) st l2 (p2 + st2) st2.
Proof. intros H i j Hi Hj N [E E2]. apply (H (i + 1) (j + 1)); lia. Qed.

(** Both loops over two arrays do the same to the first one. *)
Lemma pair_step n l p st l2 p2 st2 g h v s :
  shows s l (S n) p st g -> shows s l2 (S n) p2 st2 h ->
  apart (S n) st -> along (S n) l p st l2 p2 st2 ->
  exists s1, save s l p v = Done s1 /\
    updated s s1 l (fun k v' => k = p /\ v' = v) /\
    shows s1 l n (p + st) st (fun i => g (i + 1)) /\
    shows s1 l2 n (p2 + st2) st2 (fun i => h (i + 1)).
Proof.
  intros H H2 N O.
  destruct (updated_one s l p v _ (fun k v' => k = p /\ v' = v)
              (shows_head _ _ _ _ _ _ H) ltac:(tauto)) as (s1 & E1 & U1).
  exists s1. split; [exact E1|]. split; [exact U1|]. split.
  - eapply shows_later; [|exact (shows_tail _ _ _ _ _ _ H)|exact U1].
    intros i Hi [_ E]. apply (N (i + 1) 0); lia.
  - eapply shows_later; [|exact (shows_tail _ _ _ _ _ _ H2)|exact U1].
    intros i Hi [E E2]. apply (O 0 (i + 1)); lia.
Qed.

Lemma binop_loop_shift f n : forall i l p st l2 p2 st2 s,
  binop_loop f n (i + 1) l p st l2 p2 st2 s =
  binop_loop f n i l (p + st) st l2 (p2 + st2) st2 s.
Proof.
  induction n as [|n IH]; intros i l p st l2 p2 st2 s; [reflexivity|].
  cbn [binop_loop].
  replace (p + (i + 1) * st) with (p + st + i * st) by lia.
  replace (p2 + (i + 1) * st2) with (p2 + st2 + i * st2) by lia.
  destruct (load s l (p + st + i * st)); cbn [bind]; try reflexivity.
  destruct (load s l2 (p2 + st2 + i * st2)); cbn [bind]; try reflexivity.
  destruct (save s l (p + st + i * st) (f x x0)); cbn [bind]; try reflexivity.
  apply IH.
Qed.

Lemma binop_loop_ok f n : forall l p st l2 p2 st2 g h s,
  shows s l n p st g -> shows s l2 n p2 st2 h -> apart n st -> along n l p st l2 p2 st2 ->
  exists s', binop_loop f n 0 l p st l2 p2 st2 s = Done s' /\
    updated s s' l (line n p st (fun i => f (g i) (h i))).
Proof.
  induction n as [|n IH]; intros l p st l2 p2 st2 g h s H H2 N O.
  - exists s. split; [reflexivity|]. apply updated_same. intros k v (i & Hi & _). lia.
  - cbn [binop_loop]. replace (p + 0 * st) with p by lia. replace (p2 + 0 * st2) with p2 by lia.
    rewrite (load_cell _ _ _ _ (shows_head _ _ _ _ _ _ H)). cbn [bind].
    rewrite (load_cell _ _ _ _ (shows_head _ _ _ _ _ _ H2)). cbn [bind].
    destruct (pair_step n l p st l2 p2 st2 g h (f (g 0) (h 0)) s H H2 N O) as (s1 & E1 & U1 & H1 & H3).
    rewrite E1. cbn [bind]. change 1 with (0 + 1). rewrite binop_loop_shift.
    destruct (IH _ _ _ _ _ _ _ _ _ H1 H3 (apart_tail _ _ N) (along_tail _ _ _ _ _ _ _ O)) as (s2 & E2 & U2).
    exists s2. split; [exact E2|].
    eapply updated_both; [exact U1|exact U2| |].
    + intros k v w [-> _] d. exact (line_fresh _ _ _ _ _ _ N eq_refl d).
    + intros k v. apply (line_split n p st (fun i => f (g i) (h i))).
Qed.

Lemma axpy_loop_ok (add mul : A -> A -> A) a n : forall l p st l2 p2 st2 g h s,
  shows s l n p st g -> shows s l2 n p2 st2 h -> apart n st -> along n l p st l2 p2 st2 ->
  exists s', axpy_loop add mul n a l2 p2 st2 l p st s = Done s' /\
    updated s s' l (line n p st (fun i => add (g i) (mul a (h i)))).
Proof.
  induction n as [|n IH]; intros l p st l2 p2 st2 g h s H H2 N O.
  - exists s. split; [reflexivity|]. apply updated_same. intros k v (i & Hi & _). lia.
  - cbn [axpy_loop].
    rewrite (load_cell _ _ _ _ (shows_head _ _ _ _ _ _ H2)). cbn [bind].
    rewrite (load_cell _ _ _ _ (shows_head _ _ _ _ _ _ H)). cbn [bind].
    destruct (pair_step n l p st l2 p2 st2 g h (add (g 0) (mul a (h 0))) s H H2 N O) as (s1 & E1 & U1 & H1 & H3).
    rewrite E1. cbn [bind].
    destruct (IH _ _ _ _ _ _ _ _ _ H1 H3 (apart_tail _ _ N) (along_tail _ _ _ _ _ _ _ O)) as (s2 & E2 & U2).
    exists s2. split; [exact E2|].
    eapply updated_both; [exact U1|exact U2| |].
    + intros k v w [-> _] d. exact (line_fresh _ _ _ _ _ _ N eq_refl d).
    + intros k v. apply (line_split n p st (fun i => add (g i) (mul a (h i)))).
Qed.

Lemma copy_loop_ok n : forall l p st l2 p2 st2 g h s,
  shows s l n p st g -> shows s l2 n p2 st2 h -> apart n st -> along n l p st l2 p2 st2 ->
  exists s', copy_loop n l p st l2 p2 st2 s = Done s' /\
    updated s s' l (line n p st h).
Proof.
  induction n as [|n IH]; intros l p st l2 p2 st2 g h s H H2 N O.
  - exists s. split; [reflexivity|]. apply updated_same. intros k v (i & Hi & _). lia.
  - cbn [copy_loop].
    rewrite (load_cell _ _ _ _ (shows_head _ _ _ _ _ _ H2)). cbn [bind].
    destruct (pair_step n l p st l2 p2 st2 g h (h 0) s H H2 N O) as (s1 & E1 & U1 & H1 & H3).
    rewrite E1. cbn [bind].
    destruct (IH _ _ _ _ _ _ _ _ _ H1 H3 (apart_tail _ _ N) (along_tail _ _ _ _ _ _ _ O)) as (s2 & E2 & U2).
    exists s2. split; [exact E2|].
    eapply updated_both; [exact U1|exact U2| |].
    + intros k v w [-> _] d. exact (line_fresh _ _ _ _ _ _ N eq_refl d).
    + intros k v. apply (line_split n p st h).
Qed.

(** Lines become rectangles. *)
Definition rect (n0 n1 : nat) (p st0 st1 : Z) (g : Z -> Z -> A) (k : Z) (v : A) : Prop :=
  exists i j, 0 <= i < Z.of_nat n0 /\ 0 <= j < Z.of_nat n1 /\
    k = p + i * st0 + j * st1 /\ v = g i j.

Definition mapart (n0 n1 : nat) (st0 st1 : Z) : Prop :=
  forall i j i' j', 0 <= i < Z.of_nat n0 -> 0 <= j < Z.of_nat n1 ->
    0 <= i' < Z.of_nat n0 -> 0 <= j' < Z.of_nat n1 -> (i, j) <> (i', j') ->
    i * st0 + j * st1 <> i' * st0 + j' * st1.

Lemma mapart_tail n0 n1 st0 st1 : mapart (S n0) n1 st0 st1 -> mapart n0 n1 st0 st1.
Proof. intros H i j i' j' Hi Hj Hi' Hj' N. apply H; try lia; exact N. Qed.

Lemma mapart_line n0 n1 st0 st1 : mapart (S n0) n1 st0 st1 -> apart n1 st1.
Proof.
  intros H i j Hi Hj N. specialize (H 0 i 0 j ltac:(lia) Hi ltac:(lia) Hj). 
  assert ((0, i) <> (0, j)) by (intros E; congruence). specialize (H H0). lia.
Qed.

Lemma rect_split n0 n1 p st0 st1 g k v :
  rect (S n0) n1 p st0 st1 g k v <->
  line n1 p st1 (g 0) k v \/ rect n0 n1 (p + st0) st0 st1 (fun i => g (i + 1)) k v.
Proof.
  split.
  - intros (i & j & Hi & Hj & -> & ->). destruct (Z.eq_dec i 0) as [->|N].
    + left. exists j. split; [exact Hj|]. split; [lia|reflexivity].
    + right. exists (i - 1), j. split; [lia|]. split; [lia|]. split; [lia|]. f_equal. lia.
  - intros [(j & Hj & -> & ->)|(i & j & Hi & Hj & -> & ->)].
    + exists 0, j. split; [lia|]. split; [lia|]. split; [lia|reflexivity].
    + exists (i + 1), j. split; [lia|]. split; [lia|]. split; [lia|reflexivity].
Qed.

Lemma rect_fresh n0 n1 p st0 st1 g h k v w :
  mapart (S n0) n1 st0 st1 -> line n1 p st1 g k v -> rect n0 n1 (p + st0) st0 st1 h k w -> False.
Proof.
  intros H (j & Hj & -> & _) (i & j' & Hi & Hj' & E & _).
  apply (H 0 j (i + 1) j'); try lia. intros E2. injection E2. lia.
Qed.

Lemma mshows_later s s1 l n0 n1 p st0 st1 g l2 (D : Z -> A -> Prop)
  (Hk : forall i j v, 0 <= i < Z.of_nat n0 -> 0 <= j < Z.of_nat n1 ->
     ~ (l = l2 /\ D (p + i * st0 + j * st1) v)) :
  mshows s l n0 n1 p st0 st1 g -> updated s s1 l2 D -> mshows s1 l n0 n1 p st0 st1 g.
Proof.
  intros H (_ & _ & K) i j Hi Hj. rewrite K; [auto|]. intros w [E d].
  apply (Hk i j w Hi Hj). auto.
Qed.

Lemma munary_loop_ok f n1 n0 : forall l p st0 st1 g s,
  mshows s l n0 n1 p st0 st1 g -> mapart n0 n1 st0 st1 ->
  exists s', munary_loop f n0 n1 l p st0 st1 s = Done s' /\
    updated s s' l (rect n0 n1 p st0 st1 (fun i j => f (g i j))).
Proof.
  induction n0 as [|n0 IH]; intros l p st0 st1 g s H N.
  - exists s. split; [reflexivity|]. apply updated_same. intros k v (i & j & Hi & _). lia.
  - cbn [munary_loop].
    destruct (unary_loop_ok f n1 l p st1 (g 0) s (mshows_head _ _ _ _ _ _ _ _ H) (mapart_line _ _ _ _ N))
      as (s1 & E1 & U1).
    rewrite E1. cbn [bind].
    assert (H1 : mshows s1 l n0 n1 (p + st0) st0 st1 (fun i => g (i + 1))).
    { eapply mshows_later; [|exact (mshows_tail _ _ _ _ _ _ _ _ H)|exact U1].
      intros i j v Hi Hj [_ d].
      eapply (rect_fresh n0 n1 p st0 st1 _ (fun i j => g i j)); [exact N|exact d|].
      exists i, j. repeat split; try lia. }
    destruct (IH _ _ _ _ _ _ H1 (mapart_tail _ _ _ _ N)) as (s2 & E2 & U2).
    exists s2. split; [exact E2|].
    eapply updated_both; [exact U1|exact U2| |].
    + intros k v w d1 d2. eapply rect_fresh; eassumption.
    + intros k v. apply (rect_split n0 n1 p st0 st1 (fun i j => f (g i j))).
Qed.

Definition malong (n0 n1 : nat) (l : nat) (p st0 st1 : Z) (l2 : nat) (p2 st20 st21 : Z) : Prop :=
  forall i j i' j', 0 <= i < Z.of_nat n0 -> 0 <= j < Z.of_nat n1 ->
    0 <= i' < Z.of_nat n0 -> 0 <= j' < Z.of_nat n1 -> (i, j) <> (i', j') ->
    ~ (l = l2 /\ p + i * st0 + j * st1 = p2 + i' * st20 + j' * st21).

Lemma mbinop_loop_ok f n1 n0 : forall l p st0 st1 l2 p2 st20 st21 g h s,
  mshows s l n0 n1 p st0 st1 g -> mshows s l2 n0 n1 p2 st20 st21 h ->
  mapart n0 n1 st0 st1 -> malong n0 n1 l p st0 st1 l2 p2 st20 st21 ->
  exists s', mbinop_loop f n0 n1 l p st0 st1 l2 p2 st20 st21 s = Done s' /\
    updated s s' l (rect n0 n1 p st0 st1 (fun i j => f (g i j) (h i j))).
Proof.
  induction n0 as [|n0 IH]; intros l p st0 st1 l2 p2 st20 st21 g h s H H2 N O.
  - exists s. split; [reflexivity|]. apply updated_same. intros k v (i & j & Hi & _). lia.
  - cbn [mbinop_loop].
    destruct (binop_loop_ok f n1 l p st1 l2 p2 st21 (g 0) (h 0) s
                (mshows_head _ _ _ _ _ _ _ _ H) (mshows_head _ _ _ _ _ _ _ _ H2)
                (mapart_line _ _ _ _ N)) as (s1 & E1 & U1).
    { intros i j Hi Hj Nij [E E2]. apply (O 0 i 0 j); try lia. intros E3. congruence. }
    rewrite E1. cbn [bind].
    assert (H1 : mshows s1 l n0 n1 (p + st0) st0 st1 (fun i => g (i + 1))).
    { eapply mshows_later; [|exact (mshows_tail _ _ _ _ _ _ _ _ H)|exact U1].
      intros i j v Hi Hj [_ d].
      eapply (rect_fresh n0 n1 p st0 st1 _ (fun i j => g i j)); [exact N|exact d|].
      exists i, j. repeat split; try lia. }
    assert (H3 : mshows s1 l2 n0 n1 (p2 + st20) st20 st21 (fun i => h (i + 1))).
    { eapply mshows_later; [|exact (mshows_tail _ _ _ _ _ _ _ _ H2)|exact U1].
      intros i j v Hi Hj [E (j' & Hj' & E2 & _)].
      apply (O 0 j' (i + 1) j); try lia. intros E3. injection E3. lia. }
    destruct (IH l (p + st0) st0 st1 l2 (p2 + st20) st20 st21 _ _ _ H1 H3 (mapart_tail _ _ _ _ N)) as (s2 & E2 & U2).
    { intros i j i' j' Hi Hj Hi' Hj' Nij [E E2]. apply (O (i + 1) j (i' + 1) j'); try lia.
      intros E3. apply Nij. injection E3. intros. f_equal; lia. }
    exists s2. split; [exact E2|].
    eapply updated_both; [exact U1|exact U2| |].
    + intros k v w d1 d2. eapply rect_fresh; eassumption.
    + intros k v. apply (rect_split n0 n1 p st0 st1 (fun i j => f (g i j) (h i j))).
Qed.

End Proofs.
