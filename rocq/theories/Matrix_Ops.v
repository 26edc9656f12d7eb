(** What the operations of arrays and matrices give. *)

From Verif Require Import Base Matrix_Model Matrix_Spec Matrix_Proofs.
From Coq Require Import ZifyBool ZifyNat.
Open Scope list_scope.
Open Scope Z_scope.

Section Ops.
Context {A : Type}.

Notation store := (store A).
Implicit Types s : store.

(* -------------------------------------------------------------- *)
(** * Elements and places *)

Lemma array_cells s a n g :
  inside s a -> array_is s a n g ->
  shows s (vals a) (Z.to_nat n) (offset a) (stride a) g.
Proof.
  intros [_ B] (L & P & H) i Hi.
  specialize (H i ltac:(lia)). unfold item in H.
  replace ((i <? 0) || (len a <=? i))%bool with false in H by lia.
  specialize (B i ltac:(lia)). apply cell_some in B as [x E]. rewrite E.
  rewrite Z.add_comm in E. rewrite (list_get_cell _ _ _ _ E) in H. congruence.
Qed.

Lemma cells_array s a n g :
  len a = n -> 0 <= n -> shows s (vals a) (Z.to_nat n) (offset a) (stride a) g ->
  array_is s a n g /\ inside s a.
Proof.
  intros L P H. split.
  - split; [exact L|]. split; [exact P|]. intros i Hi. unfold item.
    replace ((i <? 0) || (len a <=? i))%bool with false by lia.
    apply list_get_cell. rewrite Z.add_comm. apply H. lia.
  - split; [lia|]. intros i Hi. apply cell_some. exists (g i). apply H. lia.
Qed.

Lemma matrix_cells s m r c g :
  minside s m -> matrix_is s m r c g ->
  mshows s (mvals m) (Z.to_nat r) (Z.to_nat c) (moffset m) (stride0 m) (stride1 m) g.
Proof.
  intros (_ & _ & B) (R & C & Pr & Pc & H) i j Hi Hj.
  specialize (H i j ltac:(lia) ltac:(lia)). unfold entry, row in H.
  replace ((i <? 0) || (rows m <=? i))%bool with false in H by lia. cbn [bind] in H.
  unfold item in H. cbn [len vals offset stride] in H.
  replace ((j <? 0) || (cols m <=? j))%bool with false in H by lia.
  specialize (B i j ltac:(lia) ltac:(lia)). apply cell_some in B as [x E]. rewrite E.
  replace (j * stride1 m + (moffset m + i * stride0 m))
    with (moffset m + i * stride0 m + j * stride1 m) in H by lia.
  rewrite (list_get_cell _ _ _ _ E) in H. congruence.
Qed.

Lemma cells_matrix s m r c g :
  rows m = r -> cols m = c -> 0 <= r -> 0 <= c ->
  mshows s (mvals m) (Z.to_nat r) (Z.to_nat c) (moffset m) (stride0 m) (stride1 m) g ->
  matrix_is s m r c g /\ minside s m.
Proof.
  intros R C Pr Pc H. split.
  - repeat (split; [assumption|]). intros i j Hi Hj. unfold entry, row.
    replace ((i <? 0) || (rows m <=? i))%bool with false by lia. cbn [bind].
    unfold item. cbn [len vals offset stride].
    replace ((j <? 0) || (cols m <=? j))%bool with false by lia.
    apply list_get_cell.
    replace (j * stride1 m + (moffset m + i * stride0 m))
      with (moffset m + i * stride0 m + j * stride1 m) by lia.
    apply H; lia.
  - split; [lia|]. split; [lia|]. intros i j Hi Hj. apply cell_some. exists (g i j). apply H; lia.
Qed.

Lemma shows_grown s t l n p st g : shows s l n p st g -> shows (s ++ t) l n p st g.
Proof. intros H i Hi. apply cell_grown. auto. Qed.

Lemma mshows_grown s t l n0 n1 p st0 st1 g :
  mshows s l n0 n1 p st0 st1 g -> mshows (s ++ t) l n0 n1 p st0 st1 g.
Proof. intros H i j Hi Hj. apply cell_grown. auto. Qed.

Lemma array_grown s s' a n g :
  grown s s' -> inside s a -> array_is s a n g -> array_is s' a n g /\ inside s' a.
Proof.
  intros [t ->] B H. pose proof (array_cells _ _ _ _ B H). destruct H as (L & P & _).
  apply cells_array; auto. now apply shows_grown.
Qed.

Lemma matrix_grown s s' m r c g :
  grown s s' -> minside s m -> matrix_is s m r c g -> matrix_is s' m r c g /\ minside s' m.
Proof.
  intros [t ->] B H. pose proof (matrix_cells _ _ _ _ _ B H). destruct H as (R & C & Pr & Pc & _).
  apply cells_matrix; auto. now apply mshows_grown.
Qed.

Lemma grown_refl s : grown s s.
Proof. exists []. now rewrite app_nil_r. Qed.

Lemma grown_one s xs : grown s (s ++ [xs]).
Proof. now exists [xs]. Qed.

Lemma grown_trans s1 s2 s3 : grown s1 s2 -> grown s2 s3 -> grown s1 s3.
Proof. intros [t ->] [t' ->]. exists (t ++ t'). now rewrite app_assoc. Qed.

(** A store whose last list alone changed is still the old one, grown. *)
Lemma nth_error_ext {X} (xs ys : list X) : (forall i, nth_error xs i = nth_error ys i) -> xs = ys.
Proof.
  revert ys; induction xs as [|x xs IH]; intros [|y ys] H; try reflexivity.
  - discriminate (H 0%nat).
  - discriminate (H 0%nat).
  - f_equal; [now injection (H 0%nat)|]. apply IH. intros i. exact (H (S i)).
Qed.

Lemma nth_error_firstn {X} n (xs : list X) i :
  nth_error (firstn n xs) i = if Nat.ltb i n then nth_error xs i else None.
Proof.
  revert xs i; induction n as [|n IH]; intros [|x xs] [|i]; cbn [firstn nth_error]; try reflexivity.
  - now destruct (Nat.ltb (S i) (S n)).
  - rewrite IH. reflexivity.
Qed.

Lemma same_list s s' l :
  fits s s' -> (l < length s)%nat -> (forall k, cell s' l k = cell s l k) ->
  nth_error s' l = nth_error s l.
Proof.
  intros F L H. pose proof (fits_stores _ _ F) as F2.
  rewrite (nth_error_nth' s []), (nth_error_nth' s' []) by lia. f_equal.
  apply nth_error_ext. intros i. specialize (H (Z.of_nat i)). unfold cell in H.
  replace (Z.of_nat i <? 0) with false in H by lia.
  rewrite (nth_error_nth' s []), (nth_error_nth' s' []) in H by lia.
  now rewrite Nat2Z.id in H.
Qed.

Lemma updated_grown s xs s' D : updated (s ++ [xs]) s' (length s) D -> grown s s'.
Proof.
  intros (F & _ & K). exists (skipn (length s) s').
  rewrite <- (firstn_skipn (length s) s') at 1. f_equal.
  apply nth_error_ext. intros i.
  pose proof (fits_stores _ _ F) as F2. rewrite app_length in F2. cbn in F2.
  destruct (Nat.lt_ge_cases i (length s)) as [L|L].
  - rewrite nth_error_firstn. destruct (Nat.ltb_spec i (length s)); [|lia].
    rewrite (same_list (s ++ [xs]) s' i F ltac:(rewrite app_length; cbn; lia)).
    + now rewrite nth_error_app1 by lia.
    + intros k. apply K. intros v [E _]. lia.
  - rewrite (proj2 (nth_error_None s i)) by lia.
    apply nth_error_None. rewrite firstn_length. lia.
Qed.

(** What the places say after a change. *)
Lemma line_shows s s' l n p st g :
  updated s s' l (line n p st g) -> shows s' l n p st g.
Proof. intros (_ & P & _) i Hi. apply P. exists i. auto. Qed.

Lemma rect_mshows s s' l n0 n1 p st0 st1 g :
  updated s s' l (rect n0 n1 p st0 st1 g) -> mshows s' l n0 n1 p st0 st1 g.
Proof. intros (_ & P & _) i j Hi Hj. apply P. exists i, j. auto. Qed.

Lemma shows_other s s' l l2 n p st g D :
  updated s s' l D -> l2 <> l -> shows s l2 n p st g -> shows s' l2 n p st g.
Proof. intros (_ & _ & K) N H i Hi. rewrite K; [auto|]. intros v [E _]. congruence. Qed.

Lemma distinct_apart a n : distinct a -> len a = n -> apart (Z.to_nat n) (stride a).
Proof. intros H L i j Hi Hj N E. apply (H i j); lia. Qed.

Lemma aligned_along a b n :
  aligned a b -> len a = n -> len b = n ->
  along (Z.to_nat n) (vals a) (offset a) (stride a) (vals b) (offset b) (stride b).
Proof. intros H La Lb i j Hi Hj N. apply H; lia. Qed.

Lemma mdistinct_apart m r c :
  mdistinct m -> rows m = r -> cols m = c -> 0 <= r -> 0 <= c ->
  mapart (Z.to_nat r) (Z.to_nat c) (stride0 m) (stride1 m).
Proof.
  intros H R C Pr Pc i j i' j' Hi Hj Hi' Hj' N E.
  apply (H i j i' j'); try lia; exact N.
Qed.

(* -------------------------------------------------------------- *)
(** * Arrays *)

Lemma new_shows s n g :
  shows (s ++ [map g (count n)]) (length s) n 0 1 g.
Proof.
  intros i Hi. replace (0 + i * 1) with i by lia. rewrite cell_new by lia.
  rewrite nth_error_map, nth_error_count by lia. cbn. now rewrite Z2Nat.id by lia.
Qed.

Lemma apart_one n : apart n 1.
Proof. intros i j Hi Hj N. lia. Qed.

Lemma array_of_ok s n g :
  0 <= n ->
  let (s', a) := array_of s (map g (count (Z.to_nat n))) in
  newly s s' a /\ array_is s' a n g.
Proof.
  intros P. unfold array_of, alloc.
  pose proof (new_shows s (Z.to_nat n) g) as H.
  rewrite map_length, length_count, Z2Nat.id by exact P.
  set (a := Arr _ _ _ _).
  destruct (cells_array (s ++ [map g (count (Z.to_nat n))]) a n g eq_refl P H) as [Ha B].
  split; [|exact Ha]. split; [apply grown_one|]. split; [rewrite app_length; cbn; lia|].
  split; [exact B|]. split; [|split; reflexivity].
  intros i j Hi Hj N. cbn. lia.
Qed.

Lemma to_list_ok s a n g :
  inside s a -> array_is s a n g -> to_list s a = Done (map g (count (Z.to_nat n))).
Proof.
  intros B H. pose proof (array_cells _ _ _ _ B H) as C. destruct H as (L & _).
  unfold to_list. rewrite L. now apply read_loop_ok.
Qed.

Lemma clone_ok s a n g :
  inside s a -> array_is s a n g ->
  exists s' c, clone s a = Done (s', c) /\ newly s s' c /\ array_is s' c n g.
Proof.
  intros B H. unfold clone. rewrite (to_list_ok _ _ _ _ B H). cbn [bind].
  destruct H as (_ & P & _). pose proof (array_of_ok s n g P) as N.
  destruct (array_of s _) as [s' c]. exists s', c. split; [reflexivity|exact N].
Qed.

Lemma repeat_map_count {X} (v : X) n : repeat v n = map (fun _ => v) (count n).
Proof.
  unfold count. rewrite map_map. generalize 0%nat.
  induction n as [|n IH]; intros k; [reflexivity|]. cbn [repeat seq map]. now rewrite (IH (S k)).
Qed.

Lemma full_ok s n v :
  0 <= n -> exists s' c, full s n v = Done (s', c) /\ newly s s' c /\ array_is s' c n (fun _ => v).
Proof.
  intros P. unfold full. replace (n <? 0) with false by lia.
  rewrite repeat_map_count. pose proof (array_of_ok s n (fun _ => v) P) as N.
  destruct (array_of s _) as [s' c]. exists s', c. split; [reflexivity|exact N].
Qed.

Lemma set_item_ok s a n g i v :
  inside s a -> distinct a -> array_is s a n g -> 0 <= i < n ->
  exists s', set_item s a i v = Done s' /\
    array_is s' a n (fun k => if k =? i then v else g k) /\ inside s' a /\
    forall l k, ~ (l = vals a /\ k = offset a + i * stride a) -> cell s' l k = cell s l k.
Proof.
  intros B D H Hi. pose proof (array_cells _ _ _ _ B H) as C. destruct H as (L & P & _).
  unfold set_item. replace ((i <? 0) || (len a <=? i))%bool with false by lia.
  rewrite Z.add_comm.
  rewrite (list_set_save _ _ _ _ _ (C i ltac:(lia))).
  destruct (cell_save s (vals a) (offset a + i * stride a) v _ (C i ltac:(lia))) as (s' & E & F & W).
  exists s'. split; [exact E|].
  assert (S : shows s' (vals a) (Z.to_nat n) (offset a) (stride a) (fun k => if k =? i then v else g k)).
  { intros k Hk. rewrite W, Nat.eqb_refl. cbn [andb].
    destruct (Z.eqb_spec k i) as [->|N]; [now rewrite Z.eqb_refl|].
    pose proof (D k i ltac:(lia) ltac:(lia) N).
    replace (offset a + k * stride a =? offset a + i * stride a) with false by lia.
    apply C. lia. }
  destruct (cells_array _ _ _ _ L P S) as [H' B'].
  split; [exact H'|]. split; [exact B'|].
  intros l k N. rewrite W. destruct (Nat.eqb_spec l (vals a)); [|reflexivity].
  destruct (Z.eqb_spec k (offset a + i * stride a)); [|reflexivity]. tauto.
Qed.

Lemma item_out s a i : i < 0 \/ len a <= i -> item s a i = Raise.
Proof. intros H. unfold item. now replace ((i <? 0) || (len a <=? i))%bool with true by lia. Qed.

Lemma set_item_out s a i v : i < 0 \/ len a <= i -> set_item s a i v = Raise.
Proof. intros H. unfold set_item. now replace ((i <? 0) || (len a <=? i))%bool with true by lia. Qed.

Lemma updated_changed s s' a n g :
  len a = n -> 0 <= n ->
  updated s s' (vals a) (line (Z.to_nat n) (offset a) (stride a) g) -> changed s s' a n g.
Proof.
  intros L P U. destruct (cells_array s' a n g L P (line_shows _ _ _ _ _ _ _ U)) as [H B].
  split; [exact H|]. split; [exact B|].
  intros l k N. destruct U as (_ & _ & K). apply K.
  intros v [-> (i & Hi & -> & _)]. apply (N i); [lia|auto].
Qed.

Lemma unary_ok f s a n g :
  inside s a -> distinct a -> array_is s a n g ->
  exists s', unary f s a = Done s' /\ changed s s' a n (fun i => f (g i)) /\
    updated s s' (vals a) (line (Z.to_nat n) (offset a) (stride a) (fun i => f (g i))).
Proof.
  intros B D H. pose proof (array_cells _ _ _ _ B H) as C. destruct H as (L & P & _).
  destruct (unary_loop_ok f _ _ _ _ _ _ C (distinct_apart _ _ D L)) as (s' & E & U).
  exists s'. unfold unary. rewrite L. split; [exact E|].
  split; [now apply updated_changed|exact U].
Qed.

Lemma binop_ok f s a b n g h :
  inside s a -> distinct a -> array_is s a n g ->
  inside s b -> array_is s b n h -> aligned a b ->
  exists s', binop f s a b = Done s' /\ changed s s' a n (fun i => f (g i) (h i)) /\
    updated s s' (vals a) (line (Z.to_nat n) (offset a) (stride a) (fun i => f (g i) (h i))).
Proof.
  intros B D H B2 H2 O. pose proof (array_cells _ _ _ _ B H) as C.
  pose proof (array_cells _ _ _ _ B2 H2) as C2.
  destruct H as (L & P & _). destruct H2 as (L2 & _).
  destruct (binop_loop_ok f _ _ _ _ _ _ _ _ _ _ C C2 (distinct_apart _ _ D L)
              (aligned_along _ _ _ O L L2)) as (s' & E & U).
  exists s'. unfold binop. rewrite L. split; [exact E|].
  split; [now apply updated_changed|exact U].
Qed.

Lemma iop_ok f s a b n g h :
  inside s a -> distinct a -> array_is s a n g ->
  inside s b -> array_is s b n h -> aligned a b ->
  exists s', iop f s a b = Done s' /\ changed s s' a n (fun i => f (g i) (h i)).
Proof.
  intros B D H B2 H2 O. unfold iop, same_length.
  rewrite (proj1 H), (proj1 H2), Z.eqb_refl.
  destruct (binop_ok f s a b n g h B D H B2 H2 O) as (s' & E & C & _). eauto.
Qed.

Lemma blas_start_pos n inc : 0 <= inc -> blas_start n inc = 0.
Proof. intros H. unfold blas_start. now replace (inc <? 0) with false by lia. Qed.

Lemma iadd_ok (zero one : A) (add mul : A -> A -> A) s a b n g h (flt : bool) :
  (forall x, mul one x = x) ->
  (flt = true -> stride a = stride b /\ 0 <= stride a) ->
  inside s a -> distinct a -> array_is s a n g ->
  inside s b -> array_is s b n h -> aligned a b ->
  exists s', iadd one add mul flt s a b = Done s' /\
    changed s s' a n (fun i => add (g i) (h i)) /\
    updated s s' (vals a) (line (Z.to_nat n) (offset a) (stride a) (fun i => add (g i) (h i))).
Proof.
  intros M1 HS B D H B2 H2 O. unfold iadd, same_length.
  rewrite (proj1 H), (proj1 H2), Z.eqb_refl.
  destruct flt; [|exact (binop_ok add s a b n g h B D H B2 H2 O)].
  destruct (HS eq_refl) as [E0 Ps].
  pose proof (array_cells _ _ _ _ B H) as C. pose proof (array_cells _ _ _ _ B2 H2) as C2.
  destruct H as (L & P & _). destruct H2 as (L2 & _).
  destruct (axpy_loop_ok add mul one _ _ _ _ _ _ _ _ _ _ C C2 (distinct_apart _ _ D L)
              (aligned_along _ _ _ O L L2)) as (s' & E & U).
  exists s'. unfold axpy. rewrite !blas_start_pos by lia. rewrite !Z.add_0_r.
  rewrite <- E0 in E |- *. split; [exact E|].
  assert (U' : updated s s' (vals a) (line (Z.to_nat n) (offset a) (stride a) (fun i => add (g i) (h i)))).
  { eapply updated_ext; [exact U|]. intros k v.
    split; intros (i & Hi & -> & ->); exists i; rewrite M1; auto. }
  split; [now apply updated_changed|exact U'].
Qed.

Lemma new_aligned s s' a b :
  newly s s' a -> inside s b -> aligned a b.
Proof.
  intros (_ & V & _) [_ B] i j Hi Hj N [E _].
  specialize (B j ltac:(lia)). rewrite nth_overflow in B by lia. cbn in B. lia.
Qed.

(** An operator that makes a new array out of a clone. *)
Lemma after_clone s s1 c s2 n g n' g' :
  newly s s1 c -> array_is s1 c n' g' ->
  s1 = s ++ [nth (length s) s1 []] -> vals c = length s ->
  updated s1 s2 (vals c) (line (Z.to_nat n) (offset c) (stride c) g) ->
  len c = n -> 0 <= n ->
  newly s s2 c /\ array_is s2 c n g.
Proof.
  intros (G & V & B & D & S1) _ E Ev U L P.
  destruct (updated_changed _ _ _ _ _ L P U) as (H & B' & _).
  pose proof (fits_stores _ _ (proj1 U)) as F.
  split; [|exact H]. split; [|rewrite F; auto].
  rewrite Ev in U. rewrite E in U. exact (updated_grown _ _ _ _ U).
Qed.

Lemma clone_shape s a s1 c :
  clone s a = Done (s1, c) -> s1 = s ++ [nth (length s) s1 []] /\ vals c = length s.
Proof.
  unfold clone. destruct (to_list s a) as [xs| | |]; cbn [bind]; try discriminate.
  unfold array_of, alloc. intros [= <- <-]. split; [|reflexivity].
  now rewrite app_nth2, Nat.sub_diag by lia.
Qed.

Lemma op_ok f s a b n g h :
  inside s a -> array_is s a n g -> inside s b -> array_is s b n h ->
  exists s' c, op f s a b = Done (s', c) /\ newly s s' c /\
    array_is s' c n (fun i => f (g i) (h i)).
Proof.
  intros B H B2 H2. unfold op, same_length. rewrite (proj1 H), (proj1 H2), Z.eqb_refl.
  destruct (clone_ok s a n g B H) as (s1 & c & E & N & H1). rewrite E. cbn [bind fst snd].
  destruct (clone_shape _ _ _ _ E) as [E1 Ev].
  pose proof N as (G & V & Bc & D & S1).
  destruct (array_grown _ _ _ _ _ G B2 H2) as [H3 B3].
  assert (O : aligned c b) by (eapply new_aligned; eassumption).
  destruct (binop_ok f s1 c b n g h Bc D H1 B3 H3 O) as (s2 & E2 & _ & U).
  rewrite E2. cbn [bind]. exists s2, c. split; [reflexivity|].
  eapply after_clone; eauto; [exact (proj1 H1)|exact (proj1 (proj2 H1))].
Qed.

Lemma plus_ok (zero one : A) (add mul : A -> A -> A) s a b n g h (flt : bool) :
  (forall x, mul one x = x) ->
  (flt = true -> stride b = 1) ->
  inside s a -> array_is s a n g -> inside s b -> array_is s b n h ->
  exists s' c, plus one add mul flt s a b = Done (s', c) /\ newly s s' c /\
    array_is s' c n (fun i => add (g i) (h i)).
Proof.
  intros M1 HS B H B2 H2. unfold plus, same_length. rewrite (proj1 H), (proj1 H2), Z.eqb_refl.
  destruct (clone_ok s a n g B H) as (s1 & c & E & N & H1). rewrite E. cbn [bind fst snd].
  destruct (clone_shape _ _ _ _ E) as [E1 Ev].
  pose proof N as (G & V & Bc & D & S1).
  destruct (array_grown _ _ _ _ _ G B2 H2) as [H3 B3].
  assert (O : aligned c b) by (eapply new_aligned; eassumption).
  destruct (iadd_ok zero one add mul s1 c b n g h flt M1) as (s2 & E2 & _ & U); auto.
  { intros F. rewrite (proj1 S1), (HS F). lia. }
  rewrite E2. cbn [bind]. exists s2, c. split; [reflexivity|].
  eapply after_clone; eauto; [exact (proj1 H1)|exact (proj1 (proj2 H1))].
Qed.

Lemma map_array_ok f s a n g :
  inside s a -> array_is s a n g ->
  exists s' c, map_array f s a = Done (s', c) /\ newly s s' c /\ array_is s' c n (fun i => f (g i)).
Proof.
  intros B H. unfold map_array.
  destruct (clone_ok s a n g B H) as (s1 & c & E & N & H1). rewrite E. cbn [bind fst snd].
  destruct (clone_shape _ _ _ _ E) as [E1 Ev].
  pose proof N as (G & V & Bc & D & S1).
  destruct (unary_ok f s1 c n g Bc D H1) as (s2 & E2 & _ & U).
  rewrite E2. cbn [bind]. exists s2, c. split; [reflexivity|].
  eapply after_clone; eauto; [exact (proj1 H1)|exact (proj1 (proj2 H1))].
Qed.

Lemma sum_ok (zero one : A) (add mul : A -> A -> A) s a n g :
  inside s a -> array_is s a n g -> sum zero add s a = Done (total zero add n g).
Proof.
  intros B H. pose proof (array_cells _ _ _ _ B H) as C. destruct H as (L & P & _).
  unfold sum. rewrite L. rewrite (sum_loop_ok add _ _ _ _ _ _ _ C). reflexivity.
Qed.

Lemma dot_ok (zero one : A) (add mul : A -> A -> A) s a b n g h :
  inside s a -> array_is s a n g -> inside s b -> array_is s b n h ->
  dot zero add mul s a b = Done (total zero add n (fun i => mul (g i) (h i))).
Proof.
  intros B H B2 H2. pose proof (array_cells _ _ _ _ B H) as C.
  pose proof (array_cells _ _ _ _ B2 H2) as C2.
  destruct H as (L & P & _). destruct H2 as (L2 & _).
  unfold dot. rewrite L, L2, Z.eqb_refl. rewrite (dot_loop_ok add mul _ _ _ _ _ _ _ _ _ _ _ C C2). reflexivity.
Qed.

Lemma lengths_differ (zero one : A) (add mul : A -> A -> A) f flt s a b :
  len a <> len b ->
  op f s a b = Raise /\ iop f s a b = Raise /\ dot zero add mul s a b = Raise /\
  plus one add mul flt s a b = Raise /\ iadd one add mul flt s a b = Raise.
Proof.
  intros N. unfold op, iop, dot, plus, iadd, same_length.
  replace (len b =? len a) with false by lia. auto.
Qed.

(* -------------------------------------------------------------- *)
(** * Matrices *)

Lemma new_mshows s n0 n1 g :
  mshows (s ++ [flat n0 n1 g]) (length s) n0 n1 0 (Z.of_nat n1) 1 g.
Proof.
  intros i j Hi Hj. rewrite cell_new by nia.
  replace (0 + i * Z.of_nat n1 + j * 1) with (i * Z.of_nat n1 + j) by lia.
  now apply nth_error_flat.
Qed.

(** A matrix that is laid out row by row. *)
Lemma rowwise_distinct l off r c : mdistinct (Mat l off c 1 r c).
Proof.
  intros i j i' j'. cbn. intros Hi Hj Hi' Hj' N E. apply N.
  assert (i = i') by nia. f_equal; nia.
Qed.

Lemma new_matrix_ok s r c g :
  0 <= r -> 0 <= c ->
  let (s', m) := new_matrix s (flat (Z.to_nat r) (Z.to_nat c) g) 0 c 1 r c in
  mnewly s s' m /\ matrix_is s' m r c g.
Proof.
  intros Pr Pc. unfold new_matrix, alloc.
  pose proof (new_mshows s (Z.to_nat r) (Z.to_nat c) g) as H.
  rewrite (Z2Nat.id c) in H by exact Pc.
  set (m := Mat _ _ _ _ _ _).
  destruct (cells_matrix (s ++ [flat (Z.to_nat r) (Z.to_nat c) g]) m r c g eq_refl eq_refl Pr Pc H) as [Hm B].
  split; [|exact Hm]. split; [apply grown_one|]. split; [rewrite app_length; cbn; lia|]. split; [exact B|].
  split; [apply rowwise_distinct|]. split; [reflexivity|].
  unfold is_canonical. cbn. now rewrite Z.eqb_refl.
Qed.

Lemma mto_list_ok s m r c g :
  minside s m -> matrix_is s m r c g ->
  mto_list s m = Done (flat (Z.to_nat r) (Z.to_nat c) g).
Proof.
  intros B H. pose proof (matrix_cells _ _ _ _ _ B H) as C. destruct H as (R & Cc & _).
  unfold mto_list. rewrite R, Cc. now apply mread_loop_ok.
Qed.

Lemma mclone_ok s m r c g :
  minside s m -> matrix_is s m r c g ->
  exists s' d, mclone s m = Done (s', d) /\ mnewly s s' d /\ matrix_is s' d r c g /\
    is_canonical d = true.
Proof.
  intros B H. unfold mclone. rewrite (mto_list_ok _ _ _ _ _ B H). cbn [bind].
  destruct H as (R & C & Pr & Pc & _). rewrite R, C.
  pose proof (new_matrix_ok s r c g Pr Pc) as N.
  unfold new_matrix, alloc in *. destruct N as [N1 N2].
  eexists _, _. split; [reflexivity|]. split; [exact N1|]. split; [exact N2|].
  unfold is_canonical. cbn. now rewrite Z.eqb_refl.
Qed.

Lemma canonical_form_ok s m r c g :
  minside s m -> matrix_is s m r c g ->
  exists s' d, canonical_form s m = Done (s', d) /\ grown s s' /\ minside s' d /\
    matrix_is s' d r c g /\ is_canonical d = true /\
    (is_canonical m = false \/ moffset m = 0 -> moffset d = 0).
Proof.
  intros B H. unfold canonical_form. destruct (is_canonical m) eqn:E.
  - exists s, m. split; [reflexivity|]. split; [apply grown_refl|]. repeat (split; [assumption|]).
    intros [F|F]; [discriminate|exact F].
  - destruct (mclone_ok s m r c g B H) as (s' & d & E1 & (G & _ & B' & _ & O & _) & H' & K).
    exists s', d. repeat (split; [assumption|]). auto.
Qed.

Lemma make_ok s r c f :
  0 <= r -> 0 <= c ->
  exists s' m, make s r c f = Done (s', m) /\ mnewly s s' m /\ matrix_is s' m r c f.
Proof.
  intros Pr Pc. unfold make. replace ((r <? 0) || (c <? 0))%bool with false by lia.
  pose proof (new_matrix_ok s r c f Pr Pc) as N. unfold flat in N.
  destruct (new_matrix s _ 0 c 1 r c) as [s' m]. exists s', m. split; [reflexivity|exact N].
Qed.

Lemma flat_const {X} n0 n1 (v : X) : flat n0 n1 (fun _ _ => v) = repeat v (n0 * n1).
Proof.
  induction n0 as [|n0 IH]; [reflexivity|].
  rewrite flat_S, IH, <- repeat_map_count. cbn [Nat.mul]. now rewrite repeat_app.
Qed.

Lemma mfull_ok s r c v :
  0 <= r -> 0 <= c ->
  exists s' m, mfull s r c v = Done (s', m) /\ mnewly s s' m /\ matrix_is s' m r c (fun _ _ => v) /\
    m = Mat (length s) 0 c 1 r c /\ s' = s ++ [repeat v (Z.to_nat (r * c))].
Proof.
  intros Pr Pc. unfold mfull. replace ((r <? 0) || (c <? 0))%bool with false by lia.
  pose proof (new_matrix_ok s r c (fun _ _ => v) Pr Pc) as N. rewrite flat_const in N.
  rewrite <- Z2Nat.inj_mul in N by assumption.
  unfold new_matrix, alloc in *. destruct N as [N1 N2].
  eexists _, _. split; [reflexivity|]. auto.
Qed.

Lemma row_ok s m r c g i :
  minside s m -> matrix_is s m r c g -> 0 <= i < r ->
  exists a, row m i = Done a /\ array_is s a c (g i) /\ inside s a /\
    (mdistinct m -> distinct a) /\
    a = Arr (mvals m) (moffset m + i * stride0 m) (stride1 m) (cols m).
Proof.
  intros B H Hi. pose proof (matrix_cells _ _ _ _ _ B H) as C.
  destruct H as (R & Cc & Pr & Pc & _).
  unfold row. replace ((i <? 0) || (rows m <=? i))%bool with false by lia.
  eexists. split; [reflexivity|].
  destruct (cells_array s (Arr (mvals m) (moffset m + i * stride0 m) (stride1 m) (cols m)) c (g i) Cc Pc) as [Ha Ba].
  { intros j Hj. cbn [vals offset stride]. apply C; lia. }
  split; [exact Ha|]. split; [exact Ba|]. split; [|reflexivity].
  intros D j j' Hj Hj' N. cbn [len offset stride] in *.
  apply (D i j i j'); try lia; intros E; congruence.
Qed.

Lemma row_out m i : i < 0 \/ rows m <= i -> row m i = Raise.
Proof. intros H. unfold row. now replace ((i <? 0) || (rows m <=? i))%bool with true by lia. Qed.

Lemma diagonal_ok s m r c g :
  minside s m -> matrix_is s m r c g ->
  array_is s (diagonal m) (Z.min r c) (fun i => g i i) /\ inside s (diagonal m) /\
  (mdistinct m -> distinct (diagonal m)).
Proof.
  intros B H. pose proof (matrix_cells _ _ _ _ _ B H) as C.
  destruct H as (R & Cc & Pr & Pc & _).
  assert (L : len (diagonal m) = Z.min r c).
  { cbn. destruct (Z.ltb_spec (rows m) (cols m)); lia. }
  destruct (cells_array s (diagonal m) (Z.min r c) (fun i => g i i) L ltac:(lia)) as [Ha Ba].
  { intros j Hj. cbn [diagonal vals offset stride].
    replace (moffset m + j * (stride0 m + stride1 m)) with (moffset m + j * stride0 m + j * stride1 m) by lia.
    apply C; lia. }
  split; [exact Ha|]. split; [exact Ba|].
  intros D i j Hi Hj N. rewrite L in Hi, Hj. cbn [diagonal offset stride].
  pose proof (D i i j j ltac:(lia) ltac:(lia) ltac:(lia) ltac:(lia) ltac:(congruence)). lia.
Qed.

(** Views of one matrix overlap at most at the same index. *)
Lemma rows_aligned m i j a b :
  mdistinct m -> row m i = Done a -> row m j = Done b -> aligned a b.
Proof.
  unfold row. intros D.
  destruct ((i <? 0) || (rows m <=? i))%bool eqn:Ei; [discriminate|]. intros [= <-].
  destruct ((j <? 0) || (rows m <=? j))%bool eqn:Ej; [discriminate|]. intros [= <-].
  intros x y. cbn. intros Hx Hy N [_ E].
  apply (D i x j y); try lia; congruence.
Qed.

Lemma row_diagonal_aligned m i a :
  mdistinct m -> row m i = Done a -> aligned a (diagonal m) /\ aligned (diagonal m) a.
Proof.
  unfold row. intros D.
  destruct ((i <? 0) || (rows m <=? i))%bool eqn:Ei; [discriminate|]. intros [= <-].
  assert (L : len (diagonal m) <= rows m /\ len (diagonal m) <= cols m).
  { cbn. destruct (Z.ltb_spec (rows m) (cols m)); lia. }
  split; intros x y; cbn [vals offset stride len] in *; intros Hx Hy N [_ E];
    cbn [diagonal offset stride] in E.
  - apply (D i x y y); try lia; intros F; injection F. lia.
  - apply (D x x i y); try lia; intros F; injection F. lia.
Qed.

Lemma updated_mchanged s s' m r c g :
  rows m = r -> cols m = c -> 0 <= r -> 0 <= c ->
  updated s s' (mvals m)
    (rect (Z.to_nat r) (Z.to_nat c) (moffset m) (stride0 m) (stride1 m) g) ->
  mchanged s s' m r c g.
Proof.
  intros R C Pr Pc U.
  destruct (cells_matrix s' m r c g R C Pr Pc (rect_mshows _ _ _ _ _ _ _ _ _ U)) as [H B].
  split; [exact H|]. split; [exact B|].
  intros l k N. destruct U as (_ & _ & K). apply K.
  intros v [-> (i & j & Hi & Hj & -> & _)]. apply (N i j); try lia; auto.
Qed.

(** m[i][j] = v. *)
Lemma set_entry_ok s m r c g i j v :
  minside s m -> mdistinct m -> matrix_is s m r c g -> 0 <= i < r -> 0 <= j < c ->
  exists s', bind (row m i) (fun a => set_item s a j v) = Done s' /\
    mchanged s s' m r c (fun i' j' => if (i' =? i) && (j' =? j) then v else g i' j').
Proof.
  intros B D H Hi Hj. pose proof (matrix_cells _ _ _ _ _ B H) as C.
  destruct (row_ok s m r c g i B H Hi) as (a & Ea & Ha & Ba & Da & Fa).
  rewrite Ea. cbn [bind].
  destruct (set_item_ok s a c (g i) j v Ba (Da D) Ha Hj) as (s' & E & Ha' & Ba' & K).
  exists s'. split; [exact E|].
  destruct H as (R & Cc & Pr & Pc & _).
  assert (S : mshows s' (mvals m) (Z.to_nat r) (Z.to_nat c) (moffset m) (stride0 m) (stride1 m)
            (fun i' j' => if (i' =? i) && (j' =? j) then v else g i' j')).
  { intros i' j' Hi' Hj'.
    destruct (Z.eqb_spec i' i) as [->|N]; cbn [andb].
    - pose proof (array_cells _ _ _ _ Ba' Ha' j' Hj') as W. rewrite Fa in W. exact W.
    - rewrite K; [apply C; assumption|]. rewrite Fa. cbn. intros [_ E2].
      apply (D i' j' i j); try lia; congruence. }
  destruct (cells_matrix _ _ _ _ _ R Cc Pr Pc S) as [H' B'].
  split; [exact H'|]. split; [exact B'|].
  intros l k N. apply K. rewrite Fa. cbn. intros [-> ->].
  apply (N i j); lia.
Qed.

Lemma set_row_ok s m r c g i a h :
  minside s m -> mdistinct m -> matrix_is s m r c g -> 0 <= i < r ->
  inside s a -> array_is s a c h ->
  (forall b, row m i = Done b -> aligned b a) ->
  exists s', set_row s m i a = Done s' /\
    mchanged s s' m r c (fun i' j => if i' =? i then h j else g i' j).
Proof.
  intros B D H Hi Ba Ha O. pose proof (matrix_cells _ _ _ _ _ B H) as C.
  destruct (row_ok s m r c g i B H Hi) as (b & Eb & Hb & Bb & Db & Fb).
  pose proof (array_cells _ _ _ _ Bb Hb) as Cb. pose proof (array_cells _ _ _ _ Ba Ha) as Ca.
  specialize (O b Eb).
  destruct H as (R & Cc & Pr & Pc & _).
  unfold set_row. replace ((i <? 0) || (rows m <=? i))%bool with false by lia.
  rewrite (proj1 Ha), Cc, Z.eqb_refl.
  destruct (copy_loop_ok _ _ _ _ _ _ _ _ _ _ Cb Ca (distinct_apart _ _ (Db D) (proj1 Hb))
              (aligned_along _ _ _ O (proj1 Hb) (proj1 Ha))) as (s' & E & U).
  rewrite Fb in E, U. cbn [vals offset stride] in E, U.
  exists s'. rewrite (Z.mul_comm (stride0 m) i). split; [exact E|].
  assert (S : mshows s' (mvals m) (Z.to_nat r) (Z.to_nat c) (moffset m) (stride0 m) (stride1 m)
            (fun i' j => if i' =? i then h j else g i' j)).
  { intros i' j' Hi' Hj'. destruct U as (_ & P & K).
    destruct (Z.eqb_spec i' i) as [->|N].
    - apply P. exists j'. auto.
    - rewrite K; [apply C; assumption|]. intros v [_ (j & Hj & E2 & _)].
      apply (D i' j' i j); try lia; congruence. }
  destruct (cells_matrix _ _ _ _ _ R Cc Pr Pc S) as [H' B'].
  split; [exact H'|]. split; [exact B'|].
  intros l k N. destruct U as (_ & _ & K). apply K.
  intros v [-> (j & Hj & -> & _)]. apply (N i j); try lia; auto.
Qed.

Lemma transpose_ok s m r c g :
  minside s m -> matrix_is s m r c g ->
  let (s', t) := transpose s m in
  grown s s' /\ mvals t = length s /\ length s' = S (length s) /\ minside s' t /\
  matrix_is s' t c r (fun i j => g j i) /\ (mdistinct m -> mdistinct t).
Proof.
  intros B H. pose proof (matrix_cells _ _ _ _ _ B H) as C.
  destruct H as (R & Cc & Pr & Pc & _).
  unfold transpose, new_matrix, alloc.
  set (t := Mat _ _ _ _ _ _).
  destruct (cells_matrix (s ++ [nth (mvals m) s []]) t c r (fun i j => g j i) Cc R Pc Pr) as [H' B'].
  { intros i j Hi Hj. cbn [t mvals moffset stride0 stride1].
    replace (moffset m + i * stride1 m + j * stride0 m)
      with (moffset m + j * stride0 m + i * stride1 m) by lia.
    pose proof (C j i Hj Hi) as E. pose proof (cell_bound _ _ _ _ E) as Bd.
    rewrite cell_new by lia. rewrite <- E. unfold cell.
    replace (_ <? 0) with false by lia.
    destruct (nth_error s (mvals m)) as [xs|] eqn:Ex.
    - now rewrite (nth_error_nth _ _ [] Ex).
    - apply nth_error_None in Ex. rewrite nth_overflow in Bd by exact Ex. cbn in Bd. lia. }
  split; [apply grown_one|]. split; [reflexivity|]. split; [rewrite app_length; cbn; lia|].
  split; [exact B'|]. split; [exact H'|].
  intros D i j i' j'. cbn [t rows cols moffset stride0 stride1].
  intros Hi Hj Hi' Hj' N E. apply (D j i j' i'); try lia; congruence.
Qed.

Lemma munary_ok f s m r c g :
  minside s m -> mdistinct m -> matrix_is s m r c g ->
  exists s', munary f s m = Done s' /\ mchanged s s' m r c (fun i j => f (g i j)) /\
    updated s s' (mvals m) (rect (Z.to_nat r) (Z.to_nat c) (moffset m) (stride0 m) (stride1 m)
      (fun i j => f (g i j))).
Proof.
  intros B D H. pose proof (matrix_cells _ _ _ _ _ B H) as C.
  destruct H as (R & Cc & Pr & Pc & _).
  destruct (munary_loop_ok f _ _ _ _ _ _ _ _ C (mdistinct_apart _ _ _ D R Cc Pr Pc)) as (s' & E & U).
  exists s'. unfold munary. rewrite R, Cc. split; [exact E|].
  split; [now apply updated_mchanged|exact U].
Qed.

Lemma mbinop_ok f s m o r c g h :
  minside s m -> mdistinct m -> matrix_is s m r c g ->
  minside s o -> matrix_is s o r c h ->
  moffset o = moffset m -> maligned m o ->
  exists s', mbinop f s m o = Done s' /\ mchanged s s' m r c (fun i j => f (g i j) (h i j)) /\
    updated s s' (mvals m) (rect (Z.to_nat r) (Z.to_nat c) (moffset m) (stride0 m) (stride1 m)
      (fun i j => f (g i j) (h i j))).
Proof.
  intros B D H B2 H2 Eo O. pose proof (matrix_cells _ _ _ _ _ B H) as C.
  pose proof (matrix_cells _ _ _ _ _ B2 H2) as C2. rewrite Eo in C2.
  destruct H as (R & Cc & Pr & Pc & _). destruct H2 as (R2 & Cc2 & _).
  destruct (mbinop_loop_ok f _ _ _ _ _ _ _ _ _ _ _ _ _ C C2 (mdistinct_apart _ _ _ D R Cc Pr Pc))
    as (s' & E & U).
  { intros i j i' j' Hi Hj Hi' Hj' N [E1 E2]. apply (O i j i' j'); try lia; exact N. }
  exists s'. unfold mbinop. rewrite R, Cc. split; [exact E|].
  split; [now apply updated_mchanged|exact U].
Qed.

Lemma miop_ok f s m o r c g h :
  minside s m -> mdistinct m -> matrix_is s m r c g ->
  minside s o -> matrix_is s o r c h ->
  moffset o = moffset m -> maligned m o ->
  exists s', miop f s m o = Done s' /\ mchanged s s' m r c (fun i j => f (g i j) (h i j)).
Proof.
  intros B D H B2 H2 Eo O. unfold miop, same_shape.
  pose proof H as (R & C & _). pose proof H2 as (R2 & C2 & _).
  rewrite R, C, R2, C2, !Z.eqb_refl. cbn [andb].
  destruct (mbinop_ok f s m o r c g h B D H B2 H2 Eo O) as (s' & E & Ch & _). eauto.
Qed.

Lemma mclone_shape s m s1 d :
  mclone s m = Done (s1, d) -> s1 = s ++ [nth (length s) s1 []] /\ mvals d = length s.
Proof.
  unfold mclone. destruct (mto_list s m) as [xs| | |]; cbn [bind]; try discriminate.
  unfold new_matrix, alloc. intros [= <- <-]. split; [|reflexivity].
  now rewrite app_nth2, Nat.sub_diag by lia.
Qed.

Lemma after_mclone s s1 d s2 r c g :
  mnewly s s1 d ->
  s1 = s ++ [nth (length s) s1 []] -> mvals d = length s ->
  updated s1 s2 (mvals d) (rect (Z.to_nat r) (Z.to_nat c) (moffset d) (stride0 d) (stride1 d) g) ->
  rows d = r -> cols d = c -> 0 <= r -> 0 <= c ->
  mnewly s s2 d /\ matrix_is s2 d r c g.
Proof.
  intros (G & V & B & D & S1) E Ev U R C Pr Pc.
  destruct (updated_mchanged _ _ _ _ _ _ R C Pr Pc U) as (H & B' & _).
  pose proof (fits_stores _ _ (proj1 U)) as F.
  split; [|exact H]. split; [|rewrite F; tauto].
  rewrite Ev in U. rewrite E in U. exact (updated_grown _ _ _ _ U).
Qed.

Lemma mop_ok f s m o r c g h :
  minside s m -> matrix_is s m r c g -> minside s o -> matrix_is s o r c h ->
  moffset o = 0 ->
  exists s' d, mop f s m o = Done (s', d) /\ mnewly s s' d /\
    matrix_is s' d r c (fun i j => f (g i j) (h i j)).
Proof.
  intros B H B2 H2 Eo. unfold mop, same_shape.
  pose proof H as (R & C & Pr & Pc & _). pose proof H2 as (R2 & C2 & _).
  rewrite R, C, R2, C2, !Z.eqb_refl. cbn [andb].
  destruct (mclone_ok s m r c g B H) as (s1 & d & E & N & H1 & _). rewrite E. cbn [bind fst snd].
  destruct (mclone_shape _ _ _ _ E) as [E1 Ev].
  pose proof N as (G & V & Bd & D & O1).
  destruct (matrix_grown _ _ _ _ _ _ G B2 H2) as [H3 B3].
  destruct (mbinop_ok f s1 d o r c g h Bd D H1 B3 H3) as (s2 & E2 & _ & U).
  { now rewrite Eo, (proj1 O1). }
  { intros i j i' j' Hi Hj Hi' Hj' _ [E3 _]. destruct B2 as (_ & _ & B2).
    specialize (B2 i' j' Hi' Hj'). rewrite nth_overflow in B2 by lia. cbn in B2. lia. }
  rewrite E2. cbn [bind]. exists s2, d. split; [reflexivity|].
  destruct H1 as (R1 & C1 & _).
  eapply after_mclone; eauto.
Qed.

Lemma map_matrix_ok f s m r c g :
  minside s m -> matrix_is s m r c g ->
  exists s' d, map_matrix f s m = Done (s', d) /\ mnewly s s' d /\
    matrix_is s' d r c (fun i j => f (g i j)).
Proof.
  intros B H. unfold map_matrix.
  destruct (mclone_ok s m r c g B H) as (s1 & d & E & N & H1 & _). rewrite E. cbn [bind fst snd].
  destruct (mclone_shape _ _ _ _ E) as [E1 Ev].
  pose proof N as (G & V & Bd & D & O1).
  destruct (munary_ok f s1 d r c g Bd D H1) as (s2 & E2 & _ & U).
  rewrite E2. cbn [bind]. exists s2, d. split; [reflexivity|].
  destruct H1 as (R1 & C1 & Pr & Pc & _).
  eapply after_mclone; eauto.
Qed.

Lemma shapes_differ f s m o :
  rows m <> rows o \/ cols m <> cols o -> mop f s m o = Raise /\ miop f s m o = Raise.
Proof.
  intros N. unfold mop, miop, same_shape.
  replace ((rows o =? rows m) && (cols o =? cols m))%bool with false by lia. auto.
Qed.

Lemma flat_map_count {X} n0 n1 (g : Z -> Z -> X) :
  flat n0 n1 g =
  map (fun k => g (k / Z.of_nat n1) (k mod Z.of_nat n1)) (count (n0 * n1)).
Proof.
  apply nth_error_ext. intros i.
  destruct (Nat.lt_ge_cases i (n0 * n1)) as [L|L].
  - rewrite nth_error_map, nth_error_count by exact L. cbn [option_map].
    assert (P : 0 < Z.of_nat n1) by nia.
    pose proof (Z.div_mod (Z.of_nat i) (Z.of_nat n1) ltac:(lia)) as E.
    pose proof (Z.mod_pos_bound (Z.of_nat i) (Z.of_nat n1) P) as Bm.
    rewrite <- (nth_error_flat n0 n1 g); [|split; [apply Z.div_pos; lia|apply Z.div_lt_upper_bound; nia]|lia].
    f_equal. lia.
  - rewrite !(proj2 (nth_error_None _ _)); [reflexivity| |].
    + now rewrite map_length, length_count.
    + now rewrite length_flat.
Qed.

Lemma flatten_ok s m r c g :
  minside s m -> matrix_is s m r c g ->
  exists s' a, flatten s m = Done (s', a) /\ newly s s' a /\
    array_is s' a (r * c) (fun k => g (k / c) (k mod c)).
Proof.
  intros B H. unfold flatten. rewrite (mto_list_ok _ _ _ _ _ B H). cbn [bind].
  destruct H as (_ & _ & Pr & Pc & _).
  rewrite flat_map_count. rewrite <- Z2Nat.inj_mul by assumption. rewrite Z2Nat.id by exact Pc.
  pose proof (array_of_ok s (r * c) (fun k => g (k / c) (k mod c)) ltac:(nia)) as N.
  destruct (array_of s _) as [s' a]. exists s', a. split; [reflexivity|exact N].
Qed.

(** The identity. *)
Lemma ones_loop_ok (zero one : A) (add mul : A -> A -> A) n : forall l i x s (g : Z -> A),
  (forall k, i <= k < i + Z.of_nat n -> cell s l (x * k + k) = Some (g k)) -> 0 <= x ->
  exists s', ones_loop one n i x l s = Done s' /\
    updated s s' l (fun k v => (exists j, i <= j < i + Z.of_nat n /\ k = x * j + j) /\ v = one).
Proof.
  induction n as [|n IH]; intros l i x s g H Px.
  - exists s. split; [reflexivity|]. apply updated_same. intros k v [(j & Hj & _) _]. lia.
  - cbn [ones_loop]. rewrite (list_set_save _ _ _ _ _ (H i ltac:(lia))).
    destruct (updated_one s l (x * i + i) one _ (fun k v => k = x * i + i /\ v = one) (H i ltac:(lia)) ltac:(tauto))
      as (s1 & E1 & U1).
    rewrite E1. cbn [bind].
    destruct (IH l (i + 1) x s1 g) as (s2 & E2 & U2); [|exact Px|].
    { intros k Hk. destruct U1 as (_ & _ & K). rewrite K; [apply H; lia|].
      intros v [_ [E _]]. nia. }
    exists s2. split; [exact E2|].
    eapply updated_both; [exact U1|exact U2| |].
    + intros k v w [-> _] [(j & Hj & E) _]. nia.
    + intros k v. split.
      * intros [(j & Hj & ->) ->]. destruct (Z.eq_dec j i) as [->|N]; [auto|].
        right. split; [|reflexivity]. exists j. split; [lia|reflexivity].
      * intros [[-> ->]|[(j & Hj & ->) ->]]; split; try reflexivity; [exists i|exists j]; split; try reflexivity; lia.
Qed.

Lemma identity_ok (zero one : A) (add mul : A -> A -> A) s n :
  0 <= n ->
  exists s' m, identity zero one s n = Done (s', m) /\ mnewly s s' m /\
    matrix_is s' m n n (fun i j => if i =? j then one else zero).
Proof.
  intros P. unfold identity.
  destruct (mfull_ok s n n zero P P) as (s1 & m & E & N & H & Em & Es).
  rewrite E. cbn [bind fst snd].
  pose proof N as (G & V & B & D & O).
  pose proof (matrix_cells _ _ _ _ _ B H) as C.
  rewrite Em in C. cbn [mvals moffset stride0 stride1] in C.
  destruct (ones_loop_ok zero one add mul (Z.to_nat n) (mvals m) 0 n s1 (fun _ => zero)) as (s2 & E2 & U); [|exact P|].
  { intros k Hk. rewrite Em. cbn [mvals]. specialize (C k k ltac:(lia) ltac:(lia)).
    now replace (n * k + k) with (0 + k * n + k * 1) by lia. }
  rewrite E2. cbn [bind]. exists s2, m. split; [reflexivity|].
  assert (S : mshows s2 (mvals m) (Z.to_nat n) (Z.to_nat n) (moffset m) (stride0 m) (stride1 m)
            (fun i j => if i =? j then one else zero)).
  { rewrite Em. cbn [mvals moffset stride0 stride1].
    intros i j Hi Hj. destruct U as (_ & W & K). rewrite Em in W, K. cbn [mvals] in W, K.
    destruct (Z.eqb_spec i j) as [->|Nij].
    - apply W. split; [|reflexivity]. exists j. split; lia.
    - rewrite K; [apply C; assumption|]. intros v [_ [(x & Hx & E3) _]]. apply Nij.
      assert (i = x) by nia. nia. }
  destruct H as (R & Cc & _).
  destruct (cells_matrix s2 m n n _ R Cc P P S) as [H' B'].
  pose proof (fits_stores _ _ (proj1 U)) as F.
  split; [|exact H']. split; [|rewrite F; auto].
  rewrite Em, Es in U. cbn [mvals] in U. exact (updated_grown _ _ _ _ U).
Qed.

(* -------------------------------------------------------------- *)
(** * Products *)

Lemma mshows_other s s' l l2 n0 n1 p st0 st1 g D :
  updated s s' l D -> l2 <> l -> mshows s l2 n0 n1 p st0 st1 g -> mshows s' l2 n0 n1 p st0 st1 g.
Proof. intros (_ & _ & K) N H i j Hi Hj. rewrite K; [auto|]. intros v [E _]. congruence. Qed.

(** The rows of A start one after the other; [G i l] is in row i. *)
Lemma gemm_column_ok (zero one : A) (add mul : A -> A -> A) alpha la lb lc k lda pb H n : forall pa pc G Y s,
  mshows s la n k pa 1 lda G -> shows s lb k pb 1 H -> shows s lc n pc 1 Y ->
  la <> lc -> lb <> lc ->
  exists s', gemm_column zero add mul n k alpha la pa lda lb pb lc pc s = Done s' /\
    updated s s' lc (line n pc 1 (fun i =>
      mul alpha (total_from add zero k (fun l => mul (G i l) (H l))))).
Proof.
  induction n as [|n IH]; intros pa pc G Y s HA HB HC Na Nb.
  - exists s. split; [reflexivity|]. apply updated_same. intros x v (i & Hi & _). lia.
  - cbn [gemm_column].
    rewrite (dot_loop_ok add mul _ _ _ _ _ _ _ _ _ _ _ (mshows_head _ _ _ _ _ _ _ _ HA) HB). cbn [bind].
    set (v := mul alpha _).
    destruct (updated_one s lc pc v _ (fun k v' => k = pc /\ v' = v) (shows_head _ _ _ _ _ _ HC) ltac:(tauto))
      as (s1 & E1 & U1).
    rewrite E1. cbn [bind].
    destruct (IH (pa + 1) (pc + 1) (fun i => G (i + 1)) (fun i => Y (i + 1)) s1) as (s2 & E2 & U2); auto.
    + eapply mshows_other; [exact U1|exact Na|]. exact (mshows_tail _ _ _ _ _ _ _ _ HA).
    + eapply shows_other; [exact U1|exact Nb|exact HB].
    + eapply shows_later; [|exact (shows_tail _ _ _ _ _ _ HC)|exact U1]. intros i Hi [_ E]. lia.
    + exists s2. split; [exact E2|].
      eapply updated_both; [exact U1|exact U2| |].
      * intros x w w' [-> _] d. exact (line_fresh _ _ _ _ _ _ (apart_one (S n)) eq_refl d).
      * intros x w. apply (line_split n pc 1
          (fun i => mul alpha (total_from add zero k (fun l => mul (G i l) (H l))))).
Qed.

Lemma gemm_loop_ok (zero one : A) (add mul : A -> A -> A) alpha la lb lc m k pa lda ldb ldc G n : forall pb pc H Y s,
  mshows s la m k pa 1 lda G -> mshows s lb n k pb ldb 1 H -> mshows s lc n m pc ldc 1 Y ->
  la <> lc -> lb <> lc -> mapart n m ldc 1 ->
  exists s', gemm_loop zero add mul n m k alpha la pa lda lb pb ldb lc pc ldc s = Done s' /\
    updated s s' lc (rect n m pc ldc 1 (fun j i =>
      mul alpha (total_from add zero k (fun l => mul (G i l) (H j l))))).
Proof.
  induction n as [|n IH]; intros pb pc H Y s HA HB HC Na Nb N.
  - exists s. split; [reflexivity|]. apply updated_same. intros x v (i & j & Hi & _). lia.
  - cbn [gemm_loop].
    destruct (gemm_column_ok zero one add mul alpha la lb lc k lda pb (H 0) m pa pc G (Y 0) s HA
                (mshows_head _ _ _ _ _ _ _ _ HB) (mshows_head _ _ _ _ _ _ _ _ HC) Na Nb) as (s1 & E1 & U1).
    rewrite E1. cbn [bind].
    destruct (IH (pb + ldb) (pc + ldc) (fun i => H (i + 1)) (fun i => Y (i + 1)) s1) as (s2 & E2 & U2); auto.
    + eapply mshows_other; [exact U1|exact Na|exact HA].
    + eapply mshows_other; [exact U1|exact Nb|]. exact (mshows_tail _ _ _ _ _ _ _ _ HB).
    + eapply mshows_later; [|exact (mshows_tail _ _ _ _ _ _ _ _ HC)|exact U1].
      intros i j v Hi Hj [_ d]. eapply (rect_fresh n m pc ldc 1 _ (fun i j => Y i j)); [exact N|exact d|].
      exists i, j. repeat split; lia.
    + eapply mapart_tail; exact N.
    + exists s2. split; [exact E2|].
      eapply updated_both; [exact U1|exact U2| |].
      * intros x v w d1 d2. eapply rect_fresh; eassumption.
      * intros x v. apply (rect_split n m pc ldc 1
          (fun j i => mul alpha (total_from add zero k (fun l => mul (G i l) (H j l))))).
Qed.

Lemma mshows_swap s l n0 n1 p st0 st1 g :
  mshows s l n0 n1 p st0 st1 g -> mshows s l n1 n0 p st1 st0 (fun i j => g j i).
Proof.
  intros H i j Hi Hj. replace (p + i * st1 + j * st0) with (p + j * st0 + i * st1) by lia. auto.
Qed.

Lemma canonical_strides m : is_canonical m = true -> stride0 m = cols m /\ stride1 m = 1.
Proof. unfold is_canonical. lia. Qed.

Lemma used_list s m r c g : 0 < r -> 0 < c ->
  mshows s (mvals m) (Z.to_nat r) (Z.to_nat c) (moffset m) (stride0 m) (stride1 m) g ->
  (mvals m < length s)%nat.
Proof.
  intros Pr Pc H. specialize (H 0 0 ltac:(lia) ltac:(lia)).
  destruct (Nat.lt_ge_cases (mvals m) (length s)) as [L|L]; [exact L|].
  unfold cell in H. destruct (_ <? 0); [discriminate|].
  rewrite (proj2 (nth_error_None s (mvals m)) L) in H. discriminate.
Qed.

Lemma matmul_ok (zero one : A) (add mul : A -> A -> A) s m o r k c g h :
  (forall x, mul one x = x) -> (forall x y, mul x y = mul y x) ->
  minside s m -> matrix_is s m r k g -> minside s o -> matrix_is s o k c h ->
  0 < k -> 0 < c ->
  exists s' p, matmul zero one add mul s m o = Done (s', p) /\ mnewly s s' p /\
    matrix_is s' p r c (fun i j => total zero add k (fun l => mul (g i l) (h l j))).
Proof.
  intros M1 MC B H B2 H2 Pk Pc. unfold matmul.
  pose proof H as (R & C & Pr & _). pose proof H2 as (R2 & C2 & _).
  rewrite C, R2, Z.eqb_refl.
  destruct (canonical_form_ok s m r k g B H) as (s1 & m1 & E1 & G1 & B1 & H1 & K1 & _).
  rewrite E1. cbn [bind fst snd].
  destruct (matrix_grown _ _ _ _ _ _ G1 B2 H2) as [H2' B2'].
  destruct (canonical_form_ok s1 o k c h B2' H2') as (s2 & o1 & E2 & G2 & Bo & Ho & K2 & _).
  rewrite E2. cbn [bind fst snd].
  destruct (matrix_grown _ _ _ _ _ _ G2 B1 H1) as [Hm Bm].
  pose proof Hm as (Rm & Cm & _). pose proof Ho as (Ro & Co & _).
  rewrite Rm, Co.
  destruct (mfull_ok s2 r c zero Pr ltac:(lia)) as (s3 & p & E3 & N3 & H3 & Ep & Es).
  rewrite E3. cbn [bind fst snd]. cbv zeta.
  destruct (canonical_strides _ K1) as [Sm1 Sm2]. destruct (canonical_strides _ K2) as [So1 So2].
  pose proof N3 as (G3 & V3 & B3 & D3 & O3).
  destruct (matrix_grown _ _ _ _ _ _ G3 Bm Hm) as [Hm3 Bm3].
  destruct (matrix_grown _ _ _ _ _ _ G3 Bo Ho) as [Ho3 Bo3].
  pose proof (matrix_cells _ _ _ _ _ Bm Hm) as Cm2. pose proof (matrix_cells _ _ _ _ _ Bo Ho) as Co2.
  pose proof (matrix_cells _ _ _ _ _ Bm3 Hm3) as Cm3. pose proof (matrix_cells _ _ _ _ _ Bo3 Ho3) as Co3.
  pose proof (matrix_cells _ _ _ _ _ B3 H3) as Cp.
  rewrite Sm2 in Cm3. rewrite So2 in Co3.
  assert (Sp : stride0 p = c /\ stride1 p = 1 /\ mvals p = length s2 /\ rows p = r /\ cols p = c)
    by (rewrite Ep; cbn; auto). destruct Sp as (Sp1 & Sp2 & Vp & Rp & Cp').
  rewrite Sp2 in Cp.
  assert (Lo : (mvals o1 < length s2)%nat) by (eapply used_list; [exact Pk|exact Pc|exact Co2]).
  unfold gemm. rewrite Cm, Sp1, So1, Sm1, Co, Cm.
  replace ((c <? Z.max 1 c) || (k <? Z.max 1 k) || (c <? Z.max 1 c))%bool with false by lia.
  rewrite Sm1, Cm in Cm3. rewrite So1, Co in Co3. rewrite Sp1 in Cp.
  assert (D3' : mapart (Z.to_nat r) (Z.to_nat c) c 1).
  { intros i j i' j' Hi Hj Hi' Hj' Nij E. apply Nij. assert (i = i') by nia. f_equal; nia. }
  assert (Lm : 0 < r -> (mvals m1 < length s2)%nat)
    by (intros Pr'; eapply used_list; [exact Pr'|exact Pk|exact Cm2]).
  destruct (Z.eq_dec r 0) as [Zr|Nr].
  - (* no rows *)
    rewrite Zr. cbn [Z.to_nat gemm_loop bind].
    exists s3, p. split; [reflexivity|].
    split; [|split; [congruence|]; split; [exact Cp'|]; split; [lia|]; split; [lia|]; intros i j Hi; lia].
    split; [eapply grown_trans; [exact G1|]; eapply grown_trans; [exact G2|exact G3]|].
    split; [|auto]. destruct G1 as [t ->], G2 as [t2 ->]. rewrite !app_length in V3. lia.
  - assert (Pr' : 0 < r) by lia. specialize (Lm Pr').
    destruct (gemm_loop_ok zero one add mul one (mvals o1) (mvals m1) (mvals p) (Z.to_nat c) (Z.to_nat k)
                (moffset o1) c k c (fun j l => h l j) (Z.to_nat r) (moffset m1) (moffset p) g
                (fun _ _ => zero) s3) as (s4 & E4 & U); try assumption; try lia.
    { exact (mshows_swap _ _ _ _ _ _ _ _ Co3). }
    rewrite E4. cbn [bind]. exists s4, p. split; [reflexivity|].
    pose proof U as U'. rewrite Vp, Es in U'.
    pose proof (rect_mshows _ _ _ _ _ _ _ _ _ U) as S.
    destruct (cells_matrix s4 p r c (fun i j => total zero add k (fun l => mul (g i l) (h l j)))) as [H4 B4];
      try assumption; try lia.
    { rewrite Sp1, Sp2. intros i j Hi Hj. rewrite (S i j Hi Hj). f_equal. rewrite M1. rewrite total_total_from.
      apply total_from_ext. intros l Hl. apply MC. }
    split; [|exact H4].
    split; [eapply grown_trans; [exact G1|]; eapply grown_trans; [exact G2|]; exact (updated_grown _ _ _ _ U')|].
    rewrite (fits_stores _ _ (proj1 U)).
    split; [|auto]. destruct G1 as [t ->], G2 as [t2 ->]. rewrite !app_length in V3. lia.
Qed.

Lemma gemv_loop_ok (zero one : A) (add mul : A -> A -> A) alpha la lx ly k across px incx X n : forall pa down py incy G Y s,
  mshows s la n k pa down across G -> shows s lx k px incx X -> shows s ly n py incy Y ->
  la <> ly -> lx <> ly -> apart n incy ->
  exists s', gemv_loop zero one add mul n k alpha la pa down across lx px incx ly py incy s = Done s' /\
    updated s s' ly (line n py incy (fun i =>
      add (mul alpha (total_from add zero k (fun l => mul (G i l) (X l)))) (mul one (Y i)))).
Proof.
  induction n as [|n IH]; intros pa down py incy G Y s HA HX HY Na Nx N.
  - exists s. split; [reflexivity|]. apply updated_same. intros x v (i & Hi & _). lia.
  - cbn [gemv_loop].
    rewrite (dot_loop_ok add mul _ _ _ _ _ _ _ _ _ _ _ (mshows_head _ _ _ _ _ _ _ _ HA) HX). cbn [bind].
    rewrite (load_cell _ _ _ _ (shows_head _ _ _ _ _ _ HY)). cbn [bind].
    set (v := add _ _).
    destruct (updated_one s ly py v _ (fun k v' => k = py /\ v' = v) (shows_head _ _ _ _ _ _ HY) ltac:(tauto))
      as (s1 & E1 & U1).
    rewrite E1. cbn [bind].
    destruct (IH (pa + down) down (py + incy) incy (fun i => G (i + 1)) (fun i => Y (i + 1)) s1) as (s2 & E2 & U2); auto.
    + eapply mshows_other; [exact U1|exact Na|]. exact (mshows_tail _ _ _ _ _ _ _ _ HA).
    + eapply shows_other; [exact U1|exact Nx|exact HX].
    + eapply shows_later; [|exact (shows_tail _ _ _ _ _ _ HY)|exact U1].
      intros i Hi [_ E]. apply (N (i + 1) 0); lia.
    + exact (apart_tail _ _ N).
    + exists s2. split; [exact E2|].
      eapply updated_both; [exact U1|exact U2| |].
      * intros x w w' [-> _] d. exact (line_fresh _ _ _ _ _ _ N eq_refl d).
      * intros x w. apply (line_split n py incy
          (fun i => add (mul alpha (total_from add zero k (fun l => mul (G i l) (X l)))) (mul one (Y i)))).
Qed.

(** The list that a product with an array has filled. *)
Lemma filled s n f :
  shows s (length s - 1) n 0 1 f ->
  (length (nth (length s - 1) s []) = n)%nat -> (0 < length s)%nat ->
  nth (length s - 1) s [] = map f (count n).
Proof.
  intros H L P. apply nth_error_ext. intros i.
  destruct (Nat.lt_ge_cases i n) as [Li|Li].
  - specialize (H (Z.of_nat i) ltac:(lia)). unfold cell in H.
    replace (0 + Z.of_nat i * 1 <? 0) with false in H by lia.
    rewrite (nth_error_nth' s []) in H by lia.
    replace (Z.to_nat (0 + Z.of_nat i * 1)) with i in H by lia.
    rewrite H, nth_error_map, nth_error_count by lia. reflexivity.
  - rewrite !(proj2 (nth_error_None _ _)); [reflexivity| |lia].
    rewrite map_length, length_count. lia.
Qed.

Lemma product_ok (zero one : A) (add mul : A -> A -> A) s1 n k la pa down across lx px incx G X :
  (forall x, mul one x = x) -> (forall x, add x zero = x) ->
  mshows s1 la (Z.to_nat n) (Z.to_nat k) pa down across G ->
  shows s1 lx (Z.to_nat k) px incx X -> 0 <= n -> 0 < k ->
  let y := length s1 in
  exists s2,
    gemv_loop zero one add mul (Z.to_nat n) (Z.to_nat k) one la pa down across lx px incx y 0 1
      (s1 ++ [repeat zero (Z.to_nat n)]) = Done s2 /\
    grown s1 s2 /\
    nth y s2 [] = map (fun i => total zero add k (fun l => mul (G i l) (X l))) (count (Z.to_nat n)).
Proof.
  intros M1 A0 HA HX Pn Pk y.
  destruct (Z.eq_dec n 0) as [->|Nn].
  { exists (s1 ++ [[]]). split; [reflexivity|]. split; [apply grown_one|].
    cbn. unfold y. now rewrite app_nth2, Nat.sub_diag by lia. }
  assert (Ln : (la <> y)%nat).
  { specialize (HA 0 0 ltac:(lia) ltac:(lia)). intros ->. unfold cell, y in HA.
    destruct (_ <? 0); [discriminate|].
    rewrite (proj2 (nth_error_None s1 (length s1)) ltac:(lia)) in HA. discriminate. }
  assert (Lx : (lx <> y)%nat).
  { specialize (HX 0 ltac:(lia)). intros ->. unfold cell, y in HX.
    destruct (_ <? 0); [discriminate|].
    rewrite (proj2 (nth_error_None s1 (length s1)) ltac:(lia)) in HX. discriminate. }
  destruct (gemv_loop_ok zero one add mul one la lx y (Z.to_nat k) across px incx X (Z.to_nat n) pa down 0 1 G (fun _ => zero)
              (s1 ++ [repeat zero (Z.to_nat n)])) as (s2 & E & U); auto.
  { now apply mshows_grown. }
  { now apply shows_grown. }
  { rewrite repeat_map_count. apply new_shows. }
  { apply apart_one. }
  exists s2. split; [exact E|]. split; [exact (updated_grown _ _ _ _ U)|].
  assert (F : length s2 = S (length s1)).
  { destruct U as (F & _). rewrite (fits_stores _ _ F), app_length. cbn. lia. }
  assert (F2 : length (nth y s2 []) = Z.to_nat n).
  { destruct U as (Fi & _). rewrite (fits_length _ _ y Fi). unfold y.
    rewrite app_nth2, Nat.sub_diag by lia. cbn. apply repeat_length. }
  pose proof (line_shows _ _ _ _ _ _ _ U) as S.
  replace y with (length s2 - 1)%nat in * by (unfold y; lia).
  rewrite (filled s2 (Z.to_nat n) (fun i => total zero add k (fun l => mul (G i l) (X l)))); [reflexivity| |exact F2|lia].
  intros i Hi. rewrite (S i Hi). f_equal. now rewrite !M1, A0.
Qed.

Lemma matvec_ok (zero one : A) (add mul : A -> A -> A) s m a r k g h :
  (forall x, mul one x = x) -> (forall x, add x zero = x) ->
  minside s m -> matrix_is s m r k g -> inside s a -> array_is s a k h ->
  0 < k -> 0 < stride a -> is_canonical m = false \/ moffset m = 0 ->
  exists s' p, matvec zero one add mul s m a = Done (s', p) /\ newly s s' p /\
    array_is s' p r (fun i => total zero add k (fun j => mul (g i j) (h j))).
Proof.
  intros M1 A0 B H B2 H2 Pk Ps Off. unfold matvec.
  destruct (canonical_form_ok s m r k g B H) as (s1 & m1 & E1 & G1 & B1 & H1 & K1 & O1).
  rewrite E1. cbn [bind fst snd]. specialize (O1 Off).
  destruct (canonical_strides _ K1) as [Sm1 Sm2].
  pose proof H1 as (Rm & Cm & Pr & _).
  destruct (array_grown _ _ _ _ _ G1 B2 H2) as [Ha Ba].
  pose proof (matrix_cells _ _ _ _ _ B1 H1) as C1. pose proof (array_cells _ _ _ _ Ba Ha) as Ca.
  rewrite O1, Sm1, Sm2, Cm in C1.
  unfold alloc. rewrite Cm, (proj1 H2), Z.eqb_refl, Rm, Sm1, Cm.
  destruct (product_ok zero one add mul s1 r k (mvals m1) 0 k 1 (vals a) (offset a) (stride a) g h M1 A0 C1 Ca Pr Pk)
    as (s2 & E2 & G2 & F).
  assert (E3 : gemv zero one add mul true k r one (mvals m1) 0 k (vals a) (offset a) (stride a)
                 (length s1) 0 1 (s1 ++ [repeat zero (Z.to_nat r)]) = Done s2).
  { unfold gemv. replace ((k <? Z.max 1 k) || (stride a =? 0) || (1 =? 0))%bool with false by lia.
    rewrite !blas_start_pos by lia. rewrite !Z.add_0_r.
    destruct ((k =? 0) || (r =? 0))%bool eqn:Z0; [|exact E2].
    assert (Er : r = 0) by lia. rewrite Er in E2 |- *. exact E2. }
  rewrite E3. cbn [bind]. rewrite F.
  pose proof (array_of_ok s2 r (fun i => total zero add k (fun l => mul (g i l) (h l))) Pr) as N.
  destruct (array_of s2 _) as [s3 p]. destruct N as [(G3 & V3 & B3 & D3 & S3) H3].
  exists s3, p. split; [reflexivity|]. split; [|exact H3].
  split; [eapply grown_trans; [exact G1|]; eapply grown_trans; [exact G2|exact G3]|].
  split; [|auto]. destruct G1 as [t ->], G2 as [t2 ->]. rewrite !app_length in V3. lia.
Qed.

Lemma vecmat_ok (zero one : A) (add mul : A -> A -> A) s m a r c g h :
  (forall x, mul one x = x) -> (forall x, add x zero = x) -> (forall x y, mul x y = mul y x) ->
  minside s m -> matrix_is s m r c g -> inside s a -> array_is s a r h ->
  0 < r -> 0 < c -> 0 < stride a -> is_canonical m = false \/ moffset m = 0 ->
  exists s' p, vecmat zero one add mul s a m = Done (s', p) /\ newly s s' p /\
    array_is s' p c (fun j => total zero add r (fun i => mul (h i) (g i j))).
Proof.
  intros M1 A0 MC B H B2 H2 Pr' Pc Ps Off. unfold vecmat.
  destruct (canonical_form_ok s m r c g B H) as (s1 & m1 & E1 & G1 & B1 & H1 & K1 & O1).
  rewrite E1. cbn [bind fst snd]. specialize (O1 Off).
  destruct (canonical_strides _ K1) as [Sm1 Sm2].
  pose proof H1 as (Rm & Cm & Pr & _).
  destruct (array_grown _ _ _ _ _ G1 B2 H2) as [Ha Ba].
  pose proof (matrix_cells _ _ _ _ _ B1 H1) as C1. pose proof (array_cells _ _ _ _ Ba Ha) as Ca.
  rewrite O1, Sm1, Sm2, Cm in C1. apply mshows_swap in C1.
  unfold alloc. rewrite Cm, Rm, (proj1 H2), Z.eqb_refl, Sm1, Cm.
  destruct (product_ok zero one add mul s1 c r (mvals m1) 0 1 c (vals a) (offset a) (stride a) (fun i j => g j i) h M1 A0 C1 Ca ltac:(lia) Pr')
    as (s2 & E2 & G2 & F).
  assert (E3 : gemv zero one add mul false c r one (mvals m1) 0 c (vals a) (offset a) (stride a)
                 (length s1) 0 1 (s1 ++ [repeat zero (Z.to_nat c)]) = Done s2).
  { unfold gemv. replace ((c <? Z.max 1 c) || (stride a =? 0) || (1 =? 0))%bool with false by lia.
    replace ((c =? 0) || (r =? 0))%bool with false by lia.
    rewrite !blas_start_pos by lia. rewrite !Z.add_0_r. exact E2. }
  rewrite E3. cbn [bind]. rewrite F.
  pose proof (array_of_ok s2 c (fun i => total zero add r (fun l => mul (g l i) (h l))) ltac:(lia)) as N.
  destruct (array_of s2 _) as [s3 p]. destruct N as [(G3 & V3 & B3 & D3 & S3) H3].
  exists s3, p. split; [reflexivity|]. split.
  - split; [eapply grown_trans; [exact G1|]; eapply grown_trans; [exact G2|exact G3]|].
    split; [|auto]. destruct G1 as [t ->], G2 as [t2 ->]. rewrite !app_length in V3. lia.
  - destruct H3 as (L3 & P3 & I3). split; [exact L3|]. split; [exact P3|].
    intros i Hi. rewrite (I3 i Hi). f_equal. rewrite !total_total_from.
    apply total_from_ext. intros l Hl. apply MC.
Qed.

(* -------------------------------------------------------------- *)
(** * Products that fail *)

Lemma matmul_rejects (zero one : A) (add mul : A -> A -> A) s m o r k c g h :
  minside s m -> matrix_is s m r k g -> minside s o -> matrix_is s o k c h ->
  k = 0 \/ c = 0 -> matmul zero one add mul s m o = Reject.
Proof.
  intros B H B2 H2 Z0. unfold matmul.
  pose proof H as (R & C & Pr & Pk & _). pose proof H2 as (R2 & C2 & _ & Pc & _).
  rewrite C, R2, Z.eqb_refl.
  destruct (canonical_form_ok s m r k g B H) as (s1 & m1 & E1 & G1 & B1 & H1 & K1 & _).
  rewrite E1. cbn [bind fst snd].
  destruct (matrix_grown _ _ _ _ _ _ G1 B2 H2) as [H2' B2'].
  destruct (canonical_form_ok s1 o k c h B2' H2') as (s2 & o1 & E2 & G2 & Bo & Ho & K2 & _).
  rewrite E2. cbn [bind fst snd].
  pose proof H1 as (Rm & Cm & _). pose proof Ho as (Ro & Co & _).
  rewrite Rm, Co.
  destruct (mfull_ok s2 r c zero Pr Pc) as (s3 & p & E3 & N3 & H3 & Ep & Es).
  rewrite E3. cbn [bind fst snd]. cbv zeta.
  destruct (canonical_strides _ K1) as [Sm1 Sm2]. destruct (canonical_strides _ K2) as [So1 So2].
  unfold gemm. rewrite Sm1, So1, Cm, Co.
  replace ((c <? Z.max 1 c) || (k <? Z.max 1 k) || (stride0 p <? Z.max 1 c))%bool with true by lia.
  reflexivity.
Qed.

Lemma matvec_raises (zero one : A) (add mul : A -> A -> A) s m a r k g :
  minside s m -> matrix_is s m r k g -> cols m <> len a -> matvec zero one add mul s m a = Raise.
Proof.
  intros B H N. unfold matvec.
  destruct (canonical_form_ok s m r k g B H) as (s1 & m1 & E1 & G1 & B1 & H1 & K1 & O1).
  rewrite E1. cbn [bind fst snd]. unfold alloc.
  destruct H as (_ & C & _). destruct H1 as (_ & C1 & _).
  now replace (cols m1 =? len a) with false by lia.
Qed.

Lemma matvec_rejects (zero one : A) (add mul : A -> A -> A) s m a r k g :
  minside s m -> matrix_is s m r k g -> cols m = len a -> k = 0 ->
  matvec zero one add mul s m a = Reject.
Proof.
  intros B H N Z0. unfold matvec.
  destruct (canonical_form_ok s m r k g B H) as (s1 & m1 & E1 & G1 & B1 & H1 & K1 & O1).
  rewrite E1. cbn [bind fst snd]. unfold alloc.
  destruct H as (_ & C & _). destruct H1 as (_ & C1 & _).
  destruct (canonical_strides _ K1) as [S1 _].
  replace (cols m1 =? len a) with true by lia. unfold gemv. rewrite S1.
  now replace ((cols m1 <? Z.max 1 (cols m1)) || (stride a =? 0) || (1 =? 0))%bool with true by lia.
Qed.

Lemma vecmat_raises (zero one : A) (add mul : A -> A -> A) s m a r c g :
  minside s m -> matrix_is s m r c g -> rows m <> len a -> vecmat zero one add mul s a m = Raise.
Proof.
  intros B H N. unfold vecmat.
  destruct (canonical_form_ok s m r c g B H) as (s1 & m1 & E1 & G1 & B1 & H1 & K1 & O1).
  rewrite E1. cbn [bind fst snd]. unfold alloc.
  destruct H as (R & _). destruct H1 as (R1 & _).
  now replace (rows m1 =? len a) with false by lia.
Qed.

Lemma vecmat_rejects (zero one : A) (add mul : A -> A -> A) s m a r c g :
  minside s m -> matrix_is s m r c g -> rows m = len a -> c = 0 ->
  vecmat zero one add mul s a m = Reject.
Proof.
  intros B H N Z0. unfold vecmat.
  destruct (canonical_form_ok s m r c g B H) as (s1 & m1 & E1 & G1 & B1 & H1 & K1 & O1).
  rewrite E1. cbn [bind fst snd]. unfold alloc.
  destruct H as (R & C & _). destruct H1 as (R1 & C1 & _).
  destruct (canonical_strides _ K1) as [S1 _].
  replace (rows m1 =? len a) with true by lia. unfold gemv. rewrite S1.
  now replace ((cols m1 <? Z.max 1 (cols m1)) || (stride a =? 0) || (1 =? 0))%bool with true by lia.
Qed.

(** No rows: the product is a row of zeros, which BLAS leaves alone. *)
Lemma vecmat_empty (zero one : A) (add mul : A -> A -> A) s m a c g :
  minside s m -> matrix_is s m 0 c g -> len a = 0 -> 0 < c -> 0 < stride a ->
  exists s' p, vecmat zero one add mul s a m = Done (s', p) /\ newly s s' p.
Proof.
  intros B H L Pc Ps. unfold vecmat.
  destruct (canonical_form_ok s m 0 c g B H) as (s1 & m1 & E1 & G1 & B1 & H1 & K1 & O1).
  rewrite E1. cbn [bind fst snd]. unfold alloc.
  destruct H1 as (R1 & C1 & _). destruct (canonical_strides _ K1) as [S1 _].
  rewrite R1, L, Z.eqb_refl, S1, C1. unfold gemv.
  replace ((c <? Z.max 1 c) || (stride a =? 0) || (1 =? 0))%bool with false by lia.
  replace ((c =? 0) || (0 =? 0))%bool with true by lia. cbn [bind].
  rewrite app_nth2, Nat.sub_diag by lia. cbn [nth]. rewrite repeat_map_count.
  pose proof (array_of_ok (s1 ++ [map (fun _ => zero) (count (Z.to_nat c))]) c (fun _ => zero) ltac:(lia)) as N.
  destruct (array_of _ _) as [s3 p]. destruct N as [(G3 & V3 & R3) _].
  exists s3, p. split; [reflexivity|].
  split; [eapply grown_trans; [exact G1|]; eapply grown_trans; [apply grown_one|exact G3]|].
  split; [|exact R3]. destruct G1 as [t ->]. rewrite !app_length in V3. lia.
Qed.

End Ops.
