(** C81: arrays and matrices hold the elements that linear algebra says. *)
From Verif Require Import Base Matrix_Model Matrix_Spec Matrix_Proofs Matrix_Ops Matrix_Safe.
From Coq Require Import ZifyBool ZifyNat.
Open Scope list_scope.
Open Scope Z_scope.

(** No program gets at memory that is not part of the lists of its arrays and
    matrices. The whole property has no [fair]. *)
Theorem C81_programs_stay_inside_partial :
  forall (A : Type) (zero one : A) (add mul : A -> A -> A) (flt : bool) (e : state A) (c : command A),
  numbers zero one add mul -> reached zero one add mul flt e -> fair flt e c ->
  call zero one add mul flt e c <> Wild.
Proof.
  intros A zero one add mul flt e c N R F. pose proof N as (N1 & N2 & N3).
  exact (proj1 (call_good zero one add mul N1 N2 N3 flt e c (reached_is_sound N R) F)).
Qed.

(** Without floats there is no condition on the program. *)
Theorem C81_integer_programs_stay_inside :
  forall (A : Type) (zero one : A) (add mul : A -> A -> A) (cs : list (command A)),
  numbers zero one add mul ->
  calls zero one add mul false (State [] [] []) cs <> Wild /\
  forall e, calls zero one add mul false (State [] [] []) cs = Done e -> reached zero one add mul false e.
Proof.
  intros A zero one add mul cs (N1 & N2 & N3).
  exact (calls_reached zero one add mul N1 N2 N3 cs _ (reached_start _ _ _ _ _)).
Qed.

(** Each index of an array or matrix has an element, toList() has them in
    order, and every other index raises. *)
Theorem C81_elements :
  forall (A : Type) (zero one : A) (add mul : A -> A -> A) (flt : bool) (e : state A),
  numbers zero one add mul -> reached zero one add mul flt e ->
  (forall a, In a (arrays e) -> exists g,
     array_is (memory e) a (len a) g /\
     to_list (memory e) a = Done (map g (count (Z.to_nat (len a)))) /\
     forall i, i < 0 \/ len a <= i ->
       item (memory e) a i = Raise /\ forall v, set_item (memory e) a i v = Raise) /\
  (forall m, In m (matrices e) -> exists g,
     matrix_is (memory e) m (rows m) (cols m) g /\
     mto_list (memory e) m =
       Done (flat_map (fun i => map (g i) (count (Z.to_nat (cols m)))) (count (Z.to_nat (rows m)))) /\
     forall i, i < 0 \/ rows m <= i -> row m i = Raise).
Proof.
  intros A zero one add mul flt e N R. split.
  - intros a Ia. destruct (reached_array N R a Ia) as (B & _).
    destruct (some_array zero _ _ B) as [g Hg]. exists g. split; [exact Hg|].
    split; [exact (to_list_ok _ _ _ _ B Hg)|].
    intros i Hi. split; [now apply item_out|]. intros v. now apply set_item_out.
  - intros m Im. destruct (reached_matrix N R m Im) as (B & _).
    destruct (some_matrix zero _ _ B) as [g Hg]. exists g. split; [exact Hg|].
    split; [exact (mto_list_ok _ _ _ _ _ B Hg)|].
    intros i Hi. now apply row_out.
Qed.

(** Array(T)(values), full, make, and identity. *)
Theorem C81_making :
  forall (A : Type) (zero one : A) (s : store A),
  (forall n g, 0 <= n ->
     let (s', a) := array_of s (map g (count (Z.to_nat n))) in
     newly s s' a /\ array_is s' a n g) /\
  (forall n v, 0 <= n -> exists s' a, full s n v = Done (s', a) /\
     newly s s' a /\ array_is s' a n (fun _ => v)) /\
  (forall r c f, 0 <= r -> 0 <= c -> exists s' m, make s r c f = Done (s', m) /\
     mnewly s s' m /\ matrix_is s' m r c f) /\
  (forall r c v, 0 <= r -> 0 <= c -> exists s' m, mfull s r c v = Done (s', m) /\
     mnewly s s' m /\ matrix_is s' m r c (fun _ _ => v)) /\
  (forall n, 0 <= n -> exists s' m, identity zero one s n = Done (s', m) /\
     mnewly s s' m /\ matrix_is s' m n n (fun i j => if i =? j then one else zero)).
Proof.
  intros A zero one s. split; [exact (array_of_ok s)|]. split; [exact (full_ok s)|].
  split; [exact (make_ok s)|]. split.
  - intros r c v Pr Pc. destruct (mfull_ok s r c v Pr Pc) as (s' & m & E & M & H & _). eauto.
  - exact (identity_ok zero one (fun x _ => x) (fun x _ => x) s).
Qed.

(** clone(), flatten() and transpose() give new values. *)
Theorem C81_copies :
  forall (A : Type) (zero one : A) (add mul : A -> A -> A) (flt : bool) (e : state A),
  numbers zero one add mul -> reached zero one add mul flt e ->
  (forall a n g, In a (arrays e) -> array_is (memory e) a n g ->
     exists s' c, clone (memory e) a = Done (s', c) /\ newly (memory e) s' c /\ array_is s' c n g) /\
  (forall m r c g, In m (matrices e) -> matrix_is (memory e) m r c g ->
     (exists s' d, mclone (memory e) m = Done (s', d) /\
        mnewly (memory e) s' d /\ matrix_is s' d r c g) /\
     (exists s' a, flatten (memory e) m = Done (s', a) /\
        newly (memory e) s' a /\ array_is s' a (r * c) (fun k => g (k / c) (k mod c))) /\
     (let (s', t) := transpose (memory e) m in
      grown (memory e) s' /\ (length (memory e) <= mvals t)%nat /\
      matrix_is s' t c r (fun i j => g j i))).
Proof.
  intros A zero one add mul flt e N R. split.
  - intros a n g Ia H. destruct (reached_array N R a Ia) as (B & _). exact (clone_ok _ _ _ _ B H).
  - intros m r c g Im H. destruct (reached_matrix N R m Im) as (B & _). split; [|split].
    + destruct (mclone_ok _ _ _ _ _ B H) as (s' & d & E & M & H' & _). eauto.
    + exact (flatten_ok _ _ _ _ _ B H).
    + pose proof (transpose_ok _ _ _ _ _ B H) as T. destruct (transpose (memory e) m) as [s' t].
      destruct T as (G & V & _ & _ & H' & _). split; [exact G|]. split; [lia|exact H'].
Qed.

(** m[i] and m.diagonal() have the elements of the matrix, and what is done
    to them is done to the matrix. *)
Theorem C81_rows_and_diagonals_are_views :
  forall (A : Type) (zero one : A) (add mul : A -> A -> A) (flt : bool) (e : state A) m r c g,
  numbers zero one add mul -> reached zero one add mul flt e ->
  In m (matrices e) -> matrix_is (memory e) m r c g ->
  (forall i, 0 <= i < r -> exists a, row m i = Done a /\ array_is (memory e) a c (g i) /\
     forall s' h, changed (memory e) s' a c h ->
       matrix_is s' m r c (fun i' j => if i' =? i then h j else g i' j)) /\
  array_is (memory e) (diagonal m) (Z.min r c) (fun i => g i i) /\
  (forall s' h, changed (memory e) s' (diagonal m) (Z.min r c) h ->
     matrix_is s' m r c (fun i j => if i =? j then h i else g i j)).
Proof.
  intros A zero one add mul flt e m r c g N R Im H. destruct (reached_matrix N R m Im) as (B & D & _).
  split; [|split].
  - intros i Hi. destruct (row_ok _ _ _ _ _ i B H Hi) as (a & E & Ha & _). exists a.
    split; [exact E|]. split; [exact Ha|]. intros s' h C. exact (row_changed _ _ _ _ _ _ _ _ _ B D H E C).
  - exact (proj1 (diagonal_ok _ _ _ _ _ B H)).
  - intros s' h C. exact (diagonal_changed _ _ _ _ _ _ _ B D H C).
Qed.

(** a[i] = v, m[i][j] = v and m[i] = a change that and nothing else. *)
Theorem C81_setting :
  forall (A : Type) (zero one : A) (add mul : A -> A -> A) (flt : bool) (e : state A),
  numbers zero one add mul -> reached zero one add mul flt e ->
  (forall a n g i v, In a (arrays e) -> array_is (memory e) a n g -> 0 <= i < n ->
     exists s', set_item (memory e) a i v = Done s' /\
       array_is s' a n (fun k => if k =? i then v else g k) /\
       forall l k, ~ (l = vals a /\ k = offset a + i * stride a) -> cell s' l k = cell (memory e) l k) /\
  (forall m r c g i j v, In m (matrices e) -> matrix_is (memory e) m r c g -> 0 <= i < r -> 0 <= j < c ->
     exists s', bind (row m i) (fun a => set_item (memory e) a j v) = Done s' /\
       mchanged (memory e) s' m r c (fun i' j' => if (i' =? i) && (j' =? j) then v else g i' j')) /\
  (forall m r c g i a h, In m (matrices e) -> matrix_is (memory e) m r c g -> 0 <= i < r ->
     In a (arrays e) -> array_is (memory e) a c h ->
     exists s', set_row (memory e) m i a = Done s' /\
       mchanged (memory e) s' m r c (fun i' j => if i' =? i then h j else g i' j)).
Proof.
  intros A zero one add mul flt e N R. split; [|split].
  - intros a n g i v Ia H Hi. destruct (reached_array N R a Ia) as (B & D & _).
    destruct (set_item_ok _ _ _ _ i v B D H Hi) as (s' & E & H' & _ & F). eauto.
  - intros m r c g i j v Im H Hi Hj. destruct (reached_matrix N R m Im) as (B & D & _).
    exact (set_entry_ok _ _ _ _ _ i j v B D H Hi Hj).
  - intros m r c g i a h Im H Hi Ia Ha. destruct (reached_matrix N R m Im) as (B & D & _).
    destruct (reached_array N R a Ia) as (B2 & _).
    apply (set_row_ok _ _ _ _ _ i a h B D H Hi B2 Ha).
    intros b Eb. exact (sound_row_aligned e m i b a (reached_is_sound N R) Im Eb Ia).
Qed.

(** For indices of the shape get and set do the same as []. *)
Theorem C81_get_and_set_partial :
  forall (A : Type) (s : store A),
  (forall a i, 0 <= i < len a ->
     get s a i = item s a i /\ forall v, set s a i v = set_item s a i v) /\
  (forall m i j, 0 <= i < rows m -> 0 <= j < cols m ->
     mget s m i j = entry s m i j /\
     forall v, mset s m i j v = bind (row m i) (fun a => set_item s a j v)).
Proof.
  intros A s. split.
  - intros a i Hi. unfold get, set, item, set_item.
    replace ((i <? 0) || (len a <=? i))%bool with false by lia. auto.
  - intros m i j Hi Hj. unfold mget, mset, entry, row, item, set_item.
    replace ((i <? 0) || (rows m <=? i))%bool with false by lia.
    cbn [bind vals offset stride len].
    replace ((j <? 0) || (cols m <=? j))%bool with false by lia.
    replace (j * stride1 m + (moffset m + i * stride0 m))
      with (i * stride0 m + j * stride1 m + moffset m) by ring. auto.
Qed.

(** a - b, a * b and so on, with any operator other than + of floats. *)
Theorem C81_array_operators :
  forall (A : Type) (zero one : A) (add mul : A -> A -> A) (flt : bool) (e : state A) a n g,
  numbers zero one add mul -> reached zero one add mul flt e ->
  In a (arrays e) -> array_is (memory e) a n g ->
  (forall f b h, In b (arrays e) -> array_is (memory e) b n h ->
     (exists s' c, op f (memory e) a b = Done (s', c) /\
        newly (memory e) s' c /\ array_is s' c n (fun i => f (g i) (h i))) /\
     (exists s', iop f (memory e) a b = Done s' /\
        changed (memory e) s' a n (fun i => f (g i) (h i)))) /\
  (forall f b, len b <> n -> op f (memory e) a b = Raise /\ iop f (memory e) a b = Raise) /\
  (forall f,
     (exists s' c, map_array f (memory e) a = Done (s', c) /\
        newly (memory e) s' c /\ array_is s' c n (fun i => f (g i))) /\
     (exists s', unary f (memory e) a = Done s' /\ changed (memory e) s' a n (fun i => f (g i)))).
Proof.
  intros A zero one add mul flt e a n g N R Ia H. destruct (reached_array N R a Ia) as (B & D & _).
  split; [|split].
  - intros f b h Ib Hb. destruct (reached_array N R b Ib) as (B2 & _). split.
    + exact (op_ok f _ _ _ _ _ _ B H B2 Hb).
    + exact (iop_ok f _ _ _ _ _ _ B D H B2 Hb (sound_aligned e a b (reached_is_sound N R) Ia Ib)).
  - intros f b Nl. assert (L : len a <> len b) by (destruct H as [H _]; lia).
    destruct (lengths_differ zero one add mul f flt (memory e) a b L) as (E1 & E2 & _). auto.
  - intros f. split; [exact (map_array_ok f _ _ _ _ B H)|].
    destruct (unary_ok f _ _ _ _ B D H) as (s' & E & C & _). eauto.
Qed.

(** a + b and a += b. The whole property has no condition on the distances
    between the elements. *)
Theorem C81_adding_partial :
  forall (A : Type) (zero one : A) (add mul : A -> A -> A) (flt : bool) (e : state A) a b n g h,
  numbers zero one add mul -> reached zero one add mul flt e ->
  In a (arrays e) -> array_is (memory e) a n g -> In b (arrays e) -> array_is (memory e) b n h ->
  ((flt = true -> stride b = 1) ->
     exists s' c, plus one add mul flt (memory e) a b = Done (s', c) /\
       newly (memory e) s' c /\ array_is s' c n (fun i => add (g i) (h i))) /\
  ((flt = true -> stride a = stride b) ->
     exists s', iadd one add mul flt (memory e) a b = Done s' /\
       changed (memory e) s' a n (fun i => add (g i) (h i))).
Proof.
  intros A zero one add mul flt e a b n g h N R Ia H Ib Hb. pose proof N as (N1 & _).
  destruct (reached_array N R a Ia) as (B & D & P & _). destruct (reached_array N R b Ib) as (B2 & _).
  split; intros F.
  - exact (plus_ok zero one add mul _ _ _ _ _ _ flt N1 F B H B2 Hb).
  - destruct (iadd_ok zero one add mul (memory e) a b n g h flt N1) as (s' & E & C & _);
      [intros T; split; [exact (F T)|lia]|assumption..|
       exact (sound_aligned e a b (reached_is_sound N R) Ia Ib)|]. eauto.
Qed.

(** The operators of matrices. *)
Theorem C81_matrix_operators :
  forall (A : Type) (zero one : A) (add mul : A -> A -> A) (flt : bool) (e : state A) m r c g,
  numbers zero one add mul -> reached zero one add mul flt e ->
  In m (matrices e) -> matrix_is (memory e) m r c g ->
  (forall f o h, In o (matrices e) -> matrix_is (memory e) o r c h ->
     (exists s' d, mop f (memory e) m o = Done (s', d) /\
        mnewly (memory e) s' d /\ matrix_is s' d r c (fun i j => f (g i j) (h i j))) /\
     (exists s', miop f (memory e) m o = Done s' /\
        mchanged (memory e) s' m r c (fun i j => f (g i j) (h i j)))) /\
  (forall f o, rows o <> r \/ cols o <> c ->
     mop f (memory e) m o = Raise /\ miop f (memory e) m o = Raise) /\
  (forall f,
     (exists s' d, map_matrix f (memory e) m = Done (s', d) /\
        mnewly (memory e) s' d /\ matrix_is s' d r c (fun i j => f (g i j))) /\
     (exists s', munary f (memory e) m = Done s' /\
        mchanged (memory e) s' m r c (fun i j => f (g i j)))).
Proof.
  intros A zero one add mul flt e m r c g N R Im H. destruct (reached_matrix N R m Im) as (B & D & O & _).
  split; [|split].
  - intros f o h Io Ho. destruct (reached_matrix N R o Io) as (B2 & _ & O2 & _). split.
    + exact (mop_ok f _ _ _ _ _ _ _ B H B2 Ho O2).
    + apply (miop_ok f _ _ _ _ _ _ _ B D H B2 Ho); [congruence|].
      exact (sound_maligned e m o (reached_is_sound N R) Im Io).
  - intros f o Ns. apply shapes_differ. destruct H as (H1 & H2 & _). lia.
  - intros f. split; [exact (map_matrix_ok f _ _ _ _ _ B H)|].
    destruct (munary_ok f _ _ _ _ _ B D H) as (s' & E & C & _). eauto.
Qed.

(** a.sum() and a @ b. *)
Theorem C81_sums :
  forall (A : Type) (zero one : A) (add mul : A -> A -> A) (flt : bool) (e : state A) a n g,
  numbers zero one add mul -> reached zero one add mul flt e ->
  In a (arrays e) -> array_is (memory e) a n g ->
  sum zero add (memory e) a = Done (total zero add n g) /\
  (forall b h, In b (arrays e) -> array_is (memory e) b n h ->
     dot zero add mul (memory e) a b = Done (total zero add n (fun i => mul (g i) (h i)))) /\
  (forall b, len b <> n -> dot zero add mul (memory e) a b = Raise).
Proof.
  intros A zero one add mul flt e a n g N R Ia H. destruct (reached_array N R a Ia) as (B & _).
  split; [|split].
  - exact (sum_ok zero one add mul _ _ _ _ B H).
  - intros b h Ib Hb. destruct (reached_array N R b Ib) as (B2 & _).
    exact (dot_ok zero one add mul _ _ _ _ _ _ B H B2 Hb).
  - intros b Nl. assert (L : len a <> len b) by (destruct H as [H _]; lia).
    exact (proj1 (proj2 (proj2 (lengths_differ zero one add mul add flt (memory e) a b L)))).
Qed.

(** m @ o, m @ a and a @ m, however the matrix is stored. The whole property
    has matrices without rows or columns as well. *)
Theorem C81_products_partial :
  forall (A : Type) (zero one : A) (add mul : A -> A -> A) (flt : bool) (e : state A) m r k g,
  numbers zero one add mul -> reached zero one add mul flt e ->
  In m (matrices e) -> matrix_is (memory e) m r k g -> 0 < k ->
  (forall o c h, In o (matrices e) -> matrix_is (memory e) o k c h -> 0 < c ->
     exists s' p, matmul zero one add mul (memory e) m o = Done (s', p) /\ mnewly (memory e) s' p /\
       matrix_is s' p r c (fun i j => total zero add k (fun l => mul (g i l) (h l j)))) /\
  (forall a h, In a (arrays e) -> array_is (memory e) a k h ->
     exists s' p, matvec zero one add mul (memory e) m a = Done (s', p) /\ newly (memory e) s' p /\
       array_is s' p r (fun i => total zero add k (fun j => mul (g i j) (h j)))) /\
  (forall a h, In a (arrays e) -> array_is (memory e) a r h -> 0 < r ->
     exists s' p, vecmat zero one add mul (memory e) a m = Done (s', p) /\ newly (memory e) s' p /\
       array_is s' p k (fun j => total zero add r (fun i => mul (h i) (g i j)))).
Proof.
  intros A zero one add mul flt e m r k g N R Im H K. pose proof N as (N1 & N2 & N3).
  destruct (reached_matrix N R m Im) as (B & D & O & _). split; [|split].
  - intros o c h Io Ho C. destruct (reached_matrix N R o Io) as (B2 & _).
    exact (matmul_ok zero one add mul _ _ _ _ _ _ _ _ N1 N2 B H B2 Ho K C).
  - intros a h Ia Ha. destruct (reached_array N R a Ia) as (B2 & _ & P & _).
    exact (matvec_ok zero one add mul _ _ _ _ _ _ _ N1 N3 B H B2 Ha K P (or_intror O)).
  - intros a h Ia Ha Pr. destruct (reached_array N R a Ia) as (B2 & _ & P & _).
    exact (vecmat_ok zero one add mul _ _ _ _ _ _ _ N1 N3 N2 B H B2 Ha Pr K P (or_intror O)).
Qed.

(* -------------------------------------------------------------- *)
(** * What does not hold *)

Notation start := (State (A := Z) [] [] []).
Notation zcalls := (calls 0 1 Z.add Z.mul).

(** t = [[1,2],[3,4]].transpose(); a = Array(float)([10,20]); a += t[0]: the
    second sum is read from and written to the place behind the end of the
    list of a. a + t[0] does the same with the list of the result. *)
Theorem C81_adding_floats_refuted :
  exists cs e, zcalls true start cs = Done e /\ reached 0 1 Z.add Z.mul true e /\
    call 0 1 Z.add Z.mul true e (CIadd 0 1) = Wild /\
    call 0 1 Z.add Z.mul true e (CPlus 0 1) = Wild.
Proof.
  exists [CMake 2 2 (fun i j => 1 + 2 * i + j); CTranspose 0; CArray [10; 20]; CRow 1 0].
  eexists. split; [vm_compute; reflexivity|]. split; [|split; vm_compute; reflexivity].
  eapply (quiet_reached 0 1 Z.add Z.mul true
    [CMake 2 2 (fun i j => 1 + 2 * i + j); CTranspose 0; CArray [10; 20]; CRow 1 0]);
    [apply reached_start|reflexivity|vm_compute; reflexivity].
Qed.

(** Where no place is outside the sums are wrong: with m = [[1,2],[3,4]],
    n = [[10,11],[12,13]], a = m[0] and d = n.diagonal(), a += d should make
    a [11,15], but leaves its second element 2. *)
Theorem C81_adding_floats_is_wrong_refuted :
  exists cs e s' a b g h, zcalls true start cs = Done e /\
    nth_error (arrays e) 0 = Some a /\ nth_error (arrays e) 1 = Some b /\
    array_is (memory e) a 2 g /\ array_is (memory e) b 2 h /\
    iadd 1 Z.add Z.mul true (memory e) a b = Done s' /\
    ~ array_is s' a 2 (fun i => g i + h i).
Proof.
  exists [CMake 2 2 (fun i j => 1 + 2 * i + j); CMake 2 2 (fun i j => 10 + 2 * i + j); CRow 0 0; CDiagonal 1].
  eexists; eexists; eexists; eexists.
  exists (fun i => 1 + i), (fun i => 10 + 3 * i).
  split; [vm_compute; reflexivity|]. split; [reflexivity|]. split; [reflexivity|].
  split; [split; [reflexivity|split; [lia|]]; intros i Hi; assert (i = 0 \/ i = 1) as [->| ->] by lia; reflexivity|].
  split; [split; [reflexivity|split; [lia|]]; intros i Hi; assert (i = 0 \/ i = 1) as [->| ->] by lia; reflexivity|].
  split; [vm_compute; reflexivity|].
  intros (_ & _ & H). specialize (H 1 ltac:(lia)). vm_compute in H. discriminate.
Qed.

(** get and set do not look at the shape: m.get(0, 3) of a matrix with three
    columns is m[1][0], a.get(-1) of a row is the element before it, and
    b.get(-1) of an array of its own is the last element. *)
Theorem C81_get_checks_the_shape_refuted :
  exists cs e m a b, zcalls false start cs = Done e /\
    nth_error (matrices e) 0 = Some m /\ nth_error (arrays e) 0 = Some a /\
    nth_error (arrays e) 1 = Some b /\ cols m = 3 /\
    mget (memory e) m 0 3 = entry (memory e) m 1 0 /\ entry (memory e) m 1 0 = Done 3 /\
    entry (memory e) m 0 3 = Raise /\
    item (memory e) a (-1) = Raise /\ get (memory e) a (-1) = Done 2 /\
    item (memory e) b (-1) = Raise /\ get (memory e) b (-1) = Done 9.
Proof.
  exists [CMake 2 3 (fun i j => 3 * i + j); CRow 0 1; CArray [7; 8; 9]].
  eexists; eexists; eexists; eexists. vm_compute. repeat (split; [reflexivity|]). reflexivity.
Qed.

(** Matrix(T)(values, offset, stride, shape) can be called with an offset; the
    operators then read other elements of the right operand. *)
Theorem C81_operators_heed_the_offset_refuted :
  exists s m o s' d, minside s m /\ minside s o /\ rows m = 1 /\ rows o = 1 /\ cols m = 1 /\ cols o = 1 /\
    entry s m 0 0 = Done 5 /\ entry s o 0 0 = Done 7 /\
    mop Z.add s m o = Done (s', d) /\ entry s' d 0 0 = Done 105.
Proof.
  exists [[5]; [100; 7]], (Mat 0 0 1 1 1 1), (Mat 1 1 1 1 1 1). eexists; eexists.
  split; [split; [cbn; lia|split; [cbn; lia|]]; intros i j Hi Hj; cbn in Hi, Hj;
    assert (i = 0 /\ j = 0) as [-> ->] by lia; vm_compute; split; congruence|].
  split; [split; [cbn; lia|split; [cbn; lia|]]; intros i j Hi Hj; cbn in Hi, Hj;
    assert (i = 0 /\ j = 0) as [-> ->] by lia; vm_compute; split; congruence|].
  repeat (split; [reflexivity|]). vm_compute. split; reflexivity.
Qed.

(** m @ a does not look at the offset either. *)
Theorem C81_products_heed_the_offset_refuted :
  exists s m a s' p, minside s m /\ rows m = 1 /\ cols m = 1 /\ entry s m 0 0 = Done 7 /\
    inside s a /\ item s a 0 = Done 1 /\
    matvec 0 1 Z.add Z.mul s m a = Done (s', p) /\ item s' p 0 = Done 100.
Proof.
  exists [[100; 7]; [1]], (Mat 0 1 1 1 1 1), (Arr 1 0 1 1). eexists; eexists.
  split; [split; [cbn; lia|split; [cbn; lia|]]; intros i j Hi Hj; cbn in Hi, Hj;
    assert (i = 0 /\ j = 0) as [-> ->] by lia; vm_compute; split; congruence|].
  repeat (split; [reflexivity|]).
  split; [split; [cbn; lia|]; intros i Hi; cbn in Hi;
    assert (i = 0) as -> by lia; vm_compute; split; congruence|].
  split; [reflexivity|]. vm_compute. split; reflexivity.
Qed.

(** The product of matrices with nothing between them is all zeros, but BLAS
    is called with a leading dimension of 0 and rejects it. *)
Theorem C81_empty_products_refuted :
  exists cs e m o, zcalls true start cs = Done e /\
    nth_error (matrices e) 0 = Some m /\ nth_error (matrices e) 1 = Some o /\ cols m = rows o /\
    matmul 0 1 Z.add Z.mul (memory e) m o = Reject.
Proof.
  exists [CMfull 2 0 0; CMfull 0 3 0]. eexists; eexists; eexists.
  vm_compute. repeat (split; [reflexivity|]). reflexivity.
Qed.

(* -------------------------------------------------------------- *)
(** * A program *)

Lemma integers : numbers 0 1 Z.add Z.mul.
Proof. repeat split; intros; lia. Qed.

(** m = [[1,2,3],[4,5,6]]; t = m.transpose(); a = t[1]; d = t.diagonal();
    a *= d; p = t @ m; q = p @ t[0]. *)
Definition sample : list (command Z) :=
  [CMake 2 3 (fun i j => 1 + 3 * i + j); CTranspose 0; CRow 1 1; CDiagonal 1;
   CIop Z.mul 0 1; CMatmul 1 0; CRow 0 0; CMatvec 2 2].

Definition sample_state : state Z :=
  match zcalls true start sample with Done e => e | _ => start end.

Example sample_is_reached : reached 0 1 Z.add Z.mul true sample_state.
Proof.
  apply (quiet_reached 0 1 Z.add Z.mul true sample start); [apply reached_start|reflexivity|].
  vm_compute. reflexivity.
Qed.

(** t is [[1,4],[2,25],[3,6]] after a *= d, since d shares 5 with a. *)
Example sample_values :
  map (mto_list (memory sample_state)) (matrices sample_state) =
    [Done [1; 2; 3; 4; 5; 6]; Done [1; 4; 2; 25; 3; 6]; Done [17; 22; 27; 102; 129; 156; 27; 36; 45]] /\
  map (to_list (memory sample_state)) (arrays sample_state) =
    [Done [2; 25]; Done [1; 25]; Done [1; 2; 3]; Done [142; 828; 234]].
Proof. split; vm_compute; reflexivity. Qed.

Print Assumptions C81_programs_stay_inside_partial.
Print Assumptions C81_integer_programs_stay_inside.
Print Assumptions C81_elements.
Print Assumptions C81_making.
Print Assumptions C81_copies.
Print Assumptions C81_rows_and_diagonals_are_views.
Print Assumptions C81_setting.
Print Assumptions C81_get_and_set_partial.
Print Assumptions C81_array_operators.
Print Assumptions C81_adding_partial.
Print Assumptions C81_matrix_operators.
Print Assumptions C81_sums.
Print Assumptions C81_products_partial.
Print Assumptions C81_adding_floats_refuted.
Print Assumptions C81_adding_floats_is_wrong_refuted.
Print Assumptions C81_get_checks_the_shape_refuted.
Print Assumptions C81_operators_heed_the_offset_refuted.
Print Assumptions C81_products_heed_the_offset_refuted.
Print Assumptions C81_empty_products_refuted.
