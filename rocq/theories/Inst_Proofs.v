(** Proofs about the memory of one instance: flags, values and the loops over members. *)
From Verif Require Import Base Class_Model Class_Spec Inst_Model Inst_Spec.
From Coq Require Import ZArith Lia ZifyBool ZifyNat.
Open Scope list_scope.

(** ** Memory *)

Lemma write_length : forall b off v, (off + List.length v <= List.length b)%nat -> List.length (write_bytes b off v) = List.length b.
Proof. intros b off v H. unfold write_bytes. rewrite !app_length, firstn_length, skipn_length. lia. Qed.

Lemma skipn_app_ge : forall A (a b : list A) n, (List.length a <= n)%nat -> skipn n (a ++ b) = skipn (n - List.length a) b.
Proof. intros A a b n H. rewrite skipn_app. rewrite skipn_all2 by exact H. reflexivity. Qed.

Lemma read_write_same : forall b off v, (off + List.length v <= List.length b)%nat -> read_bytes (write_bytes b off v) off (List.length v) = v.
Proof.
  intros b off v H. unfold read_bytes, write_bytes. rewrite skipn_app_ge by (rewrite firstn_length; lia).
  rewrite firstn_length, Nat.min_l by lia. rewrite Nat.sub_diag. cbn [skipn]. rewrite firstn_app, Nat.sub_diag, firstn_all. cbn [firstn]. now rewrite app_nil_r.
Qed.

Lemma nth_write_other : forall b off v i d, (off + List.length v <= List.length b)%nat ->
  (i < off \/ off + List.length v <= i)%nat -> nth i (write_bytes b off v) d = nth i b d.
Proof.
  intros b off v i d H [L|L]; unfold write_bytes.
  - rewrite app_nth1 by (rewrite firstn_length; lia). rewrite <- (firstn_skipn off b) at 2. rewrite app_nth1 by (rewrite firstn_length; lia). reflexivity.
  - rewrite app_nth2 by (rewrite firstn_length; lia). rewrite firstn_length, Nat.min_l by lia. rewrite app_nth2 by lia.
    rewrite <- (firstn_skipn (off + List.length v) b) at 2. rewrite (app_nth2 (firstn _ b)) by (rewrite firstn_length; lia).
    rewrite firstn_length, Nat.min_l by lia. f_equal. lia.
Qed.

Lemma nth_write_same : forall b off x d, (off < List.length b)%nat -> nth off (write_bytes b off [x]) d = x.
Proof.
  intros b off x d H. unfold write_bytes. rewrite app_nth2 by (rewrite firstn_length; lia).
  rewrite firstn_length, Nat.min_l by lia. now rewrite Nat.sub_diag.
Qed.

Lemma read_ext : forall a b off n, List.length a = List.length b ->
  (forall i, (off <= i < off + n)%nat -> nth i a 0%Z = nth i b 0%Z) -> read_bytes a off n = read_bytes b off n.
Proof.
  intros a b off n L H. unfold read_bytes. apply nth_ext with (d := 0%Z) (d' := 0%Z); [rewrite !firstn_length, !skipn_length; lia|].
  intros i I. rewrite firstn_length, skipn_length in I.
  assert (X : forall c, (List.length c = List.length b) -> nth i (firstn n (skipn off c)) 0%Z = nth (off + i) c 0%Z).
  { intros c LC. rewrite <- (firstn_skipn n (skipn off c)) at 1. clear - I LC L.
    assert (Y : nth i (skipn off c) 0%Z = nth (off + i) c 0%Z).
    { rewrite <- (firstn_skipn off c) at 2. rewrite app_nth2 by (rewrite firstn_length; lia). f_equal. rewrite firstn_length. lia. }
    rewrite <- Y. rewrite (firstn_skipn n (skipn off c)). rewrite <- (firstn_skipn n (skipn off c)) at 2.
    rewrite app_nth1 by (rewrite firstn_length, skipn_length; lia). reflexivity. }
  rewrite !X by lia. apply H. lia.
Qed.

Lemma read_write_other : forall b off v o n, (off + List.length v <= List.length b)%nat ->
  (o + n <= off \/ off + List.length v <= o)%nat -> read_bytes (write_bytes b off v) o n = read_bytes b o n.
Proof.
  intros b off v o n H D. apply read_ext; [now apply write_length|]. intros i I. apply nth_write_other; [exact H|lia].
Qed.

(** ** Layout *)

Lemma sizes_app : forall a b, sizes (a ++ b) = (sizes a + sizes b)%nat.
Proof. induction a as [|m a IH]; intros b; cbn [app sizes]; [reflexivity|]. rewrite IH. lia. Qed.

Lemma sizes_split : forall ms k m, nth_error ms k = Some m -> (sizes (firstn k ms) + size_of m + sizes (skipn (S k) ms) = sizes ms)%nat.
Proof.
  induction ms as [|x ms IH]; intros [|k] m E; try discriminate.
  - injection E as ->. cbn [firstn skipn sizes]. lia.
  - cbn [nth_error] in E. specialize (IH _ _ E). cbn [firstn sizes]. change (skipn (S (S k)) (x :: ms)) with (skipn (S k) ms). lia.
Qed.

Lemma sizes_before : forall ms j k m, nth_error ms j = Some m -> (j < k)%nat -> (sizes (firstn j ms) + size_of m <= sizes (firstn k ms))%nat.
Proof.
  induction ms as [|x ms IH]; intros [|j] [|k] m E L; try discriminate; try lia.
  - injection E as ->. cbn [firstn sizes]. lia.
  - cbn [nth_error] in E. cbn [firstn sizes]. specialize (IH j k m E). lia.
Qed.

Lemma flag_room : forall ms k m, nth_error ms k = Some m -> m_nonempty m = false -> (Nat.div k 8 < init_bytes ms)%nat.
Proof.
  intros ms k m E N. unfold init_bytes. destruct (forallb m_nonempty ms) eqn:F.
  - exfalso. rewrite forallb_forall in F. rewrite (F m) in N; [discriminate|]. now apply nth_error_In in E.
  - assert (L : (k < List.length ms)%nat) by (apply nth_error_Some; congruence). clear - L.
    assert (A := Nat.div_mod k 8). assert (B := Nat.mod_upper_bound k 8). apply Nat.div_lt_upper_bound; [lia|].
    assert (C := Nat.div_mod (List.length ms + 7) 8). assert (D := Nat.mod_upper_bound (List.length ms + 7) 8). lia.
Qed.

(** ** Cells: what there is of one member *)

Definition wf (ms : list member) (o : object) : Prop :=
  List.length (o_bytes o) = bytecount ms /\ List.length (o_built o) = List.length ms.

Definition cell (ms : list member) (o : object) (k : nat) : bool * bool * list Z :=
  (is_built o k, check_flag ms o k,
   match nth_error ms k with Some m => read_bytes (o_bytes o) (offset ms k) (size_of m) | None => nil end).

Definition slot_is (c : bool * bool * list Z) (x : option value) : Prop :=
  match x with Some v => c = (true, true, v) | None => fst c = (false, false) end.

(** Only member [k] is different. *)
Definition only (ms : list member) (k : nat) (o o' : object) : Prop :=
  wf ms o' /\ forall j, (j < List.length ms)%nat -> j <> k -> cell ms o' j = cell ms o j.

Lemma only_trans : forall ms k a b c, only ms k a b -> only ms k b c -> only ms k a c.
Proof. intros ms k a b c (W & A) (W' & B). split; [exact W'|]. intros j L N. now rewrite B, A. Qed.
Lemma only_refl : forall ms k a, wf ms a -> only ms k a a.
Proof. intros ms k a W. now split. Qed.

Lemma nth_insert : forall (l : list bool) k x j, (k < List.length l)%nat ->
  nth j (firstn k l ++ x :: skipn (S k) l) false = if Nat.eqb j k then x else nth j l false.
Proof.
  intros l k x j L. destruct (Nat.eqb_spec j k) as [->|N].
  - rewrite app_nth2 by (rewrite firstn_length; lia). rewrite firstn_length, Nat.min_l by lia. now rewrite Nat.sub_diag.
  - destruct (Nat.lt_ge_cases j k).
    + rewrite app_nth1 by (rewrite firstn_length; lia). rewrite <- (firstn_skipn k l) at 2. rewrite app_nth1 by (rewrite firstn_length; lia). reflexivity.
    + rewrite app_nth2 by (rewrite firstn_length; lia). rewrite firstn_length, Nat.min_l by lia.
      rewrite <- (firstn_skipn (S k) l) at 2. rewrite (app_nth2 (firstn (S k) l)) by (rewrite firstn_length; lia).
      rewrite firstn_length, Nat.min_l by lia. replace (j - k)%nat with (S (j - S k)) by lia. reflexivity.
Qed.

Lemma note_right : forall ms o k x, wf ms o -> (k < List.length ms)%nat ->
  only ms k o (note o k x) /\ cell ms (note o k x) k = (x, snd (fst (cell ms o k)), snd (cell ms o k)).
Proof.
  intros ms o k x (W1 & W2) L. unfold only, wf, cell, is_built, note. cbn [o_built o_bytes fst snd].
  split; [split; [split; [exact W1|]|]|].
  - rewrite app_length. cbn [List.length]. rewrite firstn_length, skipn_length. lia.
  - intros j LJ N. rewrite nth_insert by lia. apply Nat.eqb_neq in N. now rewrite N.
  - rewrite nth_insert by lia. now rewrite Nat.eqb_refl.
Qed.

Lemma check_flag_same : forall ms o o' k, (k < List.length ms)%nat ->
  (guaranteed ms k = false -> nth (Nat.div k 8) (o_bytes o') 0%Z = nth (Nat.div k 8) (o_bytes o) 0%Z) ->
  check_flag ms o' k = check_flag ms o k.
Proof. intros ms o o' k L H. unfold check_flag. destruct (guaranteed ms k); [reflexivity|]. now rewrite H. Qed.

Lemma guaranteed_false : forall ms k, (k < List.length ms)%nat -> guaranteed ms k = false ->
  exists m, nth_error ms k = Some m /\ m_nonempty m = false.
Proof.
  intros ms k L G. unfold guaranteed in G. destruct (nth_error ms k) as [m|] eqn:E; [eauto|]. apply nth_error_None in E. lia.
Qed.

Lemma store_right : forall ms o k m v, wf ms o -> nth_error ms k = Some m -> List.length v = size_of m ->
  only ms k o (store (offset ms k) v o) /\
  cell ms (store (offset ms k) v o) k = (fst (fst (cell ms o k)), snd (fst (cell ms o k)), v).
Proof.
  intros ms o k m v (W1 & W2) E LV. assert (SP := sizes_split _ _ _ E). unfold bytecount in W1.
  assert (IN : (offset ms k + List.length v <= List.length (o_bytes o))%nat) by (unfold offset; lia).
  assert (FL : forall j, (j < List.length ms)%nat -> check_flag ms (store (offset ms k) v o) j = check_flag ms o j).
  { intros j LJ. apply check_flag_same; [exact LJ|]. intros G. destruct (guaranteed_false _ _ LJ G) as (mj & EJ & NJ).
    cbn [store o_bytes]. apply nth_write_other; [exact IN|]. left. assert (R := flag_room _ _ _ EJ NJ). unfold offset. lia. }
  split; [split|].
  - split; cbn [store o_bytes o_built]; [|exact W2]. rewrite write_length by exact IN. exact W1.
  - intros j LJ N. unfold cell. rewrite FL by exact LJ. cbn [fst snd]. destruct (nth_error ms j) as [mj|] eqn:EJ; [|reflexivity].
    f_equal. cbn [store o_bytes]. apply read_write_other; [exact IN|]. unfold offset.
    destruct (Nat.lt_ge_cases j k) as [X|X].
    + assert (Y := sizes_before _ _ _ _ EJ X). lia.
    + assert (X' : (k < j)%nat) by lia. assert (Y := sizes_before _ _ _ _ E X'). lia.
  - assert (LK : (k < List.length ms)%nat) by (apply nth_error_Some; congruence).
    unfold cell at 1. rewrite FL by exact LK. rewrite E. cbn [store o_bytes]. rewrite <- LV, read_write_same by exact IN. reflexivity.
Qed.

(** Changing bits of the flags. *)
Lemma check_bit : forall ms o k, check_flag ms o k =
  if guaranteed ms k then true else Z.testbit (nth (Nat.div k 8) (o_bytes o) 0%Z) (Z.of_nat (Nat.modulo k 8)).
Proof.
  intros ms o k. unfold check_flag. destruct (guaranteed ms k); [reflexivity|]. unfold mask_of.
  set (x := nth (Nat.div k 8) (o_bytes o) 0%Z). set (i := Z.of_nat (Nat.modulo k 8)). assert (P : (0 <= i)%Z) by lia.
  destruct (Z.testbit x i) eqn:B.
  - destruct (Z.eqb_spec (Z.land x (Z.shiftl 1 i)) 0) as [Q|Q]; [|reflexivity]. exfalso.
    assert (R : Z.testbit (Z.land x (Z.shiftl 1 i)) i = true); [|now rewrite Q, Z.bits_0 in R].
    rewrite Z.land_spec, B. rewrite Z.shiftl_spec by exact P. now rewrite Z.sub_diag.
  - assert (Q : Z.land x (Z.shiftl 1 i) = 0%Z); [|now rewrite Q].
    apply Z.bits_inj'. intros n Pn. rewrite Z.land_spec, Z.bits_0, Z.shiftl_spec by exact Pn.
    destruct (Z.eq_dec n i) as [->|N]; [now rewrite B|]. assert (U : Z.testbit 1 (n - i) = false); [|now rewrite U, andb_false_r].
    destruct (Z.lt_ge_cases (n - i) 0); [now apply Z.testbit_neg_r|]. change 1%Z with (2 ^ 0)%Z. apply Z.pow2_bits_false. lia.
Qed.

Lemma mask_bit : forall k i, (0 <= i)%Z -> Z.testbit (mask_of k) i = Z.eqb i (Z.of_nat (Nat.modulo k 8)).
Proof.
  intros k i P. unfold mask_of. rewrite Z.shiftl_spec by exact P. destruct (Z.eqb_spec i (Z.of_nat (Nat.modulo k 8))) as [->|N].
  - now rewrite Z.sub_diag.
  - destruct (Z.lt_ge_cases (i - Z.of_nat (Nat.modulo k 8)) 0); [now apply Z.testbit_neg_r|].
    change 1%Z with (2 ^ 0)%Z. apply Z.pow2_bits_false. lia.
Qed.

(** A write of the byte of flag [k] whose bits are those of before but for bit [k]. *)
Lemma flag_write : forall ms o k m y b, wf ms o -> nth_error ms k = Some m -> m_nonempty m = false ->
  (forall i, (0 <= i < 8)%Z -> Z.testbit y i = if Z.eqb i (Z.of_nat (Nat.modulo k 8)) then b
                                               else Z.testbit (nth (Nat.div k 8) (o_bytes o) 0%Z) i) ->
  let o' := Object (write_bytes (o_bytes o) (Nat.div k 8) [y]) (o_built o) in
  only ms k o o' /\ cell ms o' k = (fst (fst (cell ms o k)), b, snd (cell ms o k)).
Proof.
  intros ms o k m y b (W1 & W2) E NE H o'. assert (LK : (k < List.length ms)%nat) by (apply nth_error_Some; congruence).
  assert (R := flag_room _ _ _ E NE). unfold bytecount in W1.
  assert (IN : (Nat.div k 8 + List.length [y] <= List.length (o_bytes o))%nat) by (cbn [List.length]; lia).
  assert (GK : guaranteed ms k = false) by (unfold guaranteed; now rewrite E).
  assert (RD : forall j mj, nth_error ms j = Some mj -> read_bytes (o_bytes o') (offset ms j) (size_of mj) = read_bytes (o_bytes o) (offset ms j) (size_of mj)).
  { intros j mj _. apply read_write_other; [exact IN|]. right. cbn [List.length]. unfold offset. lia. }
  assert (FL : forall j, (j < List.length ms)%nat -> check_flag ms o' j = if Nat.eqb j k then b else check_flag ms o j).
  { intros j LJ. rewrite !check_bit. destruct (Nat.eqb_spec j k) as [->|N].
    - rewrite GK. cbn [o' o_bytes]. rewrite nth_write_same by (cbn [List.length] in IN; lia). rewrite H, Z.eqb_refl; [reflexivity|].
      assert (X := Nat.mod_upper_bound k 8). lia.
    - destruct (guaranteed ms j); [reflexivity|]. destruct (Nat.eq_dec (Nat.div j 8) (Nat.div k 8)) as [Q|Q].
      + rewrite Q. cbn [o' o_bytes]. rewrite nth_write_same by (cbn [List.length] in IN; lia).
        assert (X := Nat.mod_upper_bound j 8). rewrite H by lia.
        assert (Y := Nat.div_mod j 8). assert (Y' := Nat.div_mod k 8).
        destruct (Z.eqb_spec (Z.of_nat (Nat.modulo j 8)) (Z.of_nat (Nat.modulo k 8))) as [V|V]; [exfalso; lia|reflexivity].
      + cbn [o' o_bytes]. rewrite nth_write_other; [reflexivity|exact IN|]. cbn [List.length]. lia. }
  split; [split|].
  - split; cbn [o' o_bytes o_built]; [|exact W2]. now rewrite write_length.
  - intros j LJ N. unfold cell. rewrite FL by exact LJ. assert (X := N). apply Nat.eqb_neq in X. rewrite X. f_equal.
    destruct (nth_error ms j) as [mj|] eqn:EJ; [|reflexivity]. now apply RD.
  - unfold cell. rewrite FL by exact LK. rewrite Nat.eqb_refl, E. cbn [fst snd]. now rewrite RD by exact E.
Qed.

Lemma set_flag_right : forall ms o k, wf ms o -> (k < List.length ms)%nat ->
  only ms k o (set_flag ms o k) /\ cell ms (set_flag ms o k) k = (fst (fst (cell ms o k)), true, snd (cell ms o k)).
Proof.
  intros ms o k W L. unfold set_flag. destruct (guaranteed ms k) eqn:G.
  - split; [now apply only_refl|]. unfold cell. cbn [fst snd]. now rewrite check_bit, G.
  - destruct (guaranteed_false _ _ L G) as (m & E & N). apply (flag_write ms o k m); auto.
    intros i B. rewrite Z.lor_spec, mask_bit by lia. destruct (Z.eqb i _); [apply orb_true_r|apply orb_false_r].
Qed.

Lemma clear_flag_right : forall ms o k, wf ms o -> (k < List.length ms)%nat ->
  only ms k o (clear_flag ms o k) /\ cell ms (clear_flag ms o k) k = (fst (fst (cell ms o k)), guaranteed ms k, snd (cell ms o k)).
Proof.
  intros ms o k W L. unfold clear_flag. destruct (guaranteed ms k) eqn:G.
  - split; [now apply only_refl|]. unfold cell. cbn [fst snd]. now rewrite check_bit, G.
  - destruct (guaranteed_false _ _ L G) as (m & E & N). apply (flag_write ms o k m); auto.
    intros i B. rewrite Z.land_spec, Z.lnot_spec, mask_bit by lia. destruct (Z.eqb i _); [apply andb_false_r|apply andb_true_r].
Qed.

(** Compiled code sees the same flags through any class that has the first of the members. *)
Definition prefix (A : view) (ms : list member) : Prop :=
  (exists more, ms = own A ++ more) /\ (final A = true -> own A = ms).

Lemma prefix_nth : forall A ms k, prefix A ms -> (k < List.length (own A))%nat -> nth_error (own A) k = nth_error ms k.
Proof. intros A ms k ((more & ->) & _) L. now rewrite nth_error_app1. Qed.
Lemma prefix_guaranteed : forall A ms k, prefix A ms -> (k < List.length (own A))%nat -> guaranteed (own A) k = guaranteed ms k.
Proof. intros A ms k P L. unfold guaranteed. now rewrite (prefix_nth A ms k P L). Qed.
Lemma prefix_offset : forall A ms k, prefix A ms -> (k < List.length (own A))%nat -> compiled_offset A ms k = offset ms k.
Proof.
  intros A ms k P L. unfold compiled_offset, offset. destruct P as ((more & E) & F).
  replace (if final A then init_bytes (own A) else init_bytes ms) with (init_bytes ms).
  - f_equal. rewrite E. rewrite firstn_app. replace (k - List.length (own A))%nat with O by lia. cbn [firstn]. now rewrite app_nil_r.
  - destruct (final A); [|reflexivity]. now rewrite F.
Qed.
Lemma prefix_check : forall A ms o k, prefix A ms -> (k < List.length (own A))%nat -> compiled_check A o k = check_flag ms o k.
Proof.
  intros A ms o k P L. rewrite check_bit. unfold compiled_check. rewrite (prefix_guaranteed A ms k P L).
  destruct (guaranteed ms k); [reflexivity|]. set (x := nth _ _ _). set (i := Z.of_nat _).
  change 1%Z with (Z.ones 1). rewrite Z.land_ones by lia. rewrite Z.pow_1_r.
  replace (Z.testbit x i) with (Z.odd (Z.shiftr x i)) by (rewrite Z.testbit_odd; reflexivity).
  rewrite Zmod_odd. destruct (Z.odd (Z.shiftr x i)); reflexivity.
Qed.
Lemma prefix_mark : forall A ms o k, prefix A ms -> (k < List.length (own A))%nat -> compiled_mark A o k = set_flag ms o k.
Proof. intros A ms o k P L. unfold compiled_mark, set_flag. now rewrite (prefix_guaranteed A ms k P L). Qed.
Lemma prefix_clear : forall A ms o k, prefix A ms -> (k < List.length (own A))%nat -> wf ms o ->
  only ms k o (compiled_clear A o k) /\ cell ms (compiled_clear A o k) k = (fst (fst (cell ms o k)), guaranteed ms k, snd (cell ms o k)).
Proof.
  intros A ms o k P L W. assert (LM : (k < List.length ms)%nat).
  { destruct P as ((more & ->) & _). rewrite app_length. lia. }
  unfold compiled_clear. rewrite (prefix_guaranteed A ms k P L). destruct (guaranteed ms k) eqn:G.
  - split; [now apply only_refl|]. unfold cell. cbn [fst snd]. now rewrite check_bit, G.
  - destruct (guaranteed_false _ _ LM G) as (m & E & N). apply (flag_write ms o k m); auto.
    intros i B. rewrite Z.land_spec. replace (255 - mask_of k)%Z with (Z.lxor 255 (mask_of k)).
    + rewrite Z.lxor_spec, mask_bit by lia. replace (Z.testbit 255 i) with true.
      * destruct (Z.eqb i _); cbn [xorb]; [apply andb_false_r|apply andb_true_r].
      * assert (C : i = 0%Z \/ i = 1%Z \/ i = 2%Z \/ i = 3%Z \/ i = 4%Z \/ i = 5%Z \/ i = 6%Z \/ i = 7%Z) by lia.
        repeat (destruct C as [-> | C]; [reflexivity|]). now subst i.
    + unfold mask_of. assert (X := Nat.mod_upper_bound k 8).
      assert (C : (k mod 8 = 0 \/ k mod 8 = 1 \/ k mod 8 = 2 \/ k mod 8 = 3 \/ k mod 8 = 4 \/ k mod 8 = 5 \/ k mod 8 = 6 \/ k mod 8 = 7)%nat) by lia.
      repeat (destruct C as [-> | C]; [reflexivity|]). now rewrite C.
Qed.
Lemma prefix_self : forall ms f, prefix (View ms f) ms.
Proof. intros ms f. split; [exists nil; now rewrite app_nil_r|reflexivity]. Qed.

(** ** Steps on one member *)

Section Steps.
  Variables (ms : list member) (o : object) (k : nat) (m : member).
  Hypothesis W : wf ms o.
  Hypothesis E : nth_error ms k = Some m.
  Let L : (k < List.length ms)%nat.
  Proof. apply nth_error_Some. congruence. Qed.

  Lemma construct_right : forall v, List.length v = size_of m -> fst (fst (cell ms o k)) = false ->
    exists o', construct (offset ms k) k v o = Gives o' /\ only ms k o o' /\ cell ms o' k = (true, snd (fst (cell ms o k)), v).
  Proof.
    intros v LV B. unfold construct. cbn [cell fst] in B. rewrite B. eexists. split; [reflexivity|].
    destruct (store_right ms o k m v W E LV) as (O1 & C1).
    destruct (note_right ms (store (offset ms k) v o) k true (proj1 O1) L) as (O2 & C2).
    split; [eapply only_trans; eauto|]. rewrite C2, C1. reflexivity.
  Qed.

  Lemma assign_right : forall v, List.length v = size_of m -> fst (fst (cell ms o k)) = true ->
    exists o', assign_slot (offset ms k) k v o = Gives o' /\ only ms k o o' /\ cell ms o' k = (true, snd (fst (cell ms o k)), v).
  Proof.
    intros v LV B. unfold assign_slot. assert (B' := B). cbn [cell fst] in B'. rewrite B'. eexists. split; [reflexivity|].
    destruct (store_right ms o k m v W E LV) as (O1 & C1). split; [exact O1|]. rewrite C1, B. reflexivity.
  Qed.

  Lemma destroy_right : fst (fst (cell ms o k)) = true ->
    exists o', destroy_slot k o = Gives o' /\ only ms k o o' /\ cell ms o' k = (false, snd (fst (cell ms o k)), snd (cell ms o k)).
  Proof.
    intros B. unfold destroy_slot. cbn [cell fst] in B. rewrite B. eexists. split; [reflexivity|].
    exact (note_right ms o k false W L).
  Qed.

  Lemma read_right : forall v, cell ms o k = (true, true, v) -> read_slot (offset ms k) (size_of m) k o = Gives v.
  Proof. intros v C. unfold cell in C. rewrite E in C. unfold read_slot. injection C as -> _ ->. reflexivity. Qed.

  Lemma check_cell : check_flag ms o k = snd (fst (cell ms o k)).
  Proof. reflexivity. Qed.

  (** Constructing and setting the flag. *)
  Lemma fill_right : forall v, List.length v = size_of m -> fst (fst (cell ms o k)) = false ->
    exists o', (x <~ construct (offset ms k) k v o ; Gives (set_flag ms x k)) = Gives o' /\ only ms k o o' /\ cell ms o' k = (true, true, v).
  Proof.
    intros v LV B. destruct (construct_right v LV B) as (o1 & E1 & O1 & C1). rewrite E1. cbn [andthen]. eexists. split; [reflexivity|].
    destruct (set_flag_right ms o1 k (proj1 O1) L) as (O2 & C2). split; [eapply only_trans; eauto|]. now rewrite C2, C1.
  Qed.

  Lemma set_at_right : forall v x, List.length v = size_of m -> slot_is (cell ms o k) x ->
    exists o', set_at ms k v o = Gives o' /\ only ms k o o' /\ slot_is (cell ms o' k) (Some v).
  Proof.
    intros v x LV S. unfold set_at. rewrite check_cell. destruct x as [u|]; cbn [slot_is] in *.
    - destruct (assign_right v LV) as (o1 & E1 & O1 & C1); [now rewrite S|]. rewrite S in *. cbn [fst snd] in *. exists o1. auto.
    - destruct (cell ms o k) as ((bt & fl) & bs) eqn:C. cbn [fst snd] in *. injection S as -> ->.
      destruct (fill_right v LV) as (o1 & E1 & O1 & C1); [now rewrite C|]. exists o1. auto.
  Qed.

  Lemma nonempty_has : forall x, m_nonempty m = true -> slot_is (cell ms o k) x -> x <> None.
  Proof.
    intros x N S ->. cbn [slot_is] in S. unfold cell in S. cbn [fst] in S. rewrite check_bit in S. unfold guaranteed in S.
    rewrite E, N in S. discriminate.
  Qed.

  Lemma del_at_right : forall x, slot_is (cell ms o k) (Some x) -> m_nonempty m = false ->
    exists o', del_at ms k o = Gives o' /\ only ms k o o' /\ slot_is (cell ms o' k) None.
  Proof.
    intros x S N. cbn [slot_is] in S. unfold del_at. rewrite check_cell, S. cbn [fst snd].
    destruct destroy_right as (o1 & E1 & O1 & C1); [now rewrite S|]. rewrite E1. cbn [andthen]. eexists. split; [reflexivity|].
    destruct (clear_flag_right ms o1 k (proj1 O1) L) as (O2 & C2). split; [eapply only_trans; eauto|].
    cbn [slot_is]. rewrite C2, C1. cbn [fst snd]. unfold guaranteed. now rewrite E, N.
  Qed.
End Steps.

(** ** Loops *)

Fixpoint all {A} (l : list (outcome A)) : outcome (list A) :=
  match l with
  | nil => Gives nil
  | x :: r => a <~ x ; b <~ all r ; Gives (a :: b)
  end.

Lemma each_right : forall ms B (P : nat -> bool * bool * list Z -> Prop) (Q : B -> bool * bool * list Z -> Prop)
    f (g : nat -> outcome B) ks o,
  NoDup ks -> (forall k, In k ks -> (k < List.length ms)%nat) -> wf ms o -> (forall k, In k ks -> P k (cell ms o k)) ->
  (forall k o, In k ks -> wf ms o -> P k (cell ms o k) ->
     match g k with
     | Gives x => exists o', f k o = Gives o' /\ only ms k o o' /\ Q x (cell ms o' k)
     | AttributeError => f k o = AttributeError
     | Raises e => f k o = Raises e
     end) ->
  match all (map g ks) with
  | Gives _ => exists o', each ks f o = Gives o' /\ wf ms o' /\
                 (forall k, In k ks -> exists x, g k = Gives x /\ Q x (cell ms o' k)) /\
                 (forall j, (j < List.length ms)%nat -> ~ In j ks -> cell ms o' j = cell ms o j)
  | AttributeError => each ks f o = AttributeError
  | Raises e => each ks f o = Raises e
  end.
Proof.
  intros ms B P Q f g ks. induction ks as [|k ks IH]; intros o ND LT W PRE STEP.
  - cbn [map all each]. exists o. split; [reflexivity|]. split; [exact W|]. split; [intros k []|auto].
  - cbn [map all each]. inversion ND as [|? ? NI ND']. subst.
    assert (S := STEP k o (or_introl eq_refl) W (PRE k (or_introl eq_refl))).
    destruct (g k) as [x| |e] eqn:G; cbn [andthen]; [|now rewrite S|now rewrite S].
    destruct S as (o1 & E1 & (W1 & O1) & S1). rewrite E1. cbn [andthen].
    assert (PRE1 : forall j, In j ks -> P j (cell ms o1 j)).
    { intros j I. rewrite O1; [apply PRE; now right|apply LT; now right|]. intros ->. contradiction. }
    specialize (IH o1 ND' (fun j I => LT j (or_intror I)) W1 PRE1 (fun j o I => STEP j o (or_intror I))).
    destruct (all (map g ks)) as [xs| |e]; cbn [andthen]; [|exact IH|exact IH].
    destruct IH as (o2 & E2 & W2 & S2 & F2). exists o2. split; [exact E2|]. split; [exact W2|]. split.
    + intros j [<-|I]; [|now apply S2]. exists x. split; [exact G|]. rewrite F2; [exact S1|apply LT; now left|exact NI].
    + intros j LJ NJ. rewrite F2; [|exact LJ|intros I; apply NJ; now right]. apply O1; [exact LJ|]. intros ->. apply NJ. now left.
Qed.

Lemma all_gives : forall A (l : list (outcome A)), (forall x, In x l -> exists a, x = Gives a) -> exists xs, all l = Gives xs.
Proof.
  intros A l. induction l as [|x l IH]; intros H; cbn [all]; [eauto|].
  destruct (H x (or_introl eq_refl)) as (a & ->). cbn [andthen]. destruct IH as (xs & ->); [intros y I; apply H; now right|]. cbn [andthen]. eauto.
Qed.
