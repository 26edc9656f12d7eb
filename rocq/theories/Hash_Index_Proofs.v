(** Invariant of the hash half of the table: adding, giving up and re-adding slots. *)
From Verif Require Import Base PyList PyList_Proofs Hash_Model Hash_Spec Hash_Probe_Proofs.
From Coq Require Import ZifyBool ZifyNat Permutation.
Open Scope Z_scope.
Open Scope result_scope.
Ltac Zify.zify_post_hook ::= Z.to_euclidean_division_equations.

Lemma Ok_eq {A} (x y : A) : Ok x = Ok y -> x = y.
Proof. congruence. Qed.

(** ** Arrays *)

Lemma rd_ok {A} (l : list A) j x : nth_error l j = Some x -> rd l (Z.of_nat j) = Ok x.
Proof. intros H. unfold rd. destruct (Z.of_nat j <? 0) eqn:E; [lia|]. now rewrite Nat2Z.id, H. Qed.

Lemma rd_inv {A} (l : list A) i x : rd l i = Ok x -> 0 <= i /\ nth_error l (Z.to_nat i) = Some x.
Proof.
  unfold rd. destruct (i <? 0) eqn:E; [discriminate|].
  destruct (nth_error l (Z.to_nat i)) eqn:E2; [|discriminate].
  intros H; apply Ok_eq in H; subst. split; [lia|reflexivity].
Qed.

Lemma wr_ok {A} (l : list A) j x : (j < length l)%nat -> wr l (Z.of_nat j) x = Ok (replace_nth j x l).
Proof.
  intros H. unfold wr. destruct ((Z.of_nat j <? 0) || (Z.of_nat (length l) <=? Z.of_nat j)) eqn:E; [lia|].
  now rewrite Nat2Z.id.
Qed.

Lemma nth_error_lt {A} (l : list A) j x : nth_error l j = Some x -> (j < length l)%nat.
Proof. intros H. apply nth_error_Some. congruence. Qed.

Lemma nth_error_get {A} (l : list A) j : (j < length l)%nat -> exists x, nth_error l j = Some x.
Proof. intros H. apply nth_error_Some in H. destruct (nth_error l j); [eauto|congruence]. Qed.

Lemma nth_error_replace {A} n m (x : A) l :
  (n < length l)%nat -> nth_error (replace_nth n x l) m = if (n =? m)%nat then Some x else nth_error l m.
Proof.
  intros H. destruct (Nat.eqb_spec n m) as [->|E].
  - now apply nth_error_replace_same.
  - now apply nth_error_replace_other.
Qed.

Definition holds {A} (f : A -> bool) (l : list A) : nat := length (filter f l).

Lemma holds_replace {A} (f : A -> bool) l j x y : nth_error l j = Some y ->
  (holds f (replace_nth j x l) + Nat.b2n (f y) = holds f l + Nat.b2n (f x))%nat.
Proof.
  unfold holds. revert j. induction l as [|z l IH]; intros [|j] H; cbn in H; try discriminate.
  - injection H as ->. cbn [replace_nth filter]. destruct (f x), (f y); cbn [length Nat.b2n]; lia.
  - cbn [replace_nth filter]. specialize (IH j H). destruct (f z); cbn [length]; lia.
Qed.

Lemma holds_exists {A} (f : A -> bool) l : (0 < holds f l)%nat -> exists j x, nth_error l j = Some x /\ f x = true.
Proof.
  unfold holds. induction l as [|z l IH]; cbn [filter]; intros H; [cbn in H; lia|].
  destruct (f z) eqn:E; [exists 0%nat, z; auto|].
  destruct (IH H) as [j [x Hx]]. exists (S j), x. exact Hx.
Qed.

Lemma holds_repeat {A} (f : A -> bool) x n : holds f (repeat x n) = if f x then n else 0%nat.
Proof.
  unfold holds. induction n as [|n IH]; cbn [repeat filter]; [now destruct (f x)|].
  destruct (f x); cbn [length]; lia.
Qed.

Lemma nth_error_repeat_inv {A} (x : A) n j y : nth_error (repeat x n) j = Some y -> y = x.
Proof. intros H. apply nth_error_In in H. now apply repeat_spec in H. Qed.

(** ** Normalised hashes *)

Definition normal (h : Z) : Prop := h = - 2 ^ 31 \/ 0 <= h < 2 ^ 31.

Lemma norm_hash_normal h : - 2 ^ 31 <= h < 2 ^ 31 -> normal (norm_hash h).
Proof.
  intros H. unfold norm_hash, normal, wrap_s. change (2 ^ (32 - 1)) with 2147483648.
  change (2 ^ 32) with 4294967296. change (2 ^ 31) with 2147483648 in *.
  destruct (h <? 0) eqn:E; [|lia]. destruct (- h mod 4294967296 <? 2147483648) eqn:E2; lia.
Qed.

Lemma norm_hash_id h : normal h -> norm_hash h = h.
Proof.
  unfold norm_hash, normal, wrap_s. change (2 ^ (32 - 1)) with 2147483648.
  change (2 ^ 32) with 4294967296. change (2 ^ 31) with 2147483648.
  intros [->|H]; [reflexivity|]. destruct (h <? 0) eqn:E; [lia|reflexivity].
Qed.

(** ** The invariant *)

(** [index_ok ix hs]: the table holds exactly the item slots [s] with [hs s = Some h], under
    the normalised hash [h]; the probe sequence of [h] reaches [s] before any empty position. *)
Record index_ok (ix : index) (hs : Z -> option Z) : Prop := {
  ok_size : exists k, (3 <= k <= 30)%nat /\ length (slots ix) = (2 ^ k)%nat;
  ok_hashes : length (hashes ix) = length (slots ix);
  ok_cell : forall j s, nth_error (slots ix) j = Some s ->
    s = EMPTY \/ s = DELETED \/ (0 <= s /\ exists h, hs s = Some h /\ nth_error (hashes ix) j = Some h);
  ok_inj : forall i j s, 0 <= s -> nth_error (slots ix) i = Some s -> nth_error (slots ix) j = Some s -> i = j;
  ok_reach : forall s h, hs s = Some h -> exists n,
    nth_error (slots ix) (pos (length (slots ix)) h n) = Some s /\
    forall m, (m < n)%nat -> nth_error (slots ix) (pos (length (slots ix)) h m) <> Some EMPTY;
  ok_slot : forall s h, hs s = Some h -> 0 <= s /\ normal h;
  ok_count : count ix = Z.of_nat (holds (fun s => 0 <=? s) (slots ix));
  ok_empties : empties ix = Z.of_nat (holds (fun s => s =? EMPTY) (slots ix));
  ok_free : size ix / 4 <= empties ix
}.

Lemma index_ok_ext ix hs hs' : (forall s, hs s = hs' s) -> index_ok ix hs -> index_ok ix hs'.
Proof.
  intros E [H1 H2 H3 H4 H5 H6 H7 H8 H9]. constructor; auto.
  - intros j s Hj. destruct (H3 j s Hj) as [|[|[? [h [? ?]]]]]; auto.
    right; right. split; [assumption|]. exists h. now rewrite <- E.
  - intros s h Hs. apply H5. now rewrite E.
  - intros s h Hs. apply H6 with (s := s). now rewrite E.
Qed.

Lemma size_at_least ix hs : index_ok ix hs -> 8 <= size ix.
Proof.
  intros H. destruct (ok_size _ _ H) as [k [Hk E]]. unfold size. rewrite E, Nat2Z.inj_pow.
  change (Z.of_nat 2) with 2. change 8 with (2 ^ 3). apply Z.pow_le_mono_r; lia.
Qed.

Lemma length_pos ix hs : index_ok ix hs -> (0 < length (slots ix))%nat.
Proof. intros H. pose proof (size_at_least _ _ H). unfold size in *. lia. Qed.

Lemma slots_nonempty {A} ix hs (a : A) (f : A) : index_ok ix hs -> match slots ix with [] => a | _ => f end = f.
Proof. intros H. pose proof (length_pos _ _ H). destruct (slots ix); [cbn in *; lia|reflexivity]. Qed.

Lemma covers ix hs h j : index_ok ix hs -> (j < length (slots ix))%nat ->
  exists n, (n < 13 + length (slots ix))%nat /\ pos (length (slots ix)) h n = j.
Proof.
  intros H Hj. destruct (ok_size _ _ H) as [k [Hk E]]. rewrite E in *. apply probe_covers; lia.
Qed.

Lemma pos_in ix hs h n : index_ok ix hs -> (pos (length (slots ix)) h n < length (slots ix))%nat.
Proof. intros H. destruct (ok_size _ _ H) as [k [Hk ->]]. apply pos_lt. Qed.

(** Every probe sequence meets an empty position. *)
Lemma meets_empty ix hs h : index_ok ix hs ->
  exists n, (n < 13 + length (slots ix))%nat /\ nth_error (slots ix) (pos (length (slots ix)) h n) = Some EMPTY.
Proof.
  intros H. pose proof (size_at_least _ _ H). pose proof (ok_free _ _ H). pose proof (ok_empties _ _ H).
  destruct (holds_exists (fun s => s =? EMPTY) (slots ix)) as [j [x [Hj Hx]]]; [lia|].
  assert (x = EMPTY) by lia. subst x.
  destruct (covers ix hs h j H) as [n [Hn <-]]; [eapply nth_error_lt, Hj|]. eauto.
Qed.

(** The first position of a probe sequence with a property that empty positions have. *)
Lemma first_stop ix hs h (stop : Z -> bool) : index_ok ix hs -> stop EMPTY = true ->
  exists n s, (n < 13 + length (slots ix))%nat /\
    nth_error (slots ix) (pos (length (slots ix)) h n) = Some s /\ stop s = true /\
    forall m, (m < n)%nat -> exists s', nth_error (slots ix) (pos (length (slots ix)) h m) = Some s' /\ stop s' = false.
Proof.
  intros H He. destruct (meets_empty ix hs h H) as [n [Hn HE]].
  set (P := fun n => match nth_error (slots ix) (pos (length (slots ix)) h n) with Some s => stop s | None => false end).
  destruct (least_such P n) as [m [Hm [Pm Hlt]]]; [unfold P; now rewrite HE|].
  unfold P in Pm. destruct (nth_error (slots ix) (pos (length (slots ix)) h m)) as [s|] eqn:Es; [|discriminate].
  exists m, s. split; [lia|]. split; [exact Es|]. split; [exact Pm|].
  intros i Hi. specialize (Hlt i Hi). unfold P in Hlt.
  destruct (nth_error_get (slots ix) (pos (length (slots ix)) h i)) as [s' Hs']; [eapply pos_in, H|].
  rewrite Hs' in *. eauto.
Qed.

Definition upd (hs : Z -> option Z) (s : Z) (o : option Z) : Z -> option Z :=
  fun s' => if s' =? s then o else hs s'.

Lemma not_live_value s : (s =? EMPTY) || (s =? DELETED) = false -> s <> EMPTY /\ s <> DELETED.
Proof. lia. Qed.

(** [needs_resize] is false: there is room for one more. *)
Lemma add_slot_ok ix hs h slot :
  index_ok ix hs -> hs slot = None -> 0 <= slot -> - 2 ^ 31 <= h < 2 ^ 31 -> size ix / 4 + 1 <= empties ix ->
  exists ix', add_slot h slot ix = Ok ix' /\ index_ok ix' (upd hs slot (Some (norm_hash h))) /\
    count ix' = count ix + 1 /\ size ix' = size ix /\ empties ix - 1 <= empties ix' <= empties ix.
Proof.
  intros H Hnone Hslot Hh Hroom. unfold add_slot. set (hn := norm_hash h).
  destruct (first_stop ix hs hn (fun s => (s =? EMPTY) || (s =? DELETED)) H eq_refl)
    as [n [old [Hn [Hold [Hstop Hbefore]]]]].
  set (p := pos (length (slots ix)) hn n) in *.
  assert (Hp : (p < length (slots ix))%nat) by (eapply pos_in, H).
  rewrite (probe_first ix hn _ (Z.of_nat p) n Hn (length_pos _ _ H)).
  2:{ intros m Hm. destruct (Hbefore m Hm) as [s' [E E2]]. rewrite (rd_ok _ _ _ E). cbn [bind]. now rewrite E2. }
  2:{ fold p. rewrite (rd_ok _ _ _ Hold). cbn [bind]. now rewrite Hstop. }
  cbn [bind]. rewrite (rd_ok _ _ _ Hold). cbn [bind].
  rewrite (wr_ok _ _ _ Hp). cbn [bind]. rewrite wr_ok by (rewrite (ok_hashes _ _ H); exact Hp). cbn [bind].
  eexists; split; [reflexivity|].
  assert (Hlen : length (replace_nth p slot (slots ix)) = length (slots ix)) by apply replace_nth_length.
  assert (Hph : (p < length (hashes ix))%nat) by (rewrite (ok_hashes _ _ H); exact Hp).
  pose proof (holds_replace (fun s => 0 <=? s) (slots ix) p slot old Hold) as HC.
  pose proof (holds_replace (fun s => s =? EMPTY) (slots ix) p slot old Hold) as HE.
  assert (Hol : (0 <=? old) = false) by (unfold EMPTY, DELETED in *; lia).
  assert (Hsl : (0 <=? slot) = true) by lia.
  assert (Hse : (slot =? EMPTY) = false) by (unfold EMPTY; lia).
  cbn beta in HC, HE. rewrite Hol, Hsl in HC. rewrite Hse in HE. cbn [Nat.b2n] in HC, HE.
  pose proof (ok_count _ _ H) as Hcount. pose proof (ok_empties _ _ H) as Hempties.
  cbn [count empties slots]. split; [|split; [reflexivity|split; [unfold size; cbn [slots]; lia|]]].
  2:{ destruct (old =? EMPTY) eqn:E; cbn [Nat.b2n] in HE; lia. }
  constructor; cbn [slots hashes count empties].
  - rewrite Hlen. apply (ok_size _ _ H).
  - rewrite !replace_nth_length. apply (ok_hashes _ _ H).
  - intros j s Hj. rewrite nth_error_replace in Hj by exact Hp.
    rewrite nth_error_replace by exact Hph.
    destruct (Nat.eqb_spec p j) as [Hpj|Hne].
    + injection Hj as <-. right; right. split; [exact Hslot|]. exists hn. unfold upd.
      rewrite Z.eqb_refl. auto.
    + destruct (ok_cell _ _ H j s Hj) as [|[|[Hs [h' [Hh' Hj']]]]]; auto.
      right; right. split; [exact Hs|]. exists h'. split; [|exact Hj'].
      unfold upd. destruct (Z.eqb_spec s slot); [congruence|exact Hh'].
  - intros i j s Hs Hi Hj. rewrite nth_error_replace in Hi, Hj by exact Hp.
    assert (Hnew : forall q, nth_error (slots ix) q = Some slot -> False).
    { intros q Hq. destruct (ok_cell _ _ H q slot Hq) as [|[|[_ [h' [Hh' _]]]]]; unfold EMPTY, DELETED in *; try lia.
      congruence. }
    destruct (Nat.eqb_spec p i) as [Hpi|Hi'], (Nat.eqb_spec p j) as [Hpj|Hj'].
    + congruence.
    + injection Hi as <-. exfalso. eauto.
    + injection Hj as <-. exfalso. eauto.
    + eapply (ok_inj _ _ H); eauto.
  - intros s h' Hs. rewrite Hlen. unfold upd in Hs. destruct (Z.eqb_spec s slot) as [->|Hne].
    + injection Hs as <-. exists n. rewrite nth_error_replace by exact Hp. fold p. rewrite Nat.eqb_refl.
      split; [reflexivity|]. intros m Hm. destruct (Hbefore m Hm) as [s' [E E2]].
      rewrite nth_error_replace by exact Hp. destruct (Nat.eqb_spec p (pos (length (slots ix)) hn m)).
      * intros E3. injection E3 as E3. unfold EMPTY in E3. lia.
      * rewrite E. intros E3. injection E3 as E3. lia.
    + destruct (ok_reach _ _ H s h' Hs) as [n' [Hn' Hpath]]. exists n'.
      split.
      * rewrite nth_error_replace by exact Hp.
        destruct (Nat.eqb_spec p (pos (length (slots ix)) h' n')) as [E|]; [|exact Hn'].
        rewrite <- E, Hold in Hn'. injection Hn' as ->. pose proof (ok_slot _ _ H s h' Hs). lia.
      * intros m Hm. rewrite nth_error_replace by exact Hp.
        destruct (Nat.eqb_spec p (pos (length (slots ix)) h' m)); [|now apply Hpath].
        intros E3. injection E3 as E3. unfold EMPTY in E3. lia.
  - intros s h' Hs. unfold upd in Hs. destruct (Z.eqb_spec s slot) as [->|Hne].
    + injection Hs as <-. split; [exact Hslot|]. now apply norm_hash_normal.
    + apply (ok_slot _ _ H s h' Hs).
  - lia.
  - destruct (old =? EMPTY) eqn:E; cbn [Nat.b2n] in HE; lia.
  - unfold size in *. cbn [slots]. rewrite Hlen. destruct (old =? EMPTY) eqn:E; cbn [Nat.b2n] in HE; lia.
Qed.

(** ** Picking a size *)

Lemma pick_loop_ok : forall fuel k min, (3 <= k)%nat -> (k + fuel = 30)%nat -> min <= 2 ^ 30 ->
  exists k', (k <= k' <= 30)%nat /\ pick_loop fuel (2 ^ Z.of_nat k) min = Ok (2 ^ Z.of_nat k') /\ min <= 2 ^ Z.of_nat k'.
Proof.
  induction fuel as [|fuel IH]; intros k min Hk E Hmin; cbn [pick_loop].
  - replace k with 30%nat by lia. destruct (2 ^ Z.of_nat 30 <? min) eqn:F; [lia|].
    exists 30%nat. split; [lia|]. split; [reflexivity|]. lia.
  - destruct (2 ^ Z.of_nat k <? min) eqn:F.
    + destruct (IH (S k) min) as [k' [Hk' [E1 E2]]]; [lia|lia|exact Hmin|].
      exists k'. split; [lia|]. split; [|exact E2]. rewrite <- E1. f_equal.
      rewrite Nat2Z.inj_succ, Z.pow_succ_r by lia. reflexivity.
    + exists k. split; [lia|]. split; [reflexivity|lia].
Qed.

Lemma pick_ok min : 0 <= min <= 2 ^ 30 ->
  exists k, (3 <= k <= 30)%nat /\ pick_hash_table_size min = Ok (2 ^ Z.of_nat k) /\ min <= 2 ^ Z.of_nat k.
Proof.
  intros H. unfold pick_hash_table_size.
  assert (E : wrap_s 32 min = min).
  { unfold wrap_s. change (2 ^ (32 - 1)) with 2147483648. change (2 ^ 32) with 4294967296.
    change (2 ^ 30) with 1073741824 in H. destruct (min mod 4294967296 <? 2147483648) eqn:E; lia. }
  rewrite E. apply (pick_loop_ok 27 3); lia.
Qed.

Lemma fresh_ok k : (3 <= k <= 30)%nat -> index_ok (fresh_index (2 ^ Z.of_nat k)) (fun _ => None).
Proof.
  intros Hk. unfold fresh_index.
  assert (E : Z.to_nat (2 ^ Z.of_nat k) = (2 ^ k)%nat).
  { apply Nat2Z.inj. rewrite Nat2Z.inj_pow, Z2Nat.id; [reflexivity|]. apply Z.pow_nonneg. lia. }
  assert (Hz : 2 ^ Z.of_nat k = Z.of_nat (2 ^ k)) by (rewrite Nat2Z.inj_pow; reflexivity).
  rewrite E. constructor; cbn [slots hashes count empties]; try discriminate.
  - exists k. rewrite repeat_length. auto.
  - now rewrite !repeat_length.
  - intros j s Hj. apply nth_error_repeat_inv in Hj. auto.
  - intros i j s Hs Hi. apply nth_error_repeat_inv in Hi. unfold EMPTY in Hi. lia.
  - rewrite holds_repeat. reflexivity.
  - rewrite holds_repeat. cbn [Z.eqb EMPTY]. change (EMPTY =? EMPTY) with true. cbn iota. exact Hz.
  - unfold size. cbn [slots]. rewrite repeat_length, Hz. lia.
Qed.

(** ** Resizing *)

Fixpoint assoc (l : list (Z * Z)) (s : Z) : option Z :=
  match l with
  | [] => None
  | (s', h) :: l => if s' =? s then Some h else assoc l s
  end.

Definition live_pairs (l : list (Z * Z)) : nat := holds (fun sh => 0 <=? fst sh) l.

(** The slots of [l] join those of [hs]. *)
Definition join (l : list (Z * Z)) (hs : Z -> option Z) : Z -> option Z :=
  fun s => if 0 <=? s then match assoc l s with Some h => Some h | None => hs s end else None.

Lemma readd_ok : forall l ix hs total,
  index_ok ix hs ->
  (forall s h, In (s, h) l -> s = EMPTY \/ s = DELETED \/ (0 <= s /\ hs s = None /\ normal h)) ->
  (forall i j s h h', 0 <= s -> nth_error l i = Some (s, h) -> nth_error l j = Some (s, h') -> i = j) ->
  4 * total <= size ix -> empties ix = size ix - count ix -> count ix + Z.of_nat (live_pairs l) = total ->
  exists ix', fold_result readd l ix = Ok ix' /\ index_ok ix' (join l hs) /\
    count ix' = total /\ size ix' = size ix /\ empties ix' = size ix' - total.
Proof.
  induction l as [|[s h] l IH]; intros ix hs total H Hl Hinj Hsz Hemp Htot.
  - exists ix. cbn [fold_result]. split; [reflexivity|]. unfold live_pairs, holds in Htot. cbn in Htot.
    split; [|lia]. eapply index_ok_ext; [|exact H]. intros s. unfold join. cbn [assoc].
    destruct (0 <=? s) eqn:E; [reflexivity|]. destruct (hs s) as [h|] eqn:F; [|reflexivity].
    pose proof (ok_slot _ _ H s h F). lia.
  - cbn [fold_result readd].
    assert (Hl' : forall s0 h0, In (s0, h0) l -> s0 = EMPTY \/ s0 = DELETED \/ (0 <= s0 /\ hs s0 = None /\ normal h0))
      by (intros; apply Hl; right; assumption).
    assert (Hinj' : forall i j s0 h0 h', 0 <= s0 -> nth_error l i = Some (s0, h0) -> nth_error l j = Some (s0, h') -> i = j).
    { intros i j s0 h0 h' H0 Hi Hj. apply Nat.succ_inj. eapply (Hinj (S i) (S j)); eauto. }
    unfold live_pairs, holds in Htot. cbn [filter fst] in Htot.
    destruct (Hl s h (or_introl eq_refl)) as [->|[->|[Hs [Hns Hnorm]]]].
    + destruct (IH ix hs total) as [ix' [E [Hok Hrest]]]; auto.
      exists ix'. split; [exact E|]. split; [|exact Hrest]. eapply index_ok_ext; [|exact Hok].
      intros s. unfold join. cbn [assoc]. destruct (0 <=? s) eqn:E0; [|reflexivity].
      destruct (EMPTY =? s) eqn:E1; [unfold EMPTY in *; lia|reflexivity].
    + destruct (IH ix hs total) as [ix' [E [Hok Hrest]]]; auto.
      exists ix'. split; [exact E|]. split; [|exact Hrest]. eapply index_ok_ext; [|exact Hok].
      intros s. unfold join. cbn [assoc]. destruct (0 <=? s) eqn:E0; [|reflexivity].
      destruct (DELETED =? s) eqn:E1; [unfold DELETED in *; lia|reflexivity].
    + assert (E0 : (0 <=? s) = true) by lia. rewrite E0 in Htot. cbn [length] in Htot.
      destruct ((s =? EMPTY) || (s =? DELETED)) eqn:E1; [unfold EMPTY, DELETED in *; lia|].
      pose proof (size_at_least _ _ H) as H8.
      pose proof (ok_count _ _ H) as Hcnt.
      destruct (needs_resize ix) eqn:E2; [unfold needs_resize in E2; lia|].
      assert (Hr : - 2 ^ 31 <= h < 2 ^ 31) by (unfold normal in Hnorm; lia).
      destruct (add_slot_ok ix hs h s H Hns Hs Hr) as [ix1 [E3 [Hok1 [Hc1 [Hs1 He1]]]]]; [lia|].
      rewrite E3. cbn [bind].
      assert (He2 : empties ix1 = size ix1 - count ix1).
      { (* the table has no deleted position, so an empty one was used *)
        pose proof (ok_count _ _ Hok1) as A1. pose proof (ok_empties _ _ Hok1) as A2.
        assert (A3 : forall L : list Z, (holds (fun s => (0 <=? s)%Z) L + holds (fun s => (s =? EMPTY)%Z) L <= length L)%nat).
        { clear. unfold holds, EMPTY. induction L as [|z L IHL]; cbn [filter length]; [lia|].
          destruct (0 <=? z) eqn:E, (z =? -1) eqn:E2; cbn [length]; lia. }
        specialize (A3 (slots ix1)). unfold size in *. lia. }
      destruct (IH ix1 (upd hs s (Some (norm_hash h))) total) as [ix' [E4 [Hok [Hc [Hsize He]]]]]; auto.
      * intros s0 h0 Hin. destruct (Hl' s0 h0 Hin) as [|[|[? [? ?]]]]; auto.
        right; right. split; [assumption|]. split; [|assumption]. unfold upd.
        destruct (Z.eqb_spec s0 s) as [->|]; [|assumption].
        apply In_nth_error in Hin. destruct Hin as [i Hi]. exfalso.
        assert (0 = S i)%nat; [|lia]. eapply (Hinj 0%nat (S i) s h h0); eauto.
      * lia.
      * unfold live_pairs, holds. lia.
      * exists ix'. split; [exact E4|]. split; [|lia]. eapply index_ok_ext; [|exact Hok].
        intros s0. unfold join, upd. cbn [assoc]. destruct (0 <=? s0) eqn:F0; [|reflexivity].
        rewrite (Z.eqb_sym s0 s).
        destruct (Z.eqb_spec s s0) as [->|].
        -- destruct (assoc l s0) as [h0|] eqn:F1.
           ++ exfalso. assert (exists i, nth_error l i = Some (s0, h0)) as [i Hi].
              { clear - F1. induction l as [|[s1 h1] l IHl]; cbn [assoc] in F1; [discriminate|].
                destruct (Z.eqb_spec s1 s0) as [->|].
                - injection F1 as ->. now exists 0%nat.
                - destruct (IHl F1) as [i Hi]. now exists (S i). }
              assert (0 = S i)%nat; [|lia]. eapply (Hinj 0%nat (S i) s0 h h0); eauto.
           ++ now rewrite norm_hash_id.
        -- reflexivity.
Qed.

Lemma nth_error_combine {A B} (a : list A) (b : list B) j x y :
  nth_error (combine a b) j = Some (x, y) <-> nth_error a j = Some x /\ nth_error b j = Some y.
Proof.
  revert b j. induction a as [|a0 a IH]; intros [|b0 b] [|j]; cbn.
  - split; [discriminate|intros [E _]; discriminate].
  - split; [discriminate|intros [E _]; discriminate].
  - split; [discriminate|intros [E _]; discriminate].
  - split; [discriminate|intros [E _]; discriminate].
  - split; [discriminate|intros [_ E]; discriminate].
  - split; [discriminate|intros [_ E]; destruct j; discriminate].
  - split; [intros [= -> ->]; auto|intros [[= ->] [= ->]]; auto].
  - apply IH.
Qed.

Lemma holds_combine (a b : list Z) : length b = length a ->
  live_pairs (combine a b) = holds (fun s => 0 <=? s) a.
Proof.
  unfold live_pairs, holds. revert b. induction a as [|x a IH]; intros [|y b] H; cbn in H; try discriminate; [reflexivity|].
  cbn [combine filter fst]. destruct (0 <=? x); cbn [length]; rewrite IH; auto.
Qed.

Lemma assoc_in l s h : assoc l s = Some h -> exists i, nth_error l i = Some (s, h).
Proof.
  induction l as [|[s1 h1] l IH]; cbn [assoc]; [discriminate|].
  destruct (Z.eqb_spec s1 s) as [->|]; [intros [= ->]; now exists 0%nat|].
  intros H. destruct (IH H) as [i Hi]. now exists (S i).
Qed.

Lemma assoc_none l s h i : nth_error l i = Some (s, h) -> assoc l s <> None.
Proof.
  revert i. induction l as [|[s1 h1] l IH]; intros [|i] H; cbn in H; try discriminate; cbn [assoc].
  - injection H as -> ->. now rewrite Z.eqb_refl.
  - destruct (s1 =? s); [discriminate|eauto].
Qed.

(** A table fit for resizing: a good one, or the null table. *)
Definition index_or_null (ix : index) (hs : Z -> option Z) : Prop :=
  index_ok ix hs \/ (slots ix = [] /\ hashes ix = [] /\ count ix = 0 /\ empties ix = 0 /\ forall s, hs s = None).

Lemma resize_ok ix hs : index_or_null ix hs -> count ix <= max_keys ->
  exists ix', resize_table ix = Ok ix' /\ index_ok ix' hs /\ count ix' = count ix /\
    4 * count ix <= size ix' /\ empties ix' = size ix' - count ix'.
Proof.
  intros H Hmax. unfold resize_table, max_keys in *.
  assert (Hc : 0 <= count ix) by (destruct H as [H|[_ [_ [H _]]]]; [rewrite (ok_count _ _ H); lia|lia]).
  destruct (pick_ok (count ix * 4)) as [k [Hk [Ek Hmin]]]; [change (2 ^ 30) with (2 ^ 28 * 4); lia|].
  rewrite Ek. cbn [bind].
  assert (Hf : size (fresh_index (2 ^ Z.of_nat k)) = 2 ^ Z.of_nat k).
  { unfold size, fresh_index. cbn [slots]. rewrite repeat_length, Z2Nat.id; [reflexivity|apply Z.pow_nonneg; lia]. }
  destruct (readd_ok (combine (slots ix) (hashes ix)) _ _ (count ix) (fresh_ok k Hk)) as [ix' [E [Hok [Hcnt [Hs He]]]]].
  - intros s h Hin. apply In_nth_error in Hin. destruct Hin as [j Hj]. apply nth_error_combine in Hj. destruct Hj as [Hj Hj'].
    destruct H as [H|[H _]]; [|rewrite H in Hj; destruct j; discriminate].
    destruct (ok_cell _ _ H j s Hj) as [|[|[Hs [h' [Hh' Hj'']]]]]; auto. right; right.
    rewrite Hj' in Hj''. injection Hj'' as ->. split; [exact Hs|]. split; [reflexivity|]. apply (ok_slot _ _ H s h' Hh').
  - intros i j s h h' Hs Hi Hj. apply nth_error_combine in Hi, Hj.
    destruct H as [H|[H _]]; [|destruct Hi as [Hi _]; rewrite H in Hi; destruct i; discriminate].
    eapply (ok_inj _ _ H); [exact Hs|apply Hi|apply Hj].
  - lia.
  - rewrite Hf. cbn [fresh_index empties count]. lia.
  - cbn [fresh_index count]. destruct H as [H|[Hs [Hh [Hc0 _]]]].
    + rewrite holds_combine by apply (ok_hashes _ _ H). rewrite (ok_count _ _ H). lia.
    + rewrite Hs. cbn. lia.
  - exists ix'. split; [exact E|]. split; [|split; [lia|split; [lia|lia]]].
    eapply index_ok_ext; [|exact Hok]. intros s. unfold join.
    destruct (0 <=? s) eqn:E0.
    + destruct H as [H|[Hs' [Hh [Hc0 [He0 Hn]]]]].
      * destruct (assoc (combine (slots ix) (hashes ix)) s) as [h|] eqn:Ea.
        -- destruct (assoc_in _ _ _ Ea) as [i Hi]. apply nth_error_combine in Hi. destruct Hi as [Hi Hi'].
           destruct (ok_cell _ _ H i s Hi) as [|[|[_ [h' [Hh' Hj']]]]]; unfold EMPTY, DELETED in *; try lia. congruence.
        -- destruct (hs s) as [h|] eqn:Eh; [|reflexivity]. exfalso.
           destruct (ok_reach _ _ H s h Eh) as [n [Hn _]].
           destruct (nth_error_get (hashes ix) (pos (length (slots ix)) h n)) as [h' Hh'].
           { rewrite (ok_hashes _ _ H). eapply pos_in, H. }
           eapply assoc_none; [|exact Ea]. apply nth_error_combine. eauto.
      * rewrite Hs', Hn. reflexivity.
    + destruct H as [H|[_ [_ [_ [_ Hn]]]]]; [|now rewrite Hn].
      destruct (hs s) as [h|] eqn:Eh; [|reflexivity]. pose proof (ok_slot _ _ H s h Eh). lia.
Qed.

(** ** Adding *)

Lemma add_ok ix hs h slot : index_or_null ix hs -> count ix <= max_keys -> hs slot = None -> 0 <= slot ->
  - 2 ^ 31 <= h < 2 ^ 31 ->
  exists ix', add h slot ix = Ok ix' /\ index_ok ix' (upd hs slot (Some (norm_hash h))) /\ count ix' = count ix + 1.
Proof.
  intros H Hmax Hs Hslot Hh. unfold add. destruct (needs_resize ix) eqn:E.
  - destruct (resize_ok ix hs H Hmax) as [ix1 [E1 [Hok1 [Hc1 [Hsz1 He1]]]]]. rewrite E1. cbn [bind].
    pose proof (size_at_least _ _ Hok1).
    destruct (add_slot_ok ix1 hs h slot Hok1 Hs Hslot Hh) as [ix2 [E2 [Hok2 [Hc2 _]]]]; [lia|].
    exists ix2. split; [exact E2|]. split; [exact Hok2|lia].
  - cbn [bind]. destruct H as [H|[Hs0 [Hh0 [Hc0 [He0 _]]]]].
    + destruct (add_slot_ok ix hs h slot H Hs Hslot Hh) as [ix2 [E2 [Hok2 [Hc2 _]]]].
      { unfold needs_resize in E. lia. }
      exists ix2. auto.
    + exfalso. unfold needs_resize, size in E. rewrite Hs0, Hc0 in E. cbn in E. discriminate.
Qed.

(** When the table is known to be big enough [add] does not resize. *)
Lemma add_no_resize ix hs h slot : index_ok ix hs -> needs_resize ix = false -> hs slot = None -> 0 <= slot ->
  - 2 ^ 31 <= h < 2 ^ 31 ->
  exists ix', add h slot ix = Ok ix' /\ index_ok ix' (upd hs slot (Some (norm_hash h))) /\ count ix' = count ix + 1 /\
    size ix' = size ix /\ empties ix - 1 <= empties ix'.
Proof.
  intros H E Hs Hslot Hh. unfold add. rewrite E. cbn [bind].
  destruct (add_slot_ok ix hs h slot H Hs Hslot Hh) as [ix2 [E2 [Hok2 [Hc2 [Hs2 He2]]]]].
  { unfold needs_resize in E. lia. }
  exists ix2. repeat (split; [assumption|]). lia.
Qed.

(** ** Giving up a slot *)

Lemma drop_ok ix hs p s : index_ok ix hs -> nth_error (slots ix) p = Some s -> 0 <= s ->
  index_ok (Index (replace_nth p DELETED (slots ix)) (replace_nth p (-1) (hashes ix)) (count ix - 1) (empties ix))
           (upd hs s None).
Proof.
  intros H Hp Hs.
  assert (Hpl : (p < length (slots ix))%nat) by (eapply nth_error_lt, Hp).
  assert (Hph : (p < length (hashes ix))%nat) by (rewrite (ok_hashes _ _ H); exact Hpl).
  assert (Hlen : length (replace_nth p DELETED (slots ix)) = length (slots ix)) by apply replace_nth_length.
  pose proof (holds_replace (fun s => 0 <=? s) (slots ix) p DELETED s Hp) as HC.
  pose proof (holds_replace (fun s => s =? EMPTY) (slots ix) p DELETED s Hp) as HE.
  cbn beta in HC, HE. replace (0 <=? s) with true in HC by lia. replace (s =? EMPTY) with false in HE by (unfold EMPTY; lia).
  change (0 <=? DELETED) with false in HC. change (DELETED =? EMPTY) with false in HE. cbn [Nat.b2n] in *.
  pose proof (ok_count _ _ H) as Hcount. pose proof (ok_empties _ _ H) as Hempties. pose proof (ok_free _ _ H) as Hfree.
  constructor; cbn [slots hashes count empties].
  - rewrite Hlen. apply (ok_size _ _ H).
  - rewrite !replace_nth_length. apply (ok_hashes _ _ H).
  - intros j s' Hj. rewrite nth_error_replace in Hj by exact Hpl. rewrite nth_error_replace by exact Hph.
    destruct (Nat.eqb_spec p j) as [->|Hne]; [injection Hj as <-; auto|].
    destruct (ok_cell _ _ H j s' Hj) as [|[|[Hs' [h' [Hh' Hj']]]]]; auto.
    right; right. split; [exact Hs'|]. exists h'. split; [|exact Hj'].
    unfold upd. destruct (Z.eqb_spec s' s) as [->|]; [|exact Hh'].
    exfalso. apply Hne. eapply (ok_inj _ _ H); eauto.
  - intros i j s' Hs' Hi Hj. rewrite nth_error_replace in Hi, Hj by exact Hpl.
    destruct (Nat.eqb_spec p i) as [Hpi|Hpi], (Nat.eqb_spec p j) as [Hpj|Hpj].
    + congruence.
    + injection Hi as <-. unfold DELETED in Hs'. lia.
    + injection Hj as <-. unfold DELETED in Hs'. lia.
    + eapply (ok_inj _ _ H); eauto.
  - intros s' h' Hh'. unfold upd in Hh'. destruct (Z.eqb_spec s' s) as [->|Hne]; [discriminate|].
    rewrite Hlen. destruct (ok_reach _ _ H s' h' Hh') as [n [Hn Hpath]]. exists n. split.
    + rewrite nth_error_replace by exact Hpl. destruct (Nat.eqb_spec p (pos (length (slots ix)) h' n)) as [E|]; [|exact Hn].
      rewrite <- E in Hn. congruence.
    + intros m Hm. rewrite nth_error_replace by exact Hpl.
      destruct (Nat.eqb_spec p (pos (length (slots ix)) h' m)); [|now apply Hpath].
      intros E. injection E as E. unfold DELETED, EMPTY in E. lia.
  - intros s' h' Hh'. unfold upd in Hh'. destruct (Z.eqb_spec s' s); [discriminate|]. apply (ok_slot _ _ H s' h' Hh').
  - lia.
  - lia.
  - unfold size in *. cbn [slots]. rewrite Hlen. lia.
Qed.

(** ** Renaming the item slots (compaction) *)

Lemma holds_map (f g : Z -> Z) (P Q : Z -> bool) l : (forall x, In x l -> Q (f x) = P x) -> holds Q (map f l) = holds P l.
Proof.
  unfold holds. induction l as [|x l IH]; intros H; [reflexivity|]. cbn [map filter].
  rewrite H by now left. specialize (IH (fun y Hy => H y (or_intror Hy))). destruct (P x); cbn [length]; lia.
Qed.

Lemma rename_ok ix hs hs' (f : Z -> Z) :
  index_ok ix hs ->
  (forall s, s < 0 -> f s = s) ->
  (forall s h, hs s = Some h -> 0 <= f s /\ hs' (f s) = Some h) ->
  (forall s s' h h', hs s = Some h -> hs s' = Some h' -> f s = f s' -> s = s') ->
  (forall s' h, hs' s' = Some h -> exists s, f s = s' /\ hs s = Some h) ->
  index_ok (Index (map f (slots ix)) (hashes ix) (count ix) (empties ix)) hs'.
Proof.
  intros H Hneg Hpos Hinj Hsurj.
  assert (Hval : forall x, In x (slots ix) -> (0 <= x /\ exists h, hs x = Some h) \/ (x < 0 /\ f x = x)).
  { intros x Hx. apply In_nth_error in Hx. destruct Hx as [j Hj].
    destruct (ok_cell _ _ H j x Hj) as [->|[->|[Hx [h [Hh _]]]]].
    - right. split; [unfold EMPTY; lia|apply Hneg; unfold EMPTY; lia].
    - right. split; [unfold DELETED; lia|apply Hneg; unfold DELETED; lia].
    - left. eauto. }
  assert (Hempty : forall x, In x (slots ix) -> (f x =? EMPTY) = (x =? EMPTY)).
  { intros x Hx. destruct (Hval x Hx) as [[Hx0 [h Hh]]|[Hx0 ->]]; [|reflexivity].
    destruct (Hpos x h Hh). unfold EMPTY. lia. }
  constructor; cbn [slots hashes count empties].
  - rewrite map_length. apply (ok_size _ _ H).
  - rewrite map_length. apply (ok_hashes _ _ H).
  - intros j s Hj. rewrite nth_error_map in Hj. destruct (nth_error (slots ix) j) as [x|] eqn:Ex; [|discriminate].
    cbn in Hj. injection Hj as <-.
    destruct (ok_cell _ _ H j x Ex) as [->|[->|[Hx [h [Hh Hj']]]]].
    + left. apply Hneg. unfold EMPTY; lia.
    + right; left. apply Hneg. unfold DELETED; lia.
    + right; right. destruct (Hpos x h Hh). split; [assumption|]. eauto.
  - intros i j s Hs Hi Hj. rewrite nth_error_map in Hi, Hj.
    destruct (nth_error (slots ix) i) as [x|] eqn:Ex; [|discriminate].
    destruct (nth_error (slots ix) j) as [y|] eqn:Ey; [|discriminate]. cbn in Hi, Hj.
    injection Hi as Hi. injection Hj as Hj.
    destruct (Hval x (nth_error_In _ _ Ex)) as [[Hx0 [h Hh]]|[Hx0 Hx1]]; [|lia].
    destruct (Hval y (nth_error_In _ _ Ey)) as [[Hy0 [h' Hh']]|[Hy0 Hy1]]; [|lia].
    assert (x = y) by (eapply Hinj; eauto; congruence). subst y.
    eapply (ok_inj _ _ H); eauto.
  - intros s' h Hh. rewrite map_length. destruct (Hsurj s' h Hh) as [s [<- Hs]].
    destruct (ok_reach _ _ H s h Hs) as [n [Hn Hpath]]. exists n. split.
    + rewrite nth_error_map, Hn. reflexivity.
    + intros m Hm. rewrite nth_error_map.
      destruct (nth_error (slots ix) (pos (length (slots ix)) h m)) as [x|] eqn:Ex; [|discriminate].
      cbn. intros E. injection E as E. apply (Hpath m Hm). rewrite Ex. f_equal.
      pose proof (Hempty x (nth_error_In _ _ Ex)). lia.
  - intros s' h Hh. destruct (Hsurj s' h Hh) as [s [<- Hs]]. split; [apply (Hpos s h Hs)|apply (ok_slot _ _ H s h Hs)].
  - rewrite (ok_count _ _ H). f_equal. symmetry. apply (holds_map f f).
    intros x Hx. destruct (Hval x Hx) as [[Hx0 [h Hh]]|[Hx0 ->]]; [|reflexivity]. destruct (Hpos x h Hh). lia.
  - rewrite (ok_empties _ _ H). f_equal. symmetry. apply (holds_map f f). exact Hempty.
  - unfold size. cbn [slots]. rewrite map_length. apply (ok_free _ _ H).
Qed.
