(** The probe sequence visits every position of the table. *)
From Verif Require Import Base PyList PyList_Proofs Hash_Model.
From Coq Require Import ZifyBool ZifyNat Znumtheory Zpow_facts.
Open Scope Z_scope.
Open Scope result_scope.

(** ** [x -> 5x + 1] modulo a power of two has full period *)

(** [five n] is [(5^n - 1) / 4]. *)
Fixpoint five (n : nat) : Z := match n with O => 0 | S n => 5 * five n + 1 end.

Lemma five_pow n : 4 * five n + 1 = 5 ^ Z.of_nat n.
Proof.
  induction n as [|n IH]; [reflexivity|].
  rewrite Nat2Z.inj_succ, Z.pow_succ_r by lia. rewrite <- IH. cbn [five]. ring.
Qed.

Lemma five_double m : five (m + m) = five m * (5 ^ Z.of_nat m + 1).
Proof.
  assert (4 * five (m + m) + 1 = (4 * five m + 1) * (4 * five m + 1)).
  { rewrite five_pow, five_pow, <- Z.pow_add_r by lia. f_equal. lia. }
  rewrite <- five_pow. lia.
Qed.

Lemma five_parity n : five n mod 2 = Z.of_nat n mod 2.
Proof.
  induction n as [|n IH]; [reflexivity|]. cbn [five]. rewrite Nat2Z.inj_succ.
  replace (5 * five n + 1) with (five n + 1 + (2 * five n) * 2) by ring.
  rewrite Z.mod_add by lia. rewrite <- Z.add_mod_idemp_l, IH, Z.add_mod_idemp_l by lia. f_equal.
Qed.

Lemma odd_coprime_pow2 x k : 0 <= k -> x mod 2 = 1 -> rel_prime (2 ^ k) x.
Proof.
  intros Hk Hx. apply rel_prime_sym. apply rel_prime_Zpower_r; [lia|].
  apply rel_prime_sym. apply prime_rel_prime; [exact prime_2|].
  intros H. apply Z.mod_divide in H; lia.
Qed.

Lemma pow2_divides_five k : forall n, (2 ^ Z.of_nat k | five n) -> (2 ^ Z.of_nat k | Z.of_nat n).
Proof.
  induction k as [|k IH]; intros n H.
  - exists (Z.of_nat n). rewrite Z.mul_1_r. reflexivity.
  - rewrite Nat2Z.inj_succ, Z.pow_succ_r in * by lia.
    assert (Heven : Z.of_nat n mod 2 = 0).
    { rewrite <- five_parity. apply Z.mod_divide; [lia|].
      eapply Z.divide_trans; [|exact H]. exists (2 ^ Z.of_nat k). ring. }
    assert (exists m, n = m + m)%nat as [m ->].
    { exists (Z.to_nat (Z.of_nat n / 2)). lia. }
    rewrite five_double in H.
    set (q := five m) in *. assert (Hq : 4 * q + 1 = 5 ^ Z.of_nat m) by apply five_pow.
    replace (q * (5 ^ Z.of_nat m + 1)) with (2 * ((2 * q + 1) * q)) in H by (rewrite <- Hq; ring).
    apply Z.mul_divide_cancel_l in H; [|lia].
    assert (Hm : (2 ^ Z.of_nat k | five m)).
    { apply Gauss with (b := 2 * q + 1); [exact H|]. apply odd_coprime_pow2; lia. }
    apply IH in Hm. replace (Z.of_nat (m + m)) with (2 * Z.of_nat m) by lia.
    apply Z.mul_divide_mono_l; auto.
Qed.

(** ** The probe sequence *)

Definition state (h : Z) (n : nat) : Z * Z := Nat.iter n next_probe (wrap_u 64 h, wrap_u 64 h).

Definition pos (sz : nat) (h : Z) (n : nat) : nat := Z.to_nat (Z.land (fst (state h n)) (Z.of_nat sz - 1)).

Lemma state_succ h n : state h (S n) = next_probe (state h n).
Proof. reflexivity. Qed.

Lemma perturb_value h n : snd (state h n) = wrap_u 64 h / 32 ^ Z.of_nat n.
Proof.
  induction n as [|n IH]; [now rewrite Z.div_1_r|].
  rewrite state_succ. destruct (state h n) as [o p]. cbn [next_probe snd] in *.
  rewrite Z.shiftr_div_pow2 by (unfold PERTURB_SHIFT; lia). rewrite IH.
  change (2 ^ PERTURB_SHIFT) with 32. rewrite Nat2Z.inj_succ, Z.pow_succ_r by lia.
  rewrite Z.div_div by (try apply Z.pow_pos_nonneg; lia). f_equal. ring.
Qed.

Lemma perturb_zero h n : (13 <= n)%nat -> snd (state h n) = 0.
Proof.
  intros Hn. rewrite perturb_value. apply Z.div_small.
  assert (0 <= wrap_u 64 h < 2 ^ 64) by (apply Z.mod_pos_bound; lia).
  assert (32 ^ 13 <= 32 ^ Z.of_nat n) by (apply Z.pow_le_mono_r; lia). lia.
Qed.

Lemma offset_range h n : 0 <= fst (state h n) < 2 ^ 64.
Proof.
  destruct n as [|n]; [apply Z.mod_pos_bound; lia|].
  rewrite state_succ. destruct (state h n) as [o p]. apply Z.mod_pos_bound. lia.
Qed.

Lemma offset_step h n : (13 <= n)%nat -> fst (state h (S n)) = (5 * fst (state h n) + 1) mod 2 ^ 64.
Proof.
  intros Hn. rewrite state_succ. pose proof (perturb_zero h n Hn) as Hp.
  destruct (state h n) as [o p]. cbn [next_probe fst snd] in *. subst p.
  unfold wrap_u. f_equal. rewrite Z.shiftl_mul_pow2 by lia. ring.
Qed.

Lemma mod_mod_pow2 x k : 0 <= k <= 64 -> (x mod 2 ^ 64) mod 2 ^ k = x mod 2 ^ k.
Proof.
  intros Hk. symmetry. apply Zmod_div_mod; try (apply Z.pow_pos_nonneg; lia).
  exists (2 ^ (64 - k)). rewrite <- Z.pow_add_r by lia. f_equal. lia.
Qed.

Lemma offset_after h k j : 0 <= k <= 64 ->
  fst (state h (13 + j)) mod 2 ^ k = (5 ^ Z.of_nat j * fst (state h 13) + five j) mod 2 ^ k.
Proof.
  intros Hk. induction j as [|j IH].
  - rewrite Nat.add_0_r. cbn [five]. f_equal. change (Z.of_nat 0) with 0. rewrite Z.pow_0_r.
    generalize (fst (state h 13)). intros x. ring.
  - replace (13 + S j)%nat with (S (13 + j)) by lia.
    rewrite offset_step by lia. rewrite mod_mod_pow2 by lia.
    rewrite <- Z.add_mod_idemp_l, <- Z.mul_mod_idemp_r by (apply Z.pow_nonzero; lia).
    rewrite IH. rewrite Z.mul_mod_idemp_r, Z.add_mod_idemp_l by (apply Z.pow_nonzero; lia).
    f_equal. rewrite Nat2Z.inj_succ, Z.pow_succ_r by lia. cbn [five].
    generalize (fst (state h 13)). intros x. ring.
Qed.

Lemma same_mod_divides a b m : 0 < m -> a mod m = b mod m -> (m | a - b).
Proof.
  intros Hm H. apply Z.mod_divide; [lia|]. rewrite Zminus_mod, H, Z.sub_diag. apply Z.mod_0_l. lia.
Qed.

(** No two of the [2^k] positions after the thirteenth coincide. *)
Lemma offsets_distinct h k i j :
  (i < j)%nat -> Z.of_nat j - Z.of_nat i < 2 ^ Z.of_nat k -> Z.of_nat k <= 64 ->
  fst (state h (13 + i)) mod 2 ^ Z.of_nat k <> fst (state h (13 + j)) mod 2 ^ Z.of_nat k.
Proof.
  intros Hij Hd Hk E. rewrite !offset_after in E by lia.
  generalize dependent (fst (state h 13)). intros x E. set (m := 2 ^ Z.of_nat k) in *.
  assert (Hm : 0 < m) by (apply Z.pow_pos_nonneg; lia).
  apply same_mod_divides in E; [|exact Hm].
  assert (exists d, j = i + d /\ 0 < d)%nat as [d [-> Hd0]] by (exists (j - i)%nat; lia).
  assert (F : five (i + d) = 5 ^ Z.of_nat i * five d + five i).
  { pose proof (five_pow (i + d)) as H1. pose proof (five_pow i) as H2. pose proof (five_pow d) as H3.
    rewrite Nat2Z.inj_add, Z.pow_add_r in H1 by lia. rewrite <- H2, <- H3 in *.
    clear - H1. nia. }
  assert (E' : (m | 5 ^ Z.of_nat i * (five d * (4 * x + 1)))).
  { apply Z.divide_opp_r in E.
    replace (5 ^ Z.of_nat i * (five d * (4 * x + 1)))
      with (- (5 ^ Z.of_nat i * x + five i - (5 ^ Z.of_nat (i + d) * x + five (i + d)))); [exact E|].
    rewrite F. rewrite Nat2Z.inj_add, Z.pow_add_r by lia. rewrite <- (five_pow d). ring. }
  assert (O5 : 5 ^ Z.of_nat i mod 2 = 1).
  { rewrite <- five_pow. replace (4 * five i + 1) with (1 + (2 * five i) * 2) by ring.
    rewrite Z.mod_add by lia. reflexivity. }
  apply Gauss in E'; [|apply odd_coprime_pow2; lia].
  assert (E'' : (m | five d)).
  { apply Gauss with (b := 4 * x + 1); [now rewrite Z.mul_comm|].
    apply odd_coprime_pow2; [lia|]. replace (4 * x + 1) with (1 + (2 * x) * 2) by ring.
    rewrite Z.mod_add by lia. reflexivity. }
  apply pow2_divides_five in E''. apply Z.divide_pos_le in E''; lia.
Qed.

Lemma pos_mod k h n : (pos (2 ^ k) h n = Z.to_nat (fst (state h n) mod 2 ^ Z.of_nat k))%nat.
Proof.
  unfold pos. f_equal.
  replace (Z.of_nat (2 ^ k) - 1) with (Z.ones (Z.of_nat k)).
  - apply Z.land_ones. lia.
  - rewrite Z.ones_equiv, Nat2Z.inj_pow. change (Z.of_nat 2) with 2. lia.
Qed.

Lemma pos_lt k h n : (pos (2 ^ k) h n < 2 ^ k)%nat.
Proof.
  rewrite pos_mod. assert (0 < 2 ^ Z.of_nat k) by (apply Z.pow_pos_nonneg; lia).
  pose proof (Z.mod_pos_bound (fst (state h n)) (2 ^ Z.of_nat k) H).
  assert (Z.of_nat (2 ^ k) = 2 ^ Z.of_nat k) by (rewrite Nat2Z.inj_pow; reflexivity). lia.
Qed.

(** The probe sequence visits every position within [13 + size] steps. *)
Theorem probe_covers k h j : (k <= 64)%nat -> (j < 2 ^ k)%nat ->
  exists n, (n < 13 + 2 ^ k)%nat /\ pos (2 ^ k) h n = j.
Proof.
  intros Hk Hj.
  set (visited := map (fun i => pos (2 ^ k) h (13 + i)) (seq 0 (2 ^ k))).
  assert (Hz : Z.of_nat (2 ^ k) = 2 ^ Z.of_nat k) by (rewrite Nat2Z.inj_pow; reflexivity).
  assert (Hnd : NoDup visited).
  { unfold visited. apply NoDup_nth_error. intros a b Ha E.
    rewrite map_length, seq_length in Ha.
    assert (Hb : (b < 2 ^ k)%nat).
    { assert (nth_error (map (fun i => pos (2 ^ k) h (13 + i)) (seq 0 (2 ^ k))) b <> None).
      { rewrite <- E. apply nth_error_Some. now rewrite map_length, seq_length. }
      apply nth_error_Some in H. now rewrite map_length, seq_length in H. }
    rewrite !nth_error_map in E.
    rewrite (nth_error_nth' _ 0%nat) in E by now rewrite seq_length.
    rewrite (nth_error_nth' (seq 0 (2 ^ k)) 0%nat) in E by now rewrite seq_length.
    rewrite !seq_nth in E by assumption. rewrite !Nat.add_0_l in E. cbn [option_map] in E.
    assert (E1 : forall x y : nat, Some x = Some y -> x = y) by congruence. apply E1 in E. clear E1.
    rewrite !pos_mod in E.
    assert (0 < 2 ^ Z.of_nat k) by (apply Z.pow_pos_nonneg; lia).
    assert (E' : fst (state h (13 + a)) mod 2 ^ Z.of_nat k = fst (state h (13 + b)) mod 2 ^ Z.of_nat k).
    { apply Z2Nat.inj; [apply Z.mod_pos_bound; lia|apply Z.mod_pos_bound; lia|exact E]. }
    destruct (Nat.lt_trichotomy a b) as [L|[L|L]]; [exfalso|exact L|exfalso].
    - eapply (offsets_distinct h k a b); [exact L|lia|lia|exact E'].
    - eapply (offsets_distinct h k b a); [exact L|lia|lia|symmetry; exact E']. }
  assert (Hincl : incl (seq 0 (2 ^ k)) visited).
  { apply NoDup_length_incl; [exact Hnd|unfold visited; now rewrite map_length|].
    intros x Hx. unfold visited in Hx. apply in_map_iff in Hx. destruct Hx as [i [<- _]].
    apply in_seq. pose proof (pos_lt k h (13 + i)). lia. }
  assert (Hin : In j visited) by (apply Hincl, in_seq; lia).
  unfold visited in Hin. apply in_map_iff in Hin. destruct Hin as [i [E Hi]]. apply in_seq in Hi.
  exists (13 + i)%nat. split; [lia|exact E].
Qed.

(** ** The loop *)

Lemma probe_loop_from {A} mask (body : Z -> result (option A)) a h n : forall fuel i,
  (n < fuel)%nat ->
  (forall m, (i <= m < i + n)%nat -> body (Z.land (fst (state h m)) mask) = Ok None) ->
  body (Z.land (fst (state h (i + n))) mask) = Ok (Some a) ->
  probe_loop fuel mask body (state h i) = Ok a.
Proof.
  induction n as [|n IH]; intros [|fuel] i Hf Hnone Hsome; try lia.
  - cbn [probe_loop]. rewrite Nat.add_0_r in Hsome. rewrite Hsome. reflexivity.
  - cbn [probe_loop]. rewrite Hnone by lia. cbn [bind]. rewrite <- state_succ.
    apply IH; [lia| |].
    + intros m Hm. apply Hnone. lia.
    + replace (S i + n)%nat with (i + S n)%nat by lia. exact Hsome.
Qed.

(** The loop stops at the first position at which the body stops. *)
Lemma probe_first {A} ix h (body : Z -> result (option A)) a n :
  (n < 13 + length (slots ix))%nat -> (0 < length (slots ix))%nat ->
  (forall m, (m < n)%nat -> body (Z.of_nat (pos (length (slots ix)) h m)) = Ok None) ->
  body (Z.of_nat (pos (length (slots ix)) h n)) = Ok (Some a) ->
  probe ix h body = Ok a.
Proof.
  intros Hn Hpos Hnone Hsome. unfold probe.
  assert (P : forall m, Z.of_nat (pos (length (slots ix)) h m) = Z.land (fst (state h m)) (size ix - 1)).
  { intros m. unfold pos, size. rewrite Z2Nat.id; [reflexivity|].
    apply Z.land_nonneg. right. lia. }
  apply (probe_loop_from (size ix - 1) body a h n _ 0); [lia| |].
  - intros m Hm. rewrite <- P. apply Hnone. lia.
  - rewrite <- P. exact Hsome.
Qed.

(** A search that must end: the least [n] with a decidable property. *)
Lemma least_such (P : nat -> bool) n : P n = true ->
  exists m, (m <= n)%nat /\ P m = true /\ forall i, (i < m)%nat -> P i = false.
Proof.
  induction n as [n IH] using lt_wf_ind. intros Hn.
  destruct (existsb P (seq 0 n)) eqn:E.
  - apply existsb_exists in E. destruct E as [i [Hi Pi]]. apply in_seq in Hi.
    destruct (IH i) as [m [Hm H]]; [lia|exact Pi|]. exists m. split; [lia|exact H].
  - exists n. split; [lia|]. split; [exact Hn|]. intros i Hi. destruct (P i) eqn:Pi; [|reflexivity].
    exfalso. assert (existsb P (seq 0 n) = true); [|congruence].
    apply existsb_exists. exists i. split; [apply in_seq; lia|exact Pi].
Qed.
