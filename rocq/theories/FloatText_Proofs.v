(** Proofs about the text of floats. *)
From Coq Require Import List ZArith Lia Bool ZifyBool ZifyNat.
From Verif Require Import Base Text_Model TextAsk_Model TextAsk_Spec Utf8_Model Utf8_Spec TextNum_Model TextNum_Spec TextNum_Proofs TextNum_Props FloatText_Model FloatText_Spec.
Import ListNotations.
Open Scope Z_scope.
Open Scope list_scope.
Local Opaque unit_.

Lemma unit_positive : 0 < unit_.
Proof. vm_compute. reflexivity. Qed.
Lemma ten_positive : forall k, 0 <= k -> 0 < 10 ^ k.
Proof. intros k K. now apply Z.pow_pos_nonneg. Qed.

(** ** Rounding *)

Lemma half_even_near : forall n d, 0 <= n -> 0 < d -> 2 * Z.abs (n - half_even n d * d) <= d /\ 0 <= half_even n d.
Proof.
  intros n d N D. unfold half_even. assert (E := Z.div_mod n d ltac:(lia)). assert (R := Z.mod_pos_bound n d D). assert (Q := Z.div_pos n d N D).
  remember (n / d) as q. remember (n mod d) as r. clear Heqq Heqr. subst n.
  destruct (2 * r <? d) eqn:E1; [split; [|lia]; replace (d * q + r - q * d) with r by ring; lia|].
  assert (X : Z.abs (d * q + r - (q + 1) * d) = d - r) by (replace (d * q + r - (q + 1) * d) with (r - d) by ring; lia).
  destruct (d <? 2 * r) eqn:E2; [rewrite X; lia|]. destruct (Z.even q); [|rewrite X; lia].
  split; [|lia]. replace (d * q + r - q * d) with r by ring. lia.
Qed.
Lemma half_even_ten : forall n d j, 0 < d -> 2 * Z.abs (n - 10 * j * d) <= d -> half_even n d = 10 * j.
Proof.
  intros n d j D H. unfold half_even. assert (E := Z.div_mod n d ltac:(lia)). assert (R := Z.mod_pos_bound n d D).
  remember (n / d) as q. remember (n mod d) as r. clear Heqq Heqr. subst n.
  assert (X : d * q + r - 10 * j * d = (q - 10 * j) * d + r) by ring. rewrite X in H. clear X.
  assert (Q : q = 10 * j \/ q = 10 * j - 1) by nia.
  destruct Q as [Q | Q]; rewrite Q in H.
  - replace ((10 * j - 10 * j) * d + r) with r in H by ring. replace (2 * r <? d) with (2 * r <? d) by reflexivity.
    destruct (2 * r <? d) eqn:E1; [exact Q|]. replace (d <? 2 * r) with false by lia. rewrite Q.
    replace (Z.even (10 * j)) with true; [reflexivity|]. symmetry. apply Z.even_spec. exists (5 * j). ring.
  - replace ((10 * j - 1 - 10 * j) * d + r) with (r - d) in H by ring. replace (2 * r <? d) with false by lia.
    destruct (d <? 2 * r) eqn:E2; [lia|]. destruct (Z.even q) eqn:EV; [|lia]. apply Z.even_spec in EV. destruct EV as (t & EV). lia.
Qed.
Lemma half_even_below : forall n d c, 0 <= n -> 0 < d -> n < c * d -> half_even n d <= c.
Proof. intros n d c N D H. destruct (half_even_near n d N D) as (A & B). nia. Qed.

(** ** Digits *)

Lemma number_app : forall a b, number (a ++ b) = number a * 10 ^ zlen b + number b.
Proof.
  intros a b. induction b as [|v b IH] using rev_ind; [rewrite app_nil_r; unfold zlen; cbn [length]; change (number nil) with 0; change (10 ^ Z.of_nat 0) with 1; lia|].
  rewrite app_assoc, !number_snoc, IH. unfold zlen. rewrite app_length. cbn [length]. replace (Z.of_nat (length b + 1)) with (Z.of_nat (length b) + 1) by lia.
  rewrite Z.pow_add_r by lia. lia.
Qed.
Lemma number_zeros : forall z, number (repeat 0 z) = 0.
Proof. induction z as [|z IH]; [reflexivity|]. change (S z) with (1 + z)%nat. rewrite Nat.add_comm, repeat_app. cbn [repeat]. rewrite number_snoc, IH. reflexivity. Qed.
Lemma padded_right : forall p n, 0 <= n -> exists us, padded p n = map (Z.add 48) us /\ length us = p /\ Forall (fun v => 0 <= v <= 9) us /\
  number us = n mod 10 ^ Z.of_nat p.
Proof.
  induction p as [|p IH]; intros n N.
  - exists nil. repeat split; auto. change (10 ^ Z.of_nat 0) with 1. now rewrite Z.mod_1_r.
  - cbn [padded]. destruct (IH (n / 10)) as (us & E & L & F & V); [apply Z.div_pos; lia|]. exists (us ++ [n mod 10]).
    assert (R := Z.mod_pos_bound n 10 ltac:(lia)). repeat split.
    + rewrite E, map_app. reflexivity.
    + rewrite app_length. cbn [length]. lia.
    + apply Forall_app. split; [exact F|]. constructor; [lia|constructor].
    + rewrite number_snoc, V. replace (Z.of_nat (S p)) with (1 + Z.of_nat p) by lia. rewrite Z.pow_add_r by lia. change (10 ^ 1) with 10.
      rewrite Z.rem_mul_r by (try apply Z.pow_nonzero; try apply Z.pow_pos_nonneg; lia). lia.
Qed.
(** Zeros at the end. *)
Lemma zeros_values : forall us kept z, map (Z.add 48) us = kept ++ repeat 48 z -> exists us', kept = map (Z.add 48) us' /\ us = us' ++ repeat 0 z.
Proof.
  intros us kept z E. apply map_eq_app in E. destruct E as (a & b & -> & <- & E). exists a. split; [reflexivity|]. f_equal. clear - E.
  revert b E. induction z as [|z IH]; intros [|v b] E; cbn [map repeat] in *; try discriminate; [reflexivity|].
  assert (E1 := f_equal (hd 0) E). assert (E2 := f_equal (@tl Z) E). cbn [hd tl] in E1, E2. f_equal; [lia|now apply IH].
Qed.

(** ** Nearness *)

Lemma separation : forall x y, double x -> double (Z.abs y) -> 0 < x -> y <> x -> x <= 2 ^ 53 * Z.abs (x - y).
Proof.
  intros x y (m & s & E & M & S0 & C) (m' & s' & E' & M' & S0' & C') P N.
  destruct (Z.le_gt_cases y 0) as [Y | Y]; [lia|]. rewrite Z.abs_eq in E' by lia.
  assert (A := Z.pow_pos_nonneg 2 s ltac:(lia) ltac:(lia)). assert (A' := Z.pow_pos_nonneg 2 s' ltac:(lia) ltac:(lia)).
  destruct (Z.le_gt_cases s s') as [L | L].
  - assert (B : exists k, x - y = k * 2 ^ s).
    { exists (m - m' * 2 ^ (s' - s)). rewrite E, E'. replace s' with ((s' - s) + s) at 1 by lia. rewrite Z.pow_add_r by lia. ring. }
    destruct B as (k & B). assert (k <> 0) by (intros ->; lia). rewrite B, Z.abs_mul, (Z.abs_eq (2 ^ s)) by lia. rewrite E.
    assert (1 <= Z.abs k) by lia. nia.
  - destruct (Z.lt_total y x) as [Z1 | [Z1 | Z1]]; [|congruence|].
    + rewrite Z.abs_eq by lia. destruct C as [-> | C]; [lia|].
      assert (B : 2 ^ s = 2 * 2 ^ (s - 1)) by (rewrite <- Z.pow_succ_r by lia; f_equal; lia).
      assert (B' : 2 ^ s' <= 2 ^ (s - 1)) by (apply Z.pow_le_mono_r; lia).
      remember (2 ^ (s - 1)) as h. remember (2 ^ s') as g. remember (2 ^ s) as f. clear Heqh Heqg Heqf.
      assert (Y1 : y <= (2 ^ 53 - 1) * h) by (rewrite E'; nia). clear E'. rewrite E, B.
      change (2 ^ 53) with 9007199254740992 in *. change (2 ^ 52) with 4503599627370496 in *. nia.
    + assert (B : exists k, y - x = k * 2 ^ s').
      { exists (m' - m * 2 ^ (s - s')). rewrite E, E'. replace s with ((s - s') + s') at 1 by lia. rewrite Z.pow_add_r by lia. ring. }
      destruct B as (k & B). assert (1 <= k) by nia. replace (x - y) with (- (y - x)) by ring. rewrite Z.abs_opp, Z.abs_eq by lia. rewrite B. nia.
Qed.

Lemma distance_scale : forall v e x K, 0 <= K -> 0 <= e + K -> distance v e x * 10 ^ (K - Z.max (- e) 0) = Z.abs (v * 10 ^ (e + K) * unit_ - x * 10 ^ K).
Proof.
  intros v e x K H1 H2. unfold distance. assert (T := ten_positive (K - Z.max (- e) 0) ltac:(lia)).
  rewrite <- (Z.abs_eq (10 ^ (K - Z.max (- e) 0))) by lia. rewrite <- Z.abs_mul, Z.mul_sub_distr_r. do 2 f_equal.
  - replace (e + K) with (Z.max e 0 + (K - Z.max (- e) 0)) by lia. rewrite Z.pow_add_r by lia. ring.
  - replace K with (Z.max (- e) 0 + (K - Z.max (- e) 0)) at 2 by lia. rewrite Z.pow_add_r by lia. ring.
Qed.

Lemma nearest : forall v e x K y, 0 <= K -> 0 <= e + K -> double x -> 0 <= x -> (x = 0 -> v = 0) ->
  2 * 10 ^ 16 * Z.abs (v * 10 ^ (e + K) * unit_ - x * 10 ^ K) <= x * 10 ^ K ->
  double (Z.abs y) -> y <> x -> distance v e x < distance v e y.
Proof.
  intros v e x K y H1 H2 D X X0 H DY N. assert (T := ten_positive (K - Z.max (- e) 0) ltac:(lia)). assert (TK := ten_positive K H1).
  apply (Z.mul_lt_mono_pos_r (10 ^ (K - Z.max (- e) 0))); [exact T|]. rewrite !distance_scale by auto.
  destruct (Z.eq_dec x 0) as [-> | NX].
  - rewrite (X0 eq_refl) in *. rewrite !Z.mul_0_l, Z.sub_diag. change (Z.abs 0) with 0. rewrite Z.sub_0_l, Z.abs_opp, Z.abs_mul. nia.
  - assert (S1 := separation x y D DY ltac:(lia) N). assert (S2 : x * 10 ^ K <= 2 ^ 53 * Z.abs (x * 10 ^ K - y * 10 ^ K)).
    { rewrite <- Z.mul_sub_distr_r, Z.abs_mul, (Z.abs_eq (10 ^ K)) by lia. nia. }
    assert (P : 0 < x * 10 ^ K) by nia.
    remember (x * 10 ^ K) as p. remember (y * 10 ^ K) as q. remember (v * 10 ^ (e + K) * unit_) as a. clear - H S2 P.
    change (2 ^ 53) with 9007199254740992 in *. change (10 ^ 16) with 10000000000000000 in *. lia.
Qed.

(** The same for numbers with a sign. *)
Lemma nearest_signed : forall neg ds e x K, 0 <= K -> 0 <= e + K -> double x -> 0 <= x -> (x = 0 -> value_of ds = 0) ->
  2 * 10 ^ 16 * Z.abs (value_of ds * 10 ^ (e + K) * unit_ - x * 10 ^ K) <= x * 10 ^ K -> reads_as (Finite neg ds e) neg x.
Proof.
  intros neg ds e x K H1 H2 D X X0 H. exists ds, e. split; [reflexivity|]. intros y DY N.
  assert (O : forall v z, distance (- v) e (- z) = distance v e z).
  { intros v z. unfold distance. rewrite <- Z.abs_opp. f_equal. ring. }
  destruct neg; cbn [with_sign] in *.
  - rewrite <- (Z.opp_involutive y). rewrite !O. apply (nearest _ _ _ K); auto; [now rewrite Z.abs_opp|lia].
  - now apply (nearest _ _ _ K).
Qed.

(** ** The choice of decimals *)

Lemma at_least_true : forall k a, at_least k a = true <-> 10 ^ Z.max k 0 * unit_ <= a * 10 ^ Z.max (- k) 0.
Proof. intros k a. unfold at_least. lia. Qed.

Local Opaque at_least.
Lemma decimals_right : forall a p, 0 < a -> decimals a = Some p -> (1 <= p <= 20)%nat /\ at_least (16 - Z.of_nat p) a = true /\ at_least (Z.max (17 - Z.of_nat p) 0) a = false.
Proof.
  intros a p A H. unfold decimals in H.
  assert (C1 : 3602879701896397 * 2 ^ 1019 <= a -> at_least (-1) a = true).
  { intros X. apply at_least_true. change (10 ^ Z.max (-1) 0) with 1. change (10 ^ Z.max (- -1) 0) with 10.
    assert (Y : unit_ <= 3602879701896397 * 2 ^ 1019 * 10) by (vm_compute; discriminate). nia. }
  assert (C2 : 5764607523034235 * 2 ^ 1015 <= a -> at_least (-2) a = true).
  { intros X. apply at_least_true. change (10 ^ Z.max (-2) 0) with 1. change (10 ^ Z.max (- -2) 0) with 100.
    assert (Y : unit_ <= 5764607523034235 * 2 ^ 1015 * 100) by (vm_compute; discriminate). nia. }
  assert (C3 : 1152921504606847 * 2 ^ 1014 <= a -> at_least (-3) a = true).
  { intros X. apply at_least_true. change (10 ^ Z.max (-3) 0) with 1. change (10 ^ Z.max (- -3) 0) with 1000.
    assert (Y : unit_ <= 1152921504606847 * 2 ^ 1014 * 1000) by (vm_compute; discriminate). nia. }
  assert (C4 : 7378697629483821 * 2 ^ 1008 <= a -> at_least (-4) a = true).
  { intros X. apply at_least_true. change (10 ^ Z.max (-4) 0) with 1. change (10 ^ Z.max (- -4) 0) with 10000.
    assert (Y : unit_ <= 7378697629483821 * 2 ^ 1008 * 10000) by (vm_compute; discriminate). nia. }
  assert (A0 : (a =? 0) = false) by lia. rewrite A0, orb_false_r in H. clear A A0.
  repeat match type of H with
  | (if at_least ?j a then _ else _) = _ => destruct (at_least j a) eqn:?
  | (if ?c <=? a then _ else _) = _ => destruct (c <=? a) eqn:?
  end; try discriminate; injection H as <-; (split; [clear; lia|]); split;
  match goal with |- at_least ?z a = _ => let z' := eval vm_compute in z in change z with z' end; try assumption;
  match goal with E : (?c <=? a) = true |- _ => apply Z.leb_le in E; first [exact (C1 E)|exact (C2 E)|exact (C3 E)|exact (C4 E)] end.
Qed.
Lemma decimals_none : forall a, decimals a = None -> at_least 16 a = true \/ at_least 0 a = false /\ a <> 0.
Proof.
  intros a H. unfold decimals in H. destruct (at_least 16 a); [now left|right].
  destruct (at_least 15 a || (a =? 0)) eqn:E; [discriminate|]. split; [|lia].
  repeat match type of H with (if at_least ?j a then _ else _) = _ => destruct (at_least j a) eqn:? end; try discriminate; reflexivity.
Qed.

Local Transparent at_least.
(** ** The text with decimals *)

Lemma in_digits : forall c vs, In c (map (Z.add 48) vs) -> Forall (fun v => 0 <= v <= 9) vs -> is_digit c = true.
Proof. intros c vs J F. apply in_map_iff in J. destruct J as (v & <- & J). rewrite Forall_forall in F. specialize (F v J). cbv beta in F. unfold is_digit. lia. Qed.
Lemma all_digits : forall vs, Forall (fun v => 0 <= v <= 9) vs -> Forall (fun c => is_digit c = true) (map (Z.add 48) vs).
Proof. intros vs F. apply Forall_forall. intros c J. now apply (in_digits c vs). Qed.
Lemma print_sign_signed : forall neg, signed (print_sign neg) neg.
Proof. intros []; constructor. Qed.

Lemma print_fixed_right : forall neg a p, 0 <= a -> (1 <= p <= 20)%nat -> at_least (Z.max (17 - Z.of_nat p) 0) a = false -> exists vs us,
  print_fixed p neg a = print_sign neg ++ map (Z.add 48) vs ++ 46 :: map (Z.add 48) us /\ Forall (fun v => 0 <= v <= 9) vs /\ Forall (fun v => 0 <= v <= 9) us /\
  vs <> nil /\ length us = p /\ number (vs ++ us) = half_even (a * 10 ^ Z.of_nat p) unit_ /\ zlen vs + zlen us <= 21.
Proof.
  intros neg a p A P U. unfold print_fixed. assert (T := ten_positive (Z.of_nat p) ltac:(lia)). assert (UP := unit_positive).
  destruct (half_even_near (a * 10 ^ Z.of_nat p) unit_ ltac:(nia) UP) as (_ & N0).
  remember (half_even (a * 10 ^ Z.of_nat p) unit_) as n.
  set (j := Z.max (17 - Z.of_nat p) 0) in *. assert (J : 0 <= j <= 16) by lia.
  assert (W : n / 10 ^ Z.of_nat p <= 10 ^ j).
  { assert (L : n <= 10 ^ j * 10 ^ Z.of_nat p).
    { subst n. apply half_even_below; [nia|exact UP|]. unfold at_least in U. rewrite Z.max_l in U by lia. replace (Z.max (- j) 0) with 0 in U by lia. change (10 ^ 0) with 1 in U. nia. }
    apply Z.div_le_upper_bound; lia. }
  assert (W0 : 0 <= n / 10 ^ Z.of_nat p) by (apply Z.div_pos; lia).
  assert (J16 : 10 ^ j <= 10 ^ 16) by (apply Z.pow_le_mono_r; lia). change (10 ^ 16) with 10000000000000000 in J16.
  destruct (print_unsigned_right (n / 10 ^ Z.of_nat p)) as (vs & E & F & NE & V & H & _); [change (2 ^ 64) with 18446744073709551616; lia|].
  destruct (padded_right p (n mod 10 ^ Z.of_nat p)) as (us & E' & L & F' & V'); [apply Z.mod_pos_bound; lia|].
  exists vs, us. rewrite E, E'. repeat split; auto.
  - rewrite number_app, V, V'. unfold zlen. rewrite L, Z.mod_mod by lia. assert (D := Z.div_mod n (10 ^ Z.of_nat p) ltac:(lia)). lia.
  - assert (zlen vs <= j + 1).
    { destruct (Nat.le_gt_cases 2 (length vs)) as [G | G]; [|unfold zlen; lia]. assert (B := number_bound vs F H G). rewrite V in B.
      destruct (Z.le_gt_cases (zlen vs) (j + 1)) as [|X]; [assumption|]. assert (10 ^ (j + 1) <= 10 ^ (zlen vs - 1)) by (apply Z.pow_le_mono_r; lia).
      rewrite Z.pow_add_r in * by lia. assert (TJ := ten_positive j ltac:(lia)). lia. }
    unfold zlen in *. lia.
Qed.

(** What is left of a text is read again. *)
Lemma text_read : forall uprops space cs l, spaces_of uprops space -> usual_spaces space -> Forall (fun c => 0 <= c < 128) cs -> zlen cs <= 31 ->
  says_float space ascii_value cs l -> exists s, create_from_utf8 cs (zlen cs) = Ok s /\ sdata s = cs /\ holds s /\ str_to_float64 uprops s = Ok l.
Proof.
  intros uprops space cs l T U F L H. destruct (create_ascii cs F) as (s & E & D & HO). exists s. split; [exact E|]. split; [exact D|]. split; [exact HO|].
  unfold str_to_float64. rewrite D, (float_reads uprops space T U cs l); auto.
  - revert F. apply Forall_impl. lia.
  - assert (X : zlen (filter (keep uprops) cs) <= zlen cs).
    { clear. unfold zlen. induction cs as [|c cs IH]; cbn [filter length]; [lia|]. destruct (keep uprops c); cbn [length]; lia. }
    lia.
Qed.
Lemma sign_ascii : forall neg, Forall (fun c => 0 <= c < 128) (print_sign neg) /\ zlen (print_sign neg) <= 1.
Proof. intros []; split; repeat constructor; cbv; discriminate. Qed.

Lemma fixed_text : forall uprops space neg a p, spaces_of uprops space -> usual_spaces space -> double a -> decimals a = Some p -> 0 <= a -> exists s l,
  float64_to_string (Number neg a) = Ok s /\ holds s /\ str_to_float64 uprops s = Ok l /\ reads_as l neg a.
Proof.
  intros uprops space neg a p T U D E A. unfold float64_to_string. cbn [float_format]. rewrite E.
  assert (UP := unit_positive).
  assert (B : (1 <= p <= 20)%nat /\ at_least (Z.max (17 - Z.of_nat p) 0) a = false /\ (a = 0 \/ at_least (16 - Z.of_nat p) a = true)).
  { destruct (Z.eq_dec a 0) as [-> | N].
    - assert (X : at_least 16 0 = false) by (unfold at_least; change (0 * _) with 0; apply Z.leb_gt; apply Z.mul_pos_pos; [reflexivity|exact UP]).
      unfold decimals in E. rewrite X, orb_true_r in E. injection E as <-. split; [lia|]. split; [exact X|now left].
    - destruct (decimals_right a p ltac:(lia) E) as (P & Q & R). auto. }
  destruct B as (P & UB & LB). destruct (print_fixed_right neg a p A P UB) as (vs & us & -> & FV & FU & NV & LU & V & LE).
  destruct (sign_ascii neg) as (SA & SL).
  assert (L31 : zlen (print_sign neg ++ map (Z.add 48) vs ++ 46 :: map (Z.add 48) us) <= 23) by (clear - LE SL; len).
  unfold sprintf. rewrite (proj2 (Z.leb_le _ 32)) by lia. cbn [bind].
  destruct (C75_zeros_of_decimals (print_sign neg) neg (map (Z.add 48) vs) (map (Z.add 48) us) (print_sign_signed neg)) as (kept & z & K1 & -> & _ & K3).
  { apply Forall_app. split; now apply all_digits. }
  destruct (zeros_values us kept z K1) as (us' & -> & ->).
  assert (FU' : Forall (fun v => 0 <= v <= 9) us') by now apply Forall_app in FU.
  assert (NU : us' <> nil).
  { intros ->. destruct K3 as (K3 & _). specialize (K3 eq_refl). destruct z; [cbn [repeat app length] in LU; lia|discriminate]. }
  assert (LU' : zlen us' + Z.of_nat z = Z.of_nat p) by (rewrite app_length, repeat_length in LU; unfold zlen; lia).
  assert (VZ : number (vs ++ us' ++ repeat 0 z) = number (vs ++ us') * 10 ^ Z.of_nat z).
  { rewrite app_assoc, number_app, number_zeros. unfold zlen. rewrite repeat_length. lia. }
  destruct (text_read uprops space (print_sign neg ++ map (Z.add 48) vs ++ 46 :: map (Z.add 48) us') (Finite neg (map (Z.add 48) (vs ++ us')) (0 - zlen us')) T U) as (s & E1 & D1 & H1 & R1).
  - apply Forall_app. split; [exact SA|]. apply Forall_app. split; [now apply digits_ascii|]. constructor; [lia|now apply digits_ascii].
  - rewrite map_app in L31. clear - L31. len.
  - assert (X := finite space ascii_value nil (print_sign neg) (map (Z.add 48) vs ++ 46 :: map (Z.add 48) us') nil nil neg vs us' 0 (Forall_nil _) (Forall_nil _)
      (print_sign_signed neg) (whole_fraction _ _ _ _ _ (digits_grouped vs FV NV) (digits_grouped us' FU' NU)) (no_power _)).
    cbn [app] in X. now rewrite !app_nil_r in X.
  - exists s, (Finite neg (map (Z.add 48) (vs ++ us')) (0 - zlen us')). split; [exact E1|]. split; [exact H1|]. split; [exact R1|].
    destruct (half_even_near (a * 10 ^ Z.of_nat p) unit_) as (N1 & N2); [assert (TP := ten_positive (Z.of_nat p) ltac:(lia)); nia|exact UP|].
    rewrite <- V, VZ in N1, N2.
    assert (LZ : 0 - zlen us' + Z.of_nat p = Z.of_nat z) by lia.
    apply (nearest_signed neg _ _ a (Z.of_nat p)); auto; try lia; rewrite value_of_map.
    + intros A0. subst a. rewrite Z.mul_0_l, Z.sub_0_l, Z.abs_opp in N1. assert (TZ := ten_positive (Z.of_nat z) ltac:(lia)).
      remember (number (vs ++ us')) as n. remember (10 ^ Z.of_nat z) as t. clear - N1 N2 UP TZ. rewrite Z.abs_eq in N1 by nia. assert (n * t = 0) by nia. nia.
    + rewrite LZ. destruct LB as [-> | LB].
      * assert (N : number (vs ++ us') * 10 ^ Z.of_nat z = 0).
        { rewrite Z.mul_0_l, Z.sub_0_l, Z.abs_opp in N1. remember (number (vs ++ us') * 10 ^ Z.of_nat z) as n. clear - N1 N2 UP. rewrite Z.abs_eq in N1 by nia. nia. }
        rewrite N. rewrite !Z.mul_0_l. change (Z.abs (0 - 0)) with 0. lia.
      * apply at_least_true in LB. replace (number (vs ++ us') * 10 ^ Z.of_nat z * unit_ - a * 10 ^ Z.of_nat p) with (- (a * 10 ^ Z.of_nat p - number (vs ++ us') * 10 ^ Z.of_nat z * unit_)) by ring.
        rewrite Z.abs_opp.
        assert (X : 10 ^ 16 * unit_ <= a * 10 ^ Z.of_nat p).
        { destruct (Z.le_gt_cases (Z.of_nat p) 16) as [P16 | P16].
          - replace (Z.max (16 - Z.of_nat p) 0) with (16 - Z.of_nat p) in LB by lia. replace (Z.max (- (16 - Z.of_nat p)) 0) with 0 in LB by lia.
            change (10 ^ 0) with 1 in LB. replace 16 with ((16 - Z.of_nat p) + Z.of_nat p) at 1 by lia. rewrite Z.pow_add_r by lia. assert (TP := ten_positive (Z.of_nat p) ltac:(lia)). nia.
          - replace (Z.max (16 - Z.of_nat p) 0) with 0 in LB by lia. replace (Z.max (- (16 - Z.of_nat p)) 0) with (Z.of_nat p - 16) in LB by lia.
            change (10 ^ 0) with 1 in LB. replace (Z.of_nat p) with ((Z.of_nat p - 16) + 16) at 1 by lia. rewrite Z.pow_add_r by lia. nia. }
        lia.
Qed.

(** ** The text with an exponent *)

Lemma decimal_exponent_right : forall fuel k a, at_least (k + 1) a = false -> at_least (k - Z.of_nat fuel) a = true ->
  at_least (decimal_exponent fuel k a) a = true /\ at_least (decimal_exponent fuel k a + 1) a = false /\ k - Z.of_nat fuel <= decimal_exponent fuel k a <= k.
Proof.
  induction fuel as [|fuel IH]; intros k a H1 H2; cbn [decimal_exponent].
  - replace (k - Z.of_nat 0) with k in H2 by lia. repeat split; auto; lia.
  - destruct (at_least k a) eqn:E; [repeat split; auto; lia|]. destruct (IH (k - 1) a) as (A & B & C).
    + now replace (k - 1 + 1) with k by lia.
    + now replace (k - 1 - Z.of_nat fuel) with (k - Z.of_nat (S fuel)) by lia.
    + repeat split; auto; lia.
Qed.
Lemma exponent_range : forall a, double a -> 0 < a -> let k := decimal_exponent 633 308 a in decade k a /\ -325 <= k <= 308.
Proof.
  intros a (m & s & E & M & R & _) A. destruct (decimal_exponent_right 633 308 a) as (H1 & H2 & H3).
  - unfold at_least. apply Z.leb_gt. change (Z.max (- (308 + 1)) 0) with 0. change (10 ^ 0) with 1. change (Z.max (308 + 1) 0) with 309. rewrite Z.mul_1_r.
    assert (B : a < 2 ^ 53 * 2 ^ 2045).
    { assert (2 ^ s <= 2 ^ 2045) by (apply Z.pow_le_mono_r; lia). assert (0 < 2 ^ s) by (apply Z.pow_pos_nonneg; lia). rewrite E.
      remember (2 ^ 2045) as g. remember (2 ^ s) as h. clear Heqg Heqh.
      apply Z.le_lt_trans with (m * g); [apply Z.mul_le_mono_nonneg_l; lia|apply Z.mul_lt_mono_pos_r; lia]. }
    assert (C : 2 ^ 53 * 2 ^ 2045 <= 10 ^ 309 * unit_) by (vm_compute; discriminate). eapply Z.lt_le_trans; eauto.
  - apply at_least_true. change (308 - Z.of_nat 633) with (-325). change (Z.max (-325) 0) with 0. change (Z.max (- -325) 0) with 325. change (10 ^ 0) with 1.
    assert (C : unit_ <= 10 ^ 325) by (vm_compute; discriminate). assert (UP := unit_positive). remember (10 ^ 325) as g. clear Heqg. nia.
  - split; [|lia]. split; [now apply at_least_true|]. unfold at_least in H2. lia.
Qed.

Definition exponent_text (negative : bool) (n k : Z) : list Z :=
  print_sign negative ++ [48 + n / 10 ^ 16] ++ 46 :: padded 16 (n mod 10 ^ 16) ++
  101 :: (if k <? 0 then 45 else 43) :: (if Z.abs k <? 100 then padded 2 (Z.abs k) else padded 3 (Z.abs k)).

(** The last digit. *)
Lemma last_digit_of : forall us, Forall (fun v => 0 <= v <= 9) us -> us <> nil -> number us mod 10 = 0 -> exists b, us = b ++ [0].
Proof.
  intros us F N E. destruct us as [|v us _] using rev_ind; [congruence|]. apply Forall_app in F. destruct F as (_ & F). apply Forall_inv in F.
  rewrite number_snoc, Z.add_comm, Z_mod_plus_full, Z.mod_small in E by lia. subst v. eauto.
Qed.

Lemma exponent_text_right : forall space neg n k, 0 <= n < 10 ^ 17 -> -999 <= k <= 999 -> (k mod 10 = 0 -> n mod 10 = 0) -> exists cs ds z,
  remove_trailing_zeros (exponent_text neg n k) = cs /\ says_float space ascii_value cs (Finite neg (map (Z.add 48) ds) (k - (16 - Z.of_nat z))) /\
  number ds * 10 ^ Z.of_nat z = n /\ (z <= 16)%nat /\ Forall (fun c => 0 <= c < 128) cs /\ zlen cs <= 24 /\ zlen (exponent_text neg n k) <= 24.
Proof.
  intros space neg n k N K H. unfold exponent_text.
  change (10 ^ 17) with (10 * 10 ^ 16) in N. assert (T : 0 < 10 ^ 16) by reflexivity.
  assert (T15 : 10 ^ 16 = 10 * 10 ^ 15) by reflexivity. assert (T16 : 10 ^ Z.of_nat 16 = 10 ^ 16) by reflexivity. remember (10 ^ 16) as t eqn:HT. clear HT.
  assert (D0 : 0 <= n / t <= 9) by (split; [apply Z.div_pos; lia|apply Z.lt_succ_r, Z.div_lt_upper_bound; lia]).
  destruct (padded_right 16 (n mod t)) as (us & -> & LU & FU & VU); [apply Z.mod_pos_bound; lia|].
  rewrite T16 in VU. rewrite Z.mod_mod in VU by lia.
  assert (X : exists xs, (if Z.abs k <? 100 then padded 2 (Z.abs k) else padded 3 (Z.abs k)) = map (Z.add 48) xs /\ Forall (fun v => 0 <= v <= 9) xs /\
    xs <> nil /\ number xs = Z.abs k /\ zlen xs <= 3).
  { destruct (Z.abs k <? 100) eqn:E.
    - destruct (padded_right 2 (Z.abs k)) as (xs & -> & L & F & V); [lia|]. change (10 ^ Z.of_nat 2) with 100 in V. rewrite Z.mod_small in V by lia.
      exists xs. split; [reflexivity|]. split; [exact F|]. split; [intros ->; discriminate|]. split; [exact V|]. unfold zlen. lia.
    - destruct (padded_right 3 (Z.abs k)) as (xs & -> & L & F & V); [lia|]. change (10 ^ Z.of_nat 3) with 1000 in V. rewrite Z.mod_small in V by lia.
      exists xs. split; [reflexivity|]. split; [exact F|]. split; [intros ->; discriminate|]. split; [exact V|]. unfold zlen. lia. }
  destruct X as (xs & -> & FX & NX & VX & LX).
  set (es := [if k <? 0 then 45 else 43]). assert (SE : signed es (k <? 0)) by (unfold es; destruct (k <? 0); constructor).
  change ((if k <? 0 then 45 else 43) :: map (Z.add 48) xs) with (es ++ map (Z.add 48) xs).
  destruct (trailing (map (Z.add 48) us)) as (a & z & EA & EN).
  destruct (zeros_values us a z EA) as (us' & -> & ->). rewrite EA.
  assert (FU' : Forall (fun v => 0 <= v <= 9) us') by exact (proj1 (proj1 (Forall_app _ _ _) FU)).
  rewrite app_length, repeat_length in LU.
  assert (ND : n = number (n / t :: us') * 10 ^ Z.of_nat z).
  { assert (E1 : number ((n / t :: us') ++ repeat 0 z) = number (n / t :: us') * 10 ^ Z.of_nat z).
    { rewrite number_app, number_zeros. unfold zlen. rewrite repeat_length. lia. }
    rewrite <- E1. change ((n / t :: us') ++ repeat 0 z) with ([n / t] ++ us' ++ repeat 0 z). rewrite number_app, VU.
    unfold zlen. rewrite app_length, repeat_length, LU, T16. change (number [n / t]) with (0 * 10 + n / t).
    assert (DM := Z.div_mod n t ltac:(lia)). lia. }
  assert (EX : z = 0%nat -> ended (map (Z.add 48) xs)).
  { intros ->. destruct (Z.eq_dec (k mod 10) 0) as [K0 | K0].
    - exfalso. cbn [repeat] in *. rewrite app_nil_r in *. assert (V10 : number us' mod 10 = 0).
      { rewrite VU. rewrite <- (H K0). rewrite T15. rewrite Z.rem_mul_r by lia. rewrite (Z.mul_comm 10), Z_mod_plus_full. apply Z.mod_mod. lia. }
      destruct (last_digit_of us' FU' ltac:(intros ->; cbn [length] in LU; lia) V10) as (b & ->).
      destruct EN as [EN | (b' & d & EN & ND')]; rewrite map_app in EN; cbn [map] in EN; [destruct (map (Z.add 48) b); discriminate|].
      apply app_inj_tail in EN. destruct EN as (_ & <-). now apply ND'.
    - right. destruct xs as [|x xs _] using rev_ind; [congruence|]. exists (map (Z.add 48) xs), (48 + x). rewrite map_app. split; [reflexivity|].
      intros X. assert (x = 0) by lia. subst x. rewrite number_snoc in VX. apply K0. apply Z.mod_divide; [lia|]. apply Z.divide_abs_r. rewrite <- VX.
      exists (number xs). lia. }
  exists (print_sign neg ++ [48 + n / t] ++ (match map (Z.add 48) us' with nil => nil | _ => 46 :: map (Z.add 48) us' end) ++ 101 :: es ++ map (Z.add 48) xs), (n / t :: us'), z.
  destruct (sign_ascii neg) as (SA & SL). assert (SZ : Forall (fun c => 0 <= c < 128) es) by (unfold es; constructor; [destruct (k <? 0); lia|constructor]).
  split; [|split; [|split; [|split; [|split; [|split]]]]].
  - apply (C75_zeros_before_exponent_partial (print_sign neg) neg [48 + n / t] (map (Z.add 48) us') z es (k <? 0) (map (Z.add 48) xs)); auto.
    + apply print_sign_signed.
    + apply Forall_app. split; [apply (all_digits [n / t]); repeat constructor; lia|]. apply Forall_app. split; now apply all_digits.
    + destruct xs; [congruence|discriminate].
    + intros ->. destruct us'; [cbn [length] in LU; lia|discriminate].
  - assert (PW : power ascii_value (101 :: es ++ map (Z.add 48) xs) k).
    { replace k with (with_sign (k <? 0) (number xs)) by (unfold with_sign; rewrite VX; destruct (k <? 0) eqn:E; lia). constructor; auto. now apply digits_grouped. }
    assert (G0 : grouped ascii_value [48 + n / t] [n / t]) by (apply (digits_grouped [n / t]); [repeat constructor; lia|discriminate]).
    assert (LZ : zlen us' = 16 - Z.of_nat z) by (unfold zlen; lia). rewrite <- LZ.
    destruct us' as [|u us'].
    + assert (X := finite space ascii_value nil (print_sign neg) [48 + n / t] _ nil neg [n / t] nil k (Forall_nil _) (Forall_nil _) (print_sign_signed neg) (whole_only _ _ _ G0) PW).
      cbn [app map] in *. rewrite app_nil_r in X. exact X.
    + assert (X := finite space ascii_value nil (print_sign neg) ([48 + n / t] ++ 46 :: map (Z.add 48) (u :: us')) _ nil neg [n / t] (u :: us') k (Forall_nil _) (Forall_nil _) (print_sign_signed neg)
        (whole_fraction _ _ _ _ _ G0 (digits_grouped (u :: us') FU' ltac:(discriminate))) PW).
      rewrite app_nil_r in X. rewrite <- !app_assoc in X. cbn [app map] in *. exact X.
  - now symmetry.
  - lia.
  - apply Forall_app. split; [exact SA|]. apply Forall_app. split; [repeat constructor; lia|]. apply Forall_app. split.
    + apply digits_ascii in FU'. destruct (map (Z.add 48) us') eqn:E; [constructor|]. rewrite <- E in *. constructor; [lia|exact FU'].
    + constructor; [lia|]. apply Forall_app. split; [exact SZ|now apply digits_ascii].
  - assert (zlen (match map (Z.add 48) us' with nil => nil | _ => 46 :: map (Z.add 48) us' end) <= 17).
    { destruct (map (Z.add 48) us') eqn:E; [cbv; discriminate|]. rewrite <- E. clear - LU. len. }
    clear - H0 SL LX. unfold es in *. remember (match map (Z.add 48) us' with nil => nil | _ => 46 :: map (Z.add 48) us' end) as q. clear Heqq. len.
  - rewrite map_app in *. clear - LU SL LX. unfold es. unfold zlen in *. rewrite !app_length. cbn [length]. rewrite !app_length, repeat_length, !map_length in *. cbn [length]. rewrite ?app_length, ?map_length, ?repeat_length. cbn [length]. lia.
Qed.

Lemma exponents : forall k,
  10 ^ 16 * 10 ^ Z.max (k - 16) 0 * 10 ^ Z.max (- k) 0 = 10 ^ Z.max (16 - k) 0 * 10 ^ Z.max k 0 /\
  10 ^ 17 * 10 ^ Z.max (k - 16) 0 * 10 ^ Z.max (- (k + 1)) 0 = 10 ^ Z.max (16 - k) 0 * 10 ^ Z.max (k + 1) 0.
Proof. intros k. split; rewrite <- !Z.pow_add_r by lia; f_equal; lia. Qed.
Lemma decade_scaled : forall k a, decade k a ->
  10 ^ 16 * (unit_ * 10 ^ Z.max (k - 16) 0) <= a * 10 ^ Z.max (16 - k) 0 /\ a * 10 ^ Z.max (16 - k) 0 < 10 ^ 17 * (unit_ * 10 ^ Z.max (k - 16) 0).
Proof.
  intros k a (LO & HI). destruct (exponents k) as (X1 & X2).
  assert (TP := ten_positive (Z.max (16 - k) 0) ltac:(clear; lia)). assert (TM := ten_positive (Z.max (- k) 0) ltac:(clear; lia)). assert (TN := ten_positive (Z.max (- (k + 1)) 0) ltac:(clear; lia)). split.
  - apply (Z.mul_le_mono_pos_r _ _ (10 ^ Z.max (- k) 0)); [exact TM|].
    replace (10 ^ 16 * (unit_ * 10 ^ Z.max (k - 16) 0) * 10 ^ Z.max (- k) 0) with (10 ^ 16 * 10 ^ Z.max (k - 16) 0 * 10 ^ Z.max (- k) 0 * unit_) by ring. rewrite X1.
    rewrite (Z.mul_comm a), <- !Z.mul_assoc. apply Z.mul_le_mono_pos_l; [exact TP|exact LO].
  - apply (Z.mul_lt_mono_pos_r (10 ^ Z.max (- (k + 1)) 0)); [exact TN|].
    replace (10 ^ 17 * (unit_ * 10 ^ Z.max (k - 16) 0) * 10 ^ Z.max (- (k + 1)) 0) with (10 ^ 17 * 10 ^ Z.max (k - 16) 0 * 10 ^ Z.max (- (k + 1)) 0 * unit_) by ring. rewrite X2.
    rewrite (Z.mul_comm a), <- !Z.mul_assoc. apply Z.mul_lt_mono_pos_l; [exact TP|exact HI].
Qed.
(** A number that is printed with an exponent is at least 1e16, or less than 1. *)
Lemma decade_range : forall k a, 0 < a -> decade k a -> decimals a = None -> 16 <= k \/ k < 0.
Proof.
  intros k a A (LO & HI) E. assert (UP := unit_positive). destruct (decimals_none a E) as [H | (H & _)].
  - left. destruct (Z.le_gt_cases 16 k) as [|G]; [assumption|exfalso]. apply at_least_true in H. change (10 ^ Z.max (- (16)) 0) with 1 in H. change (Z.max 16 0) with 16 in H.
    assert (Y : 10 ^ Z.max (k + 1) 0 <= 10 ^ 16) by (apply Z.pow_le_mono_r; clear - G; lia). assert (TM := ten_positive (Z.max (- (k + 1)) 0) ltac:(clear; lia)).
    remember (10 ^ 16) as g. clear Heqg E LO. remember (10 ^ Z.max (- (k + 1)) 0) as h. remember (10 ^ Z.max (k + 1) 0) as f. clear Heqh Heqf G. nia.
  - right. destruct (Z.lt_ge_cases k 0) as [G | G]; [assumption|exfalso]. unfold at_least in H. change (10 ^ Z.max 0 0) with 1 in H. change (10 ^ Z.max (- 0) 0) with 1 in H.
    replace (Z.max (- k) 0) with 0 in LO by lia. change (10 ^ 0) with 1 in LO. assert (TM := ten_positive (Z.max k 0) ltac:(clear; lia)). clear HI E G. remember (10 ^ Z.max k 0) as f. clear Heqf. nia.
Qed.
Lemma exponent_form : forall uprops space neg a, spaces_of uprops space -> usual_spaces space -> double a -> decimals a = None -> 0 <= a -> exponent_kept a -> exists s l,
  float64_to_string (Number neg a) = Ok s /\ holds s /\ str_to_float64 uprops s = Ok l /\ reads_as l neg a.
Proof.
  intros uprops space neg a T U D E A KEPT. assert (UP := unit_positive).
  assert (PA : 0 < a).
  { destruct (decimals_none a E) as [H | (_ & H)]; [|lia]. apply at_least_true in H. change (Z.max 16 0) with 16 in H. change (Z.max (- (16)) 0) with 0 in H. change (10 ^ 0) with 1 in H.
    assert (T16 := ten_positive 16 ltac:(lia)). nia. }
  destruct (exponent_range a D PA) as (DEC & R). unfold float64_to_string. cbn [float_format]. rewrite E. unfold print_exponent.
  remember (decimal_exponent 633 308 a) as k. clear Heqk.
  set (P := Z.max (16 - k) 0). set (Q := Z.max (k - 16) 0). assert (P0 : 0 <= P) by (clear; lia). assert (Q0 : 0 <= Q) by (clear; lia). assert (PQ : k - 16 + P = Q) by (clear; lia).
  assert (TP := ten_positive P P0). assert (TQ := ten_positive Q Q0).
  assert (AP : 0 <= a * 10 ^ P) by (apply Z.mul_nonneg_nonneg; lia). assert (UQ : 0 < unit_ * 10 ^ Q) by (apply Z.mul_pos_pos; assumption).
  destruct (half_even_near (a * 10 ^ P) (unit_ * 10 ^ Q) AP UQ) as (N1 & N2).
  remember (half_even (a * 10 ^ P) (unit_ * 10 ^ Q)) as n0.
  destruct DEC as (LO & HI).
  destruct (decade_scaled k a (conj LO HI)) as (LOW & HIGH). fold P Q in LOW, HIGH.
  assert (N17 : n0 <= 10 ^ 17) by (subst n0; apply half_even_below; assumption).
  assert (C : exists n c, (if n0 =? 10 ^ 17 then (10 ^ 16, k + 1) else (n0, k)) = (n, k + c) /\ n * 10 ^ c = n0 /\ 0 <= c <= 1 /\ 0 <= n < 10 ^ 17 /\ ((k + c) mod 10 = 0 -> n mod 10 = 0)).
  { destruct (n0 =? 10 ^ 17) eqn:E1.
    - exists (10 ^ 16), 1. split; [reflexivity|]. split; [apply Z.eqb_eq in E1; rewrite E1; reflexivity|]. split; [lia|]. split; [split; [discriminate|reflexivity]|reflexivity].
    - apply Z.eqb_neq in E1. exists n0, 0. rewrite Z.add_0_r. change (10 ^ 0) with 1. rewrite Z.mul_1_r. split; [reflexivity|]. split; [reflexivity|]. split; [clear; lia|]. split; [clear - N2 N17 E1; lia|].
      intros K0. destruct (KEPT k K0) as (j & J).
      + destruct (decade_range k a PA (conj LO HI) E) as [G | G]; [now left|right].
        destruct (Z.le_gt_cases k (-5)) as [|G']; [assumption|exfalso]. clear - G G' K0. assert (k = -1 \/ k = -2 \/ k = -3 \/ k = -4) as [-> | [-> | [-> | ->]]] by lia; discriminate.
      + split; assumption.
      + fold P Q in J. rewrite Heqn0. rewrite (half_even_ten _ _ j); [|exact UQ|exact J]. rewrite Z.mul_comm. apply Z_mod_mult. }
  destruct C as (n & c & -> & NC & RC & RN & MOD).
  destruct (exponent_text_right space neg n (k + c) RN ltac:(clear - R RC; lia) MOD) as (cs & ds & z & EQ & SAY & V & LZ & ASC & LC & LT).
  fold (exponent_text neg n (k + c)). unfold sprintf. rewrite (proj2 (Z.leb_le _ 32)) by (clear - LT; lia). cbn [bind]. rewrite EQ.
  destruct (text_read uprops space cs _ T U ASC ltac:(clear - LC; lia) SAY) as (s & E1 & D1 & H1 & R1).
  exists s. eexists. split; [exact E1|]. split; [exact H1|]. split; [exact R1|].
  apply (nearest_signed neg _ _ a P); [exact P0|clear - PQ Q0 RC LZ; lia|exact D|exact A|intros A0; exfalso; clear - PA A0; lia|]. rewrite value_of_map.
  assert (VV : number ds * 10 ^ (k + c - (16 - Z.of_nat z) + P) = n0 * 10 ^ Q).
  { rewrite <- NC, <- V. replace (k + c - (16 - Z.of_nat z) + P) with (Z.of_nat z + c + Q) by (clear - PQ; lia). rewrite !Z.pow_add_r by (clear - Q0 RC; lia). ring. }
  rewrite VV. replace (n0 * 10 ^ Q * unit_ - a * 10 ^ P) with (- (a * 10 ^ P - n0 * (unit_ * 10 ^ Q))) by ring. rewrite Z.abs_opp. 
  remember (10 ^ 16) as g. assert (G : 0 < g) by (subst g; reflexivity). clear - N1 LOW G. nia.
Qed.

Theorem float_text : forall uprops space neg a, spaces_of uprops space -> usual_spaces space -> double a -> exponent_kept a -> exists s l,
  float64_to_string (Number neg a) = Ok s /\ holds s /\ str_to_float64 uprops s = Ok l /\ reads_as l neg a.
Proof.
  intros uprops space neg a T U D K. assert (A : 0 <= a).
  { destruct D as (m & s & -> & M & S0 & _). assert (0 < 2 ^ s) by (apply Z.pow_pos_nonneg; lia). nia. }
  destruct (decimals a) as [p|] eqn:E; [now apply (fixed_text uprops space neg a p)|now apply (exponent_form uprops space)].
Qed.
