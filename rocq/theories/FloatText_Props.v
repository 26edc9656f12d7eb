(** Property C76: the text of a float is read back as the same float, in compiled code. *)
From Coq Require Import List ZArith Lia ZifyBool.
From Verif Require Import Base Text_Model TextAsk_Model TextAsk_Spec Utf8_Model Utf8_Spec TextCell_Model TextNum_Model TextNum_Spec TextNum_Proofs TextNum_Props FloatText_Model FloatText_Spec FloatText_Proofs.
Import ListNotations.
Open Scope Z_scope.
Open Scope list_scope.
Local Opaque unit_ shipped_flags.

(** [float(str(x))] is [x]: the array that the text is written to has room for it, and what is read is nearer to [x] than to any other double. *)
Theorem C76_round_trip_partial : forall uprops negative size, spaces_of uprops unicode_space -> double size -> exponent_kept size ->
  exists s l, float64_to_string (Number negative size) = Ok s /\ holds s /\ str_to_float64 uprops s = Ok l /\ reads_as l negative size.
Proof. intros uprops neg a T D K. exact (float_text uprops unicode_space neg a T unicode_usual D K). Qed.
Print Assumptions C76_round_trip_partial.

(** This is so for every float from 0.0001 to 1e16. *)
Theorem C76_plain_floats_round_trip : forall uprops negative size, spaces_of uprops unicode_space -> double size ->
  size = 0 \/ unit_ <= size * 10 ^ 4 /\ size < 10 ^ 16 * unit_ ->
  exists s l, float64_to_string (Number negative size) = Ok s /\ holds s /\ str_to_float64 uprops s = Ok l /\ reads_as l negative size.
Proof.
  intros uprops neg a T D R. apply C76_round_trip_partial; auto. intros k _ K (LO & HI). exfalso. assert (UP := unit_positive). destruct R as [-> | (R1 & R2)].
  - rewrite Z.mul_0_l in LO. assert (P := ten_positive (Z.max k 0) ltac:(lia)). nia.
  - destruct K as [K | K].
    + replace (Z.max (- k) 0) with 0 in LO by lia. replace (Z.max k 0) with k in LO by lia. change (10 ^ 0) with 1 in LO.
      assert (10 ^ 16 <= 10 ^ k) by (apply Z.pow_le_mono_r; lia). remember (10 ^ 16) as g. clear Heqg. nia.
    + replace (Z.max (- (k + 1)) 0) with (- (k + 1)) in HI by lia. replace (Z.max (k + 1) 0) with 0 in HI by lia. change (10 ^ 0) with 1 in HI.
      assert (10 ^ 4 <= 10 ^ (- (k + 1))) by (apply Z.pow_le_mono_r; lia). assert (0 <= a) by nia. nia.
Qed.
Print Assumptions C76_plain_floats_round_trip.

(** Infinities are read back too, and what is not a number. *)
Theorem C76_special_round_trip : forall uprops negative, spaces_of uprops unicode_space ->
  (exists s, float64_to_string (Inf negative) = Ok s /\ str_to_float64 uprops s = Ok (Infinite negative)) /\
  (exists s, float64_to_string (NaN negative) = Ok s /\ str_to_float64 uprops s = Ok NotANumber).
Proof.
  intros uprops neg T.
  assert (X : forall w l, In w [inf; nan] -> says_float unicode_space ascii_value (print_sign neg ++ w) l -> exists s,
    (buf <- sprintf 32 (print_sign neg ++ w) ;; create_from_utf8 (remove_trailing_zeros buf) (zlen (remove_trailing_zeros buf)))%result = Ok s /\
    str_to_float64 uprops s = Ok l).
  { intros w l W H. assert (RZ : remove_trailing_zeros (print_sign neg ++ w) = print_sign neg ++ w) by (destruct neg; cbn [In] in W; destruct W as [<- | [<- | []]]; reflexivity).
    destruct (text_read uprops unicode_space (print_sign neg ++ w) l T unicode_usual) as (s & E & _ & _ & R); auto.
    - destruct neg; cbn [In] in W; destruct W as [<- | [<- | []]]; repeat constructor; lia.
    - destruct neg; cbn [In] in W; destruct W as [<- | [<- | []]]; cbv; discriminate.
    - exists s. split; [|exact R]. unfold sprintf. rewrite (proj2 (Z.leb_le _ 32)) by (destruct neg; cbn [In] in W; destruct W as [<- | [<- | []]]; cbv; discriminate).
      cbn [bind]. now rewrite RZ. }
  split.
  - apply (X inf); [cbn; tauto|]. assert (Y := infinite unicode_space ascii_value nil (print_sign neg) inf nil neg (Forall_nil _) (Forall_nil _) (print_sign_signed neg) (or_introl eq_refl)).
    cbn [app] in Y. now rewrite app_nil_r in Y.
  - apply (X nan); [cbn; tauto|]. assert (Y := not_a_number unicode_space ascii_value nil (print_sign neg) nan nil neg (Forall_nil _) (Forall_nil _) (print_sign_signed neg) eq_refl).
    cbn [app] in Y. now rewrite app_nil_r in Y.
Qed.
Print Assumptions C76_special_round_trip.

(** So different floats have different texts. *)
Theorem C76_different_floats_differ_partial : forall n1 a1 n2 a2 s, double a1 -> double a2 -> exponent_kept a1 -> exponent_kept a2 ->
  float64_to_string (Number n1 a1) = Ok s -> float64_to_string (Number n2 a2) = Ok s -> n1 = n2 /\ a1 = a2.
Proof.
  intros n1 a1 n2 a2 s D1 D2 K1 K2 E1 E2.
  destruct (C76_round_trip_partial shipped_flags n1 a1 shipped_space D1 K1) as (s1 & l1 & F1 & _ & R1 & (ds1 & e1 & -> & N1)).
  destruct (C76_round_trip_partial shipped_flags n2 a2 shipped_space D2 K2) as (s2 & l2 & F2 & _ & R2 & (ds2 & e2 & -> & N2)).
  assert (s1 = s) by congruence. assert (s2 = s) by congruence. subst s1 s2. rewrite R1 in R2. injection R2 as <- <- <-.
  split; [reflexivity|]. destruct (Z.eq_dec a1 a2) as [|N]; [assumption|exfalso].
  assert (P : forall a, double a -> Z.abs (with_sign n1 a) = a).
  { intros a (m & t & -> & M & T & _). assert (0 < 2 ^ t) by (apply Z.pow_pos_nonneg; lia). unfold with_sign. destruct n1; rewrite ?Z.abs_opp; apply Z.abs_eq; nia. }
  assert (X1 := N1 (with_sign n1 a2)). assert (X2 := N2 (with_sign n1 a1)). rewrite P in X1, X2 by assumption.
  specialize (X1 D2 ltac:(unfold with_sign; destruct n1; lia)). specialize (X2 D1 ltac:(unfold with_sign; destruct n1; lia)). lia.
Qed.
Print Assumptions C76_different_floats_differ_partial.

(** ** What goes wrong *)

(** 2^67 is 147573952589676412928, but its text is 1.4757395258967641e+2, which is read as a number below 148. *)
Theorem C76_exponent_refuted : double (2 ^ 1141) /\ exists s l, float64_to_string (Number false (2 ^ 1141)) = Ok s /\
  sdata s = [49; 46; 52; 55; 53; 55; 51; 57; 53; 50; 53; 56; 57; 54; 55; 54; 52; 49; 101; 43; 50] /\
  str_to_float64 shipped_flags s = Ok l /\ l = Finite false [49; 52; 55; 53; 55; 51; 57; 53; 50; 53; 56; 57; 54; 55; 54; 52; 49] (-14) /\
  ~ reads_as l false (2 ^ 1141).
Proof.
  Local Transparent unit_ shipped_flags. split; [exists (2 ^ 52), 1089; repeat split; try (right; lia); vm_compute; discriminate|].
  eexists. eexists. split; [vm_compute; reflexivity|]. split; [reflexivity|]. split; [vm_compute; reflexivity|]. split; [reflexivity|].
  intros (ds & e & E & N). injection E as <- <-. specialize (N 0). assert (X : double (Z.abs 0)) by (exists 0, 0; repeat split; try lia; now left).
  specialize (N X). vm_compute in N. specialize (N ltac:(discriminate)). discriminate.
Qed.
Local Opaque unit_ shipped_flags.
Print Assumptions C76_exponent_refuted.

(** Python prints the shortest text that is read as the number: 0.1; compiled code prints 0.10000000000000001. *)
Theorem C76_shortest_refuted : exists s, float64_to_string (Number false (3602879701896397 * 2 ^ 1019)) = Ok s /\
  sdata s = [48; 46; 49; 48; 48; 48; 48; 48; 48; 48; 48; 48; 48; 48; 48; 48; 48; 48; 49].
Proof. Local Transparent unit_. eexists. split; vm_compute; reflexivity. Qed.
Local Opaque unit_.
Print Assumptions C76_shortest_refuted.

(** What is not a number may have a sign: -nan. *)
Theorem C76_nan_refuted : exists s, float64_to_string (NaN true) = Ok s /\ sdata s = [45; 110; 97; 110].
Proof. eexists. split; vm_compute; reflexivity. Qed.
Print Assumptions C76_nan_refuted.

(** ** The hypotheses can be met *)

(** -1.5 and 1e+20: a number with decimals, and one with an exponent that ends with a zero. *)
Example ex_plain : double (3 * 2 ^ 1073) /\ unit_ <= 3 * 2 ^ 1073 * 10 ^ 4 /\ 3 * 2 ^ 1073 < 10 ^ 16 * unit_ /\
  exists s, float64_to_string (Number true (3 * 2 ^ 1073)) = Ok s /\ sdata s = [45; 49; 46; 53].
Proof.
  Local Transparent unit_. split; [exists (3 * 2 ^ 51), 1022; repeat split; try (right; lia); vm_compute; discriminate|].
  split; [vm_compute; discriminate|]. split; [vm_compute; reflexivity|]. eexists. split; vm_compute; reflexivity.
Qed.
Local Opaque unit_.
Example ex_exponent : double (10 ^ 20 * unit_) /\ exponent_kept (10 ^ 20 * unit_) /\
  exists s, float64_to_string (Number false (10 ^ 20 * unit_)) = Ok s /\ sdata s = [49; 101; 43; 50; 48].
Proof.
  Local Transparent unit_. split; [exists (5 ^ 20 * 2 ^ 6), 1088; split; [vm_compute; reflexivity|]; repeat split; try (right; lia); vm_compute; discriminate|].
  split; [|eexists; split; vm_compute; reflexivity]. Local Opaque unit_. intros k _ K (LO & HI). assert (UP := unit_positive). destruct K as [K | K].
  - replace (Z.max (- k) 0) with 0 in LO by lia. replace (Z.max k 0) with k in LO by lia. replace (Z.max (- (k + 1)) 0) with 0 in HI by lia.
    replace (Z.max (k + 1) 0) with (k + 1) in HI by lia. change (10 ^ 0) with 1 in *. rewrite !Z.mul_1_r in *.
    apply Z.mul_le_mono_pos_r in LO; [|exact UP]. apply Z.mul_lt_mono_pos_r in HI; [|exact UP].
    apply Z.pow_le_mono_r_iff in LO; [|lia|lia]. apply Z.pow_lt_mono_r_iff in HI; [|lia|lia]. assert (k = 20) as -> by lia.
    exists (10 ^ 15). change (10 ^ Z.max (16 - 20) 0) with 1. change (Z.max (20 - 16) 0) with 4. change (10 ^ 4) with 10000. change (10 * 10 ^ 15) with (10 ^ 16).
    replace (10 ^ 20 * unit_ * 1 - 10 ^ 16 * (unit_ * 10000)) with 0 by lia. change (Z.abs 0) with 0. lia.
  - exfalso. replace (Z.max (- (k + 1)) 0) with (- (k + 1)) in HI by lia. replace (Z.max (k + 1) 0) with 0 in HI by lia. change (10 ^ 0) with 1 in HI.
    assert (P := ten_positive (- (k + 1)) ltac:(lia)). change (10 ^ 20) with 100000000000000000000 in HI. nia.
Qed.
Local Opaque unit_.
