(** Property C75: numbers from text, and text from numbers, in compiled code. *)
From Coq Require Import List ZArith Lia ZifyBool.
From Verif Require Import Base Text_Model TextAsk_Model TextAsk_Spec TextAsk_Proofs Utf8_Model Utf8_Spec TextCell_Model TextCell_Spec TextCell_Proofs TextNum_Model TextNum_Spec TextNum_Proofs.
Import ListNotations.
Open Scope Z_scope.
Open Scope list_scope.

Local Opaque shipped_flags.
Lemma shipped_space : spaces_of shipped_flags unicode_space.
Proof. intros c C. exact (shipped_spaces c C). Qed.
Lemma unicode_usual : usual_spaces unicode_space.
Proof. intros c C. unfold unicode_space in C. unfold unicode_spaces in C. cbn [In] in C. intuition lia. Qed.
Local Hint Resolve unicode_usual : core.

(** ** [int(text)] *)

(** The integers of sixty-four bits are read from every text that says them, with spaces around, a sign and underscores between digits. *)
Theorem C75_int_partial : forall uprops s v, spaces_of uprops unicode_space -> Forall (fun c => 0 <= c < 1114112) (sdata s) ->
  says_int unicode_space ascii_value (sdata s) v -> - 2 ^ 63 <= v < 2 ^ 63 -> str_to_int64 uprops s = Ok v.
Proof.
  intros uprops s v T B H R. unfold str_to_int64. rewrite (int_reads uprops unicode_space T unicode_usual (sdata s) v B H). cbn [bind]. f_equal.
  now apply wrap64_small.
Qed.
Print Assumptions C75_int_partial.
Theorem C75_int_bytes_partial : forall uprops x v, spaces_of uprops unicode_space -> Forall (fun c => 0 <= c < 256) (bdata x) ->
  says_int unicode_space ascii_value (bdata x) v -> - 2 ^ 63 <= v < 2 ^ 63 -> bytes_to_int64 uprops x = Ok v.
Proof.
  intros uprops x v T B H R. unfold bytes_to_int64.
  assert (B' : Forall (fun c => 0 <= c < 1114112) (bdata x)) by (revert B; apply Forall_impl; lia).
  rewrite (int_reads uprops unicode_space T unicode_usual (bdata x) v B' H). cbn [bind]. f_equal. now apply wrap64_small.
Qed.
Print Assumptions C75_int_bytes_partial.

(** Any other text is refused: a text that is read says a number, and the outcome is that number without its higher bits. *)
Theorem C75_int_refuses : forall uprops s, spaces_of uprops unicode_space -> Forall (fun c => 0 <= c < 1114112) (sdata s) ->
  str_to_int64 uprops s = Err ValueError /\ (forall v, ~ says_int unicode_space ascii_value (sdata s) v) \/
  exists v, str_to_int64 uprops s = Ok (wrap_s 64 v) /\ says_int unicode_space ascii_value (sdata s) v.
Proof.
  intros uprops s T B. unfold str_to_int64. destruct (int_sound uprops unicode_space T (sdata s) B) as [E | (v & E & H)].
  - left. rewrite E. split; [reflexivity|]. intros v H. rewrite (int_reads uprops unicode_space T unicode_usual _ v B H) in E. discriminate.
  - right. exists v. rewrite E. auto.
Qed.
Print Assumptions C75_int_refuses.
Theorem C75_int_bytes_refuses : forall uprops x, spaces_of uprops unicode_space -> Forall (fun c => 0 <= c < 256) (bdata x) ->
  bytes_to_int64 uprops x = Err ValueError /\ (forall v, ~ says_int unicode_space ascii_value (bdata x) v) \/
  exists v, bytes_to_int64 uprops x = Ok (wrap_s 64 v) /\ says_int unicode_space ascii_value (bdata x) v.
Proof.
  intros uprops x T B. assert (B' : Forall (fun c => 0 <= c < 1114112) (bdata x)) by (revert B; apply Forall_impl; lia).
  unfold bytes_to_int64. destruct (int_sound uprops unicode_space T (bdata x) B') as [E | (v & E & H)].
  - left. rewrite E. split; [reflexivity|]. intros v H. rewrite (int_reads uprops unicode_space T unicode_usual _ v B' H) in E. discriminate.
  - right. exists v. rewrite E. auto.
Qed.
Print Assumptions C75_int_bytes_refuses.

(** ** [str(number)] *)

(** The text of every [int] is the usual one, fits in the array that it is written to, and is read back as the same number. *)
Theorem C75_int_text_round_trip : forall uprops i, spaces_of uprops unicode_space -> - 2 ^ 63 <= i < 2 ^ 63 ->
  exists s, int64_to_string i = Ok s /\ holds s /\ usual_text i (sdata s) /\ str_to_int64 uprops s = Ok i.
Proof.
  intros uprops i T R. destruct (int64_text i R) as (s & E & H & HO). exists s. split; [exact E|]. split; [exact HO|]. split; [exact H|].
  apply C75_int_partial; auto; [now apply (usual_points i)|now apply usual_says].
Qed.
Print Assumptions C75_int_text_round_trip.

(** The text of a [UInt64] is the usual one with "u64" behind it. *)
Theorem C75_uint_text : forall i, 0 <= i < 2 ^ 64 ->
  exists s cs, uint64_to_string i = Ok s /\ holds s /\ sdata s = cs ++ [117; 54; 52] /\ usual_text i cs.
Proof. intros i R. destruct (uint64_text i R) as (s & cs & E & D & H & HO). exists s, cs. auto. Qed.
Print Assumptions C75_uint_text.

(** Of the smaller types it is that of the [int], with the name of the type behind it. *)
Theorem C75_small_int_text : forall i suffix, - 2 ^ 63 <= i < 2 ^ 63 -> Forall (fun c => 0 <= c < 128) suffix ->
  exists s cs, small_int_to_string suffix i = Ok s /\ holds s /\ sdata s = cs ++ suffix /\ usual_text i cs.
Proof.
  intros i suffix R F. destruct (int64_text i R) as (s & E & H & HO). destruct (create_ascii suffix F) as (t & E' & D' & HO').
  unfold small_int_to_string. rewrite E. cbn [bind]. rewrite E'. cbn [bind]. exists (str_concat s t), (sdata s).
  split; [reflexivity|]. split; [now apply holds_concat|]. split; [|exact H]. rewrite <- D'. destruct s, t; cbn [str_concat sdata codepoints]; now rewrite ?app_nil_r.
Qed.
Print Assumptions C75_small_int_text.

(** ** [float(text)] *)

(** Every text of up to forty-eight characters, not counting spaces and underscores, that says a number is read as that number. *)
Theorem C75_float_partial : forall uprops s l, spaces_of uprops unicode_space -> Forall (fun c => 0 <= c < 1114112) (sdata s) ->
  says_float unicode_space ascii_value (sdata s) l -> counted uprops (sdata s) <= 48 -> str_to_float64 uprops s = Ok l.
Proof. intros uprops s l T B H L. unfold str_to_float64. now rewrite (float_reads uprops unicode_space T unicode_usual (sdata s) l B H L). Qed.
Print Assumptions C75_float_partial.
Theorem C75_float_bytes_partial : forall uprops x l, spaces_of uprops unicode_space -> Forall (fun c => 0 <= c < 256) (bdata x) ->
  says_float unicode_space ascii_value (bdata x) l -> counted uprops (bdata x) <= 48 -> bytes_to_float64 uprops x = Ok l.
Proof.
  intros uprops x l T B H L. assert (B' : Forall (fun c => 0 <= c < 1114112) (bdata x)) by (revert B; apply Forall_impl; lia).
  unfold bytes_to_float64. now rewrite (float_reads uprops unicode_space T unicode_usual (bdata x) l B' H L).
Qed.
Print Assumptions C75_float_bytes_partial.

(** A text with at most one point and one exponent, in that order, is only read if it says a number, or has a point without digits. *)
Theorem C75_float_refuses_partial : forall uprops s l, spaces_of uprops unicode_space -> Forall (fun c => 0 <= c < 1114112) (sdata s) ->
  counted uprops (sdata s) <= 48 -> tidy (sdata s) -> str_to_float64 uprops s = Ok l -> l = Nothing \/ says_float unicode_space ascii_value (sdata s) l.
Proof.
  intros uprops s l T B L H E. unfold str_to_float64 in E. destruct (to_float64 uprops (sdata s)) as [[v|]|] eqn:E1; try discriminate.
  cbn [bind] in E. injection E as ->. now apply (float_sound uprops unicode_space T unicode_usual).
Qed.
Print Assumptions C75_float_refuses_partial.

(** ** Zeros at the end of [str(float)] *)

(** The zeros at the end of the decimals go, but for one if there are no other decimals. *)
Theorem C75_zeros_of_decimals : forall sign n whole decimals, signed sign n -> Forall (fun c => is_digit c = true) (whole ++ decimals) ->
  exists kept zeros, decimals = kept ++ repeat 48 zeros /\ remove_trailing_zeros (sign ++ whole ++ 46 :: decimals) = sign ++ whole ++ 46 :: kept /\
    (ended kept \/ kept = [48]) /\ (kept = nil <-> decimals = nil).
Proof.
  intros sign n w f SI D. apply Forall_app in D. destruct D as (W & F). destruct (trailing f) as (a & k & -> & E). apply Forall_app in F. destruct F as (F & _).
  assert (N : ~ In 46 (sign ++ w)).
  { intros J. apply in_app_iff in J. destruct J as [J | J]; [destruct SI; cbn [In] in J; intuition discriminate|]. rewrite Forall_forall in W. apply W in J. discriminate. }
  assert (Q := zeros_fixed (sign ++ w) a k N E F). rewrite <- !(app_assoc sign) in Q. rewrite Q. destruct a as [|x a], k as [|k].
  - exists nil, 0%nat. split; [reflexivity|]. split; [reflexivity|]. split; [left; exact E|tauto].
  - exists [48], k. split; [reflexivity|]. split; [reflexivity|]. split; [now right|split; discriminate].
  - exists (x :: a), 0%nat. split; [reflexivity|]. split; [now rewrite app_nil_r|]. split; [left; exact E|split; discriminate].
  - exists (x :: a), (S k). split; [reflexivity|]. split; [now rewrite app_nil_r|]. split; [left; exact E|split; discriminate].
Qed.
Print Assumptions C75_zeros_of_decimals.

(** Before an exponent they go with the point if there are no other decimals; if there are none of them, and the exponent does not
    end with a zero, nothing goes. *)
Theorem C75_zeros_before_exponent_partial : forall sign n whole decimals zeros expsign m exponent, signed sign n -> signed expsign m ->
  Forall (fun c => is_digit c = true) (whole ++ decimals ++ exponent) -> ended decimals -> exponent <> nil ->
  (zeros = 0%nat -> ended exponent) -> (zeros = 0%nat -> decimals <> nil) ->
  remove_trailing_zeros (sign ++ whole ++ 46 :: (decimals ++ repeat 48 zeros) ++ 101 :: expsign ++ exponent) =
  sign ++ whole ++ (match decimals with nil => nil | _ => 46 :: decimals end) ++ 101 :: expsign ++ exponent.
Proof.
  intros sign n w a k es m x SI SX D E NX Z1 Z2. rewrite !Forall_app in D. destruct D as (W & F & X).
  assert (N : ~ In 46 (sign ++ w)).
  { intros J. apply in_app_iff in J. destruct J as [J | J]; [destruct SI; cbn [In] in J; intuition discriminate|]. rewrite Forall_forall in W. apply W in J. discriminate. }
  rewrite !(app_assoc sign). destruct k as [|k]; [|rewrite zeros_exponent; auto; lia].
  cbn [repeat]. rewrite app_nil_r. destruct (Z1 eq_refl) as [-> | (b & y & -> & Y)]; [congruence|].
  apply Forall_app in X. destruct X as (X & Xy). apply Forall_inv in Xy. rewrite (app_assoc es).
  rewrite zeros_none; auto.
  - destruct a; [now destruct (Z2 eq_refl)|reflexivity].
  - intros J. apply in_app_iff in J. destruct J as [J | J]; [destruct SX; cbn [In] in J; intuition discriminate|]. rewrite Forall_forall in X. apply X in J. discriminate.
  - intros J. apply in_app_iff in J. destruct J as [J | J]; [destruct SX; cbn [In] in J; intuition discriminate|]. rewrite Forall_forall in X. apply X in J. discriminate.
  - unfold is_digit in Xy. lia.
  - unfold is_digit in Xy. lia.
Qed.
Print Assumptions C75_zeros_before_exponent_partial.

(** ** What goes wrong *)

(** Larger integers wrap around without an error: 9223372036854775808 is read as its negative. *)
Theorem C75_int_overflow_refuted : forall uprops s v, spaces_of uprops unicode_space -> Forall (fun c => 0 <= c < 1114112) (sdata s) ->
  says_int unicode_space ascii_value (sdata s) v -> 2 ^ 63 <= v < 2 ^ 64 -> str_to_int64 uprops s = Ok (v - 2 ^ 64).
Proof.
  intros uprops s v T B H R. unfold str_to_int64. rewrite (int_reads uprops unicode_space T unicode_usual (sdata s) v B H). cbn [bind]. f_equal.
  change (2 ^ 63) with 9223372036854775808 in R. change (2 ^ 64) with 18446744073709551616 in *. unfold wrap_s.
  change (2 ^ 64) with 18446744073709551616. change (2 ^ (64 - 1)) with 9223372036854775808. cbv zeta.
  rewrite Z.mod_small by lia. destruct (_ <? _) eqn:E; lia.
Qed.
Print Assumptions C75_int_overflow_refuted.

(** The digits of other scripts are refused, though they are digits: U+0661. *)
Theorem C75_other_digits_refuted : has (shipped_flags 1633) DECIMAL = true /\ str_to_int64 shipped_flags (from_python [1633]) = Err ValueError.
Proof. Local Transparent shipped_flags. split; vm_compute; reflexivity. Qed.
Local Opaque shipped_flags.
Print Assumptions C75_other_digits_refuted.

(** Bytes that are spaces as characters, but not for Python in bytes, are skipped: 0xA0 and 0x1F. *)
Theorem C75_bytes_spaces_refuted : bytes_to_int64 shipped_flags (Some [160; 53; 31]) = Ok 5.
Proof. Local Transparent shipped_flags. vm_compute. reflexivity. Qed.
Local Opaque shipped_flags.
Print Assumptions C75_bytes_spaces_refuted.

(** A point without digits is read as zero: "." and "-.e5". *)
Theorem C75_point_refuted :
  str_to_float64 shipped_flags (from_python [46]) = Ok Nothing /\ str_to_float64 shipped_flags (from_python [45; 46; 101; 53]) = Ok Nothing.
Proof. Local Transparent shipped_flags. split; vm_compute; reflexivity. Qed.
Local Opaque shipped_flags.
Print Assumptions C75_point_refuted.
(** Texts with two points are read up to the second, if there are two digits between them: "192.168.10.11" is 192.168; so are
    exponents with a point or a second exponent: "1e+5.5" and "1e55e5". *)
Theorem C75_two_points_refuted :
  str_to_float64 shipped_flags (from_python [49; 57; 50; 46; 49; 54; 56; 46; 49; 48; 46; 49; 49]) = Ok (Finite false [49; 57; 50; 49; 54; 56] (-3)) /\
  str_to_float64 shipped_flags (from_python [49; 101; 43; 53; 46; 53]) = Ok (Finite false [49] 5) /\
  str_to_float64 shipped_flags (from_python [49; 101; 53; 53; 101; 53]) = Ok (Finite false [49] 55).
Proof. Local Transparent shipped_flags. repeat split; vm_compute; reflexivity. Qed.
Local Opaque shipped_flags.
Print Assumptions C75_two_points_refuted.
(** Longer texts are cut: a one with sixty zeros is read as 10^47. *)
Theorem C75_long_float_refuted :
  says_float unicode_space ascii_value (49 :: repeat 48 60) (Finite false (49 :: repeat 48 60) 0) /\
  str_to_float64 shipped_flags (from_python (49 :: repeat 48 60)) = Ok (Finite false (49 :: repeat 48 47) 0).
Proof.
  Local Transparent shipped_flags. split; [|vm_compute; reflexivity].
  assert (G : grouped ascii_value (49 :: repeat 48 60) (1 :: repeat 0 60)) by (cbn [repeat]; repeat first [now apply last_digit|apply next_digit; [reflexivity|]]).
  assert (X := finite unicode_space ascii_value nil nil (49 :: repeat 48 60) nil nil false (1 :: repeat 0 60) nil 0 (Forall_nil _) (Forall_nil _) (no_sign) (whole_only _ _ _ G) (no_power _)).
  cbn in X. exact X.
Qed.
Local Opaque shipped_flags.
Print Assumptions C75_long_float_refuted.
(** Behind a character 0 anything goes: "inf", 0, "x". *)
Theorem C75_zero_character_refuted : str_to_float64 shipped_flags (from_python [105; 110; 102; 0; 120]) = Ok (Infinite false).
Proof. Local Transparent shipped_flags. vm_compute. reflexivity. Qed.
Local Opaque shipped_flags.
Print Assumptions C75_zero_character_refuted.

(** If the decimals do not end with a zero, but the exponent does, the exponent loses its zeros: 1.2345678901234567e+20 is printed as
    1.2345678901234567e+2. *)
Theorem C75_zeros_of_exponent_refuted : forall sign n whole decimals expsign m exponent zeros, signed sign n -> signed expsign m ->
  Forall (fun c => is_digit c = true) (whole ++ decimals ++ exponent) -> ended decimals -> decimals <> nil -> ended exponent -> exponent <> nil ->
  remove_trailing_zeros (sign ++ whole ++ 46 :: decimals ++ 101 :: expsign ++ exponent ++ repeat 48 zeros) =
  sign ++ whole ++ 46 :: decimals ++ 101 :: expsign ++ exponent.
Proof.
  intros sign n w a es m x k SI SX D E NA EX NX. rewrite !Forall_app in D. destruct D as (W & F & X).
  assert (N : ~ In 46 (sign ++ w)).
  { intros J. apply in_app_iff in J. destruct J as [J | J]; [destruct SI; cbn [In] in J; intuition discriminate|]. rewrite Forall_forall in W. apply W in J. discriminate. }
  rewrite !(app_assoc sign), !(app_assoc es). destruct EX as [-> | (b & y & -> & Y)]; [congruence|]. rewrite zeros_lost; auto.
  - intros J. apply in_app_iff in J. destruct J as [J | J]; [destruct SX; cbn [In] in J; intuition discriminate|]. rewrite Forall_forall in X. apply X in J. discriminate.
  - intros J. apply in_app_iff in J. destruct J as [J | J]; [destruct SX; cbn [In] in J; intuition discriminate|]. rewrite Forall_forall in X. apply X in J. discriminate.
  - exists (es ++ b), y. rewrite app_assoc. auto.
Qed.
Print Assumptions C75_zeros_of_exponent_refuted.

(** ** The hypotheses can be met *)

(** " -1_000 " *)
Example ex_int : spaces_of shipped_flags unicode_space /\ says_int unicode_space ascii_value [32; 45; 49; 95; 48; 48; 48; 32] (-1000) /\
  str_to_int64 shipped_flags (from_python [32; 45; 49; 95; 48; 48; 48; 32]) = Ok (-1000).
Proof.
  split; [exact shipped_space|]. split.
  - exists [32], [45], [49; 95; 48; 48; 48], [32], true, [1; 0; 0; 0]. split; [reflexivity|]. unfold unicode_space, unicode_spaces. split; [|split; [|split; [|split]]].
    + constructor; [cbn; tauto|constructor].
    + constructor; [cbn; tauto|constructor].
    + constructor.
    + apply next_group; [reflexivity|]. repeat first [now apply last_digit|apply next_digit; [reflexivity|]].
    + reflexivity.
  - Local Transparent shipped_flags. vm_compute. reflexivity.
Qed.
Local Opaque shipped_flags.
(** "-2.50e-3" and " Infinity" *)
Example ex_float : says_float unicode_space ascii_value [45; 50; 46; 53; 48; 101; 45; 51] (Finite true [50; 53; 48] (-5)) /\
  tidy [45; 50; 46; 53; 48; 101; 45; 51] /\ str_to_float64 shipped_flags (from_python [45; 50; 46; 53; 48; 101; 45; 51]) = Ok (Finite true [50; 53; 48] (-5)) /\
  str_to_float64 shipped_flags (from_python [32; 73; 110; 102; 105; 110; 105; 116; 121]) = Ok (Infinite false).
Proof.
  Local Transparent shipped_flags. split; [|split; [|split; vm_compute; reflexivity]].
  - assert (G : grouped ascii_value [50] [2]) by now apply last_digit.
    assert (G' : grouped ascii_value [53; 48] [5; 0]) by (apply next_digit; [reflexivity|]; now apply last_digit).
    assert (G'' : grouped ascii_value [51] [3]) by now apply last_digit.
    exact (finite unicode_space ascii_value nil [45] [50; 46; 53; 48] [101; 45; 51] nil true [2] [5; 0] (-3) (Forall_nil _) (Forall_nil _) minus
      (whole_fraction _ _ _ _ _ G G') (with_power _ 101 [45] true [51] [3] (or_introl eq_refl) minus G'')).
  - intros b c a E. repeat (destruct b as [|x b]; [injection E as <- <-; unfold follows; cbn [In]; repeat split; intuition (try discriminate; try lia)|injection E as <- E]).
    destruct b; discriminate.
Qed.
Local Opaque shipped_flags.
Example ex_text : int64_to_string (- 2 ^ 63) = Ok (from_python [45; 57; 50; 50; 51; 51; 55; 50; 48; 51; 54; 56; 53; 52; 55; 55; 53; 56; 48; 56]) /\
  uint64_to_string 12 = Ok (from_python [49; 50; 117; 54; 52]) /\ small_int_to_string [117; 56] 200 = Ok (from_python [50; 48; 48; 117; 56]) /\
  bool_to_string true = Ok (from_python [84; 114; 117; 101]).
Proof. repeat split; vm_compute; reflexivity. Qed.
(** 1.50, 1.00, 1.500e7, 1.000e7 and 1.25e+20 *)
Example ex_zeros : remove_trailing_zeros [49; 46; 53; 48] = [49; 46; 53] /\ remove_trailing_zeros [49; 46; 48; 48] = [49; 46; 48] /\
  remove_trailing_zeros [49; 46; 53; 48; 48; 101; 55] = [49; 46; 53; 101; 55] /\ remove_trailing_zeros [49; 46; 48; 48; 48; 101; 55] = [49; 101; 55] /\
  remove_trailing_zeros [49; 46; 50; 53; 101; 43; 50; 48] = [49; 46; 50; 53; 101; 43; 50].
Proof. repeat split; vm_compute; reflexivity. Qed.
