(** Proofs about operands of two types: arithmetic, result types and comparison. *)
From Verif Require Import Base Arith_Model Arith_Spec Arith_Proofs.
From Coq Require Import ZifyBool.
Open Scope Z_scope.
Open Scope result_scope.

(** ** Operators that only look at the bits that are kept *)
Lemma cast_shape t x : is_int t = true -> exists k, cast t x = x + k * 2 ^ bits t.
Proof. intros H. destruct (cast_reduced t x H) as [_ E]. exact E. Qed.
Lemma cast_cong_iff t x y : is_int t = true -> (cast t x = cast t y <-> x mod 2 ^ bits t = y mod 2 ^ bits t).
Proof.
  intros H. assert (0 < 2 ^ bits t) by (apply Z.pow_pos_nonneg; [lia|destruct t; cbn; lia]). split.
  - intros E. destruct (cast_shape t x H) as [k K], (cast_shape t y H) as [j J].
    replace x with (y + (j - k) * 2 ^ bits t) by lia. apply Z.mod_add. lia.
  - intros E. pose proof (Z.div_mod x (2 ^ bits t) ltac:(lia)). pose proof (Z.div_mod y (2 ^ bits t) ltac:(lia)).
    apply (cast_congruent t y x (x / 2 ^ bits t - y / 2 ^ bits t)); [exact H|]. lia.
Qed.
Lemma mod_bits w x n : 0 <= w -> 0 <= n -> Z.testbit (x mod 2 ^ w) n = (n <? w) && Z.testbit x n.
Proof.
  intros W N. destruct (Z.ltb_spec n w); cbn [andb]; [now apply Z.mod_pow2_bits_low|apply Z.mod_pow2_bits_high; lia].
Qed.
Lemma bitwise_mod (f : Z -> Z -> Z) (g : bool -> bool -> bool) : (forall a b n, Z.testbit (f a b) n = g (Z.testbit a n) (Z.testbit b n)) ->
  forall w x x' y y', 0 <= w -> x mod 2 ^ w = x' mod 2 ^ w -> y mod 2 ^ w = y' mod 2 ^ w -> f x y mod 2 ^ w = f x' y' mod 2 ^ w.
Proof.
  intros F w x x' y y' W X Y. apply Z.bits_inj'. intros n N. rewrite !mod_bits, !F by assumption.
  destruct (Z.ltb_spec n w); [|reflexivity]. cbn [andb].
  rewrite <- (Z.mod_pow2_bits_low x w n), <- (Z.mod_pow2_bits_low y w n), X, Y, !Z.mod_pow2_bits_low by lia. reflexivity.
Qed.
Definition keeps_bits (o : op) : bool := match o with Add | Sub | Mul | And | Or | Xor => true | _ => false end.
Lemma mixed_ring : forall o a b x y, is_int (promotes_to a b) = true -> keeps_bits o = true ->
  agrees (promotes_to a b) (interpreted2 o a b x y) (python o x y).
Proof.
  intros o a b x y H K. unfold interpreted2. set (t := promotes_to a b) in *.
  assert (0 <= bits t) as W by (destruct t; cbn; lia).
  assert (cast t x mod 2 ^ bits t = x mod 2 ^ bits t) as X by (apply cast_cong_iff; [exact H|]; apply cast_in_range; [exact H|]; apply cast_reduced, H).
  assert (cast t y mod 2 ^ bits t = y mod 2 ^ bits t) as Y by (apply cast_cong_iff; [exact H|]; apply cast_in_range; [exact H|]; apply cast_reduced, H).
  destruct o; try discriminate K; cbn [interpreted python]; apply agrees_cast; try exact H; apply cast_cong_iff; try exact H.
  - rewrite Zplus_mod, X, Y, <- Zplus_mod. reflexivity.
  - rewrite Zminus_mod, X, Y, <- Zminus_mod. reflexivity.
  - rewrite Zmult_mod, X, Y, <- Zmult_mod. reflexivity.
  - apply (bitwise_mod Z.land andb); auto using Z.land_spec.
  - apply (bitwise_mod Z.lor orb); auto using Z.lor_spec.
  - apply (bitwise_mod Z.lxor xorb); auto using Z.lxor_spec.
Qed.
Lemma mixed_exact : forall o a b x y, is_int (promotes_to a b) = true -> integer_op o = true ->
  in_range (promotes_to a b) x -> in_range (promotes_to a b) y ->
  (agrees (promotes_to a b) (interpreted2 o a b x y) (python o x y) <-> ~ interpreter_wrong o (promotes_to a b) x y).
Proof. intros o a b x y H I X Y. unfold interpreted2. rewrite !cast_in_range by assumption. now apply interpreted_exact. Qed.

(** ** The promoted type holds both operands *)
Lemma promotion_holds a b x : is_float (promotes_to a b) = false -> mixes_signs a b = false ->
  (in_range a x -> in_range (promotes_to a b) x) /\ (in_range b x -> in_range (promotes_to a b) x).
Proof. destruct a, b; intros F M; try discriminate F; try discriminate M; cbn [promotes_to in_range]; lia. Qed.
Lemma cast_holds t x : is_float t = false -> in_range t x -> cast t x = x.
Proof. intros F R. destruct (is_int t) eqn:I; [now apply cast_in_range|]. destruct t; try discriminate. destruct R as [->| ->]; reflexivity. Qed.
Lemma compare_exact : forall c a b x y, is_float (promotes_to a b) = false -> mixes_signs a b = false -> in_range a x -> in_range b y ->
  interpreted_compare c a b x y = compare c x y.
Proof.
  intros c a b x y F M X Y. unfold interpreted_compare.
  rewrite (cast_holds _ x F), (cast_holds _ y F); [reflexivity| |];
    [exact (proj2 (promotion_holds a b y F M) Y)|exact (proj1 (promotion_holds a b x F M) X)].
Qed.
Lemma compare_wrong : forall a b, mixes_signs a b = true ->
  exists x y, in_range a x /\ in_range b y /\ x <> y /\ interpreted_compare CEq a b x y = true.
Proof.
  intros a b M. destruct a, b; try discriminate M;
    first [exists (-1), (2 ^ bits U8 - 1); vm_compute; repeat split; congruence
          |exists (-1), (2 ^ bits U16 - 1); vm_compute; repeat split; congruence
          |exists (-1), (2 ^ bits U32 - 1); vm_compute; repeat split; congruence
          |exists (-1), (2 ^ bits U64 - 1); vm_compute; repeat split; congruence
          |exists (2 ^ bits U8 - 1), (-1); vm_compute; repeat split; congruence
          |exists (2 ^ bits U16 - 1), (-1); vm_compute; repeat split; congruence
          |exists (2 ^ bits U32 - 1), (-1); vm_compute; repeat split; congruence
          |exists (2 ^ bits U64 - 1), (-1); vm_compute; repeat split; congruence].
Qed.
Lemma compare_characterised : forall a b x y, is_int (promotes_to a b) = true ->
  (interpreted_compare CEq a b x y = true <-> x mod 2 ^ bits (promotes_to a b) = y mod 2 ^ bits (promotes_to a b)).
Proof. intros a b x y H. unfold interpreted_compare. cbn [compare]. rewrite Z.eqb_eq. now apply cast_cong_iff. Qed.

(** ** Result types *)
Lemma promotion_tables a b : result_type a b = Ok (promotes_to a b).
Proof. destruct a, b; reflexivity. Qed.
Lemma promotion_sym a b : promotes_to a b = promotes_to b a.
Proof. destruct a, b; reflexivity. Qed.
Lemma promotion_assoc a b c : promotes_to (promotes_to a b) c = promotes_to a (promotes_to b c).
Proof. destruct a, b, c; reflexivity. Qed.
Lemma promotion_wide a b : bits a <= bits (promotes_to a b) /\ bits b <= bits (promotes_to a b).
Proof. destruct a, b; cbn; lia. Qed.
