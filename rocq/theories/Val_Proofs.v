(** Proofs about comparing and hashing values. *)
From Coq Require Import ZifyBool ZifyNat.
From Verif Require Import Base HashAcc_Model ConstDict_Model Val_Model Val_Spec.
Open Scope Z_scope.
Open Scope result_scope.

(** ** Induction *)

Lemma val_ind2 (P : val -> Prop) :
  P VNone -> (forall b, P (VBool b)) -> (forall b z, P (VInt b z)) -> (forall b, P (VFloat b)) ->
  (forall p w c l, P (VStr p w c l)) -> (forall p c l, P (VBytes p c l)) ->
  (forall p c vs, Forall P vs -> P (VSeq p c vs)) -> (forall vs, Forall P vs -> P (VTuple vs)) ->
  (forall i v, P v -> P (VOneOf i v)) -> (forall p i v, P v -> P (VAlt p i v)) ->
  (forall v, P v -> P (VConst v)) -> (forall p, P (VObject p)) ->
  (forall p fs, Forall (fun f => match f with Some v => P v | None => True end) fs -> P (VHeld p fs)) ->
  forall v, P v.
Proof.
  intros H1 H2 H3 H4 H5 H6 H7 H8 H9 H10 H11 H12 H13.
  fix F 1; intros v; destruct v as [|b|b z|b|p w c l|p c l|p c vs|vs|i v|p i v|v|p|p fs].
  - exact H1.
  - exact (H2 b).
  - exact (H3 b z).
  - exact (H4 b).
  - exact (H5 p w c l).
  - exact (H6 p c l).
  - apply H7; induction vs; constructor; [apply F | assumption].
  - apply H8; induction vs; constructor; [apply F | assumption].
  - exact (H9 i v (F v)).
  - exact (H10 p i v (F v)).
  - exact (H11 v (F v)).
  - exact (H12 p).
  - apply H13; induction fs as [|[v|] fs IH]; constructor; try assumption; [apply F | exact I].
Qed.

Lemma tree_ind2 (P : tree -> Prop) : (forall z, P (Num z)) -> (forall l, Forall P l -> P (Node l)) -> forall x, P x.
Proof. intros H1 H2; fix F 1; intros [z|l]; [apply H1|]; apply H2; induction l; constructor; [apply F | assumption]. Qed.

Lemma all_Forall {A} (P : A -> Prop) l : all P l <-> Forall P l.
Proof.
  induction l as [|x l IH]; simpl; split; intros H; auto.
  - destruct H; constructor; tauto.
  - inversion H; tauto.
Qed.
Lemma all_in {A} (P : A -> Prop) l x : all P l -> In x l -> P x.
Proof. rewrite all_Forall, Forall_forall; auto. Qed.
Lemma all2_in {A B} (R : A -> B -> Prop) : forall l r ts x y,
  all2 R l ts -> all2 R r ts -> In (x, y) (combine l r) -> exists t, R x t /\ R y t.
Proof.
  induction l as [|a l IH]; intros [|b r] [|t ts] x y; simpl; try tauto.
  intros [H1 H2] [H3 H4] [[= <- <-]|H5]; eauto.
Qed.
Lemma all2_length {A B} (R : A -> B -> Prop) : forall l r, all2 R l r -> length l = length r.
Proof. induction l as [|a l IH]; intros [|b r]; simpl; try tauto; intros [_ H]; f_equal; auto. Qed.

(** ** The order of trees *)

Definition list_order (f : tree -> tree -> Z) : list tree -> list tree -> Z :=
  fix go l r :=
    match l, r with
    | [], [] => 0 | [], _ => -1 | _, [] => 1
    | x :: l, y :: r => if f x y =? 0 then go l r else f x y
    end.
Fixpoint torder (x y : tree) : Z :=
  match x, y with
  | Num a, Num b => sign a b
  | Num _, Node _ => -1
  | Node _, Num _ => 1
  | Node l, Node r => list_order torder l r
  end.

Lemma sign_cases a b : (a < b /\ sign a b = -1) \/ (a = b /\ sign a b = 0) \/ (b < a /\ sign a b = 1).
Proof. unfold sign; destruct (Z.ltb_spec a b), (Z.ltb_spec b a); lia. Qed.
Lemma sign_opp a b : sign b a = - sign a b.
Proof. pose proof (sign_cases a b); pose proof (sign_cases b a); lia. Qed.

Lemma torder_opp : forall x y, torder y x = - torder x y.
Proof.
  induction x as [a|l IH] using tree_ind2; intros [b|r]; simpl; auto using sign_opp.
  revert r; induction IH as [|x l Hx Hl IHl]; intros [|y r]; simpl; auto.
  rewrite Hx; destruct (Z.eqb_spec (torder x y) 0), (Z.eqb_spec (- torder x y) 0); auto; lia.
Qed.
Lemma torder_range : forall x y, torder x y = -1 \/ torder x y = 0 \/ torder x y = 1.
Proof.
  induction x as [a|l IH] using tree_ind2; intros [b|r]; simpl; auto.
  { pose proof (sign_cases a b); lia. }
  revert r; induction IH as [|x l Hx Hl IHl]; intros [|y r]; simpl; auto.
  destruct (Z.eqb_spec (torder x y) 0); auto.
Qed.
Lemma torder_eq : forall x y, torder x y = 0 <-> x = y.
Proof.
  induction x as [a|l IH] using tree_ind2; intros [b|r]; simpl.
  - pose proof (sign_cases a b); split; [intros; f_equal; lia | intros [= ->]; lia].
  - split; discriminate.
  - split; discriminate.
  - revert r; induction IH as [|x l Hx Hl IHl]; intros [|y r]; simpl; try (split; (discriminate || auto)).
    destruct (Z.eqb_spec (torder x y) 0) as [E|E].
    + apply Hx in E as ->; intros H; apply IHl in H; injection H as ->; auto.
    + intros H; contradiction.
    + intros [= <- <-]; replace (torder x x =? 0) with true by (symmetry; apply Z.eqb_eq, Hx; auto).
      apply IHl; auto.
Qed.
Lemma torder_refl x : torder x x = 0.
Proof. apply torder_eq; auto. Qed.
Lemma torder_lt : forall x y, torder x y = -1 <-> earlier x y.
Proof.
  induction x as [a|l IH] using tree_ind2; intros [b|r]; simpl.
  - pose proof (sign_cases a b); split; [intros; constructor; lia | intros H'; inversion H'; lia].
  - split; auto; constructor.
  - split; [discriminate | intros H; inversion H].
  - revert r; induction IH as [|x l Hx Hl IHl]; intros [|y r]; simpl.
    + split; [discriminate | intros H; inversion H].
    + split; auto; constructor.
    + split; [discriminate | intros H; inversion H].
    + destruct (Z.eqb_spec (torder x y) 0) as [E|E].
      * apply torder_eq in E as ->; rewrite IHl; split; [apply earlier_later|].
        intros H; inversion H as [| | |? ? ? ? H1|]; subst; auto.
        apply Hx in H1; rewrite torder_refl in H1; discriminate.
      * rewrite Hx; split; [apply earlier_here|].
        intros H; inversion H; subst; auto. rewrite torder_refl in E; contradiction.
Qed.
Lemma torder_trans : forall x y z, torder x y = -1 -> torder y z = -1 -> torder x z = -1.
Proof.
  induction x as [a|l IH] using tree_ind2; intros [b|r] [c|s]; simpl; try discriminate; auto.
  - pose proof (sign_cases a b); pose proof (sign_cases b c); pose proof (sign_cases a c); lia.
  - revert r s; induction IH as [|x l Hx Hl IHl]; intros [|y r] [|z s]; simpl; try discriminate; auto.
    destruct (Z.eqb_spec (torder x y) 0) as [E|E], (Z.eqb_spec (torder y z) 0) as [F|F]; intros H1 H2.
    + apply torder_eq in E as ->; rewrite F; cbn; eauto.
    + apply torder_eq in E as ->. destruct (Z.eqb_spec (torder y z) 0); auto; contradiction.
    + apply torder_eq in F as ->. destruct (Z.eqb_spec (torder x z) 0); auto; contradiction.
    + rewrite (Hx y z) by auto; reflexivity.
Qed.

(** ** Doubles *)

(** The value of a double from its place, for places that are not negative *)
Definition spread (m : Z) : Z :=
  if m / 2 ^ 52 =? 0 then m mod 2 ^ 52 else (2 ^ 52 + m mod 2 ^ 52) * 2 ^ (m / 2 ^ 52 - 1).
Definition spread_signed (x : Z) : Z := if x <? 0 then - spread (- x) else spread x.

Lemma spread_mono m n : 0 <= m < n -> spread m < spread n.
Proof.
  intros H; unfold spread.
  assert (Em := Z.div_mod m (2 ^ 52) ltac:(lia)); assert (En := Z.div_mod n (2 ^ 52) ltac:(lia)).
  assert (Bm := Z.mod_pos_bound m (2 ^ 52) ltac:(lia)); assert (Bn := Z.mod_pos_bound n (2 ^ 52) ltac:(lia)).
  assert (Lm : 0 <= m / 2 ^ 52) by (apply Z.div_pos; lia).
  assert (Le : m / 2 ^ 52 <= n / 2 ^ 52) by (apply Z.div_le_mono; lia).
  set (q := m / 2 ^ 52) in *; set (q' := n / 2 ^ 52) in *; set (f := m mod 2 ^ 52) in *; set (f' := n mod 2 ^ 52) in *.
  clearbody q q' f f'.
  destruct (Z.eqb_spec q 0) as [E|E], (Z.eqb_spec q' 0) as [E'|E']; try lia.
  - destruct (Z.eq_dec q q') as [<-|N].
    + assert (0 < 2 ^ (q - 1)) by (apply Z.pow_pos_nonneg; lia). apply Z.mul_lt_mono_pos_r; lia.
    + assert (H1 : 2 ^ q = 2 * 2 ^ (q - 1)).
      { replace q with (1 + (q - 1)) at 1 by lia. rewrite Z.pow_add_r by lia. reflexivity. }
      assert (H2 : 2 ^ q <= 2 ^ (q' - 1)) by (apply Z.pow_le_mono_r; lia).
      assert (0 < 2 ^ (q - 1)) by (apply Z.pow_pos_nonneg; lia).
      apply Z.lt_le_trans with (2 ^ 53 * 2 ^ (q - 1)); [apply Z.mul_lt_mono_pos_r; lia|].
      apply Z.le_trans with (2 ^ 52 * 2 ^ (q' - 1)); [|apply Z.mul_le_mono_nonneg_r; lia]. lia.
Qed.
Lemma spread_0 : spread 0 = 0.
Proof. reflexivity. Qed.
Lemma spread_signed_mono x y : x < y -> spread_signed x < spread_signed y.
Proof.
  intros H; unfold spread_signed.
  assert (P : forall z, 0 < z -> 0 < spread z) by (intros; rewrite <- spread_0; apply spread_mono; lia).
  destruct (Z.ltb_spec x 0), (Z.ltb_spec y 0); try lia.
  - pose proof (spread_mono (- y) (- x)); lia.
  - specialize (P (- x)); destruct (Z.eq_dec y 0) as [->|]; [rewrite spread_0|pose proof (spread_mono 0 y)]; rewrite ?spread_0 in *; lia.
  - apply spread_mono; lia.
Qed.
Lemma spread_signed_sign x y : sign (spread_signed x) (spread_signed y) = sign x y.
Proof.
  pose proof (spread_signed_mono x y); pose proof (spread_signed_mono y x).
  pose proof (sign_cases x y); pose proof (sign_cases (spread_signed x) (spread_signed y)).
  destruct (Z.eq_dec x y) as [->|]; lia.
Qed.

Lemma float_parts bits : 0 <= bits < 2 ^ 64 ->
  let m := bits mod 2 ^ 63 in
  0 <= m < 2 ^ 63 /\ bits / 2 ^ 52 mod 2 ^ 11 = m / 2 ^ 52 /\ bits mod 2 ^ 52 = m mod 2 ^ 52 /\
  bits = (if 2 ^ 63 <=? bits then 2 ^ 63 else 0) + m.
Proof.
  intros H m. assert (B := Z.mod_pos_bound bits (2 ^ 63) ltac:(lia)); fold m in B.
  assert (E : bits = (if 2 ^ 63 <=? bits then 2 ^ 63 else 0) + m).
  { subst m; destruct (Z.leb_spec (2 ^ 63) bits).
    - replace bits with ((bits - 2 ^ 63) + 1 * 2 ^ 63) at 2 by lia.
      rewrite Z.mod_add, Z.mod_small by lia; lia.
    - rewrite Z.mod_small; lia. }
  repeat split; lia.
Qed.

Lemma float_value_place bits : 0 <= bits < 2 ^ 64 ->
  float_value bits = match float_place bits with Some x => Some (spread_signed x) | None => None end.
Proof.
  intros H; destruct (float_parts bits H) as (B & Ee & Em & Es).
  unfold float_value, float_place; rewrite Ee, Em; set (m := bits mod 2 ^ 63) in *.
  assert (Q := Z.div_mod m (2 ^ 52) ltac:(lia)); assert (R := Z.mod_pos_bound m (2 ^ 52) ltac:(lia)).
  set (s := if 2 ^ 63 <=? bits then -1 else 1).
  assert (S : spread_signed (if 2 ^ 63 <=? bits then - m else m) = s * spread m).
  { subst s; unfold spread_signed. destruct (2 ^ 63 <=? bits).
    - destruct (Z.ltb_spec (- m) 0); [rewrite Z.opp_involutive; lia|].
      replace m with 0 by lia. reflexivity.
    - destruct (Z.ltb_spec m 0); lia. }
  change 0x7FF0000000000000 with (2047 * 2 ^ 52).
  destruct (Z.eqb_spec (m / 2 ^ 52) 2047) as [E|E].
  - destruct (Z.eqb_spec (m mod 2 ^ 52) 0) as [F|F].
    + replace (2047 * 2 ^ 52 <? m) with false by lia. rewrite S. unfold spread; rewrite E, F. f_equal.
    + replace (2047 * 2 ^ 52 <? m) with true by lia. reflexivity.
  - replace (2047 * 2 ^ 52 <? m) with false by lia. rewrite S. unfold spread.
    destruct (m / 2 ^ 52 =? 0); reflexivity.
Qed.
Lemma float_sign_value a b x y : 0 <= a < 2 ^ 64 -> 0 <= b < 2 ^ 64 ->
  float_value a = Some x -> float_value b = Some y -> float_sign a b = sign x y.
Proof.
  intros Ha Hb; rewrite !float_value_place by auto; unfold float_sign.
  destruct (float_place a), (float_place b); try discriminate.
  intros [= <-] [= <-]; symmetry; apply spread_signed_sign.
Qed.
Lemma float_same a b x : 0 <= a < 2 ^ 64 -> 0 <= b < 2 ^ 64 ->
  float_value a = Some x -> float_value b = Some x -> hash_float a = hash_float b.
Proof.
  intros Ha Hb Ea Eb.
  destruct (float_parts a Ha) as (Ba & Eea & Ema & Esa); destruct (float_parts b Hb) as (Bb & Eeb & Emb & Esb).
  rewrite float_value_place in Ea, Eb by auto; unfold float_place in Ea, Eb.
  destruct (_ <? a mod 2 ^ 63); [discriminate|]. destruct (_ <? b mod 2 ^ 63); [discriminate|].
  remember (if 2 ^ 63 <=? a then - (a mod 2 ^ 63) else a mod 2 ^ 63) as u eqn:Hu.
  remember (if 2 ^ 63 <=? b then - (b mod 2 ^ 63) else b mod 2 ^ 63) as w eqn:Hw.
  assert (P : u = w).
  { assert (E1 : spread_signed u = x) by congruence. assert (E2 : spread_signed w = x) by congruence.
    pose proof (spread_signed_sign u w) as S; rewrite E1, E2 in S.
    pose proof (sign_cases x x); pose proof (sign_cases u w); lia. }
  rewrite Hu, Hw in P.
  destruct (Z.eq_dec a b) as [->|N]; auto.
  assert (Z0 : a mod 2 ^ 63 = 0 /\ b mod 2 ^ 63 = 0).
  { destruct (Z.leb_spec (2 ^ 63) a), (Z.leb_spec (2 ^ 63) b); lia. }
  destruct Z0 as [Za Zb]; rewrite Za in *; rewrite Zb in *.
  unfold hash_float, float_int32; rewrite Eea, Ema, Eeb, Emb; reflexivity.
Qed.

(** ** Arrays of numbers *)

Lemma array_order : forall l r, list_order torder (map Num l) (map Num r) =
  if negb (array_compare l r =? 0) then array_compare l r else sign (Z.of_nat (length l)) (Z.of_nat (length r)).
Proof.
  induction l as [|x l IH]; intros [|y r]; cbn [map list_order array_compare length]; auto.
  cbn [torder]; rewrite IH. pose proof (sign_cases x y).
    destruct (Z.ltb_spec x y), (Z.ltb_spec y x); try lia.
    + replace (sign x y) with (-1) by lia; reflexivity.
    + replace (sign x y) with 1 by lia; reflexivity.
    + replace (sign x y) with 0 by lia; cbn [Z.eqb]. destruct (negb _); auto.
      pose proof (sign_cases (Z.of_nat (length l)) (Z.of_nat (length r))).
      pose proof (sign_cases (Z.of_nat (S (length l))) (Z.of_nat (S (length r)))). lia.
Qed.
Lemma string_sign_order p q l r : (p = 0 <-> l = []) -> (q = 0 <-> r = []) ->
  string_sign p q l r = list_order torder (map Num l) (map Num r).
Proof.
  intros Hp Hq; unfold string_sign; rewrite array_order.
  destruct (Z.eqb_spec p 0) as [E|E], (Z.eqb_spec q 0) as [F|F]; cbn [andb]; auto.
  - apply Hp in E; apply Hq in F; subst; reflexivity.
  - apply Hp in E; subst. destruct r; [tauto|]. rewrite <- array_order; reflexivity.
  - apply Hq in F; subst. destruct l; [tauto|]. rewrite <- array_order; reflexivity.
Qed.
Lemma string_eq_order p q l r : (p = 0 <-> l = []) -> (q = 0 <-> r = []) ->
  string_eq p q l r = (list_order torder (map Num l) (map Num r) =? 0).
Proof.
  intros Hp Hq; rewrite <- (string_sign_order p q) by auto; unfold string_eq, string_sign.
  destruct ((p =? 0) && (q =? 0)), (p =? 0), (q =? 0); auto.
  pose proof (sign_cases (Z.of_nat (length l)) (Z.of_nat (length r))).
  destruct (Z.eqb_spec (array_compare l r) 0), (Z.eqb_spec (Z.of_nat (length l)) (Z.of_nat (length r))); cbn [negb]; lia.
Qed.
Lemma bytes_sign_order p q l r : (p = 0 <-> l = []) -> (q = 0 <-> r = []) -> (p = q -> l = r) ->
  bytes_sign p q l r = list_order torder (map Num l) (map Num r).
Proof.
  intros Hp Hq H; rewrite <- (string_sign_order p q) by auto; unfold bytes_sign, string_sign.
  destruct ((p =? 0) && (q =? 0)), (p =? 0), (q =? 0); auto.
  destruct (Z.eqb_spec p q) as [E|E]; auto. rewrite (H E).
  assert (A : forall l, array_compare l l = 0) by (induction l0; cbn; rewrite ?Z.ltb_irrefl; auto).
  rewrite A; cbn. unfold sign; rewrite Z.ltb_irrefl; auto.
Qed.
