(** Proofs about Utf8_Model. *)
From Coq Require Import List ZArith Lia ZifyBool ZifyNat.
From Verif Require Import Base Text_Model Utf8_Model Utf8_Spec.
Import ListNotations.
Open Scope Z_scope.
Open Scope list_scope.
Ltac Zify.zify_post_hook ::= Z.to_euclidean_division_equations.

(** ** Bits *)

Lemma or_add : forall k x n, 0 <= n -> 0 <= x < 2 ^ n -> Z.lor (Z.shiftl k n) x = Z.shiftl k n + x.
Proof.
  intros k x n N X. assert (L : Z.land (Z.shiftl k n) x = 0).
  { apply Z.bits_inj'. intros i Hi. rewrite Z.land_spec, Z.bits_0. destruct (Z.lt_ge_cases i n) as [C|C].
    - rewrite Z.shiftl_spec_low by lia. reflexivity.
    - rewrite <- (Z.mod_small x (2 ^ n)) by lia. rewrite Z.mod_pow2_bits_high by lia. apply andb_false_r. }
  rewrite Z.add_nocarry_lxor by exact L. now rewrite Z.lxor_lor.
Qed.
Lemma or128 : forall x, 0 <= x < 64 -> Z.lor 128 x = 128 + x.
Proof. intros x X. change 128 with (Z.shiftl 2 6). now apply or_add; [lia|change (2 ^ 6) with 64]. Qed.
Lemma or192 : forall x, 0 <= x < 32 -> Z.lor 192 x = 192 + x.
Proof. intros x X. change 192 with (Z.shiftl 3 6). apply or_add; [lia|change (2 ^ 6) with 64; lia]. Qed.
Lemma or224 : forall x, 0 <= x < 16 -> Z.lor 224 x = 224 + x.
Proof. intros x X. change 224 with (Z.shiftl 7 5). apply or_add; [lia|change (2 ^ 5) with 32; lia]. Qed.
Lemma or240 : forall x, 0 <= x < 8 -> Z.lor 240 x = 240 + x.
Proof. intros x X. change 240 with (Z.shiftl 15 4). apply or_add; [lia|change (2 ^ 4) with 16; lia]. Qed.
Lemma and63 : forall x, Z.land x 63 = x mod 64.
Proof. intros. change 63 with (Z.ones 6). now rewrite Z.land_ones. Qed.
Lemma and31 : forall x, Z.land x 31 = x mod 32.
Proof. intros. change 31 with (Z.ones 5). now rewrite Z.land_ones. Qed.
Lemma and15 : forall x, Z.land x 15 = x mod 16.
Proof. intros. change 15 with (Z.ones 4). now rewrite Z.land_ones. Qed.
Lemma and7 : forall x, Z.land x 7 = x mod 8.
Proof. intros. change 7 with (Z.ones 3). now rewrite Z.land_ones. Qed.
Lemma shr6 : forall x, Z.shiftr x 6 = x / 64.   Proof. intros. now rewrite Z.shiftr_div_pow2. Qed.
Lemma shr12 : forall x, Z.shiftr x 12 = x / 4096.   Proof. intros. now rewrite Z.shiftr_div_pow2. Qed.
Lemma shr18 : forall x, Z.shiftr x 18 = x / 262144.   Proof. intros. now rewrite Z.shiftr_div_pow2. Qed.
Lemma shr7 : forall x, Z.shiftr x 7 = x / 128.   Proof. intros. now rewrite Z.shiftr_div_pow2. Qed.
Lemma shr5 : forall x, Z.shiftr x 5 = x / 32.   Proof. intros. now rewrite Z.shiftr_div_pow2. Qed.
Lemma shr4 : forall x, Z.shiftr x 4 = x / 16.   Proof. intros. now rewrite Z.shiftr_div_pow2. Qed.
Lemma shr3 : forall x, Z.shiftr x 3 = x / 8.   Proof. intros. now rewrite Z.shiftr_div_pow2. Qed.
Lemma shl6 : forall x, Z.shiftl x 6 = x * 64.   Proof. intros. now rewrite Z.shiftl_mul_pow2. Qed.
Lemma shl12 : forall x, Z.shiftl x 12 = x * 4096.   Proof. intros. now rewrite Z.shiftl_mul_pow2. Qed.
Lemma shl18 : forall x, Z.shiftl x 18 = x * 262144.   Proof. intros. now rewrite Z.shiftl_mul_pow2. Qed.
Lemma byte_small : forall x, 0 <= x < 256 -> byte x = x.
Proof. intros x H. unfold byte, wrap_u. change (2 ^ 8) with 256. now apply Z.mod_small. Qed.

(** ** Encoding *)

Lemma encode_one_right : forall h c, 0 <= c < 1114112 -> encode_one h c = Ok (utf8 c).
Proof.
  intros h c C. unfold encode_one, utf8. rewrite !shr6, !shr12, !shr18, !and63.
  destruct (c <? 128) eqn:E1; [rewrite byte_small by lia; reflexivity|].
  destruct (c <? 2048) eqn:E2; [rewrite or192, or128, !byte_small by lia; reflexivity|].
  destruct (c <? 65536) eqn:E3; [rewrite or224, !or128, !byte_small by lia; reflexivity|].
  destruct (c <? 1114112) eqn:E4; [|lia]. rewrite or240, !or128, !byte_small by lia. reflexivity.
Qed.

Lemma zlen_app : forall (a b : list Z), zlen (a ++ b) = zlen a + zlen b.
Proof. intros. unfold zlen. rewrite app_length. lia. Qed.
Lemma zlen_cons : forall (x : Z) (b : list Z), zlen (x :: b) = 1 + zlen b.
Proof. intros. unfold zlen. cbn [length]. lia. Qed.

Lemma encode_all_right : forall h room cs out,
  Forall (fun c => 0 <= c < 1114112) cs -> zlen (out ++ flat_map utf8 cs) <= room ->
  encode_all h room cs out = Ok (out ++ flat_map utf8 cs).
Proof.
  intros h room. induction cs as [|c r IH]; intros out F L; cbn [encode_all flat_map] in *.
  - now rewrite app_nil_r.
  - rewrite encode_one_right by exact (Forall_inv F). cbn [bind].
    assert (X : (zlen (out ++ utf8 c) <=? room) = true).
    { rewrite !zlen_app in *. unfold zlen in *. lia. }
    rewrite X. rewrite IH; [now rewrite app_assoc|exact (Forall_inv_tail F)|now rewrite <- app_assoc].
Qed.

Lemma utf8_room : forall w c, w = 1 \/ w = 2 \/ w = 4 -> 0 <= c < 2 ^ (8 * w) ->
  zlen (utf8 c) <= (if w <? 4 then w + 1 else 4).
Proof.
  intros w c W C. unfold utf8. destruct W as [-> | [-> | ->]]; [change (2 ^ (8 * 1)) with 256 in C|change (2 ^ (8 * 2)) with 65536 in C|];
    destruct (c <? 128) eqn:?, (c <? 2048) eqn:?, (c <? 65536) eqn:?; cbn; try lia; exfalso; lia.
Qed.
Lemma utf8_rooms : forall w cs, w = 1 \/ w = 2 \/ w = 4 -> Forall (fun c => 0 <= c < 2 ^ (8 * w)) cs ->
  zlen (flat_map utf8 cs) <= zlen cs * (if w <? 4 then w + 1 else 4).
Proof.
  intros w cs W F. induction F as [|c r C F IH]; [reflexivity|]. cbn [flat_map]. rewrite zlen_app, zlen_cons.
  assert (X := utf8_room w c W C). lia.
Qed.

Theorem encode_right : forall s h, holds s -> Forall (fun c => 0 <= c < 1114112) (sdata s) ->
  exists b, encode_utf8 s h = Ok b /\ bdata b = flat_map utf8 (sdata s).
Proof.
  intros [l|] h [W H] F; [|now exists (Some nil)]. cbn [encode_utf8]. cbn [sdata swidth] in *.
  rewrite encode_all_right; [now exists (Some (flat_map utf8 (codepoints l)))|exact F|].
  cbn [app encode_room]. now apply utf8_rooms.
Qed.

(** Nothing is written beyond the room, whatever the code points are. *)
Lemma encode_one_room : forall h w c bs, w = 1 \/ w = 2 \/ w = 4 -> 0 <= c < 2 ^ (8 * w) -> encode_one h c = Ok bs ->
  zlen bs <= (if w <? 4 then w + 1 else 4).
Proof.
  intros h w c bs W C E. destruct (Z.lt_ge_cases c 1114112) as [L|L].
  - rewrite encode_one_right in E by lia. injection E as <-. now apply utf8_room.
  - destruct W as [-> | [-> | ->]]; [change (2 ^ (8 * 1)) with 256 in C; lia|change (2 ^ (8 * 2)) with 65536 in C; lia|].
    unfold encode_one in E. destruct (c <? 128) eqn:?, (c <? 2048) eqn:?, (c <? 65536) eqn:?, (c <? 1114112) eqn:?; try lia.
    destruct h; try discriminate; injection E as <-; cbn; lia.
Qed.
Lemma encode_all_room : forall h w cs out, w = 1 \/ w = 2 \/ w = 4 -> Forall (fun c => 0 <= c < 2 ^ (8 * w)) cs ->
  forall room, zlen out + zlen cs * (if w <? 4 then w + 1 else 4) <= room ->
  encode_all h room cs out <> Err UndefinedBehaviour.
Proof.
  intros h w cs. induction cs as [|c r IH]; intros out W F room R; cbn [encode_all]; [discriminate|].
  destruct (encode_one h c) as [bs|e] eqn:E; cbn [bind].
  - assert (X := encode_one_room h w c bs W (Forall_inv F) E). rewrite zlen_cons in R.
    assert (Y : (zlen (out ++ bs) <=? room) = true) by (rewrite zlen_app; unfold zlen in *; destruct (w <? 4); lia).
    rewrite Y. apply IH; [exact W|exact (Forall_inv_tail F)|]. rewrite zlen_app. lia.
  - unfold encode_one in E. destruct (c <? 128), (c <? 2048), (c <? 65536), (c <? 1114112), h; congruence.
Qed.
Theorem encode_in_room : forall s h, holds s -> encode_utf8 s h <> Err UndefinedBehaviour.
Proof.
  intros [l|] h [W H]; [|discriminate]. cbn [encode_utf8]. cbn [sdata swidth] in *.
  assert (X := encode_all_room h _ (codepoints l) nil W H (encode_room (Some l))). cbn [encode_room] in *.
  destruct (encode_all h _ (codepoints l) nil) as [bs|e]; cbn [bind]; [discriminate|]. intros E. injection E as ->.
  apply X; [cbn [zlen length Z.of_nat]; lia|reflexivity].
Qed.

(** ** Decoding *)

Lemma read_here : forall pre b r, cread (pre ++ b :: r) (zlen pre) = Ok b.
Proof.
  intros pre b r. unfold cread. rewrite zlen_app, zlen_cons.
  assert (X : (0 <=? zlen pre) && (zlen pre <? zlen pre + (1 + zlen r)) = true) by (unfold zlen; lia). rewrite X.
  unfold zlen. now rewrite Nat2Z.id, nth_middle.
Qed.
Lemma read_at : forall pre l r b i, (i < length l)%nat -> nth_error l i = Some b ->
  cread (pre ++ l ++ r) (zlen pre + Z.of_nat i) = Ok b.
Proof.
  intros pre l r b i L N. destruct (nth_error_split l i N) as (l1 & l2 & -> & <-).
  replace (pre ++ (l1 ++ b :: l2) ++ r) with ((pre ++ l1) ++ b :: (l2 ++ r)) by now rewrite <- !app_assoc.
  replace (zlen pre + Z.of_nat (length l1)) with (zlen (pre ++ l1)) by now rewrite zlen_app. apply read_here.
Qed.

(** A code point, the length of its sequence and its lead byte. *)
Definition points (c : Z) : Prop := 0 <= c < 2097152.
Lemma sequence_of : forall c, points c -> exists b t, utf8 c = b :: t /\ sequence_length b = Some (zlen (utf8 c)).
Proof.
  intros c C. unfold points in C. unfold utf8, sequence_length.
  destruct (c <? 128) eqn:E1; [|destruct (c <? 2048) eqn:E2; [|destruct (c <? 65536) eqn:E3]];
    do 2 eexists; (split; [reflexivity|]); rewrite shr7, ?shr5, ?shr4, ?shr3;
    repeat match goal with
           | |- context [?a / ?b =? ?c] => first
               [ replace (a / b =? c) with true by (symmetry; apply Z.eqb_eq; lia)
               | replace (a / b =? c) with false by (symmetry; apply Z.eqb_neq; lia) ]
           end; reflexivity.
Qed.
Lemma utf8_positive : forall c, 1 <= zlen (utf8 c) <= 4.
Proof. intros c. unfold utf8. destruct (c <? 128), (c <? 2048), (c <? 65536); cbn; lia. Qed.

Lemma decode_sequence_right : forall c pre r b t, points c -> utf8 c = b :: t ->
  decode_sequence (pre ++ utf8 c ++ r) (zlen pre) (zlen (utf8 c)) b = Ok c.
Proof.
  intros c pre r b t C E. unfold points in C. unfold decode_sequence.
  assert (R : forall b i, (i < length (utf8 c))%nat -> nth_error (utf8 c) i = Some b ->
              cread (pre ++ utf8 c ++ r) (zlen pre + Z.of_nat i) = Ok b) by (intros; now apply read_at).
  assert (R1 := fun b => R b 1%nat). assert (R2 := fun b => R b 2%nat). assert (R3 := fun b => R b 3%nat).
  cbn [Z.of_nat Pos.of_succ_nat Pos.succ] in R1, R2, R3. clear R.
  assert (B : b = hd 0 (utf8 c)) by now rewrite E. clear E. subst b. revert R1 R2 R3. unfold utf8.
  destruct (c <? 128) eqn:E1; [|destruct (c <? 2048) eqn:E2; [|destruct (c <? 65536) eqn:E3]]; intros R1 R2 R3;
    cbn [hd zlen length Z.of_nat Z.eqb Pos.of_succ_nat Pos.succ Pos.eqb].
  - reflexivity.
  - rewrite (R1 _) by first [reflexivity | cbn [length]; lia]. cbn [bind]. rewrite and31, and63, shl6. f_equal. lia.
  - rewrite (R1 _), (R2 _) by first [reflexivity | cbn [length]; lia]. cbn [bind]. rewrite and15, !and63, shl6, shl12. f_equal. lia.
  - rewrite (R1 _), (R2 _), (R3 _) by first [reflexivity | cbn [length]; lia]. cbn [bind].
    rewrite and7, !and63, shl6, shl12, shl18. f_equal. lia.
Qed.

Lemma count_right : forall cs pre fuel n, Forall points cs -> (length cs < fuel)%nat ->
  count_points fuel (pre ++ flat_map utf8 cs) (zlen pre) n = Ok (n + zlen cs).
Proof.
  induction cs as [|c r IH]; intros pre fuel n F L; destruct fuel as [|fuel]; try (cbn in L; lia); cbn [count_points flat_map].
  - rewrite app_nil_r, Z.ltb_irrefl. f_equal. cbn. lia.
  - destruct (sequence_of c (Forall_inv F)) as (b & t & E & S).
    assert (X : (zlen pre <? zlen (pre ++ utf8 c ++ flat_map utf8 r)) = true).
    { rewrite !zlen_app. assert (Y := utf8_positive c). unfold zlen in *. lia. }
    rewrite X. assert (R : cread (pre ++ utf8 c ++ flat_map utf8 r) (zlen pre) = Ok b) by (rewrite E; apply read_here).
    rewrite R. cbn [bind]. rewrite S. rewrite app_assoc, <- zlen_app. rewrite IH; [|exact (Forall_inv_tail F)|cbn in L; lia].
    f_equal. rewrite zlen_cons. lia.
Qed.

Definition width_of (c : Z) : Z := width_of_sequence (zlen (utf8 c)).
Fixpoint widest (cs : list Z) (w : Z) : Z := match cs with nil => w | c :: r => widest r (Z.max (width_of c) w) end.
Lemma width_right : forall cs pre w, Forall points cs ->
  width_required (length cs) (pre ++ flat_map utf8 cs) (zlen pre) w = Ok (widest cs w).
Proof.
  induction cs as [|c r IH]; intros pre w F; cbn [width_required flat_map length widest]; [reflexivity|].
  destruct (sequence_of c (Forall_inv F)) as (b & t & E & S).
  assert (R : cread (pre ++ utf8 c ++ flat_map utf8 r) (zlen pre) = Ok b) by (rewrite E; apply read_here).
  rewrite R. cbn [bind]. rewrite S. rewrite app_assoc, <- zlen_app. now rewrite IH by exact (Forall_inv_tail F).
Qed.
Lemma width_of_cases : forall c, (c < 128 /\ width_of c = 1) \/ (128 <= c < 65536 /\ width_of c = 2) \/ (65536 <= c /\ width_of c = 4).
Proof.
  intros c. unfold width_of, utf8. destruct (c <? 128) eqn:?, (c <? 2048) eqn:?, (c <? 65536) eqn:?; cbn; lia.
Qed.
Lemma widest_in : forall cs w, w <= widest cs w /\ Forall (fun c => width_of c <= widest cs w) cs.
Proof.
  induction cs as [|c r IH]; intros w; cbn [widest]; [split; [lia|constructor]|].
  destruct (IH (Z.max (width_of c) w)) as [A B]. split; [lia|]. constructor; [lia|exact B].
Qed.
Lemma widest_values : forall cs w, w = 1 \/ w = 2 \/ w = 4 -> widest cs w = 1 \/ widest cs w = 2 \/ widest cs w = 4.
Proof.
  induction cs as [|c r IH]; intros w W; cbn [widest]; [exact W|]. apply IH. destruct (width_of_cases c) as [?|[?|?]]; lia.
Qed.

Lemma fits_width : forall w c, w = 1 \/ w = 2 \/ w = 4 -> points c -> width_of c <= w -> 0 <= c < 2 ^ (8 * w).
Proof.
  intros w c W C L. unfold points in C.
  destruct W as [-> | [-> | ->]]; [change (2 ^ (8 * 1)) with 256|change (2 ^ (8 * 2)) with 65536|change (2 ^ (8 * 4)) with 4294967296];
    destruct (width_of_cases c) as [?|[?|?]]; lia.
Qed.
Lemma decode_to_right : forall w cs pre, w = 1 \/ w = 2 \/ w = 4 -> Forall points cs -> Forall (fun c => width_of c <= w) cs ->
  decode_to w (length cs) (pre ++ flat_map utf8 cs) (zlen pre) = Ok cs.
Proof.
  intros w. induction cs as [|c r IH]; intros pre W F L; cbn [decode_to flat_map length]; [reflexivity|].
  destruct (sequence_of c (Forall_inv F)) as (b & t & E & S).
  assert (R : cread (pre ++ utf8 c ++ flat_map utf8 r) (zlen pre) = Ok b) by (rewrite E; apply read_here).
  rewrite R. cbn [bind]. rewrite S. rewrite (decode_sequence_right c pre _ b t (Forall_inv F) E). cbn [bind].
  rewrite app_assoc, <- zlen_app. rewrite IH; [|exact W|exact (Forall_inv_tail F)|exact (Forall_inv_tail L)]. cbn [bind].
  unfold wrap_u. rewrite Z.mod_small; [reflexivity|]. apply fits_width; [exact W|exact (Forall_inv F)|exact (Forall_inv L)].
Qed.

Lemma narrow_bytes : forall cs, Forall points cs -> Forall (fun c => width_of c <= 1) cs -> flat_map utf8 cs = cs.
Proof.
  intros cs F L. induction cs as [|c r IH]; [reflexivity|]. cbn [flat_map].
  rewrite IH by (eauto using Forall_inv_tail). assert (X := Forall_inv L). cbn beta in X. unfold utf8.
  destruct (width_of_cases c) as [[A _]|[A|A]]; [|lia|lia]. assert (Y : (c <? 128) = true) by lia. now rewrite Y.
Qed.
Lemma create_right : forall cs, Forall points cs ->
  exists s, create_from_utf8 (flat_map utf8 cs) (zlen cs) = Ok s /\ sdata s = cs /\ holds s.
Proof.
  intros cs F. unfold create_from_utf8. destruct cs as [|c r].
  - exists None. cbn. split; [reflexivity|]. split; [reflexivity|]. split; [cbn; auto|constructor].
  - set (cs := c :: r) in *. assert (N : (zlen cs =? 0) = false) by (unfold cs; rewrite zlen_cons; unfold zlen; lia). rewrite N.
    unfold zlen at 1. rewrite Nat2Z.id. assert (WR := width_right cs nil 1 F). cbn [app zlen length Z.of_nat] in WR.
    rewrite WR. cbn [bind]. destruct (widest_in cs 1) as [_ L]. assert (W := widest_values cs 1 (or_introl eq_refl)).
    destruct (widest cs 1 =? 1) eqn:E.
    + apply Z.eqb_eq in E. rewrite E in L. rewrite (narrow_bytes cs F L), Z.leb_refl. eexists. split; [reflexivity|].
      unfold zlen. rewrite Nat2Z.id, firstn_all. split; [reflexivity|]. split; [cbn; auto|]. cbn [sdata swidth bytes_per_codepoint codepoints].
      clear - F L. induction F as [|x l X F IH]; constructor; [|apply IH; exact (Forall_inv_tail L)].
      apply fits_width; [auto|exact X|exact (Forall_inv L)].
    + unfold zlen. rewrite Nat2Z.id. assert (D := decode_to_right (widest cs 1) cs nil W F L). cbn [app zlen length Z.of_nat] in D.
      rewrite D. cbn [bind]. eexists. split; [reflexivity|]. split; [reflexivity|]. split; [exact W|].
      cbn [sdata swidth bytes_per_codepoint codepoints]. revert W L. generalize (widest cs 1). clear - F. intros w W L.
      induction F as [|x l X F IH]; constructor; [|apply IH; exact (Forall_inv_tail L)].
      apply fits_width; [auto|exact X|exact (Forall_inv L)].
Qed.

Lemma points_bytes : forall cs, (length cs <= length (flat_map utf8 cs))%nat.
Proof.
  induction cs as [|c r IH]; [auto|]. cbn [flat_map length]. rewrite app_length. assert (X := utf8_positive c). unfold zlen in X. lia.
Qed.
Theorem decode_right : forall x e h cs, handler_of e = Some h -> Forall points cs -> bdata x = flat_map utf8 cs ->
  exists s, bytes_decode x e = Some (Ok s) /\ sdata s = cs /\ holds s.
Proof.
  intros x e h cs H F B. unfold bytes_decode. rewrite H. destruct x as [bs|]; cbn [bdata] in B.
  - subst bs. assert (C := count_right cs nil (S (length (flat_map utf8 cs))) 0 F). cbn [app zlen length Z.of_nat] in C.
    rewrite C by (assert (X := points_bytes cs); lia). cbn [bind]. rewrite Z.add_0_l.
    destruct (create_right cs F) as (s & E & D & HO). exists s. now rewrite E.
  - exists None. split; [reflexivity|]. split; [|split; [cbn; auto|constructor]]. destruct cs as [|c r]; [reflexivity|].
    cbn [flat_map] in B. assert (X := utf8_positive c). destruct (utf8 c); [cbn in X; lia|discriminate].
Qed.

(** ** Any bytes *)

Lemma sequence_length_values : forall b n, sequence_length b = Some n -> 1 <= n <= 4.
Proof. intros b n. unfold sequence_length. repeat destruct (_ =? _); intros E; try discriminate; injection E as <-; lia. Qed.

(** The positions at which the sequences begin. *)
Inductive walk (bs : list Z) : Z -> nat -> Prop :=
| walk_end : forall k, zlen bs <= k -> walk bs k 0
| walk_step : forall k b n m, k < zlen bs -> cread bs k = Ok b -> sequence_length b = Some n -> walk bs (k + n) m -> walk bs k (S m).

Lemma count_walk : forall fuel bs k n, 0 <= k -> Z.max 0 (zlen bs - k) < Z.of_nat fuel ->
  (exists m, walk bs k m /\ count_points fuel bs k n = Ok (n + Z.of_nat m)) \/ count_points fuel bs k n = Err GenericError.
Proof.
  induction fuel as [|fuel IH]; intros bs k n K F.
  - lia.
  - cbn [count_points]. destruct (k <? zlen bs) eqn:E.
    + assert (R : exists b, cread bs k = Ok b).
      { unfold cread. assert (X : (0 <=? k) && (k <? zlen bs) = true) by lia. rewrite X. eauto. }
      destruct R as [b R]. rewrite R. cbn [bind]. destruct (sequence_length b) as [j|] eqn:S; [|now right].
      assert (J := sequence_length_values b j S). destruct (IH bs (k + j) (n + 1)) as [(m & W & C)|C]; [lia|lia| |now right].
      left. exists (Datatypes.S m). split; [econstructor; eauto; lia|]. rewrite C. f_equal. lia.
    + left. exists O. split; [apply walk_end; lia|]. f_equal. lia.
Qed.

Lemma width_walk : forall bs k m, walk bs k m -> forall w, exists w', width_required m bs k w = Ok w'.
Proof.
  induction 1 as [k L|k b n m L R S W IH]; intros w; cbn [width_required]; [eauto|]. rewrite R. cbn [bind]. rewrite S. apply IH.
Qed.

(** Some sequence lacks bytes at the end. *)
Definition cut_short (bs : list Z) : Prop :=
  exists pre b rest n, bs = pre ++ b :: rest /\ sequence_length b = Some n /\ 1 + zlen rest < n.

Lemma read_ok : forall bs k, 0 <= k < zlen bs -> exists b, cread bs k = Ok b.
Proof. intros bs k K. unfold cread. assert (X : (0 <=? k) && (k <? zlen bs) = true) by lia. rewrite X. eauto. Qed.
Lemma cut_at : forall bs k b n, 0 <= k -> cread bs k = Ok b -> sequence_length b = Some n -> zlen bs < k + n -> cut_short bs.
Proof.
  intros bs k b n K R S L. unfold cread in R. destruct ((0 <=? k) && (k <? zlen bs)) eqn:E; [|discriminate]. injection R as R.
  assert (X : (Z.to_nat k < length bs)%nat) by (unfold zlen in E; lia).
  destruct (nth_split bs 0 X) as (l1 & l2 & Y & LE). rewrite R in Y. exists l1, b, l2, n. split; [exact Y|]. split; [exact S|].
  rewrite Y in L. rewrite zlen_app, zlen_cons in L. unfold zlen in *. lia.
Qed.
Lemma decode_walk : forall bs k m, walk bs k m -> forall w, 0 <= k ->
  (exists cs, decode_to w m bs k = Ok cs /\ length cs = m) \/ (decode_to w m bs k = Err UndefinedBehaviour /\ cut_short bs).
Proof.
  induction 1 as [k L|k b n m L R S W IH]; intros w K; cbn [decode_to]; [left; exists nil; auto|].
  rewrite R. cbn [bind]. rewrite S. assert (N := sequence_length_values b n S).
  assert (D : (exists c, decode_sequence bs k n b = Ok c) \/ (decode_sequence bs k n b = Err UndefinedBehaviour /\ zlen bs < k + n)).
  { destruct (Z.lt_ge_cases (zlen bs) (k + n)) as [C|C].
    - assert (A : n = 1 \/ n = 2 \/ n = 3 \/ n = 4) by lia. unfold decode_sequence.
      assert (NO : forall i, zlen bs <= i -> cread bs i = Err UndefinedBehaviour).
      { intros i I. unfold cread. assert (X : (0 <=? i) && (i <? zlen bs) = false) by lia. now rewrite X. }
      assert (YES : forall i, exists b, cread bs i = Ok b \/ cread bs i = Err UndefinedBehaviour).
      { intros i. unfold cread. destruct (_ && _); exists (nth (Z.to_nat i) bs 0); auto. }
      destruct A as [-> | [-> | [-> | ->]]]; cbn [Z.eqb Pos.eqb].
      + left. eauto.
      + right. split; [|lia]. rewrite NO by lia. reflexivity.
      + right. split; [|lia]. destruct (YES (k + 1)) as [x [E|E]]; rewrite E; cbn [bind]; [|reflexivity]. rewrite NO by lia. reflexivity.
      + right. split; [|lia]. destruct (YES (k + 1)) as [x [E|E]]; rewrite E; cbn [bind]; [|reflexivity].
        destruct (YES (k + 2)) as [y [F|F]]; rewrite F; cbn [bind]; [|reflexivity]. rewrite NO by lia. reflexivity.
    - left. assert (A : n = 1 \/ n = 2 \/ n = 3 \/ n = 4) by lia. unfold decode_sequence.
      destruct A as [-> | [-> | [-> | ->]]]; cbn [Z.eqb Pos.eqb].
      + eauto.
      + destruct (read_ok bs (k + 1)) as [x X]; [lia|]. rewrite X. cbn [bind]. eauto.
      + destruct (read_ok bs (k + 1)) as [x X]; [lia|]. destruct (read_ok bs (k + 2)) as [y Y]; [lia|]. rewrite X. cbn [bind]. rewrite Y. cbn [bind]. eauto.
      + destruct (read_ok bs (k + 1)) as [x X]; [lia|]. destruct (read_ok bs (k + 2)) as [y Y]; [lia|].
        destruct (read_ok bs (k + 3)) as [z V]; [lia|]. rewrite X. cbn [bind]. rewrite Y. cbn [bind]. rewrite V. cbn [bind]. eauto. }
  destruct D as [[c D]|[D X]]; rewrite D; cbn [bind].
  - destruct (IH w) as [(cs & E & LE)|[E C]]; [lia| |].
    + left. rewrite E. cbn [bind]. eexists. split; [reflexivity|]. cbn. now rewrite LE.
    + right. now rewrite E.
  - right. split; [reflexivity|]. eapply cut_at; eauto.
Qed.

Lemma walk_short : forall bs k m, walk bs k m -> 0 <= k -> Z.of_nat m <= Z.max 0 (zlen bs - k).
Proof.
  induction 1 as [k L|k b n m L R S W IH]; intros K; [lia|]. assert (N := sequence_length_values b n S). lia.
Qed.

Theorem decode_any : forall x e h, handler_of e = Some h ->
  (exists s, bytes_decode x e = Some (Ok s)) \/ bytes_decode x e = Some (Err GenericError) \/
  (bytes_decode x e = Some (Err UndefinedBehaviour) /\ cut_short (bdata x)).
Proof.
  intros x e h H. unfold bytes_decode. rewrite H. destruct x as [bs|]; [|left; now exists None]. cbn [bdata].
  destruct (count_walk (S (length bs)) bs 0 0) as [(m & W & C)|C]; [lia|unfold zlen; lia| |]; rewrite C; cbn [bind]; [|auto].
  rewrite Z.add_0_l. unfold create_from_utf8. destruct (Z.of_nat m =? 0); [left; eauto|]. rewrite Nat2Z.id.
  destruct (width_walk bs 0 m W 1) as [w E]. rewrite E. cbn [bind]. destruct (w =? 1).
  - assert (X := walk_short bs 0 m W ltac:(lia)). assert (Y : (Z.of_nat m <=? zlen bs) = true) by (unfold zlen in *; lia). rewrite Y. eauto.
  - destruct (decode_walk bs 0 m W w ltac:(lia)) as [(cs & D & _)|[D CU]]; rewrite D; cbn [bind]; eauto.
Qed.
