(** Proofs about the leaves of serialization: bytes in memory, blocks of integers, UTF-8. *)
From Verif Require Import Base Wire_Model Wire_Spec Wire_Proofs Serial_Model Serial_Spec.
From Coq Require Import ZifyBool ZifyNat.
Ltac Zify.zify_post_hook ::= Z.div_mod_to_equations.
Open Scope Z_scope.

(** ** Little-endian bytes *)

Lemma le_bytes_length n : forall x, length (le_bytes n x) = n.
Proof. induction n as [|n IH]; intros x; cbn [le_bytes length]; [reflexivity|]. now rewrite IH. Qed.

Lemma of_le_bytes_le_bytes n : forall x, of_le_bytes (le_bytes n x) = x mod 2 ^ (8 * Z.of_nat n).
Proof.
  induction n as [|n IH]; intros x; cbn [le_bytes of_le_bytes].
  - change (2 ^ (8 * Z.of_nat 0)) with 1. rewrite Z.mod_1_r. reflexivity.
  - rewrite IH. replace (8 * Z.of_nat (S n)) with (8 + 8 * Z.of_nat n) by lia.
    rewrite Z.pow_add_r by lia. change (2 ^ 8) with 256.
    rewrite Z.rem_mul_r by lia. lia.
Qed.

Lemma of_le_bytes_unsigned n x :
  0 <= x < 2 ^ (8 * Z.of_nat n) -> of_le_bytes (le_bytes n x) = x.
Proof. intros H. rewrite of_le_bytes_le_bytes. apply Z.mod_small, H. Qed.

Lemma wrap_s_mod w x : 0 <= w -> wrap_s w (x mod 2 ^ w) = wrap_s w x.
Proof. intros Hw. unfold wrap_s. rewrite Z.mod_mod; [reflexivity|]. apply Z.pow_nonzero; lia. Qed.

Lemma wrap_s_small w x : 0 < w -> - 2 ^ (w - 1) <= x < 2 ^ (w - 1) -> wrap_s w x = x.
Proof.
  intros Hw H. unfold wrap_s.
  assert (E : 2 ^ w = 2 * 2 ^ (w - 1)) by (rewrite <- Z.pow_succ_r by lia; f_equal; lia).
  cbv zeta. rewrite E. clear E. set (m := 2 ^ (w - 1)) in *. clearbody m.
  assert (Hm : x mod (2 * m) = if 0 <=? x then x else x + 2 * m).
  { destruct (Z.leb_spec 0 x); symmetry.
    - apply Z.mod_unique with 0; lia.
    - apply Z.mod_unique with (-1); lia. }
  rewrite Hm. destruct (Z.leb_spec 0 x);
    match goal with |- context [?a <? ?b] => destruct (Z.ltb_spec a b) end; lia.
Qed.

Lemma le_bytes_signed n x : (0 < n)%nat ->
  - 2 ^ (8 * Z.of_nat n - 1) <= x < 2 ^ (8 * Z.of_nat n - 1) ->
  wrap_s (8 * Z.of_nat n) (of_le_bytes (le_bytes n x)) = x.
Proof. intros Hn H. rewrite of_le_bytes_le_bytes, wrap_s_mod by lia. apply wrap_s_small; [lia|exact H]. Qed.

(** ** Blocks of integers *)

Lemma take_fitting_prefix size : forall limit zs,
  exists rest, zs = take_fitting size limit zs ++ rest.
Proof.
  induction limit as [|limit IH]; intros zs; cbn [take_fitting]; [now exists zs|].
  destruct zs as [|z zs]; [now exists []|]. destruct (fits size z); [|now exists (z :: zs)].
  destruct (IH zs) as [rest H]. exists rest. cbn [app]. now rewrite <- H.
Qed.

Lemma take_fitting_length size : forall limit zs, (length (take_fitting size limit zs) <= limit)%nat.
Proof.
  induction limit as [|limit IH]; intros zs; cbn [take_fitting length]; [lia|].
  destruct zs as [|z zs]; cbn [length]; [lia|]. destruct (fits size z); cbn [length]; [|lia].
  specialize (IH zs). lia.
Qed.

Lemma take_fitting_fits size : forall limit zs, Forall (fun z => fits size z = true) (take_fitting size limit zs).
Proof.
  induction limit as [|limit IH]; intros zs; cbn [take_fitting]; [constructor|].
  destruct zs as [|z zs]; [constructor|]. destruct (fits size z) eqn:E; constructor; auto.
Qed.

(** A block as written: its kind, and the integers in it. *)
Lemma try_block_spec kind size zs b rest :
  try_block kind size zs = Some (b, rest) ->
  exists block, zs = block ++ rest /\ (1 <= length block <= 255)%nat /\
    Forall (fun z => fits size z = true) block /\
    b = write_begin_bytes kind (Z.of_nat (length block * size)) ++ concat (map (le_bytes size) block).
Proof.
  unfold try_block. destruct zs as [|z zs]; [discriminate|]. destruct (fits size z) eqn:E; [|discriminate].
  assert (Hlim : (254 <= 254)%nat) by lia. revert Hlim. generalize 254%nat at 1 3 4 5. intros limit Hlim H.
  destruct (take_fitting_prefix size limit zs) as [tl Htl].
  assert (Hs : skipn (length (take_fitting size limit zs)) zs = tl).
  { rewrite Htl at 2. rewrite skipn_app, skipn_all, Nat.sub_diag. reflexivity. }
  pose proof (take_fitting_length size limit zs). pose proof (take_fitting_fits size limit zs) as Hfit.
  set (block := take_fitting size limit zs) in *. clearbody block. injection H as Hb Hr.
  exists (z :: block). repeat split.
  - cbn [app]. f_equal. congruence.
  - cbn [length]. lia.
  - cbn [length]. lia.
  - now constructor.
  - symmetry. exact Hb.
Qed.

Lemma fits_range size z : fits size z = true ->
  - 2 ^ (8 * Z.of_nat size - 1) <= z < 2 ^ (8 * Z.of_nat size - 1).
Proof. unfold fits. cbv zeta. lia. Qed.

Lemma concat_length_const {A B} (f : A -> list B) n l :
  (forall x, length (f x) = n) -> length (concat (map f l)) = (length l * n)%nat.
Proof.
  intros H. induction l as [|x l IH]; cbn [map concat length]; [lia|].
  rewrite app_length, H, IH. lia.
Qed.

Lemma chunks_le_bytes size zs : (0 < size)%nat -> Forall (fun z => fits size z = true) zs ->
  chunks (length zs) size (concat (map (le_bytes size) zs)) = zs.
Proof.
  intros Hs. induction zs as [|z zs IH]; intros Hz; cbn [length chunks map concat]; [reflexivity|].
  inversion Hz as [|? ? H1 H2]; subst.
  rewrite firstn_app, skipn_app, le_bytes_length, Nat.sub_diag.
  rewrite firstn_all2, skipn_all2 by (rewrite le_bytes_length; lia). cbn [firstn skipn app].
  rewrite app_nil_r, le_bytes_signed by (try lia; now apply fits_range). f_equal. apply IH, H2.
Qed.

Lemma deserialize_block_spec size zs rest : (0 < size)%nat ->
  Forall (fun z => fits size z = true) zs ->
  deserialize_block size (Z.of_nat (length zs * size)) (concat (map (le_bytes size) zs) ++ rest) = Ok (zs, rest).
Proof.
  intros Hs Hz. unfold deserialize_block.
  rewrite read_bytes_app.
  - cbn [bind]. rewrite Nat2Z.id, Nat.div_mul by lia. now rewrite chunks_le_bytes.
  - rewrite (concat_length_const _ size) by apply le_bytes_length. reflexivity.
Qed.

Definition int64 (z : Z) : Prop := - 2 ^ 63 <= z < 2 ^ 63.

(** One round of the writer. *)
Lemma one_block zs r : Forall int64 zs -> zs <> [] ->
  match try_block 2 1 zs with
  | Some r => Some r
  | None =>
  match try_block 3 2 zs with
  | Some r => Some r
  | None =>
  match try_block 4 4 zs with
  | Some r => Some r
  | None => try_block 5 8 zs
  end end end = r ->
  exists kind size b rest, r = Some (b, rest) /\ try_block kind size zs = Some (b, rest) /\
    In (kind, size) [(2, 1%nat); (3, 2%nat); (4, 4%nat); (5, 8%nat)].
Proof.
  intros Hz Hne Hr.
  destruct (try_block 2 1 zs) as [[b rest]|] eqn:E1; [exists 2, 1%nat, b, rest; cbn; auto|].
  destruct (try_block 3 2 zs) as [[b rest]|] eqn:E2; [exists 3, 2%nat, b, rest; cbn; auto 6|].
  destruct (try_block 4 4 zs) as [[b rest]|] eqn:E3; [exists 4, 4%nat, b, rest; cbn; auto 7|].
  destruct (try_block 5 8 zs) as [[b rest]|] eqn:E4; [exists 5, 8%nat, b, rest; cbn; auto 8|].
  exfalso. destruct zs as [|z zs]; [congruence|]. inversion Hz as [|? ? H1 H2]; subst.
  unfold try_block in E4. destruct (fits 8 z) eqn:E; [discriminate|].
  unfold fits, int64 in *. cbv zeta in E. change (8 * Z.of_nat 8 - 1) with 63 in E. lia.
Qed.

Lemma serialize_int_list_blocks fuel : forall zs,
  Forall int64 zs -> (length zs <= fuel)%nat ->
  exists fs bs, serialize_int_list fuel zs = Ok bs /\ int_blocks zs fs bs.
Proof.
  induction fuel as [|fuel IH]; intros zs Hz Hl.
  - destruct zs; [|cbn [length] in Hl; lia]. exists [], []. split; [reflexivity|constructor].
  - destruct zs as [|z zs]; [exists [], []; split; [reflexivity|constructor]|].
    cbn [serialize_int_list].
    destruct (one_block (z :: zs) _ Hz ltac:(discriminate) eq_refl) as (kind & size & b & rest & -> & Hb & Hin).
    apply try_block_spec in Hb. destruct Hb as (block & Hsplit & Hlen & Hfit & ->).
    destruct (IH rest) as (fs & bs & Hs & Hbl).
    + rewrite Hsplit in Hz. apply Forall_app in Hz. apply Hz.
    + assert (length (z :: zs) = length (block ++ rest)) by now rewrite <- Hsplit.
      rewrite app_length in H. lia.
    + eexists _, _. rewrite Hs. cbn [bind]. split; [reflexivity|]. rewrite Hsplit.
      apply ib_block; eassumption.
Qed.

Lemma int_blocks_read zs fs bs : int_blocks zs fs bs -> forall fuel rest,
  (length bs <= fuel)%nat ->
  deserialize_int_list fuel (Z.of_nat (length zs)) (bs ++ rest) = Ok (zs, rest).
Proof.
  induction 1 as [|kind size block zs fs bs Hin Hlen Hfit Hbl IH]; intros fuel rest Hf.
  - destruct fuel; reflexivity.
  - assert (Hk : 2 <= kind <= 5 /\ (1 <= size <= 8)%nat).
    { cbn [In] in Hin. decompose [or] Hin; try contradiction;
        match goal with H : (_, _) = (_, _) |- _ => injection H as <- <- end; lia. }
    assert (Htag : (1 <= length (write_tag kind BYTES))%nat).
    { eapply varint64_length, write_tag_varint64; unfold BYTES; lia. }
    rewrite !app_length in Hf. unfold write_begin_bytes in Hf. rewrite !app_length in Hf.
    destruct fuel as [|fuel]; [lia|]. cbn [deserialize_int_list].
    rewrite app_length. destruct (Z.eqb_spec (Z.of_nat (length block + length zs)) 0); [lia|].
    unfold write_begin_bytes. rewrite <- !app_assoc.
    rewrite tag_roundtrip by (unfold BYTES; lia). cbn [bind].
    rewrite uvarint_roundtrip by nia. cbn [bind].
    replace (if kind =? 2 then _ else _) with (Ok (block, bs ++ rest)).
    + cbn [bind]. destruct (Z.ltb_spec (Z.of_nat (length block + length zs)) (Z.of_nat (length block))); [lia|].
      replace (Z.of_nat (length block + length zs) - Z.of_nat (length block)) with (Z.of_nat (length zs)) by lia.
      rewrite IH by lia. reflexivity.
    + cbn [In] in Hin. decompose [or] Hin; try contradiction;
        match goal with H : (_, _) = (_, _) |- _ => injection H as <- <- end;
        cbn [Z.eqb Pos.eqb]; symmetry; apply deserialize_block_spec; auto; lia.
Qed.

Lemma int_blocks_encodes zs fs bs : int_blocks zs fs bs -> forall fs' bs',
  encodes_fields fs' bs' -> encodes_fields (fs ++ fs') (bs ++ bs').
Proof.
  induction 1 as [|kind size block zs fs bs Hin Hlen Hfit Hbl IH]; intros fs' bs' H'; [exact H'|].
  assert (Hk : 2 <= kind <= 5 /\ (1 <= size <= 8)%nat).
  { cbn [In] in Hin. decompose [or] Hin; try contradiction;
      match goal with H : (_, _) = (_, _) |- _ => injection H as <- <- end; lia. }
  unfold write_begin_bytes. rewrite <- !app_assoc. cbn [app].
  rewrite (app_assoc (write_uvarint _)).
  constructor; [lia| | |apply IH, H'].
  - apply write_tag_varint64; unfold BYTES; lia.
  - constructor. rewrite (concat_length_const _ size) by apply le_bytes_length.
    apply write_uvarint_varint64. nia.
Qed.

(** ** UTF-8 *)

Lemma land_shift p k w : 0 <= p -> 0 <= k -> 0 <= w ->
  Z.shiftr (Z.land p (Z.shiftl (Z.ones w) k)) k = (p / 2 ^ k) mod 2 ^ w.
Proof.
  intros Hp Hk Hw. rewrite Z.shiftr_land.
  rewrite Z.shiftr_shiftl_l by lia. rewrite Z.sub_diag, Z.shiftl_0_r, Z.land_ones, Z.shiftr_div_pow2 by lia.
  reflexivity.
Qed.

Lemma land63 p : Z.land p 63 = p mod 64.
Proof. change 63 with (Z.ones 6). rewrite Z.land_ones by lia. reflexivity. Qed.

(** The encoding in plain arithmetic. *)
Lemma utf8_encode1_val p : 0 <= p ->
  utf8_encode1 p =
  if p <? 128 then [p]
  else if p <? 2048 then [(p / 64) mod 32 + 192; p mod 64 + 128]
  else if p <? 65536 then [(p / 4096) mod 16 + 224; (p / 64) mod 64 + 128; p mod 64 + 128]
  else [(p / 262144) mod 8 + 240; (p / 4096) mod 64 + 128; (p / 64) mod 64 + 128; p mod 64 + 128].
Proof.
  intros Hp. unfold utf8_encode1. rewrite land63.
  change 1984 with (Z.shiftl (Z.ones 5) 6). change 61440 with (Z.shiftl (Z.ones 4) 12).
  change 4032 with (Z.shiftl (Z.ones 6) 6). change 1835008 with (Z.shiftl (Z.ones 3) 18).
  change 258048 with (Z.shiftl (Z.ones 6) 12).
  rewrite !land_shift by lia. reflexivity.
Qed.

Lemma utf8_encode1_length p : Z.of_nat (length (utf8_encode1 p)) = utf8_size p.
Proof. unfold utf8_encode1, utf8_size. destruct (p <? 128), (p <? 2048), (p <? 65536); reflexivity. Qed.

Lemma utf8_encode_length ps : Z.of_nat (length (utf8_encode ps)) = utf8_count ps.
Proof.
  unfold utf8_encode, utf8_count. induction ps as [|p ps IH]; [reflexivity|].
  cbn [map concat fold_right]. rewrite app_length, Nat2Z.inj_add, IH, utf8_encode1_length. reflexivity.
Qed.

Lemma utf8_count_bound ps : 0 <= utf8_count ps <= 4 * Z.of_nat (length ps).
Proof.
  unfold utf8_count. induction ps as [|p ps IH]; cbn [fold_right length]; [lia|].
  assert (1 <= utf8_size p <= 4) by (unfold utf8_size; destruct (p <? 128), (p <? 2048), (p <? 65536); lia).
  lia.
Qed.

Ltac shifts := rewrite ?Z.shiftr_div_pow2, ?Z.shiftl_mul_pow2 by lia;
  change (2 ^ 7) with 128; change (2 ^ 5) with 32; change (2 ^ 4) with 16; change (2 ^ 3) with 8;
  change (2 ^ 6) with 64; change (2 ^ 12) with 4096; change (2 ^ 18) with 262144.

Lemma code_point_cases p : code_point p ->
  (p < 128 /\ utf8_encode1 p = [p]) \/
  (128 <= p < 2048 /\ exists a b, utf8_encode1 p = [a + 192; b + 128] /\ 0 <= a < 32 /\ 0 <= b < 64 /\ p = 64 * a + b) \/
  (2048 <= p < 65536 /\ exists a b c, utf8_encode1 p = [a + 224; b + 128; c + 128] /\
     0 <= a < 16 /\ 0 <= b < 64 /\ 0 <= c < 64 /\ p = 4096 * a + 64 * b + c) \/
  (65536 <= p /\ exists a b c d, utf8_encode1 p = [a + 240; b + 128; c + 128; d + 128] /\
     0 <= a < 8 /\ 0 <= b < 64 /\ 0 <= c < 64 /\ 0 <= d < 64 /\ p = 262144 * a + 4096 * b + 64 * c + d).
Proof.
  intros H. unfold code_point in H. rewrite utf8_encode1_val by lia.
  destruct (Z.ltb_spec p 128); [left; auto|right].
  destruct (Z.ltb_spec p 2048); [left; split; [lia|]; do 2 eexists; split; [reflexivity|]; lia|right].
  destruct (Z.ltb_spec p 65536); [left; split; [lia|]; do 3 eexists; split; [reflexivity|]; lia|right].
  split; [lia|]. do 4 eexists. split; [reflexivity|]. lia.
Qed.

Ltac lead := shifts; repeat match goal with
  | |- context [?a / ?b =? ?c] => first
      [ replace (a / b =? c) with true by (symmetry; apply Z.eqb_eq; lia)
      | replace (a / b =? c) with false by (symmetry; apply Z.eqb_neq; lia) ]
  end.

Lemma utf8_points_encode ps : Forall code_point ps ->
  utf8_points 0 (utf8_encode ps) = Ok (Z.of_nat (length ps)).
Proof.
  induction 1 as [|p ps Hp Hps IH]; [reflexivity|].
  unfold utf8_encode in *. cbn [map concat].
  destruct (code_point_cases p Hp) as [[H ->]|[(H & a & b & -> & H1 & H2 & H3)|
    [(H & a & b & c & -> & H1 & H2 & H3 & H4)|(H & a & b & c & d & -> & H1 & H2 & H3 & H4 & H5)]]];
    cbn [app utf8_points]; unfold code_point in Hp; lead; rewrite IH; cbn [bind length]; f_equal; lia.
Qed.

Definition needed_width (p : Z) : Z := if p <? 128 then 1 else if p <? 65536 then 2 else 4.

Lemma utf8_width_bounds bs : forall skip, 1 <= utf8_width skip bs.
Proof.
  induction bs as [|b bs IH]; intros skip; cbn [utf8_width]; [lia|].
  destruct skip; [|apply IH].
  destruct (_ =? 0); [apply IH|]. destruct (_ =? 6); [lia|]. destruct (_ =? 14); lia.
Qed.

Lemma utf8_width_encode ps : Forall code_point ps ->
  Forall (fun p => needed_width p <= utf8_width 0 (utf8_encode ps)) ps.
Proof.
  induction 1 as [|p ps Hp Hps IH]; [constructor|].
  assert (Hw : utf8_width 0 (utf8_encode (p :: ps)) = Z.max (needed_width p) (utf8_width 0 (utf8_encode ps))).
  { pose proof (utf8_width_bounds (utf8_encode ps) 0).
    unfold utf8_encode in *. cbn [map concat].
    destruct (code_point_cases p Hp) as [[Hr ->]|[(Hr & a & b & -> & H1 & H2 & H3)|
      [(Hr & a & b & c & -> & H1 & H2 & H3 & H4)|(Hr & a & b & c & d & -> & H1 & H2 & H3 & H4 & H5)]]];
      cbn [app utf8_width]; unfold code_point in Hp; lead; unfold needed_width;
      repeat match goal with |- context [?x <? ?y] => destruct (Z.ltb_spec x y) end; lia. }
  rewrite Hw. constructor; [lia|].
  eapply Forall_impl; [|exact IH]. cbv beta. intros q Hq. lia.
Qed.

Lemma wrap_width p w : code_point p -> needed_width p <= w -> wrap_u (8 * w) p = p.
Proof.
  intros Hp Hw. apply wrap_u_small. unfold code_point in Hp. split; [lia|].
  unfold needed_width in Hw. destruct (Z.ltb_spec p 128); [|destruct (Z.ltb_spec p 65536)].
  - apply Z.lt_le_trans with (2 ^ (8 * 1)); [change (2 ^ (8 * 1)) with 256; lia|]. apply Z.pow_le_mono_r; lia.
  - apply Z.lt_le_trans with (2 ^ (8 * 2)); [change (2 ^ (8 * 2)) with 65536; lia|]. apply Z.pow_le_mono_r; lia.
  - apply Z.lt_le_trans with (2 ^ (8 * 4)); [change (2 ^ (8 * 4)) with 4294967296; lia|]. apply Z.pow_le_mono_r; lia.
Qed.

Lemma land31 p : Z.land p 31 = p mod 32.
Proof. change 31 with (Z.ones 5). rewrite Z.land_ones by lia. reflexivity. Qed.
Lemma land15 p : Z.land p 15 = p mod 16.
Proof. change 15 with (Z.ones 4). rewrite Z.land_ones by lia. reflexivity. Qed.
Lemma land7 p : Z.land p 7 = p mod 8.
Proof. change 7 with (Z.ones 3). rewrite Z.land_ones by lia. reflexivity. Qed.

Lemma utf8_decode_encode w ps : Forall code_point ps -> Forall (fun p => needed_width p <= w) ps ->
  forall fuel, (length (utf8_encode ps) <= fuel)%nat -> utf8_decode fuel w (utf8_encode ps) = Ok ps.
Proof.
  induction 1 as [|p ps Hp Hps IH]; intros Hw fuel Hf; [destruct fuel; reflexivity|].
  inversion Hw as [|? ? Hw1 Hw2]; subst. specialize (IH Hw2).
  pose proof (wrap_width p w Hp Hw1) as Hwrap.
  unfold utf8_encode in *. cbn [map concat] in *. rewrite app_length in Hf.
  destruct (code_point_cases p Hp) as [[H E]|[(H & a & b & E & H1 & H2 & H3)|
    [(H & a & b & c & E & H1 & H2 & H3 & H4)|(H & a & b & c & d & E & H1 & H2 & H3 & H4 & H5)]]];
    rewrite E in *; cbn [app length] in *; destruct fuel as [|fuel]; try lia; cbn [utf8_decode];
    unfold code_point in Hp; rewrite ?land31, ?land15, ?land7, ?land63; lead;
    rewrite IH by lia; cbn [bind]; do 2 f_equal; rewrite <- Hwrap; f_equal; lia.
Qed.

Lemma decode_string_encode ps : Forall code_point ps -> decode_string (utf8_encode ps) = Ok ps.
Proof.
  intros H. unfold decode_string. rewrite utf8_points_encode by exact H. cbn [bind].
  apply utf8_decode_encode; auto using utf8_width_encode.
Qed.
