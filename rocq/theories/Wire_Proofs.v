(** Proofs about the wire format primitives. *)
From Verif Require Import Base Wire_Model Wire_Spec.
Require Import ZifyBool ZifyNat ZifyN.
Ltac Zify.zify_post_hook ::= Z.div_mod_to_equations.
Open Scope Z_scope.
Open Scope result_scope.

Lemma land127 i : Z.land i 127 = i mod 128.
Proof. change 127 with (Z.ones 7). rewrite Z.land_ones by lia. reflexivity. Qed.

Lemma shiftr7 i : Z.shiftr i 7 = i / 128.
Proof. rewrite Z.shiftr_div_pow2 by lia. reflexivity. Qed.

Lemma wrap_u_small w x : 0 <= x < 2 ^ w -> wrap_u w x = x.
Proof. intros H. unfold wrap_u. apply Z.mod_small. exact H. Qed.

(** ** Varints *)

Lemma write_uvarint_loop_varint fuel : forall i,
  0 <= i < 128 ^ Z.of_nat fuel -> (0 < fuel)%nat ->
  varint i (write_uvarint_loop fuel i) /\ (length (write_uvarint_loop fuel i) <= fuel)%nat.
Proof.
  induction fuel as [|fuel IH]; intros i Hi Hf; [lia|].
  cbn [write_uvarint_loop]. rewrite land127, shiftr7.
  destruct (Z.leb_spec 128 i) as [Hge|Hlt].
  - assert (Hpow : 128 ^ Z.of_nat (S fuel) = 128 * 128 ^ Z.of_nat fuel).
    { rewrite Nat2Z.inj_succ, Z.pow_succ_r by lia. reflexivity. }
    assert (Hf0 : (0 < fuel)%nat).
    { destruct fuel; [|lia]. change (128 ^ Z.of_nat 1) with 128 in Hi. lia. }
    destruct (IH (i / 128)) as [Hv Hl]; [|exact Hf0|].
    { split; [lia|]. apply Z.div_lt_upper_bound; lia. }
    split; [|cbn [length]; lia].
    replace i with (i mod 128 + 128 * (i / 128)) at 1 by lia.
    constructor; [lia|exact Hv].
  - split; [constructor; lia|cbn; lia].
Qed.

Lemma write_uvarint_varint64 n : 0 <= n < 2 ^ 64 -> varint64 n (write_uvarint n).
Proof.
  intros H. destruct (write_uvarint_loop_varint 10 n) as [H1 H2]; [|lia|].
  - change (128 ^ Z.of_nat 10) with (2 ^ 70). lia.
  - repeat split; try assumption; lia.
Qed.

(** More fuel changes nothing, so the modelled loop is the loop of the code. *)
Lemma write_uvarint_loop_fuel fuel : forall i k,
  0 <= i < 128 ^ Z.of_nat fuel -> (0 < fuel)%nat ->
  write_uvarint_loop (fuel + k) i = write_uvarint_loop fuel i.
Proof.
  induction fuel as [|fuel IH]; intros i k Hi Hf; [lia|].
  cbn [Nat.add write_uvarint_loop]. rewrite shiftr7.
  destruct (Z.leb_spec 128 i) as [Hge|Hlt]; [|reflexivity].
  assert (Hpow : 128 ^ Z.of_nat (S fuel) = 128 * 128 ^ Z.of_nat fuel).
  { rewrite Nat2Z.inj_succ, Z.pow_succ_r by lia. reflexivity. }
  assert (Hf0 : (0 < fuel)%nat).
  { destruct fuel; [|lia]. change (128 ^ Z.of_nat 1) with 128 in Hi. lia. }
  rewrite IH; [reflexivity| |exact Hf0].
  split; [lia|]. apply Z.div_lt_upper_bound; lia.
Qed.

Lemma write_uvarint_step i : 0 <= i < 2 ^ 64 ->
  write_uvarint i =
  if 128 <=? i then (128 + Z.land i 127) :: write_uvarint (Z.shiftr i 7) else [i].
Proof.
  intros Hi. unfold write_uvarint at 1. cbn [write_uvarint_loop].
  destruct (Z.leb_spec 128 i); [|reflexivity].
  f_equal. unfold write_uvarint. change 10%nat with (9 + 1)%nat at 1.
  rewrite shiftr7. symmetry. apply (write_uvarint_loop_fuel 9); [|lia].
  change (128 ^ Z.of_nat 9) with (2 ^ 63). lia.
Qed.

Lemma varint_bounds n bs : varint n bs -> 0 <= n < 128 ^ Z.of_nat (length bs) /\ (1 <= length bs)%nat.
Proof.
  induction 1 as [n H|low n bs Hl Hv IH].
  - cbn [length]. change (128 ^ Z.of_nat 1) with 128. lia.
  - cbn [length]. rewrite Nat2Z.inj_succ, Z.pow_succ_r by lia. lia.
Qed.

Lemma varint_byte_ok n bs : varint n bs -> Forall (fun b => 0 <= b < 256) bs.
Proof. induction 1; constructor; auto; lia. Qed.

Lemma read_uvarint_loop_varint n bs : varint n bs -> forall acc shift rest,
  0 <= acc < 2 ^ shift -> 0 <= shift -> shift + 7 * (Z.of_nat (length bs) - 1) < 64 ->
  acc + n * 2 ^ shift < 2 ^ 64 ->
  read_uvarint_loop acc shift (bs ++ rest) = Ok (acc + n * 2 ^ shift, rest).
Proof.
  induction 1 as [n Hn|low n bs Hl Hv IH]; intros acc shift rest Ha Hs Hlen Hlt;
    cbn [app read_uvarint_loop length] in *;
    (destruct (Z.leb_spec 64 shift); [lia|]); rewrite land127, Z.shiftl_mul_pow2 by lia;
    cbv zeta.
  - replace (n mod 128) with n by lia.
    rewrite (wrap_u_small 64 (n * 2 ^ shift)) by nia.
    rewrite wrap_u_small by nia. destruct (Z.ltb_spec n 128); [reflexivity|lia].
  - replace ((128 + low) mod 128) with low by lia.
    pose proof (varint_bounds _ _ Hv) as [Hb Hb1].
    rewrite (wrap_u_small 64 (low * 2 ^ shift)) by nia.
    rewrite wrap_u_small by nia. destruct (Z.ltb_spec (128 + low) 128); [lia|].
    assert (Hp : 2 ^ (shift + 7) = 2 ^ shift * 128) by (rewrite Z.pow_add_r by lia; reflexivity).
    rewrite IH.
    + f_equal. f_equal. rewrite Hp. ring.
    + rewrite Hp. nia.
    + lia.
    + lia.
    + rewrite Hp. nia.
Qed.

Lemma read_uvarint_varint64 n bs rest : varint64 n bs -> read_uvarint (bs ++ rest) = Ok (n, rest).
Proof.
  intros [Hv [Hn Hl]]. unfold read_uvarint.
  pose proof (varint_bounds _ _ Hv) as [Hb Hb1].
  rewrite (read_uvarint_loop_varint _ _ Hv); try lia.
  f_equal. f_equal. lia.
Qed.

Lemma uvarint_roundtrip n rest :
  0 <= n < 2 ^ 64 -> read_uvarint (write_uvarint n ++ rest) = Ok (n, rest).
Proof. intros H. apply read_uvarint_varint64, write_uvarint_varint64, H. Qed.

Lemma zigzag_range i : - 2 ^ 63 <= i < 2 ^ 63 -> 0 <= zigzag i < 2 ^ 64.
Proof.
  intros H. unfold zigzag, wrap_u. destruct (i <? 0); apply Z.mod_pos_bound; lia.
Qed.

Lemma zigzag_val i : - 2 ^ 63 <= i < 2 ^ 63 -> zigzag i = if i <? 0 then -2 * i - 1 else 2 * i.
Proof.
  intros H. unfold zigzag, wrap_u, wrap_s. cbv zeta. change (64 - 1) with 63.
  change (2 ^ 64) with 18446744073709551616 in *. change (2 ^ 63) with 9223372036854775808 in *.
  destruct (Z.ltb_spec i 0).
  - destruct (Z.ltb_spec ((- i) mod 18446744073709551616) 9223372036854775808);
      match goal with |- context [if ?c <? ?d then _ else _] => destruct (Z.ltb_spec c d) end; lia.
  - lia.
Qed.

Lemma unzigzag_zigzag i : - 2 ^ 63 <= i < 2 ^ 63 -> unzigzag (zigzag i) = i.
Proof.
  intros H. rewrite zigzag_val by exact H. unfold unzigzag.
  rewrite Z.shiftr_div_pow2 by lia. change (2 ^ 1) with 2.
  unfold wrap_u, wrap_s. cbv zeta. change (64 - 1) with 63.
  change (2 ^ 64) with 18446744073709551616 in *. change (2 ^ 63) with 9223372036854775808 in *.
  destruct (Z.ltb_spec i 0).
  - replace (Z.odd (-2 * i - 1)) with true
      by (replace (-2 * i - 1) with (1 + 2 * (- i - 1)) by lia; rewrite Z.odd_add_mul_2; reflexivity).
    match goal with |- context [if ?c <? ?d then _ else _] => destruct (Z.ltb_spec c d) end; lia.
  - replace (Z.odd (2 * i)) with false
      by (replace (2 * i) with (0 + 2 * i) by lia; rewrite Z.odd_add_mul_2; reflexivity).
    match goal with |- context [if ?c <? ?d then _ else _] => destruct (Z.ltb_spec c d) end; lia.
Qed.

Lemma svarint_roundtrip i rest :
  - 2 ^ 63 <= i < 2 ^ 63 -> read_svarint (write_svarint i ++ rest) = Ok (i, rest).
Proof.
  intros H. unfold read_svarint, write_svarint. rewrite uvarint_roundtrip by (apply zigzag_range, H).
  cbn [bind]. rewrite unzigzag_zigzag by exact H. reflexivity.
Qed.

(** ** Tags *)

Lemma tag_val f w : 0 <= f < 2 ^ 61 -> 0 <= w < 8 -> tag f w = 8 * f + w.
Proof.
  intros Hf Hw. unfold tag. rewrite Z.shiftl_mul_pow2 by lia. change (2 ^ 3) with 8.
  rewrite (wrap_u_small 64 (f * 8)) by lia. rewrite wrap_u_small by lia. lia.
Qed.

Lemma read_tag_varint64 f w t rest :
  0 <= w < 8 -> varint64 (8 * f + w) t -> read_tag (t ++ rest) = Ok (f, w, rest).
Proof.
  intros Hw Ht. unfold read_tag. rewrite (read_uvarint_varint64 _ _ _ Ht). cbn [bind].
  change 7 with (Z.ones 3). rewrite Z.land_ones, Z.shiftr_div_pow2 by lia.
  change (2 ^ 3) with 8.
  replace ((8 * f + w) / 8) with f by lia. replace ((8 * f + w) mod 8) with w by lia. reflexivity.
Qed.

Lemma write_tag_varint64 f w : 0 <= f < 2 ^ 61 -> 0 <= w < 8 -> varint64 (8 * f + w) (write_tag f w).
Proof.
  intros Hf Hw. unfold write_tag. rewrite tag_val by assumption. apply write_uvarint_varint64. lia.
Qed.

Lemma tag_roundtrip f w rest :
  0 <= f < 2 ^ 61 -> 0 <= w < 8 -> read_tag (write_tag f w ++ rest) = Ok (f, w, rest).
Proof. intros. apply read_tag_varint64; [lia|]. apply write_tag_varint64; assumption. Qed.

(** Reading consumes bytes. *)
Lemma read_uvarint_loop_shorter bs : forall acc shift v rest,
  read_uvarint_loop acc shift bs = Ok (v, rest) ->
  (length rest < length bs)%nat /\ 0 <= v < 2 ^ 64.
Proof.
  induction bs as [|b bs IH]; intros acc shift v rest H; cbn [read_uvarint_loop] in H; [discriminate|].
  destruct (64 <=? shift); [discriminate|]. cbv zeta in H. destruct (b <? 128).
  - injection H as H1 H2. subst. cbn [length]. split; [lia|]. unfold wrap_u. apply Z.mod_pos_bound. lia.
  - apply IH in H. cbn [length]. lia.
Qed.

Lemma read_uvarint_shorter bs v rest :
  read_uvarint bs = Ok (v, rest) -> (length rest < length bs)%nat /\ 0 <= v < 2 ^ 64.
Proof. apply read_uvarint_loop_shorter. Qed.

Lemma read_tag_shorter bs f w rest :
  read_tag bs = Ok (f, w, rest) ->
  (length rest < length bs)%nat /\ 0 <= f < 2 ^ 61 /\ 0 <= w < 8.
Proof.
  unfold read_tag. destruct (read_uvarint bs) as [[v r]|e] eqn:E; cbn [bind]; [|discriminate].
  apply read_uvarint_shorter in E. intros H. injection H as H1 H2 H3. subst.
  change 7 with (Z.ones 3). rewrite Z.land_ones, Z.shiftr_div_pow2 by lia. change (2 ^ 3) with 8. lia.
Qed.

Lemma read_bytes_shorter n bs a rest : read_bytes n bs = Ok (a, rest) -> (length rest <= length bs)%nat.
Proof.
  unfold read_bytes. destruct (_ <? n); [discriminate|]. intros H. injection H as H1 H2. subst.
  rewrite skipn_length. lia.
Qed.

Lemma read_bytes_app n data rest :
  Z.of_nat (length data) = n -> read_bytes n (data ++ rest) = Ok (data, rest).
Proof.
  intros Hn. unfold read_bytes. rewrite app_length. destruct (Z.ltb_spec (Z.of_nat (length data + length rest)) n); [lia|].
  replace (Z.to_nat n) with (length data) by lia.
  rewrite firstn_app, skipn_app, Nat.sub_diag, firstn_all, skipn_all. cbn. rewrite app_nil_r. reflexivity.
Qed.

Lemma read_uvarint_not_fuel bs : read_uvarint bs <> Err OutOfFuel.
Proof.
  unfold read_uvarint. generalize 0 at 1. generalize 0. induction bs as [|b bs IH]; intros s a; cbn [read_uvarint_loop];
    [discriminate|].
  destruct (64 <=? s); [discriminate|]. cbv zeta. destruct (b <? 128); [discriminate|apply IH].
Qed.

Lemma read_tag_not_fuel bs : read_tag bs <> Err OutOfFuel.
Proof.
  unfold read_tag. pose proof (read_uvarint_not_fuel bs). destruct (read_uvarint bs) as [[v r]|e]; cbn [bind]; congruence.
Qed.

Lemma read_bytes_not_fuel n bs : read_bytes n bs <> Err OutOfFuel.
Proof. unfold read_bytes. destruct (_ <? n); discriminate. Qed.

(** ** Skipping *)

Ltac wires := unfold EMPTY, VARINT, BITS_32, BITS_64, BYTES, SINGLE, BEGIN_COMPOUND, END_COMPOUND in *.

Lemma discard_shorter_aux fuel :
  (forall w bs r, discard fuel w bs = Ok r -> (length r <= length bs)%nat) /\
  (forall bs r, discard_until_end fuel bs = Ok r -> (length r < length bs)%nat).
Proof.
  induction fuel as [|fuel [IH1 IH2]]; split; intros; cbn [discard discard_until_end] in *; try discriminate.
  - repeat match type of H with
    | (if ?c then _ else _) = _ => destruct c
    | Ok _ = Ok _ => injection H as H
    | bind ?r _ = _ => let E := fresh "E" in destruct r as [?|?] eqn:E; cbn [bind] in H; [|discriminate]
    | (let '(_, _) := ?p in _) = _ => destruct p
    | discard _ _ _ = _ => apply IH1 in H
    | discard_until_end _ _ = _ => apply IH2 in H
    | Err _ = _ => discriminate
    end;
    repeat match goal with
    | E : read_uvarint _ = Ok _ |- _ => apply read_uvarint_shorter in E
    | E : read_bytes _ _ = Ok _ |- _ => apply read_bytes_shorter in E
    | E : read_tag _ = Ok _ |- _ => apply read_tag_shorter in E
    end; subst; lia.
  - destruct (read_tag bs) as [[[f w] bs']|] eqn:E; cbn [bind] in H; [|discriminate].
    apply read_tag_shorter in E.
    destruct (discard fuel w bs') as [bs''|] eqn:E2; cbn [bind] in H; [|discriminate].
    apply IH1 in E2. destruct (w =? END_COMPOUND).
    + injection H as H; subst; lia.
    + apply IH2 in H. lia.
Qed.

Lemma discard_no_fuel_aux fuel :
  (forall w bs, (2 * length bs + 2 <= fuel)%nat -> discard fuel w bs <> Err OutOfFuel) /\
  (forall bs, (2 * length bs + 1 <= fuel)%nat -> discard_until_end fuel bs <> Err OutOfFuel).
Proof.
  induction fuel as [|fuel [IH1 IH2]]; split; intros; [lia|lia|..].
  - cbn [discard].
    repeat match goal with
    | |- (if ?c then _ else _) <> _ => destruct c
    | |- Ok _ <> _ => discriminate
    | |- Err GenericError <> _ => discriminate
    end.
    + pose proof (read_uvarint_not_fuel bs). destruct (read_uvarint bs) as [[v r]|e]; cbn [bind]; congruence.
    + pose proof (read_bytes_not_fuel 4 bs). destruct (read_bytes 4 bs) as [[v r]|e]; cbn [bind]; congruence.
    + pose proof (read_bytes_not_fuel 8 bs). destruct (read_bytes 8 bs) as [[v r]|e]; cbn [bind]; congruence.
    + pose proof (read_uvarint_not_fuel bs). destruct (read_uvarint bs) as [[v r]|e]; cbn [bind]; [|congruence].
      pose proof (read_bytes_not_fuel v r). destruct (read_bytes v r) as [[v' r']|e]; cbn [bind]; congruence.
    + pose proof (read_tag_not_fuel bs). destruct (read_tag bs) as [[[f w'] r]|e] eqn:E; cbn [bind]; [|congruence].
      apply read_tag_shorter in E. apply IH1. lia.
    + apply IH2. lia.
  - cbn [discard_until_end].
    pose proof (read_tag_not_fuel bs). destruct (read_tag bs) as [[[f w'] r]|e] eqn:E; cbn [bind]; [|congruence].
    apply read_tag_shorter in E.
    assert (Hd : discard fuel w' r <> Err OutOfFuel) by (apply IH1; lia).
    destruct (discard fuel w' r) as [r'|e] eqn:E2; cbn [bind]; [|congruence].
    apply discard_shorter_aux in E2.
    destruct (w' =? END_COMPOUND); [discriminate|]. apply IH2. lia.
Qed.

Lemma discard_no_fuel_error w bs : finishReadingMessageAndDiscard w bs <> Err OutOfFuel.
Proof. apply discard_no_fuel_aux. unfold enough. lia. Qed.

Scheme encodes_ind2 := Induction for encodes Sort Prop
  with encodes_fields_ind2 := Induction for encodes_fields Sort Prop.
Combined Scheme encodes_mutind from encodes_ind2, encodes_fields_ind2.

Lemma wire_type_range m : 0 <= wire_type m < 7.
Proof. destruct m; cbn; lia. Qed.

Lemma varint64_length n bs : varint64 n bs -> (1 <= length bs)%nat.
Proof. intros [H _]. apply varint_bounds in H. lia. Qed.

Lemma varint64_range n bs : varint64 n bs -> 0 <= n < 2 ^ 64.
Proof. intros [H [H1 _]]. apply varint_bounds in H. lia. Qed.

Lemma discard_encodes :
  (forall m bs, encodes m bs -> forall fuel rest, (2 * length bs + 2 <= fuel)%nat ->
     discard fuel (wire_type m) (bs ++ rest) = Ok rest) /\
  (forall fs bs, encodes_fields fs bs -> forall fuel rest, (2 * length bs + 1 <= fuel)%nat ->
     discard_until_end fuel (bs ++ rest) = Ok rest).
Proof.
  apply encodes_mutind.
  - intros fuel rest H. destruct fuel; [lia|]. reflexivity.
  - intros v bs Hv fuel rest H. destruct fuel; [lia|]. cbn.
    rewrite (read_uvarint_varint64 _ _ _ Hv). reflexivity.
  - intros data Hd fuel rest H. destruct fuel; [lia|]. cbn.
    rewrite read_bytes_app by lia. reflexivity.
  - intros data Hd fuel rest H. destruct fuel; [lia|]. cbn.
    rewrite read_bytes_app by lia. reflexivity.
  - intros data len Hl fuel rest H. destruct fuel; [lia|]. cbn. rewrite <- app_assoc.
    rewrite (read_uvarint_varint64 _ _ _ Hl). cbn [bind]. rewrite read_bytes_app by lia. reflexivity.
  - intros field m t bs Hf Ht Hm IH fuel rest H. destruct fuel; [lia|]. cbn. rewrite <- app_assoc.
    pose proof (wire_type_range m) as Hw.
    rewrite (read_tag_varint64 field (wire_type m) t) by (assumption || lia). cbn [bind].
    pose proof (varint64_length _ _ Ht). rewrite app_length in H. apply IH. lia.
  - intros fs bs Hfs IH fuel rest H. destruct fuel; [lia|]. cbn. apply IH. lia.
  - intros field t Hf Ht fuel rest H. destruct fuel; [lia|]. cbn.
    rewrite (read_tag_varint64 field 7 t) by (assumption || lia). cbn [bind].
    pose proof (varint64_length _ _ Ht). destruct fuel; [lia|]. reflexivity.
  - intros field m fs t bs r Hf Ht Hm IHm Hfs IHf fuel rest H. destruct fuel; [lia|]. cbn.
    pose proof (wire_type_range m) as Hw. pose proof (varint64_length _ _ Ht).
    rewrite !app_length in H. rewrite <- !app_assoc.
    rewrite (read_tag_varint64 field (wire_type m) t) by (assumption || lia). cbn [bind].
    rewrite IHm by lia. cbn [bind]. wires. destruct (Z.eqb_spec (wire_type m) 7); [lia|].
    apply IHf. lia.
Qed.

Lemma finish_discard_encodes m bs rest :
  encodes m bs -> finishReadingMessageAndDiscard (wire_type m) (bs ++ rest) = Ok rest.
Proof.
  intros H. apply discard_encodes; [exact H|]. unfold enough. rewrite app_length. lia.
Qed.

(** ** Copying *)

Lemma copy_encodes :
  (forall m bs, encodes m bs -> forall fuel rest, (2 * length bs + 2 <= fuel)%nat ->
     exists out, copy fuel (wire_type m) (bs ++ rest) = Ok (out, rest) /\ encodes m out) /\
  (forall fs bs, encodes_fields fs bs -> forall fuel rest, (2 * length bs + 1 <= fuel)%nat ->
     exists out, copy_until_end fuel (bs ++ rest) = Ok (out, rest) /\ encodes_fields fs out).
Proof.
  apply encodes_mutind.
  - intros fuel rest H. destruct fuel; [lia|]. exists []. split; [reflexivity|constructor].
  - intros v bs Hv fuel rest H. destruct fuel; [lia|]. cbn.
    rewrite (read_uvarint_varint64 _ _ _ Hv). eexists. split; [reflexivity|].
    constructor. apply write_uvarint_varint64. apply varint64_range in Hv. exact Hv.
  - intros data Hd fuel rest H. destruct fuel; [lia|]. cbn.
    rewrite read_bytes_app by lia. eexists; split; [reflexivity|constructor; exact Hd].
  - intros data Hd fuel rest H. destruct fuel; [lia|]. cbn.
    rewrite read_bytes_app by lia. eexists; split; [reflexivity|constructor; exact Hd].
  - intros data len Hl fuel rest H. destruct fuel; [lia|]. cbn. rewrite <- app_assoc.
    rewrite (read_uvarint_varint64 _ _ _ Hl). cbn [bind]. rewrite read_bytes_app by lia.
    cbn [bind]. eexists; split; [reflexivity|]. constructor. apply write_uvarint_varint64.
    apply varint64_range in Hl. exact Hl.
  - intros field m t bs Hf Ht Hm IH fuel rest H. destruct fuel; [lia|]. cbn. rewrite <- app_assoc.
    pose proof (wire_type_range m) as Hw. pose proof (varint64_range _ _ Ht) as Hr.
    rewrite (read_tag_varint64 field (wire_type m) t) by (assumption || lia). cbn [bind].
    pose proof (varint64_length _ _ Ht). rewrite app_length in H.
    destruct (IH fuel rest) as [out [E Ho]]; [lia|]. rewrite E. cbn [bind].
    eexists; split; [reflexivity|]. constructor; [exact Hf| |exact Ho].
    apply write_tag_varint64; lia.
  - intros fs bs Hfs IH fuel rest H. destruct fuel; [lia|]. cbn.
    destruct (IH fuel rest) as [out [E Ho]]; [lia|].
    exists out. split; [exact E|constructor; exact Ho].
  - intros field t Hf Ht fuel rest H. destruct fuel; [lia|]. cbn.
    rewrite (read_tag_varint64 field 7 t) by (assumption || lia). cbn.
    pose proof (varint64_range _ _ Ht) as Hr.
    eexists; split; [reflexivity|]. econstructor; [exact Hf|]. apply write_tag_varint64; lia.
  - intros field m fs t bs r Hf Ht Hm IHm Hfs IHf fuel rest H. destruct fuel; [lia|]. cbn.
    pose proof (wire_type_range m) as Hw. pose proof (varint64_length _ _ Ht).
    pose proof (varint64_range _ _ Ht) as Hr.
    rewrite !app_length in H. rewrite <- !app_assoc.
    rewrite (read_tag_varint64 field (wire_type m) t) by (assumption || lia). cbn [bind].
    wires. destruct (Z.eqb_spec (wire_type m) 7); [lia|].
    destruct (IHm fuel (r ++ rest)) as [out [E Ho]]; [lia|]. rewrite E. cbn [bind].
    destruct (IHf fuel rest) as [outs [E2 Ho2]]; [lia|]. rewrite E2. cbn [bind].
    eexists; split; [reflexivity|]. constructor; [exact Hf| |exact Ho|exact Ho2].
    apply write_tag_varint64; lia.
Qed.
