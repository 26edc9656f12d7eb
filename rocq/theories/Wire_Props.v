(** Theorems about varints and wire messages (C01, C02, C03, C41). *)
From Verif Require Import Base Wire_Model Wire_Spec Wire_Proofs.
Require Import ZifyBool ZifyNat ZifyN.
Open Scope Z_scope.

(** C01: reading back an unsigned varint. *)
Theorem C01_unsigned_varint_roundtrip : forall n rest,
  0 <= n < 2 ^ 64 -> read_uvarint (write_uvarint n ++ rest) = Ok (n, rest).
Proof. exact uvarint_roundtrip. Qed.
Print Assumptions C01_unsigned_varint_roundtrip.
Example C01_roundtrip_ex :
  read_uvarint (write_uvarint 18446744073709551615 ++ [5; 6]) = Ok (18446744073709551615, [5; 6]).
Proof. vm_compute. reflexivity. Qed.

(** What is written is the base-128 encoding, of at most ten bytes. *)
Theorem C01_unsigned_varint_format : forall n,
  0 <= n < 2 ^ 64 -> varint n (write_uvarint n) /\ (length (write_uvarint n) <= 10)%nat.
Proof. intros n H. destruct (write_uvarint_varint64 n H) as [H1 [_ H2]]. split; assumption. Qed.
Print Assumptions C01_unsigned_varint_format.
Example C01_format_ex : write_uvarint 300 = [172; 2].
Proof. reflexivity. Qed.

(** No encoding is a proper prefix of another: the encoded number and the rest of the
    stream are determined. *)
Theorem C01_unsigned_varint_prefix_free : forall a b r1 r2,
  0 <= a < 2 ^ 64 -> 0 <= b < 2 ^ 64 ->
  write_uvarint a ++ r1 = write_uvarint b ++ r2 -> a = b /\ r1 = r2.
Proof.
  intros a b r1 r2 Ha Hb H.
  pose proof (uvarint_roundtrip a r1 Ha) as E. rewrite H, (uvarint_roundtrip b r2 Hb) in E.
  injection E as E1 E2. split; congruence.
Qed.
Print Assumptions C01_unsigned_varint_prefix_free.

(** C02: signed varints, including the most negative integer. *)
Theorem C02_signed_varint_roundtrip : forall n rest,
  - 2 ^ 63 <= n < 2 ^ 63 -> read_svarint (write_svarint n ++ rest) = Ok (n, rest).
Proof. exact svarint_roundtrip. Qed.
Print Assumptions C02_signed_varint_roundtrip.
Example C02_roundtrip_ex :
  read_svarint (write_svarint (-9223372036854775808) ++ [9]) = Ok (-9223372036854775808, [9])
  /\ read_svarint (write_svarint (-3) ++ [9]) = Ok (-3, [9]).
Proof. vm_compute. split; reflexivity. Qed.

(** C03: discarding any well-formed message consumes exactly the message.  [m] ranges over
    message trees of any depth and [bs] over every encoding of [m], also those with
    needlessly long varints. *)
Theorem C03_discard_exact : forall m bs rest,
  encodes m bs -> finishReadingMessageAndDiscard (wire_type m) (bs ++ rest) = Ok rest.
Proof. exact finish_discard_encodes. Qed.
Print Assumptions C03_discard_exact.

Theorem C03_discard_tagged_exact : forall field m bs rest,
  encodes_tagged field m bs -> readMessageAndDiscard (bs ++ rest) = Ok (wire_type m, rest).
Proof.
  intros field m bs rest [t [body [-> [Hf [Ht Hm]]]]]. unfold readMessageAndDiscard.
  rewrite <- app_assoc. pose proof (wire_type_range m).
  rewrite (read_tag_varint64 field (wire_type m) t) by (assumption || lia). cbn [bind].
  rewrite finish_discard_encodes by exact Hm. reflexivity.
Qed.
Print Assumptions C03_discard_tagged_exact.

(** Copying a message into another buffer writes an encoding of the same message and
    leaves the rest of the stream. *)
Theorem C03_copy_exact : forall m bs rest,
  encodes m bs ->
  exists out, copyMessageToOtherBuffer (wire_type m) (bs ++ rest) = Ok (out, rest) /\ encodes m out.
Proof.
  intros m bs rest H. apply copy_encodes; [exact H|]. unfold enough. rewrite app_length. lia.
Qed.
Print Assumptions C03_copy_exact.

(** Whatever bytes it is given, discarding terminates (with a result or an exception). *)
Theorem C03_discard_terminates : forall wireType bs,
  finishReadingMessageAndDiscard wireType bs <> Err OutOfFuel.
Proof. exact discard_no_fuel_error. Qed.
Print Assumptions C03_discard_terminates.

(** A nested message with a non-minimal varint in it. *)
Definition sample_message : message :=
  MCompound [(0, MVarint 300); (2, MSingle 1 (MBytes [65; 66])); (3, MCompound [])].
Definition sample_bytes : list Z := [1; 172; 130; 0; 21; 12; 2; 65; 66; 30; 7; 7].
Lemma sample_encodes : encodes sample_message sample_bytes.
Proof.
  unfold sample_message, sample_bytes.
  constructor.
  apply (enc_field 0 (MVarint 300) _ [1] [172; 130; 0] [21; 12; 2; 65; 66; 30; 7; 7]); [lia| | |].
  { split; [constructor; cbn; lia|cbn; lia]. }
  { constructor. split; [|cbn; lia].
    apply (varint_more 44 2); [lia|]. apply (varint_more 2 0); [lia|]. constructor; lia. }
  apply (enc_field 2 (MSingle 1 (MBytes [65; 66])) _ [21] [12; 2; 65; 66] [30; 7; 7]); [lia| | |].
  { split; [constructor; cbn; lia|cbn; lia]. }
  { apply (enc_single 1 (MBytes [65; 66]) [12] [2; 65; 66]); [lia| |].
    { split; [constructor; cbn; lia|cbn; lia]. }
    apply (enc_bytes [65; 66] [2]). split; [constructor; cbn; lia|cbn; lia]. }
  apply (enc_field 3 (MCompound []) _ [30] [7] [7]); [lia| | |].
  { split; [constructor; cbn; lia|cbn; lia]. }
  { constructor. apply (enc_end 0); [lia|]. split; [constructor; cbn; lia|cbn; lia]. }
  apply (enc_end 0); [lia|]. split; [constructor; cbn; lia|cbn; lia].
Qed.
Example C03_discard_ex :
  finishReadingMessageAndDiscard (wire_type sample_message) (sample_bytes ++ [1; 2]) = Ok [1; 2].
Proof. vm_compute. reflexivity. Qed.
Example C03_copy_ex :
  copyMessageToOtherBuffer (wire_type sample_message) (sample_bytes ++ [1; 2])
  = Ok ([1; 172; 2; 21; 12; 2; 65; 66; 30; 7; 7], [1; 2]).
Proof. vm_compute. reflexivity. Qed.

(** C41: [validateSerializedObject] accepts every well-formed message and rejects a
    message followed by anything. *)
Theorem C41_validate_partial : forall field m bs rest,
  encodes_tagged field m bs ->
  validateSerializedObject (bs ++ rest) = match rest with [] => true | _ => false end.
Proof.
  intros field m bs rest H. unfold validateSerializedObject.
  rewrite (C03_discard_tagged_exact field m bs rest H). destruct rest; reflexivity.
Qed.
Print Assumptions C41_validate_partial.
Example C41_validate_ex : validateSerializedObject (6 :: sample_bytes) = true.
Proof. vm_compute. reflexivity. Qed.

(** The converse fails: a lone end marker is accepted although it is no message. *)
Theorem C41_validate_refuted :
  exists bs, validateSerializedObject bs = true /\ ~ (exists field m, encodes_tagged field m bs).
Proof.
  exists [7]. split; [vm_compute; reflexivity|].
  intros [field [m [t [body [E [Hf [Ht Hm]]]]]]].
  pose proof (varint64_length _ _ Ht) as Hl.
  destruct t as [|b t]; [cbn in Hl; lia|]. injection E as <- E.
  destruct t; [|discriminate]. destruct Ht as [Ht _]. pose proof (wire_type_range m) as Hw.
  remember (8 * field + wire_type m) as v eqn:Ev.
  inversion Ht as [n Hn E1 E2|low n bs Hlow Hv E1 E2]; [lia|].
  subst bs. inversion Hv.
Qed.
Print Assumptions C41_validate_refuted.
