(** Property C71: encoding and decoding text in compiled code. *)
From Coq Require Import List ZArith Lia.
From Verif Require Import Base Text_Model Utf8_Model Utf8_Spec Utf8_Proofs.
Import ListNotations.
Open Scope Z_scope.
Open Scope list_scope.

Lemma scalar_points : forall cs, Forall scalar cs -> Forall points cs.
Proof. intros cs. apply Forall_impl. intros c. unfold scalar, points. lia. Qed.
Lemma scalar_below : forall cs, Forall scalar cs -> Forall (fun c => 0 <= c < 1114112) cs.
Proof. intros cs. apply Forall_impl. intros c. unfold scalar. lia. Qed.

(** [text.encode()] gives the UTF-8 of the text.  Partial: text with surrogates is not refused, see below. *)
Theorem C71_encode_gives_utf8_partial : forall s e h, handler_of e = Some h -> holds s -> Forall scalar (sdata s) ->
  exists b, str_encode s e = Some (Ok b) /\ encodes (sdata s) (bdata b).
Proof.
  intros s e h E H F. destruct (encode_right s h H (scalar_below _ F)) as (b & X & Y). exists b. unfold str_encode. rewrite E, X.
  split; [reflexivity|]. split; [exact F|exact Y].
Qed.
Print Assumptions C71_encode_gives_utf8_partial.

(** [data.decode()] of the UTF-8 of a text gives that text.  Partial: other bytes are not always refused, see below. *)
Theorem C71_decode_reads_utf8_partial : forall x e h cs, handler_of e = Some h -> encodes cs (bdata x) ->
  exists s, bytes_decode x e = Some (Ok s) /\ sdata s = cs /\ holds s.
Proof. intros x e h cs E [F B]. eapply decode_right; eauto. now apply scalar_points. Qed.
Print Assumptions C71_decode_reads_utf8_partial.

(** [text.encode().decode()] is the text, with surrogates too. *)
Theorem C71_round_trip : forall s e h e' h', handler_of e = Some h -> handler_of e' = Some h' ->
  holds s -> Forall (fun c => 0 <= c < 1114112) (sdata s) ->
  exists b t, str_encode s e = Some (Ok b) /\ bytes_decode b e' = Some (Ok t) /\ sdata t = sdata s /\ holds t.
Proof.
  intros s e h e' h' E E' H F. destruct (encode_right s h H F) as (b & X & Y).
  destruct (decode_right b e' h' (sdata s) E') as (t & D & S & HT); [|exact Y|].
  - revert F. apply Forall_impl. intros c. unfold points. lia.
  - exists b, t. unfold str_encode. rewrite E, X. auto.
Qed.
Print Assumptions C71_round_trip.

(** Different texts have different bytes. *)
Theorem C71_bytes_determine_the_text : forall cs cs' bs, encodes cs bs -> encodes cs' bs -> cs = cs'.
Proof.
  intros cs cs' bs E E'. destruct (C71_decode_reads_utf8_partial (Some bs) NotGiven Strict cs eq_refl E) as (s & D & S & _).
  destruct (C71_decode_reads_utf8_partial (Some bs) NotGiven Strict cs' eq_refl E') as (s' & D' & S' & _). congruence.
Qed.
Print Assumptions C71_bytes_determine_the_text.

(** Encoding stays within the memory that it allocates, whatever the code points and the handler are. *)
Theorem C71_encoding_stays_in_its_memory : forall s e h, handler_of e = Some h -> holds s ->
  str_encode s e <> Some (Err UndefinedBehaviour).
Proof. intros s e h E H X. unfold str_encode in X. rewrite E in X. injection X as X. exact (encode_in_room s h H X). Qed.
Print Assumptions C71_encoding_stays_in_its_memory.

(** Decoding ends for all bytes, with text or an exception, unless the last sequence is cut short.  Partial: see below. *)
Theorem C71_decoding_ends_partial : forall x e h, handler_of e = Some h ->
  (forall pre b rest n, bdata x = pre ++ b :: rest -> sequence_length b = Some n -> n <= 1 + zlen rest) ->
  (exists s, bytes_decode x e = Some (Ok s)) \/ bytes_decode x e = Some (Err GenericError).
Proof.
  intros x e h E C. destruct (decode_any x e h E) as [D|[D|[_ (pre & b & rest & n & B & S & L)]]]; auto.
  specialize (C pre b rest n B S). lia.
Qed.
Print Assumptions C71_decoding_ends_partial.

(** ** Where it is wrong *)

(** Bytes that are no UTF-8 are decoded: the bytes after the first of a sequence are not looked at. *)
Theorem C71_malformed_bytes_refuted : exists bs s, (forall cs, ~ encodes cs bs) /\ bytes_decode (Some bs) NotGiven = Some (Ok s).
Proof.
  exists [195; 40]. eexists. split; [|vm_compute; reflexivity]. intros cs E.
  destruct (C71_decode_reads_utf8_partial (Some [195; 40]) NotGiven Strict cs eq_refl E) as (s & D & S & _). vm_compute in D.
  injection D as <-. vm_compute in S. subst cs. destruct E as [_ E]. vm_compute in E. discriminate.
Qed.
Print Assumptions C71_malformed_bytes_refuted.

(** Surrogates that are encoded are decoded, and code points beyond the last one are made. *)
Theorem C71_impossible_text_refuted : exists bs s, Forall is_byte bs /\ bytes_decode (Some bs) NotGiven = Some (Ok s) /\
  Exists (fun c => c >= 1114112) (sdata s).
Proof.
  exists [247; 191; 191; 191]. eexists. split; [repeat constructor; unfold is_byte; lia|]. split; [vm_compute; reflexivity|].
  constructor. vm_compute. discriminate.
Qed.
Print Assumptions C71_impossible_text_refuted.

(** Such text is encoded to nothing when errors are to be replaced. *)
Theorem C71_replace_refuted : exists s, swidth s = 4 /\ slen s = 1 /\ holds s /\ str_encode s NamedReplace = Some (Ok (Some nil)).
Proof.
  exists (Some (mk_slayout 4 [2097151])). split; [reflexivity|]. split; [reflexivity|]. split; [|vm_compute; reflexivity].
  split; [cbn; auto|]. constructor; [vm_compute; auto|constructor]. split; [discriminate|reflexivity].
Qed.
Print Assumptions C71_replace_refuted.

(** A last sequence that is cut short is read beyond the end of the data. *)
Theorem C71_cut_short_refuted : exists bs, Forall is_byte bs /\ bytes_decode (Some bs) NotGiven = Some (Err UndefinedBehaviour).
Proof. exists [97; 240]. split; [repeat constructor; unfold is_byte; lia|vm_compute; reflexivity]. Qed.
Print Assumptions C71_cut_short_refuted.

(** A surrogate is encoded although no UTF-8 stands for it; Python raises [UnicodeEncodeError]. *)
Theorem C71_surrogates_refuted : exists s b, holds s /\ str_encode s NamedStrict = Some (Ok b) /\ forall bs, ~ encodes (sdata s) bs.
Proof.
  exists (Some (mk_slayout 2 [55296])). eexists. split; [|split; [vm_compute; reflexivity|]].
  - split; [cbn; auto|]. constructor; [vm_compute; auto|constructor]. split; [discriminate|reflexivity].
  - intros bs [F _]. apply Forall_inv in F. unfold scalar in F. cbn in F. lia.
Qed.
Print Assumptions C71_surrogates_refuted.

(** Bytes that are to be ignored or replaced raise an exception all the same. *)
Theorem C71_decode_handlers_refuted : forall e, e = NamedIgnore \/ e = NamedReplace -> bytes_decode (Some [128]) e = Some (Err GenericError).
Proof. intros e [-> | ->]; vm_compute; reflexivity. Qed.
Print Assumptions C71_decode_handlers_refuted.

(** ** The hypotheses hold *)

(** "a", e acute, the euro sign, a face. *)
Definition sample : str := Some (mk_slayout 4 [97; 233; 8364; 128512]).
Example sample_holds : holds sample.
Proof. split; [cbn; auto|]. repeat (constructor; [split; [discriminate|reflexivity]|]). constructor. Qed.
Example sample_scalar : Forall scalar (sdata sample).
Proof. unfold scalar. repeat (constructor; [lia|]). constructor. Qed.
Example sample_encoded : str_encode sample NotGiven = Some (Ok (Some [97; 195; 169; 226; 130; 172; 240; 159; 152; 128])).
Proof. vm_compute. reflexivity. Qed.
Example sample_decoded : bytes_decode (Some [97; 195; 169; 226; 130; 172; 240; 159; 152; 128]) NotGiven = Some (Ok sample).
Proof. vm_compute. reflexivity. Qed.
Example not_cut_short : forall pre b rest n, [195; 169] = pre ++ b :: rest -> sequence_length b = Some n -> n <= 1 + zlen rest.
Proof.
  intros [|x [|y [|]]] b rest n E; injection E; intros; subst; try discriminate;
    match goal with H : sequence_length _ = Some _ |- _ => vm_compute in H; try discriminate; injection H as <- end; vm_compute; discriminate.
Qed.
