(** Reading compressed data is reading what was compressed. *)
From Verif Require Import Base Wire_Model Compress_Model Decompress_Model Decompress_Spec.
From Coq Require Import ZifyBool ZifyNat.
Open Scope nat_scope.
Open Scope result_scope.

Lemma Ok_Some_eq {A} (x y : A) : Ok (Some x) = Ok (Some y) -> x = y.
Proof. congruence. Qed.

Section Proofs.
  Variable lz4 : bytes -> bytes.
  Variable unlz4 : bytes -> result (list bytes).
  Variable enabled : bool.
  Notation frame := (frame lz4).
  Notation decompress := (decompress unlz4 enabled).
  Notation fill := (fill unlz4 enabled).

  Definition unread (b : buffer) : bytes := skipn (offset b) (decompressed b).

  (** The bytes [bs] are still to be read from [b]. *)
  Definition view (b : buffer) (bs : bytes) : Prop :=
    length (decompressed b) = offset b + size b /\
    if enabled then exists cs, Forall (lz4_inverse lz4 unlz4) cs /\ input b = concat (map frame cs) /\ bs = unread b ++ concat cs
    else bs = unread b ++ input b /\ (input b <> [] -> size b = 0).

  Lemma unread_length b : length (decompressed b) = offset b + size b -> length (unread b) = size b.
  Proof. intros L. unfold unread. rewrite skipn_length. lia. Qed.
  Lemma skipn_skipn' {A} a b (l : list A) : skipn b (skipn a l) = skipn (a + b) l.
  Proof. revert l; induction a as [|a IH]; intros [|x l]; cbn [skipn Nat.add]; auto. now destruct b. Qed.

  Lemma le_bytes_length n x : length (le_bytes n x) = n.
  Proof. revert x; induction n as [|n IH]; intros x; cbn [le_bytes length]; auto. Qed.
  Lemma of_le_bytes_wrap n x : of_le_bytes (le_bytes n x) = (x mod 256 ^ Z.of_nat n)%Z.
  Proof.
    revert x; induction n as [|n IH]; intros x; cbn [le_bytes of_le_bytes]; [now rewrite Z.mod_1_r|].
    rewrite IH, Nat2Z.inj_succ, Z.pow_succ_r by lia.
    rewrite Z.rem_mul_r; [reflexivity|lia|]. apply Z.pow_pos_nonneg; lia.
  Qed.

  Lemma add_pieces pieces : forall b, length (decompressed b) = offset b + size b ->
    let b' := fold_left add_piece pieces b in
    length (decompressed b') = offset b' + size b' /\ unread b' = unread b ++ concat pieces /\ input b' = input b.
  Proof.
    induction pieces as [|p pieces IH]; intros b L; cbn [fold_left concat].
    - now rewrite app_nil_r.
    - pose proof (unread_length b L) as U. unfold unread in U. destruct (IH (add_piece b p)) as (L' & U' & I').
      + cbn [add_piece decompressed offset size]. rewrite app_length. lia.
      + split; [exact L'|]. split; [|exact I']. rewrite U'. unfold unread. cbn [add_piece decompressed offset skipn]. now rewrite app_assoc.
  Qed.

  Lemma peek_ok n data : n <= length data -> peek n data = Ok (firstn n data).
  Proof. intros H. unfold peek. destruct (Nat.ltb_spec (length data) n); [lia|reflexivity]. Qed.

  Lemma decompress_view b bs : view b bs ->
    (decompress b = Ok None /\ bs = unread b) \/
    exists b', decompress b = Ok (Some b') /\ view b' bs /\ length (input b') < length (input b).
  Proof.
    intros [L V]. unfold Decompress_Model.decompress. unfold view. destruct enabled.
    - destruct V as (cs & F & I & E). destruct cs as [|c cs].
      + left. rewrite I. cbn. split; [reflexivity|]. rewrite E. cbn. now rewrite app_nil_r.
      + right. apply Forall_cons_iff in F. destruct F as [(pieces & Lz & Co & Sm) F].
        cbn [map concat] in I. set (rest := concat (map frame cs)) in *. unfold Compress_Model.frame in I.
        set (hd := le_bytes 4 (wrap_u 32 (Z.of_nat (length (lz4 c))))) in *.
        assert (Lh : length hd = 4) by (unfold hd; apply le_bytes_length).
        assert (Vh : Z.to_nat (of_le_bytes hd) = length (lz4 c)).
        { unfold hd. rewrite of_le_bytes_wrap. unfold wrap_u. change (256 ^ Z.of_nat 4)%Z with (2 ^ 32)%Z.
          rewrite !Z.mod_small; lia. }
        rewrite <- app_assoc in I.
        assert (F4 : firstn 4 (input b) = hd) by (rewrite I, <- Lh, firstn_app, Nat.sub_diag, firstn_all; cbn [firstn]; now rewrite app_nil_r).
        assert (S4 : skipn 4 (input b) = lz4 c ++ rest) by (rewrite I, <- Lh, skipn_app, Nat.sub_diag, skipn_all; reflexivity).
        assert (Ll : length (input b) = 4 + length (lz4 c) + length rest) by (rewrite I, !app_length, Lh; lia).
        destruct (Nat.ltb_spec (length (input b)) 4); [lia|]. rewrite peek_ok by lia. cbn [bind]. rewrite F4, Vh. destruct (Nat.ltb_spec (length (input b)) (length (lz4 c) + 4)); [lia|].
        rewrite peek_ok by (rewrite skipn_length; lia). cbn [bind].
        rewrite S4, firstn_app, Nat.sub_diag, firstn_all. cbn [firstn]. rewrite app_nil_r, Lz. cbn [bind].
        rewrite <- skipn_skipn', S4, skipn_app, Nat.sub_diag, skipn_all. cbn [skipn app].
        eexists. split; [reflexivity|].
        match goal with |- context [fold_left add_piece pieces ?b0] => destruct (add_pieces pieces b0) as (L' & U' & I') end; [exact L|].
        cbn [input] in I'. split.
        * split; [exact L'|]. exists cs. split; [exact F|]. split; [exact I'|].
          rewrite U', Co, E. unfold unread. cbn [decompressed offset concat]. now rewrite app_assoc.
        * rewrite I'. lia.
    - destruct V as [E Z0]. destruct (input b) as [|x l] eqn:I.
      + left. split; [reflexivity|]. now rewrite E, app_nil_r.
      + right. eexists. split; [reflexivity|]. cbn [input decompressed offset size].
        assert (size b = 0) as S0 by (apply Z0; discriminate). split; [|cbn [length]; lia]. split; [lia|].
        split; [|congruence]. rewrite E. unfold unread at 2. cbn [decompressed offset skipn]. rewrite app_nil_r.
        pose proof (unread_length b L) as U. rewrite S0 in U. apply length_zero_iff_nil in U. now rewrite U.
  Qed.

  Lemma fill_view fuel : forall n b bs, view b bs -> length (input b) < fuel ->
    exists b', fill fuel n b = Ok (n <=? length bs, b') /\ view b' bs /\ (n <= length bs -> n <= size b').
  Proof.
    induction fuel as [|fuel IH]; intros n b bs V L; [lia|]. cbn [Decompress_Model.fill].
    assert (Lb : length bs >= size b).
    { destruct V as [Lv V]. pose proof (unread_length b Lv) as U. destruct enabled; [destruct V as (cs & _ & _ & ->)|destruct V as [-> _]]; rewrite app_length; lia. }
    destruct (Nat.leb_spec n (size b)) as [H|H].
    - exists b. destruct (Nat.leb_spec n (length bs)); [|lia]. auto.
    - destruct (decompress_view b bs V) as [[-> E]|(b' & -> & V' & L')]; cbn [bind].
      + exists b. pose proof (unread_length b (proj1 V)) as U. rewrite <- E in U. destruct (Nat.leb_spec n (length bs)); [lia|].
        repeat split; [apply V|apply V|lia].
      + destruct (IH n b' bs V') as (b'' & -> & V'' & H''); [lia|]. eauto.
  Qed.

  Lemma view_prefix b bs n : view b bs -> n <= size b -> firstn n (unread b) = firstn n bs.
  Proof.
    intros [L V] Hn. pose proof (unread_length b L) as U.
    assert (exists rest, bs = unread b ++ rest) as (rest & ->).
    { destruct enabled; [destruct V as (cs & _ & _ & ->)|destruct V as [-> _]]; eauto. }
    rewrite firstn_app. replace (n - length (unread b)) with 0 by lia. cbn [firstn]. now rewrite app_nil_r.
  Qed.
  Lemma read_view n b bs : view b bs ->
    if n <=? length bs then exists b', read unlz4 enabled n b = Ok (firstn n bs, b') /\ view b' (skipn n bs)
    else read unlz4 enabled n b = Err GenericError.
  Proof.
    intros V. unfold read. destruct (fill_view (S (length (input b))) n b bs V) as (b' & -> & V' & H); [lia|]. cbn [bind].
    destruct (Nat.leb_spec n (length bs)) as [Hn|Hn]; [|reflexivity]. specialize (H Hn).
    pose proof V' as [L W]. destruct (Nat.ltb_spec (length (decompressed b')) (offset b' + n)); [lia|].
    eexists. split; [f_equal; f_equal; now apply view_prefix|].
    assert (Un : skipn (offset b' + n) (decompressed b') = skipn n (unread b')) by (unfold unread; now rewrite skipn_skipn').
    split; [cbn [decompressed offset size]; lia|].
    assert (forall rest, skipn n (unread b' ++ rest) = skipn n (unread b') ++ rest) as Sk.
    { intros rest. pose proof (unread_length b' L). rewrite skipn_app. replace (n - length (unread b')) with 0 by lia. reflexivity. }
    destruct enabled.
    - destruct W as (cs & F & I & ->). exists cs. split; [exact F|]. split; [exact I|].
      rewrite Sk. unfold unread at 2. cbn [offset decompressed]. now rewrite Un.
    - destruct W as [-> W]. cbn [input size]. split; [|intros X; specialize (W X); lia].
      rewrite Sk. unfold unread at 2. cbn [offset decompressed]. now rewrite Un.
  Qed.

  Lemma reader_view {A} (r : reader A) : forall b bs, view b bs -> run_reader unlz4 enabled r b = read_plainly r bs.
  Proof.
    induction r as [a|n k IH|n k IH]; intros b bs V; cbn [run_reader read_plainly].
    - reflexivity.
    - pose proof (read_view n b bs V) as R. destruct (n <=? length bs).
      + destruct R as (b' & -> & V'). cbn [bind]. now apply IH.
      + now rewrite R.
    - unfold can_consume. destruct (fill_view (S (length (input b))) n b bs V) as (b' & -> & V' & H); [lia|]. cbn [bind]. now apply IH.
  Qed.

  (** The loop comes to an end whatever the data is. *)
  Lemma pieces_input pieces : forall b, input (fold_left add_piece pieces b) = input b.
  Proof. induction pieces as [|p pieces IH]; intros b; cbn [fold_left]; [reflexivity|]. now rewrite IH. Qed.
  Lemma decompress_shrinks b b' : decompress b = Ok (Some b') -> length (input b') < length (input b).
  Proof.
    unfold Decompress_Model.decompress. destruct enabled.
    - destruct (Nat.ltb_spec (length (input b)) 4); [discriminate|]. rewrite peek_ok by lia. cbn [bind].
      destruct (Nat.ltb_spec (length (input b)) (Z.to_nat (of_le_bytes (firstn 4 (input b))) + 4)); [discriminate|].
      rewrite peek_ok by (rewrite skipn_length; lia). cbn [bind].
      destruct (unlz4 _) as [pieces|]; cbn [bind]; [|discriminate]. intros E. apply Ok_Some_eq in E. subst b'.
      rewrite pieces_input. cbn [input]. rewrite skipn_length. lia.
    - destruct (input b) as [|x l]; [discriminate|]. intros [= <-]. cbn [input length]. lia.
  Qed.
  (** And it never reads outside the buffer. *)
  Definition sound (b : buffer) : Prop := length (decompressed b) = offset b + size b /\ (enabled = false -> input b <> [] -> size b = 0).
  Lemma decompress_sound b b' : sound b -> decompress b = Ok (Some b') -> sound b'.
  Proof.
    intros [L S0]. unfold Decompress_Model.decompress. unfold sound. destruct enabled.
    - destruct (Nat.ltb_spec (length (input b)) 4); [discriminate|]. rewrite peek_ok by lia. cbn [bind].
      destruct (Nat.ltb_spec (length (input b)) (Z.to_nat (of_le_bytes (firstn 4 (input b))) + 4)); [discriminate|].
      rewrite peek_ok by (rewrite skipn_length; lia). cbn [bind].
      destruct (unlz4 _) as [pieces|]; cbn [bind]; [|discriminate]. intros E. apply Ok_Some_eq in E. subst b'.
      split; [|discriminate].
      match goal with |- context [fold_left add_piece pieces ?b0] => destruct (add_pieces pieces b0) as (L' & _) end; [exact L|]. exact L'.
    - destruct (input b) as [|x l]; [discriminate|]. intros E. apply Ok_Some_eq in E. subst b'. cbn [decompressed offset size input].
      split; [|congruence]. rewrite S0; [lia|reflexivity|discriminate].
  Qed.
  Lemma fill_sound fuel : forall n b ok b', sound b -> fill fuel n b = Ok (ok, b') -> sound b' /\ (ok = true -> n <= size b').
  Proof.
    induction fuel as [|fuel IH]; intros n b ok b' S0; cbn [Decompress_Model.fill]; destruct (Nat.leb_spec n (size b)).
    1, 3: intros [= <- <-]; auto.
    - discriminate.
    - destruct (decompress b) as [[b1|]|e] eqn:D; cbn [bind]; [|intros [= <- <-]; split; [assumption|discriminate]|discriminate].
      apply IH. eapply decompress_sound; eauto.
  Qed.
  Lemma decompress_errors b : (forall d, legal (unlz4 d)) -> legal (decompress b).
  Proof.
    intros Hu. unfold Decompress_Model.decompress. destruct enabled; [|destruct (input b); split; discriminate].
    destruct (Nat.ltb_spec (length (input b)) 4); [split; discriminate|]. rewrite peek_ok by lia. cbn [bind].
    destruct (Nat.ltb_spec (length (input b)) (Z.to_nat (of_le_bytes (firstn 4 (input b))) + 4)); [split; discriminate|].
    rewrite peek_ok by (rewrite skipn_length; lia). cbn [bind].
    match goal with |- context [unlz4 ?d] => destruct (Hu d) as [H1 H2]; destruct (unlz4 d) as [p|e] end; cbn [bind]; split; try discriminate; congruence.
  Qed.
  Lemma fill_errors fuel : (forall d, legal (unlz4 d)) -> forall n b, length (input b) < fuel -> legal (fill fuel n b).
  Proof.
    intros Hu. induction fuel as [|fuel IH]; intros n b L; [lia|]. cbn [Decompress_Model.fill]. destruct (n <=? size b); [split; discriminate|].
    destruct (decompress_errors b Hu) as [D1 D2]. destruct (decompress b) as [[b'|]|e] eqn:D; cbn [bind].
    - apply IH. pose proof (decompress_shrinks _ _ D). lia.
    - split; discriminate.
    - split; congruence.
  Qed.
  Lemma reader_safe {A} (r : reader A) : (forall d, legal (unlz4 d)) -> legal_reader r -> forall b, sound b ->
    legal (run_reader unlz4 enabled r b).
  Proof.
    intros Hu. induction r as [a|n k IH|n k IH]; intros Hr b S0; cbn [run_reader legal_reader] in *.
    - exact Hr.
    - unfold read. pose proof (fill_errors (S (length (input b))) Hu n b) as Fe.
      destruct (fill (S (length (input b))) n b) as [[ok b']|e] eqn:F; cbn [bind].
      + destruct (fill_sound _ _ _ _ _ S0 F) as [[L' S1] Hok]. destruct ok; [|split; discriminate].
        specialize (Hok eq_refl). destruct (Nat.ltb_spec (length (decompressed b')) (offset b' + n)); [lia|]. cbn [bind].
        apply IH; [apply Hr|]. split; cbn [decompressed offset size input]; [lia|]. intros E X. specialize (S1 E X). lia.
      + destruct Fe as [F1 F2]; [lia|]. split; congruence.
    - unfold can_consume. pose proof (fill_errors (S (length (input b))) Hu n b) as Fe.
      destruct (fill (S (length (input b))) n b) as [[ok b']|e] eqn:F; cbn [bind].
      + destruct (fill_sound _ _ _ _ _ S0 F) as [S1 _]. apply IH; [apply Hr|exact S1].
      + destruct Fe as [F1 F2]; [lia|]. split; congruence.
  Qed.
End Proofs.
