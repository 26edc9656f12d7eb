(** Proofs about the methods that split and join text. *)
From Coq Require Import List ZArith Bool Lia ZifyBool ZifyNat.
From Verif Require Import Base PyList Text_Model TextSearch_Model TextSearch_Spec
  TextSearch_Proofs TextSplit_Model TextSplit_Spec TextSplit_Proofs.
Import ListNotations.
Open Scope Z_scope.
Open Scope result_scope.

(** ** Bytes *)

Definition bmat (d : list Z) (sep : option (list Z)) (cur : Z) : result (option Z) :=
  m <- bsplit_match d sep cur ;;
  Ok (if zlen d <? m + sep_len sep then None else Some m).

Definition brmat (d : list Z) (sep : option (list Z)) (cur : Z) : result (option Z) :=
  m <- brsplit_match d sep cur ;;
  Ok (if m - sep_len sep + 1 <? 0 then None else Some m).

Lemma bsplit_loop_g : forall fuel d sep max cur count out,
  bsplit_loop fuel d sep max cur count out =
  gsplit d (piece_of d) (sep_len sep) max (has_sep sep) fuel (bmat d sep) cur count out.
Proof.
  induction fuel as [|fuel IH]; intros; [reflexivity|]. cbn [bsplit_loop gsplit].
  destruct (cur <? zlen d); [|reflexivity]. unfold bmat at 1.
  destruct (bsplit_match d sep cur) as [m|e]; cbn [bind]; [|reflexivity].
  destruct (zlen d <? m + sep_len sep); [reflexivity|].
  destruct (has_sep sep || negb (m =? cur)); [|apply IH]. cbv zeta.
  destruct ((0 <=? max) && (max <=? count + 1)); [reflexivity|apply IH].
Qed.

Lemma brsplit_loop_g : forall fuel d sep max cur count out,
  brsplit_loop fuel d sep max cur count out =
  grsplit (piece_of d) (sep_len sep) max (has_sep sep) fuel (brmat d sep) cur count out.
Proof.
  induction fuel as [|fuel IH]; intros; [reflexivity|]. cbn [brsplit_loop grsplit].
  destruct (0 <=? cur); [|reflexivity]. unfold brmat at 1.
  destruct (brsplit_match d sep cur) as [m|e]; cbn [bind]; [|reflexivity].
  destruct (m - sep_len sep + 1 <? 0); [reflexivity|].
  destruct (has_sep sep || negb (m =? cur)); [|apply IH]. cbv zeta.
  destruct ((0 <=? max) && (max <=? count + 1)); [reflexivity|apply IH].
Qed.

Lemma piece_of_ok : forall d a b, 0 <= a <= b -> bdata (piece_of d a b) = sub_list d a b.
Proof. reflexivity. Qed.

Lemma single_sep : forall (s : list Z), zlen s = 1 -> s = [nth 0 s 0].
Proof.
  intros s H. unfold zlen in H. destruct s as [|a [|]]; cbn in *; try lia. reflexivity.
Qed.

Lemma bmat_sep : forall d s cur, s <> [] -> 0 <= cur < zlen d ->
  exists r, bmat d (Some s) cur = Ok r /\
    match r with Some m => next_sep d s cur m | None => no_sep d s cur end.
Proof.
  intros d s cur Hs Hc.
  assert (Hpos : 0 < zlen s) by (destruct s; [now destruct Hs|unfold zlen; cbn; lia]).
  assert (K : exists m, bsplit_match d (Some s) cur = Ok m /\ cur <= m /\
              (m + zlen s <= zlen d -> standsb d s m = true) /\
              forall j, cur <= j < m -> standsb d s j = false).
  { cbn [bsplit_match]. destruct (zlen s =? 1) eqn:E.
    - destruct (scan_up_spec (scan_fuel d) (byte_test d (fun c => c =? nth 0 s 0))
        (standsb d s) cur (zlen d)) as (m & H1 & H2 & H3 & H4).
      + intros j Hj. rewrite byte_test_ok by lia. f_equal.
        rewrite (single_sep s) by lia. cbn [nth]. rewrite standsb_single by lia. reflexivity.
      + unfold scan_fuel, zlen in *. lia.
      + exists m. split; [exact H1|]. split; [lia|]. split; [intro; apply H3; lia|exact H4].
    - destruct (scan_up_spec (scan_fuel d) (mem_equal d s)
        (standsb d s) cur (zlen d - zlen s + 1)) as (m & H1 & H2 & H3 & H4).
      + intros j Hj. apply mem_equal_ok; lia.
      + unfold scan_fuel, zlen in *. lia.
      + exists m. split; [exact H1|]. split; [lia|]. split; [intro; apply H3; lia|exact H4]. }
  destruct K as (m & H1 & H2 & H3 & H4). unfold bmat. rewrite H1. cbn [bind sep_len].
  eexists. split; [reflexivity|]. destruct (zlen d <? m + zlen s) eqn:E.
  - apply (no_sep_of_scan d s cur m); [lia|exact H4].
  - apply next_sep_of_scan; [lia|lia|lia|apply H3; lia|exact H4].
Qed.

Lemma brmat_sep : forall d s cur, s <> [] -> 0 <= cur < zlen d ->
  exists r, brmat d (Some s) cur = Ok r /\
    match r with Some m => prev_sep d s cur m | None => no_sep_before d s cur end.
Proof.
  intros d s cur Hs Hc.
  assert (Hpos : 0 < zlen s) by (destruct s; [now destruct Hs|unfold zlen; cbn; lia]).
  assert (K : exists m, brsplit_match d (Some s) cur = Ok m /\ m <= cur /\
              (0 <= m - zlen s + 1 -> standsb d s (m - zlen s + 1) = true) /\
              forall j, m < j <= cur -> standsb d s (j - zlen s + 1) = false).
  { cbn [brsplit_match]. destruct (zlen s =? 1) eqn:E.
    - destruct (scan_down_spec (scan_fuel d) (byte_test d (fun c => c =? nth 0 s 0))
        (fun j => standsb d s (j - zlen s + 1)) cur 0) as (m & H1 & H2 & H3 & H4).
      + intros j Hj. rewrite byte_test_ok by lia. f_equal.
        replace (j - zlen s + 1) with j by lia.
        rewrite (single_sep s) by lia. cbn [nth]. rewrite standsb_single by lia. reflexivity.
      + unfold scan_fuel, zlen in *. lia.
      + exists m. split; [exact H1|]. split; [lia|]. split; [intro; apply H3; lia|exact H4].
    - destruct (scan_down_spec (scan_fuel d) (fun m => mem_equal d s (m - zlen s + 1))
        (fun j => standsb d s (j - zlen s + 1)) cur (zlen s - 1)) as (m & H1 & H2 & H3 & H4).
      + intros j Hj. apply mem_equal_ok; lia.
      + unfold scan_fuel, zlen in *. lia.
      + exists m. split; [exact H1|]. split; [lia|]. split; [intro; apply H3; lia|exact H4]. }
  destruct K as (m & H1 & H2 & H3 & H4). unfold brmat. rewrite H1. cbn [bind sep_len].
  eexists. split; [reflexivity|]. destruct (m - zlen s + 1 <? 0) eqn:E.
  - apply (no_sep_before_of_scan d s cur m); [lia|exact H4].
  - apply prev_sep_of_scan; [lia|lia|lia|apply H3; lia|exact H4].
Qed.

Lemma bmat_space : forall d cur, 0 <= cur < zlen d ->
  exists r, bmat d None cur = Ok r /\
    match r with
    | Some m => cur <= m < zlen d /\ is_space (nth (Z.to_nat m) d 0) = true /\
                forall j, cur <= j < m -> is_space (nth (Z.to_nat j) d 0) = false
    | None => forall j, cur <= j < zlen d -> is_space (nth (Z.to_nat j) d 0) = false
    end.
Proof.
  intros d cur Hc. unfold bmat. cbn [bsplit_match sep_len].
  destruct (scan_up_spec (scan_fuel d) (byte_test d is_space)
    (fun j => is_space (nth (Z.to_nat j) d 0)) cur (zlen d)) as (m & H1 & H2 & H3 & H4).
  - intros j Hj. apply byte_test_ok. lia.
  - unfold scan_fuel, zlen in *. lia.
  - rewrite H1. cbn [bind]. eexists. split; [reflexivity|]. destruct (zlen d <? m + 1) eqn:E.
    + intros j Hj. apply H4. lia.
    + split; [lia|]. split; [apply H3; lia|exact H4].
Qed.

Lemma brmat_space : forall d cur, 0 <= cur < zlen d ->
  exists r, brmat d None cur = Ok r /\
    match r with
    | Some m => 0 <= m <= cur /\ is_space (nth (Z.to_nat m) d 0) = true /\
                forall j, m < j <= cur -> is_space (nth (Z.to_nat j) d 0) = false
    | None => forall j, 0 <= j <= cur -> is_space (nth (Z.to_nat j) d 0) = false
    end.
Proof.
  intros d cur Hc. unfold brmat. cbn [brsplit_match sep_len].
  destruct (scan_down_spec (scan_fuel d) (byte_test d is_space)
    (fun j => is_space (nth (Z.to_nat j) d 0)) cur 0) as (m & H1 & H2 & H3 & H4).
  - intros j Hj. apply byte_test_ok. lia.
  - unfold scan_fuel, zlen in *. lia.
  - rewrite H1. cbn [bind]. eexists. split; [reflexivity|].
    destruct (m - 1 + 1 <? 0) eqn:E.
    + intros j Hj. apply H4. lia.
    + split; [lia|]. split; [apply H3; lia|exact H4].
Qed.

Lemma left_of_0 : forall max, left_of max 0 = max.
Proof. intro max. unfold left_of. destruct (max <? 0); lia. Qed.

Theorem bsplit_sep : forall d s max, s <> [] -> d <> [] \/ max <> 0 ->
  exists out, bsplit d (Some s) max = Ok out /\ splits s max d (map bdata out).
Proof.
  intros d s max Hs Hne. unfold bsplit. destruct (max =? 0) eqn:E.
  - cbn [bind]. assert (zlen d <> 0).
    { destruct d; [destruct Hne; [congruence|lia]|unfold zlen; cbn; lia]. }
    replace (negb (0 =? zlen d)) with true by lia. eexists. split; [reflexivity|].
    cbn [map]. rewrite piece_of_ok by (unfold zlen; lia). rewrite sub_list_drop, drop_0.
    apply splits_done. lia.
  - rewrite bsplit_loop_g. cbn [has_sep sep_len].
    destruct (gsplit_sep d bdata (piece_of d) (piece_of_ok d) (zlen s) max true s
      (bmat d (Some s)) eq_refl eq_refl
      ltac:(destruct s; [now destruct Hs|unfold zlen; cbn; lia])
      (fun cur H => bmat_sep d s cur Hs H) (S (length d)) 0 0 [])
      as (cur' & ps & H1 & H2 & H3); [unfold zlen; lia|lia|lia|unfold zlen; lia|].
    rewrite H1. cbn [bind app orb]. eexists. split; [reflexivity|].
    rewrite map_app. cbn [map]. rewrite piece_of_ok by lia. rewrite sub_list_drop.
    rewrite left_of_0 in H3. exact H3.
Qed.

Theorem brsplit_sep : forall d s max, s <> [] -> d <> [] \/ max <> 0 ->
  exists out, brsplit d (Some s) max = Ok out /\ rsplits s max d (map bdata out).
Proof.
  intros d s max Hs Hne. unfold brsplit. destruct (max =? 0) eqn:E.
  - cbn [bind]. assert (0 < zlen d).
    { destruct d; [destruct Hne; [congruence|lia]|unfold zlen; cbn; lia]. }
    replace (0 <=? zlen d - 1) with true by lia. eexists. split; [reflexivity|].
    cbn [map]. rewrite piece_of_ok by lia. rewrite Z.sub_add, sub_list_drop, drop_0.
    apply rsplits_done. lia.
  - rewrite brsplit_loop_g. cbn [has_sep sep_len].
    destruct (grsplit_sep d bdata (piece_of d) (piece_of_ok d) (zlen s) max true s
      (brmat d (Some s)) eq_refl eq_refl
      ltac:(destruct s; [now destruct Hs|unfold zlen; cbn; lia])
      (fun cur H => brmat_sep d s cur Hs H) (S (length d)) (zlen d - 1) 0 [])
      as (cur' & ps & H1 & H2 & H3); [unfold zlen; lia|lia|lia|unfold zlen; lia|].
    rewrite H1. cbn [bind app orb]. eexists. split; [reflexivity|].
    rewrite rev_app_distr. cbn [rev app map]. rewrite piece_of_ok by lia.
    rewrite sub_list_take, map_rev.
    rewrite left_of_0, Z.sub_add, take_all in H3 by lia. exact H3.
Qed.

Definition tidy_left (space : Z -> bool) (out : list (list Z)) : list (list Z) :=
  filter nonempty (map (strip_left space) out).
Definition tidy_right (space : Z -> bool) (out : list (list Z)) : list (list Z) :=
  filter nonempty (map (strip_right space) out).

Lemma tidy_left_app : forall space a b,
  tidy_left space (a ++ b) = tidy_left space a ++ tidy_left space b.
Proof. intros. unfold tidy_left. now rewrite map_app, filter_app. Qed.

Lemma tidy_right_app : forall space a b,
  tidy_right space (a ++ b) = tidy_right space a ++ tidy_right space b.
Proof. intros. unfold tidy_right. now rewrite map_app, filter_app. Qed.

Lemma tidy_left_words : forall space ps, Forall (is_word space) ps -> tidy_left space ps = ps.
Proof.
  intros space ps H. induction H as [|y ps [Hy1 Hy2] H IH]; [reflexivity|].
  unfold tidy_left in *. cbn [map filter]. rewrite strip_left_none by exact Hy2.
  destruct y; [now destruct Hy1|]. cbn [nonempty]. now rewrite IH.
Qed.

Lemma tidy_right_words : forall space ps, Forall (is_word space) ps -> tidy_right space ps = ps.
Proof.
  intros space ps H. induction H as [|y ps [Hy1 Hy2] H IH]; [reflexivity|].
  unfold tidy_right in *. cbn [map filter]. rewrite strip_right_none by exact Hy2.
  destruct y; [now destruct Hy1|]. cbn [nonempty]. now rewrite IH.
Qed.

(** The scan over whitespace at one end of the text *)
Lemma skip_spaces : forall space d cur, 0 <= cur <= zlen d ->
  exists r, scan_up (scan_fuel d) (byte_test d (fun c => negb (space c))) cur (zlen d) = Ok r /\
    cur <= r <= zlen d /\ drop r d = strip_left space (drop cur d).
Proof.
  intros space d cur Hc.
  destruct (scan_up_spec (scan_fuel d) (byte_test d (fun c => negb (space c)))
    (fun j => negb (space (nth (Z.to_nat j) d 0))) cur (zlen d)) as (r & H1 & H2 & H3 & H4).
  - intros j Hj. apply byte_test_ok. lia.
  - unfold scan_fuel, zlen in *. lia.
  - exists r. split; [exact H1|]. split; [lia|].
    assert (R : r <= zlen d) by lia. assert (C : cur <= r) by lia. clear H1 H2.
    remember (Z.to_nat (r - cur)) as k. revert cur Hc C H4 Heqk.
    induction k as [|k IH]; intros cur Hc C H4 Hk.
    + assert (cur = r) by lia. subst cur. destruct (Z_lt_le_dec r (zlen d)) as [L|L].
      * rewrite (drop_cons d r) by lia. cbn [strip_left].
        specialize (H3 L). apply negb_true_iff in H3. now rewrite H3.
      * now rewrite drop_all.
    + rewrite (drop_cons d cur) by lia. cbn [strip_left].
      specialize (H4 cur ltac:(lia)) as H5. apply negb_false_iff in H5. rewrite H5.
      apply IH; try lia. intros j Hj. apply H4. lia.
Qed.

Lemma skip_spaces_down : forall space d cur, -1 <= cur < zlen d ->
  exists r, scan_down (scan_fuel d) (byte_test d (fun c => negb (space c))) cur 0 = Ok r /\
    -1 <= r <= cur /\ take (r + 1) d = strip_right space (take (cur + 1) d).
Proof.
  intros space d cur Hc.
  destruct (scan_down_spec (scan_fuel d) (byte_test d (fun c => negb (space c)))
    (fun j => negb (space (nth (Z.to_nat j) d 0))) cur 0) as (r & H1 & H2 & H3 & H4).
  - intros j Hj. apply byte_test_ok. lia.
  - unfold scan_fuel, zlen in *. lia.
  - exists r. split; [exact H1|]. split; [lia|].
    assert (R : -1 <= r) by lia. assert (C : r <= cur) by lia. clear H1 H2.
    remember (Z.to_nat (cur - r)) as k. revert cur Hc C H4 Heqk.
    induction k as [|k IH]; intros cur Hc C H4 Hk.
    + assert (cur = r) by lia. subst cur. destruct (Z_lt_le_dec r 0) as [L|L].
      * rewrite !take_0 by lia. reflexivity.
      * rewrite (take_snoc d r) by lia. rewrite strip_right_snoc.
        specialize (H3 L). apply negb_true_iff in H3. now rewrite H3.
    + rewrite (take_snoc d cur) by lia. rewrite strip_right_snoc.
      specialize (H4 cur ltac:(lia)) as H5. apply negb_false_iff in H5. rewrite H5.
      replace (take cur d) with (take (cur - 1 + 1) d) by (f_equal; lia).
      apply IH; try lia. intros j Hj. apply H4. lia.
Qed.

Lemma nonempty_zlen : forall y, nonempty y = negb (zlen y =? 0).
Proof. intros [|a y]; [reflexivity|]. unfold zlen. cbn [length nonempty]. lia. Qed.

Theorem bsplit_space : forall d max,
  exists out, bsplit d None max = Ok out /\
    words is_space max d (tidy_left is_space (map bdata out)) /\
    (max <= 0 -> words is_space max d (map bdata out)).
Proof.
  intros d max. unfold bsplit. destruct (max =? 0) eqn:E.
  - replace max with 0 by lia.
    destruct (skip_spaces is_space d 0 ltac:(unfold zlen; lia)) as (r & H1 & H2 & H3).
    rewrite H1. cbn [bind]. rewrite drop_0 in H3.
    assert (W : words is_space 0 d
              (map bdata (if negb (r =? zlen d) then [piece_of d r (zlen d)] else []))).
    { pose proof (words_zero is_space d) as W. unfold tail_piece in W. cbn [filter] in W.
      rewrite <- H3, nonempty_zlen, drop_zlen in W by lia.
      replace (negb (r =? zlen d)) with (negb (zlen d - r =? 0)) by lia.
      destruct (negb (zlen d - r =? 0)); cbn [map]; [|exact W].
      rewrite piece_of_ok, sub_list_drop by lia. exact W. }
    eexists. split; [reflexivity|]. split; [|intros _; exact W].
    replace (tidy_left is_space _) with
      (map bdata (if negb (r =? zlen d) then [piece_of d r (zlen d)] else [])); [exact W|].
    destruct (negb (r =? zlen d)) eqn:E2; [|reflexivity]. cbn [map]. unfold tidy_left. cbn [map filter].
    rewrite piece_of_ok, sub_list_drop, H3 by lia.
    assert (I : strip_left is_space (strip_left is_space d) = strip_left is_space d).
    { clear. induction d as [|c d IH]; [reflexivity|]. cbn. destruct (is_space c) eqn:E; [exact IH|].
      cbn. now rewrite E. }
    rewrite I, <- H3, nonempty_zlen, drop_zlen by lia.
    now replace (negb (zlen d - r =? 0)) with true by lia.
  - rewrite bsplit_loop_g. cbn [has_sep sep_len].
    destruct (gsplit_words is_space d bdata (piece_of d) (piece_of_ok d) max (bmat d None)
      (bmat_space d) (S (length d)) 0 0 [])
      as (cur' & ps & H1 & H2 & H3 & H4 & H5); [unfold zlen; lia|lia|lia|unfold zlen; lia|].
    rewrite H1. cbn [bind app orb]. eexists. split; [reflexivity|].
    rewrite left_of_0, drop_0 in H5.
    assert (N : tidy_left is_space [drop cur' d] = tail_piece is_space (drop cur' d))
      by reflexivity.
    split.
    + destruct (negb (zlen d =? cur')) eqn:E2.
      * rewrite map_app, tidy_left_app, tidy_left_words by exact H3. cbn [map].
        rewrite piece_of_ok, sub_list_drop by lia. rewrite N. exact H5.
      * rewrite tidy_left_words by exact H3.
        rewrite drop_all, app_nil_r in H5 by lia. exact H5.
    + intro Hm. assert (Hneg : max < 0) by lia. specialize (H4 Hneg).
      unfold tail_piece in H5. rewrite strip_left_none in H5 by exact H4. cbn [filter] in H5.
      rewrite nonempty_zlen, drop_zlen in H5 by lia.
      replace (negb (zlen d =? cur')) with (negb (zlen d - cur' =? 0)) by lia.
      destruct (negb (zlen d - cur' =? 0)) eqn:E2.
      * rewrite map_app. cbn [map]. rewrite piece_of_ok, sub_list_drop by lia. exact H5.
      * rewrite app_nil_r in H5. exact H5.
Qed.

Theorem brsplit_space : forall d max,
  exists out, brsplit d None max = Ok out /\
    rwords is_space max d (tidy_right is_space (map bdata out)) /\
    (max <= 0 -> rwords is_space max d (map bdata out)).
Proof.
  intros d max. unfold brsplit. destruct (max =? 0) eqn:E.
  - replace max with 0 by lia.
    destruct (skip_spaces_down is_space d (zlen d - 1) ltac:(unfold zlen; lia))
      as (r & H1 & H2 & H3).
    rewrite H1. cbn [bind]. rewrite Z.sub_add, (take_all d (zlen d)) in H3 by lia.
    assert (W : rwords is_space 0 d
              (map bdata (if 0 <=? r then [piece_of d 0 (r + 1)] else []))).
    { pose proof (rwords_zero is_space d) as W. unfold head_piece in W. cbn [filter] in W.
      rewrite <- H3, nonempty_zlen, take_zlen in W by lia.
      replace (0 <=? r) with (negb (r + 1 =? 0)) by lia.
      destruct (negb (r + 1 =? 0)); cbn [map]; [|exact W].
      rewrite piece_of_ok, sub_list_take by lia. exact W. }
    eexists. split; [reflexivity|]. split; [|intros _; exact W].
    replace (tidy_right is_space _) with
      (map bdata (if 0 <=? r then [piece_of d 0 (r + 1)] else [])); [exact W|].
    destruct (0 <=? r) eqn:E2; [|reflexivity]. cbn [map]. unfold tidy_right. cbn [map filter].
    rewrite piece_of_ok, sub_list_take, H3 by lia.
    assert (I : strip_right is_space (strip_right is_space d) = strip_right is_space d).
    { clear. induction d as [|c d IH] using rev_ind; [reflexivity|]. rewrite !strip_right_snoc.
      destruct (is_space c) eqn:E; [exact IH|]. rewrite strip_right_snoc. now rewrite E. }
    rewrite I, <- H3, nonempty_zlen, take_zlen by lia.
    now replace (negb (r + 1 =? 0)) with true by lia.
  - rewrite brsplit_loop_g. cbn [has_sep sep_len].
    destruct (grsplit_words is_space d bdata (piece_of d) (piece_of_ok d) max (brmat d None)
      (brmat_space d) (S (length d)) (zlen d - 1) 0 [])
      as (cur' & ps & H1 & H2 & H3 & H4 & H5); [unfold zlen; lia|lia|lia|unfold zlen; lia|].
    rewrite H1. cbn [bind app orb]. eexists. split; [reflexivity|].
    rewrite left_of_0, Z.sub_add, (take_all d (zlen d)) in H5 by lia.
    assert (N : tidy_right is_space [take (cur' + 1) d] = head_piece is_space (take (cur' + 1) d))
      by reflexivity.
    assert (H3' : Forall (is_word is_space) (rev (map bdata ps))) by now apply Forall_rev.
    split.
    + destruct (negb (cur' =? -1)) eqn:E2.
      * rewrite rev_app_distr. cbn [rev app map]. rewrite map_rev.
        change (?a :: ?b) with ([a] ++ b). rewrite tidy_right_app.
        rewrite (tidy_right_words _ _ H3').
        rewrite piece_of_ok, sub_list_take by lia. rewrite N. exact H5.
      * rewrite map_rev, tidy_right_words by exact H3'.
        rewrite (take_0 d (cur' + 1)) in H5 by lia. exact H5.
    + intro Hm. assert (Hneg : max < 0) by lia. specialize (H4 Hneg).
      unfold head_piece in H5. rewrite strip_right_none in H5 by exact H4. cbn [filter] in H5.
      rewrite nonempty_zlen, take_zlen in H5 by lia.
      replace (negb (cur' =? -1)) with (negb (cur' + 1 =? 0)) by lia.
      destruct (negb (cur' + 1 =? 0)) eqn:E2.
      * rewrite rev_app_distr. cbn [rev app map]. rewrite map_rev.
        rewrite piece_of_ok, sub_list_take by lia. exact H5.
      * rewrite map_rev. exact H5.
Qed.

(** ** Strings *)

Definition smat (space : Z -> bool) (l : str) (sep : option str) (cur : Z)
    : result (option Z) :=
  m <- ssplit_match space l sep cur ;; Ok (if slen l <=? m then None else Some m).

Definition srmat (space : Z -> bool) (l : str) (sep : option str) (cur : Z)
    : result (option Z) :=
  m <- srsplit_match space l sep cur ;; Ok (if m <? 0 then None else Some m).

Lemma ssplit_loop_g : forall fuel space l sep max cur count out,
  max < 0 \/ count < max ->
  ssplit_loop fuel space l sep max cur count out =
  gsplit (sdata l) (getsubstr l) (ssep_len sep) max (has_ssep sep) fuel (smat space l sep)
    cur count out.
Proof.
  induction fuel as [|fuel IH]; intros space l sep max cur count out Hk; [reflexivity|].
  cbn [ssplit_loop gsplit]. replace ((count <? max) || (max <? 0)) with true by lia. cbn [andb].
  fold (slen l). destruct (cur <? slen l); [|reflexivity]. unfold smat at 1.
  destruct (ssplit_match space l sep cur) as [m|e]; cbn [bind]; [|reflexivity].
  destruct (slen l <=? m); [reflexivity|].
  destruct (has_ssep sep || negb (m =? cur)); [|now apply IH]. cbv zeta.
  destruct ((0 <=? max) && (max <=? count + 1)) eqn:E; [reflexivity|apply IH; lia].
Qed.

Lemma srsplit_loop_g : forall fuel space l sep max cur count out,
  max < 0 \/ count < max ->
  srsplit_loop fuel space l sep max cur count out =
  grsplit (getsubstr l) (ssep_len sep) max (has_ssep sep) fuel (srmat space l sep)
    cur count out.
Proof.
  induction fuel as [|fuel IH]; intros space l sep max cur count out Hk; [reflexivity|].
  cbn [srsplit_loop grsplit]. replace ((count <? max) || (max <? 0)) with true by lia. cbn [andb].
  destruct (0 <=? cur); [|reflexivity]. unfold srmat at 1.
  destruct (srsplit_match space l sep cur) as [m|e]; cbn [bind]; [|reflexivity].
  destruct (m <? 0); [reflexivity|].
  destruct (has_ssep sep || negb (m =? cur)); [|now apply IH]. cbv zeta.
  destruct ((0 <=? max) && (max <=? count + 1)) eqn:E; [reflexivity|apply IH; lia].
Qed.

Lemma smat_sep : forall space l s cur, sdata s <> [] -> 0 <= cur < slen l ->
  exists r, smat space l (Some s) cur = Ok r /\
    match r with
    | Some m => next_sep (sdata l) (sdata s) cur m
    | None => no_sep (sdata l) (sdata s) cur
    end.
Proof.
  intros space l s cur Hs Hc. pose proof (slen_pos s Hs) as Hpos.
  unfold smat. cbn [ssplit_match]. destruct (fast_path l s) eqn:E.
  - assert (E1 : slen s = 1) by (unfold fast_path in E; lia).
    destruct (scan_up_spec (scan_fuel (sdata l)) (test_at l s)
      (standsb (sdata l) (sdata s)) cur (slen l)) as (m & H1 & H2 & H3 & H4).
    + intros j Hj. apply test_at_ok; lia.
    + unfold scan_fuel, slen, zlen in *. lia.
    + rewrite H1. cbn [bind]. eexists. split; [reflexivity|]. unfold slen in *.
      destruct (zlen (sdata l) <=? m) eqn:E2.
      * apply (no_sep_of_scan _ _ cur m); [lia|exact H4].
      * apply next_sep_of_scan; [lia|lia|lia|apply H3; lia|exact H4].
  - destruct (str_find_ok l s (Some cur) (Some (slen l))) as (r & H1 & H2).
    unfold with_bounds in H1. rewrite H1. cbn [bind].
    pose proof (finds_first_range _ _ _ _ _ H2) as HR.
    eexists. split; [reflexivity|].
    destruct H2 as [[M Mmin]|[Hr Mno]].
    + pose proof M as M'. apply match_within_iff in M'. destruct M' as [M1 M2].
      unfold lower_bound, upper_bound in M1. fold (slen l) (slen s) in M1.
      destruct (cur <? 0) eqn:E1; [lia|]. destruct (slen l <? 0) eqn:E2; [lia|].
      replace (r =? -1) with false by lia. replace (slen l <=? r) with false by lia.
      split; [lia|]. split; [apply M|]. intros j Hj K. apply Mmin.
      pose proof (stands_at_bounds _ _ _ K) as [B1 B2].
      apply match_within_iff. split; [|apply standsb_spec; assumption].
      unfold lower_bound, upper_bound. fold (slen l) (slen s) in *. rewrite E1, E2. lia.
    + replace (r =? -1) with true by lia. replace (slen l <=? slen l) with true by lia.
      intros j Hj K. apply (Mno j). pose proof (stands_at_bounds _ _ _ K) as [B1 B2].
      apply match_within_iff. split; [|apply standsb_spec; assumption].
      unfold lower_bound, upper_bound. fold (slen l) (slen s) in *.
      destruct (cur <? 0) eqn:E1; [lia|]. destruct (slen l <? 0) eqn:E2; lia.
Qed.

Lemma srmat_sep : forall space l s cur, sdata s <> [] -> 0 <= cur < slen l ->
  exists r, srmat space l (Some s) cur = Ok r /\
    match r with
    | Some m => prev_sep (sdata l) (sdata s) cur m
    | None => no_sep_before (sdata l) (sdata s) cur
    end.
Proof.
  intros space l s cur Hs Hc. pose proof (slen_pos s Hs) as Hpos.
  unfold srmat. cbn [srsplit_match]. destruct (fast_path l s) eqn:E.
  - assert (E1 : slen s = 1) by (unfold fast_path in E; lia).
    destruct (scan_down_spec (scan_fuel (sdata l)) (test_at l s)
      (fun j => standsb (sdata l) (sdata s) (j - slen s + 1)) cur 0) as (m & H1 & H2 & H3 & H4).
    + intros j Hj. replace (j - slen s + 1) with j by lia. apply test_at_ok; lia.
    + unfold scan_fuel, slen, zlen in *. lia.
    + rewrite H1. cbn [bind]. eexists. split; [reflexivity|]. unfold slen in *.
      destruct (m <? 0) eqn:E2.
      * apply (no_sep_before_of_scan _ _ cur m); [lia|exact H4].
      * apply prev_sep_of_scan; [lia|lia|lia|apply H3; lia|exact H4].
  - destruct (str_rfind_ok l s (Some 0) (Some (cur + 1))) as (r & H1 & H2).
    unfold with_bounds in H1. rewrite H1. cbn [bind].
    pose proof (finds_last_range _ _ _ _ _ H2) as HR.
    assert (B : forall j, match_within (sdata l) (sdata s) (Some 0) (Some (cur + 1)) j <->
                stands_at (sdata l) (sdata s) j /\ j + slen s <= cur + 1).
    { intro j. rewrite match_within_iff. unfold lower_bound, upper_bound.
      fold (slen l) (slen s). destruct (cur + 1 <? 0) eqn:E2; [lia|]. cbn [Z.ltb Z.compare].
      split.
      - intros [K1 K2]. split; [apply standsb_spec in K2; [exact K2|lia|fold (slen l) (slen s); lia]|lia].
      - intros [K1 K2]. pose proof (stands_at_bounds _ _ _ K1) as [B1 B2].
        split; [lia|]. apply standsb_spec; assumption. }
    eexists. split; [reflexivity|].
    destruct H2 as [[M Mmax]|[Hr Mno]].
    + apply B in M. destruct M as [M1 M2]. pose proof (stands_at_bounds _ _ _ M1) as [B1 B2].
      replace (r =? -1) with false by lia. cbn [negb].
      replace (r + (slen s - 1) <? 0) with false by lia.
      unfold prev_sep. fold (slen s). split; [lia|].
      replace (r + (slen s - 1) - slen s + 1) with r by lia. split; [exact M1|].
      intros j Hj K. apply Mmax. apply B. now split.
    + replace (r =? -1) with true by lia. cbn [negb]. replace (r <? 0) with true by lia.
      intros j Hj K. apply (Mno j). apply B. now split.
Qed.

Lemma smat_space : forall space l cur, 0 <= cur < slen l ->
  exists r, smat space l None cur = Ok r /\
    match r with
    | Some m => cur <= m < slen l /\ space (nth (Z.to_nat m) (sdata l) 0) = true /\
                forall j, cur <= j < m -> space (nth (Z.to_nat j) (sdata l) 0) = false
    | None => forall j, cur <= j < slen l -> space (nth (Z.to_nat j) (sdata l) 0) = false
    end.
Proof.
  intros space l cur Hc. unfold smat. cbn [ssplit_match].
  destruct (scan_up_spec (scan_fuel (sdata l)) (byte_test (sdata l) space)
    (fun j => space (nth (Z.to_nat j) (sdata l) 0)) cur (slen l)) as (m & H1 & H2 & H3 & H4).
  - intros j Hj. apply byte_test_ok. unfold slen in *. lia.
  - unfold scan_fuel, slen, zlen in *. lia.
  - rewrite H1. cbn [bind]. eexists. split; [reflexivity|]. destruct (slen l <=? m) eqn:E.
    + intros j Hj. apply H4. lia.
    + split; [lia|]. split; [apply H3; lia|exact H4].
Qed.

Lemma srmat_space : forall space l cur, 0 <= cur < slen l ->
  exists r, srmat space l None cur = Ok r /\
    match r with
    | Some m => 0 <= m <= cur /\ space (nth (Z.to_nat m) (sdata l) 0) = true /\
                forall j, m < j <= cur -> space (nth (Z.to_nat j) (sdata l) 0) = false
    | None => forall j, 0 <= j <= cur -> space (nth (Z.to_nat j) (sdata l) 0) = false
    end.
Proof.
  intros space l cur Hc. unfold srmat. cbn [srsplit_match].
  destruct (scan_down_spec (scan_fuel (sdata l)) (byte_test (sdata l) space)
    (fun j => space (nth (Z.to_nat j) (sdata l) 0)) cur 0) as (m & H1 & H2 & H3 & H4).
  - intros j Hj. apply byte_test_ok. unfold slen in *. lia.
  - unfold scan_fuel, slen, zlen in *. lia.
  - rewrite H1. cbn [bind]. eexists. split; [reflexivity|]. destruct (m <? 0) eqn:E.
    + intros j Hj. apply H4. lia.
    + split; [lia|]. split; [apply H3; lia|exact H4].
Qed.

Lemma not_contains_empty : forall s, s <> [] -> ~ contains [] s.
Proof.
  intros s Hs [i K]. pose proof (stands_at_bounds _ _ _ K) as [B1 B2].
  rewrite zlen_nil in B2. destruct s; [now destruct Hs|]. unfold zlen in B2. cbn [length] in B2. lia.
Qed.

Lemma loop_unlimited_0 : forall fuel space l sep cur out,
  (0 < fuel)%nat -> ssplit_loop fuel space l sep 0 cur 0 out = Ok (cur, out).
Proof. intros [|fuel] *; [lia|reflexivity]. Qed.

Lemma rloop_unlimited_0 : forall fuel space l sep cur out,
  (0 < fuel)%nat -> srsplit_loop fuel space l sep 0 cur 0 out = Ok (cur, out).
Proof. intros [|fuel] *; [lia|reflexivity]. Qed.

Theorem ssplit_sep : forall space l s max, sdata s <> [] ->
  exists out, ssplit space l (Some s) max = Ok out /\
              splits (sdata s) max (sdata l) (map sdata out).
Proof.
  intros space l s max Hs. pose proof (slen_pos s Hs) as Hpos. unfold ssplit.
  destruct (slen l =? 0) eqn:E0.
  - replace (negb (slen s =? 0)) with true by lia. eexists. split; [reflexivity|].
    cbn [map]. apply splits_done. right. rewrite (slen_nil l) by lia. now apply not_contains_empty.
  - destruct (Z.eq_dec max 0) as [->|Hm].
    + rewrite loop_unlimited_0 by lia. cbn [bind has_ssep orb app].
      eexists. split; [reflexivity|]. cbn [map].
      rewrite getsubstr_data by (unfold slen, zlen; lia). unfold slen.
      rewrite sub_list_drop, drop_0. apply splits_done. now left.
    + rewrite ssplit_loop_g by lia. cbn [has_ssep ssep_len].
      destruct (gsplit_sep (sdata l) sdata (getsubstr l) (getsubstr_data l) (slen s) max true
        (sdata s) (smat space l (Some s)) eq_refl eq_refl Hpos
        (fun cur H => smat_sep space l s cur Hs H) (S (length (sdata l))) 0 0 [])
        as (cur' & ps & H1 & H2 & H3); [unfold zlen; lia|lia|lia|unfold zlen; lia|].
      rewrite H1. cbn [bind app orb]. eexists. split; [reflexivity|].
      rewrite map_app. cbn [map]. rewrite getsubstr_data by (unfold slen; lia).
      unfold slen. rewrite sub_list_drop. rewrite left_of_0 in H3. exact H3.
Qed.

Theorem srsplit_sep : forall space l s max, sdata s <> [] ->
  exists out, srsplit space l (Some s) max = Ok out /\
              rsplits (sdata s) max (sdata l) (map sdata out).
Proof.
  intros space l s max Hs. pose proof (slen_pos s Hs) as Hpos. unfold srsplit.
  destruct (slen l =? 0) eqn:E0.
  - replace (negb (slen s =? 0)) with true by lia. eexists. split; [reflexivity|].
    cbn [map]. apply rsplits_done. right. rewrite (slen_nil l) by lia. now apply not_contains_empty.
  - destruct (Z.eq_dec max 0) as [->|Hm].
    + rewrite rloop_unlimited_0 by lia. cbn [bind has_ssep orb app rev].
      eexists. split; [reflexivity|]. cbn [map]. rewrite Z.sub_add.
      rewrite getsubstr_data by (unfold slen, zlen; lia). unfold slen.
      rewrite sub_list_drop, drop_0. apply rsplits_done. now left.
    + rewrite srsplit_loop_g by lia. cbn [has_ssep ssep_len].
      destruct (grsplit_sep (sdata l) sdata (getsubstr l) (getsubstr_data l) (slen s) max true
        (sdata s) (srmat space l (Some s)) eq_refl eq_refl Hpos
        (fun cur H => srmat_sep space l s cur Hs H) (S (length (sdata l))) (slen l - 1) 0 [])
        as (cur' & ps & H1 & H2 & H3); [unfold slen, zlen; lia|lia|lia|unfold slen, zlen; lia|].
      rewrite H1. cbn [bind app orb]. eexists. split; [reflexivity|].
      rewrite rev_app_distr. cbn [rev app map]. rewrite getsubstr_data by lia.
      rewrite sub_list_take, map_rev.
      rewrite left_of_0, Z.sub_add, take_all in H3 by (unfold slen; lia). exact H3.
Qed.

Lemma strip_left_all : forall space y, strip_left space y = [] <-> all_are space y.
Proof.
  intros space y. induction y as [|c y IH]; cbn.
  - split; [intros _; apply Forall_nil|reflexivity].
  - destruct (space c) eqn:E.
    + rewrite IH. split; [intro; now apply Forall_cons|intro H; now inversion H].
    + split; [discriminate|]. intro H. inversion H. congruence.
Qed.

Lemma strip_right_all : forall space y, strip_right space y = [] <-> all_are space y.
Proof.
  intros space y. unfold strip_right. split.
  - intro H. apply (f_equal (@rev Z)) in H. rewrite rev_involutive in H. cbn in H.
    apply strip_left_all in H. apply Forall_rev in H. now rewrite rev_involutive in H.
  - intro H. assert (K : all_are space (rev y)) by now apply Forall_rev.
    apply strip_left_all in K. now rewrite K.
Qed.

Theorem ssplit_space : forall space l max, max <> 0 \/ sdata l = [] \/ ~ all_are space (sdata l) ->
  exists out, ssplit space l None max = Ok out /\
              words space max (sdata l) (map sdata out).
Proof.
  intros space l max Hne. unfold ssplit. destruct (slen l =? 0) eqn:E0.
  - exists []. split; [reflexivity|]. rewrite (slen_nil l) by lia. apply words_none, Forall_nil.
  - assert (P : forall r, 0 <= r <= slen l -> sdata (getsubstr l r (slen l)) = drop r (sdata l)).
    { intros r Hr. rewrite getsubstr_data by lia. apply sub_list_drop. }
    destruct (Z.eq_dec max 0) as [->|Hm].
    + rewrite loop_unlimited_0 by lia. cbn [bind has_ssep orb app].
      destruct (skip_spaces space (sdata l) 0 ltac:(unfold zlen; lia)) as (r & H1 & H2 & H3).
      fold (slen l) in H1. rewrite H1. cbn [bind Z.eqb]. rewrite orb_true_r.
      eexists. split; [reflexivity|]. cbn [map]. rewrite P by (unfold slen; lia).
      rewrite drop_0 in H3. rewrite H3.
      pose proof (words_zero space (sdata l)) as W. unfold tail_piece in W. cbn [filter] in W.
      destruct (strip_left space (sdata l)) eqn:ES; [|exact W]. exfalso.
      apply strip_left_all in ES. destruct Hne as [N|[N|N]]; [lia| |now apply N].
      unfold slen, zlen in E0. rewrite N in E0. discriminate.
    + rewrite ssplit_loop_g by lia. cbn [has_ssep ssep_len].
      destruct (gsplit_words space (sdata l) sdata (getsubstr l) (getsubstr_data l) max
        (smat space l None) (smat_space space l) (S (length (sdata l))) 0 0 [])
        as (cur' & ps & H1 & H2 & H3 & H4 & H5); [unfold zlen; lia|lia|lia|unfold zlen; lia|].
      rewrite H1. cbn [bind app orb].
      destruct (skip_spaces space (sdata l) cur' H2) as (r & G1 & G2 & G3).
      fold (slen l) in G1. rewrite G1. cbn [bind]. replace (max =? 0) with false by lia.
      rewrite orb_false_r. eexists. split; [reflexivity|].
      rewrite left_of_0, drop_0 in H5. unfold tail_piece in H5. cbn [filter] in H5.
      rewrite <- G3, nonempty_zlen, drop_zlen in H5 by lia. fold (slen l) in H5.
      replace (r <? slen l) with (negb (slen l - r =? 0)) by (unfold slen in *; lia).
      destruct (negb (slen l - r =? 0)).
      * rewrite map_app. cbn [map]. rewrite P by (unfold slen; lia). exact H5.
      * rewrite app_nil_r in H5. exact H5.
Qed.

Theorem srsplit_space : forall space l max,
  max <> 0 \/ sdata l = [] \/ ~ all_are space (sdata l) ->
  exists out, srsplit space l None max = Ok out /\
              rwords space max (sdata l) (map sdata out).
Proof.
  intros space l max Hne. unfold srsplit. destruct (slen l =? 0) eqn:E0.
  - exists []. split; [reflexivity|]. rewrite (slen_nil l) by lia. apply rwords_none, Forall_nil.
  - assert (P : forall r, -1 <= r < slen l -> sdata (getsubstr l 0 (r + 1)) = take (r + 1) (sdata l)).
    { intros r Hr. rewrite getsubstr_data by lia. apply sub_list_take. }
    assert (Hn : 0 <= slen l) by (unfold slen, zlen; lia).
    destruct (Z.eq_dec max 0) as [->|Hm].
    + rewrite rloop_unlimited_0 by lia. cbn [bind has_ssep orb app].
      destruct (skip_spaces_down space (sdata l) (slen l - 1) ltac:(unfold slen in *; lia))
        as (r & H1 & H2 & H3).
      rewrite H1. cbn [bind Z.eqb]. rewrite orb_true_r.
      eexists. split; [reflexivity|]. cbn [rev map app]. rewrite P by lia.
      rewrite Z.sub_add, (take_all (sdata l) (slen l)) in H3 by (unfold slen; lia). rewrite H3.
      pose proof (rwords_zero space (sdata l)) as W. unfold head_piece in W. cbn [filter] in W.
      destruct (strip_right space (sdata l)) eqn:ES; [|exact W]. exfalso.
      apply strip_right_all in ES. destruct Hne as [N|[N|N]]; [lia| |now apply N].
      unfold slen, zlen in E0. rewrite N in E0. discriminate.
    + rewrite srsplit_loop_g by lia. cbn [has_ssep ssep_len].
      destruct (grsplit_words space (sdata l) sdata (getsubstr l) (getsubstr_data l) max
        (srmat space l None) (srmat_space space l) (S (length (sdata l))) (slen l - 1) 0 [])
        as (cur' & ps & H1 & H2 & H3 & H4 & H5);
        [unfold slen, zlen; lia|lia|lia|unfold slen, zlen; lia|].
      rewrite H1. cbn [bind app orb].
      destruct (skip_spaces_down space (sdata l) cur' H2) as (r & G1 & G2 & G3).
      rewrite G1. cbn [bind]. replace (max =? 0) with false by lia.
      rewrite orb_false_r. eexists. split; [reflexivity|].
      rewrite left_of_0, Z.sub_add, (take_all (sdata l) (slen l)) in H5 by (unfold slen; lia).
      unfold head_piece in H5. cbn [filter] in H5.
      rewrite <- G3, nonempty_zlen, take_zlen in H5 by lia.
      replace (0 <=? r) with (negb (r + 1 =? 0)) by lia.
      destruct (negb (r + 1 =? 0)).
      * rewrite rev_app_distr. cbn [rev app map]. rewrite map_rev.
        rewrite P by (unfold slen; lia). exact H5.
      * rewrite map_rev. exact H5.
Qed.
