(** Proofs about lines, joining and partitions, and about the specification itself. *)
From Coq Require Import List ZArith Bool Lia ZifyBool ZifyNat.
From Verif Require Import Base PyList Text_Model TextSearch_Model TextSearch_Spec
  TextSearch_Proofs TextSplit_Model TextSplit_Spec TextSplit_Proofs.
Import ListNotations.
Open Scope Z_scope.
Open Scope result_scope.

(** ** Lines *)

Lemma sub_list_app : forall (x : list Z) a b c, 0 <= a <= b -> b <= c ->
  sub_list x a c = sub_list x a b ++ sub_list x b c.
Proof.
  intros x a b c H1 H2. unfold sub_list.
  replace (Z.to_nat (c - a)) with (Z.to_nat (b - a) + Z.to_nat (c - b))%nat by lia.
  replace (Z.to_nat b) with (Z.to_nat (b - a) + Z.to_nat a)%nat by lia.
  rewrite <- skipn_skipn. generalize (skipn (Z.to_nat a) x) as y.
  generalize (Z.to_nat (b - a)) as p. generalize (Z.to_nat (c - b)) as q. clear.
  intros q p. induction p as [|p IH]; intros y; [reflexivity|].
  destruct y as [|v y]; cbn; [now rewrite firstn_nil|]. f_equal. apply IH.
Qed.

Definition cut (d : list Z) (p : Z * Z) : list Z := sub_list d (fst p) (snd p).
Definition good_cut (d : list Z) (p : Z * Z) : Prop := 0 <= fst p <= snd p.

Lemma lines_loop_end : forall fuel d brk keep out,
  (0 < fuel)%nat -> lines_loop fuel d brk keep (zlen d) out = Ok (zlen d, out).
Proof. intros [|fuel] *; [lia|]. intros _. cbn. now rewrite Z.ltb_irrefl. Qed.

Lemma lines_loop_ok : forall d brk keep, brk 13 = true ->
  forall fuel cur out, 0 <= cur <= zlen d -> (Z.to_nat (zlen d - cur) < fuel)%nat ->
  exists ps, lines_loop fuel d brk keep cur out = Ok (zlen d, out ++ ps) /\
    Forall (good_cut d) ps /\ lines brk keep (drop cur d) (map (cut d) ps).
Proof.
  intros d brk keep H13. induction fuel as [|fuel IH]; intros cur out Hc Hf; [lia|].
  destruct (Z.eq_dec cur (zlen d)) as [->|Hne].
  { exists []. rewrite lines_loop_end by lia. rewrite app_nil_r. split; [reflexivity|].
    split; [apply Forall_nil|]. rewrite drop_all by lia. apply lines_nil. }
  cbn [lines_loop]. replace (cur <? zlen d) with true by lia.
  destruct (scan_up_spec (scan_fuel d) (byte_test d brk)
    (fun j => brk (nth (Z.to_nat j) d 0)) cur (zlen d)) as (m & H1 & H2 & H3 & H4).
  { intros j Hj. apply byte_test_ok. lia. }
  { unfold scan_fuel, zlen in *. lia. }
  rewrite H1. cbn [bind].
  assert (NB : none_is brk (sub_list d cur m)) by (apply none_sub; [lia|lia|exact H4]).
  unfold break_len. destruct (m <? zlen d) eqn:E.
  2:{ cbn [bind]. replace (zlen d <? m + 0) with false by lia.
      assert (m = zlen d) by lia. subst m. rewrite Z.add_0_r, lines_loop_end by lia.
      exists [(cur, zlen d + (if keep then 0 else 0))]. split; [reflexivity|].
      replace (zlen d + (if keep then 0 else 0)) with (zlen d) by (destruct keep; lia).
      split; [apply Forall_cons; [unfold good_cut; cbn; lia|apply Forall_nil]|].
      cbn [map]. unfold cut. cbn [fst snd]. rewrite sub_list_drop in *.
      apply lines_last; [|exact NB]. rewrite drop_cons by lia. discriminate. }
  specialize (H3 ltac:(lia)).
  rewrite cread_nth by lia. cbn [bind]. set (c := nth (Z.to_nat m) d 0) in *.
  assert (Hd : drop cur d = sub_list d cur m ++ [c] ++ drop (m + 1) d).
  { rewrite (drop_sub d cur m) by lia. f_equal. apply drop_cons. lia. }
  assert (One : (c = 13 -> ~ exists t, drop (m + 1) d = 10 :: t) ->
    exists ps, (if zlen d <? m + 1 then Ok (cur, out)
                else lines_loop fuel d brk keep (m + 1)
                       (out ++ [(cur, m + (if keep then 1 else 0))])) = Ok (zlen d, out ++ ps) /\
      Forall (good_cut d) ps /\ lines brk keep (drop cur d) (map (cut d) ps)).
  { intro Hcr. replace (zlen d <? m + 1) with false by lia.
    destruct (IH (m + 1) (out ++ [(cur, m + (if keep then 1 else 0))]))
      as (ps & G1 & G2 & G3); [lia|lia|].
    exists ((cur, m + (if keep then 1 else 0)) :: ps). rewrite G1, <- app_assoc.
    split; [reflexivity|].
    split; [apply Forall_cons; [unfold good_cut; cbn; destruct keep; lia|exact G2]|].
    cbn [map]. replace (cut d (cur, m + (if keep then 1 else 0)))
      with (sub_list d cur m ++ (if keep then [c] else [])).
    - rewrite Hd. apply lines_one; assumption.
    - unfold cut. cbn [fst snd]. destruct keep.
      + rewrite (sub_list_app d cur m (m + 1)) by lia. f_equal. rewrite sub_list_cons by lia.
        now rewrite sub_list_nil by lia.
      + now rewrite Z.add_0_r, app_nil_r. }
  destruct ((c =? 13) && (m + 1 <? zlen d)) eqn:E2.
  - rewrite cread_nth by lia. cbn [bind]. set (c2 := nth (Z.to_nat (m + 1)) d 0) in *.
    destruct (c2 =? 10) eqn:E3.
    + replace (zlen d <? m + 2) with false by lia.
      destruct (IH (m + 2) (out ++ [(cur, m + (if keep then 2 else 0))]))
        as (ps & G1 & G2 & G3); [lia|lia|].
      exists ((cur, m + (if keep then 2 else 0)) :: ps). rewrite G1, <- app_assoc.
      split; [reflexivity|].
      split; [apply Forall_cons; [unfold good_cut; cbn; destruct keep; lia|exact G2]|].
      assert (Hc2 : c2 = 10) by lia. assert (Hc1 : c = 13) by lia.
      cbn [map]. replace (cut d (cur, m + (if keep then 2 else 0)))
        with (sub_list d cur m ++ (if keep then [13; 10] else [])).
      * rewrite Hd, (drop_cons d (m + 1)) by lia. fold c2. rewrite Hc1, Hc2.
        replace (m + 1 + 1) with (m + 2) by lia.
        change ([13] ++ 10 :: drop (m + 2) d) with ([13; 10] ++ drop (m + 2) d).
        now apply lines_crlf.
      * unfold cut. cbn [fst snd]. destruct keep.
        -- rewrite (sub_list_app d cur m (m + 2)) by lia. f_equal.
           rewrite (sub_list_cons d m) by lia. rewrite (sub_list_cons d (m + 1)) by lia.
           rewrite sub_list_nil by lia. fold c c2. congruence.
        -- now rewrite Z.add_0_r, app_nil_r.
    + apply One. intros _ [t Ht]. rewrite (drop_cons d (m + 1)) in Ht by lia. fold c2 in Ht.
      injection Ht as Ht _. lia.
  - cbn [bind]. apply One. intros Hcr [t Ht]. rewrite drop_all in Ht by lia. discriminate.
Qed.

Theorem bytes_splitlines_ok : forall x keep,
  exists out, bytes_splitlines x keep = Ok out /\
              lines bytes_break keep (bdata x) (map bdata out).
Proof.
  intros x keep. unfold bytes_splitlines.
  destruct (lines_loop_ok (bdata x) bytes_break keep eq_refl (S (length (bdata x))) 0 [])
    as (ps & H1 & H2 & H3); [unfold zlen; lia|unfold zlen; lia|].
  rewrite H1. cbn [bind app]. rewrite Z.eqb_refl. cbn [negb].
  eexists. split; [reflexivity|]. rewrite map_map. exact H3.
Qed.

Theorem str_splitlines_ok : forall x keep,
  exists out, str_splitlines x keep = Ok out /\
              lines str_break keep (sdata x) (map sdata out).
Proof.
  intros x keep. unfold str_splitlines.
  destruct (lines_loop_ok (sdata x) str_break keep eq_refl (S (length (sdata x))) 0 [])
    as (ps & H1 & H2 & H3); [unfold zlen; lia|unfold zlen; lia|].
  rewrite H1. cbn [bind app]. rewrite Z.eqb_refl. cbn [negb].
  eexists. split; [reflexivity|]. rewrite map_map.
  replace (map (fun p => sdata (getsubstr x (fst p) (snd p))) ps) with (map (cut (sdata x)) ps);
    [exact H3|].
  apply map_ext_in. intros p Hp. rewrite Forall_forall in H2. specialize (H2 p Hp).
  unfold cut. now rewrite getsubstr_data.
Qed.

(** Kept ends give the text back. *)
Lemma lines_concat : forall brk x out, lines brk true x out -> concat out = x.
Proof.
  intros brk x out H. induction H as [|x Hx Hn|a r rest Ha H IH|a c r rest Ha Hc Hr H IH];
    cbn [concat]; rewrite ?app_nil_r; try reflexivity.
  - now rewrite IH, <- app_assoc.
  - now rewrite IH, <- app_assoc.
Qed.

(** ** Joining *)

Lemma join_data_joined : forall sep items, join_data sep items = joined sep items.
Proof.
  intros sep items. destruct items as [|x items]; [reflexivity|]. revert x.
  induction items as [|y items IH]; intro x; cbn; [now rewrite app_nil_r|].
  f_equal. rewrite <- app_assoc. f_equal. exact (IH y).
Qed.

Theorem bytes_join_ok : forall sep items,
  bdata (bytes_join sep items) = joined (bdata sep) (map bdata items).
Proof.
  intros sep items. unfold bytes_join. destruct items as [|x items]; [reflexivity|].
  cbn [bdata]. apply join_data_joined.
Qed.

Lemma upgrade_data : forall x w, sdata (upgrade_code_points x w) = sdata x.
Proof. intros [l|] w; reflexivity. Qed.

Theorem str_join_ok : forall sep items,
  sdata (str_join sep items) = joined (sdata sep) (map sdata items).
Proof.
  intros sep items. unfold str_join. destruct items as [|x items]; [reflexivity|].
  cbn [sdata codepoints]. rewrite join_data_joined, upgrade_data. f_equal.
  apply map_ext. intro. apply upgrade_data.
Qed.

Lemma joined_cons : forall sep a rest, rest <> [] ->
  joined sep (a :: rest) = a ++ sep ++ joined sep rest.
Proof.
  intros sep a [|b rest] H; [now destruct H|]. cbn. now rewrite <- app_assoc.
Qed.

Lemma joined_snoc : forall sep rest b, rest <> [] ->
  joined sep (rest ++ [b]) = joined sep rest ++ sep ++ b.
Proof.
  intros sep [|a rest] b H; [now destruct H|]. cbn [joined app].
  rewrite map_app, concat_app. cbn. now rewrite app_nil_r, app_assoc.
Qed.

Lemma splits_joined : forall s k x out, splits s k x out -> out <> [] /\ joined s out = x.
Proof.
  intros s k x out H. induction H as [k x H|k x a b rest Hk Hx Hmin H [IH1 IH2]].
  - split; [discriminate|]. cbn. apply app_nil_r.
  - split; [discriminate|]. rewrite joined_cons by exact IH1. now rewrite IH2.
Qed.

Lemma rsplits_joined : forall s k x out, rsplits s k x out -> out <> [] /\ joined s out = x.
Proof.
  intros s k x out H. induction H as [k x H|k x a b rest Hk Hx Hmin H [IH1 IH2]].
  - split; [discriminate|]. cbn. apply app_nil_r.
  - split; [now destruct rest|]. rewrite joined_snoc by exact IH1. now rewrite IH2.
Qed.

(** ** Partitions *)

Lemma bytes_getslice_data : forall x a b, 0 <= a <= b ->
  bdata (bytes_getslice x a b) = sub_list (bdata x) a b.
Proof.
  intros [l|] a b H; cbn [bytes_getslice bdata].
  - replace (a <? 0) with false by lia. replace (b <? 0) with false by lia.
    replace (a <? 0) with false by lia. replace (b <? 0) with false by lia.
    pose proof (zlen_nonneg l).
    destruct (zlen l <? a) eqn:E1.
    + replace (zlen l <? b) with true by lia. rewrite Z.leb_refl. cbn [bdata].
      unfold sub_list. rewrite skipn_all2 by (unfold zlen in *; lia). now rewrite firstn_nil.
    + destruct (zlen l <? b) eqn:E2.
      * destruct (zlen l <=? a) eqn:E3; cbn [bdata].
        -- unfold sub_list. rewrite skipn_all2 by (unfold zlen in *; lia). now rewrite firstn_nil.
        -- unfold sub_list. rewrite !firstn_all2; [reflexivity| |];
             rewrite skipn_length; unfold zlen in *; lia.
      * destruct (b <=? a) eqn:E3; cbn [bdata]; [|reflexivity]. now rewrite sub_list_nil by lia.
  - unfold sub_list. now rewrite skipn_nil, firstn_nil.
Qed.

Lemma cut_at : forall x s r, stands_at x s r ->
  x = sub_list x 0 r ++ s ++ sub_list x (r + zlen s) (zlen x) /\ zlen (sub_list x 0 r) = r.
Proof.
  intros x s r K. pose proof (stands_at_bounds _ _ _ K) as [B1 B2]. pose proof (zlen_nonneg s).
  split; [|rewrite sub_list_zlen; lia].
  rewrite sub_list_drop, sub_list_take.
  transitivity (take r x ++ drop r x); [apply take_drop|]. f_equal.
  rewrite (drop_sub x r (r + zlen s)) by lia. f_equal. now apply stands_sub.
Qed.

Lemma partitions_found : forall x s r, finds_first x s None None r -> r <> -1 ->
  partitions x s (sub_list x 0 r) s (sub_list x (r + zlen s) (zlen x)).
Proof.
  intros x s r [[(_ & _ & M) Mmin]|[H _]] Hr; [|congruence]. left.
  destruct (cut_at x s r M) as [C1 C2].
  split; [now exists r|]. split; [reflexivity|]. split; [exact C1|].
  intros i Hi. fold (zlen (sub_list x 0 r)). rewrite C2. apply Mmin.
  pose proof (stands_at_bounds _ _ _ Hi) as [B1 B2]. unfold zlen in B2.
  split; [exact B1|]. split; [exact B2|exact Hi].
Qed.

Lemma rpartitions_found : forall x s r, finds_last x s None None r -> r <> -1 ->
  rpartitions x s (sub_list x 0 r) s (sub_list x (r + zlen s) (zlen x)).
Proof.
  intros x s r [[(_ & _ & M) Mmax]|[H _]] Hr; [|congruence]. left.
  destruct (cut_at x s r M) as [C1 C2].
  split; [now exists r|]. split; [reflexivity|]. split; [exact C1|].
  intros i Hi. fold (zlen (sub_list x 0 r)). rewrite C2. apply Mmax.
  pose proof (stands_at_bounds _ _ _ Hi) as [B1 B2]. unfold zlen in B2.
  split; [exact B1|]. split; [exact B2|exact Hi].
Qed.

Lemma finds_first_none : forall x s, finds_first x s None None (-1) -> ~ contains x s.
Proof. intros x s H K. apply (contains_find _ _ _ H) in K. lia. Qed.

Lemma finds_last_none : forall x s, finds_last x s None None (-1) -> ~ contains x s.
Proof.
  intros x s [[(M & _) _]|[_ H]] [i Hi]; [cbn in M; lia|].
  apply (H i). pose proof (stands_at_bounds _ _ _ Hi) as [B1 B2]. unfold zlen in B2.
  split; [exact B1|]. split; [exact B2|exact Hi].
Qed.

Lemma found_bounds : forall x s r, finds_first x s None None r \/ finds_last x s None None r ->
  r <> -1 -> 0 <= r /\ r + zlen s <= zlen x.
Proof.
  intros x s r [[[(_ & _ & M) _]|[H _]]|[[(_ & _ & M) _]|[H _]]] Hr; try congruence;
    exact (stands_at_bounds _ _ _ M).
Qed.

Theorem bytes_partition_ok : forall x sep, bdata sep <> [] ->
  (exists a m b, bytes_partition x sep = Ok (a, m, b) /\
     partitions (bdata x) (bdata sep) (bdata a) (bdata m) (bdata b)) /\
  (exists a m b, bytes_rpartition x sep = Ok (a, m, b) /\
     rpartitions (bdata x) (bdata sep) (bdata a) (bdata m) (bdata b)).
Proof.
  intros x sep Hs.
  assert (E : blen sep =? 0 = false)
    by (destruct (blen sep =? 0) eqn:E; [destruct Hs; apply blen_nil; lia|reflexivity]).
  pose proof (zlen_nonneg (bdata sep)) as Hp.
  unfold bytes_partition, bytes_rpartition. rewrite E. split.
  - destruct (bytes_find_ok x sep None None) as (r & H1 & H2). unfold with_bounds in H1.
    rewrite H1. cbn [bind]. destruct (r =? -1) eqn:E2.
    + assert (r = -1) by lia. subst r. eexists _, _, _. split; [reflexivity|]. right.
      split; [now apply finds_first_none|]. split; [reflexivity|]. split; reflexivity.
    + pose proof (found_bounds _ _ _ (or_introl H2) ltac:(lia)) as [B1 B2].
      eexists _, _, _. split; [reflexivity|].
      rewrite !bytes_getslice_data by (unfold blen; lia).
      apply partitions_found; [exact H2|lia].
  - destruct (bytes_rfind_ok x sep None None) as (r & H1 & H2). unfold with_bounds in H1.
    rewrite H1. cbn [bind]. destruct (r =? -1) eqn:E2.
    + assert (r = -1) by lia. subst r. eexists _, _, _. split; [reflexivity|]. right.
      split; [now apply finds_last_none|]. split; [reflexivity|]. split; reflexivity.
    + pose proof (found_bounds _ _ _ (or_intror H2) ltac:(lia)) as [B1 B2].
      eexists _, _, _. split; [reflexivity|].
      rewrite !bytes_getslice_data by (unfold blen; lia).
      apply rpartitions_found; [exact H2|lia].
Qed.

Theorem str_partition_ok : forall x sep, sdata sep <> [] ->
  (exists a m b, str_partition x sep = Ok (a, m, b) /\
     partitions (sdata x) (sdata sep) (sdata a) (sdata m) (sdata b)) /\
  (exists a m b, str_rpartition x sep = Ok (a, m, b) /\
     rpartitions (sdata x) (sdata sep) (sdata a) (sdata m) (sdata b)).
Proof.
  intros x sep Hs. pose proof (slen_pos sep Hs) as Hp0.
  assert (E : slen sep =? 0 = false) by lia.
  pose proof (zlen_nonneg (sdata sep)) as Hp.
  unfold str_partition, str_rpartition. rewrite E. split.
  - destruct (str_find_ok x sep None None) as (r & H1 & H2). unfold with_bounds in H1.
    rewrite H1. cbn [bind]. destruct (r =? -1) eqn:E2.
    + assert (r = -1) by lia. subst r. eexists _, _, _. split; [reflexivity|]. right.
      split; [now apply finds_first_none|]. split; [reflexivity|]. split; reflexivity.
    + pose proof (found_bounds _ _ _ (or_introl H2) ltac:(lia)) as [B1 B2].
      eexists _, _, _. split; [reflexivity|].
      rewrite !getsubstr_data by (unfold slen; lia).
      apply partitions_found; [exact H2|lia].
  - destruct (str_rfind_ok x sep None None) as (r & H1 & H2). unfold with_bounds in H1.
    rewrite H1. cbn [bind]. destruct (r =? -1) eqn:E2.
    + assert (r = -1) by lia. subst r. eexists _, _, _. split; [reflexivity|]. right.
      split; [now apply finds_last_none|]. split; [reflexivity|]. split; reflexivity.
    + pose proof (found_bounds _ _ _ (or_intror H2) ltac:(lia)) as [B1 B2].
      eexists _, _, _. split; [reflexivity|].
      rewrite !getsubstr_data by (unfold slen; lia).
      apply rpartitions_found; [exact H2|lia].
Qed.

(** ** The specification determines the answers *)

Lemma app_same : forall (a a' s b b' : list Z),
  a ++ s ++ b = a' ++ s ++ b' -> length a = length a' -> a = a' /\ b = b'.
Proof.
  intros a. induction a as [|v a IH]; intros [|v' a'] s b b' H L; cbn in L; try lia.
  - split; [reflexivity|]. cbn in H. now apply app_inv_head in H.
  - cbn in H. injection H as -> H. destruct (IH a' s b b' H ltac:(lia)) as [-> ->]. now split.
Qed.

Lemma splits_unique : forall s k x out, splits s k x out ->
  forall out', splits s k x out' -> out = out'.
Proof.
  intros s k x out H. induction H as [k x H|k x a b rest Hk Hx Hmin H IH]; intros out' H'.
  - inversion H' as [k' x' H2|k' x' a b rest Hk Hx Hmin H2]; subst; [reflexivity|].
    destruct H as [H|H]; [congruence|]. exfalso. apply H.
    exists (Z.of_nat (length a)), a, b. now split.
  - inversion H' as [k' x' H2|k' x' a' b' rest' Hk' Hx' Hmin' H2]; subst.
    + destruct H2 as [H2|H2]; [congruence|]. exfalso. apply H2.
      exists (Z.of_nat (length a)), a, b. now split.
    + assert (L1 : Z.of_nat (length a) <= Z.of_nat (length a')).
      { apply Hmin. rewrite Hx'. now exists a', b'. }
      assert (L2 : Z.of_nat (length a') <= Z.of_nat (length a)).
      { apply Hmin'. now exists a, b. }
      destruct (app_same a a' s b b' Hx' ltac:(lia)) as [-> ->]. f_equal. now apply IH.
Qed.

Lemma rsplits_unique : forall s k x out, rsplits s k x out ->
  forall out', rsplits s k x out' -> out = out'.
Proof.
  intros s k x out H. induction H as [k x H|k x a b rest Hk Hx Hmin H IH]; intros out' H'.
  - inversion H' as [k' x' H2|k' x' a b rest Hk Hx Hmin H2]; subst; [reflexivity|].
    destruct H as [H|H]; [congruence|]. exfalso. apply H.
    exists (Z.of_nat (length a)), a, b. now split.
  - inversion H' as [k' x' H2|k' x' a' b' rest' Hk' Hx' Hmin' H2]; subst.
    + destruct H2 as [H2|H2]; [congruence|]. exfalso. apply H2.
      exists (Z.of_nat (length a)), a, b. now split.
    + assert (L1 : Z.of_nat (length a') <= Z.of_nat (length a)).
      { apply Hmin. rewrite Hx'. now exists a', b'. }
      assert (L2 : Z.of_nat (length a) <= Z.of_nat (length a')).
      { apply Hmin'. now exists a, b. }
      destruct (app_same a a' s b b' Hx' ltac:(lia)) as [-> ->]. f_equal. now apply IH.
Qed.

(** A prefix of elements with a value of [p] is determined by the text. *)
Lemma span_unique : forall (p : Z -> bool) v a a' b b',
  Forall (fun c => p c = v) a -> Forall (fun c => p c = v) a' ->
  b = [] \/ begins_with p (negb v) b -> b' = [] \/ begins_with p (negb v) b' ->
  a ++ b = a' ++ b' -> a = a' /\ b = b'.
Proof.
  intros p v a. induction a as [|c a IH]; intros [|c' a'] b b' Ha Ha' Hb Hb' E; cbn in E.
  - now split.
  - exfalso. subst b. pose proof (Forall_inv Ha') as Hc'. cbv beta in Hc'.
    destruct Hb as [Hb|(d & r & Hd & Hp)]; [discriminate|]. injection Hd as <- <-.
    rewrite Hp in Hc'. now destruct v.
  - exfalso. subst b'. pose proof (Forall_inv Ha) as Hc. cbv beta in Hc.
    destruct Hb' as [Hb'|(d & r & Hd & Hp)]; [discriminate|]. injection Hd as <- <-.
    rewrite Hp in Hc. now destruct v.
  - injection E as -> E. destruct (IH a' b b' (Forall_inv_tail Ha) (Forall_inv_tail Ha') Hb Hb' E) as [-> ->]. now split.
Qed.

Lemma span_unique_r : forall (p : Z -> bool) v a a' b b',
  Forall (fun c => p c = v) a -> Forall (fun c => p c = v) a' ->
  b = [] \/ finishes_with p (negb v) b -> b' = [] \/ finishes_with p (negb v) b' ->
  b ++ a = b' ++ a' -> a = a' /\ b = b'.
Proof.
  intros p v a a' b b' Ha Ha' Hb Hb' E.
  assert (R : forall y, y = [] \/ finishes_with p (negb v) y ->
                rev y = [] \/ begins_with p (negb v) (rev y)).
  { intros y [->|(r & c & -> & Hc)]; [now left|]. right. rewrite rev_app_distr. cbn.
    now exists c, (rev r). }
  destruct (span_unique p v (rev a) (rev a') (rev b) (rev b')) as [H1 H2].
  - now apply Forall_rev.
  - now apply Forall_rev.
  - now apply R.
  - now apply R.
  - rewrite <- !rev_app_distr. now rewrite E.
  - split; [rewrite <- (rev_involutive a), H1; apply rev_involutive
           |rewrite <- (rev_involutive b), H2; apply rev_involutive].
Qed.

Lemma word_begins : forall space w r, w <> [] -> none_is space w ->
  begins_with space false (w ++ r).
Proof.
  intros space [|c w] r Hw Hn; [now destruct Hw|]. inversion Hn; subst.
  exists c, (w ++ r). now split.
Qed.

Lemma word_finishes : forall space w r, w <> [] -> none_is space w ->
  finishes_with space false (r ++ w).
Proof.
  intros space w r Hw Hn. destruct (exists_last Hw) as (w' & c & ->).
  apply Forall_app in Hn. destruct Hn as [_ Hn]. inversion Hn; subst.
  exists (r ++ w'), c. split; [now rewrite app_assoc|assumption].
Qed.

Lemma not_all_space : forall space s r x, x = s ++ r -> all_are space x ->
  begins_with space false r -> False.
Proof.
  intros space s r x -> H (c & t & -> & Hc). apply Forall_app in H. destruct H as [_ H].
  inversion H. congruence.
Qed.

Lemma not_all_space_r : forall space s r x, x = r ++ s -> all_are space x ->
  finishes_with space false r -> False.
Proof.
  intros space s r x -> H (t & c & -> & Hc). apply Forall_app in H. destruct H as [H _].
  apply Forall_app in H. destruct H as [_ H]. inversion H. congruence.
Qed.

Lemma words_unique : forall space k x out, words space k x out ->
  forall out', words space k x out' -> out = out'.
Proof.
  intros space k x out H.
  induction H as [k x Ha|s r Ha Hb|k s w r rest Hk Ha Hw Hn Hr H IH]; intros out' H'.
  - inversion H' as [k' x' Ha'|s' r' Ha' Hb' Hk' Hx'|k' s' w' r' rest' Hk' Ha' Hw' Hn' Hr' H'' E1 E2];
      [reflexivity| |]; exfalso; subst.
    + now apply (not_all_space space s' r' _ eq_refl Ha).
    + apply (not_all_space space s' (w' ++ r') _ eq_refl Ha). now apply word_begins.
  - inversion H' as [k' x' Ha' E1 E2|s' r' Ha' Hb' E1 E2|k' s' w' r' rest' Hk' Ha' Hw' Hn' Hr' H'' E1 E2].
    + exfalso. now apply (not_all_space space s r _ eq_refl Ha').
    + destruct (span_unique space true s' s r' r) as [_ ->]; auto.
    + congruence.
  - inversion H' as [k' x' Ha' E1 E2|s' r' Ha' Hb' E1 E2|k' s' w' r' rest' Hk' Ha' Hw' Hn' Hr' H'' E1 E2].
    + exfalso. apply (not_all_space space s (w ++ r) _ eq_refl Ha'). now apply word_begins.
    + congruence.
    + subst. destruct (span_unique space true s' s (w' ++ r') (w ++ r)) as [_ E]; auto.
      * right. now apply word_begins.
      * right. now apply word_begins.
      * destruct (span_unique space false w' w r' r) as [-> ->]; auto. f_equal. now apply IH.
Qed.

Lemma rwords_unique : forall space k x out, rwords space k x out ->
  forall out', rwords space k x out' -> out = out'.
Proof.
  intros space k x out H.
  induction H as [k x Ha|s r Ha Hb|k s w r rest Hk Ha Hw Hn Hr H IH]; intros out' H'.
  - inversion H' as [k' x' Ha'|s' r' Ha' Hb' Hk' Hx'|k' s' w' r' rest' Hk' Ha' Hw' Hn' Hr' H'' E1 E2];
      [reflexivity| |]; exfalso; subst.
    + now apply (not_all_space_r space s' r' _ eq_refl Ha).
    + rewrite app_assoc in Ha.
      apply (not_all_space_r space s' (r' ++ w') _ eq_refl Ha). now apply word_finishes.
  - inversion H' as [k' x' Ha' E1 E2|s' r' Ha' Hb' E1 E2|k' s' w' r' rest' Hk' Ha' Hw' Hn' Hr' H'' E1 E2].
    + exfalso. now apply (not_all_space_r space s r _ eq_refl Ha').
    + destruct (span_unique_r space true s' s r' r) as [_ ->]; auto.
    + congruence.
  - inversion H' as [k' x' Ha' E1 E2|s' r' Ha' Hb' E1 E2|k' s' w' r' rest' Hk' Ha' Hw' Hn' Hr' H'' E1 E2].
    + exfalso. rewrite app_assoc in Ha'.
      apply (not_all_space_r space s (r ++ w) _ eq_refl Ha'). now apply word_finishes.
    + congruence.
    + subst. destruct (span_unique_r space true s' s (r' ++ w') (r ++ w)) as [_ E]; auto.
      * right. now apply word_finishes.
      * right. now apply word_finishes.
      * now rewrite <- !app_assoc.
      * destruct (span_unique_r space false w' w r' r) as [-> ->]; auto. f_equal. now apply IH.
Qed.

Lemma lines_unique : forall brk keep x out, brk 13 = true -> lines brk keep x out ->
  forall out', lines brk keep x out' -> out = out'.
Proof.
  intros brk keep x out H13 H.
  assert (NoBrk : forall a c r, none_is brk (a ++ c :: r) -> brk c = true -> False).
  { intros a c r K Hc. apply Forall_app in K. destruct K as [_ K]. inversion K. congruence. }
  assert (Same : forall a a' c c' r r', none_is brk a -> none_is brk a' -> brk c = true ->
            brk c' = true -> a ++ c :: r = a' ++ c' :: r' -> a = a' /\ c :: r = c' :: r').
  { intros a a' c c' r r' Ha Ha' Hc Hc' E. apply (span_unique brk false a a'); auto.
    - right. now exists c, r.
    - right. now exists c', r'. }
  induction H as [|x Hx Hn|a r rest Ha H IH|a c r rest Ha Hc Hr H IH]; intros out' H'.
  - inversion H' as [|x' Hx' Hn'|a' r' rest' Ha' H2 E|a' c' r' rest' Ha' Hc' Hr' H2 E]; auto.
    + now destruct Hx'.
    + now destruct a'.
    + now destruct a'.
  - inversion H' as [E|x' Hx' Hn'|a' r' rest' Ha' H2 E|a' c' r' rest' Ha' Hc' Hr' H2 E]; auto.
    + now destruct Hx.
    + exfalso. subst x. now apply (NoBrk _ _ _ Hn).
    + exfalso. subst x. now apply (NoBrk _ _ _ Hn).
  - inversion H' as [E|x' Hx' Hn'|a' r' rest' Ha' H2 E|a' c' r' rest' Ha' Hc' Hr' H2 E].
    + now destruct a.
    + exfalso. now apply (NoBrk _ _ _ Hn').
    + destruct (Same a' a 13 13 (10 :: r') (10 :: r) Ha' Ha H13 H13 E) as [-> E2].
      injection E2 as ->. f_equal. now apply IH.
    + exfalso. destruct (Same a' a c' 13 r' (10 :: r) Ha' Ha Hc' H13 E) as [-> E2].
      injection E2 as -> ->. now apply Hr'; [|exists r].
  - inversion H' as [E|x' Hx' Hn'|a' r' rest' Ha' H2 E|a' c' r' rest' Ha' Hc' Hr' H2 E].
    + now destruct a.
    + exfalso. now apply (NoBrk _ _ _ Hn').
    + exfalso. destruct (Same a' a 13 c (10 :: r') r Ha' Ha H13 Hc E) as [-> E2].
      injection E2 as <- <-. now apply Hr; [|exists r'].
    + destruct (Same a' a c' c r' r Ha' Ha Hc' Hc E) as [-> E2].
      injection E2 as -> ->. f_equal. now apply IH.
Qed.
