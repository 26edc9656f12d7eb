(** Proofs about the methods that rewrite text. *)
From Coq Require Import List ZArith Bool Lia ZifyBool ZifyNat.
From Verif Require Import Base PyList Text_Model TextSearch_Model TextSearch_Spec
  TextSearch_Proofs TextSplit_Model TextSplit_Spec TextSplit_Proofs TextSplit_Lines_Proofs
  TextEdit_Model TextEdit_Spec.
Import ListNotations.
Open Scope Z_scope.
Open Scope result_scope.

(** ** The operations, over the elements of the text *)

Record ops_ok {T} (o : text_ops T) (data : T -> list Z) : Prop := mk_ops_ok {
  ok_len : forall x, t_len o x = zlen (data x);
  ok_find : forall x sub pos, exists r, t_find o x sub pos (t_len o x) = Ok r /\
              finds_first (data x) (data sub) (Some pos) None r;
  ok_slice : forall x a b, 0 <= a <= b -> data (t_slice o x a b) = sub_list (data x) a b;
  ok_join : forall sep items, data (t_join o sep items) = joined (data sep) (map data items);
  ok_concat : forall x y, data (t_concat o x y) = data x ++ data y;
  ok_mult : forall x n, data (t_mult o x n) = repeat_list (Z.to_nat n) (data x);
  ok_lit : forall d, data (t_lit o d) = d;
  ok_at : forall x i c, 0 <= i < zlen (data x) ->
            t_at_is o x i c = Ok (nth (Z.to_nat i) (data x) 0 =? c)
}.

Lemma repeat_list_nil : forall n, repeat_list n (@nil Z) = [].
Proof. induction n; cbn; auto. Qed.

Lemma repeat_list_one : forall n c, repeat_list n [c : Z] = repeat c n.
Proof. induction n as [|n IH]; intro c; cbn; [reflexivity|]. f_equal. apply IH. Qed.

Lemma bytes_ops_ok : ops_ok bytes_ops bdata.
Proof.
  constructor; cbn.
  - reflexivity.
  - intros x sub pos. exact (bytes_find_ok x sub (Some pos) None).
  - exact bytes_getslice_data.
  - exact bytes_join_ok.
  - intros [a|] [b|]; cbn; rewrite ?app_nil_r; reflexivity.
  - intros [a|] n; cbn; [|now rewrite repeat_list_nil].
    destruct (n <=? 0) eqn:E; cbn; [|reflexivity]. now replace (Z.to_nat n) with 0%nat by lia.
  - intros [|c d]; reflexivity.
  - intros x i c H. unfold bytes_getitem, py_get, py_index. fold (zlen (bdata x)).
    replace (i <? 0) with false by lia.
    replace ((0 <=? i) && (i <? zlen (bdata x))) with true by lia. cbn [bind].
    destruct (nth_error (bdata x) (Z.to_nat i)) eqn:E.
    + cbn [bind]. now rewrite (nth_error_nth _ _ _ E).
    + apply nth_error_None in E. unfold zlen in H. lia.
Qed.

Lemma str_ops_ok : ops_ok str_ops sdata.
Proof.
  constructor; cbn.
  - reflexivity.
  - intros x sub pos. exact (str_find_ok x sub (Some pos) None).
  - exact getsubstr_data.
  - exact str_join_ok.
  - intros [a|] [b|]; cbn; rewrite ?app_nil_r; reflexivity.
  - intros [a|] n; cbn; [|now rewrite repeat_list_nil].
    destruct (n <=? 0) eqn:E; cbn; [|reflexivity]. now replace (Z.to_nat n) with 0%nat by lia.
  - intros [|c d]; reflexivity.
  - intros x i c H. unfold str_getitem. fold (slen x) in H.
    replace ((i <? - slen x) || (slen x <=? i)) with false by lia.
    assert (K : forall v, str_eq v (Some (mk_slayout 1 [c])) = eqb_list (sdata v) [c])
      by (intro v; apply str_eq_data; discriminate).
    destruct x as [l|]; [|unfold slen, zlen in H; cbn in H; lia].
    destruct (slen (Some l) =? 1) eqn:E; cbn [bind].
    + rewrite K. unfold slen, zlen in *. cbn [sdata] in *.
      destruct (codepoints l) as [|v [|w r]]; cbn [length] in *; try lia.
      replace (Z.to_nat i) with 0%nat by lia. cbn. now rewrite andb_true_r.
    + replace (i <? 0) with false by lia. rewrite cread_nth by exact H. cbn [bind].
      rewrite K. cbn. now rewrite andb_true_r.
Qed.

(** ** replace *)

Lemma found_next : forall x s pos r, 0 <= pos -> finds_first x s (Some pos) None r ->
  (next_sep x s pos r /\ r + zlen s <= zlen x) \/ (r = -1 /\ no_sep x s pos).
Proof.
  intros x s pos r Hp [[(M1 & M2 & M3) Mmin]|[H1 H2]].
  - left. cbn [lower_bound upper_bound] in M1, M2. replace (pos <? 0) with false in M1 by lia.
    split; [|exact M2]. split; [exact M1|]. split; [exact M3|].
    intros j Hj K. apply Mmin. split; [|split; [|exact K]].
    + cbn. replace (pos <? 0) with false by lia. exact Hj.
    + cbn. exact (proj2 (stands_at_bounds _ _ _ K)).
  - right. split; [exact H1|]. intros j Hj K. apply (H2 j). split; [|split; [|exact K]].
    + cbn. replace (pos <? 0) with false by lia. exact Hj.
    + cbn. exact (proj2 (stands_at_bounds _ _ _ K)).
Qed.

Lemma splits_replaced : forall old new k x ps, splits old k x ps ->
  replaced old new k x (joined new ps).
Proof.
  intros old new k x ps H. induction H as [k x H|k x a b rest Hk Hx Hmin H IH].
  - cbn. rewrite app_nil_r. now apply replaced_done.
  - rewrite joined_cons by (apply splits_joined in H; tauto).
    now apply replaced_next with (b := b).
Qed.

Section Generic.
  Context {T : Type} (o : text_ops T) (data : T -> list Z) (O : ops_ok o data).

  Lemma replace_loop_old : forall x old max, data old <> [] ->
    forall fuel pos seen out, 0 <= pos <= zlen (data x) -> 0 <= seen ->
    (0 <= max -> seen <= max) -> (Z.to_nat (zlen (data x) - pos) < fuel)%nat ->
    exists ps, replace_loop o fuel x old max pos seen out = Ok (out ++ ps) /\
      splits (data old) (left_of max seen) (drop pos (data x)) (map data ps).
  Proof.
    intros x old max Hold.
    assert (Hl : 0 < zlen (data old))
      by (unfold zlen; destruct (data old); [now destruct Hold|cbn; lia]).
    assert (El : t_len o old =? 0 = false) by (rewrite (ok_len o data O); lia).
    induction fuel as [|fuel IH]; intros pos seen out Hp Hs Hm Hf; [lia|].
    cbn [replace_loop]. rewrite El.
    assert (Stop : splits (data old) (left_of max seen) (drop pos (data x)) [drop pos (data x)] ->
      exists ps, Ok (out ++ [t_slice o x pos (t_len o x)]) = Ok (out ++ ps) /\
        splits (data old) (left_of max seen) (drop pos (data x)) (map data ps)).
    { intro H. eexists. split; [reflexivity|]. cbn [map].
      rewrite (ok_len o data O), (ok_slice o data O), sub_list_drop by lia. exact H. }
    destruct ((0 <=? max) && (max <=? seen)) eqn:E; cbn [bind].
    - change (0 <=? -1) with false. cbn [andb]. apply Stop. apply splits_done. left.
      apply left_done; lia.
    - destruct (ok_find o data O x old pos) as (r & R1 & R2). rewrite R1. cbn [bind].
      destruct (found_next (data x) (data old) pos r (proj1 Hp) R2) as [[N B]|[-> N]].
      + destruct N as (N1 & N2 & N3). rewrite (ok_len o data O x).
        replace ((0 <=? r) && (r <? zlen (data x))) with true by lia.
        rewrite (ok_len o data O old), Z.add_0_r.
        assert (Hnz : left_of max seen <> 0) by (apply left_nonzero; lia).
        destruct (IH (r + zlen (data old)) (seen + 1) (out ++ [t_slice o x pos r]))
          as (ps & P1 & P2); [lia|lia|lia|lia|].
        exists (t_slice o x pos r :: ps). rewrite P1, <- app_assoc. split; [reflexivity|].
        cbn [map]. rewrite (ok_slice o data O) by lia.
        apply next_sep_split; [lia|exact Hnz|now split|].
        rewrite left_step by (assumption || lia). exact P2.
      + change (0 <=? -1) with false. cbn [andb]. apply Stop. now apply no_sep_split.
  Qed.

  Lemma empty_found : forall (x : list Z) pos r, 0 <= pos <= zlen x ->
    finds_first x [] (Some pos) None r -> r = pos.
  Proof using Type.
    intros x pos r Hp H.
    assert (S : forall j, 0 <= j <= zlen x -> stands_at x [] j).
    { intros j Hj. exists (take j x), (drop j x). split; [apply take_drop|].
      fold (zlen (take j x)). apply take_zlen. exact Hj. }
    destruct (found_next x [] pos r (proj1 Hp) H) as [[(N1 & N2 & N3) _]|[_ N]].
    - specialize (N3 pos ltac:(lia) (S pos Hp)). lia.
    - exfalso. exact (N pos ltac:(lia) (S pos Hp)).
  Qed.

  Lemma replace_loop_empty : forall x old new max, data old = [] ->
    forall fuel pos seen out, 0 <= pos <= zlen (data x) -> 0 <= seen ->
    (0 <= max -> seen <= max) -> (Z.to_nat (zlen (data x) - pos) < fuel)%nat ->
    exists p ps, replace_loop o fuel x old max pos seen out = Ok (out ++ p :: ps) /\
      new ++ joined new (map data (p :: ps)) =
        match drop pos (data x) with
        | [] => new
        | c :: r => new ++ (if left_of max seen =? 0 then c :: r
                            else c :: woven new (left_of max seen) r)
        end.
  Proof.
    intros x old new max Hold.
    assert (El : t_len o old =? 0 = true) by (rewrite (ok_len o data O), Hold; reflexivity).
    induction fuel as [|fuel IH]; intros pos seen out Hp Hs Hm Hf; [lia|].
    cbn [replace_loop]. rewrite El.
    assert (Stop : (drop pos (data x) = [] \/ left_of max seen = 0) ->
      exists p ps, Ok (out ++ [t_slice o x pos (t_len o x)]) = Ok (out ++ p :: ps) /\
        new ++ joined new (map data (p :: ps)) =
          match drop pos (data x) with
          | [] => new
          | c :: r => new ++ (if left_of max seen =? 0 then c :: r
                              else c :: woven new (left_of max seen) r)
          end).
    { intro H. eexists _, []. split; [reflexivity|]. cbn [map joined concat].
      rewrite (ok_len o data O), (ok_slice o data O), sub_list_drop, app_nil_r by lia.
      destruct H as [->| ->]; [apply app_nil_r|]. destruct (drop pos (data x)); [apply app_nil_r|].
      reflexivity. }
    destruct ((0 <=? max) && (max <=? seen)) eqn:E; cbn [bind].
    - change (0 <=? -1) with false. cbn [andb]. apply Stop. right. apply left_done; lia.
    - destruct (ok_find o data O x old pos) as (r & R1 & R2). rewrite R1. cbn [bind].
      rewrite Hold in R2. apply empty_found in R2; [|exact Hp]. subst r.
      rewrite (ok_len o data O x).
      destruct (pos <? zlen (data x)) eqn:E2.
      2:{ rewrite andb_false_r. rewrite <- (ok_len o data O x). apply Stop. left.
          apply drop_all. lia. }
      replace ((0 <=? pos) && true) with true by lia.
      assert (Hnz : left_of max seen <> 0) by (apply left_nonzero; lia).
      destruct (IH (pos + 1) (seen + 1) (out ++ [t_slice o x pos (pos + 1)]))
        as (p & ps & P1 & P2); [lia|lia|lia|lia|].
      exists (t_slice o x pos (pos + 1)), (p :: ps). rewrite P1, <- app_assoc.
      split; [reflexivity|]. cbn [map]. rewrite (ok_slice o data O) by lia.
      rewrite joined_cons by discriminate. cbn [map] in P2. rewrite P2.
      rewrite sub_list_cons by lia. rewrite sub_list_nil by lia.
      rewrite (drop_cons (data x) pos) by lia.
      replace (left_of max seen =? 0) with false by lia. f_equal.
      change ([nth (Z.to_nat pos) (data x) 0] ++ ?z) with (nth (Z.to_nat pos) (data x) 0 :: z).
      f_equal. set (y := drop (pos + 1) (data x)).
      assert (St : spend (left_of max seen) = left_of max (seen + 1))
        by (apply left_step; [exact Hnz|lia|lia]).
      destruct y as [|c r]; cbn [woven].
      + now replace (left_of max seen =? 0) with false by lia.
      + replace (left_of max seen =? 0) with false by lia. f_equal. rewrite St.
        destruct (left_of max (seen + 1) =? 0) eqn:E3; [|reflexivity].
        f_equal. destruct r; cbn [woven]; now rewrite E3.
  Qed.

  Theorem replace_ok : forall old_python x old new max,
    exists y, replace_text o old_python x old new max = Ok y /\
      replaces old_python (data x) (data old) (data new) max (data y).
  Proof.
    intros op x old new max. unfold replace_text. rewrite !(ok_len o data O).
    destruct (Z.eqb_spec max 0) as [->|Hm].
    { exists x. split; [reflexivity|]. destruct (data old) as [|c r].
      - right. split; [reflexivity|]. destruct (data x); cbn; [|reflexivity].
        now rewrite andb_true_r; destruct op.
      - left. split; [discriminate|]. apply replaced_done. now left. }
    destruct ((0 <=? max) && (zlen (data x) =? 0) && (zlen (data old) =? 0)) eqn:B.
    { assert (Hx : data x = []) by (destruct (data x); [reflexivity|unfold zlen in B; cbn in B; lia]).
      assert (Ho : data old = []) by (destruct (data old); [reflexivity|unfold zlen in B; cbn in B; lia]).
      eexists. split; [reflexivity|]. right. split; [exact Ho|]. rewrite Hx. cbn [woven].
      replace (0 <=? max) with true by lia. replace (max =? 0) with false by lia.
      rewrite andb_true_r. now destruct op. }
    destruct (data old) as [|c r] eqn:Ho.
    - change (zlen (@nil Z) =? 0) with true. cbn match.
      destruct (replace_loop_empty x old (data new) max Ho (S (Z.to_nat (zlen (data x)))) 0 1
                  [t_lit o []]) as (p & ps & P1 & P2);
        [pose proof (zlen_nonneg (data x)); lia|lia|lia|lia|].
      rewrite P1. cbn [bind app]. eexists. split; [reflexivity|]. right. split; [reflexivity|].
      rewrite (ok_join o data O). change (map data (t_lit o [] :: p :: ps))
        with (data (t_lit o []) :: map data (p :: ps)).
      rewrite joined_cons by discriminate. rewrite (ok_lit o data O). cbn [app]. rewrite P2, drop_0.
      destruct (data x) as [|v y] eqn:Hx.
      + cbn [woven]. replace (max =? 0) with false by lia.
        replace (0 <=? max) with false by (cbn in B; lia). now rewrite andb_false_r.
      + cbn [woven]. replace (max =? 0) with false by lia. f_equal.
        assert (St : spend max = left_of max 1).
        { unfold spend, left_of. reflexivity. }
        rewrite St. destruct (left_of max 1 =? 0) eqn:E; [|reflexivity].
        f_equal. destruct y; cbn [woven]; now rewrite E.
    - assert (Hne : data old <> []) by (rewrite Ho; discriminate).
      replace (zlen (c :: r) =? 0) with false by (unfold zlen; cbn; lia).
      destruct (replace_loop_old x old max Hne (S (Z.to_nat (zlen (data x)))) 0 0 [])
        as (ps & P1 & P2); [pose proof (zlen_nonneg (data x)); lia|lia|lia|lia|].
      rewrite P1. cbn [bind app]. eexists. split; [reflexivity|]. left. split; [discriminate|].
      rewrite (ok_join o data O), <- Ho. apply splits_replaced.
      replace (left_of max 0) with max in P2
        by (unfold left_of; destruct (max <? 0); lia).
      exact P2.
  Qed.

  (** ** center, ljust, rjust *)

  Lemma filled : forall fill n c, data fill = [c] -> data (t_mult o fill n) = times c n.
  Proof.
    intros fill n c H. rewrite (ok_mult o data O), H. apply repeat_list_one.
  Qed.

  Lemma times_nil : forall c n, n <= 0 -> times c n = [].
  Proof using Type. intros c n H. unfold times. now replace (Z.to_nat n) with 0%nat by lia. Qed.

  Theorem ljust_ok : forall x width fill c, data fill = [c] ->
    data (ljust_text o x width fill) = ljusted (data x) width c.
  Proof.
    intros x width fill c Hc. unfold ljust_text, ljusted, size. rewrite (ok_len o data O).
    fold (zlen (data x)). destruct (width <=? zlen (data x)) eqn:E.
    - rewrite times_nil by lia. now rewrite app_nil_r.
    - rewrite (ok_concat o data O). f_equal. now apply filled.
  Qed.

  Theorem rjust_ok : forall x width fill c, data fill = [c] ->
    data (rjust_text o x width fill) = rjusted (data x) width c.
  Proof.
    intros x width fill c Hc. unfold rjust_text, rjusted, size. rewrite (ok_len o data O).
    fold (zlen (data x)). destruct (width <=? zlen (data x)) eqn:E.
    - now rewrite times_nil by lia.
    - rewrite (ok_concat o data O). f_equal. now apply filled.
  Qed.

  Theorem center_ok : forall x width fill c, data fill = [c] ->
    (width <= size (data x) \/ Z.even (width - size (data x)) = true \/ Z.even width = true) ->
    data (center_text o x width fill) = centered (data x) width c.
  Proof.
    intros x width fill c Hc He. unfold center_text, centered, size in *. rewrite (ok_len o data O).
    fold (zlen (data x)) in *. cbv zeta. destruct (width <=? zlen (data x)) eqn:E.
    - rewrite Z.max_l by lia. cbn. now rewrite app_nil_r.
    - rewrite Z.max_r by lia.
      replace (Z.odd (width - zlen (data x)) && Z.odd width) with false.
      + rewrite Z.add_0_r, !(ok_concat o data O), !(filled fill _ c Hc). now rewrite <- app_assoc.
      + rewrite <- !Z.negb_even. destruct He as [He|[He|He]]; [lia| |]; rewrite He; cbn;
          now rewrite ?andb_false_r.
  Qed.

  (** When the padding and the width are odd, the additional element stands on the wrong side. *)
  Theorem center_odd : forall x width fill c, data fill = [c] ->
    size (data x) < width ->
    exists a b, data (center_text o x width fill) = times c a ++ data x ++ times c b /\
      0 <= a /\ a <= b <= a + 1 /\ a + b + size (data x) = width.
  Proof.
    intros x width fill c Hc He. unfold center_text, size in *. rewrite (ok_len o data O).
    fold (zlen (data x)) in *. cbv zeta. replace (width <=? zlen (data x)) with false by lia.
    set (pad := width - zlen (data x)). exists (pad / 2), (pad - pad / 2).
    rewrite !(ok_concat o data O), !(filled fill _ c Hc), <- app_assoc.
    split; [reflexivity|]. pose proof (Z.div_mod pad 2 ltac:(lia)).
    pose proof (Z.mod_pos_bound pad 2 ltac:(lia)). lia.
  Qed.

  (** ** expandtabs *)

  Lemma expanded_plain : forall t x y col, none_is (fun c => c =? 9) x ->
    exists col', expanded t col (x ++ y) = x ++ expanded t col' y.
  Proof using Type.
    intros t x. induction x as [|c x IH]; intros y col H; [now exists col|].
    inversion H; subst. cbn [app expanded]. rewrite H2.
    destruct ((c =? 10) || (c =? 13)).
    - destruct (IH y 0 H3) as [col' E]. exists col'. now rewrite E.
    - destruct (IH y (col + 1) H3) as [col' E]. exists col'. now rewrite E.
  Qed.

  Lemma expanded_mod : forall t x col col', (0 < t -> col mod t = col' mod t) ->
    expanded t col x = expanded t col' x.
  Proof using Type.
    intros t x. induction x as [|c x IH]; intros col col' H; cbn [expanded]; [reflexivity|].
    destruct (c =? 9).
    - destruct (0 <? t) eqn:E.
      + specialize (H ltac:(lia)). rewrite H. f_equal. apply IH. intro Ht.
        assert (M : forall a, (a + (t - a mod t)) mod t = 0).
        { intro a. pose proof (Z.div_mod a t ltac:(lia)).
          replace (a + (t - a mod t)) with ((a / t + 1) * t) by nia. apply Z.mod_mul. lia. }
        rewrite <- H at 1. now rewrite !M.
      + f_equal. apply IH. lia.
    - destruct ((c =? 10) || (c =? 13)); [reflexivity|]. f_equal. apply IH. intro Ht.
      specialize (H Ht). rewrite (Z.add_mod col), (Z.add_mod col') by lia. now rewrite H.
  Qed.

  (** The text from [last] to [i] is still to be written; [col] is the column at [i]. *)
  Lemma tabs_loop_ok : forall x t n i col last out,
    0 <= last <= i -> i + Z.of_nat n = zlen (data x) ->
    exists last' ps, tabs_loop o n x t i col last out = Ok (last', out ++ ps) /\
      0 <= last' <= zlen (data x) /\
      concat (map data ps) ++ drop last' (data x)
        = sub_list (data x) last i ++ expanded t col (drop i (data x)).
  Proof.
    intros x t. induction n as [|n IH]; intros i col last out Hl Hn; cbn [tabs_loop].
    - exists last, []. rewrite app_nil_r. split; [reflexivity|]. split; [lia|].
      rewrite (drop_all (data x) i) by lia. cbn. rewrite app_nil_r.
      replace i with (zlen (data x)) by lia. now rewrite sub_list_drop.
    - rewrite !(ok_at o data O) by lia. cbn [bind].
      rewrite (drop_cons (data x) i) by lia. set (c := nth (Z.to_nat i) (data x) 0).
      cbn [expanded]. destruct (c =? 9) eqn:E9.
      + set (sp := if 0 <? t then t - col mod t else 0).
        destruct (IH (i + 1) 0 (i + 1)
                    (out ++ [t_slice o x last i; t_mult o (t_lit o [32]) sp]))
          as (last' & ps & P1 & P2 & P3); [lia|lia|].
        exists last', (t_slice o x last i :: t_mult o (t_lit o [32]) sp :: ps).
        rewrite P1, <- app_assoc. split; [reflexivity|]. split; [exact P2|].
        cbn [map concat]. rewrite (ok_slice o data O) by lia.
        rewrite (filled _ sp 32) by apply (ok_lit o data O).
        rewrite <- !app_assoc, P3. do 2 f_equal. rewrite sub_list_nil by lia. cbn [app].
        apply expanded_mod. intro Ht. unfold sp. replace (0 <? t) with true by lia.
        rewrite Z.mod_0_l by lia. pose proof (Z.div_mod col t ltac:(lia)).
        replace (col + (t - col mod t)) with ((col / t + 1) * t) by nia.
        now rewrite Z.mod_mul by lia.
      + destruct (IH (i + 1) (if (c =? 10) || (c =? 13) then 0 else col + 1) last out)
          as (last' & ps & P1 & P2 & P3); [lia|lia|].
        exists last', ps. split; [exact P1|]. split; [exact P2|]. rewrite P3.
        rewrite (sub_list_app (data x) last i (i + 1)) by lia.
        rewrite (sub_list_cons (data x) i) by lia.
        rewrite (sub_list_nil (data x) (i + 1) (i + 1)) by lia.
        rewrite <- app_assoc. f_equal. fold c. cbn [app].
        destruct ((c =? 10) || (c =? 13)); reflexivity.
  Qed.

  Lemma joined_nil : forall items, joined [] items = concat items.
  Proof using Type.
    intros [|a items]; [reflexivity|]. cbn. f_equal. f_equal. now rewrite map_id.
  Qed.

  Theorem expandtabs_ok : forall x t,
    exists y, expandtabs_text o x t = Ok y /\ data y = expanded t 0 (data x).
  Proof.
    intros x t. unfold expandtabs_text. rewrite (ok_len o data O).
    pose proof (zlen_nonneg (data x)).
    destruct (tabs_loop_ok x t (Z.to_nat (zlen (data x))) 0 0 0 []) as (last' & ps & P1 & P2 & P3);
      [lia|lia|].
    rewrite P1. cbn [bind app]. eexists. split; [reflexivity|].
    rewrite (ok_join o data O), (ok_lit o data O), joined_nil, map_app, concat_app.
    cbn [map concat]. rewrite app_nil_r, (ok_slice o data O) by lia.
    rewrite sub_list_drop, P3. reflexivity.
  Qed.

  (** ** zfill *)

  (** Whatever the width, the answer is that for the width the subtraction arrives at. *)
  Lemma zfill_any : forall x width,
    exists y, zfill_text o x width = Ok y /\
      data y = zfilled (data x) (wrap_s 64 (width - size (data x)) + size (data x)).
  Proof.
    intros x width. unfold zfill_text, zfilled, size in *. rewrite (ok_len o data O).
    fold (zlen (data x)) in *. set (fill := wrap_s 64 (width - zlen (data x))). clearbody fill.
    replace (fill + zlen (data x) - zlen (data x)) with fill by lia.
    assert (F : data (t_join o (t_lit o [])
                  (if 0 <? fill then [t_mult o (t_lit o [48]) fill] else [])) = times 48 fill).
    { rewrite (ok_join o data O), (ok_lit o data O), joined_nil. destruct (0 <? fill) eqn:E.
      - cbn. rewrite app_nil_r. apply filled, (ok_lit o data O).
      - cbn. now rewrite times_nil by lia. }
    rewrite (ok_join o data O), (ok_lit o data O), joined_nil in F.
    assert (J : forall a y, data (t_join o (t_lit o []) (a ++
              (if 0 <? fill then [t_mult o (t_lit o [48]) fill] else []) ++ [y]))
              = concat (map data a) ++ times 48 fill ++ data y).
    { intros a y. rewrite (ok_join o data O), (ok_lit o data O), joined_nil.
      rewrite !map_app, !concat_app, F. cbn. now rewrite app_nil_r. }
    pose proof (ok_slice o data O x) as SL.
    pose proof (ok_at o data O x 0) as AT.
    destruct (data x) as [|c r] eqn:Hx.
    - change (zlen (@nil Z) =? 0) with true. cbn [bind]. eexists. split; [reflexivity|].
      rewrite J. cbn. now rewrite Hx, app_nil_r.
    - assert (Hz : 0 < zlen (c :: r)) by (unfold zlen; cbn; lia).
      replace (zlen (c :: r) =? 0) with false by lia.
      rewrite !AT by lia. cbn [Z.to_nat nth bind].
      eexists. split; [reflexivity|]. rewrite J.
      destruct ((c =? 43) || (c =? 45)) eqn:E.
      + cbn [map concat]. rewrite !SL by lia. rewrite sub_list_drop. cbn. reflexivity.
      + cbn [map concat app]. now rewrite Hx.
  Qed.

  Theorem zfill_ok : forall x width,
    - 2 ^ 63 <= width - size (data x) < 2 ^ 63 ->
    exists y, zfill_text o x width = Ok y /\ data y = zfilled (data x) width.
  Proof.
    intros x width Hw. destruct (zfill_any x width) as (y & H1 & H2). exists y.
    split; [exact H1|]. rewrite H2. f_equal. set (n := size (data x)) in *. clearbody n.
    clear - Hw. unfold wrap_s. change (64 - 1) with 63.
    assert (P : 2 ^ 64 = 2 * 2 ^ 63) by reflexivity.
    destruct (Z_lt_le_dec (width - n) 0) as [L|L].
    - replace ((width - n) mod 2 ^ 64) with (width - n + 2 ^ 64).
      + replace (width - n + 2 ^ 64 <? 2 ^ 63) with false by lia. lia.
      + symmetry. rewrite <- (Z.mod_small (width - n + 2 ^ 64) (2 ^ 64)) by lia.
        rewrite <- (Z.mul_1_l (2 ^ 64)) at 2. now rewrite Z.mod_add by lia.
    - rewrite Z.mod_small by lia. replace (width - n <? 2 ^ 63) with true by lia. lia.
  Qed.
End Generic.

(** ** strip *)

Lemma strip_bounds_ok : forall d p fl fr,
  exists l r, strip_bounds d p fl fr = Ok (l, r) /\ 0 <= l <= r /\ r <= zlen d /\
    stripped p fl fr d (sub_list d l r).
Proof.
  intros d p fl fr. pose proof (zlen_nonneg d) as Hd. unfold strip_bounds.
  assert (T : forall j, 0 <= j < zlen d ->
    byte_test d (fun c => negb (p c)) j = Ok (negb (p (nth (Z.to_nat j) d 0)))).
  { intros j Hj. now rewrite byte_test_ok. }
  assert (A : forall a b, 0 <= a -> b <= zlen d ->
    (forall j, a <= j < b -> negb (p (nth (Z.to_nat j) d 0)) = false) ->
    all_are p (sub_list d a b)).
  { intros a b Ha Hb K. apply Forall_impl with (P := fun c => negb (p c) = false).
    - intros c Hc. now apply negb_false_iff.
    - apply (none_sub (fun c => negb (p c))); assumption. }
  assert (L : exists l, (if fl then scan_up (scan_fuel d) (byte_test d (fun c => negb (p c))) 0
                           (zlen d) else Ok 0) = Ok l /\ 0 <= l <= zlen d /\
              all_are p (sub_list d 0 l) /\
              (fl = true -> l < zlen d -> p (nth (Z.to_nat l) d 0) = false) /\
              (fl = false -> l = 0)).
  { destruct fl.
    - destruct (scan_up_spec (scan_fuel d) (byte_test d (fun c => negb (p c)))
        (fun j => negb (p (nth (Z.to_nat j) d 0))) 0 (zlen d)) as (l & L1 & L2 & L3 & L4).
      { exact T. }
      { unfold scan_fuel, zlen. lia. }
      exists l. split; [exact L1|]. split; [lia|]. split; [apply A; [lia|lia|exact L4]|].
      split; [|discriminate]. intros _ Hl. apply negb_true_iff, L3, Hl.
    - exists 0. split; [reflexivity|]. split; [lia|]. split; [|split; [discriminate|reflexivity]].
      rewrite sub_list_nil by lia. apply Forall_nil. }
  destruct L as (l & L1 & L2 & L3 & L4 & L5). rewrite L1. cbn [bind].
  assert (R : exists r, (if fr then scan_down (scan_fuel d) (byte_test d (fun c => negb (p c)))
                           (zlen d - 1) l else Ok (zlen d - 1)) = Ok r /\
              l - 1 <= r <= zlen d - 1 /\ all_are p (sub_list d (r + 1) (zlen d)) /\
              (fr = true -> l <= r -> p (nth (Z.to_nat r) d 0) = false) /\
              (fr = false -> r = zlen d - 1)).
  { destruct fr.
    - destruct (scan_down_spec (scan_fuel d) (byte_test d (fun c => negb (p c)))
        (fun j => negb (p (nth (Z.to_nat j) d 0))) (zlen d - 1) l) as (r & R1 & R2 & R3 & R4).
      { intros j Hj. apply T. lia. }
      { unfold scan_fuel, zlen in *. lia. }
      exists r. split; [exact R1|]. split; [lia|].
      split; [apply A; [lia|lia|intros j Hj; apply R4; lia]|].
      split; [|discriminate]. intros _ Hr. apply negb_true_iff, R3, Hr.
    - exists (zlen d - 1). split; [reflexivity|]. split; [lia|].
      split; [|split; [discriminate|reflexivity]]. rewrite sub_list_nil by lia. apply Forall_nil. }
  destruct R as (r & R1 & R2 & R3 & R4 & R5). rewrite R1. cbn [bind].
  exists l, (r + 1). split; [reflexivity|]. split; [lia|]. split; [lia|].
  exists (sub_list d 0 l), (sub_list d (r + 1) (zlen d)).
  split.
  { rewrite <- (sub_list_app d l (r + 1) (zlen d)) by lia.
    rewrite <- (sub_list_app d 0 l (zlen d)) by lia. now rewrite sub_list_drop, drop_0. }
  split; [exact L3|]. split; [exact R3|]. split.
  - destruct fl.
    + destruct (Z_lt_le_dec l (r + 1)) as [H|H].
      * right. rewrite sub_list_cons by lia. eexists _, _. split; [reflexivity|]. apply L4; [reflexivity|lia].
      * left. apply sub_list_nil. lia.
    + rewrite L5 by reflexivity. apply sub_list_nil. lia.
  - destruct fr.
    + destruct (Z_lt_le_dec l (r + 1)) as [H|H].
      * right. rewrite (sub_list_app d l r (r + 1)) by lia. rewrite (sub_list_cons d r) by lia.
        rewrite (sub_list_nil d (r + 1)) by lia.
        eexists _, _. split; [reflexivity|]. apply R4; [reflexivity|lia].
      * left. apply sub_list_nil. lia.
    + rewrite R5 by reflexivity. apply sub_list_nil. lia.
Qed.

Lemma stripped_nil : forall p fl fr, stripped p fl fr [] [].
Proof.
  intros. exists [], []. split; [reflexivity|]. split; [apply Forall_nil|]. split; [apply Forall_nil|].
  split; [destruct fl|destruct fr]; auto.
Qed.

Lemma stripped_ext : forall p q fl fr x y, (forall c, p c = q c) ->
  stripped p fl fr x y -> stripped q fl fr x y.
Proof.
  intros p q fl fr x y E (a & b & H1 & H2 & H3 & H4 & H5).
  assert (AA : forall z, all_are p z -> all_are q z).
  { intros z. apply Forall_impl. intros c Hc. now rewrite <- E. }
  exists a, b. split; [exact H1|]. split; [now apply AA|]. split; [now apply AA|].
  split; [destruct fl|destruct fr]; auto.
  - destruct H4 as [H|(c & r & H & Hc)]; [now left|]. right. exists c, r. now rewrite <- E.
  - destruct H5 as [H|(r & c & H & Hc)]; [now left|]. right. exists r, c. now rewrite <- E.
Qed.

Theorem bytes_strip_ok : forall x values fl fr,
  exists y, bytes_strip x values fl fr = Ok y /\
    stripped (match values with None => is_space | Some v => among (bdata v) end)
      fl fr (bdata x) (bdata y).
Proof.
  intros [d|] values fl fr; cbn [bytes_strip].
  2:{ exists None. split; [reflexivity|]. apply stripped_nil. }
  destruct (strip_bounds_ok d (bmatch values) fl fr) as (l & r & H1 & H2 & H3 & H4).
  rewrite H1. cbn [bind]. eexists. split; [reflexivity|].
  apply stripped_ext with (p := bmatch values); [intro c; destruct values; reflexivity|].
  cbn [bdata]. destruct (Z.eqb_spec l r) as [->|N].
  - rewrite sub_list_nil in H4 by lia. exact H4.
  - destruct ((l =? 0) && (r =? zlen d)) eqn:E; [|exact H4]. cbn [bdata].
    replace l with 0 in H4 by lia. replace r with (zlen d) in H4 by lia.
    rewrite sub_list_drop, drop_0 in H4. exact H4.
Qed.

Lemma stripped_none : forall fl fr x, stripped (among []) fl fr x x.
Proof.
  intros fl fr x. exists [], []. split; [now rewrite app_nil_r|]. split; [apply Forall_nil|].
  split; [apply Forall_nil|]. split.
  - destruct fl; [|reflexivity]. destruct x as [|c r]; [now left|]. right. exists c, r. now split.
  - destruct fr; [|reflexivity]. destruct x as [|c r]; [now left|]. right.
    destruct (@exists_last _ (c :: r) ltac:(discriminate)) as (y & v & E). exists y, v. now split.
Qed.

Theorem str_strip_ok : forall space x values fl fr,
  exists y, str_strip space x values fl fr = Ok y /\
    stripped (match values with None => space | Some v => among (sdata v) end)
      fl fr (sdata x) (sdata y).
Proof.
  intros space [d|] values fl fr; cbn [str_strip].
  2:{ exists None. split; [reflexivity|]. apply stripped_nil. }
  assert (G : forall p, exists y,
    (' (l, r) <- strip_bounds (codepoints d) p fl fr ;;
     Ok (if l =? r then None
         else if (l =? 0) && (r =? slen (Some d)) then Some d else getsubstr (Some d) l r)) = Ok y /\
    stripped p fl fr (codepoints d) (sdata y)).
  { intro p. destruct (strip_bounds_ok (codepoints d) p fl fr) as (l & r & H1 & H2 & H3 & H4).
    rewrite H1. cbn [bind]. eexists. split; [reflexivity|].
    destruct (Z.eqb_spec l r) as [->|N].
    - rewrite sub_list_nil in H4 by lia. exact H4.
    - destruct ((l =? 0) && (r =? slen (Some d))) eqn:E.
      + unfold slen in E. cbn [sdata] in *.
        replace l with 0 in H4 by lia. replace r with (zlen (codepoints d)) in H4 by lia.
        rewrite sub_list_drop, drop_0 in H4. exact H4.
      + rewrite getsubstr_data by lia. exact H4. }
  destruct values as [v|]; [|apply G].
  destruct (Z.eqb_spec (slen v) 0) as [E|E]; [|apply G].
  exists (Some d). split; [reflexivity|]. rewrite (slen_nil v E). apply stripped_none.
Qed.

(** What is left is determined. *)
Lemma stripped_unique : forall p fl fr x y y',
  stripped p fl fr x y -> stripped p fl fr x y' -> y = y'.
Proof.
  intros p fl fr x y y' (a & b & E & Ha & Hb & HL & HR) (a' & b' & E' & Ha' & Hb' & HL' & HR').
  assert (NotBoth : forall z w, all_are p (z ++ w) -> (w = [] \/ begins_with p false w) -> w = []).
  { intros z w H [K|(c & r & -> & Hc)]; [exact K|]. apply Forall_app in H. destruct H as [_ H].
    inversion H. congruence. }
  assert (NotBothR : forall z w, all_are p (w ++ z) -> (w = [] \/ finishes_with p false w) -> w = []).
  { intros z w H [K|(r & c & -> & Hc)]; [exact K|]. apply Forall_app in H. destruct H as [H _].
    apply Forall_app in H. destruct H as [_ H]. inversion H. congruence. }
  assert (Pre : forall w v, w = [] \/ begins_with p false w -> all_are p v ->
                  w = [] \/ begins_with p false (w ++ v)).
  { intros w v [K|(c & r & -> & Hc)] _; [now left|]. right. exists c, (r ++ v). now split. }
  subst x. destruct fl, fr.
  - (* both ends *)
    destruct HL as [->|BL].
    + cbn [app] in E'. rewrite app_assoc in E'.
      assert (AA : all_are p ((a' ++ y') ++ b')) by (rewrite <- E'; apply Forall_app; now split).
      apply Forall_app in AA. destruct AA as [AA _]. symmetry. now apply (NotBoth a').
    + destruct HL' as [->|BL'].
      * cbn [app] in E'.
        assert (AA : all_are p (a ++ y ++ b)) by (rewrite E'; apply Forall_app; now split).
        rewrite app_assoc in AA. apply Forall_app in AA. destruct AA as [AA _].
        apply (NotBoth a); [exact AA|now right].
      * destruct (span_unique p true a a' (y ++ b) (y' ++ b')) as [-> E2]; auto.
        { right. destruct BL as (c & r & -> & Hc). exists c, (r ++ b). now split. }
        { right. destruct BL' as (c & r & -> & Hc). exists c, (r ++ b'). now split. }
        destruct (span_unique_r p true b b' y y') as [_ E3]; auto.
  - subst b b'. rewrite !app_nil_r in E'. now destruct (span_unique p true a a' y y').
  - subst a a'. cbn [app] in E'. now destruct (span_unique_r p true b b' y y').
  - subst a a' b b'. cbn [app] in E'. now rewrite !app_nil_r in E'.
Qed.

Lemma replaced_unique : forall old new k x y, replaced old new k x y ->
  forall y', replaced old new k x y' -> y = y'.
Proof.
  intros old new k x y H. induction H as [k x H|k x a b y Hk Hx Hmin H IH]; intros y' H'.
  - inversion H' as [k' x' H2|k' x' a b z Hk Hx Hmin H2]; subst; [reflexivity|].
    destruct H as [H|H]; [congruence|]. exfalso. apply H.
    exists (Z.of_nat (length a)), a, b. now split.
  - inversion H' as [k' x' H2|k' x' a' b' z Hk' Hx' Hmin' H2]; subst.
    + destruct H2 as [H2|H2]; [congruence|]. exfalso. apply H2.
      exists (Z.of_nat (length a)), a, b. now split.
    + assert (L1 : Z.of_nat (length a) <= Z.of_nat (length a')).
      { apply Hmin. rewrite Hx'. now exists a', b'. }
      assert (L2 : Z.of_nat (length a') <= Z.of_nat (length a)).
      { apply Hmin'. now exists a, b. }
      destruct (app_same a a' old b b' Hx' ltac:(lia)) as [-> ->]. do 2 f_equal. now apply IH.
Qed.
