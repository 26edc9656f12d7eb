(** Proofs about searching in text. *)
From Coq Require Import List ZArith Bool Lia ZifyBool ZifyNat.
From Verif Require Import Base PyList Text_Model TextSearch_Model TextSearch_Spec.
Import ListNotations.
Open Scope Z_scope.
Open Scope result_scope.

(** ** Positions *)

Fixpoint eqb_list (a b : list Z) : bool :=
  match a, b with
  | [], [] => true
  | x :: a, y :: b => (x =? y) && eqb_list a b
  | _, _ => false
  end.

Lemma eqb_list_eq : forall a b, eqb_list a b = true <-> a = b.
Proof.
  induction a as [|x a IH]; destruct b as [|y b]; cbn; split; intro H; try congruence.
  - apply andb_true_iff in H. destruct H as [H1 H2].
    apply Z.eqb_eq in H1. apply IH in H2. congruence.
  - injection H as -> ->. rewrite Z.eqb_refl. cbn. now apply IH.
Qed.

Definition standsb (x sub : list Z) (i : Z) : bool :=
  eqb_list (firstn (length sub) (skipn (Z.to_nat i) x)) sub.

Lemma standsb_spec : forall x sub i,
  0 <= i -> i + zlen sub <= zlen x -> (standsb x sub i = true <-> stands_at x sub i).
Proof.
  intros x sub i Hi Hb. unfold zlen in Hb. unfold standsb. rewrite eqb_list_eq. split.
  - intro H. exists (firstn (Z.to_nat i) x), (skipn (length sub) (skipn (Z.to_nat i) x)). split.
    + transitivity (firstn (Z.to_nat i) x ++ skipn (Z.to_nat i) x).
      { symmetry. apply firstn_skipn. }
      f_equal. rewrite <- (firstn_skipn (length sub) (skipn (Z.to_nat i) x)) at 1. now f_equal.
    + rewrite firstn_length. lia.
  - intros (a & b & E & L). subst x.
    replace (Z.to_nat i) with (length a) by lia.
    rewrite skipn_app, skipn_all, Nat.sub_diag. cbn [app skipn].
    rewrite firstn_app, firstn_all, Nat.sub_diag. cbn. now rewrite app_nil_r.
Qed.

Lemma stands_at_bounds : forall x sub i,
  stands_at x sub i -> 0 <= i /\ i + zlen sub <= zlen x.
Proof.
  intros x sub i (a & b & E & L). subst x. unfold zlen. rewrite !app_length. lia.
Qed.

Lemma stands_at_nil : forall x i, 0 <= i <= zlen x -> stands_at x [] i.
Proof.
  intros x i H. exists (firstn (Z.to_nat i) x), (skipn (Z.to_nat i) x). cbn.
  rewrite firstn_skipn. split; [reflexivity|]. rewrite firstn_length. unfold zlen in H. lia.
Qed.

(** ** Reading elements *)

Lemma py_get_nth : forall (l : list Z) i,
  0 <= i < zlen l -> py_get l i = Ok (nth (Z.to_nat i) l 0).
Proof.
  intros l i H. unfold py_get, py_index. fold (zlen l).
  replace ((0 <=? i) && (i <? zlen l)) with true by lia. cbn [bind].
  rewrite (nth_error_nth' l 0) by (unfold zlen in H; lia). reflexivity.
Qed.

Lemma cread_nth : forall l i, 0 <= i < zlen l -> cread l i = Ok (nth (Z.to_nat i) l 0).
Proof.
  intros l i H. unfold cread. now replace ((0 <=? i) && (i <? zlen l)) with true by lia.
Qed.

Lemma skipn_nth : forall (l : list Z) n,
  (n < length l)%nat -> skipn n l = nth n l 0 :: skipn (S n) l.
Proof.
  induction l as [|a l IH]; cbn; intros n H; [lia|].
  destruct n; [reflexivity|]. apply IH. lia.
Qed.

(** One more element of the comparison *)
Lemma eqb_step : forall x sub a k,
  (a < length x)%nat -> (k < length sub)%nat ->
  eqb_list (firstn (length sub - k) (skipn a x)) (skipn k sub) =
  (nth a x 0 =? nth k sub 0) &&
  eqb_list (firstn (length sub - S k) (skipn (S a) x)) (skipn (S k) sub).
Proof.
  intros x sub a k Ha Hk.
  rewrite (skipn_nth x a Ha), (skipn_nth sub k Hk).
  replace (length sub - k)%nat with (S (length sub - S k)) by lia. reflexivity.
Qed.

Lemma match_loop_ok : forall fuel x sub index k,
  0 <= index -> index + blen sub <= blen x -> 0 <= k < blen sub ->
  (Z.to_nat (blen sub - k) <= fuel)%nat ->
  match_loop fuel x sub index k =
  Ok (eqb_list (firstn (length (bdata sub) - Z.to_nat k)
                  (skipn (Z.to_nat (index + k)) (bdata x)))
        (skipn (Z.to_nat k) (bdata sub))).
Proof.
  induction fuel as [|fuel IH]; intros x sub index k Hi Hb Hk Hf; [lia|].
  unfold blen, zlen in *. cbn [match_loop]. unfold blen, zlen.
  replace (k <? Z.of_nat (length (bdata sub))) with true by lia.
  unfold bytes_getitem. rewrite !py_get_nth by (unfold zlen; lia). cbn [bind].
  rewrite eqb_step by lia.
  destruct (nth (Z.to_nat (index + k)) (bdata x) 0 =? nth (Z.to_nat k) (bdata sub) 0);
    cbn [negb andb]; [|reflexivity].
  destruct (k + 1 =? Z.of_nat (length (bdata sub))) eqn:E.
  - replace (length (bdata sub) - S (Z.to_nat k))%nat with 0%nat by lia.
    rewrite (skipn_all2 (bdata sub)) by lia. reflexivity.
  - rewrite IH by lia.
    replace (Z.to_nat (index + (k + 1))) with (S (Z.to_nat (index + k))) by lia.
    now replace (Z.to_nat (k + 1)) with (S (Z.to_nat k)) by lia.
Qed.

Lemma matches_at_ok : forall x sub index,
  0 <= index -> index + blen sub <= blen x -> blen sub <> 0 ->
  matches_at x sub index = Ok (standsb (bdata x) (bdata sub) index).
Proof.
  intros x sub index Hi Hb Hs. unfold matches_at.
  rewrite match_loop_ok by (unfold blen, zlen in *; lia).
  unfold standsb. cbn [skipn Z.to_nat]. rewrite Nat.sub_0_r, Z.add_0_r. reflexivity.
Qed.

Lemma smatch_loop_ok : forall n l sub i k,
  0 <= i -> i + slen sub <= slen l -> 0 <= k -> Z.of_nat n + k = slen sub ->
  smatch_loop n l sub i k =
  Ok (eqb_list (firstn (length (sdata sub) - Z.to_nat k)
                  (skipn (Z.to_nat (i + k)) (sdata l)))
        (skipn (Z.to_nat k) (sdata sub))).
Proof.
  induction n as [|n IH]; intros l sub i k Hi Hb Hk Hn; unfold slen, zlen in *.
  - cbn. replace (length (sdata sub) - Z.to_nat k)%nat with 0%nat by lia.
    rewrite (skipn_all2 (sdata sub)) by lia. reflexivity.
  - cbn [smatch_loop]. unfold getpoint. rewrite !cread_nth by (unfold zlen; lia). cbn [bind].
    rewrite eqb_step by lia.
    destruct (nth (Z.to_nat (i + k)) (sdata l) 0 =? nth (Z.to_nat k) (sdata sub) 0);
      cbn [negb andb]; [|reflexivity].
    rewrite IH by (unfold slen, zlen; lia).
    replace (Z.to_nat (i + (k + 1))) with (S (Z.to_nat (i + k))) by lia.
    now replace (Z.to_nat (k + 1)) with (S (Z.to_nat k)) by lia.
Qed.

Lemma standsb_single : forall x b i,
  0 <= i < zlen x -> standsb x [b] i = (nth (Z.to_nat i) x 0 =? b).
Proof.
  intros x b i H. unfold standsb. rewrite (skipn_nth x) by (unfold zlen in H; lia).
  cbn. now rewrite andb_true_r.
Qed.

Lemma test_at_ok : forall l sub i,
  0 <= i -> i + slen sub <= slen l -> slen sub <> 0 ->
  test_at l sub i = Ok (standsb (sdata l) (sdata sub) i).
Proof.
  intros l sub i Hi Hb Hs. unfold test_at, fast_path.
  destruct ((swidth l =? 1) && (swidth sub =? 1) && (slen sub =? 1)) eqn:E.
  - assert (E1 : slen sub = 1) by lia. unfold slen, zlen in *.
    destruct (sdata sub) as [|b [|]] eqn:Es; cbn [length] in *; try lia.
    rewrite cread_nth by (unfold zlen; lia). cbn [bind].
    rewrite cread_nth by (unfold zlen; cbn; lia). cbn [bind].
    rewrite standsb_single by (unfold zlen; lia). reflexivity.
  - unfold smatches_at. rewrite smatch_loop_ok by (unfold slen, zlen in *; lia).
    unfold standsb. cbn [skipn Z.to_nat]. now rewrite Nat.sub_0_r, Z.add_0_r.
Qed.

(** ** The loops *)

Fixpoint gfind (fuel : nat) (test : Z -> result bool) (i stop : Z) : result Z :=
  match fuel with
  | O => Err OutOfFuel
  | S fuel =>
      if i <? stop then
        m <- test i ;; if (m : bool) then Ok i else gfind fuel test (i + 1) stop
      else Ok (-1)
  end.

Fixpoint grfind (fuel : nat) (test : Z -> result bool) (i start : Z) : result Z :=
  match fuel with
  | O => Err OutOfFuel
  | S fuel =>
      if start <=? i then
        m <- test i ;; if (m : bool) then Ok i else grfind fuel test (i - 1) start
      else Ok (-1)
  end.

Fixpoint gcount (fuel : nat) (test : Z -> result bool) (step i stop c : Z) : result Z :=
  match fuel with
  | O => Err OutOfFuel
  | S fuel =>
      if i <? stop then
        m <- test i ;;
        if (m : bool) then gcount fuel test step (i + step) stop (c + 1)
        else gcount fuel test step (i + 1) stop c
      else Ok c
  end.

Lemma find_loop_gfind : forall fuel x sub i stop,
  find_loop fuel x sub i stop = gfind fuel (matches_at x sub) i stop.
Proof.
  induction fuel as [|fuel IH]; intros; [reflexivity|]. cbn [find_loop gfind].
  destruct (i <? stop); [|reflexivity].
  destruct (matches_at x sub i) as [[]|]; cbn [bind]; auto.
Qed.

Lemma sfind_loop_gfind : forall fuel x sub i stop,
  sfind_loop fuel x sub i stop = gfind fuel (test_at x sub) i stop.
Proof.
  induction fuel as [|fuel IH]; intros; [reflexivity|]. cbn [sfind_loop gfind].
  destruct (i <? stop); [|reflexivity].
  destruct (test_at x sub i) as [[]|]; cbn [bind]; auto.
Qed.

Definition single_test (x : bytes) (b i : Z) : result bool :=
  a <- bytes_getitem x i ;; Ok (a =? b).

Lemma find_single_gfind : forall fuel x b i stop,
  find_single_loop fuel x b i stop = gfind fuel (single_test x b) i stop.
Proof.
  induction fuel as [|fuel IH]; intros; [reflexivity|].
  cbn [find_single_loop gfind]. unfold single_test at 1.
  destruct (i <? stop); [|reflexivity].
  destruct (bytes_getitem x i) as [a|]; cbn [bind]; [|reflexivity].
  destruct (a =? b); auto.
Qed.

Lemma rfind_loop_grfind : forall fuel x sub i start,
  rfind_loop fuel x sub i start = grfind fuel (matches_at x sub) i start.
Proof.
  induction fuel as [|fuel IH]; intros; [reflexivity|]. cbn [rfind_loop grfind].
  destruct (start <=? i); [|reflexivity].
  destruct (matches_at x sub i) as [[]|]; cbn [bind]; auto.
Qed.

Lemma srfind_loop_grfind : forall fuel x sub i start,
  srfind_loop fuel x sub i start = grfind fuel (test_at x sub) i start.
Proof.
  induction fuel as [|fuel IH]; intros; [reflexivity|]. cbn [srfind_loop grfind].
  destruct (start <=? i); [|reflexivity].
  destruct (test_at x sub i) as [[]|]; cbn [bind]; auto.
Qed.

Lemma rfind_single_grfind : forall fuel x b i start,
  rfind_single_loop fuel x b i start = grfind fuel (single_test x b) i start.
Proof.
  induction fuel as [|fuel IH]; intros; [reflexivity|].
  cbn [rfind_single_loop grfind]. unfold single_test at 1.
  destruct (start <=? i); [|reflexivity].
  destruct (bytes_getitem x i) as [a|]; cbn [bind]; [|reflexivity].
  destruct (a =? b); auto.
Qed.

Lemma count_loop_gcount : forall fuel x sub i stop c,
  count_loop fuel x sub i stop c = gcount fuel (matches_at x sub) (blen sub) i stop c.
Proof.
  induction fuel as [|fuel IH]; intros; [reflexivity|]. cbn [count_loop gcount].
  destruct (i <? stop); [|reflexivity].
  destruct (matches_at x sub i) as [[]|]; cbn [bind]; auto.
  rewrite IH. f_equal. lia.
Qed.

Lemma scount_loop_gcount : forall fuel x sub i stop c,
  scount_loop fuel x sub i stop c = gcount fuel (test_at x sub) (slen sub) i stop c.
Proof.
  induction fuel as [|fuel IH]; intros; [reflexivity|]. cbn [scount_loop gcount].
  destruct (i <? stop); [|reflexivity].
  destruct (test_at x sub i) as [[]|]; cbn [bind]; auto.
  rewrite IH. f_equal. unfold fast_path.
  destruct ((swidth x =? 1) && (swidth sub =? 1) && (slen sub =? 1)) eqn:E; lia.
Qed.

Lemma count_single_gcount : forall fuel x b i stop c,
  count_single_loop fuel x b i stop c = gcount fuel (single_test x b) 1 i stop c.
Proof.
  induction fuel as [|fuel IH]; intros; [reflexivity|].
  cbn [count_single_loop gcount]. unfold single_test at 1.
  destruct (i <? stop); [|reflexivity].
  destruct (bytes_getitem x i) as [a|]; cbn [bind]; [|reflexivity].
  destruct (a =? b); auto.
Qed.

Lemma gfind_spec : forall fuel test P i stop,
  (forall j, i <= j < stop -> test j = Ok (P j)) ->
  (Z.to_nat (stop - i) < fuel)%nat ->
  exists r, gfind fuel test i stop = Ok r /\
    ((i <= r < stop /\ P r = true /\ forall j, i <= j < r -> P j = false) \/
     (r = -1 /\ forall j, i <= j < stop -> P j = false)).
Proof.
  induction fuel as [|fuel IH]; intros test P i stop Ht Hf; [lia|]. cbn [gfind].
  destruct (i <? stop) eqn:E.
  - rewrite Ht by lia. cbn [bind]. destruct (P i) eqn:EP.
    + exists i. split; [reflexivity|]. left. split; [lia|]. split; [exact EP|lia].
    + destruct (IH test P (i + 1) stop) as (r & Hr & H); [intros; apply Ht; lia|lia|].
      exists r. split; [exact Hr|]. destruct H as [(H1 & H2 & H3)|(H1 & H2)].
      * left. split; [lia|]. split; [exact H2|]. intros j Hj.
        destruct (Z.eq_dec j i); [congruence|apply H3; lia].
      * right. split; [exact H1|]. intros j Hj.
        destruct (Z.eq_dec j i); [congruence|apply H2; lia].
  - exists (-1). split; [reflexivity|]. right. split; [reflexivity|]. lia.
Qed.

Lemma grfind_spec : forall fuel test P i start,
  (forall j, start <= j <= i -> test j = Ok (P j)) ->
  (Z.to_nat (i - start + 1) < fuel)%nat ->
  exists r, grfind fuel test i start = Ok r /\
    ((start <= r <= i /\ P r = true /\ forall j, r < j <= i -> P j = false) \/
     (r = -1 /\ forall j, start <= j <= i -> P j = false)).
Proof.
  induction fuel as [|fuel IH]; intros test P i start Ht Hf; [lia|]. cbn [grfind].
  destruct (start <=? i) eqn:E.
  - rewrite Ht by lia. cbn [bind]. destruct (P i) eqn:EP.
    + exists i. split; [reflexivity|]. left. split; [lia|]. split; [exact EP|lia].
    + destruct (IH test P (i - 1) start) as (r & Hr & H); [intros; apply Ht; lia|lia|].
      exists r. split; [exact Hr|]. destruct H as [(H1 & H2 & H3)|(H1 & H2)].
      * left. split; [lia|]. split; [exact H2|]. intros j Hj.
        destruct (Z.eq_dec j i); [congruence|apply H3; lia].
      * right. split; [exact H1|]. intros j Hj.
        destruct (Z.eq_dec j i); [congruence|apply H2; lia].
  - exists (-1). split; [reflexivity|]. right. split; [reflexivity|]. lia.
Qed.

(** ** Bounds *)

Lemma adjust_start_lower : forall n v, 0 <= n -> adjust_start n v = lower_bound n (Some v).
Proof.
  intros n v Hn. unfold adjust_start, lower_bound. destruct (v <? 0) eqn:E.
  - destruct (v + n <? 0) eqn:E2; lia.
  - rewrite E. reflexivity.
Qed.

Lemma adjust_end_upper : forall n v, 0 <= n -> adjust_end n v = upper_bound n (Some v).
Proof.
  intros n v Hn. unfold adjust_end, upper_bound.
  destruct (v <? 0) eqn:E.
  - destruct (v + n <? 0) eqn:E2.
    + destruct (n <? 0) eqn:E3; lia.
    + destruct (n <? v + n) eqn:E3; lia.
  - rewrite E. destruct (n <? v) eqn:E3; lia.
Qed.

Lemma range_end_upper : forall n v, 0 <= n -> range_end n v = upper_bound n (Some v).
Proof.
  intros n v Hn. unfold range_end, upper_bound.
  destruct (v <? 0) eqn:E; [destruct (v + n <? 0) eqn:E2|destruct (n <? v) eqn:E2]; lia.
Qed.

Lemma zlen_nonneg : forall {A} (l : list A), 0 <= zlen l.
Proof. intros. unfold zlen. lia. Qed.

Lemma lower_nonneg : forall n start, 0 <= lower_bound n start.
Proof.
  intros n [v|]; cbn; [|lia]. destruct (v <? 0) eqn:E; lia.
Qed.

Lemma upper_le : forall n stop, 0 <= n -> 0 <= upper_bound n stop <= n.
Proof.
  intros n [v|] H; cbn; [|lia]. destruct (v <? 0) eqn:E; lia.
Qed.

(** A bound left out is the same as the bound the wrapper passes. *)
Definition start_arg (start : option Z) : Z := match start with Some v => v | None => 0 end.
Definition stop_arg (n : Z) (stop : option Z) : Z :=
  match stop with Some v => v | None => n end.

Lemma lower_arg : forall n start, lower_bound n (Some (start_arg start)) = lower_bound n start.
Proof. intros n [v|]; reflexivity. Qed.

Lemma upper_arg : forall n stop,
  0 <= n -> upper_bound n (Some (stop_arg n stop)) = upper_bound n stop.
Proof.
  intros n [v|] H; [reflexivity|]. unfold upper_bound, stop_arg.
  destruct (n <? 0) eqn:E; lia.
Qed.

Lemma match_within_iff : forall x sub start stop i,
  match_within x sub start stop i <->
  lower_bound (zlen x) start <= i < upper_bound (zlen x) stop - zlen sub + 1 /\
  standsb x sub i = true.
Proof.
  intros x sub start stop i. unfold match_within. fold (zlen x) (zlen sub).
  pose proof (lower_nonneg (zlen x) start). pose proof (upper_le (zlen x) stop (zlen_nonneg x)).
  split.
  - intros (H1 & H2 & H3). split; [lia|]. apply standsb_spec; [lia|lia|exact H3].
  - intros [H1 H2]. split; [lia|]. split; [lia|]. apply standsb_spec in H2; [exact H2|lia|lia].
Qed.

(** ** The answers of the loops, in the words of the specification *)

Section Answers.
  Variables (x sub : list Z) (start stop : option Z).
  Let lo := lower_bound (zlen x) start.
  Let hi := upper_bound (zlen x) stop.

  Lemma finds_first_of : forall r,
    (lo <= r < hi - zlen sub + 1 /\ standsb x sub r = true /\
     (forall j, lo <= j < r -> standsb x sub j = false)) \/
    (r = -1 /\ forall j, lo <= j < hi - zlen sub + 1 -> standsb x sub j = false) ->
    finds_first x sub start stop r.
  Proof.
    intros r [(H1 & H2 & H3)|(H1 & H2)].
    - left. split; [now apply match_within_iff|]. intros j Hj. apply match_within_iff in Hj.
      destruct Hj as [Hj1 Hj2]. destruct (Z_lt_le_dec j r) as [L|L]; [|exact L].
      rewrite H3 in Hj2 by (unfold lo; lia). discriminate.
    - right. split; [exact H1|]. intros j Hj. apply match_within_iff in Hj.
      destruct Hj as [Hj1 Hj2]. rewrite H2 in Hj2 by exact Hj1. discriminate.
  Qed.

  Lemma finds_last_of : forall r,
    (lo <= r <= hi - zlen sub /\ standsb x sub r = true /\
     (forall j, r < j <= hi - zlen sub -> standsb x sub j = false)) \/
    (r = -1 /\ forall j, lo <= j <= hi - zlen sub -> standsb x sub j = false) ->
    finds_last x sub start stop r.
  Proof.
    intros r [(H1 & H2 & H3)|(H1 & H2)].
    - left. split; [apply match_within_iff; split; [unfold lo, hi in *; lia|exact H2]|].
      intros j Hj. apply match_within_iff in Hj. destruct Hj as [Hj1 Hj2].
      destruct (Z_lt_le_dec r j) as [L|L]; [|exact L].
      rewrite H3 in Hj2 by (unfold hi; lia). discriminate.
    - right. split; [exact H1|]. intros j Hj. apply match_within_iff in Hj.
      destruct Hj as [Hj1 Hj2]. rewrite H2 in Hj2 by (unfold lo, hi; lia). discriminate.
  Qed.
End Answers.

Lemma standsb_nil : forall x i, standsb x [] i = true.
Proof. reflexivity. Qed.

Lemma blen_nil : forall b, blen b = 0 -> bdata b = [].
Proof. intros b H. unfold blen, zlen in H. destruct (bdata b); [reflexivity|cbn in H; lia]. Qed.

Lemma slen_nil : forall s, slen s = 0 -> sdata s = [].
Proof. intros b H. unfold slen, zlen in H. destruct (sdata b); [reflexivity|cbn in H; lia]. Qed.

Lemma zlen_nil : forall {A}, zlen (@nil A) = 0.
Proof. reflexivity. Qed.

Lemma zlen_one : forall {A} (a : A), zlen [a] = 1.
Proof. reflexivity. Qed.

Lemma single_test_ok : forall x b j,
  0 <= j < blen x -> single_test x b j = Ok (standsb (bdata x) [b] j).
Proof.
  intros x b j H. unfold single_test, bytes_getitem. unfold blen in H.
  rewrite py_get_nth by exact H. cbn [bind]. now rewrite standsb_single.
Qed.

Ltac name_bounds x n start stop lo hi HL HU :=
  unfold with_bounds;
  change (match start with Some v => v | None => 0 end) with (start_arg start);
  change (match stop with Some v => v | None => n end) with (stop_arg n stop);
  pose proof (lower_nonneg n start) as HL;
  pose proof (upper_le n stop (zlen_nonneg x)) as HU.

Theorem bytes_find_ok : forall x sub start stop,
  exists r, with_bounds (blen x) (bytes_find x sub) start stop = Ok r /\
            finds_first (bdata x) (bdata sub) start stop r.
Proof.
  intros x sub start stop. name_bounds (bdata x) (blen x) start stop lo hi HL HU.
  unfold bytes_find.
  rewrite adjust_start_lower, adjust_end_upper by apply zlen_nonneg.
  rewrite lower_arg, upper_arg by apply zlen_nonneg. cbv zeta.
  destruct (blen sub =? 0) eqn:E0.
  - rewrite (blen_nil sub) by lia.
    destruct ((blen x <? lower_bound (blen x) start)
              || (upper_bound (blen x) stop <? lower_bound (blen x) start)) eqn:E1;
      unfold blen in *.
    + exists (-1). split; [reflexivity|]. apply finds_first_of. right. split; [reflexivity|].
      rewrite zlen_nil. lia.
    + eexists. split; [reflexivity|]. apply finds_first_of. left.
      rewrite zlen_nil. split; [lia|]. split; [apply standsb_nil|lia].
  - rewrite find_loop_gfind.
    match goal with |- context [gfind ?f ?t ?i ?s] =>
      destruct (gfind_spec f t (standsb (bdata x) (bdata sub)) i s) as (r & Hr & H) end.
    + intros j Hj. apply matches_at_ok; lia.
    + lia.
    + exists r. split; [exact Hr|]. apply finds_first_of. exact H.
Qed.

Theorem bytes_rfind_ok : forall x sub start stop,
  exists r, with_bounds (blen x) (bytes_rfind x sub) start stop = Ok r /\
            finds_last (bdata x) (bdata sub) start stop r.
Proof.
  intros x sub start stop. name_bounds (bdata x) (blen x) start stop lo hi HL HU.
  unfold bytes_rfind.
  rewrite adjust_start_lower, adjust_end_upper by apply zlen_nonneg.
  rewrite lower_arg, upper_arg by apply zlen_nonneg. cbv zeta.
  destruct (blen sub =? 0) eqn:E0.
  - rewrite (blen_nil sub) by lia.
    destruct ((blen x <? lower_bound (blen x) start)
              || (upper_bound (blen x) stop <? lower_bound (blen x) start)) eqn:E1;
      unfold blen in *.
    + exists (-1). split; [reflexivity|]. apply finds_last_of. right. split; [reflexivity|].
      rewrite zlen_nil. lia.
    + eexists. split; [reflexivity|]. apply finds_last_of. left.
      rewrite zlen_nil. split; [lia|]. split; [apply standsb_nil|lia].
  - rewrite rfind_loop_grfind.
    match goal with |- context [grfind ?f ?t ?i ?s] =>
      destruct (grfind_spec f t (standsb (bdata x) (bdata sub)) i s) as (r & Hr & H) end.
    + intros j Hj. apply matches_at_ok; lia.
    + lia.
    + exists r. split; [exact Hr|]. apply finds_last_of. exact H.
Qed.

Theorem bytes_find_single_ok : forall x b start stop,
  0 <= b <= 255 ->
  exists r, with_bounds (blen x) (bytes_find_single x b) start stop = Ok r /\
            finds_first (bdata x) [b] start stop r.
Proof.
  intros x b start stop Hb. name_bounds (bdata x) (blen x) start stop lo hi HL HU.
  unfold bytes_find_single. replace ((b <? 0) || (255 <? b)) with false by lia.
  rewrite adjust_start_lower, adjust_end_upper by apply zlen_nonneg.
  rewrite lower_arg, upper_arg by apply zlen_nonneg. cbv zeta.
  rewrite find_single_gfind.
  match goal with |- context [gfind ?f ?t ?i ?s] =>
    destruct (gfind_spec f t (standsb (bdata x) [b]) i s) as (r & Hr & H) end.
  - intros j Hj. apply single_test_ok; lia.
  - lia.
  - exists r. split; [exact Hr|]. apply finds_first_of. rewrite zlen_one.
    unfold blen in *. rewrite Z.sub_add. exact H.
Qed.

Theorem bytes_rfind_single_ok : forall x b start stop,
  0 <= b <= 255 ->
  exists r, with_bounds (blen x) (bytes_rfind_single x b) start stop = Ok r /\
            finds_last (bdata x) [b] start stop r.
Proof.
  intros x b start stop Hb. name_bounds (bdata x) (blen x) start stop lo hi HL HU.
  unfold bytes_rfind_single. replace ((b <? 0) || (255 <? b)) with false by lia.
  rewrite adjust_start_lower, adjust_end_upper by apply zlen_nonneg.
  rewrite lower_arg, upper_arg by apply zlen_nonneg. cbv zeta.
  rewrite rfind_single_grfind.
  match goal with |- context [grfind ?f ?t ?i ?s] =>
    destruct (grfind_spec f t (standsb (bdata x) [b]) i s) as (r & Hr & H) end.
  - intros j Hj. apply single_test_ok; lia.
  - lia.
  - exists r. split; [exact Hr|]. apply finds_last_of. rewrite zlen_one. exact H.
Qed.

Lemma finds_first_range : forall x sub start stop r,
  finds_first x sub start stop r -> r = -1 \/ 0 <= r.
Proof.
  intros x sub start stop r [[H _]|[H _]]; [right|now left].
  apply match_within_iff in H. pose proof (lower_nonneg (zlen x) start). lia.
Qed.

Lemma finds_last_range : forall x sub start stop r,
  finds_last x sub start stop r -> r = -1 \/ 0 <= r.
Proof.
  intros x sub start stop r [[H _]|[H _]]; [right|now left].
  apply match_within_iff in H. pose proof (lower_nonneg (zlen x) start). lia.
Qed.

Lemma or_value_error_ok : forall (finds : Z -> Prop) r v,
  r = Ok v -> finds v -> or_not_found finds (or_value_error r).
Proof.
  intros finds r v -> H. unfold or_value_error. cbn [bind].
  destruct (v =? -1) eqn:E; cbn; split; auto; try lia.
  now replace (-1) with v by lia.
Qed.

(** ** Counting *)

Lemma match_within_start : forall x sub start stop i,
  match_within x sub (Some (lower_bound (zlen x) start)) stop i <->
  match_within x sub start stop i.
Proof.
  intros. unfold match_within. fold (zlen x).
  pose proof (lower_nonneg (zlen x) start).
  replace (lower_bound (zlen x) (Some (lower_bound (zlen x) start)))
    with (lower_bound (zlen x) start); [reflexivity|].
  unfold lower_bound at 2. destruct (lower_bound (zlen x) start <? 0) eqn:E; [lia|reflexivity].
Qed.

Lemma match_from : forall x sub stop lo i,
  0 <= lo ->
  (match_within x sub (Some lo) stop i <->
   lo <= i < upper_bound (zlen x) stop - zlen sub + 1 /\ standsb x sub i = true).
Proof.
  intros x sub stop lo i H. rewrite match_within_iff. unfold lower_bound.
  destruct (lo <? 0) eqn:E; [lia|reflexivity].
Qed.

Lemma counts_skip : forall x sub stop lo n,
  0 <= lo -> ~ match_within x sub (Some lo) stop lo ->
  counts x sub stop (lo + 1) n -> counts x sub stop lo n.
Proof.
  intros x sub stop lo n Hlo Hn H.
  assert (K : forall j, match_within x sub (Some lo) stop j <->
                        match_within x sub (Some (lo + 1)) stop j).
  { intro j. rewrite !match_from by lia. rewrite match_from in Hn by lia.
    split; intros [H1 H2]; (split; [|exact H2]); [|lia].
    destruct (Z.eq_dec j lo) as [->|]; [|lia]. exfalso. apply Hn. split; [lia|exact H2]. }
  inversion H as [lo' Hnone|lo' i m Hm Hmin Hrest]; subst.
  - apply counts_none. intro j. rewrite K. apply Hnone.
  - apply (counts_next _ _ _ _ i); [now apply K| |exact Hrest].
    intros j Hj. apply Hmin. now apply K.
Qed.

Lemma gcount_spec : forall x sub stop step test,
  step = Z.max 1 (zlen sub) ->
  forall fuel i c,
  0 <= i ->
  (forall j, i <= j < upper_bound (zlen x) stop - zlen sub + 1 ->
             test j = Ok (standsb x sub j)) ->
  (Z.to_nat (upper_bound (zlen x) stop - zlen sub + 1 - i) < fuel)%nat ->
  exists n, gcount fuel test step i (upper_bound (zlen x) stop - zlen sub + 1) c = Ok (c + n) /\
            counts x sub stop i n.
Proof.
  intros x sub stop step test Hs. induction fuel as [|fuel IH]; intros i c Hi Ht Hf; [lia|].
  cbn [gcount]. destruct (i <? upper_bound (zlen x) stop - zlen sub + 1) eqn:E.
  - rewrite Ht by lia. cbn [bind]. destruct (standsb x sub i) eqn:ES.
    + destruct (IH (i + step) (c + 1)) as (n & Hn & Hc);
        [lia|intros; apply Ht; lia|lia|].
      exists (n + 1). split; [rewrite Hn; f_equal; lia|].
      apply (counts_next _ _ _ _ i).
      * apply match_from; [lia|]. split; [lia|exact ES].
      * intros j Hj. apply match_from in Hj; lia.
      * fold (zlen sub). rewrite <- Hs. exact Hc.
    + destruct (IH (i + 1) c) as (n & Hn & Hc); [lia|intros; apply Ht; lia|lia|].
      exists n. split; [exact Hn|]. apply counts_skip; [lia| |exact Hc].
      rewrite match_from by lia. intros [_ H]. congruence.
  - exists 0. split; [f_equal; lia|]. apply counts_none. intros j Hj.
    apply match_from in Hj; lia.
Qed.

Lemma counts_empty : forall x stop k lo,
  0 <= lo -> upper_bound (zlen x) stop - lo + 1 = Z.of_nat k -> counts x [] stop lo (Z.of_nat k).
Proof.
  intros x stop. induction k as [|k IH]; intros lo Hlo Hk.
  - apply counts_none. intros j Hj. apply match_from in Hj; [|lia].
    rewrite zlen_nil in Hj. lia.
  - replace (Z.of_nat (S k)) with (Z.of_nat k + 1) by lia.
    apply (counts_next _ _ _ _ lo).
    + apply match_from; [lia|]. rewrite zlen_nil. split; [lia|apply standsb_nil].
    + intros j Hj. apply match_from in Hj; lia.
    + cbn [length]. replace (Z.max 1 (Z.of_nat 0)) with 1 by lia. apply IH; lia.
Qed.

Lemma counts_empty_max : forall x stop lo,
  0 <= lo -> counts x [] stop lo (Z.max 0 (upper_bound (zlen x) stop - lo + 1)).
Proof.
  intros x stop lo H. destruct (Z_le_gt_dec 0 (upper_bound (zlen x) stop - lo + 1)) as [L|L].
  - rewrite Z.max_r by lia. rewrite <- (Z2Nat.id _ L). apply counts_empty; [exact H|lia].
  - rewrite Z.max_l by lia. apply counts_none. intros j Hj.
    apply match_from in Hj; [|lia]. rewrite zlen_nil in Hj. lia.
Qed.

(** The specification of [count] determines the number. *)
Lemma counts_unique : forall x sub stop lo n m,
  counts x sub stop lo n -> counts x sub stop lo m -> n = m.
Proof.
  intros x sub stop lo n m H. revert m.
  induction H as [lo Hn|lo i n Hm Hmin Hr IH]; intros m H'.
  - inversion H' as [lo' Hn'|lo' j k Hj Hjmin Hk]; subst; [reflexivity|].
    exfalso. now apply (Hn j).
  - inversion H' as [lo' Hn'|lo' j k Hj Hjmin Hk]; subst; [exfalso; now apply (Hn' i)|].
    assert (i = j) by (apply Z.le_antisymm; auto). subst j. f_equal. now apply IH.
Qed.

Theorem bytes_count_ok : forall x sub start stop,
  exists n, with_bounds (blen x) (bytes_count x sub) start stop = Ok n /\
            counts (bdata x) (bdata sub) stop (lower_bound (blen x) start) n.
Proof.
  intros x sub start stop. name_bounds (bdata x) (blen x) start stop lo hi HL HU.
  unfold bytes_count.
  rewrite adjust_start_lower, adjust_end_upper by apply zlen_nonneg.
  rewrite lower_arg, upper_arg by apply zlen_nonneg. cbv zeta.
  destruct (blen sub =? 0) eqn:E0.
  - rewrite (blen_nil sub) by lia.
    pose proof (counts_empty_max (bdata x) stop (lower_bound (blen x) start) HL) as HC.
    fold (blen x) in HC.
    exists (Z.max 0 (upper_bound (blen x) stop - lower_bound (blen x) start + 1)).
    split; [|exact HC].
    destruct (blen x <? lower_bound (blen x) start) eqn:E1; f_equal; [lia|].
    destruct (upper_bound (blen x) stop - lower_bound (blen x) start + 1 <? 0) eqn:E2; lia.
  - rewrite count_loop_gcount.
    destruct (gcount_spec (bdata x) (bdata sub) stop (blen sub) (matches_at x sub)
      ltac:(unfold blen in *; pose proof (zlen_nonneg (bdata sub)); lia)
      (S (Z.to_nat (upper_bound (blen x) stop - blen sub + 1 - lower_bound (blen x) start)))
      (lower_bound (blen x) start) 0) as (n & Hn & Hc).
    + exact HL.
    + intros j Hj. apply matches_at_ok; unfold blen in *; lia.
    + unfold blen. lia.
    + exists n. split; [exact Hn|exact Hc].
Qed.

Theorem bytes_count_single_ok : forall x b start stop,
  0 <= b <= 255 ->
  exists n, with_bounds (blen x) (bytes_count_single x b) start stop = Ok n /\
            counts (bdata x) [b] stop (lower_bound (blen x) start) n.
Proof.
  intros x b start stop Hb. name_bounds (bdata x) (blen x) start stop lo hi HL HU.
  unfold bytes_count_single. replace ((b <? 0) || (255 <? b)) with false by lia.
  rewrite adjust_start_lower, adjust_end_upper by apply zlen_nonneg.
  rewrite lower_arg, upper_arg by apply zlen_nonneg. cbv zeta.
  rewrite count_single_gcount.
  destruct (gcount_spec (bdata x) [b] stop 1 (single_test x b) eq_refl
    (S (Z.to_nat (upper_bound (blen x) stop - lower_bound (blen x) start)))
    (lower_bound (blen x) start) 0) as (n & Hn & Hc).
  - exact HL.
  - intros j Hj. rewrite zlen_one in Hj. apply single_test_ok; unfold blen in *; lia.
  - rewrite zlen_one. unfold blen. lia.
  - exists n. rewrite zlen_one, Z.sub_add in Hn. split; [exact Hn|exact Hc].
Qed.

(** ** Prefixes and suffixes of bytes *)

Lemma standsb_cons : forall x a p i,
  0 <= i < zlen x -> standsb x (a :: p) i = (nth (Z.to_nat i) x 0 =? a) && standsb x p (i + 1).
Proof.
  intros x a p i H. unfold standsb. rewrite (skipn_nth x (Z.to_nat i)) by (unfold zlen in H; lia).
  replace (Z.to_nat (i + 1)) with (S (Z.to_nat i)) by lia. reflexivity.
Qed.

Lemma prefix_loop_ok : forall x p index,
  0 <= index -> index + zlen p <= blen x ->
  prefix_loop x p index = Ok (standsb (bdata x) p index).
Proof.
  intros x. induction p as [|a p IH]; intros index Hi Hb; [reflexivity|].
  unfold zlen in Hb. cbn [length] in Hb. cbn [prefix_loop]. unfold bytes_getitem, blen in *.
  rewrite py_get_nth by (unfold zlen in *; lia). cbn [bind].
  rewrite standsb_cons by (unfold zlen in *; lia).
  destruct (nth (Z.to_nat index) (bdata x) 0 =? a); cbn [negb andb]; [|reflexivity].
  apply IH; unfold zlen in *; lia.
Qed.

Theorem bytes_startswith_ok : forall x p start stop,
  (start = None -> stop = None) ->
  exists b, bytes_startswith_call x p start stop = Ok b /\
            (b = true <-> starts_with (bdata x) (bdata p) start stop).
Proof.
  intros x p start stop Hs. unfold starts_with. setoid_rewrite match_within_iff. fold (zlen (bdata x)).
  fold (blen x) (blen p). unfold bytes_startswith_call. destruct start as [v|].
  - name_bounds (bdata x) (blen x) (Some v) stop lo hi HL HU.
    unfold bytes_startswith_range.
    rewrite adjust_start_lower, range_end_upper by apply zlen_nonneg.
    rewrite upper_arg by apply zlen_nonneg. cbv zeta.
    set (lo := lower_bound (blen x) (Some v)) in *. set (hi := upper_bound (blen x) stop) in *.
    destruct (hi - lo <? blen p) eqn:E.
    + exists false. split; [reflexivity|]. split; [discriminate|]. lia.
    + rewrite prefix_loop_ok by (unfold blen in *; lia). eexists. split; [reflexivity|].
      split; [intro H; split; [lia|exact H]|tauto].
  - rewrite (Hs eq_refl). cbn [lower_bound upper_bound]. unfold bytes_startswith.
    destruct (blen x <? blen p) eqn:E.
    + exists false. split; [reflexivity|]. split; [discriminate|]. lia.
    + rewrite prefix_loop_ok by (unfold blen in *; lia). eexists. split; [reflexivity|].
      split; [intro H; split; [lia|exact H]|tauto].
Qed.

Theorem bytes_endswith_ok : forall x p start stop,
  (start = None -> stop = None) ->
  exists b, bytes_endswith_call x p start stop = Ok b /\
            (b = true <-> ends_with (bdata x) (bdata p) start stop).
Proof.
  intros x p start stop Hs. unfold ends_with. setoid_rewrite match_within_iff.
  fold (zlen (bdata x)) (zlen (bdata p)).
  fold (blen x) (blen p). pose proof (zlen_nonneg (bdata p)) as Hp. fold (blen p) in Hp.
  unfold bytes_endswith_call. destruct start as [v|].
  - name_bounds (bdata x) (blen x) (Some v) stop lo hi HL HU.
    unfold bytes_endswith_range.
    rewrite adjust_start_lower, range_end_upper by apply zlen_nonneg.
    rewrite upper_arg by apply zlen_nonneg. cbv zeta.
    set (lo := lower_bound (blen x) (Some v)) in *. set (hi := upper_bound (blen x) stop) in *.
    destruct (hi - lo <? blen p) eqn:E.
    + exists false. split; [reflexivity|]. split; [discriminate|]. lia.
    + destruct (hi - blen p <? 0) eqn:E2; [lia|].
      rewrite prefix_loop_ok by (unfold blen in *; lia). eexists. split; [reflexivity|].
      split; [intro H; split; [lia|exact H]|tauto].
  - rewrite (Hs eq_refl). cbn [lower_bound upper_bound]. unfold bytes_endswith. cbv zeta.
    destruct (blen x - blen p <? 0) eqn:E.
    + exists false. split; [reflexivity|]. split; [discriminate|]. lia.
    + rewrite prefix_loop_ok by (unfold blen in *; lia). eexists. split; [reflexivity|].
      split; [intro H; split; [lia|exact H]|tauto].
Qed.

Lemma contains_find : forall x sub r,
  finds_first x sub None None r -> (0 <= r <-> contains x sub).
Proof.
  intros x sub r H. split.
  - intro L. destruct H as [[(_ & _ & H) _]|[H _]]; [now exists r|lia].
  - intros [i Hi]. destruct H as [[(H & _) _]|[_ H]]; [exact H|].
    exfalso. apply (H i). pose proof (stands_at_bounds _ _ _ Hi) as [B1 B2].
    unfold zlen in *. split; [exact B1|]. split; [exact B2|exact Hi].
Qed.

Theorem bytes_contains_ok : forall x sub,
  exists b, bytes_contains x sub = Ok b /\ (b = true <-> contains (bdata x) (bdata sub)).
Proof.
  intros x sub. destruct (bytes_find_ok x sub None None) as (r & Hr & H).
  unfold bytes_contains. unfold with_bounds in Hr. rewrite Hr. cbn [bind].
  eexists. split; [reflexivity|]. rewrite <- (contains_find _ _ _ H). lia.
Qed.

(** ** Strings *)

Lemma sadjust_lower : forall n v, 0 <= n -> sadjust n v = lower_bound n (Some v).
Proof.
  intros n v H. unfold sadjust, lower_bound.
  destruct (v <? 0) eqn:E; [|reflexivity]. destruct (v + n <? 0) eqn:E2; lia.
Qed.

Lemma sadjust_upper : forall n v, 0 <= n ->
  (if n <? sadjust n v then n else sadjust n v) = upper_bound n (Some v).
Proof.
  intros n v H. unfold sadjust, upper_bound.
  destruct (v <? 0) eqn:E; [destruct (v + n <? 0) eqn:E2|].
  - destruct (n <? 0) eqn:E3; lia.
  - destruct (n <? v + n) eqn:E3; lia.
  - destruct (n <? v) eqn:E3; lia.
Qed.

Lemma sadjust_room : forall n lo v, 0 <= n ->
  (sadjust n v <? lo) || (n <? lo) = (upper_bound n (Some v) <? lo).
Proof. intros n lo v H. rewrite <- (sadjust_upper n v H). destruct (n <? sadjust n v) eqn:E; lia. Qed.

Lemma no_room_false : forall l sub lo hi,
  no_room l sub lo hi = false -> 0 <= lo /\ lo < hi.
Proof. intros l sub lo hi H. unfold no_room in H. lia. Qed.

Lemma bounds_of_empty : forall start stop,
  lower_bound 0 start = Z.max 0 (start_arg start) /\ upper_bound 0 stop = 0.
Proof.
  intros [v|] [w|]; cbn; split; try reflexivity;
    try (destruct (v <? 0) eqn:E; lia); try (destruct (w <? 0) eqn:E; lia).
Qed.

Theorem str_find_ok : forall l sub start stop,
  exists r, with_bounds (slen l) (str_find l sub) start stop = Ok r /\
            finds_first (sdata l) (sdata sub) start stop r.
Proof.
  intros l sub start stop. name_bounds (sdata l) (slen l) start stop lo hi HL HU.
  pose proof (zlen_nonneg (sdata sub)) as Hp. fold (slen sub) in Hp.
  unfold str_find. cbv zeta. destruct (slen l =? 0) eqn:E.
  - assert (E0 : zlen (sdata l) = 0) by (unfold slen in *; lia).
    pose proof (bounds_of_empty start stop) as [B1 B2].
    destruct (slen sub =? 0) eqn:E1.
    + rewrite (slen_nil sub) by lia. destruct (0 <? start_arg start) eqn:E2.
      * exists (-1). split; [reflexivity|]. apply finds_first_of. right. split; [reflexivity|].
        rewrite zlen_nil, E0, B1, B2. lia.
      * exists 0. split; [reflexivity|]. apply finds_first_of. left.
        rewrite E0, B1, B2, (@zlen_nil Z). split; [lia|]. split; [apply standsb_nil|lia].
    + exists (-1). split; [reflexivity|]. apply finds_first_of. right. split; [reflexivity|].
      fold (slen sub). rewrite E0, B1, B2. lia.
  - rewrite sadjust_room by apply zlen_nonneg. rewrite sadjust_lower by apply zlen_nonneg.
    rewrite lower_arg, upper_arg by apply zlen_nonneg.
    destruct (upper_bound (slen l) stop <? lower_bound (slen l) start) eqn:E1.
    + exists (-1). split; [reflexivity|]. apply finds_first_of. right. split; [reflexivity|].
      fold (slen l) (slen sub). lia.
    + destruct (slen sub =? 0) eqn:E2.
      * rewrite (slen_nil sub) by lia.
        replace (0 <=? lower_bound (slen l) start) with true by lia.
        eexists. split; [reflexivity|]. apply finds_first_of. left.
        rewrite zlen_nil. fold (slen l). split; [lia|]. split; [apply standsb_nil|lia].
      * rewrite sadjust_upper, upper_arg by apply zlen_nonneg.
        destruct (no_room l sub (lower_bound (slen l) start)
                    (upper_bound (slen l) stop - (slen sub - 1))) eqn:E3.
        -- exists (-1). split; [reflexivity|]. apply finds_first_of. right. split; [reflexivity|].
           fold (slen l) (slen sub). unfold no_room in E3. lia.
        -- rewrite sfind_loop_gfind.
           match goal with |- context [gfind ?f ?t ?i ?s] =>
             destruct (gfind_spec f t (standsb (sdata l) (sdata sub)) i s) as (r & Hr & H) end.
           ++ intros j Hj. apply test_at_ok; lia.
           ++ lia.
           ++ exists r. split; [exact Hr|]. apply finds_first_of. fold (slen l) (slen sub).
              replace (upper_bound (slen l) stop - slen sub + 1)
                with (upper_bound (slen l) stop - (slen sub - 1)) by lia. exact H.
Qed.

Theorem str_rfind_ok : forall l sub start stop,
  exists r, with_bounds (slen l) (str_rfind l sub) start stop = Ok r /\
            finds_last (sdata l) (sdata sub) start stop r.
Proof.
  intros l sub start stop. name_bounds (sdata l) (slen l) start stop lo hi HL HU.
  pose proof (zlen_nonneg (sdata sub)) as Hp. fold (slen sub) in Hp.
  unfold str_rfind. cbv zeta. destruct (slen l =? 0) eqn:E.
  - assert (E0 : zlen (sdata l) = 0) by (unfold slen in *; lia).
    pose proof (bounds_of_empty start stop) as [B1 B2].
    destruct (slen sub =? 0) eqn:E1.
    + rewrite (slen_nil sub) by lia. destruct (0 <? start_arg start) eqn:E2.
      * exists (-1). split; [reflexivity|]. apply finds_last_of. right. split; [reflexivity|].
        rewrite zlen_nil, E0, B1, B2. lia.
      * exists 0. split; [reflexivity|]. apply finds_last_of. left.
        rewrite E0, B1, B2, (@zlen_nil Z). split; [lia|]. split; [apply standsb_nil|lia].
    + exists (-1). split; [reflexivity|]. apply finds_last_of. right. split; [reflexivity|].
      fold (slen sub). rewrite E0, B1, B2. lia.
  - rewrite sadjust_room by apply zlen_nonneg. rewrite sadjust_lower by apply zlen_nonneg.
    rewrite lower_arg, upper_arg by apply zlen_nonneg.
    destruct (upper_bound (slen l) stop <? lower_bound (slen l) start) eqn:E1.
    + exists (-1). split; [reflexivity|]. apply finds_last_of. right. split; [reflexivity|].
      fold (slen l) (slen sub). lia.
    + rewrite sadjust_upper, upper_arg by apply zlen_nonneg.
      destruct (slen sub =? 0) eqn:E2.
      * rewrite (slen_nil sub) by lia.
        eexists. split; [reflexivity|]. apply finds_last_of. left.
        rewrite zlen_nil. fold (slen l). split; [lia|]. split; [apply standsb_nil|lia].
      * destruct (no_room l sub (lower_bound (slen l) start)
                    (upper_bound (slen l) stop - (slen sub - 1))) eqn:E3.
        -- exists (-1). split; [reflexivity|]. apply finds_last_of. right. split; [reflexivity|].
           fold (slen l) (slen sub). unfold no_room in E3. lia.
        -- rewrite srfind_loop_grfind.
           match goal with |- context [grfind ?f ?t ?i ?s] =>
             destruct (grfind_spec f t (standsb (sdata l) (sdata sub)) i s) as (r & Hr & H) end.
           ++ intros j Hj. apply test_at_ok; lia.
           ++ lia.
           ++ exists r. split; [exact Hr|]. apply finds_last_of. fold (slen l) (slen sub).
              replace (upper_bound (slen l) stop - slen sub)
                with (upper_bound (slen l) stop - (slen sub - 1) - 1) by lia. exact H.
Qed.

Theorem str_count_ok : forall l sub start stop,
  sdata l <> [] \/ sdata sub <> [] ->
  exists n, with_bounds (slen l) (str_count l sub) start stop = Ok n /\
            counts (sdata l) (sdata sub) stop (lower_bound (slen l) start) n.
Proof.
  intros l sub start stop Hne. name_bounds (sdata l) (slen l) start stop lo hi HL HU.
  pose proof (zlen_nonneg (sdata sub)) as Hp. fold (slen sub) in Hp.
  assert (None_at : upper_bound (slen l) stop - slen sub < lower_bound (slen l) start ->
          counts (sdata l) (sdata sub) stop (lower_bound (slen l) start) 0).
  { intro H. apply counts_none. intros j Hj. apply match_from in Hj; [|exact HL].
    fold (slen l) (slen sub) in Hj. lia. }
  unfold str_count. cbv zeta. destruct (slen l =? 0) eqn:E.
  - exists 0. split; [reflexivity|]. apply None_at.
    assert (slen sub <> 0).
    { intro K. destruct Hne as [N|N]; apply N; [apply slen_nil; lia|now apply slen_nil]. }
    lia.
  - rewrite sadjust_room by apply zlen_nonneg. rewrite sadjust_lower by apply zlen_nonneg.
    rewrite lower_arg, upper_arg by apply zlen_nonneg.
    destruct (upper_bound (slen l) stop <? lower_bound (slen l) start) eqn:E1.
    + exists 0. split; [reflexivity|]. apply None_at. lia.
    + rewrite sadjust_upper, upper_arg by apply zlen_nonneg.
      destruct (slen sub =? 0) eqn:E2.
      * rewrite (slen_nil sub) by lia.
        pose proof (counts_empty_max (sdata l) stop (lower_bound (slen l) start) HL) as HC.
        fold (slen l) in HC. eexists. split; [|exact HC].
        destruct (slen l <? lower_bound (slen l) start) eqn:E3; [lia|].
        f_equal. match goal with |- context [0 <=? ?e] => destruct (0 <=? e) eqn:E4 end; lia.
      * destruct (no_room l sub (lower_bound (slen l) start)
                    (upper_bound (slen l) stop - (slen sub - 1))) eqn:E3.
        -- exists 0. split; [reflexivity|]. apply None_at. unfold no_room in E3. lia.
        -- rewrite scount_loop_gcount.
           destruct (gcount_spec (sdata l) (sdata sub) stop (slen sub) (test_at l sub)
             ltac:(unfold slen in *; lia)
             (S (Z.to_nat (upper_bound (slen l) stop - (slen sub - 1)
                           - lower_bound (slen l) start)))
             (lower_bound (slen l) start) 0) as (n & Hn & Hc).
           ++ exact HL.
           ++ fold (slen l) (slen sub). intros j Hj. apply test_at_ok; lia.
           ++ fold (slen l) (slen sub). lia.
           ++ exists n. split; [|exact Hc]. fold (slen l) (slen sub) in Hn.
              replace (upper_bound (slen l) stop - (slen sub - 1))
                with (upper_bound (slen l) stop - slen sub + 1) in * by lia. exact Hn.
Qed.

Theorem str_contains_ok : forall x sub,
  exists b, str_contains x sub = Ok b /\ (b = true <-> contains (sdata x) (sdata sub)).
Proof.
  intros x sub. destruct (str_find_ok x sub None None) as (r & Hr & H).
  unfold str_contains. unfold with_bounds in Hr. rewrite Hr. cbn [bind].
  eexists. split; [reflexivity|]. rewrite <- (contains_find _ _ _ H). lia.
Qed.

(** ** Slices and equality *)

Lemma array_compare_eqb : forall l r, length l = length r ->
  (array_compare (Nat.min (length l) (length r)) l r =? 0) = eqb_list l r.
Proof.
  induction l as [|a l IH]; destruct r as [|b r]; cbn [length]; intro H; try lia; [reflexivity|].
  cbn [Nat.min array_compare eqb_list].
  destruct (a <? b) eqn:E1; [cbn; destruct (a =? b) eqn:E2; [lia|reflexivity]|].
  destruct (b <? a) eqn:E2; [cbn; destruct (a =? b) eqn:E3; [lia|reflexivity]|].
  replace (a =? b) with true by lia. cbn [andb]. apply IH. lia.
Qed.

Lemma eqb_list_length : forall a b, eqb_list a b = true -> length a = length b.
Proof. intros a b H. apply eqb_list_eq in H. congruence. Qed.

Lemma str_eq_data : forall x y, sdata y <> [] -> str_eq x y = eqb_list (sdata x) (sdata y).
Proof.
  intros [l|] [r|] H; cbn [sdata str_eq] in *; try (now destruct H).
  - destruct (zlen (codepoints l) =? zlen (codepoints r)) eqn:E; cbn [negb].
    + apply array_compare_eqb. unfold zlen in E. lia.
    + destruct (eqb_list (codepoints l) (codepoints r)) eqn:E2; [|reflexivity].
      apply eqb_list_length in E2. unfold zlen in E. lia.
  - now destruct (codepoints r).
Qed.

Lemma getsubstr_data : forall x a b, 0 <= a <= b ->
  sdata (getsubstr x a b) = sub_list (sdata x) a b.
Proof.
  intros [l|] a b H; cbn [getsubstr sdata].
  - replace (a <? 0) with false by lia. replace (b <? 0) with false by lia.
    replace (b <? a) with false by lia. cbn [orb].
    set (n := zlen (codepoints l)). assert (Hn : n = zlen (codepoints l)) by reflexivity.
    pose proof (zlen_nonneg (codepoints l)).
    destruct (n <? a) eqn:E.
    + replace (n <? 0) with false by lia. cbn. unfold sub_list.
      rewrite skipn_all2 by (unfold zlen in *; lia). now rewrite firstn_nil.
    + destruct (n <? b) eqn:E1.
      * destruct (n <=? a) eqn:E2.
        -- unfold sub_list. rewrite skipn_all2 by (unfold zlen in *; lia). now rewrite firstn_nil.
        -- cbn [sdata codepoints]. unfold sub_list.
           rewrite !firstn_all2; [reflexivity| |]; rewrite skipn_length; unfold zlen in *; lia.
      * destruct (b <=? a) eqn:E2; [|reflexivity].
        unfold sub_list. replace (Z.to_nat (b - a)) with 0%nat by lia. reflexivity.
  - unfold sub_list. now rewrite skipn_nil, firstn_nil.
Qed.

Lemma slice_eq_standsb : forall s p a,
  0 <= a -> sdata p <> [] ->
  str_eq (getsubstr s a (a + slen p)) p = standsb (sdata s) (sdata p) a.
Proof.
  intros s p a H Hp. rewrite str_eq_data by exact Hp.
  rewrite getsubstr_data by (unfold slen, zlen; lia).
  unfold sub_list, standsb. do 2 f_equal. unfold slen, zlen. lia.
Qed.

Lemma standsb_long : forall x p a,
  0 <= a -> p <> [] -> zlen x < a + zlen p -> standsb x p a = false.
Proof.
  intros x p a Ha Hp H. destruct (standsb x p a) eqn:E; [|reflexivity].
  apply eqb_list_length in E. rewrite firstn_length, skipn_length in E.
  assert (length p <> 0%nat) by (destruct p; [now destruct Hp|discriminate]).
  unfold zlen in H. lia.
Qed.

Lemma slen_pos : forall s, sdata s <> [] -> 0 < slen s.
Proof.
  intros s H. unfold slen, zlen. destruct (sdata s); [now destruct H|cbn; lia].
Qed.

Theorem str_startswith_ok : forall s p start stop,
  (start = None -> stop = None) ->
  (str_startswith_call s p start stop = true <-> starts_with (sdata s) (sdata p) start stop).
Proof.
  intros s p start stop Hs. unfold starts_with. rewrite match_within_iff. fold (zlen (sdata s)).
  fold (slen s) (slen p). pose proof (zlen_nonneg (sdata s)) as Hn. fold (slen s) in Hn.
  unfold str_startswith_call. destruct start as [v|].
  - name_bounds (sdata s) (slen s) (Some v) stop lo hi HL HU.
    unfold str_range_startswith. cbv zeta. cbn [start_arg].
    rewrite (sadjust_lower (slen s) v) by exact Hn.
    pose proof (sadjust_upper (slen s) (stop_arg (slen s) stop) Hn) as HA.
    rewrite upper_arg in HA by exact Hn.
    set (w := sadjust (slen s) (stop_arg (slen s) stop)) in *.
    destruct (slen s <? v) eqn:E.
    { split; [discriminate|]. cbn [lower_bound]. unfold slen, zlen in *.
      destruct (v <? 0) eqn:E2; lia. }
    assert (Hlo : lower_bound (slen s) (Some v) <= slen s).
    { cbn. destruct (v <? 0) eqn:E2; lia. }
    set (lo := lower_bound (slen s) (Some v)) in *. set (hi := upper_bound (slen s) stop) in *.
    destruct (slen p =? 0) eqn:E1.
    + rewrite (slen_nil p) by lia. rewrite standsb_nil.
      destruct (slen s <? w) eqn:E3; lia.
    + assert (Hp : sdata p <> []) by (intro K; unfold slen, zlen in E1; rewrite K in E1; discriminate).
      destruct (w <? lo + slen p) eqn:E2.
      * split; [discriminate|]. destruct (slen s <? w) eqn:E3; lia.
      * rewrite slice_eq_standsb by assumption.
        split; [|tauto]. intro H. split; [|exact H].
        destruct (Z_lt_le_dec (slen s) (lo + slen p)) as [L|L].
        { rewrite standsb_long in H; [discriminate|lia|exact Hp|exact L]. }
        destruct (slen s <? w) eqn:E3; lia.
  - rewrite (Hs eq_refl). cbn [lower_bound upper_bound]. unfold str_startswith.
    destruct (slen p =? 0) eqn:E1.
    + rewrite (slen_nil p) by lia. rewrite standsb_nil. lia.
    + assert (Hp : sdata p <> []) by (intro K; unfold slen, zlen in E1; rewrite K in E1; discriminate).
      pose proof (slice_eq_standsb s p 0 ltac:(lia) Hp) as HS. cbn [Z.add] in HS. rewrite HS.
      split; [|tauto]. intro H. split; [|exact H].
      destruct (Z_lt_le_dec (slen s) (0 + slen p)) as [L|L]; [|lia].
      rewrite standsb_long in H; [discriminate|lia|exact Hp|exact L].
Qed.

Theorem str_endswith_ok : forall s p start stop,
  (start = None -> stop = None) ->
  (str_endswith_call s p start stop = true <-> ends_with (sdata s) (sdata p) start stop).
Proof.
  intros s p start stop Hs. unfold ends_with. rewrite match_within_iff.
  fold (zlen (sdata s)) (zlen (sdata p)).
  fold (slen s) (slen p). pose proof (zlen_nonneg (sdata s)) as Hn. fold (slen s) in Hn.
  unfold str_endswith_call. destruct start as [v|].
  - name_bounds (sdata s) (slen s) (Some v) stop lo hi HL HU.
    unfold str_range_endswith. cbv zeta. cbn [start_arg].
    rewrite (sadjust_lower (slen s) v) by exact Hn.
    replace (sadjust (slen s) (if slen s <? stop_arg (slen s) stop then slen s
                               else stop_arg (slen s) stop))
      with (upper_bound (slen s) stop).
    2:{ rewrite <- (upper_arg (slen s) stop Hn). unfold sadjust, upper_bound.
        destruct (slen s <? stop_arg (slen s) stop) eqn:E1;
          [destruct (slen s <? 0) eqn:E2; destruct (stop_arg (slen s) stop <? 0) eqn:E3; lia|].
        destruct (stop_arg (slen s) stop <? 0) eqn:E3; [|lia].
        destruct (stop_arg (slen s) stop + slen s <? 0) eqn:E4; lia. }
    destruct (slen s <? v) eqn:E.
    { split; [discriminate|]. pose proof (zlen_nonneg (sdata p)) as Hp. fold (slen p) in Hp.
      cbn [lower_bound]. destruct (v <? 0) eqn:E2; lia. }
    set (lo := lower_bound (slen s) (Some v)) in *. set (hi := upper_bound (slen s) stop) in *.
    destruct (slen p =? 0) eqn:E1.
    + rewrite (slen_nil p) by lia. rewrite standsb_nil. lia.
    + assert (Hp : sdata p <> []) by (intro K; unfold slen, zlen in E1; rewrite K in E1; discriminate).
      destruct (hi - slen p <? lo) eqn:E2; [split; [discriminate|lia]|].
      pose proof (slice_eq_standsb s p (hi - slen p) ltac:(lia) Hp) as HS.
      rewrite Z.sub_add in HS. rewrite HS. split; [|tauto]. intro H. split; [lia|exact H].
  - rewrite (Hs eq_refl). cbn [lower_bound upper_bound]. unfold str_endswith.
    destruct (slen p =? 0) eqn:E1.
    + rewrite (slen_nil p) by lia. rewrite standsb_nil. lia.
    + assert (Hp : sdata p <> []) by (intro K; unfold slen, zlen in E1; rewrite K in E1; discriminate).
      pose proof (slen_pos p Hp) as Hpos.
      destruct (Z_lt_le_dec (slen s) (slen p)) as [L|L].
      * split; [|lia]. intro H. exfalso. rewrite str_eq_data in H by exact Hp.
        apply eqb_list_length in H. unfold getsubstr in H. destruct s as [l|]; cbn [sdata] in *.
        -- unfold slen, zlen in *. cbn [sdata] in *.
           replace (- Z.of_nat (length (sdata p)) <? 0) with true in H by lia.
           replace (Z.of_nat (length (codepoints l)) <? 0) with false in H by lia.
           replace (- Z.of_nat (length (sdata p)) + Z.of_nat (length (codepoints l)) <? 0)
             with true in H by lia.
           replace ((Z.of_nat (length (codepoints l)) <? 0) || (Z.of_nat (length (codepoints l)) <? 0))
             with false in H by lia.
           rewrite Z.ltb_irrefl in H.
           destruct (Z.of_nat (length (codepoints l)) <=? 0); cbn [sdata codepoints] in H;
             [cbn [length] in H; lia|].
           unfold sub_list in H. rewrite firstn_length, skipn_length in H. lia.
        -- cbn [length] in H. unfold slen, zlen in Hpos. lia.
      * replace (getsubstr s (- slen p) (slen s))
          with (getsubstr s (slen s - slen p) (slen s - slen p + slen p)).
        2:{ unfold getsubstr. destruct s as [l|]; [|reflexivity].
            unfold slen, zlen in *. cbn [sdata] in *.
            replace (- Z.of_nat (length (sdata p)) <? 0) with true by lia.
            replace (- Z.of_nat (length (sdata p)) + Z.of_nat (length (codepoints l)) <? 0)
              with false by lia.
            replace (Z.of_nat (length (codepoints l)) - Z.of_nat (length (sdata p)) <? 0)
              with false by lia.
            rewrite Z.sub_add.
            now replace (- Z.of_nat (length (sdata p)) + Z.of_nat (length (codepoints l)))
              with (Z.of_nat (length (codepoints l)) - Z.of_nat (length (sdata p))) by lia. }
        rewrite slice_eq_standsb by (assumption || lia).
        split; [|tauto]. intro H. split; [lia|exact H].
Qed.

(** The specification of [find] and [rfind] determines the answer. *)
Lemma finds_first_unique : forall x sub start stop r r',
  finds_first x sub start stop r -> finds_first x sub start stop r' -> r = r'.
Proof.
  intros x sub start stop r r' [[H1 H2]|[H1 H2]] [[H3 H4]|[H3 H4]].
  - apply Z.le_antisymm; auto.
  - now destruct (H4 r).
  - now destruct (H2 r').
  - congruence.
Qed.

Lemma finds_last_unique : forall x sub start stop r r',
  finds_last x sub start stop r -> finds_last x sub start stop r' -> r = r'.
Proof.
  intros x sub start stop r r' [[H1 H2]|[H1 H2]] [[H3 H4]|[H3 H4]].
  - apply Z.le_antisymm; auto.
  - now destruct (H4 r).
  - now destruct (H2 r').
  - congruence.
Qed.
