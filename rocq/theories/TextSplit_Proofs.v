(** Proofs about splitting and joining text. *)
From Coq Require Import List ZArith Bool Lia ZifyBool ZifyNat.
From Verif Require Import Base PyList Text_Model TextSearch_Model TextSearch_Spec
  TextSearch_Proofs TextSplit_Model TextSplit_Spec.
Import ListNotations.
Open Scope Z_scope.
Open Scope result_scope.

(** ** Prefixes and suffixes *)

Definition drop (c : Z) (x : list Z) : list Z := skipn (Z.to_nat c) x.
Definition take (e : Z) (x : list Z) : list Z := firstn (Z.to_nat e) x.

Lemma drop_zlen : forall x c, 0 <= c <= zlen x -> zlen (drop c x) = zlen x - c.
Proof. intros x c H. unfold drop, zlen in *. rewrite skipn_length. lia. Qed.

Lemma take_zlen : forall x e, 0 <= e <= zlen x -> zlen (take e x) = e.
Proof. intros x e H. unfold take, zlen in *. rewrite firstn_length. lia. Qed.

Lemma take_drop : forall x c, x = take c x ++ drop c x.
Proof. intros. symmetry. apply firstn_skipn. Qed.

Lemma drop_0 : forall x, drop 0 x = x.
Proof. reflexivity. Qed.

Lemma drop_all : forall x c, zlen x <= c -> drop c x = [].
Proof. intros x c H. unfold drop. apply skipn_all2. unfold zlen in H. lia. Qed.

Lemma take_all : forall x e, zlen x <= e -> take e x = x.
Proof. intros x e H. unfold take. apply firstn_all2. unfold zlen in H. lia. Qed.

Lemma take_0 : forall x e, e <= 0 -> take e x = [].
Proof. intros x e H. unfold take. now replace (Z.to_nat e) with 0%nat by lia. Qed.

Lemma sub_list_zlen : forall (x : list Z) a b, 0 <= a <= b -> b <= zlen x -> zlen (sub_list x a b) = b - a.
Proof.
  intros x a b H1 H2. unfold sub_list, zlen in *. rewrite firstn_length, skipn_length. lia.
Qed.

Lemma sub_list_drop : forall (x : list Z) a, sub_list x a (zlen x) = drop a x.
Proof.
  intros x a. unfold sub_list, drop. apply firstn_all2. rewrite skipn_length. unfold zlen. lia.
Qed.

Lemma sub_list_take : forall x e, sub_list x 0 e = take e x.
Proof. intros. unfold sub_list, take. rewrite Z.sub_0_r. reflexivity. Qed.

Lemma skipn_skipn : forall {A} (n m : nat) (l : list A), skipn n (skipn m l) = skipn (n + m) l.
Proof.
  intros A n m. revert n. induction m as [|m IH]; intros n l; [now rewrite Nat.add_0_r|].
  destruct l as [|a l]; [now rewrite !skipn_nil|].
  rewrite Nat.add_succ_r. cbn. apply IH.
Qed.

Lemma drop_sub : forall x a b, 0 <= a <= b -> drop a x = sub_list x a b ++ drop b x.
Proof.
  intros x a b H. unfold sub_list, drop.
  transitivity (firstn (Z.to_nat (b - a)) (skipn (Z.to_nat a) x) ++
                skipn (Z.to_nat (b - a)) (skipn (Z.to_nat a) x)).
  { symmetry. apply firstn_skipn. }
  f_equal. rewrite skipn_skipn. f_equal. lia.
Qed.

Lemma take_sub : forall x a b, 0 <= a <= b -> take b x = take a x ++ sub_list x a b.
Proof.
  intros x a b H. unfold take, sub_list.
  replace (Z.to_nat b) with (Z.to_nat a + Z.to_nat (b - a))%nat by lia.
  rewrite <- (firstn_skipn (Z.to_nat a) x) at 1. rewrite firstn_app.
  assert (L : length (firstn (Z.to_nat a) x) = Nat.min (Z.to_nat a) (length x))
    by apply firstn_length.
  rewrite firstn_all2 by (rewrite L; lia). f_equal.
  rewrite L. destruct (Nat.le_gt_cases (Z.to_nat a) (length x)) as [K|K].
  - f_equal. lia.
  - rewrite skipn_all2 by lia. now rewrite !firstn_nil.
Qed.

Lemma drop_cons : forall x c, 0 <= c < zlen x -> drop c x = nth (Z.to_nat c) x 0 :: drop (c + 1) x.
Proof.
  intros x c H. unfold drop. rewrite (skipn_nth x) by (unfold zlen in H; lia).
  now replace (Z.to_nat (c + 1)) with (S (Z.to_nat c)) by lia.
Qed.

Lemma take_snoc : forall x e, 0 <= e < zlen x ->
  take (e + 1) x = take e x ++ [nth (Z.to_nat e) x 0].
Proof.
  intros x e H. rewrite (take_sub x e (e + 1)) by lia. f_equal. unfold sub_list.
  replace (Z.to_nat (e + 1 - e)) with 1%nat by lia.
  rewrite (skipn_nth x) by (unfold zlen in H; lia). reflexivity.
Qed.

Lemma stands_sub : forall x s m, 0 <= m -> m + zlen s <= zlen x ->
  (stands_at x s m <-> sub_list x m (m + zlen s) = s).
Proof.
  intros x s m H1 H2. rewrite <- standsb_spec by assumption. unfold standsb, sub_list.
  rewrite eqb_list_eq. replace (Z.to_nat (m + zlen s - m)) with (length s) by (unfold zlen; lia).
  reflexivity.
Qed.

Lemma stands_drop : forall x s c i, 0 <= c <= zlen x ->
  (stands_at (drop c x) s i <-> 0 <= i /\ stands_at x s (c + i)).
Proof.
  intros x s c i H. split.
  - intro K. pose proof (stands_at_bounds _ _ _ K) as [B1 B2]. split; [exact B1|].
    destruct K as (a & b & E & L). exists (take c x ++ a), b. split.
    + rewrite <- app_assoc, <- E. apply take_drop.
    + rewrite app_length. pose proof (take_zlen x c H) as T. unfold zlen in T. lia.
  - intros [Hi K]. pose proof (stands_at_bounds _ _ _ K) as [B1 B2].
    apply standsb_spec; [lia|rewrite drop_zlen by exact H; lia|].
    apply standsb_spec in K; [|lia|lia]. unfold standsb, drop in *.
    rewrite skipn_skipn. replace (Z.to_nat i + Z.to_nat c)%nat with (Z.to_nat (c + i)) by lia.
    exact K.
Qed.

Lemma stands_take : forall x s e i, 0 <= e <= zlen x ->
  (stands_at (take e x) s i <-> stands_at x s i /\ i + zlen s <= e).
Proof.
  intros x s e i H. split.
  - intro K. pose proof (stands_at_bounds _ _ _ K) as [B1 B2]. rewrite take_zlen in B2 by exact H.
    split; [|exact B2]. destruct K as (a & b & E & L). exists a, (b ++ drop e x). split; [|exact L].
    transitivity (take e x ++ drop e x); [apply take_drop|]. rewrite E. now rewrite <- !app_assoc.
  - intros [K Hb]. pose proof (stands_at_bounds _ _ _ K) as [B1 B2].
    apply standsb_spec; [lia|rewrite take_zlen by exact H; lia|].
    apply standsb_spec in K; [|lia|lia]. unfold standsb, take in *.
    rewrite skipn_firstn_comm, firstn_firstn.
    replace (Nat.min (length s) (Z.to_nat e - Z.to_nat i)) with (length s) by (unfold zlen in *; lia).
    exact K.
Qed.

(** ** The next and the previous separator *)

Definition next_sep (x s : list Z) (cur r : Z) : Prop :=
  cur <= r /\ stands_at x s r /\ forall j, cur <= j -> stands_at x s j -> r <= j.
Definition no_sep (x s : list Z) (cur : Z) : Prop := forall j, cur <= j -> ~ stands_at x s j.

(** [r] is the position of the last element of the separator *)
Definition prev_sep (x s : list Z) (cur r : Z) : Prop :=
  r <= cur /\ stands_at x s (r - zlen s + 1) /\
  forall j, j + zlen s <= cur + 1 -> stands_at x s j -> j <= r - zlen s + 1.
Definition no_sep_before (x s : list Z) (cur : Z) : Prop :=
  forall j, j + zlen s <= cur + 1 -> ~ stands_at x s j.

Lemma next_sep_split : forall x s cur r k rest,
  0 <= cur -> k <> 0 -> next_sep x s cur r ->
  splits s (spend k) (drop (r + zlen s) x) rest ->
  splits s k (drop cur x) (sub_list x cur r :: rest).
Proof.
  intros x s cur r k rest Hc Hk (H1 & H2 & H3) Hr.
  pose proof (stands_at_bounds _ _ _ H2) as [B1 B2]. pose proof (zlen_nonneg s) as Hs.
  apply splits_next with (b := drop (r + zlen s) x).
  - exact Hk.
  - rewrite (drop_sub x cur r) by lia. f_equal. rewrite (drop_sub x r (r + zlen s)) by lia.
    f_equal. now apply stands_sub.
  - intros i Hi. fold (zlen (sub_list x cur r)). rewrite sub_list_zlen by lia.
    apply stands_drop in Hi; [|lia]. destruct Hi as [Hi1 Hi2].
    specialize (H3 (cur + i) ltac:(lia) Hi2). lia.
  - exact Hr.
Qed.

Lemma no_sep_split : forall x s cur k,
  0 <= cur <= zlen x -> no_sep x s cur -> splits s k (drop cur x) [drop cur x].
Proof.
  intros x s cur k Hc H. apply splits_done. right. intros [i Hi].
  apply stands_drop in Hi; [|exact Hc]. apply (H (cur + i)); [lia|tauto].
Qed.

Lemma prev_sep_split : forall x s cur r k rest,
  cur < zlen x -> k <> 0 -> prev_sep x s cur r ->
  rsplits s (spend k) (take (r - zlen s + 1) x) rest ->
  rsplits s k (take (cur + 1) x) (rest ++ [sub_list x (r + 1) (cur + 1)]).
Proof.
  intros x s cur r k rest Hc Hk (H1 & H2 & H3) Hr.
  pose proof (stands_at_bounds _ _ _ H2) as [B1 B2]. pose proof (zlen_nonneg s) as Hs.
  apply rsplits_next with (a := take (r - zlen s + 1) x).
  - exact Hk.
  - rewrite (take_sub x (r - zlen s + 1) (cur + 1)) by lia. f_equal.
    rewrite <- (proj1 (stands_sub x s (r - zlen s + 1) B1 B2) H2) at 2.
    replace (r - zlen s + 1 + zlen s) with (r + 1) by lia.
    unfold sub_list.
    replace (Z.to_nat (cur + 1 - (r - zlen s + 1)))
      with (Z.to_nat (r + 1 - (r - zlen s + 1)) + Z.to_nat (cur + 1 - (r + 1)))%nat by lia.
    generalize (Z.to_nat (cur + 1 - (r + 1))) as q. intro q.
    set (p := Z.to_nat (r + 1 - (r - zlen s + 1))).
    replace (Z.to_nat (r + 1)) with (p + Z.to_nat (r - zlen s + 1))%nat by lia.
    rewrite <- skipn_skipn. generalize (skipn (Z.to_nat (r - zlen s + 1)) x) as y.
    intro y. revert y. generalize p. clear. induction p as [|p IH]; intros y; [reflexivity|].
    destruct y as [|c y]; cbn; [now rewrite firstn_nil|]. f_equal. apply IH.
  - intros i Hi. fold (zlen (take (r - zlen s + 1) x)). rewrite take_zlen by lia.
    apply stands_take in Hi; [|lia]. destruct Hi as [Hi1 Hi2]. now apply H3.
  - exact Hr.
Qed.

Lemma no_sep_rsplit : forall x s cur k,
  -1 <= cur < zlen x -> no_sep_before x s cur -> rsplits s k (take (cur + 1) x) [take (cur + 1) x].
Proof.
  intros x s cur k Hc H. apply rsplits_done. right. intros [i Hi].
  apply stands_take in Hi; [|lia]. apply (H i); tauto.
Qed.

(** ** Scans *)

Lemma scan_up_spec : forall fuel test P m limit,
  (forall j, m <= j < limit -> test j = Ok (P j)) ->
  (Z.to_nat (limit - m) < fuel)%nat ->
  exists r, scan_up fuel test m limit = Ok r /\ m <= r <= Z.max m limit /\
    (r < limit -> P r = true) /\ forall j, m <= j < r -> P j = false.
Proof.
  induction fuel as [|fuel IH]; intros test P m limit Ht Hf; [lia|]. cbn [scan_up].
  destruct (m <? limit) eqn:E.
  - rewrite Ht by lia. cbn [bind]. destruct (P m) eqn:EP.
    + exists m. split; [reflexivity|]. split; [lia|]. split; [auto|lia].
    + destruct (IH test P (m + 1) limit) as (r & Hr & H1 & H2 & H3);
        [intros; apply Ht; lia|lia|].
      exists r. split; [exact Hr|]. split; [lia|]. split; [exact H2|].
      intros j Hj. destruct (Z.eq_dec j m); [congruence|apply H3; lia].
  - exists m. split; [reflexivity|]. split; [lia|]. split; lia.
Qed.

Lemma scan_down_spec : forall fuel test P m limit,
  (forall j, limit <= j <= m -> test j = Ok (P j)) ->
  (Z.to_nat (m - limit + 1) < fuel)%nat ->
  exists r, scan_down fuel test m limit = Ok r /\ Z.min m (limit - 1) <= r <= m /\
    (limit <= r -> P r = true) /\ forall j, r < j <= m -> P j = false.
Proof.
  induction fuel as [|fuel IH]; intros test P m limit Ht Hf; [lia|]. cbn [scan_down].
  destruct (limit <=? m) eqn:E.
  - rewrite Ht by lia. cbn [bind]. destruct (P m) eqn:EP.
    + exists m. split; [reflexivity|]. split; [lia|]. split; [auto|lia].
    + destruct (IH test P (m - 1) limit) as (r & Hr & H1 & H2 & H3);
        [intros; apply Ht; lia|lia|].
      exists r. split; [exact Hr|]. split; [lia|]. split; [exact H2|].
      intros j Hj. destruct (Z.eq_dec j m); [congruence|apply H3; lia].
  - exists m. split; [reflexivity|]. split; [lia|]. split; lia.
Qed.

Lemma byte_test_ok : forall d p i, 0 <= i < zlen d ->
  byte_test d p i = Ok (p (nth (Z.to_nat i) d 0)).
Proof. intros d p i H. unfold byte_test. now rewrite cread_nth. Qed.

Lemma same_list_eqb : forall a b, same_list a b = eqb_list a b.
Proof. induction a as [|x a IH]; destruct b as [|y b]; cbn; try reflexivity; now rewrite IH. Qed.

Lemma mem_equal_ok : forall d s i, 0 <= i -> i + zlen s <= zlen d ->
  mem_equal d s i = Ok (standsb d s i).
Proof.
  intros d s i H1 H2. unfold mem_equal.
  replace ((0 <=? i) && (i + zlen s <=? zlen d)) with true by lia.
  rewrite same_list_eqb. unfold standsb, sub_list. do 3 f_equal. unfold zlen. lia.
Qed.

Lemma standsb_false : forall x s i,
  0 <= i -> i + zlen s <= zlen x -> standsb x s i = false -> ~ stands_at x s i.
Proof. intros x s i H1 H2 H3 K. apply standsb_spec in K; congruence. Qed.

(** The results of a scan over [standsb], read as a next or a previous separator *)
Lemma next_sep_of_scan : forall x s cur r,
  0 <= cur -> cur <= r -> r + zlen s <= zlen x -> standsb x s r = true ->
  (forall j, cur <= j < r -> standsb x s j = false) -> next_sep x s cur r.
Proof.
  intros x s cur r H0 H1 H2 H3 H4. split; [exact H1|]. split; [apply standsb_spec; lia || exact H3|].
  intros j Hj K. destruct (Z_lt_le_dec j r) as [L|L]; [|exact L]. exfalso.
  pose proof (stands_at_bounds _ _ _ K) as [B1 B2].
  apply (standsb_false x s j B1 B2); [apply H4; lia|exact K].
Qed.

Lemma no_sep_of_scan : forall x s cur r,
  zlen x < r + zlen s -> (forall j, cur <= j < r -> standsb x s j = false) -> no_sep x s cur.
Proof.
  intros x s cur r H1 H2 j Hj K. pose proof (stands_at_bounds _ _ _ K) as [B1 B2].
  apply (standsb_false x s j B1 B2); [apply H2; lia|exact K].
Qed.

Lemma prev_sep_of_scan : forall x s cur r,
  r <= cur -> cur < zlen x -> 0 <= r - zlen s + 1 -> standsb x s (r - zlen s + 1) = true ->
  (forall j, r < j <= cur -> standsb x s (j - zlen s + 1) = false) -> prev_sep x s cur r.
Proof.
  intros x s cur r H1 Hc H2 H3 H4. split; [exact H1|].
  split; [apply standsb_spec; lia || exact H3|].
  intros j Hj K. destruct (Z_lt_le_dec (r - zlen s + 1) j) as [L|L]; [|exact L]. exfalso.
  pose proof (stands_at_bounds _ _ _ K) as [B1 B2].
  apply (standsb_false x s j B1 B2); [|exact K].
  replace j with (j + zlen s - 1 - zlen s + 1) by lia. apply H4. lia.
Qed.

Lemma no_sep_before_of_scan : forall x s cur r,
  r - zlen s + 1 < 0 -> (forall j, r < j <= cur -> standsb x s (j - zlen s + 1) = false) ->
  no_sep_before x s cur.
Proof.
  intros x s cur r H1 H2 j Hj K. pose proof (stands_at_bounds _ _ _ K) as [B1 B2].
  apply (standsb_false x s j B1 B2); [|exact K].
  replace j with (j + zlen s - 1 - zlen s + 1) by lia. apply H2. lia.
Qed.

(** What is left of the limit *)
Definition left_of (max count : Z) : Z := if max <? 0 then max else max - count.

Lemma left_step : forall max count, left_of max count <> 0 -> 0 <= count ->
  max < 0 \/ count < max -> spend (left_of max count) = left_of max (count + 1).
Proof.
  intros max count H Hc K. unfold left_of, spend in *.
  destruct (max <? 0) eqn:E; [rewrite E; reflexivity|].
  destruct (max - count <? 0) eqn:E2; lia.
Qed.

Lemma left_nonzero : forall max count, max < 0 \/ count < max -> left_of max count <> 0.
Proof. intros max count H. unfold left_of. destruct (max <? 0) eqn:E; lia. Qed.

Lemma left_done : forall max count, 0 <= max -> max = count -> left_of max count = 0.
Proof. intros max count H H1. unfold left_of. destruct (max <? 0) eqn:E; lia. Qed.

(** ** The loops, for bytes and str alike *)

Section Loops.
  Context {A : Type}.
  Variables (x : list Z) (dat : A -> list Z) (piece : Z -> Z -> A).
  Hypothesis piece_ok : forall a b, 0 <= a <= b -> dat (piece a b) = sub_list x a b.
  Variables (w max : Z) (always : bool).

  Fixpoint gsplit (fuel : nat) (mat : Z -> result (option Z)) (cur count : Z) (out : list A)
      : result (Z * list A) :=
    match fuel with
    | O => Err OutOfFuel
    | S fuel =>
        if cur <? zlen x then
          r <- mat cur ;;
          match r with
          | None => Ok (cur, out)
          | Some m =>
              if always || negb (m =? cur) then
                if (0 <=? max) && (max <=? count + 1) then Ok (m + w, out ++ [piece cur m])
                else gsplit fuel mat (m + w) (count + 1) (out ++ [piece cur m])
              else gsplit fuel mat (cur + 1) count out
          end
        else Ok (cur, out)
    end.

  Fixpoint grsplit (fuel : nat) (mat : Z -> result (option Z)) (cur count : Z) (out : list A)
      : result (Z * list A) :=
    match fuel with
    | O => Err OutOfFuel
    | S fuel =>
        if 0 <=? cur then
          r <- mat cur ;;
          match r with
          | None => Ok (cur, out)
          | Some m =>
              if always || negb (m =? cur) then
                if (0 <=? max) && (max <=? count + 1)
                then Ok (m - w, out ++ [piece (m + 1) (cur + 1)])
                else grsplit fuel mat (m - w) (count + 1) (out ++ [piece (m + 1) (cur + 1)])
              else grsplit fuel mat (cur - 1) count out
          end
        else Ok (cur, out)
    end.

  Lemma gsplit_sep : forall s mat,
    w = zlen s -> always = true -> 0 < w ->
    (forall cur, 0 <= cur < zlen x -> exists r, mat cur = Ok r /\
       match r with Some m => next_sep x s cur m | None => no_sep x s cur end) ->
    forall fuel cur count out,
    0 <= cur <= zlen x -> 0 <= count -> max < 0 \/ count < max ->
    (Z.to_nat (zlen x - cur) < fuel)%nat ->
    exists cur' ps, gsplit fuel mat cur count out = Ok (cur', out ++ ps) /\
      0 <= cur' <= zlen x /\
      splits s (left_of max count) (drop cur x) (map dat ps ++ [drop cur' x]).
  Proof.
    intros s mat Hw Ha Hpos Hm. induction fuel as [|fuel IH]; intros cur count out Hc H0 Hk Hf;
      [lia|].
    cbn [gsplit]. rewrite Ha. cbn [orb]. destruct (cur <? zlen x) eqn:E.
    - destruct (Hm cur ltac:(lia)) as (r & Hr & H). rewrite Hr. cbn [bind].
      destruct r as [m|].
      + destruct H as (N1 & N2 & N3). pose proof (stands_at_bounds _ _ _ N2) as [B1 B2].
        assert (N : next_sep x s cur m) by (split; [exact N1|split; [exact N2|exact N3]]).
        pose proof (left_nonzero max count Hk) as HL.
        pose proof (left_step max count HL H0 Hk) as HS.
        destruct ((0 <=? max) && (max <=? count + 1)) eqn:E2.
        * exists (m + w), [piece cur m]. split; [reflexivity|]. split; [lia|].
          cbn [map app]. rewrite piece_ok by lia.
          apply next_sep_split; [lia|exact HL|exact N|]. rewrite HS, <- Hw.
          apply splits_done. left. apply left_done; lia.
        * destruct (IH (m + w) (count + 1) (out ++ [piece cur m])) as (c' & ps & G1 & G2 & G3);
            [lia|lia|lia|lia|].
          exists c', (piece cur m :: ps). rewrite G1. rewrite <- app_assoc. split; [reflexivity|].
          split; [exact G2|]. cbn [map app]. rewrite piece_ok by lia.
          apply next_sep_split; [lia|exact HL|exact N|]. rewrite HS, <- Hw. exact G3.
      + exists cur, []. rewrite app_nil_r. split; [reflexivity|]. split; [lia|].
        cbn [map app]. apply no_sep_split; [lia|exact H].
    - exists cur, []. rewrite app_nil_r. split; [reflexivity|]. split; [lia|].
      cbn [map app]. apply no_sep_split; [lia|]. intros j Hj K.
      pose proof (stands_at_bounds _ _ _ K). lia.
  Qed.

  Lemma grsplit_sep : forall s mat,
    w = zlen s -> always = true -> 0 < w ->
    (forall cur, 0 <= cur < zlen x -> exists r, mat cur = Ok r /\
       match r with Some m => prev_sep x s cur m | None => no_sep_before x s cur end) ->
    forall fuel cur count out,
    -1 <= cur < zlen x -> 0 <= count -> max < 0 \/ count < max ->
    (Z.to_nat (cur + 1) < fuel)%nat ->
    exists cur' ps, grsplit fuel mat cur count out = Ok (cur', out ++ ps) /\
      -1 <= cur' < zlen x /\
      rsplits s (left_of max count) (take (cur + 1) x) (take (cur' + 1) x :: rev (map dat ps)).
  Proof.
    intros s mat Hw Ha Hpos Hm. induction fuel as [|fuel IH]; intros cur count out Hc H0 Hk Hf;
      [lia|].
    cbn [grsplit]. rewrite Ha. cbn [orb]. destruct (0 <=? cur) eqn:E.
    - destruct (Hm cur ltac:(lia)) as (r & Hr & H). rewrite Hr. cbn [bind].
      destruct r as [m|].
      + destruct H as (N1 & N2 & N3). pose proof (stands_at_bounds _ _ _ N2) as [B1 B2].
        assert (N : prev_sep x s cur m) by (split; [exact N1|split; [exact N2|exact N3]]).
        pose proof (left_nonzero max count Hk) as HL.
        pose proof (left_step max count HL H0 Hk) as HS.
        destruct ((0 <=? max) && (max <=? count + 1)) eqn:E2.
        * exists (m - w), [piece (m + 1) (cur + 1)]. split; [reflexivity|]. split; [lia|].
          cbn [map rev app]. rewrite piece_ok by lia.
          change [take (m - w + 1) x; sub_list x (m + 1) (cur + 1)]
            with ([take (m - w + 1) x] ++ [sub_list x (m + 1) (cur + 1)]).
          apply prev_sep_split with (s := s); [lia|exact HL|exact N|].
          rewrite HS, <- Hw. apply rsplits_done. left.
          apply left_done; lia.
        * destruct (IH (m - w) (count + 1) (out ++ [piece (m + 1) (cur + 1)]))
            as (c' & ps & G1 & G2 & G3); [lia|lia|lia|lia|].
          exists c', (piece (m + 1) (cur + 1) :: ps). rewrite G1. rewrite <- app_assoc.
          split; [reflexivity|]. split; [exact G2|]. cbn [map rev]. rewrite piece_ok by lia.
          rewrite app_comm_cons.
          apply prev_sep_split with (s := s); [lia|exact HL|exact N|].
          rewrite HS, <- Hw. exact G3.
      + exists cur, []. rewrite app_nil_r. split; [reflexivity|]. split; [lia|].
        cbn [map rev]. apply no_sep_rsplit; [lia|exact H].
    - exists cur, []. rewrite app_nil_r. split; [reflexivity|]. split; [lia|].
      cbn [map rev]. apply no_sep_rsplit; [lia|]. intros j Hj K.
      pose proof (stands_at_bounds _ _ _ K). lia.
  Qed.
End Loops.

(** ** Words *)

Lemma sub_list_cons : forall (x : list Z) a b, 0 <= a < b -> b <= zlen x ->
  sub_list x a b = nth (Z.to_nat a) x 0 :: sub_list x (a + 1) b.
Proof.
  intros x a b H1 H2. unfold sub_list. rewrite (skipn_nth x) by (unfold zlen in H2; lia).
  replace (Z.to_nat (b - a)) with (S (Z.to_nat (b - (a + 1)))) by lia.
  replace (Z.to_nat (a + 1)) with (S (Z.to_nat a)) by lia. reflexivity.
Qed.

Lemma sub_list_nil : forall (x : list Z) a b, b <= a -> sub_list x a b = [].
Proof. intros x a b H. unfold sub_list. now replace (Z.to_nat (b - a)) with 0%nat by lia. Qed.

Lemma none_sub : forall (space : Z -> bool) x a b,
  0 <= a -> b <= zlen x -> (forall j, a <= j < b -> space (nth (Z.to_nat j) x 0) = false) ->
  none_is space (sub_list x a b).
Proof.
  intros space x a b Ha Hb. remember (Z.to_nat (b - a)) as k. revert a Ha Heqk.
  induction k as [|k IH]; intros a Ha Hk H.
  - rewrite sub_list_nil by lia. apply Forall_nil.
  - rewrite sub_list_cons by lia. apply Forall_cons; [apply H; lia|].
    apply IH; [lia|lia|]. intros; apply H; lia.
Qed.

Lemma sub_list_nonnil : forall (x : list Z) a b, 0 <= a < b -> b <= zlen x -> sub_list x a b <> [].
Proof. intros x a b H1 H2. rewrite sub_list_cons by assumption. discriminate. Qed.

Definition tail_piece (space : Z -> bool) (y : list Z) : list (list Z) :=
  filter nonempty [strip_left space y].
Definition head_piece (space : Z -> bool) (y : list Z) : list (list Z) :=
  filter nonempty [strip_right space y].

Lemma words_space : forall space k c x out,
  space c = true -> words space k x out -> words space k (c :: x) out.
Proof.
  intros space k c x out Hc H. inversion H as [k' x' Ha|s r Ha Hb|k' s w r rest Hk Ha Hw Hn Hr Hrest];
    subst.
  - apply words_none. now apply Forall_cons.
  - rewrite app_comm_cons. apply words_rest; [now apply Forall_cons|exact Hb].
  - rewrite app_comm_cons. apply words_next; auto. now apply Forall_cons.
Qed.

Lemma words_zero : forall space x, words space 0 x (tail_piece space x).
Proof.
  intros space x. induction x as [|c x IH].
  - apply words_none. apply Forall_nil.
  - unfold tail_piece in *. cbn [strip_left]. destruct (space c) eqn:E.
    + now apply words_space.
    + cbn [filter nonempty]. change (c :: x) with ([] ++ c :: x) at 1.
      apply words_rest; [apply Forall_nil|]. now exists c, x.
Qed.

Lemma strip_left_none : forall space y, none_is space y -> strip_left space y = y.
Proof. intros space y H. destruct H as [|c y Hc H]; cbn; [reflexivity|]. now rewrite Hc. Qed.

Lemma words_last : forall space k y, none_is space y -> k <> 0 ->
  words space k y (tail_piece space y).
Proof.
  intros space k y H Hk. unfold tail_piece. rewrite strip_left_none by exact H.
  destruct y as [|c y]; cbn [filter nonempty]; [apply words_none, Forall_nil|].
  replace (c :: y) with ([] ++ (c :: y) ++ []) at 1 by (cbn; now rewrite app_nil_r).
  apply words_next; [exact Hk|apply Forall_nil|discriminate|exact H|now left|].
  apply words_none, Forall_nil.
Qed.

Lemma rwords_space : forall space k c x out,
  space c = true -> rwords space k x out -> rwords space k (x ++ [c]) out.
Proof.
  intros space k c x out Hc H.
  assert (One : all_are space [c]) by (apply Forall_cons; [exact Hc|apply Forall_nil]).
  inversion H as [k' x' Ha|s r Ha Hb|k' s w r rest Hk Ha Hw Hn Hr Hrest]; subst.
  - apply rwords_none. apply Forall_app. now split.
  - rewrite <- app_assoc. apply rwords_rest; [apply Forall_app; now split|exact Hb].
  - rewrite <- !app_assoc. apply rwords_next; auto. apply Forall_app; now split.
Qed.

Lemma strip_right_snoc : forall space x c,
  strip_right space (x ++ [c]) = if space c then strip_right space x else x ++ [c].
Proof.
  intros space x c. unfold strip_right. rewrite rev_app_distr. cbn [rev app strip_left].
  destruct (space c); [reflexivity|]. cbn [rev]. now rewrite rev_involutive.
Qed.

Lemma rwords_zero : forall space x, rwords space 0 x (head_piece space x).
Proof.
  intros space x. induction x as [|c x IH] using rev_ind.
  - apply rwords_none. apply Forall_nil.
  - unfold head_piece in *. rewrite strip_right_snoc. destruct (space c) eqn:E.
    + now apply rwords_space.
    + replace (filter nonempty [x ++ [c]]) with [x ++ [c]] by (destruct x; reflexivity).
      rewrite <- (app_nil_r (x ++ [c])) at 1.
      apply rwords_rest; [apply Forall_nil|]. now exists x, c.
Qed.

Lemma none_is_rev : forall space y, none_is space y -> none_is space (rev y).
Proof. intros space y H. now apply Forall_rev. Qed.

Lemma strip_right_none : forall space y, none_is space y -> strip_right space y = y.
Proof.
  intros space y H. unfold strip_right. rewrite strip_left_none by now apply none_is_rev.
  apply rev_involutive.
Qed.

Lemma rwords_last : forall space k y, none_is space y -> k <> 0 ->
  rwords space k y (head_piece space y).
Proof.
  intros space k y H Hk. unfold head_piece. rewrite strip_right_none by exact H.
  destruct y as [|c y]; cbn [filter nonempty]; [apply rwords_none, Forall_nil|].
  replace (c :: y) with ([] ++ (c :: y) ++ []) at 1 by (cbn; now rewrite app_nil_r).
  change [c :: y] with ([] ++ [c :: y]).
  apply rwords_next; [exact Hk|apply Forall_nil|discriminate|exact H|now left|].
  apply rwords_none, Forall_nil.
Qed.

Definition is_word (space : Z -> bool) (y : list Z) : Prop := y <> [] /\ none_is space y.

Section WordLoops.
  Context {A : Type}.
  Variables (space : Z -> bool) (x : list Z) (dat : A -> list Z) (piece : Z -> Z -> A).
  Hypothesis piece_ok : forall a b, 0 <= a <= b -> dat (piece a b) = sub_list x a b.
  Variables (max : Z).
  Let sp (j : Z) : bool := space (nth (Z.to_nat j) x 0).

  Lemma gsplit_words : forall mat,
    (forall cur, 0 <= cur < zlen x -> exists r, mat cur = Ok r /\
       match r with
       | Some m => cur <= m < zlen x /\ sp m = true /\ forall j, cur <= j < m -> sp j = false
       | None => forall j, cur <= j < zlen x -> sp j = false
       end) ->
    forall fuel cur count out,
    0 <= cur <= zlen x -> 0 <= count -> max < 0 \/ count < max ->
    (Z.to_nat (zlen x - cur) < fuel)%nat ->
    exists cur' ps, gsplit x piece 1 max false fuel mat cur count out = Ok (cur', out ++ ps) /\
      0 <= cur' <= zlen x /\ Forall (is_word space) (map dat ps) /\
      (max < 0 -> none_is space (drop cur' x)) /\
      words space (left_of max count) (drop cur x)
        (map dat ps ++ tail_piece space (drop cur' x)).
  Proof.
    intros mat Hm. induction fuel as [|fuel IH]; intros cur count out Hc H0 Hk Hf; [lia|].
    pose proof (left_nonzero max count Hk) as HL.
    cbn [gsplit orb]. destruct (cur <? zlen x) eqn:E.
    - destruct (Hm cur ltac:(lia)) as (r & Hr & H). rewrite Hr. cbn [bind].
      destruct r as [m|].
      + destruct H as (N1 & N2 & N3).
        pose proof (left_step max count HL H0 Hk) as HS.
        destruct (m =? cur) eqn:E1; cbn [negb].
        * destruct (IH (cur + 1) count out) as (c' & ps & G1 & G2 & G3 & G4 & G5);
            [lia|lia|lia|lia|].
          exists c', ps. split; [exact G1|]. split; [exact G2|]. split; [exact G3|].
          split; [exact G4|]. rewrite (drop_cons x cur) by lia. apply words_space; [|exact G5].
          replace cur with m by lia. exact N2.
        * assert (W : is_word space (sub_list x cur m)).
          { split; [apply sub_list_nonnil; lia|]. apply none_sub; [lia|lia|exact N3]. }
          assert (Step : forall rest, words space (spend (left_of max count)) (drop (m + 1) x) rest ->
                   words space (left_of max count) (drop cur x) (sub_list x cur m :: rest)).
          { intros rest Hrest. rewrite (drop_sub x cur m) by lia.
            change (sub_list x cur m ++ drop m x) with ([] ++ sub_list x cur m ++ drop m x).
            apply words_next; [exact HL|apply Forall_nil|apply W|apply W| |].
            - right. rewrite (drop_cons x m) by lia. eexists _, _. split; [reflexivity|exact N2].
            - rewrite (drop_cons x m) by lia. now apply words_space. }
          destruct ((0 <=? max) && (max <=? count + 1)) eqn:E2.
          -- exists (m + 1), [piece cur m]. split; [reflexivity|]. split; [lia|].
             cbn [map app]. rewrite piece_ok by lia.
             split; [apply Forall_cons; [exact W|apply Forall_nil]|]. split; [lia|].
             apply Step. rewrite HS, left_done by lia. apply words_zero.
          -- destruct (IH (m + 1) (count + 1) (out ++ [piece cur m]))
               as (c' & ps & G1 & G2 & G3 & G4 & G5); [lia|lia|lia|lia|].
             exists c', (piece cur m :: ps). rewrite G1, <- app_assoc. split; [reflexivity|].
             split; [exact G2|]. cbn [map app]. rewrite piece_ok by lia.
             split; [now apply Forall_cons|]. split; [exact G4|].
             apply Step. rewrite HS. exact G5.
      + assert (N : none_is space (drop cur x)).
        { rewrite <- sub_list_drop. apply none_sub; [lia|lia|exact H]. }
        exists cur, []. rewrite app_nil_r. split; [reflexivity|]. split; [lia|].
        split; [apply Forall_nil|]. split; [now intros _|]. cbn [map app]. now apply words_last.
    - exists cur, []. rewrite app_nil_r. split; [reflexivity|]. split; [lia|].
      split; [apply Forall_nil|]. rewrite drop_all by lia. split; [intros _; apply Forall_nil|].
      cbn. apply words_none, Forall_nil.
  Qed.

  Lemma grsplit_words : forall mat,
    (forall cur, 0 <= cur < zlen x -> exists r, mat cur = Ok r /\
       match r with
       | Some m => 0 <= m <= cur /\ sp m = true /\ forall j, m < j <= cur -> sp j = false
       | None => forall j, 0 <= j <= cur -> sp j = false
       end) ->
    forall fuel cur count out,
    -1 <= cur < zlen x -> 0 <= count -> max < 0 \/ count < max ->
    (Z.to_nat (cur + 1) < fuel)%nat ->
    exists cur' ps, grsplit piece 1 max false fuel mat cur count out = Ok (cur', out ++ ps) /\
      -1 <= cur' < zlen x /\ Forall (is_word space) (map dat ps) /\
      (max < 0 -> none_is space (take (cur' + 1) x)) /\
      rwords space (left_of max count) (take (cur + 1) x)
        (head_piece space (take (cur' + 1) x) ++ rev (map dat ps)).
  Proof.
    intros mat Hm. induction fuel as [|fuel IH]; intros cur count out Hc H0 Hk Hf; [lia|].
    pose proof (left_nonzero max count Hk) as HL.
    cbn [grsplit orb]. destruct (0 <=? cur) eqn:E.
    - destruct (Hm cur ltac:(lia)) as (r & Hr & H). rewrite Hr. cbn [bind].
      destruct r as [m|].
      + destruct H as (N1 & N2 & N3).
        pose proof (left_step max count HL H0 Hk) as HS.
        destruct (m =? cur) eqn:E1; cbn [negb].
        * destruct (IH (cur - 1) count out) as (c' & ps & G1 & G2 & G3 & G4 & G5);
            [lia|lia|lia|lia|].
          exists c', ps. split; [exact G1|]. split; [exact G2|]. split; [exact G3|].
          split; [exact G4|]. rewrite (take_snoc x cur) by lia. apply rwords_space.
          { replace cur with m by lia. exact N2. }
          replace (cur - 1 + 1) with cur in G5 by lia. exact G5.
        * assert (W : is_word space (sub_list x (m + 1) (cur + 1))).
          { split; [apply sub_list_nonnil; lia|]. apply none_sub; [lia|lia|].
            intros j Hj. apply N3. lia. }
          assert (Step : forall rest, rwords space (spend (left_of max count)) (take m x) rest ->
                   rwords space (left_of max count) (take (cur + 1) x)
                     (rest ++ [sub_list x (m + 1) (cur + 1)])).
          { intros rest Hrest. rewrite (take_sub x (m + 1) (cur + 1)) by lia.
            replace (sub_list x (m + 1) (cur + 1)) with (sub_list x (m + 1) (cur + 1) ++ [])
              at 1 by apply app_nil_r.
            apply rwords_next; [exact HL|apply Forall_nil|apply W|apply W| |].
            - right. rewrite (take_snoc x m) by lia. eexists _, _. split; [reflexivity|exact N2].
            - rewrite (take_snoc x m) by lia. now apply rwords_space. }
          destruct ((0 <=? max) && (max <=? count + 1)) eqn:E2.
          -- exists (m - 1), [piece (m + 1) (cur + 1)]. split; [reflexivity|]. split; [lia|].
             cbn [map app rev]. rewrite piece_ok by lia.
             split; [apply Forall_cons; [exact W|apply Forall_nil]|]. split; [lia|].
             apply Step. rewrite HS, left_done by lia. rewrite Z.sub_add. apply rwords_zero.
          -- destruct (IH (m - 1) (count + 1) (out ++ [piece (m + 1) (cur + 1)]))
               as (c' & ps & G1 & G2 & G3 & G4 & G5); [lia|lia|lia|lia|].
             exists c', (piece (m + 1) (cur + 1) :: ps). rewrite G1, <- app_assoc.
             split; [reflexivity|]. split; [exact G2|]. cbn [map rev]. rewrite piece_ok by lia.
             split; [now apply Forall_cons|]. split; [exact G4|].
             rewrite app_assoc. apply Step. rewrite HS. rewrite Z.sub_add in G5. exact G5.
      + assert (N : none_is space (take (cur + 1) x)).
        { rewrite <- sub_list_take. apply none_sub; [lia|lia|]. intros j Hj. apply H. lia. }
        exists cur, []. rewrite app_nil_r. split; [reflexivity|]. split; [lia|].
        split; [apply Forall_nil|]. split; [now intros _|]. cbn [map rev]. rewrite app_nil_r.
        now apply rwords_last.
    - exists cur, []. rewrite app_nil_r. split; [reflexivity|]. split; [lia|].
      split; [apply Forall_nil|]. rewrite !take_0 by lia. split; [intros _; apply Forall_nil|].
      cbn. apply rwords_none, Forall_nil.
  Qed.
End WordLoops.
