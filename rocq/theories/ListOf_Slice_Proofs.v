(** The positions a slice visits, as the code computes them and as the Python reference describes them. *)
From Coq Require Import Sorted.
From Verif Require Import Base PyList ListOf_Model ListOf_Spec.
From Coq Require Import ZifyBool ZifyNat.
Open Scope Z_scope.

Ltac ifs := repeat match goal with |- context [if ?b then _ else _] => destruct b eqn:? end.

Lemma sorted_same {A} (R : A -> A -> Prop) :
  (forall x y, R x y -> R y x -> False) ->
  forall l1 l2, StronglySorted R l1 -> StronglySorted R l2 -> (forall x, In x l1 <-> In x l2) -> l1 = l2.
Proof.
  intros Hasym; induction l1 as [|a l1 IH]; intros [|b l2] H1 H2 Hin; [reflexivity| | |].
  - destruct (proj2 (Hin b) (or_introl eq_refl)).
  - destruct (proj1 (Hin a) (or_introl eq_refl)).
  - apply StronglySorted_inv in H1; apply StronglySorted_inv in H2; destruct H1 as [H1 F1], H2 as [H2 F2].
    rewrite Forall_forall in F1, F2.
    assert (a = b) as ->.
    { destruct (proj1 (Hin a) (or_introl eq_refl)) as [E|Ha]; [congruence|].
      destruct (proj2 (Hin b) (or_introl eq_refl)) as [E|Hb]; [congruence|].
      destruct (Hasym a b); [apply F1, Hb|apply F2, Ha]. }
    f_equal; apply IH; [assumption..|].
    intros x; split; intros Hx.
    + destruct (proj1 (Hin x) (or_intror Hx)) as [<-|]; [|assumption].
      destruct (Hasym b b); apply F1, Hx.
    + destruct (proj2 (Hin x) (or_intror Hx)) as [<-|]; [|assumption].
      destruct (Hasym b b); apply F2, Hx.
Qed.

Definition progression (start step : Z) (n : nat) : list Z := map (fun m => start + Z.of_nat m * step) (seq 0 n).

Lemma sorted_map {A B} (f : A -> B) (R : A -> A -> Prop) (S : B -> B -> Prop) l :
  (forall x y, R x y -> S (f x) (f y)) -> StronglySorted R l -> StronglySorted S (map f l).
Proof.
  intros Hf H; induction H as [|a l H IH F]; cbn [map]; constructor; [assumption|].
  rewrite Forall_forall in *; intros y [x [<- Hx]]%in_map_iff; apply Hf, F, Hx.
Qed.

Lemma seq_sorted n : forall a, StronglySorted lt (seq a n).
Proof.
  induction n as [|n IH]; intros a; cbn [seq]; constructor; [apply IH|].
  apply Forall_forall; intros x Hx%in_seq; lia.
Qed.

Lemma progression_up start step n : 0 < step -> StronglySorted Z.lt (progression start step n).
Proof. intros H; apply (sorted_map _ lt); [intros x y Hxy; nia|apply seq_sorted]. Qed.
Lemma progression_down start step n : step < 0 -> StronglySorted Z.gt (progression start step n).
Proof. intros H; apply (sorted_map _ lt); [intros x y Hxy; nia|apply seq_sorted]. Qed.

Lemma in_progression start step n x :
  In x (progression start step n) <-> exists m, 0 <= m < Z.of_nat n /\ x = start + m * step.
Proof.
  unfold progression; rewrite in_map_iff; split.
  - intros [m [<- Hm%in_seq]]; exists (Z.of_nat m); lia.
  - intros [m [Hm ->]]; exists (Z.to_nat m); rewrite in_seq, Z2Nat.id by lia; lia.
Qed.

Lemma in_positions len x : In x (positions len) <-> 0 <= x < len.
Proof.
  unfold positions; rewrite in_map_iff; split.
  - intros [m [<- Hm%in_seq]]; lia.
  - intros H; exists (Z.to_nat x); rewrite in_seq; lia.
Qed.

Lemma positions_sorted len : StronglySorted Z.lt (positions len).
Proof. apply (sorted_map _ lt); [intros x y Hxy; lia|apply seq_sorted]. Qed.

Lemma sorted_snoc {A} (R : A -> A -> Prop) l a : StronglySorted R l -> Forall (fun x => R x a) l -> StronglySorted R (l ++ [a]).
Proof.
  induction 1 as [|b l H IH F]; intros Ha; cbn [app]; [repeat constructor|].
  inversion Ha as [|? ? Hb Hl]; subst; constructor; [apply IH, Hl|].
  rewrite Forall_forall in *; intros x [Hx| [<- | []]]%in_app_iff; [apply F, Hx|assumption].
Qed.

Lemma rev_sorted l : StronglySorted Z.lt l -> StronglySorted Z.gt (rev l).
Proof.
  induction 1 as [|a l H IH F]; cbn [rev]; [constructor|].
  apply sorted_snoc; [assumption|]. rewrite Forall_forall in *; intros x Hx%in_rev; specialize (F x Hx); lia.
Qed.

Lemma filter_sorted {A} (R : A -> A -> Prop) f l : StronglySorted R l -> StronglySorted R (filter f l).
Proof.
  induction 1 as [|a l H IH F]; cbn [filter]; [constructor|].
  destruct (f a); [|assumption]; constructor; [assumption|].
  rewrite Forall_forall in *; intros x [Hx _]%filter_In; apply F, Hx.
Qed.

Lemma slice_up len i j k start n :
  0 < k ->
  (forall x, (0 <= x < len /\ i <= x < j /\ (x - i) mod k = 0) <-> exists m, 0 <= m < Z.of_nat n /\ x = start + m * k) ->
  filter (fun x => (i <=? x) && (x <? j) && ((x - i) mod k =? 0)) (positions len) = progression start k n.
Proof.
  intros Hk H; apply (sorted_same Z.lt); [lia|apply filter_sorted, positions_sorted|apply progression_up, Hk|].
  intros x; rewrite filter_In, in_positions, in_progression, <- H.
  rewrite !andb_true_iff, Z.leb_le, Z.ltb_lt, Z.eqb_eq; tauto.
Qed.

Lemma slice_down len i j k start n :
  k < 0 ->
  (forall x, (0 <= x < len /\ j < x <= i /\ (i - x) mod (- k) = 0) <-> exists m, 0 <= m < Z.of_nat n /\ x = start + m * k) ->
  filter (fun x => (j <? x) && (x <=? i) && ((i - x) mod (- k) =? 0)) (rev (positions len)) = progression start k n.
Proof.
  intros Hk H; apply (sorted_same Z.gt); [lia|apply filter_sorted, rev_sorted, positions_sorted|apply progression_down, Hk|].
  intros x; rewrite filter_In, <- in_rev, in_positions, in_progression, <- H.
  rewrite !andb_true_iff, Z.leb_le, Z.ltb_lt, Z.eqb_eq; tauto.
Qed.

(** Counting the steps: [n] is the number of [m >= 0] with [m * k < d]. *)
Definition steps (d k n : Z) : Prop := 0 <= n /\ forall m, 0 <= m -> (m < n <-> m * k < d).

Lemma steps_quot d k : 0 < k -> 0 < d -> steps d k (Z.quot (d - 1) k + 1).
Proof.
  intros Hk Hd; rewrite Z.quot_div_nonneg by lia.
  pose proof (Z.div_mod (d - 1) k ltac:(lia)) as E; pose proof (Z.mod_pos_bound (d - 1) k Hk) as B.
  pose proof (Z.div_pos (d - 1) k ltac:(lia) Hk) as P.
  set (q := (d - 1) / k) in *; clearbody q; split; [lia|]; intros m Hm; split; intros; nia.
Qed.
Lemma steps_none d k : 0 < k -> d <= 0 -> steps d k 0.
Proof. intros Hk Hd; split; [lia|]; intros m Hm; split; intros; nia. Qed.
Lemma steps_div d k : 0 < k -> steps d k (Z.max 0 ((d + (k - 1)) / k)).
Proof.
  intros Hk.
  pose proof (Z.div_mod (d + (k - 1)) k ltac:(lia)) as E; pose proof (Z.mod_pos_bound (d + (k - 1)) k Hk) as B.
  set (q := (d + (k - 1)) / k) in *; clearbody q; split; [lia|]; intros m Hm; split; intros; nia.
Qed.

Lemma steps_up len i j k start stop n :
  0 < k -> 0 <= start -> stop <= len -> steps (stop - start) k (Z.of_nat n) ->
  i = Z.min len start -> j = Z.max 0 stop ->
  forall x, (0 <= x < len /\ i <= x < j /\ (x - i) mod k = 0) <-> exists m, 0 <= m < Z.of_nat n /\ x = start + m * k.
Proof.
  intros Hk Hs He [_ Hn] -> -> x; split.
  - intros [Hx [Hb Hm]]. apply Z.mod_divide in Hm; [|lia]; destruct Hm as [m Hm].
    assert (0 <= m) by nia. exists m; rewrite Hn by lia; lia.
  - intros [m [Hm ->]]. pose proof (proj1 (Hn m (proj1 Hm)) (proj2 Hm)).
    assert (0 <= m * k) by nia.
    replace (start + m * k - Z.min len start) with (m * k) by lia. rewrite Z.mod_mul by lia; lia.
Qed.

Lemma steps_down len i j k start stop n :
  k < 0 -> 0 <= len -> start <= len - 1 -> -1 <= stop -> steps (start - stop) (- k) (Z.of_nat n) ->
  i = Z.max (-1) start -> j = Z.min (len - 1) stop ->
  forall x, (0 <= x < len /\ j < x <= i /\ (i - x) mod (- k) = 0) <-> exists m, 0 <= m < Z.of_nat n /\ x = start + m * k.
Proof.
  intros Hk Hl Hs He [_ Hn] -> -> x; split.
  - intros [Hx [Hb Hm]]. apply Z.mod_divide in Hm; [|lia]; destruct Hm as [m Hm].
    assert (0 <= m) by nia. exists m; rewrite Hn by lia; lia.
  - intros [m [Hm ->]]. pose proof (proj1 (Hn m (proj1 Hm)) (proj2 Hm)).
    assert (0 <= m * - k) by nia.
    replace (Z.max (-1) start - (start + m * k)) with (m * - k) by lia. rewrite Z.mod_mul by lia; lia.
Qed.

(** The interpreter's bounds are the reference's. *)
Lemma adjust_up len k i omitted o :
  0 <= len < 2 ^ 31 -> 0 < k -> (o = None -> slice_adjust len k i = omitted) -> (forall z, o = Some z -> i = slice_clip z) ->
  slice_adjust len k i = bound len 0 len omitted o.
Proof.
  intros Hl Hk Hn Hs; destruct o as [z|]; cbn [bound]; [|apply Hn, eq_refl].
  rewrite (Hs z eq_refl); unfold slice_adjust, slice_clip.
  destruct (k <? 0) eqn:E; [lia|]. cbv zeta. ifs; lia.
Qed.
Lemma adjust_down len k i omitted o :
  0 <= len < 2 ^ 31 -> k < 0 -> (o = None -> slice_adjust len k i = omitted) -> (forall z, o = Some z -> i = slice_clip z) ->
  slice_adjust len k i = bound len (-1) (len - 1) omitted o.
Proof.
  intros Hl Hk Hn Hs; destruct o as [z|]; cbn [bound]; [|apply Hn, eq_refl].
  rewrite (Hs z eq_refl); unfold slice_adjust, slice_clip.
  destruct (k <? 0) eqn:E; [|lia]. cbv zeta. ifs; lia.
Qed.

Lemma same_positions_big len i j k k' :
  0 < k -> 0 < k' -> len <= k -> len <= k' -> 0 <= i ->
  filter (fun x => (i <=? x) && (x <? j) && ((x - i) mod k =? 0)) (positions len) =
  filter (fun x => (i <=? x) && (x <? j) && ((x - i) mod k' =? 0)) (positions len).
Proof.
  intros Hk Hk' Hl Hl' Hi; apply filter_ext_in; intros x Hx%in_positions.
  destruct (i <=? x) eqn:E; [|reflexivity]. destruct (x <? j); [|reflexivity]; cbn [andb].
  rewrite !Z.mod_small by lia; reflexivity.
Qed.
Lemma same_positions_big_down len i j k k' :
  0 < k -> 0 < k' -> len <= k -> len <= k' -> i < len ->
  filter (fun x => (j <? x) && (x <=? i) && ((i - x) mod k =? 0)) (rev (positions len)) =
  filter (fun x => (j <? x) && (x <=? i) && ((i - x) mod k' =? 0)) (rev (positions len)).
Proof.
  intros Hk Hk' Hl Hl' Hi; apply filter_ext_in; intros x Hx. apply in_rev in Hx; apply in_positions in Hx.
  destruct (j <? x); [|reflexivity]. destruct (x <=? i) eqn:E; [|reflexivity]; cbn [andb].
  rewrite !Z.mod_small by lia; reflexivity.
Qed.

Lemma bound_range len lo hi om o : lo <= hi -> lo <= om <= hi -> lo <= bound len lo hi om o <= hi.
Proof. intros H1 H2; destruct o as [z|]; cbn [bound]; cbv zeta; ifs; lia. Qed.

Lemma interpreted_positions len start stop step s e k :
  0 <= len < 2 ^ 31 -> slice_unpack start stop step = Ok (s, e, k) ->
  let i := slice_adjust len k s in
  let j := slice_adjust len k e in
  exists k0, k0 <> 0 /\ k0 = match step with None => 1 | Some k => k end /\
  0 <= slice_length i j k <= len /\
  slice_positions len start stop k0 = progression i k (Z.to_nat (slice_length i j k)).
Proof.
  intros Hl Hu; cbv zeta.
  set (k0 := match step with None => 1 | Some k => k end).
  unfold slice_unpack in Hu.
  set (kk := match step with None => 1 | Some k => Z.max (- (2 ^ 63 - 1)) (slice_clip k) end) in *.
  assert (Hkk : kk = Z.max (- (2 ^ 63 - 1)) (slice_clip k0)).
  { unfold kk, k0; destruct step; [reflexivity|]. unfold slice_clip; lia. }
  clearbody kk k0. destruct (kk =? 0) eqn:E0; [discriminate|].
  assert (Hk0 : k0 <> 0) by (unfold slice_clip in Hkk; lia).
  exists k0; split; [exact Hk0|]; split; [reflexivity|].
  assert (HE : s = match start with None => if kk <? 0 then 2 ^ 63 - 1 else 0 | Some i => slice_clip i end /\
               e = match stop with None => if kk <? 0 then - 2 ^ 63 else 2 ^ 63 - 1 | Some i => slice_clip i end /\ k = kk)
    by (inversion Hu; auto).
  destruct HE as [-> [-> ->]]; clear Hu.
  unfold slice_positions; destruct (0 <? k0) eqn:Ek.
  - assert (Hk : 0 < kk) by (unfold slice_clip in Hkk; lia).
    assert (Hs : slice_adjust len kk (match start with None => if kk <? 0 then 2 ^ 63 - 1 else 0 | Some i => slice_clip i end)
                 = bound len 0 len 0 start).
    { apply adjust_up; [lia..| |]; [intros ->|intros z ->; reflexivity]. unfold slice_adjust; destruct (kk <? 0) eqn:E; ifs; lia. }
    assert (He : slice_adjust len kk (match stop with None => if kk <? 0 then - 2 ^ 63 else 2 ^ 63 - 1 | Some i => slice_clip i end)
                 = bound len 0 len len stop).
    { apply adjust_up; [lia..| |]; [intros ->|intros z ->; reflexivity]. unfold slice_adjust; destruct (kk <? 0) eqn:E; ifs; lia. }
    rewrite Hs, He; clear Hs He.
    pose proof (bound_range len 0 len 0 start ltac:(lia) ltac:(lia)) as Bi.
    pose proof (bound_range len 0 len len stop ltac:(lia) ltac:(lia)) as Bj.
    set (i := bound len 0 len 0 start) in *; set (j := bound len 0 len len stop) in *; clearbody i j.
    assert (St : steps (j - i) kk (slice_length i j kk)).
    { unfold slice_length; destruct (kk <? 0) eqn:E; [lia|]. destruct (i <? j) eqn:Eij.
      - apply steps_quot; lia.
      - apply steps_none; lia. }
    assert (Bn : 0 <= slice_length i j kk <= len).
    { destruct St as [Hp Hq]. split; [assumption|].
      destruct (Z.le_gt_cases (slice_length i j kk) len) as [|Hgt]; [assumption|].
      pose proof (proj1 (Hq len ltac:(lia)) ltac:(lia)). nia. }
    split; [exact Bn|].
    transitivity (filter (fun x => (i <=? x) && (x <? j) && ((x - i) mod kk =? 0)) (positions len)).
    + destruct (Z.eq_dec k0 kk) as [->|Hne]; [reflexivity|].
      apply same_positions_big; unfold slice_clip in Hkk; lia.
    + apply slice_up; [assumption|].
      apply (steps_up len i j kk i j); [lia..| | |]; [|lia|lia].
      rewrite Z2Nat.id by lia; exact St.
  - assert (Hk : kk < 0) by (unfold slice_clip in Hkk; lia).
    assert (Hs : slice_adjust len kk (match start with None => if kk <? 0 then 2 ^ 63 - 1 else 0 | Some i => slice_clip i end)
                 = bound len (-1) (len - 1) (len - 1) start).
    { apply adjust_down; [lia..| |]; [intros ->|intros z ->; reflexivity]. unfold slice_adjust; destruct (kk <? 0) eqn:E; ifs; lia. }
    assert (He : slice_adjust len kk (match stop with None => if kk <? 0 then - 2 ^ 63 else 2 ^ 63 - 1 | Some i => slice_clip i end)
                 = bound len (-1) (len - 1) (-1) stop).
    { apply adjust_down; [lia..| |]; [intros ->|intros z ->; reflexivity]. unfold slice_adjust; destruct (kk <? 0) eqn:E; ifs; lia. }
    rewrite Hs, He; clear Hs He.
    pose proof (bound_range len (-1) (len - 1) (len - 1) start ltac:(lia) ltac:(lia)) as Bi.
    pose proof (bound_range len (-1) (len - 1) (-1) stop ltac:(lia) ltac:(lia)) as Bj.
    set (i := bound len (-1) (len - 1) (len - 1) start) in *; set (j := bound len (-1) (len - 1) (-1) stop) in *; clearbody i j.
    assert (St : steps (i - j) (- kk) (slice_length i j kk)).
    { unfold slice_length; destruct (kk <? 0) eqn:E; [|lia]. destruct (j <? i) eqn:Eij.
      - apply steps_quot; lia.
      - apply steps_none; lia. }
    assert (Bn : 0 <= slice_length i j kk <= len).
    { destruct St as [Hp Hq]. split; [assumption|].
      destruct (Z.le_gt_cases (slice_length i j kk) len) as [|Hgt]; [assumption|].
      pose proof (proj1 (Hq len ltac:(lia)) ltac:(lia)). nia. }
    split; [exact Bn|].
    transitivity (filter (fun x => (j <? x) && (x <=? i) && ((i - x) mod (- kk) =? 0)) (rev (positions len))).
    + destruct (Z.eq_dec k0 kk) as [->|Hne]; [reflexivity|].
      apply same_positions_big_down; unfold slice_clip in Hkk; lia.
    + apply slice_down; [assumption|].
      apply (steps_down len i j kk i j); [lia..| | |]; [|lia|lia].
      rewrite Z2Nat.id by lia; exact St.
Qed.

Lemma unpack_error start stop step e :
  slice_unpack start stop step = Err e -> e = ValueError /\ match step with None => 1 | Some k => k end = 0.
Proof.
  unfold slice_unpack, slice_clip; destruct step as [k|]; cbv zeta.
  - destruct (_ =? 0) eqn:E; [|discriminate]. intros H; inversion H; split; [reflexivity|lia].
  - discriminate.
Qed.

(** Compiled code, where nothing overflows. *)
Lemma i64_small x : - 2 ^ 63 <= x < 2 ^ 63 -> i64 x = x.
Proof.
  intros H; unfold i64, wrap_s. change (2 ^ (64 - 1)) with (2 ^ 63).
  destruct (Z.le_gt_cases 0 x).
  - rewrite Z.mod_small by lia; cbv zeta. destruct (x <? 2 ^ 63) eqn:E; lia.
  - assert (x mod 2 ^ 64 = x + 2 ^ 64) as -> by (symmetry; apply (Z.mod_unique_pos x (2 ^ 64) (-1)); lia).
    cbv zeta. destruct (_ <? _) eqn:E; lia.
Qed.

Lemma compiled_positions len start stop step s e n :
  0 <= len < 2 ^ 31 -> opt moderate start -> opt moderate stop -> moderate step -> step <> 0 ->
  c_slice_bounds len start stop step = (s, e, n) ->
  0 <= n <= len /\ - 2 ^ 62 <= s <= 2 ^ 62 /\ - 2 ^ 62 <= e <= 2 ^ 62 /\
  (forall m, 0 <= m <= n -> (m < n <-> if 0 <? step then s + m * step < e else e < s + m * step)) /\
  slice_positions len start stop step = progression s step (Z.to_nat n).
Proof.
  unfold moderate; intros Hl Hs He Hk Hk0 H.
  unfold c_slice_bounds in H. unfold slice_positions. destruct (0 <? step) eqn:Ek.
  - cbv zeta in H.
    set (s0 := match start with None => 0 | Some i => i end) in *.
    set (e0 := match stop with None => len | Some i => i end) in *.
    assert (Bs : - 2 ^ 61 <= s0 <= 2 ^ 61) by (unfold s0; destruct start; cbn [opt] in Hs; unfold moderate in *; lia).
    assert (Be : - 2 ^ 61 <= e0 <= 2 ^ 61) by (unfold e0; destruct stop; cbn [opt] in He; unfold moderate in *; lia).
    rewrite (i64_small (s0 + len)), (i64_small (e0 + len)), (i64_small (step - 1)) in H by lia.
    set (s1 := Z.max 0 (if s0 <? 0 then s0 + len else s0)) in *.
    set (e1 := Z.min len (if e0 <? 0 then e0 + len else e0)) in *.
    assert (B1 : 0 <= s1 <= 2 ^ 61 + 2 ^ 31) by (unfold s1; ifs; lia).
    assert (B2 : - 2 ^ 61 <= e1 <= len) by (unfold e1; ifs; lia).
    assert (Hi : bound len 0 len 0 start = Z.min len s1).
    { unfold s1, s0; destruct start; cbn [bound]; cbv zeta; ifs; lia. }
    assert (Hj : bound len 0 len len stop = Z.max 0 e1).
    { unfold e1, e0; destruct stop; cbn [bound]; cbv zeta; ifs; lia. }
    clearbody s1 e1. clear Bs Be s0 e0.
    rewrite (i64_small (e1 - s1)), (i64_small (e1 - s1 + (step - 1))) in H by lia.
    pose proof (Z.div_mod (e1 - s1 + (step - 1)) step ltac:(lia)) as Dm.
    pose proof (Z.mod_pos_bound (e1 - s1 + (step - 1)) step ltac:(lia)) as Db.
    assert (Qb : - 2 ^ 63 <= (e1 - s1 + (step - 1)) / step < 2 ^ 63) by nia.
    rewrite (i64_small ((e1 - s1 + (step - 1)) / step) Qb) in H.
    inversion H; subst s e n; clear H.
    pose proof (steps_div (e1 - s1) step ltac:(lia)) as St.
    set (n := Z.max 0 ((e1 - s1 + (step - 1)) / step)) in *; clearbody n.
    destruct St as [Hp Hq].
    assert (Bn : 0 <= n <= len).
    { split; [assumption|]. destruct (Z.le_gt_cases n len) as [|Hgt]; [assumption|].
      pose proof (proj1 (Hq len ltac:(lia)) ltac:(lia)). nia. }
    split; [exact Bn|]. split; [lia|]. split; [lia|]. split.
    + intros m Hm; rewrite (Hq m) by lia; lia.
    + rewrite Hi, Hj. apply slice_up; [lia|].
      apply (steps_up len _ _ step s1 e1); [lia..| |reflexivity|reflexivity].
      rewrite Z2Nat.id by lia; split; assumption.
  - cbv zeta in H.
    set (s0 := match start with None => len - 1 | Some i => i end) in *.
    set (e0 := match stop with None => - 1 - len | Some i => i end) in *.
    assert (Bs : - 2 ^ 61 <= s0 <= 2 ^ 61) by (unfold s0; destruct start; cbn [opt] in Hs; unfold moderate in *; lia).
    assert (Be : - 2 ^ 61 <= e0 <= 2 ^ 61) by (unfold e0; destruct stop; cbn [opt] in He; unfold moderate in *; lia).
    rewrite (i64_small (s0 + len)), (i64_small (e0 + len)), (i64_small (- step)), (i64_small (- step - 1)) in H by lia.
    set (s1 := Z.min (len - 1) (if s0 <? 0 then s0 + len else s0)) in *.
    set (e1 := Z.max (-1) (if e0 <? 0 then e0 + len else e0)) in *.
    assert (B1 : - 2 ^ 61 <= s1 <= len - 1) by (unfold s1; ifs; lia).
    assert (B2 : - 1 <= e1 <= 2 ^ 61 + 2 ^ 31) by (unfold e1; ifs; lia).
    assert (Hi : bound len (-1) (len - 1) (len - 1) start = Z.max (-1) s1).
    { unfold s1, s0; destruct start; cbn [bound]; cbv zeta; ifs; lia. }
    assert (Hj : bound len (-1) (len - 1) (-1) stop = Z.min (len - 1) e1).
    { unfold e1, e0; destruct stop; cbn [bound]; cbv zeta; ifs; lia. }
    clearbody s1 e1. clear Bs Be s0 e0.
    rewrite (i64_small (s1 - e1)), (i64_small (s1 - e1 + (- step - 1))) in H by lia.
    pose proof (Z.div_mod (s1 - e1 + (- step - 1)) (- step) ltac:(lia)) as Dm.
    pose proof (Z.mod_pos_bound (s1 - e1 + (- step - 1)) (- step) ltac:(lia)) as Db.
    assert (Qb : - 2 ^ 63 <= (s1 - e1 + (- step - 1)) / - step < 2 ^ 63) by nia.
    rewrite (i64_small ((s1 - e1 + (- step - 1)) / - step) Qb) in H.
    inversion H; subst s e n; clear H.
    pose proof (steps_div (s1 - e1) (- step) ltac:(lia)) as St.
    set (n := Z.max 0 ((s1 - e1 + (- step - 1)) / - step)) in *; clearbody n.
    destruct St as [Hp Hq].
    assert (Bn : 0 <= n <= len).
    { split; [assumption|]. destruct (Z.le_gt_cases n len) as [|Hgt]; [assumption|].
      pose proof (proj1 (Hq len ltac:(lia)) ltac:(lia)). nia. }
    split; [exact Bn|]. split; [lia|]. split; [lia|]. split.
    + intros m Hm; rewrite (Hq m) by lia; lia.
    + rewrite Hi, Hj. apply slice_down; [lia|].
      apply (steps_down len _ _ step s1 e1); [lia..| |reflexivity|reflexivity].
      rewrite Z2Nat.id by lia; split; assumption.
Qed.
