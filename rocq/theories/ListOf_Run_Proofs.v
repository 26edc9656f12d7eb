(** Every admissible operation, interpreted or compiled, does to the layout what Python does to the sequence. *)
From Coq Require Import List.
From Verif Require Import Base PyList PyList_Proofs ListOf_Model ListOf_Spec ListOf_Slice_Proofs ListOf_Proofs.
From Coq Require Import ZifyBool ZifyNat.
Open Scope Z_scope.
Open Scope result_scope.

Section Proofs.
  Context {V : Type}.
  Variables (w : Z) (pod by_ref : bool) (default : V).
  Hypothesis w_pos : 0 < w <= 32768.

  Lemma ok_inj {A} (a b : A) : Ok a = Ok b -> a = b.
  Proof. congruence. Qed.

  Lemma items_at_in_range (xs : list V) ps :
    Forall (fun x => 0 <= x < zlength xs) ps ->
    length (items_at xs ps) = length ps /\
    forall m v, nth_error (items_at xs ps) m = Some v -> exists x, nth_error ps m = Some x /\ nth_error xs (Z.to_nat x) = Some v.
  Proof using Type.
    induction 1 as [|x ps Hx H IH]; cbn [items_at flat_map].
    - split; [reflexivity|]; intros [|m] v E; discriminate.
    - unfold items_at in IH. destruct (nth_error xs (Z.to_nat x)) as [u|] eqn:E.
      + cbn [app length]; destruct IH as [IHl IHn]; split; [f_equal; exact IHl|].
        intros [|m] v; cbn [nth_error]; [intros Ev; exists x; rewrite E, <- Ev; auto|apply IHn].
      + apply nth_error_None in E; unfold zlength in Hx; lia.
  Qed.

  Lemma slice_positions_in_range len start stop k : Forall (fun x => 0 <= x < len) (slice_positions len start stop k).
  Proof using Type.
    apply Forall_forall; intros x; unfold slice_positions; destruct (0 <? k); intros [H _]%filter_In; [|apply in_rev in H];
      apply in_positions, H.
  Qed.

  Lemma nth_progression s k n m x : nth_error (progression s k n) m = Some x -> x = s + Z.of_nat m * k /\ (m < n)%nat.
  Proof using Type.
    unfold progression; intros H.
    assert (Hm : (m < n)%nat) by (rewrite <- (seq_length n 0), <- (map_length (fun m => s + Z.of_nat m * k)); apply nth_error_Some; congruence).
    rewrite nth_error_map, (nth_error_nth' _ 0%nat) in H by (rewrite seq_length; exact Hm).
    rewrite seq_nth in H by exact Hm. cbn [option_map] in H. split; [|exact Hm]. inversion H; reflexivity.
  Qed.

  Lemma slice_items (xs : list V) start stop k s n :
    slice_positions (zlength xs) start stop k = progression s k n ->
    let ys := items_at xs (slice_positions (zlength xs) start stop k) in
    length ys = n /\ forall m v, nth_error ys m = Some v -> 0 <= s + Z.of_nat m * k < zlength xs /\ nth_error xs (Z.to_nat (s + Z.of_nat m * k)) = Some v.
  Proof using Type.
    intros E ys. pose proof (slice_positions_in_range (zlength xs) start stop k) as F.
    destruct (items_at_in_range xs _ F) as [Hl Hn]. fold ys in Hl, Hn. split.
    - rewrite Hl, E. unfold progression; rewrite map_length, seq_length; reflexivity.
    - intros m v Hv. destruct (Hn m v Hv) as [x [Hx Hx2]]. rewrite Forall_forall in F.
      specialize (F x (nth_error_In _ _ Hx)). rewrite E in Hx. apply nth_progression in Hx. destruct Hx as [-> _]. auto.
  Qed.

  (** Slices of the interpreter need not have step [k]: a step beyond 64 bits is cut off. *)
  Lemma slice_items' (xs : list V) start stop k0 k s n :
    slice_positions (zlength xs) start stop k0 = progression s k n ->
    let ys := items_at xs (slice_positions (zlength xs) start stop k0) in
    length ys = n /\ forall m v, nth_error ys m = Some v -> 0 <= s + Z.of_nat m * k < zlength xs /\ nth_error xs (Z.to_nat (s + Z.of_nat m * k)) = Some v.
  Proof.
    intros E ys. pose proof (slice_positions_in_range (zlength xs) start stop k0) as F.
    destruct (items_at_in_range xs _ F) as [Hl Hn]. fold ys in Hl, Hn. split.
    - rewrite Hl, E. unfold progression; rewrite map_length, seq_length; reflexivity.
    - intros m v Hv. destruct (Hn m v Hv) as [x [Hx Hx2]]. rewrite Forall_forall in F.
      specialize (F x (nth_error_In _ _ Hx)). rewrite E in Hx. apply nth_progression in Hx. destruct Hx as [-> _]. auto.
  Qed.

  Lemma c_slice_loop_ok (xs : list V) src s e step N : 
    (forall m, 0 <= m <= N -> (m < N <-> if 0 <? step then s + m * step < e else e < s + m * step)) ->
    moderate step -> zlength xs < 2 ^ 31 ->
    forall ys done rest m,
    length rest = length ys -> 0 <= m -> m + zlength ys = N ->
    (forall t v, nth_error ys t = Some v -> 0 <= s + (m + Z.of_nat t) * step < zlength xs /\
                 nth_error xs (Z.to_nat (s + (m + Z.of_nat t) * step)) = Some v) ->
    c_slice_loop (map Some xs ++ src) (map Some done ++ rest) (s + m * step) (s + m * step) e step (zlength done) (length ys)
    = Ok (map Some (done ++ ys)).
  Proof using Type.
    clear default; intros HN Hk Hlen; induction ys as [|y ys IH]; intros done rest m Hl Hm Hs Hn; cbn [length c_slice_loop].
    - destruct rest; [|discriminate]. rewrite zlength_nil in Hs.
      pose proof (HN m ltac:(lia)) as C.
      assert (Ec : (if 0 <? step then s + m * step <? e else e <? s + m * step) = false) by (destruct (0 <? step); lia).
      rewrite Ec, !app_nil_r; reflexivity.
    - destruct rest as [|c rest]; [discriminate|]. rewrite zlength_cons in Hs; pose proof (zlength_pos ys).
      pose proof (HN m ltac:(lia)) as C.
      assert (Ec : (if 0 <? step then s + m * step <? e else e <? s + m * step) = true) by (destruct (0 <? step); lia).
      rewrite Ec; clear Ec.
      destruct (Hn 0%nat y eq_refl) as [Hr Hv]. rewrite Z.add_0_r in Hr, Hv.
      rewrite (read_ok xs src _ y) by (lia || exact Hv). cbn [bind].
      rewrite write_next by reflexivity; cbn [bind].
      unfold moderate in Hk. rewrite i64_small by lia.
      replace (s + m * step + step) with (s + (m + 1) * step) by lia.
      replace (zlength done + 1) with (zlength (done ++ [y])) by (rewrite zlength_app; reflexivity).
      rewrite (IH (done ++ [y]) rest (m + 1)); [rewrite <- app_assoc; reflexivity|cbn [length] in Hl; lia|lia|lia|].
      intros t v Ht. replace (m + 1 + Z.of_nat t) with (m + Z.of_nat (S t)) by lia. apply Hn, Ht.
  Qed.

  Definition step_matches (m : mode) (l : lst) (o : op) (xs : list V) : Prop :=
    exists l' r, step w pod by_ref default m l o = Ok (l', r) /\
      represents l' (fst (python_step default xs o)) /\ answers r (snd (python_step default xs o)).

  Lemma rep (xs : list V) rest : fits xs rest -> represents (mk xs rest) xs.
  Proof. intros H; apply represents_mk; eauto. Qed.

  Ltac done_with E Hf := eexists _, _; rewrite E; cbn [bind]; split; [reflexivity|]; split; [apply rep, Hf|exact I].

  Lemma nth_values (vs : list V) ys1 v ys2 : vs = ys1 ++ v :: ys2 -> nth_error vs (Z.to_nat (zlength ys1)) = Some v.
  Proof. intros ->; unfold zlength; rewrite Nat2Z.id, nth_error_app2, Nat.sub_diag by lia; reflexivity. Qed.

  Lemma index_ok (xs : list V) i :
    let ix := if i <? 0 then i + zlength xs else i in
    (0 <= ix < zlength xs /\ py_index (zlength xs) i = Ok (Z.to_nat ix)) \/
    (~ 0 <= ix < zlength xs /\ py_index (zlength xs) i = Err IndexError).
  Proof.
    cbv zeta; unfold py_index; pose proof (zlength_pos xs).
    repeat match goal with |- context [if ?b then _ else _] => let E := fresh "E" in destruct b eqn:E end; cbn [andb] in *;
      first [left; split; [lia|reflexivity]|right; split; [lia|reflexivity]|exfalso; lia].
  Qed.

  Lemma python_slice (xs : list V) start stop step k0 :
    k0 = match step with None => 1 | Some k => k end -> k0 <> 0 ->
    python_step default xs (Slice start stop step) = (xs, AList (items_at xs (slice_positions (zlength xs) start stop k0))).
  Proof. intros -> H; cbn [python_step]. destruct (match step with None => 1 | Some k => k end); [congruence|reflexivity|reflexivity]. Qed.

  Lemma interpreted_ok xs rest o :
    fits xs rest -> admissible by_ref Interpreted xs o -> step_matches Interpreted (mk xs rest) o xs.
  Proof.
    intros Hf Ha; pose proof (zlength_pos xs) as Hp; unfold step_matches; cbn [step].
    destruct o; cbn [admissible] in Ha; cbn [interpreted python_step].
    - destruct Ha as [Hm Hx]. destruct x as [v|i]; cbn [fst snd].
      + destruct (append_ok w w_pos xs rest v Hf Hm) as [rest' [E Hf']]. done_with E Hf'.
      + destruct Hx as [Hi _]. unfold mk at 1; cbn [cells].
        rewrite (read_ok xs rest i (nth (Z.to_nat i) xs default)); [|lia|apply nth_error_nth'; unfold zlength in Hi; lia].
        cbn [bind]. destruct (append_ok w w_pos xs rest (nth (Z.to_nat i) xs default) Hf Hm) as [rest' [E Hf']]. done_with E Hf'.
    - cbn [fst snd]. destruct (extend_ok w default w_pos xs vs rest
        (fun _ i => match nth_error vs (Z.to_nat i) with Some v => Ok v | None => Err UndefinedBehaviour end) Hf Ha) as [rest' [E Hf']].
      { intros ys1 v ys2 r Ev. rewrite (nth_values vs ys1 v ys2 Ev); reflexivity. }
      unfold zlength in E at 1. done_with E Hf'.
    - cbn [fst snd]. destruct Ha as [Ha _].
      destruct (extend_ok w default w_pos xs xs rest read Hf ltac:(lia)) as [rest' [E Hf']].
      { intros ys1 v ys2 r Ev. rewrite map_app, <- app_assoc. apply read_ok; [apply zlength_pos|]. apply nth_values with ys2, Ev. }
      cbn [mk count]. done_with E Hf'.
    - cbn [fst snd]. destruct (append_all_ok w w_pos vs xs rest Hf Ha) as [rest' [E Hf']]. done_with E Hf'.
    - set (j := match i with Some i => i | None => -1 end).
      assert (E1 : match i with Some i => as_long_long i | None => -1 end = j).
      { unfold j; destruct i as [i|]; [|reflexivity]. cbn [opt] in Ha; unfold int64 in Ha.
        unfold as_long_long, in_int64. destruct ((_ <=? i) && _) eqn:E; [reflexivity|lia]. }
      assert (E2 : forall r : @reply V, match i with Some i => pending i | None => fun r => r end r = r).
      { intros r; destruct i as [i|]; [|reflexivity]. cbn [opt] in Ha; unfold int64 in Ha.
        unfold pending, in_int64. destruct ((_ <=? i) && _) eqn:E; [reflexivity|lia]. }
      cbv zeta. rewrite E1. change (count (mk xs rest)) with (zlength xs). clearbody j; clear E1 Ha.
      pose proof (index_ok xs j) as Hx; cbv zeta in Hx.
      set (ix := if j <? 0 then j + zlength xs else j) in *; clearbody ix.
      destruct Hx as [[Hi ->]|[Hi ->]].
      + destruct (zlength xs =? 0) eqn:E0; [lia|]. destruct ((ix <? 0) || (zlength xs <=? ix)) eqn:Eb; [lia|].
        unfold remove. change (cells (mk xs rest)) with (map Some xs ++ rest).
        change (count (mk xs rest)) with (zlength xs). change (reserved (mk xs rest)) with (zlength xs + Z.of_nat (length rest)).
        rewrite (read_ok xs rest ix (nth (Z.to_nat ix) xs default)); [|lia|apply nth_error_nth'; unfold zlength in Hi; lia]. cbn [bind].
        destruct (popped_ok xs rest ix Hf Hi) as [-> Hf']; cbn [bind fst snd]. rewrite E2.
        eexists _, _; split; [reflexivity|]; split; [apply rep, Hf'|reflexivity].
      + assert (R : exists (l' : @lst V) (r : @reply V), Ok (mk xs rest, Raised IndexError) = Ok (l', r) /\ represents l' xs /\ answers r (ARaised IndexError)).
        { eexists _, _; split; [reflexivity|]; split; [apply rep, Hf|reflexivity]. }
        cbn [fst snd]. destruct (zlength xs =? 0); [exact R|]. destruct ((ix <? 0) || (zlength xs <=? ix)) eqn:Eb; [exact R|lia].
    - assert (E1 : as_long_long i = i) by (unfold int64 in Ha; unfold as_long_long, in_int64; destruct ((_ <=? i) && _) eqn:E; [reflexivity|lia]).
      assert (E2 : forall r : @reply V, pending i r = r) by (intros r; unfold int64 in Ha; unfold pending, in_int64; destruct ((_ <=? i) && _) eqn:E; [reflexivity|lia]).
      cbv zeta. rewrite E1. unfold py_get. change (Z.of_nat (length xs)) with (zlength xs).
      pose proof (index_ok xs i) as Hx; cbv zeta in Hx. change (count (mk xs rest)) with (zlength xs).
      set (ix := if i <? 0 then i + zlength xs else i) in *; clearbody ix.
      destruct Hx as [[Hi ->]|[Hi ->]]; cbn [bind].
      + destruct ((zlength xs <=? ix) || (ix <? 0)) eqn:Eb; [lia|].
        assert (Ev : nth_error xs (Z.to_nat ix) = Some (nth (Z.to_nat ix) xs default)) by (apply nth_error_nth'; unfold zlength in Hi; lia).
        change (cells (mk xs rest)) with (map Some xs ++ rest).
        rewrite (read_ok xs rest ix _ ltac:(lia) Ev), Ev; cbn [bind fst snd]; rewrite E2.
        eexists _, _; split; [reflexivity|]; split; [apply rep, Hf|reflexivity].
      + destruct ((zlength xs <=? ix) || (ix <? 0)) eqn:Eb; [|lia]. cbn [fst snd].
        eexists _, _; split; [reflexivity|]; split; [apply rep, Hf|reflexivity].
    - assert (E1 : as_long_long i = i) by (unfold int64 in Ha; unfold as_long_long, in_int64; destruct ((_ <=? i) && _) eqn:E; [reflexivity|lia]).
      assert (E2 : forall r : @reply V, pending i r = r) by (intros r; unfold int64 in Ha; unfold pending, in_int64; destruct ((_ <=? i) && _) eqn:E; [reflexivity|lia]).
      cbv zeta. rewrite E1. unfold py_set. change (Z.of_nat (length xs)) with (zlength xs).
      pose proof (index_ok xs i) as Hx; cbv zeta in Hx. change (count (mk xs rest)) with (zlength xs).
      set (ix := if i <? 0 then i + zlength xs else i) in *; clearbody ix.
      destruct Hx as [[Hi ->]|[Hi ->]]; cbn [bind].
      + destruct ((zlength xs <=? ix) || (ix <? 0)) eqn:Eb; [lia|].
        change (cells (mk xs rest)) with (map Some xs ++ rest).
        rewrite write_old by assumption; cbn [bind fst snd]. rewrite E2.
        assert (El : zlength (replace_nth (Z.to_nat ix) v xs) = zlength xs) by (unfold zlength; rewrite replace_nth_length; reflexivity).
        exists (mk (replace_nth (Z.to_nat ix) v xs) rest), Nothing; split; [unfold mk; rewrite El; reflexivity|].
        split; [apply rep; unfold fits; rewrite El; exact Hf|exact I].
      + destruct ((zlength xs <=? ix) || (ix <? 0)) eqn:Eb; [|lia]. cbn [fst snd].
        eexists _, _; split; [reflexivity|]; split; [apply rep, Hf|reflexivity].
    - assert (Hlen : 0 <= zlength xs < 2 ^ 31) by (unfold fits in Hf; lia).
      destruct (slice_unpack start stop step) as [[[s e] k]|err] eqn:Eu.
      + destruct (interpreted_positions (zlength xs) start stop step s e k Hlen Eu) as [k0 [Hk0 [Ek [Hn Hps]]]].
        cbv zeta. change (count (mk xs rest)) with (zlength xs).
        set (i := slice_adjust (zlength xs) k s) in *. set (j := slice_adjust (zlength xs) k e) in *.
        destruct (slice_items' xs start stop k0 k i _ Hps) as [Hl Hi].
        set (ys := items_at xs (slice_positions (zlength xs) start stop k0)) in *.
        pose proof (python_slice xs start stop step k0 Ek Hk0) as Ep; cbn [python_step] in Ep; rewrite Ep; clear Ep; cbn [fst snd].
        destruct (construct_ok w default w_pos (fun k1 => read (cells (mk xs rest)) (i + k1 * k)) ys (slice_length i j k)) as [rest' [-> Hf']].
        { unfold zlength; rewrite Hl; lia. } { lia. }
        { intros m v Hv. destruct (Hi m v Hv) as [Hr Hx]. change (cells (mk xs rest)) with (map Some xs ++ rest). apply read_ok; [lia|exact Hx]. }
        cbn [bind]. eexists _, _; split; [reflexivity|]; split; [apply rep, Hf|apply rep, Hf'].
      + destruct (unpack_error _ _ _ _ Eu) as [-> E0]. rewrite E0; cbn [fst snd].
        eexists _, _; split; [reflexivity|]; split; [apply rep, Hf|reflexivity].
    - cbv zeta. unfold most in Ha.
      assert (E1 : as_long_long n = n) by (unfold as_long_long, in_int64; destruct ((_ <=? n) && _) eqn:E; [reflexivity|lia]).
      assert (E2 : forall r : @reply V, pending n r = r) by (intros r; unfold pending, in_int64; destruct ((_ <=? n) && _) eqn:E; [reflexivity|lia]).
      rewrite E1, E2, wrap_u64_small by lia. cbn [fst snd].
      destruct (resize_ok w pod w_pos xs rest n (match v with Some v => v | None => default end) Hf Ha) as [rest' [E Hf']].
      done_with E Hf'.
    - assert (E1 : as_long_long n = n) by (unfold as_long_long, in_int64; destruct ((_ <=? n) && _) eqn:E; [reflexivity|lia]).
      assert (E2 : forall r : @reply V, pending n r = r) by (intros r; unfold pending, in_int64; destruct ((_ <=? n) && _) eqn:E; [reflexivity|lia]).
      rewrite E1, E2, wrap_s32_small, wrap_u64_small by lia. cbn [fst snd].
      destruct (reserve_ok w w_pos xs rest n Hf Ha) as [rest' [E [Hf' _]]]. done_with E Hf'.
    - cbn [fst snd]. destruct (resize_ok w pod w_pos xs rest 0 default Hf ltac:(unfold most; lia)) as [rest' [E Hf']].
      rewrite resized_small in * by lia. cbn [Z.to_nat firstn] in *. done_with E Hf'.
    - cbn [fst snd]. unfold fits in Hf.
      destruct (construct_ok w default w_pos (read (cells (mk xs rest))) xs (count (mk xs rest)) eq_refl) as [rest' [-> Hf']].
      { cbn [mk count]; lia. }
      { intros m v Hv. change (cells (mk xs rest)) with (map Some xs ++ rest). apply read_ok; [lia|]. rewrite Nat2Z.id; exact Hv. }
      cbn [bind]. eexists _, _; split; [reflexivity|]; split; [apply rep, Hf|apply rep, Hf'].
    - cbn [fst snd]; cbv zeta. change (count (mk xs rest)) with (zlength xs). change (Z.of_nat (length vs)) with (zlength vs).
      pose proof (zlength_pos vs). unfold most in Ha. rewrite wrap_s32_small by lia.
      edestruct (construct_ok w default w_pos) as [rest' [E Hf']]; [| | |rewrite E; clear E].
      { instantiate (1 := xs ++ vs); rewrite zlength_app; reflexivity. } { lia. }
      { intros m v Hv. cbv beta. change (cells (mk xs rest)) with (map Some xs ++ rest).
        destruct (Z.of_nat m <? zlength xs) eqn:El.
        - rewrite nth_error_app1 in Hv by (unfold zlength in El; lia). apply read_ok; [lia|]. rewrite Nat2Z.id; exact Hv.
        - rewrite nth_error_app2 in Hv by (unfold zlength in El; lia).
          replace (Z.to_nat (Z.of_nat m - zlength xs)) with (m - length xs)%nat by (unfold zlength; lia). rewrite Hv; reflexivity. }
      cbn [bind]. eexists _, _; split; [reflexivity|]; split; [apply rep, Hf|apply rep, Hf'].
    - cbn [fst snd]. eexists _, _; split; [reflexivity|]; split; [apply rep, Hf|reflexivity].
    - cbn [fst snd]. unfold fits in Hf. cbn [mk reserved]. rewrite wrap_u64_small by lia.
      change (wrap_s 64) with i64. rewrite i64_small by lia.
      eexists _, _; split; [reflexivity|]; split; [apply rep, Hf|cbn [answers]; lia].
  Qed.

  Lemma compiled_index (xs : list V) rest i : fits xs rest -> int64 i ->
    (if i <? 0 then i64 (i + zlength xs) else i) = (if i <? 0 then i + zlength xs else i).
  Proof.
    unfold fits, int64; intros Hf Hi; pose proof (zlength_pos xs). destruct (i <? 0) eqn:E; [|reflexivity]. apply i64_small; lia.
  Qed.

  Lemma pre_reserved_ok n : 0 <= n < 2 ^ 31 ->
    pre_reserved (V := V) w n = Ok (Lst (repeat None (Z.to_nat n)) 0 n).
  Proof using w_pos. intros H; unfold pre_reserved. rewrite malloc_ok by assumption. cbn [bind]. rewrite wrap_s32_small by lia; reflexivity. Qed.

  Lemma c_slice_ok is_tuple (xs : list V) rest start stop step :
    let k := match step with None => 1 | Some k => k end in
    let ys := items_at xs (slice_positions (zlength xs) start stop k) in
    fits xs rest -> opt moderate start -> opt moderate stop -> opt moderate step -> k <> 0 -> (is_tuple = true -> ys <> []) ->
    exists new, c_slice w is_tuple (mk xs rest) start stop step = Ok (inl new) /\ represents new ys.
  Proof using w_pos.
    clear default; cbv zeta. intros Hf Hs He Hk H0 Ht. pose proof (zlength_pos xs) as Hp.
    assert (Hlen : 0 <= zlength xs < 2 ^ 31) by (unfold fits in Hf; lia).
    unfold c_slice; cbv zeta. remember (match step with None => 1 | Some k => k end) as k eqn:Ek.
    assert (Hk' : moderate k) by (subst k; destruct step; [exact Hk|unfold moderate; lia]). clear Hk.
    destruct (k =? 0) eqn:E0; [lia|].
    change (count (mk xs rest)) with (zlength xs).
    destruct (c_slice_bounds (zlength xs) start stop k) as [[s e] n] eqn:Eb.
    destruct (compiled_positions (zlength xs) start stop k s e n Hlen Hs He Hk' ltac:(lia) Eb) as [Hn [_ [_ [Hc Hps]]]].
    destruct (slice_items xs start stop k s _ Hps) as [Hl Hi].
    set (ys := items_at xs (slice_positions (zlength xs) start stop k)) in *.
    assert (Et : is_tuple && (n =? 0) = false).
    { destruct is_tuple; [|reflexivity]. specialize (Ht eq_refl). destruct ys; [congruence|]. cbn [length] in Hl. lia. }
    rewrite Et, pre_reserved_ok by lia; cbn [bind cells reserved].
    pose proof (c_slice_loop_ok xs rest s e k n Hc Hk' ltac:(lia) ys [] (repeat None (Z.to_nat n)) 0) as L.
    cbn [map app] in L. change (zlength (@nil V)) with 0 in L. rewrite Z.mul_0_l, Z.add_0_r in L.
    change (cells (mk xs rest)) with (map Some xs ++ rest). rewrite repeat_length. rewrite Hl in L.
    rewrite L; clear L; [|rewrite repeat_length; lia|lia|unfold zlength; lia|intros t v Hv; rewrite Z.add_0_l; apply Hi, Hv].
    cbn [bind]. rewrite wrap_s32_small by lia.
    assert (En : n = zlength ys) by (unfold zlength; lia).
    eexists; split; [reflexivity|]. apply represents_mk.
    exists []; unfold mk, fits; rewrite app_nil_r; cbn [length]. split; [do 2 f_equal; lia|lia].
  Qed.

  Lemma interpreted_slice_ok xs rest start stop step :
    let k := match step with None => 1 | Some k => k end in
    fits xs rest -> k <> 0 ->
    exists new, interpreted w pod default (mk xs rest) (Slice start stop step) = Ok (mk xs rest, NewList new) /\
      represents new (items_at xs (slice_positions (zlength xs) start stop k)).
  Proof.
    cbv zeta; intros Hf H0. destruct (interpreted_ok xs rest (Slice start stop step) Hf I) as [l' [r [E [Hr Ha]]]].
    rewrite (python_slice xs start stop step _ eq_refl H0) in Hr, Ha; cbn [fst snd] in Hr, Ha.
    cbn [ListOf_Model.step interpreted] in E |- *.
    destruct (slice_unpack start stop step) as [[[s e] k]|err] eqn:Eu; [|apply ok_inj in E; inversion E; subst; destruct Ha].
    cbv zeta in *. match type of E with bind ?c _ = _ => destruct c as [new|] eqn:Ec; [|discriminate] end.
    cbn [bind] in *. assert (r = NewList new) as -> by congruence. eauto.
  Qed.

  Lemma compiled_ok xs rest o :
    fits xs rest -> admissible by_ref Compiled xs o -> step_matches Compiled (mk xs rest) o xs.
  Proof.
    intros Hf Ha; pose proof (zlength_pos xs) as Hp; unfold step_matches; cbn [step].
    assert (Hlen : 0 <= zlength xs < 2 ^ 31) by (unfold fits in Hf; lia).
    destruct o; cbn [admissible] in Ha; cbn [compiled python_step].
    - destruct Ha as [Hm Hx].
      destruct (c_append_ok w by_ref default w_pos xs rest x Hf Hm) as [rest' [E Hf']].
      { destruct x; [exact I|]. destruct Hx as [Hi [Hx|Hx]]; [discriminate|auto]. }
      destruct x as [v|i]; cbn [fst snd]; done_with E Hf'.
    - cbn [fst snd]. destruct (c_append_all_ok w by_ref default w_pos vs xs rest Hf Ha) as [rest' [E Hf']]. done_with E Hf'.
    - cbn [fst snd]. destruct Ha as [Ha [Hb|Hb]]; [discriminate|].
      destruct (c_extend_self_ok w by_ref default w_pos xs Hb [] [] rest) as [rest' [E Hf']].
      { cbn [app]; rewrite app_nil_r; exact Hf. } { cbn [app]; rewrite app_nil_r; lia. }
      cbn [app] in E, Hf'. rewrite app_nil_r in E. change (zlength (@nil V)) with 0 in E.
      change (count (mk xs rest)) with (zlength xs). assert (En : Z.to_nat (zlength xs) = length xs) by (unfold zlength; lia). rewrite En.
      done_with E Hf'.
    - cbn [fst snd]. destruct (c_append_all_ok w by_ref default w_pos vs xs rest Hf Ha) as [rest' [E Hf']]. done_with E Hf'.
    - set (j := match i with Some i => i | None => -1 end).
      assert (Hj : int64 j) by (unfold j; destruct i; [exact Ha|unfold int64; lia]). clearbody j; clear Ha.
      unfold c_pop; cbv zeta. change (count (mk xs rest)) with (zlength xs). rewrite (compiled_index xs rest j Hf Hj).
      pose proof (index_ok xs j) as Hx; cbv zeta in Hx.
      set (ix := if j <? 0 then j + zlength xs else j) in *; clearbody ix.
      destruct Hx as [[Hi ->]|[Hi ->]].
      + destruct ((ix <? 0) || (zlength xs <=? ix)) eqn:Eb; [lia|].
        change (cells (mk xs rest)) with (map Some xs ++ rest).
        rewrite (read_ok xs rest ix (nth (Z.to_nat ix) xs default)); [|lia|apply nth_error_nth'; unfold zlength in Hi; lia]. cbn [bind].
        change (reserved (mk xs rest)) with (zlength xs + Z.of_nat (length rest)).
        destruct (popped_ok xs rest ix Hf Hi) as [E Hf'].
        destruct (close_gap (map Some xs ++ rest) ix (zlength xs)) as [cs|] eqn:Ec; [|discriminate]. cbn [bind] in *.
        apply ok_inj in E. eexists _, _; split; [reflexivity|]; cbn [fst snd]. rewrite E. split; [apply rep, Hf'|reflexivity].
      + destruct ((ix <? 0) || (zlength xs <=? ix)) eqn:Eb; [|lia]. cbn [fst snd].
        eexists _, _; split; [reflexivity|]; split; [apply rep, Hf|reflexivity].
    - cbv zeta. change (count (mk xs rest)) with (zlength xs). rewrite (compiled_index xs rest i Hf Ha).
      unfold py_get. change (Z.of_nat (length xs)) with (zlength xs).
      pose proof (index_ok xs i) as Hx; cbv zeta in Hx.
      set (ix := if i <? 0 then i + zlength xs else i) in *; clearbody ix.
      destruct Hx as [[Hi ->]|[Hi ->]]; cbn [bind].
      + destruct ((0 <=? ix) && (ix <? zlength xs)) eqn:Eb; [|lia].
        assert (Ev : nth_error xs (Z.to_nat ix) = Some (nth (Z.to_nat ix) xs default)) by (apply nth_error_nth'; unfold zlength in Hi; lia).
        change (cells (mk xs rest)) with (map Some xs ++ rest).
        rewrite (read_ok xs rest ix _ ltac:(lia) Ev), Ev; cbn [bind fst snd].
        eexists _, _; split; [reflexivity|]; split; [apply rep, Hf|reflexivity].
      + destruct ((0 <=? ix) && (ix <? zlength xs)) eqn:Eb; [lia|]. cbn [fst snd].
        eexists _, _; split; [reflexivity|]; split; [apply rep, Hf|reflexivity].
    - cbv zeta. change (count (mk xs rest)) with (zlength xs). rewrite (compiled_index xs rest i Hf Ha).
      unfold py_set. change (Z.of_nat (length xs)) with (zlength xs).
      pose proof (index_ok xs i) as Hx; cbv zeta in Hx.
      set (ix := if i <? 0 then i + zlength xs else i) in *; clearbody ix.
      destruct Hx as [[Hi ->]|[Hi ->]]; cbn [bind].
      + destruct ((0 <=? ix) && (ix <? zlength xs)) eqn:Eb; [|lia].
        change (cells (mk xs rest)) with (map Some xs ++ rest).
        rewrite write_old by assumption; cbn [bind fst snd].
        assert (El : zlength (replace_nth (Z.to_nat ix) v xs) = zlength xs) by (unfold zlength; rewrite replace_nth_length; reflexivity).
        exists (mk (replace_nth (Z.to_nat ix) v xs) rest), Nothing; split; [unfold mk; rewrite El; reflexivity|].
        split; [apply rep; unfold fits; rewrite El; exact Hf|exact I].
      + destruct ((0 <=? ix) && (ix <? zlength xs)) eqn:Eb; [lia|]. cbn [fst snd].
        eexists _, _; split; [reflexivity|]; split; [apply rep, Hf|reflexivity].
    - destruct Ha as [Hs [He Hk]]. remember (match step with None => 1 | Some k => k end) as k eqn:Ek.
      destruct (k =? 0) eqn:E0.
      { unfold c_slice; cbv zeta. rewrite <- Ek, E0. assert (k = 0) as -> by lia. cbn [bind fst snd].
        eexists _, _; split; [reflexivity|]; split; [apply rep, Hf|reflexivity]. }
      destruct (c_slice_ok false xs rest start stop step Hf Hs He Hk ltac:(lia) ltac:(discriminate)) as [new [-> Hn]]; cbn [bind].
      pose proof (python_slice xs start stop step k Ek ltac:(lia)) as Ep; cbn [python_step] in Ep; rewrite <- Ek in Ep; rewrite Ep; clear Ep; cbn [fst snd].
      eexists _, _; split; [reflexivity|]; split; [apply rep, Hf|]. rewrite Ek; exact Hn.
    - cbn [fst snd]. destruct (c_resize_ok w pod w_pos xs rest n (match v with Some v => v | None => default end) Hf Ha) as [rest' [E Hf']].
      done_with E Hf'.
    - cbn [fst snd]. destruct (c_reserve_ok w w_pos xs rest n Hf Ha) as [rest' [E [Hf' _]]]. done_with E Hf'.
    - cbn [fst snd]. destruct (c_clear_ok pod xs rest Hf) as [rest' [E Hf']].
      cbn [mk cells count reserved]. done_with E Hf'.
    - cbn [fst snd]. unfold c_copy.
      destruct (c_empty_ok (V := V) w w_pos) as [rest0 [E0 Hf0]].
      unfold c_empty in E0. destruct (malloc (V := V) w (wrap_u 64 w)) as [cs|] eqn:Em; [|discriminate]. cbn [bind] in E0 |- *.
      apply ok_inj in E0. change (count (mk xs rest)) with (zlength xs). rewrite E0.
      destruct (c_reserve_ok w w_pos [] rest0 (zlength xs) Hf0 ltac:(lia)) as [rest' [-> [Hf' Hr]]]. cbn [bind].
      rewrite zlength_nil in Hr.
      assert (En : Z.to_nat (zlength xs) = length xs) by (unfold zlength; lia). rewrite En.
      pose proof (construct_from_ok (read (cells (mk xs rest))) xs [] rest') as C.
      cbn [map app] in C; change (zlength (@nil V)) with 0 in C.
      change (cells (mk [] rest')) with rest'. rewrite C; clear C; [|unfold zlength in Hr; lia|].
      2: { intros m v Hv. change (cells (mk xs rest)) with (map Some xs ++ rest). apply read_ok; [lia|]. rewrite Z.add_0_l, Nat2Z.id; exact Hv. }
      cbn [bind]. rewrite wrap_s32_small by lia.
      eexists _, _; split; [reflexivity|]; split; [apply rep, Hf|]. cbn [answers]. apply represents_mk.
      exists (skipn (length xs) rest'); unfold mk, fits; cbn [reserved]. rewrite skipn_length, zlength_nil; unfold zlength in *.
      split; [f_equal; lia|lia].
    - cbn [fst snd]; unfold c_concatenate; cbv zeta. change (count (mk xs rest)) with (zlength xs). change (Z.of_nat (length vs)) with (zlength vs).
      pose proof (zlength_pos vs). unfold most in Ha. rewrite i64_small by lia.
      rewrite pre_reserved_ok by lia; cbn [bind cells reserved].
      assert (En : Z.to_nat (zlength xs) = length xs) by (unfold zlength; lia). rewrite En.
      set (blank := repeat None (Z.to_nat (zlength xs + zlength vs))).
      assert (Hbl : length blank = (length xs + length vs)%nat) by (unfold blank; rewrite repeat_length; unfold zlength; lia).
      pose proof (construct_from_ok (read (cells (mk xs rest))) xs [] blank) as C.
      cbn [map app] in C; change (zlength (@nil V)) with 0 in C. rewrite C; clear C; [|lia|].
      2: { intros m v Hv. change (cells (mk xs rest)) with (map Some xs ++ rest). apply read_ok; [lia|]. rewrite Z.add_0_l, Nat2Z.id; exact Hv. }
      cbn [bind].
      pose proof (extend_from_ok (fun _ i => match nth_error vs (Z.to_nat i) with Some v => Ok v | None => Err UndefinedBehaviour end)
                    vs xs (skipn (length xs) blank) (zlength xs)) as X.
      rewrite Z.sub_diag in X. rewrite X; clear X; [|rewrite skipn_length; lia|].
      2: { intros ys1 v ys2 r Ev. rewrite Z.add_0_l, (nth_values vs ys1 v ys2 Ev); reflexivity. }
      cbn [bind]. rewrite wrap_s32_small by lia.
      eexists _, _; split; [reflexivity|]; split; [apply rep, Hf|]. cbn [answers]. apply represents_mk.
      exists (skipn (length vs) (skipn (length xs) blank)); unfold mk, fits. rewrite !skipn_length, zlength_app; unfold zlength in *.
      split; [f_equal; lia|lia].
    - cbn [fst snd]. eexists _, _; split; [reflexivity|]; split; [apply rep, Hf|reflexivity].
    - cbn [fst snd]. unfold fits in Hf. cbn [mk reserved].
      eexists _, _; split; [reflexivity|]; split; [apply rep, Hf|cbn [answers]; lia].
  Qed.

  Lemma step_ok m l xs o : represents l xs -> admissible by_ref m xs o -> step_matches m l o xs.
  Proof.
    intros [rest [-> Hf]]%represents_mk Ha; destruct m; [apply interpreted_ok|apply compiled_ok]; assumption.
  Qed.

  Lemma run_ok : forall h l xs,
    represents l xs -> admissible_history default by_ref xs h ->
    exists l' rs, run w pod by_ref default l h = Ok (l', rs) /\
      represents l' (fst (python_run default xs h)) /\ Forall2 answers rs (snd (python_run default xs h)).
  Proof.
    induction h as [|[m o] h IH]; intros l xs Hr Ha; cbn [run python_run].
    - eexists _, _; split; [reflexivity|]; split; [exact Hr|constructor].
    - destruct Ha as [Ha Hh]. destruct (step_ok m l xs o Hr Ha) as [l1 [r1 [-> [Hr1 Ha1]]]]. cbn [bind].
      destruct (python_step default xs o) as [xs1 a1]; cbn [fst snd] in *.
      destruct (IH l1 xs1 Hr1 Hh) as [l2 [rs [-> [Hr2 Ha2]]]]. cbn [bind].
      destruct (python_run default xs1 h) as [xs2 as2]; cbn [fst snd] in *.
      eexists _, _; split; [reflexivity|]; split; [exact Hr2|constructor; assumption].
  Qed.

  (** *** Construction from an iterable *)
  Lemma construct_unbounded_ok (vs : list V) : forall xs rest,
    fits xs rest -> (0 < length rest)%nat -> zlength xs + zlength vs <= most ->
    exists rest', construct_unbounded w (mk xs rest) vs = Ok (mk (xs ++ vs) rest') /\ fits (xs ++ vs) rest'.
  Proof.
    induction vs as [|v vs IH]; intros xs rest Hf Hr Hm; cbn [construct_unbounded].
    - rewrite app_nil_r; eauto.
    - destruct rest as [|c rest]; cbn [length] in Hr; [lia|]. pose proof (zlength_pos xs); pose proof (zlength_pos vs).
      rewrite zlength_cons in Hm. unfold mk; cbn [cells count reserved]. rewrite write_next by reflexivity; cbn [bind]; cbv zeta.
      unfold fits in Hf; cbn [length] in *. unfold most in Hm. rewrite wrap_s32_small by lia. cbn [count reserved].
      assert (Em : {| cells := map Some (xs ++ [v]) ++ rest; count := zlength xs + 1; reserved := zlength xs + Z.of_nat (S (length rest)) |}
                   = mk (xs ++ [v]) rest).
      { unfold mk; rewrite zlength_app, zlength_cons, zlength_nil; f_equal; lia. }
      rewrite Em.
      assert (Hl : zlength (xs ++ [v]) = zlength xs + 1) by (rewrite zlength_app; reflexivity).
      assert (Hf1 : fits (xs ++ [v]) rest) by (unfold fits; lia).
      assert (Hx : exists rest1, (if zlength xs + Z.of_nat (S (length rest)) <=? zlength xs + 1
                     then reserve w (mk (xs ++ [v]) rest) (wrap_u 64 (grown (zlength xs + Z.of_nat (S (length rest)))))
                     else Ok (mk (xs ++ [v]) rest)) = Ok (mk (xs ++ [v]) rest1) /\ fits (xs ++ [v]) rest1 /\ (0 < length rest1)%nat).
      { destruct (zlength xs + Z.of_nat (S (length rest)) <=? zlength xs + 1) eqn:E.
        - replace (zlength xs + Z.of_nat (S (length rest))) with (zlength xs + 1) by lia.
          pose proof (grown_bound (zlength xs + 1) ltac:(unfold most; lia)) as G. rewrite wrap_u64_small by lia.
          destruct (reserve_ok w w_pos (xs ++ [v]) rest (grown (zlength xs + 1)) Hf1 ltac:(lia)) as [rest1 [E1 [Hf2 Hr2]]].
          exists rest1; split; [exact E1|]; split; [exact Hf2|]. rewrite Hl in Hr2; lia.
        - exists rest; split; [reflexivity|]; split; [exact Hf1|lia]. }
      destruct Hx as [rest1 [-> [Hf2 Hr2]]]; cbn [bind].
      destruct (IH (xs ++ [v]) rest1 Hf2 Hr2) as [rest2 [E2 Hf3]]; [unfold most; lia|].
      rewrite <- app_assoc in E2, Hf3; cbn [app] in E2, Hf3. eauto.
  Qed.
  Lemma construct_iterable_ok (vs : list V) : zlength vs <= most -> exists l, construct_iterable w vs = Ok l /\ represents l vs.
  Proof.
    intros Hm; unfold construct_iterable. rewrite malloc_ok by lia; cbn [bind].
    change (Lst (repeat None (Z.to_nat 1)) 0 1) with (mk (@nil V) [None]).
    destruct (construct_unbounded_ok vs [] [None]) as [rest [E Hf]]; [reflexivity|cbn; lia|exact Hm|].
    eexists; split; [exact E|]. apply represents_mk; eauto.
  Qed.

  (** *** Reversal *)
  Lemma swap_from_ok n : forall (a m b : list V) rest,
    length a = length b -> (2 * n = length m \/ 2 * n + 1 = length m)%nat ->
    swap_from (map Some (a ++ m ++ b) ++ rest) (zlength (a ++ m ++ b)) (zlength a) n = Ok (map Some (a ++ rev m ++ b) ++ rest).
  Proof.
    induction n as [|n IH]; intros a m b rest Hl Hn; cbn [swap_from].
    - assert (rev m = m) as -> by (destruct m as [|x [|y m]]; cbn [length] in Hn; [reflexivity|reflexivity|lia]). reflexivity.
    - destruct m as [|x m]; cbn [length] in Hn; [lia|].
      destruct (exists_last (l := m)) as [m' [y E]]; [destruct m; [cbn [length] in Hn; lia|discriminate]|]. subst m.
      rewrite app_length in Hn; cbn [length] in Hn.
      assert (El : forall u v : V, a ++ (u :: m' ++ [v]) ++ b = a ++ u :: (m' ++ v :: b))
        by (intros u v; cbn [app]; rewrite <- app_assoc; reflexivity).
      rewrite El.
      set (k := zlength a). set (c := zlength (a ++ x :: m' ++ y :: b)).
      assert (Hc : c - 1 - k = zlength (a ++ x :: m')).
      { unfold c, k. rewrite !zlength_app, !zlength_cons, !zlength_app, !zlength_cons. unfold zlength; lia. }
      assert (Hk : Z.to_nat k = length a) by (unfold k, zlength; lia).
      assert (Hck : Z.to_nat (c - 1 - k) = length (a ++ x :: m')) by (rewrite Hc; unfold zlength; lia).
      assert (Hk0 : 0 <= k) by apply zlength_pos.
      assert (Hkc : 0 <= k < c) by (unfold c, k; rewrite zlength_app, zlength_cons; pose proof (zlength_pos (m' ++ y :: b)); pose proof (zlength_pos a); lia).
      assert (Hc2 : 0 <= c - 1 - k < c) by lia.
      assert (Es : a ++ x :: m' ++ y :: b = (a ++ x :: m') ++ y :: b) by (rewrite <- app_assoc; reflexivity).
      rewrite (read_ok _ rest k x) by (lia || (rewrite Hk; apply nth_error_middle)). cbn [bind].
      rewrite (read_ok _ rest (c - 1 - k) y) by (lia || (rewrite Hck, Es; apply nth_error_middle)). cbn [bind].
      rewrite write_old by exact Hkc. rewrite Hk, replace_nth_middle. cbn [bind].
      assert (Es2 : a ++ y :: m' ++ y :: b = (a ++ y :: m') ++ y :: b) by (rewrite <- app_assoc; reflexivity).
      assert (Hc3 : zlength (a ++ y :: m' ++ y :: b) = c) by (unfold c; rewrite !zlength_app, !zlength_cons, !zlength_app, !zlength_cons; reflexivity).
      rewrite write_old by (rewrite Hc3; exact Hc2).
      assert (Hck2 : Z.to_nat (c - 1 - k) = length (a ++ y :: m')) by (rewrite Hck, !app_length; reflexivity).
      rewrite Hck2, Es2, replace_nth_middle. cbn [bind].
      replace (k + 1) with (zlength (a ++ [y])) by (unfold k; rewrite zlength_app; reflexivity).
      assert (Ef : (a ++ y :: m') ++ x :: b = (a ++ [y]) ++ m' ++ (x :: b)) by (rewrite <- !app_assoc; reflexivity).
      assert (Hcf : c = zlength ((a ++ [y]) ++ m' ++ x :: b)).
      { unfold c; repeat rewrite ?zlength_app, ?zlength_cons. rewrite zlength_nil; lia. }
      rewrite Ef, Hcf, IH; [|rewrite app_length; cbn [length]; lia|lia].
      cbn [rev]. rewrite rev_app_distr; cbn [rev app]. do 2 f_equal. rewrite <- !app_assoc; cbn [app]. rewrite <- ?app_assoc; reflexivity.
  Qed.

  Lemma reverse_ok (l : lst) (xs : list V) : represents l xs -> exists l', reverse l = Ok l' /\ represents l' (rev xs).
  Proof.
    intros [rest [-> Hf]]%represents_mk. unfold reverse; cbn [mk count cells reserved].
    assert (Hl : zlength (rev xs) = zlength xs) by (unfold zlength; rewrite rev_length; reflexivity).
    destruct (zlength xs <=? 1) eqn:E.
    - exists (mk xs rest); split; [reflexivity|].
      assert (rev xs = xs) as -> by (destruct xs as [|x [|y xs]]; [reflexivity|reflexivity|rewrite !zlength_cons in E; pose proof (zlength_pos xs); lia]).
      apply represents_mk; eauto.
    - pose proof (swap_from_ok (Z.to_nat (Z.quot (zlength xs) 2)) [] xs [] rest eq_refl) as S.
      cbn [app] in S; rewrite !app_nil_r in S. rewrite zlength_nil in S. rewrite S; clear S.
      + cbn [bind]. exists (mk (rev xs) rest). split; [unfold mk; rewrite Hl; reflexivity|]. apply represents_mk. exists rest; split; [reflexivity|].
        unfold fits in *; rewrite Hl; exact Hf.
      + pose proof (zlength_pos xs). rewrite Z.quot_div_nonneg by lia. unfold zlength in *. lia.
  Qed.
End Proofs.
