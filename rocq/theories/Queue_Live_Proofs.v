(** Liveness of TypedQueue: every execution ends, and where. *)
From Verif Require Import Base PyList PyList_Proofs Queue_Model Queue_Spec Queue_Proofs.
From Coq Require Import ZifyBool ZifyNat.
Open Scope Z_scope.

Section Live.
  Context {T : Type}.
  Notation pc := (pc T).
  Notation thread := (thread T).
  Notation shared := (shared T).
  Notation state := (state T).
  Notation SH := (total (fun th : thread => h (fst th))).
  Notation SE := (total (fun th : thread => e (fst th))).
  Notation SK := (total (fun th : thread => k (fst th))).
  Notation SW := (total (fun th : thread => w (fst th))).

  (** ** Where it can stop *)
  Lemma stuck_tstep (m : shared) a p prog b : stuck {| members := m; threads := a ++ (p, prog) :: b |} ->
    tstep m p (hd_error prog) = Blocked.
  Proof.
    intros St. specialize (St (length a)). unfold step in St. cbn [threads members] in St.
    rewrite nth_error_middle in St. destruct (tstep m p (hd_error prog)); (reflexivity || discriminate).
  Qed.

  Lemma total_pos (f : thread -> Z) l : (forall x, 0 <= f x) -> 0 < total f l -> exists a x b, l = a ++ x :: b /\ 0 < f x.
  Proof.
    intros P. induction l as [|x l IH]; cbn [total]; [lia|]. intros Pos.
    destruct (Z.eq_dec (f x) 0) as [Z0|N].
    - destruct IH as (a & y & b & -> & Fy); [lia|]. exists (x :: a), y, b. auto.
    - exists [], x, l. split; [reflexivity|]. specialize (P x). lia.
  Qed.

  Lemma stuck_no_waker (s : state) : stuck s -> inv s -> SE (threads s) = 0.
  Proof.
    intros St I0. pose proof (E_nonneg (threads s)) as N. destruct (Z.eq_dec (SE (threads s)) 0) as [|NZ]; [assumption|].
    exfalso. destruct (total_pos (fun th => e (fst th)) (threads s)) as (a & [p prog] & b & Es & Ex).
    { intros x. apply e_bounds. } { lia. }
    destruct s as [m ths]. cbn [threads fst] in *. subst ths.
    destruct p; cbn in Ex; try lia. pose proof (stuck_tstep _ _ _ _ _ St) as TS.
    apply tstep_inv in I0. cbn [tstep] in *. destruct (isEmptyLock m); [discriminate|contradiction].
  Qed.

  Lemma stuck_no_holder (s : state) : stuck s -> inv s -> SH (threads s) = 0.
  Proof.
    intros St I0. pose proof (H_nonneg (threads s)) as N. destruct (Z.eq_dec (SH (threads s)) 0) as [|NZ]; [assumption|].
    exfalso. destruct (total_pos (fun th => h (fst th)) (threads s)) as (a & [p prog] & b & Es & Ex).
    { intros x. apply h_bounds. } { lia. }
    pose proof (stuck_no_waker s St I0) as NW.
    destruct s as [m ths]. cbn [threads fst] in *. subst ths.
    pose proof (stuck_tstep _ _ _ _ _ St) as TS. pose proof (tstep_inv _ _ _ _ _ I0) as NF. rewrite TS in NF. clear NF.
    destruct I0 as [IL IE IP]. cbn [members threads] in *. unfold mark in IE. rewrite !(total_middle (T:=T)) in *. cbn [fst] in *.
    apply Forall_app in IP. destruct IP as [_ IPb]. apply Forall_cons_iff in IPb. destruct IPb as [IPp _]. cbn [fst] in IPp.
    pose proof (K_bounds a) as Ka. pose proof (K_bounds b) as Kb. pose proof (H_nonneg a). pose proof (H_nonneg b).
    destruct p as [|o res|o res|o res|o res|o res|o res x|rest cur|rest cur|r|r]; cbn [h e k w] in *; try lia; cbn [tstep] in TS.
    - unfold inside, take in TS. destruct o; try discriminate;
        repeat match type of TS with context [if ?c then _ else _] => destruct c end; try discriminate;
        destruct (pop (refill m)) as [[]|]; try discriminate;
        match type of TS with context [if ?c then _ else _] => destruct c end; discriminate.
    - destruct (lock m); discriminate.
    - destruct IPp as [_ Z0]. rewrite Z0 in IE. change (0 =? 0) with true in IE. cbv iota in IE.
      destruct (isEmptyLock m); [|discriminate]. unfold b2z in *. destruct (lock m); lia.
    - destruct rest; [discriminate|]. destruct (cur + 1 =? 1); discriminate.
    - destruct (isEmptyLock m); discriminate.
    - destruct (lock m); discriminate.
  Qed.

  Lemma stuck_end (s : state) : stuck s -> inv s ->
    Forall (fun th => finished th \/ waits_for_item th) (threads s) /\
    ((exists th, In th (threads s) /\ waits_for_item th) -> contents (members s) = []).
  Proof.
    intros St I0. pose proof (stuck_no_waker s St I0) as NW. pose proof (stuck_no_holder s St I0) as NH.
    assert (EL : lock (members s) = false).
    { destruct I0 as [IL _ _]. rewrite NH in IL. unfold b2z in IL. destruct (lock (members s)); [discriminate|reflexivity]. }
    assert (Each : Forall (fun th => finished th \/ (waits_for_item th /\ isEmptyLock (members s) = true)) (threads s)).
    { apply Forall_forall. intros [p prog] Hin. apply in_split in Hin. destruct Hin as (a & b & Es).
      destruct s as [m ths]. cbn [members threads] in *. subst ths. pose proof (stuck_tstep _ _ _ _ _ St) as TS.
      destruct I0 as [_ _ IP]. cbn [members threads] in IP.
      apply Forall_app in IP. destruct IP as [_ IPb]. apply Forall_cons_iff in IPb. destruct IPb as [IPp _].
      cbn [fst] in IPp. rewrite (total_middle (T:=T)) in NW, NH. cbn [fst] in *.
      pose proof (E_nonneg a). pose proof (E_nonneg b). pose proof (H_nonneg a). pose proof (H_nonneg b).
      destruct p as [|o res|o res|o res|o res|o res|o res x|rest cur|rest cur|r|r]; cbn [h e] in *; try lia; cbn [tstep] in TS.
      - left. destruct prog; [reflexivity|discriminate].
      - rewrite EL in TS. discriminate.
      - right. destruct (isEmptyLock m) eqn:L; [|discriminate]. split; [|reflexivity]. exists o, res, prog.
        split; [reflexivity|]. cbn [pc_ok] in IPp. destruct o; cbn [waits] in IPp; try contradiction; auto.
        right. exists minCount, maxCount. split; [reflexivity|]. lia.
      - discriminate. }
    split.
    - eapply Forall_impl; [|exact Each]. cbn. tauto.
    - intros (th & Hin & Hw). rewrite Forall_forall in Each.
      destruct (Each th Hin) as [F|[_ L]].
      { unfold finished in F. destruct Hw as (o & res & program & -> & _). discriminate. }
      destruct I0 as [_ IE _]. rewrite NW, L in IE. unfold mark, b2z in IE.
      pose proof (W_bounds (threads s)). rewrite NH in *. rewrite len_contents in IE.
      destruct (contents (members s)); [reflexivity|]. cbn [length] in IE.
      destruct (Z.eqb_spec (Z.of_nat (S (length l))) 0); lia.
  Qed.

  (** ** Every execution ends *)
  Definition rank (marked : bool) (p : pc) : Z :=
    match p with
    | Idle => 0
    | Acquire _ _ => if marked then 7 else 9
    | Inside _ _ => if marked then 6 else 8
    | WaitRelease _ _ => 2
    | WaitEmpty _ _ => if marked then 1 else 11
    | WaitEmptyRelease _ _ => if marked then 1 else 10
    | MarkEmpty _ _ _ => 7
    | Appending _ _ => 3
    | Wake _ _ => 4
    | Release _ => 2
    | Returned _ => 1
    end.
  Definition nput (o : op T) : Z := Z.of_nat (length (items_put o)).
  Definition nputs (prog : list (op T)) : Z := Z.of_nat (length (flat_map items_put prog)).
  Definition pc_puts (p : pc) : Z :=
    match p with Acquire o _ | Inside o _ => nput o | Appending l _ | Wake l _ => Z.of_nat (length l) | _ => 0 end.

  (** The part of the measure that does not depend on the mark; [B] pays for a wake-up. *)
  Definition fixed (B : Z) (th : thread) : Z :=
    20 * Z.of_nat (length (snd th)) + (B + 3) * (nputs (snd th) + pc_puts (fst th)) + B * w (fst th).
  Definition ranked (marked : bool) (th : thread) : Z := rank marked (fst th).

  Definition marked (s : state) : bool := negb (mark (members s) (threads s) =? 0).
  Definition measure_of (B : Z) (s : state) : Z :=
    len (members s) + total (fixed B) (threads s) + total (ranked (marked s)) (threads s).

  Lemma rank_bounds b p : 0 <= rank b p <= 11.
  Proof. destruct b, p; cbn; lia. Qed.
  Lemma ranked_more l : total (ranked true) l <= total (ranked false) l.
  Proof. apply total_le. intros [p prog]. unfold ranked. cbn [fst]. destruct p; cbn; lia. Qed.
  Lemma ranked_less (l : list (pc * list (op T))) : total (ranked false) l <= total (ranked true) l + 11 * Z.of_nat (length l).
  Proof.
    induction l as [|[p prog] l IH]; cbn [total length]; [lia|]. unfold ranked at 1 3. cbn [fst].
    assert (rank false p <= rank true p + 11) by (destruct p; cbn; lia). lia.
  Qed.

  Lemma tstep_measure m a p prog b m' p' ev B :
    inv {| members := m; threads := a ++ (p, prog) :: b |} ->
    11 * Z.of_nat (length (a ++ (p, prog) :: b)) < B ->
    tstep m p (hd_error prog) = Goes m' p' ev ->
    measure_of B {| members := m'; threads := a ++ (p', rest_of p prog) :: b |} <
    measure_of B {| members := m; threads := a ++ (p, prog) :: b |}.
  Proof.
    intros I0 HB TS. pose proof (tstep_inv _ _ _ _ _ I0) as I1. rewrite TS in I1.
    destruct I0 as [IL IE IP]. destruct I1 as [_ IE1 IP1]. cbn [members threads] in *.
    apply Forall_app in IP. destruct IP as [_ IPb]. apply Forall_cons_iff in IPb. destruct IPb as [IPp _]. cbn [fst] in IPp.
    unfold measure_of. cbn [members threads]. rewrite !(total_middle (T:=T)).
    rewrite app_length in HB. cbn [length] in HB.
    unfold marked. cbn [members threads].
    pose proof (ranked_more a) as Ra. pose proof (ranked_more b) as Rb.
    pose proof (ranked_less a) as La. pose proof (ranked_less b) as Lb.
    (* it is enough to look at the stepping thread *)
    assert (EQ : mark m' (a ++ (p', rest_of p prog) :: b) = mark m (a ++ (p, prog) :: b) ->
      len m' + fixed B (p', rest_of p prog) + rank (negb (mark m (a ++ (p, prog) :: b) =? 0)) p' <
      len m + fixed B (p, prog) + rank (negb (mark m (a ++ (p, prog) :: b) =? 0)) p ->
      len m' + (total (fixed B) a + fixed B (p', rest_of p prog) + total (fixed B) b) +
      (total (ranked (negb (mark m' (a ++ (p', rest_of p prog) :: b) =? 0))) a +
       ranked (negb (mark m' (a ++ (p', rest_of p prog) :: b) =? 0)) (p', rest_of p prog) +
       total (ranked (negb (mark m' (a ++ (p', rest_of p prog) :: b) =? 0))) b) <
      len m + (total (fixed B) a + fixed B (p, prog) + total (fixed B) b) +
      (total (ranked (negb (mark m (a ++ (p, prog) :: b) =? 0))) a +
       ranked (negb (mark m (a ++ (p, prog) :: b) =? 0)) (p, prog) +
       total (ranked (negb (mark m (a ++ (p, prog) :: b) =? 0))) b)).
    { intros -> Lt. unfold ranked at 2 5. cbn [fst]. lia. }
    unfold mark in *. rewrite !(total_middle (T:=T)) in *. cbn [fst] in *.
    pose proof (H_nonneg a). pose proof (H_nonneg b). pose proof (E_nonneg a). pose proof (E_nonneg b).
    pose proof (K_bounds a). pose proof (K_bounds b). pose proof (W_bounds a). pose proof (W_bounds b).
    assert (Hab : h p = 1 -> SH a = 0 /\ SH b = 0 /\ SK a = 0 /\ SK b = 0 /\ SW a = 0 /\ SW b = 0)
      by (intros Hp; unfold b2z in IL; destruct (lock m); lia).
    assert (NP : forall o, nputs (o :: prog) = nput o + nputs prog).
    { intros o. unfold nputs, nput. cbn [flat_map]. rewrite app_length. lia. }
    assert (TK : forall o res, p = Inside o res -> takes o res ->
       take o res m = Goes m' p' ev ->
       (if len m' =? 0 then 1 - (SK a + k p' + SK b) else SW a + w p' + SW b) =
       (if len m =? 0 then 1 - (SK a + k p + SK b) else SW a + w p + SW b) /\
       len m' + fixed B (p', rest_of p prog) + rank (negb ((if len m =? 0 then 1 - (SK a + k p + SK b) else SW a + w p + SW b) =? 0)) p' <
       len m + fixed B (p, prog) + rank (negb ((if len m =? 0 then 1 - (SK a + k p + SK b) else SW a + w p + SW b) =? 0)) p).
    { clear EQ. intros o res -> Ht TE. destruct (Hab eq_refl) as (_ & _ & -> & -> & -> & ->). cbn [k w rest_of] in *.
      unfold take in TE. pose proof (pop_refill m) as PR. rewrite (len_contents m).
      assert (nput o = 0) as No by (destruct o; cbn in Ht; try contradiction; reflexivity).
      destruct (contents m) as [|x q] eqn:C.
      - destruct PR as [PN PC]. rewrite PN in TE. destruct o; try discriminate. injection TE as <- <- <-.
        rewrite len_contents, PC. unfold fixed. cbn. split; [reflexivity|lia].
      - destruct PR as (m1 & PS & PC & _ & _). rewrite PS, len_contents, PC in TE.
        destruct (Z.eqb_spec (Z.of_nat (length q)) 0) as [Q|Q]; injection TE as <- <- <-.
        + rewrite len_contents, PC. unfold fixed. cbn [fst snd pc_puts k w length rank]. rewrite No.
          destruct (Z.eqb_spec (Z.of_nat (length q)) 0); [|lia].
          destruct (Z.eqb_spec (Z.of_nat (S (length q))) 0); [lia|]. cbn [Z.add Z.eqb negb]. split; lia.
        + assert (AP : k (after_pop o res x) = 0 /\ w (after_pop o res x) = 0 /\ rank false (after_pop o res x) <= 8 /\
                       pc_puts (after_pop o res x) = 0).
          { unfold after_pop. destruct o; cbn in Ht; try contradiction; cbn; lia. }
          destruct AP as (A1 & A2 & A3 & A4).
          rewrite len_contents, PC. unfold fixed. cbn [fst snd]. rewrite A1, A2, A4. cbn [pc_puts k w length].
          destruct (Z.eqb_spec (Z.of_nat (length q)) 0); [lia|].
          destruct (Z.eqb_spec (Z.of_nat (S (length q))) 0); [lia|]. cbn [Z.add Z.eqb negb].
          rewrite No. split; [lia|]. change (rank false (Inside o res)) with 8. lia. }
    assert (LP : forall x, len (set_lists m (pushable m ++ [x]) (poppable m)) = len m + 1).
    { intros x. unfold len. cbn [set_lists pushable poppable]. rewrite app_length. cbn [length]. lia. }
    assert (L0 : 0 <= len m) by (unfold len; lia).
    destruct p as [|o res|o res|o res|o res|o res|o res x|rest cur|rest cur|r|r]; cbn [tstep] in TS.
    - destruct prog as [|o prog]; cbn [hd_error] in TS; [discriminate|]. injection TS as <- <- <-.
      apply EQ; [reflexivity || (rewrite ?Z0; reflexivity)|]. clear EQ. unfold fixed. cbn [rest_of tl fst snd pc_puts w length].
      unfold nputs. cbn [flat_map]. rewrite app_length. unfold nput.
      cbn [rank]. destruct (negb _); lia.
    - destruct (lock m); [discriminate|]. injection TS as <- <- <-. apply EQ; [reflexivity || (rewrite ?Z0; reflexivity)|]. clear EQ.
      change (len (set_lock m true)) with (len m).
      unfold fixed. cbn [rest_of fst snd pc_puts w rank]. destruct (negb _); lia.
    - destruct (Hab eq_refl) as (Ha & Hb & Ka & Kb & Wa & Wb). unfold inside in TS. destruct o as [| |mn mx|x|l| |].
      + destruct (Z.eqb_spec (len m) 0) as [Z0|Z0].
        * injection TS as <- <- <-. apply EQ; [reflexivity || (rewrite ?Z0; reflexivity)|]. clear EQ.
          unfold fixed. cbn [rest_of fst snd pc_puts w rank]; unfold nput; cbn [items_put length]; change (Z.of_nat 0) with 0; change (Z.of_nat 1) with 1; destruct (negb _); lia.
        * apply EQ; apply (TK Get res); cbn; auto.
      + apply EQ; apply (TK GetNonblocking res); cbn; auto.
      + destruct (Z.ltb_spec (Z.of_nat (length res)) mx) as [M|M].
        2: { injection TS as <- <- <-. apply EQ; [reflexivity || (rewrite ?Z0; reflexivity)|]. clear EQ.
             unfold fixed. cbn [rest_of fst snd pc_puts w rank]; unfold nput; cbn [items_put length]; change (Z.of_nat 0) with 0; change (Z.of_nat 1) with 1; destruct (negb _); lia. }
        destruct (Z.eqb_spec (len m) 0) as [Z0|Z0]; cbn [andb] in TS.
        2: { destruct (Z.eqb_spec (len m) 0) as [Z1|Z1] in *; [contradiction|].
             apply EQ; apply (TK (GetMany mn mx) res); cbn; auto. }
        destruct (mn <=? Z.of_nat (length res)); injection TS as <- <- <-; (apply EQ; [reflexivity || (rewrite ?Z0; reflexivity)|]); clear EQ;
          unfold fixed; cbn [rest_of fst snd pc_puts w rank]; unfold nput; cbn [items_put length]; change (Z.of_nat 0) with 0; change (Z.of_nat 1) with 1; destruct (negb _); lia.
      + specialize (LP x). rewrite LP in TS. destruct (Z.eqb_spec (len m + 1) 1) as [Z1|Z1]; injection TS as <- <- <-;
          rewrite LP in *; (apply EQ; clear EQ).
        * cbn [k w]. destruct (Z.eqb_spec (len m + 1) 0); destruct (Z.eqb_spec (len m) 0); lia.
        * unfold fixed. cbn [rest_of fst snd pc_puts w rank]; unfold nput; cbn [items_put length]; change (Z.of_nat 0) with 0; change (Z.of_nat 1) with 1; destruct (negb _); lia.
        * cbn [k w]. destruct (Z.eqb_spec (len m + 1) 0); destruct (Z.eqb_spec (len m) 0); lia.
        * unfold fixed. cbn [rest_of fst snd pc_puts w rank]; unfold nput; cbn [items_put length]; change (Z.of_nat 0) with 0; change (Z.of_nat 1) with 1; destruct (negb _); lia.
      + injection TS as <- <- <-. apply EQ; [reflexivity || (rewrite ?Z0; reflexivity)|]. clear EQ.
        unfold fixed. cbn [rest_of fst snd pc_puts w rank]. unfold nput. cbn [items_put]. destruct (negb _); lia.
      + injection TS as <- <- <-. apply EQ; [reflexivity || (rewrite ?Z0; reflexivity)|]. clear EQ.
        unfold fixed. cbn [rest_of fst snd pc_puts w rank]; unfold nput; cbn [items_put length]; change (Z.of_nat 0) with 0; change (Z.of_nat 1) with 1; destruct (negb _); lia.
      + injection TS as <- <- <-. apply EQ; [reflexivity || (rewrite ?Z0; reflexivity)|]. clear EQ.
        unfold fixed. cbn [rest_of fst snd pc_puts w rank]; unfold nput; cbn [items_put length]; change (Z.of_nat 0) with 0; change (Z.of_nat 1) with 1; destruct (negb _); lia.
    - destruct (Hab eq_refl) as (Ha & Hb & Ka & Kb & Wa & Wb). destruct IPp as [_ Z0].
      destruct (lock m); [|discriminate]. injection TS as <- <- <-. apply EQ; [reflexivity || (rewrite ?Z0; reflexivity)|]. clear EQ.
      change (len (set_lock m false)) with (len m). rewrite Z0, Ka, Kb.
      unfold fixed. cbn [rest_of fst snd pc_puts w k rank]. cbn. lia.
    - destruct (isEmptyLock m) eqn:L; [discriminate|]. injection TS as <- <- <-. apply EQ; [reflexivity || (rewrite ?Z0; reflexivity)|]. clear EQ.
      change (len (set_empty m true)) with (len m).
      unfold fixed. cbn [rest_of fst snd pc_puts]. cbn [e w k] in *.
      set (M := if len m =? 0 then 1 - (SK a + 0 + SK b) else SW a + 0 + SW b) in *.
      assert (0 <= M) by (subst M; unfold b2z in IL; destruct (len m =? 0), (lock m); cbn [h] in *; lia).
      unfold b2z in IE. replace M with 0 by lia. cbn [rank Z.eqb negb]. lia.
    - destruct (isEmptyLock m) eqn:L; [|discriminate]. injection TS as <- <- <-. apply EQ; [reflexivity || (rewrite ?Z0; reflexivity)|]. clear EQ.
      change (len (set_empty m false)) with (len m).
      unfold fixed. cbn [rest_of fst snd pc_puts]. cbn [e w k] in *.
      assert (nput o = 0) as No by (cbn [pc_ok] in IPp; destruct o; cbn in IPp; try contradiction; reflexivity).
      set (M := if len m =? 0 then 1 - (SK a + 0 + SK b) else SW a + 0 + SW b) in *.
      assert (0 <= M) by (subst M; unfold b2z in IL; destruct (len m =? 0), (lock m); cbn [h] in *; lia).
      unfold b2z in IE. replace M with 0 by lia. cbn [rank Z.eqb negb]. rewrite No. lia.
    - destruct (Hab eq_refl) as (Ha & Hb & Ka & Kb & Wa & Wb). destruct IPp as [Ht Z0].
      destruct (isEmptyLock m) eqn:L; [discriminate|]. injection TS as <- <- <-. clear EQ.
      change (len (set_empty m true)) with (len m). rewrite Z0, Ka, Kb. change (0 =? 0) with true. cbv iota.
      assert (AP : k (after_pop o res x) = 0 /\ w (after_pop o res x) = 0 /\ rank true (after_pop o res x) <= 6 /\
                   pc_puts (after_pop o res x) = 0).
      { unfold after_pop. destruct o; cbn in Ht; try contradiction; cbn; lia. }
      destruct AP as (A1 & A2 & A3 & A4). rewrite A1. cbn [k].
      change (negb (1 - (0 + 0 + 0) =? 0)) with true. change (negb (1 - (0 + 1 + 0) =? 0)) with false.
      unfold fixed at 2 5. unfold ranked at 2 5. cbn [rest_of fst snd]. rewrite A2, A4. cbn [pc_puts w rank]. lia.
    - destruct (Hab eq_refl) as (Ha & Hb & Ka & Kb & Wa & Wb). cbn [pc_ok] in IPp. subst cur. destruct rest as [|x rest].
      + injection TS as <- <- <-. apply EQ; [reflexivity || (rewrite ?Z0; reflexivity)|]. clear EQ.
        unfold fixed. cbn [rest_of fst snd pc_puts w rank length]. lia.
      + specialize (LP x). destruct (Z.eqb_spec (len m + 1) 1) as [Z1|Z1]; injection TS as <- <- <-;
          rewrite LP in *; (apply EQ; clear EQ).
        * cbn [k w]. destruct (Z.eqb_spec (len m + 1) 0); destruct (Z.eqb_spec (len m) 0); lia.
        * unfold fixed. cbn [rest_of fst snd pc_puts w rank length]. lia.
        * cbn [k w]. destruct (Z.eqb_spec (len m + 1) 0); destruct (Z.eqb_spec (len m) 0); lia.
        * unfold fixed. cbn [rest_of fst snd pc_puts w rank length]. lia.
    - destruct (Hab eq_refl) as (Ha & Hb & Ka & Kb & Wa & Wb). destruct IPp as [-> Z0].
      destruct (isEmptyLock m) eqn:L; [|discriminate]. injection TS as <- <- <-. clear EQ.
      change (len (set_empty m false)) with (len m). rewrite Ka, Kb, Wa, Wb.
      destruct (Z.eqb_spec (len m) 0); [lia|]. cbn [w].
      change (negb (0 + 0 + 0 =? 0)) with false. change (negb (0 + 1 + 0 =? 0)) with true.
      unfold fixed at 2 5. unfold ranked at 2 5. cbn [rest_of fst snd pc_puts w rank]. lia.
    - destruct (lock m); [|discriminate]. injection TS as <- <- <-. apply EQ; [reflexivity || (rewrite ?Z0; reflexivity)|]. clear EQ.
      change (len (set_lock m false)) with (len m).
      unfold fixed. cbn [rest_of fst snd pc_puts w rank]. lia.
    - injection TS as <- <- <-. apply EQ; [reflexivity || (rewrite ?Z0; reflexivity)|]. clear EQ.
      unfold fixed. cbn [rest_of fst snd pc_puts w rank]. lia.
  Qed.

  Lemma step_measure t (s s' : state) ev B : inv s -> 11 * Z.of_nat (length (threads s)) < B ->
    step t s = Ok (Some (s', ev)) ->
    measure_of B s' < measure_of B s /\ length (threads s') = length (threads s).
  Proof.
    intros I0 HB S. pose proof (step_cases t s) as C. destruct (nth_error (threads s) t) as [[p prog]|]; [|congruence].
    destruct C as (a & b & Es & _ & C). rewrite S in C. destruct s as [m ths]. cbn [members threads] in *. subst ths.
    destruct (tstep m p (hd_error prog)) as [| |m' p' ev'] eqn:TS; try discriminate. injection C as -> ->.
    split; [eapply tstep_measure; eauto|]. cbn [threads]. rewrite !app_length. reflexivity.
  Qed.

  Lemma measure_nonneg B s : 0 <= B -> 0 <= measure_of B s.
  Proof.
    intros HB. unfold measure_of.
    assert (0 <= len (members s)) by (unfold len; lia).
    assert (0 <= total (fixed B) (threads s)).
    { apply total_nonneg. intros [p prog]. unfold fixed. cbn [fst snd].
      assert (0 <= nputs prog) by (unfold nputs; lia). assert (0 <= pc_puts p) by (destruct p; cbn; unfold nput; lia).
      pose proof (w_bounds p). nia. }
    assert (0 <= total (ranked (marked s)) (threads s)).
    { apply total_nonneg. intros [p prog]. apply rank_bounds. }
    lia.
  Qed.

  Definition bound_B (s : state) : Z := 11 * Z.of_nat (length (threads s)) + 1.

  Lemma moves_bounded_from schedule : forall (s : state) B, inv s -> 11 * Z.of_nat (length (threads s)) < B ->
    Z.of_nat (moves schedule s) <= measure_of B s.
  Proof.
    induction schedule as [|t schedule IH]; intros s B I0 HB; cbn [moves]; [apply measure_nonneg; lia|].
    pose proof (step_inv t s I0) as SI.
    destruct (step t s) as [[[s1 ev]|]|] eqn:S; [|now apply IH|contradiction].
    destruct (step_measure t s s1 ev B I0 HB S) as [D L]. specialize (IH s1 B SI). rewrite L in IH. specialize (IH HB). lia.
  Qed.

  Lemma moves_bounded (programs : list (list (op T))) :
    exists n, forall schedule, (moves schedule (start programs) <= n)%nat.
  Proof.
    exists (Z.to_nat (measure_of (bound_B (start programs)) (start programs))). intros schedule.
    pose proof (moves_bounded_from schedule (start programs) (bound_B (start programs)) (start_inv programs)).
    unfold bound_B in *. lia.
  Qed.

  (** ** Fair schedules *)
  Lemma run_app sch1 : forall sch2 (s s1 : state) h1, run sch1 s = Ok (s1, h1) ->
    run (sch1 ++ sch2) s = match run sch2 s1 with Ok (s2, h2) => Ok (s2, h1 ++ h2) | Err x => Err x end.
  Proof.
    induction sch1 as [|t sch1 IH]; intros sch2 s s1 h1 R; cbn [run app] in *.
    - injection R as <- <-. destruct (run sch2 s) as [[]|]; reflexivity.
    - destruct (step t s) as [[[s0 ev]|]|]; [|now apply IH|discriminate].
      destruct (run sch1 s0) as [[s2 h2]|] eqn:R1; [|discriminate]. injection R as <- <-.
      rewrite (IH sch2 s0 s2 h2 R1). destruct (run sch2 s2) as [[s3 h3]|]; [|reflexivity].
      destruct ev; reflexivity.
  Qed.

  Lemma no_moves_blocked sch : forall s : state, moves sch s = O -> inv s -> run sch s = Ok (s, []) /\ forall t, In t sch -> step t s = Ok None.
  Proof.
    induction sch as [|t sch IH]; intros s M I0; cbn [moves run] in *.
    - split; [reflexivity|]. intros t [].
    - pose proof (step_inv t s I0) as SI. destruct (step t s) as [[[s0 ev]|]|] eqn:S; [discriminate| |contradiction].
      destruct (IH s M I0) as [R F]. split; [exact R|]. intros u [<-|Hu]; auto.
  Qed.

  Lemma stuck_stays sch : forall s : state, stuck s -> run sch s = Ok (s, []).
  Proof. induction sch as [|t sch IH]; intros s St; cbn [run]; [reflexivity|]. rewrite (St t). now apply IH. Qed.

  Lemma run_measure sch : forall (s : state) B, inv s -> 11 * Z.of_nat (length (threads s)) < B ->
    exists s' hist, run sch s = Ok (s', hist) /\ inv s' /\ length (threads s') = length (threads s) /\
      measure_of B s' + Z.of_nat (moves sch s) <= measure_of B s.
  Proof.
    induction sch as [|t sch IH]; intros s B I0 HB; cbn [run moves].
    - exists s, []. split; [reflexivity|]. split; [exact I0|]. split; [reflexivity|]. lia.
    - pose proof (step_inv t s I0) as SI.
      destruct (step t s) as [[[s1 ev]|]|] eqn:S; [|now apply IH|contradiction].
      destruct (step_measure t s s1 ev B I0 HB S) as [D L]. destruct (IH s1 B SI) as (s2 & h2 & R & I2 & L2 & M2); [lia|].
      rewrite R. exists s2. eexists. split; [reflexivity|]. split; [exact I2|]. split; [lia|]. lia.
  Qed.

  Lemma fair_rounds rounds : forall (s : state) B, inv s -> 11 * Z.of_nat (length (threads s)) < B ->
    Forall (fair_round (length (threads s))) rounds -> measure_of B s < Z.of_nat (length rounds) ->
    exists s' hist, run (concat rounds) s = Ok (s', hist) /\ inv s' /\ stuck s'.
  Proof.
    induction rounds as [|r rounds IH]; intros s B I0 HB F M; cbn [length concat] in *.
    - pose proof (measure_nonneg B s). lia.
    - apply Forall_cons_iff in F. destruct F as [Fr F].
      destruct (moves r s) as [|mv] eqn:Mv.
      + destruct (no_moves_blocked r s Mv I0) as [R Bl].
        assert (stuck s) as St.
        { intros t. destruct (Nat.ltb_spec t (length (threads s))) as [Lt|Ge]; [apply Bl, Fr, Lt|].
          unfold step. apply nth_error_None in Ge. now rewrite Ge. }
        exists s, []. rewrite (stuck_stays _ s St). auto.
      + destruct (run_measure r s B I0 HB) as (s1 & h1 & R & I1 & L1 & M1).
        destruct (IH s1 B I1) as (s2 & h2 & R2 & I2 & St); [now rewrite L1|now rewrite L1|lia|].
        exists s2, (h1 ++ h2). rewrite (run_app r (concat rounds) s s1 h1 R), R2. auto.
  Qed.

  (** ** Enough items for everybody *)
  Definition is_Get (o : op T) : bool := match o with Get => true | _ => false end.
  Definition ngets (prog : list (op T)) : Z := Z.of_nat (length (filter is_Get prog)).
  Definition pc_op (p : pc) : list (op T) :=
    match p with
    | Acquire o _ | Inside o _ | WaitRelease o _ | WaitEmpty o _ | WaitEmptyRelease o _ | MarkEmpty o _ _ => [o]
    | _ => []
    end.
  Definition pc_gets (p : pc) : Z :=
    match p with
    | Acquire o _ | Inside o _ | WaitRelease o _ | WaitEmpty o _ | WaitEmptyRelease o _ => ngets [o]
    | _ => 0
    end.
  Definition owed (th : thread) : Z := nputs (snd th) + pc_puts (fst th) - (ngets (snd th) + pc_gets (fst th)).
  Definition single_sided (th : thread) : Prop :=
    Forall is_get (pc_op (fst th) ++ snd th) \/ Forall is_put (pc_op (fst th) ++ snd th).

  Lemma single_sided_op o (res : list T) prog p : single_sided (p, prog) -> pc_op p = [o] ->
    o = Get \/ is_put o.
  Proof.
    intros S E. unfold single_sided in S. cbn [fst snd] in S. rewrite E in S. cbn [app] in S.
    destruct S as [S|S]; apply Forall_cons_iff in S; destruct S; auto.
  Qed.

  Lemma tstep_owed m p prog m' p' ev : single_sided (p, prog) -> pc_ok (len m) p ->
    tstep m p (hd_error prog) = Goes m' p' ev ->
    len m' + owed (p', rest_of p prog) = len m + owed (p, prog) /\ single_sided (p', rest_of p prog).
  Proof.
    intros SS PK TS.
    assert (LP : forall x, len (set_lists m (pushable m ++ [x]) (poppable m)) = len m + 1).
    { intros x. unfold len. cbn [set_lists pushable poppable]. rewrite app_length. cbn [length]. lia. }
    assert (Sub : pc_op p' ++ rest_of p prog = pc_op p ++ prog \/
                  (pc_op p' = [] /\ rest_of p prog = prog) -> single_sided (p', rest_of p prog)).
    { unfold single_sided in *. cbn [fst snd] in *. intros [-> | [-> ->]]; [exact SS|].
      cbn [app]. destruct SS as [SS|SS]; apply Forall_app in SS; destruct SS; auto. }
    destruct p as [|o res|o res|o res|o res|o res|o res x|rest cur|rest cur|r|r]; cbn [tstep] in TS.
    - destruct prog as [|o prog]; cbn [hd_error] in TS; [discriminate|]. injection TS as <- <- <-.
      split; [|apply Sub; left; reflexivity]. unfold owed, nputs, nput, ngets. cbn [rest_of tl fst snd pc_puts pc_gets flat_map filter].
      unfold nput, ngets. rewrite app_length. cbn [filter]. destruct (is_Get o); cbn [length]; lia.
    - destruct (lock m); [discriminate|]. injection TS as <- <- <-. split; [reflexivity|]. apply Sub. auto.
    - unfold inside in TS.
      destruct (single_sided_op o res prog _ SS eq_refl) as [-> |IP].
      + destruct (Z.eqb_spec (len m) 0) as [Z0|Z0].
        * injection TS as <- <- <-. split; [reflexivity|]. apply Sub. auto.
        * unfold take in TS. pose proof (pop_refill m) as PR. rewrite (len_contents m) in *.
          destruct (contents m) as [|x q]; [cbn in Z0; lia|]. destruct PR as (m1 & PS & PC & _). rewrite PS in TS.
          assert (m' = m1 /\ owed (p', prog) = owed (Inside Get res, prog) + 1 /\
                  single_sided (p', rest_of (Inside Get res) prog)) as (-> & O & S).
          { destruct (len m1 =? 0); injection TS as <- <- <-; (split; [reflexivity|]).
            - split; [unfold owed; cbn; lia|]. apply Sub. left. reflexivity.
            - split; [unfold owed; cbn; lia|]. apply Sub. right. auto. }
          split; [|exact S]. cbn [rest_of]. rewrite O, len_contents, PC. cbn [length]. lia.
      + destruct o as [| |mn mx|x|l| |]; try contradiction.
        * rewrite LP in TS.
          assert (m' = set_lists m (pushable m ++ [x]) (poppable m) /\ pc_puts p' = 0 /\ pc_gets p' = 0 /\ pc_op p' = [])
            as (-> & P1 & P2 & P3).
          { destruct (len m + 1 =? 1); injection TS as <- <- <-; auto. }
          split; [|apply Sub; auto]. rewrite LP. unfold owed. cbn [rest_of fst snd]. rewrite P1, P2. cbn. lia.
        * injection TS as <- <- <-. split; [|apply Sub; auto]. unfold owed. cbn [rest_of fst snd pc_puts pc_gets]. unfold nput, ngets. cbn. lia.
        * injection TS as <- <- <-. split; [|apply Sub; auto]. unfold owed. cbn. lia.
        * injection TS as <- <- <-. split; [|apply Sub; auto]. unfold owed. cbn. lia.
    - destruct (lock m); [|discriminate]. injection TS as <- <- <-. split; [reflexivity|]. apply Sub. auto.
    - destruct (isEmptyLock m); [discriminate|]. injection TS as <- <- <-. split; [reflexivity|]. apply Sub. auto.
    - destruct (isEmptyLock m); [|discriminate]. injection TS as <- <- <-. cbn [pc_ok] in PK.
      assert (nput o = 0) as No by (destruct o; cbn in PK; try contradiction; reflexivity).
      split; [|apply Sub; auto]. change (len (set_empty m false)) with (len m).
      unfold owed. cbn [rest_of fst snd pc_puts pc_gets]. lia.
    - destruct (isEmptyLock m); [discriminate|]. injection TS as <- <- <-. cbn [pc_ok] in PK. destruct PK as [Ht _].
      destruct (single_sided_op o res prog _ SS eq_refl) as [-> |IP]; [|destruct o; cbn in *; contradiction].
      split; [|apply Sub; auto]. reflexivity.
    - cbn [pc_ok] in PK. subst cur. destruct rest as [|x rest].
      + injection TS as <- <- <-. split; [reflexivity|]. apply Sub. auto.
      + assert (m' = set_lists m (pushable m ++ [x]) (poppable m) /\ pc_puts p' = Z.of_nat (length rest) /\ pc_gets p' = 0 /\ pc_op p' = [])
            as (-> & P1 & P2 & P3).
        { destruct (len m + 1 =? 1); injection TS as <- <- <-; auto. }
        split; [|apply Sub; auto]. rewrite LP. unfold owed. cbn [rest_of fst snd]. rewrite P1, P2. cbn [pc_puts pc_gets length]. lia.
    - destruct (isEmptyLock m); [|discriminate]. injection TS as <- <- <-. split; [reflexivity|]. apply Sub. auto.
    - destruct (lock m); [|discriminate]. injection TS as <- <- <-. split; [reflexivity|]. apply Sub. auto.
    - injection TS as <- <- <-. split; [reflexivity|]. apply Sub. auto.
  Qed.

  Lemma run_owed sch : forall (s s' : state) hist, inv s -> Forall single_sided (threads s) -> run sch s = Ok (s', hist) ->
    len (members s') + total owed (threads s') = len (members s) + total owed (threads s) /\ Forall single_sided (threads s').
  Proof.
    induction sch as [|t sch IH]; intros s s' hist I0 F R; cbn [run] in R.
    - injection R as <- <-. auto.
    - pose proof (step_inv t s I0) as SI. pose proof (step_cases t s) as C.
      destruct (step t s) as [[[s1 ev]|]|] eqn:S; [|now apply (IH s s' hist)|contradiction].
      destruct (run sch s1) as [[s2 h2]|] eqn:R1; [|discriminate]. injection R as <- <-.
      destruct (nth_error (threads s) t) as [[p prog]|]; [|discriminate].
      destruct C as (a & b & Es & _ & C). destruct s as [m ths]. cbn [members threads] in *. subst ths.
      destruct (tstep m p (hd_error prog)) as [| |m' p' ev'] eqn:TS; try discriminate. injection C as -> ->.
      apply Forall_app in F. destruct F as [Fa Fb]. apply Forall_cons_iff in Fb. destruct Fb as [Fp Fb].
      destruct I0 as [_ _ IP]. cbn [members threads] in IP. apply Forall_app in IP. destruct IP as [_ IPb].
      apply Forall_cons_iff in IPb. destruct IPb as [IPp _]. cbn [fst] in IPp.
      destruct (tstep_owed _ _ _ _ _ _ Fp IPp TS) as [O SS].
      destruct (IH _ s2 h2 SI) as [O2 F2]; [|exact R1|].
      { cbn [threads]. apply Forall_app. split; [exact Fa|]. constructor; assumption. }
      split; [|exact F2]. rewrite O2. cbn [members threads]. rewrite !(total_middle (T:=T)). lia.
  Qed.

  Lemma start_owed programs : total owed (threads (start (T:=T) programs)) = Z.of_nat (number_put programs) - Z.of_nat (number_gets programs).
  Proof.
    unfold number_put, number_gets, start. cbn [threads].
    induction programs as [|p l IH]; [reflexivity|]. cbn [map total concat]. rewrite IH.
    rewrite flat_map_app, filter_app, !app_length. unfold owed, nputs, ngets. cbn [fst snd pc_puts pc_gets]. unfold is_Get. lia.
  Qed.

  Lemma enough_items programs rounds :
    Forall (fun p : list (op T) => Forall is_get p \/ Forall is_put p) programs ->
    (number_gets programs <= number_put programs)%nat ->
    forall s hist, run rounds (start programs) = Ok (s, hist) -> stuck s -> Forall finished (threads s).
  Proof.
    intros F HN s hist R St.
    assert (I1 : inv s) by (pose proof (run_inv rounds _ (start_inv programs)) as RI; now rewrite R in RI).
    destruct (stuck_end s St I1) as [Each Empty].
    assert (S0 : Forall single_sided (threads (start programs))).
    { apply Forall_forall. intros th Hth. cbn [start threads] in Hth. apply in_map_iff in Hth. destruct Hth as (p & <- & Hp).
      rewrite Forall_forall in F. apply F in Hp. exact Hp. }
    destruct (run_owed rounds _ _ _ (start_inv programs) S0 R) as [O SS].
    rewrite start_owed in O. change (len (members (start (T:=T) programs))) with 0 in O.
    assert (NonPos : Forall (fun th => owed th <= 0 /\ (waits_for_item th -> owed th < 0)) (threads s)).
    { rewrite Forall_forall in *. intros th Hth. specialize (Each th Hth). specialize (SS th Hth).
      destruct Each as [-> |(o & res & program & -> & Ho)].
      - split; [unfold owed; cbn; lia|]. intros (o & res & program & E & _). discriminate.
      - assert (owed (WaitEmpty o res, program) < 0); [|split; [lia|auto]].
        unfold single_sided in SS. cbn [fst snd pc_op app] in SS.
        destruct SS as [SS|SS]; apply Forall_cons_iff in SS; destruct SS as [S1 S2].
        + unfold is_get in S1. subst o. unfold owed. cbn [fst snd pc_puts pc_gets].
          assert (nputs program = 0) as ->.
          { clear -S2. induction S2 as [|o l E S2 IH]; [reflexivity|]. unfold is_get in E. subst o. exact IH. }
          change (ngets [Get]) with 1. unfold ngets. lia.
        + destruct Ho as [-> |(mn & mx & -> & _)]; contradiction. }
    rewrite Forall_forall in *. intros th Hth. destruct (Each th Hth) as [Fi|Wt]; [exact Fi|]. exfalso.
    assert (len (members s) = 0) as L0 by (rewrite len_contents, Empty; [reflexivity|eauto]).
    assert (total owed (threads s) < 0); [|lia].
    apply in_split in Hth. destruct Hth as (a & b & Es). rewrite Es in *.
    rewrite (total_middle (T:=T)).
    assert (NP : forall l, (forall th, In th l -> owed th <= 0) -> total owed l <= 0).
    { clear. induction l as [|x l IH]; intros G; cbn [total]; [lia|].
      pose proof (G x (or_introl eq_refl)). assert (total owed l <= 0) by (apply IH; intros; apply G; now right). lia. }
    assert (total owed a <= 0) by (apply NP; intros; apply NonPos; apply in_or_app; auto).
    assert (total owed b <= 0) by (apply NP; intros; apply NonPos; apply in_or_app; right; right; auto).
    destruct (NonPos th) as [_ Neg]; [apply in_or_app; right; now left|]. specialize (Neg Wt). lia.
  Qed.
End Live.
