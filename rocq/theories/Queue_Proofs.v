(** The invariant of TypedQueue, absence of faults, and the simulation by the atomic queue. *)
From Verif Require Import Base PyList PyList_Proofs Queue_Model Queue_Spec.
From Coq Require Import ZifyBool ZifyNat.
Open Scope Z_scope.

Section Queue.
  Context {T : Type}.
  Notation pc := (pc T).
  Notation thread := (thread T).
  Notation shared := (shared T).
  Notation state := (state T).

  (** ** Sums over the threads *)
  Fixpoint total (f : thread -> Z) (l : list thread) : Z :=
    match l with [] => 0 | x :: l => f x + total f l end.

  Lemma total_middle f a x b : total f (a ++ x :: b) = total f a + f x + total f b.
  Proof. induction a as [|y a IH]; cbn [total app]; lia. Qed.
  Lemma total_nonneg f l : (forall x, 0 <= f x) -> 0 <= total f l.
  Proof. intros H. induction l as [|x l IH]; cbn; [lia|]. specialize (H x). lia. Qed.
  Lemma total_le f g l : (forall x, f x <= g x) -> total f l <= total g l.
  Proof. intros H. induction l as [|x l IH]; cbn; [lia|]. specialize (H x). lia. Qed.

  Definition h (p : pc) : Z :=
    match p with Inside _ _ | WaitRelease _ _ | MarkEmpty _ _ _ | Appending _ _ | Wake _ _ | Release _ => 1 | _ => 0 end.
  Definition e (p : pc) : Z := match p with WaitEmptyRelease _ _ => 1 | _ => 0 end.
  Definition k (p : pc) : Z := match p with MarkEmpty _ _ _ => 1 | _ => 0 end.
  Definition w (p : pc) : Z := match p with Wake _ _ => 1 | _ => 0 end.
  Notation SH := (total (fun th => h (fst th))).
  Notation SE := (total (fun th => e (fst th))).
  Notation SK := (total (fun th => k (fst th))).
  Notation SW := (total (fun th => w (fst th))).

  (** Is the queue marked empty? *)
  Definition mark (m : shared) (ths : list thread) : Z := if len m =? 0 then 1 - SK ths else SW ths.

  Definition waits (o : op T) (res : list T) : Prop :=
    match o with
    | Get => True
    | GetMany mn mx => Z.of_nat (length res) < mx /\ Z.of_nat (length res) < mn
    | _ => False
    end.
  Definition takes (o : op T) (res : list T) : Prop :=
    match o with
    | Get | GetNonblocking => True
    | GetMany mn mx => Z.of_nat (length res) < mx
    | _ => False
    end.

  Definition pc_ok (n : Z) (p : pc) : Prop :=
    match p with
    | WaitRelease o res => waits o res /\ n = 0
    | WaitEmpty o res | WaitEmptyRelease o res => waits o res
    | MarkEmpty o res _ => takes o res /\ n = 0
    | Appending _ cur => cur = n
    | Wake _ cur => cur = n /\ 0 < n
    | _ => True
    end.

  Lemma pc_ok_elsewhere n n' p : h p = 0 -> pc_ok n p -> pc_ok n' p.
  Proof. destruct p; cbn; try discriminate; auto. Qed.

  Definition b2z (b : bool) : Z := if b then 1 else 0.

  Record inv (s : state) : Prop :=
    { inv_lock : SH (threads s) = b2z (lock (members s));
      inv_empty : SE (threads s) + mark (members s) (threads s) = b2z (isEmptyLock (members s));
      inv_pcs : Forall (fun th => pc_ok (len (members s)) (fst th)) (threads s) }.

  Lemma h_bounds p : 0 <= h p <= 1.  Proof. destruct p; cbn; lia. Qed.
  Lemma e_bounds p : 0 <= e p <= 1.  Proof. destruct p; cbn; lia. Qed.
  Lemma k_bounds p : 0 <= k p <= h p.  Proof. destruct p; cbn; lia. Qed.
  Lemma w_bounds p : 0 <= w p <= h p.  Proof. destruct p; cbn; lia. Qed.

  Lemma H_nonneg l : 0 <= SH l.  Proof. apply total_nonneg. intros x. apply h_bounds. Qed.
  Lemma E_nonneg l : 0 <= SE l.  Proof. apply total_nonneg. intros x. apply e_bounds. Qed.
  Lemma K_bounds l : 0 <= SK l <= SH l.
  Proof. split; [apply total_nonneg|apply total_le]; intros x; apply k_bounds. Qed.
  Lemma W_bounds l : 0 <= SW l <= SH l.
  Proof. split; [apply total_nonneg|apply total_le]; intros x; apply w_bounds. Qed.

  Lemma H_zero l : SH l = 0 -> Forall (fun th => h (fst th) = 0) l.
  Proof.
    induction l as [|x l IH]; cbn [total]; intros Z; [constructor|].
    pose proof (H_nonneg l). pose proof (h_bounds (fst x)).
    constructor; [lia|apply IH; lia].
  Qed.

  Lemma pcs_elsewhere n n' l : SH l = 0 -> Forall (fun th => pc_ok n (fst th)) l -> Forall (fun th => pc_ok n' (fst th)) l.
  Proof.
    intros Z F. apply H_zero in Z. rewrite Forall_forall in *. intros x Hx. apply pc_ok_elsewhere with n; auto.
  Qed.

  (** ** The contents *)
  Lemma len_contents (m : shared) : len m = Z.of_nat (length (contents m)).
  Proof. unfold len, contents. rewrite app_length, rev_length. lia. Qed.
  Lemma refill_contents (m : shared) : contents (refill m) = contents m.
  Proof.
    unfold contents, refill. destruct (poppable m) eqn:P, (pushable m) eqn:Q; cbn [set_lists poppable pushable]; rewrite ?P, ?Q; try reflexivity.
    rewrite rev_involutive, app_nil_r. reflexivity.
  Qed.
  Lemma refill_locks (m : shared) : lock (refill m) = lock m /\ isEmptyLock (refill m) = isEmptyLock m.
  Proof. unfold refill. destruct (poppable m), (pushable m); auto. Qed.

  Lemma pop_refill (m : shared) :
    match contents m with
    | [] => pop (refill m) = None /\ contents (refill m) = []
    | x :: q => exists m', pop (refill m) = Some (x, m') /\ contents m' = q /\
                           lock m' = lock m /\ isEmptyLock m' = isEmptyLock m
    end.
  Proof.
    pose proof (refill_contents m) as C. destruct (refill_locks m) as [L1 L2].
    destruct (contents m) as [|x q] eqn:Q.
    - split; [|now rewrite C]. unfold contents in C. apply app_eq_nil in C. destruct C as [C _].
      unfold pop. now rewrite C.
    - unfold pop. destruct (rev (poppable (refill m))) as [|y rest] eqn:R.
      + exfalso. unfold refill in *. unfold contents in *.
        destruct (poppable m) eqn:P, (pushable m) eqn:U; cbn [set_lists poppable pushable] in *;
          rewrite ?P, ?U in *; cbn [rev app] in *; try discriminate.
        * rewrite rev_app_distr, rev_involutive in R. cbn in R. discriminate.
        * rewrite R in C. cbn in C. apply (f_equal (@length T)) in R. rewrite app_length in R. cbn in R. lia.
        * apply (f_equal (@length T)) in R. rewrite app_length in R. cbn in R. lia.
      + unfold contents in C. rewrite R in C. cbn [app] in C. injection C as -> C.
        eexists. split; [reflexivity|]. unfold contents. cbn [set_lists poppable pushable lock isEmptyLock].
        rewrite rev_involutive. auto.
  Qed.

  (** ** Steps in the middle of the list of threads *)
  Lemma step_cases t (s : state) :
    match nth_error (threads s) t with
    | None => step t s = Ok None
    | Some (p, prog) =>
        exists a b, threads s = a ++ (p, prog) :: b /\ length a = t /\
        step t s = match tstep (members s) p (hd_error prog) with
                   | Blocked => Ok None
                   | Fault => Err UndefinedBehaviour
                   | Goes m p' ev => Ok (Some ({| members := m; threads := a ++ (p', rest_of p prog) :: b |}, ev))
                   end
    end.
  Proof.
    unfold step. destruct (nth_error (threads s) t) as [[p prog]|] eqn:N; [|reflexivity].
    destruct (nth_error_split _ _ N) as (a & b & Es & <-). exists a, b.
    split; [exact Es|split; [reflexivity|]]. rewrite Es.
    destruct (tstep (members s) p (hd_error prog)); try reflexivity. rewrite replace_nth_middle. reflexivity.
  Qed.

  (** ** The invariant *)
  Lemma tstep_inv m a p prog b :
    inv {| members := m; threads := a ++ (p, prog) :: b |} ->
    match tstep m p (hd_error prog) with
    | Blocked => True
    | Fault => False
    | Goes m' p' _ => inv {| members := m'; threads := a ++ (p', rest_of p prog) :: b |}
    end.
  Proof.
    intros [IL IE IP]. cbn [members threads] in *.
    apply Forall_app in IP. destruct IP as [IPa IPb]. apply Forall_cons_iff in IPb. destruct IPb as [IPp IPb].
    cbn [fst] in IPp.
    unfold mark in IE. rewrite !total_middle in *. cbn [fst] in *.
    pose proof (H_nonneg a). pose proof (H_nonneg b). pose proof (E_nonneg a). pose proof (E_nonneg b).
    pose proof (K_bounds a). pose proof (K_bounds b). pose proof (W_bounds a). pose proof (W_bounds b).
    assert (Hab : h p = 1 -> SH a = 0 /\ SH b = 0 /\ lock m = true)
      by (intros Hp; unfold b2z in IL; destruct (lock m); lia).
    (* rebuilding the invariant *)
    assert (R : forall m' p',
      SH a + h p' + SH b = b2z (lock m') ->
      SE a + e p' + SE b + (if len m' =? 0 then 1 - (SK a + k p' + SK b) else SW a + w p' + SW b) = b2z (isEmptyLock m') ->
      pc_ok (len m') p' -> (len m' = len m \/ (SH a = 0 /\ SH b = 0)) ->
      inv {| members := m'; threads := a ++ (p', rest_of p prog) :: b |}).
    { intros m' p' R1 R2 R3 R4. constructor; cbn [members threads].
      - now rewrite total_middle.
      - unfold mark. now rewrite !total_middle.
      - apply Forall_app. destruct R4 as [R4|[Ra Rb]].
        + rewrite R4 in *. split; [exact IPa|]. constructor; [exact R3|exact IPb].
        + split; [|constructor]; [eapply pcs_elsewhere; eauto|exact R3|eapply pcs_elsewhere; eauto]. }
    (* taking an item *)
    assert (TK : forall o res, p = Inside o res -> takes o res -> len m <> 0 \/ o = GetNonblocking ->
      match take o res m with
      | Blocked => True
      | Fault => False
      | Goes m' p' _ => inv {| members := m'; threads := a ++ (p', rest_of p prog) :: b |}
      end).
    { intros o res -> Ht Hn. destruct (Hab eq_refl) as (Ha & Hb & Hl).
      cbn [h e k w] in *. pose proof (pop_refill m) as PR. destruct (refill_locks m) as [L1 L2].
      rewrite len_contents in IE, Hn. unfold take.
      destruct (contents m) as [|x q] eqn:C.
      - destruct PR as [-> PC]. destruct Hn as [Hn| ->]; [cbn in Hn; lia|].
        apply R; cbn [h e k w pc_ok].
        + rewrite L1, Hl. unfold b2z. lia.
        + rewrite len_contents, PC. rewrite L2. cbn [length] in *. exact IE.
        + exact I.
        + auto.
      - destruct PR as (m' & -> & PC & PL & PE). rewrite len_contents, PC.
        assert (IE' : SE a + SE b = b2z (isEmptyLock m)) 
          by (cbn [length] in IE; destruct (Z.eqb_spec (Z.of_nat (S (length q))) 0); lia).
        destruct (Z.eqb_spec (Z.of_nat (length q)) 0) as [Q|Q].
        + apply R; cbn [h e k w pc_ok]; try rewrite len_contents, PC.
          * rewrite PL, Hl. unfold b2z. lia.
          * rewrite PE. destruct (Z.eqb_spec (Z.of_nat (length q)) 0); lia.
          * split; [exact Ht|exact Q].
          * auto.
        + assert (AP : h (after_pop o res x) = 1 /\ e (after_pop o res x) = 0 /\ k (after_pop o res x) = 0 /\
                       w (after_pop o res x) = 0 /\ forall n, pc_ok n (after_pop o res x)).
          { unfold after_pop. destruct o; cbn; auto. }
          destruct AP as (A1 & A2 & A3 & A4 & A5).
          apply R; rewrite ?A1, ?A2, ?A3, ?A4; try apply A5; auto.
          * rewrite PL, Hl. unfold b2z. lia.
          * rewrite len_contents, PC, PE. destruct (Z.eqb_spec (Z.of_nat (length q)) 0); lia. }
    assert (LP : forall x, len (set_lists m (pushable m ++ [x]) (poppable m)) = len m + 1).
    { intros x. unfold len. cbn [set_lists pushable poppable]. rewrite app_length. cbn [length]. lia. }
    assert (L0 : 0 <= len m) by (unfold len; lia).
    destruct p as [|o res|o res|o res|o res|o res|o res x|rest cur|rest cur|r|r]; cbn [tstep].
    - destruct (hd_error prog) as [o|]; [|exact I]. apply R; cbn [h e k w pc_ok] in *; auto.
    - destruct (lock m) eqn:L; [exact I|]. apply R; cbn [h e k w pc_ok set_lock lock isEmptyLock] in *; auto.
      unfold b2z in *. lia.
    - destruct (Hab eq_refl) as (Ha & Hb & Hl). unfold inside.
      cbn [h e k w] in *.
      destruct o as [| |mn mx|x|l| |].
      + destruct (Z.eqb_spec (len m) 0) as [Z0|Z0].
        * apply R; cbn [h e k w pc_ok waits]; auto. rewrite Z0 in *. exact IE.
        * apply TK; cbn; auto.
      + apply TK; cbn; auto.
      + destruct (Z.ltb_spec (Z.of_nat (length res)) mx) as [M|M].
        2: { apply R; cbn [h e k w pc_ok waits]; auto. }
        destruct (Z.eqb_spec (len m) 0) as [Z0|Z0]; cbn [andb].
        2: apply TK; cbn; auto.
        destruct (Z.leb_spec mn (Z.of_nat (length res))).
        * apply R; cbn [h e k w pc_ok waits]; auto. rewrite Z0 in *. exact IE.
        * apply R; cbn [h e k w pc_ok waits]; auto. rewrite Z0 in *. exact IE.
      + specialize (LP x). rewrite LP. destruct (Z.eqb_spec (len m + 1) 1) as [Z1|Z1].
        * apply R; cbn [h e k w pc_ok]; rewrite ?LP; try (cbn [set_lists lock isEmptyLock]; auto; fail); [|lia].
          cbn [set_lists isEmptyLock].
          destruct (Z.eqb_spec (len m + 1) 0); destruct (Z.eqb_spec (len m) 0); lia.
        * apply R; cbn [h e k w pc_ok]; rewrite ?LP; try (cbn [set_lists lock isEmptyLock]; auto; fail).
          cbn [set_lists isEmptyLock].
          destruct (Z.eqb_spec (len m + 1) 0); destruct (Z.eqb_spec (len m) 0); lia.
      + apply R; cbn [h e k w pc_ok waits]; auto.
      + apply R; cbn [h e k w pc_ok waits]; auto.
      + apply R; cbn [h e k w pc_ok waits]; auto.
    - destruct (Hab eq_refl) as (Ha & Hb & Hl). rewrite Hl. destruct IPp as [Wt Z0].
      apply R; cbn [h e k w pc_ok set_lock lock isEmptyLock] in *; auto.
      + unfold b2z; lia.
    - destruct (isEmptyLock m) eqn:L; [exact I|].
      apply R; cbn [h e k w pc_ok set_empty lock isEmptyLock] in *; auto.
      change (len (set_empty m true)) with (len m). unfold b2z in *. destruct (len m =? 0); lia.
    - cbn [h e k w pc_ok] in *.
      assert (isEmptyLock m = true) as L.
      { unfold b2z in *. destruct (isEmptyLock m); [reflexivity|]. destruct (len m =? 0); destruct (lock m); lia. }
      rewrite L in *. apply R; cbn [h e k w pc_ok set_empty lock isEmptyLock] in *; auto.
      change (len (set_empty m false)) with (len m). unfold b2z in *. destruct (len m =? 0); lia.
    - destruct (isEmptyLock m) eqn:L; [exact I|]. destruct (Hab eq_refl) as (Ha & Hb & Hl).
      destruct IPp as [Tk Z0].
      assert (AP : h (after_pop o res x) = 1 /\ e (after_pop o res x) = 0 /\ k (after_pop o res x) = 0 /\
                       w (after_pop o res x) = 0 /\ forall n, pc_ok n (after_pop o res x)).
      { unfold after_pop. destruct o; cbn; auto. }
      destruct AP as (A1 & A2 & A3 & A4 & A5).
      apply R; rewrite ?A1, ?A2, ?A3, ?A4; cbn [h e k w] in *; try apply A5; auto.
      change (len (set_empty m true)) with (len m). cbn [set_empty isEmptyLock].
      rewrite Z0 in *. change (0 =? 0) with true in *. cbv iota in *. unfold b2z in *. lia.
    - destruct (Hab eq_refl) as (Ha & Hb & Hl). cbn [h e k w pc_ok] in *. subst cur.
      destruct rest as [|x rest].
      + apply R; cbn [h e k w pc_ok waits]; auto.
      + specialize (LP x). destruct (Z.eqb_spec (len m + 1) 1) as [Z1|Z1].
        * apply R; cbn [h e k w pc_ok]; rewrite ?LP; try (cbn [set_lists lock isEmptyLock]; auto; fail); [|lia].
          cbn [set_lists isEmptyLock].
          destruct (Z.eqb_spec (len m + 1) 0); destruct (Z.eqb_spec (len m) 0); lia.
        * apply R; cbn [h e k w pc_ok]; rewrite ?LP; try (cbn [set_lists lock isEmptyLock]; auto; fail).
          cbn [set_lists isEmptyLock].
          destruct (Z.eqb_spec (len m + 1) 0); destruct (Z.eqb_spec (len m) 0); lia.
    - destruct (Hab eq_refl) as (Ha & Hb & Hl). cbn [h e k w pc_ok] in *. destruct IPp as [-> Z0].
      destruct (Z.eqb_spec (len m) 0) as [|NZ]; [lia|].
      assert (isEmptyLock m = true) as L by (unfold b2z in *; destruct (isEmptyLock m); [reflexivity|lia]).
      rewrite L in *. apply R; cbn [h e k w pc_ok set_empty lock isEmptyLock] in *; auto.
      change (len (set_empty m false)) with (len m). destruct (Z.eqb_spec (len m) 0); unfold b2z in *; lia.
    - destruct (Hab eq_refl) as (Ha & Hb & Hl). rewrite Hl.
      apply R; cbn [h e k w pc_ok set_lock lock isEmptyLock] in *; auto. unfold b2z; lia.
    - apply R; cbn [h e k w pc_ok] in *; auto.
  Qed.

  Lemma step_inv t (s : state) : inv s ->
    match step t s with
    | Ok None => True
    | Ok (Some (s', _)) => inv s'
    | Err _ => False
    end.
  Proof.
    intros I0. pose proof (step_cases t s) as C. destruct (nth_error (threads s) t) as [[p prog]|].
    - destruct C as (a & b & Es & _ & ->). destruct s as [m ths]. cbn [members threads] in *. subst ths.
      apply tstep_inv in I0. destruct (tstep m p (hd_error prog)); auto.
    - now rewrite C.
  Qed.

  Lemma start_inv programs : inv (start programs).
  Proof.
    assert (Z : forall f : pc -> Z, f Idle = 0 -> total (fun th => f (fst th)) (map (fun p => (Idle, p)) programs) = 0).
    { intros f F. induction programs as [|p l IH]; cbn; [reflexivity|]. rewrite F, IH. reflexivity. }
    constructor; cbn [start members threads].
    - now rewrite (Z h).
    - unfold mark. now rewrite (Z e), (Z k).
    - apply Forall_forall. intros x Hx. apply in_map_iff in Hx. destruct Hx as (? & <- & _). exact I.
  Qed.

  Lemma run_inv schedule : forall s : state, inv s ->
    match run schedule s with Ok (s', _) => inv s' | Err _ => False end.
  Proof.
    induction schedule as [|t schedule IH]; intros s I0; cbn [run]; [exact I0|].
    pose proof (step_inv t s I0) as S. destruct (step t s) as [[[s1 ev]|]|]; [|now apply IH|exact S].
    specialize (IH s1 S). destruct (run schedule s1) as [[s2 hist]|]; auto.
  Qed.

  (** ** The atomic queue follows *)
  Definition athread_of (p : pc) : athread :=
    match p with
    | Idle => AIdle
    | Acquire o res | Inside o res | WaitRelease o res | WaitEmpty o res | WaitEmptyRelease o res => APending o res
    | MarkEmpty o res x => match o with
                           | Get => ADone (RValue x)
                           | GetNonblocking => ADone (ROption (Some x))
                           | _ => APending o (res ++ [x])
                           end
    | Appending _ _ | Wake _ _ => ADone RNone
    | Release r | Returned r => ADone r
    end.
  Definition unpushed (p : pc) : list T := match p with Appending l _ | Wake l _ => l | _ => [] end.
  Fixpoint pending (l : list thread) : list T :=
    match l with [] => [] | th :: l => unpushed (fst th) ++ pending l end.
  Lemma pending_middle a x b : pending (a ++ x :: b) = pending a ++ unpushed (fst x) ++ pending b.
  Proof. induction a as [|y a IH]; cbn [pending app]; [reflexivity|]. now rewrite IH, app_assoc. Qed.
  Definition abs (s : state) : astate :=
    {| queue := contents (members s) ++ pending (threads s);
       athreads := map (fun th => (athread_of (fst th), snd th)) (threads s) |}.

  Lemma pending_none l : SH l = 0 -> pending l = [].
  Proof.
    intros Z. apply H_zero in Z. induction Z as [|[p prog] l P F IH]; [reflexivity|].
    cbn [pending fst] in *. rewrite IH. destruct p; cbn in *; (reflexivity || discriminate).
  Qed.

  Lemma aruns_one s1 t ev s2 : astep s1 (option_map (pair t) ev) s2 ->
    aruns (T:=T) s1 (match ev with Some ev => [(t, ev)] | None => [] end) s2.
  Proof. intros S. pose proof (ar_step _ _ _ _ _ S (ar_nil s2)) as R. destruct ev; exact R. Qed.

  Lemma after_pop_abs o res x : takes o res -> athread_of (after_pop o res x) = athread_of (MarkEmpty o res x).
  Proof. destruct o; cbn; tauto. Qed.
  Lemma after_pop_unpushed o res x : unpushed (after_pop o res x) = [].
  Proof. destruct o; reflexivity. Qed.
  Lemma take_effect x q o res : takes o res -> effect (x :: q) o res q (athread_of (MarkEmpty o res x)).
  Proof. destruct o; cbn; try contradiction; intros; constructor; auto. Qed.

  Lemma tstep_sim m a p prog b m' p' ev :
    inv {| members := m; threads := a ++ (p, prog) :: b |} ->
    tstep m p (hd_error prog) = Goes m' p' ev ->
    aruns (abs {| members := m; threads := a ++ (p, prog) :: b |})
          (match ev with Some ev => [(length a, ev)] | None => [] end)
          (abs {| members := m'; threads := a ++ (p', rest_of p prog) :: b |}).
  Proof.
    intros [IL IE IP] Hstep. cbn [members threads] in *.
    apply Forall_app in IP. destruct IP as [_ IPb]. apply Forall_cons_iff in IPb. destruct IPb as [IPp _].
    cbn [fst] in IPp. rewrite !total_middle in IL. cbn [fst] in IL.
    pose proof (H_nonneg a) as Na. pose proof (H_nonneg b) as Nb.
    assert (Hab : h p = 1 -> pending a = [] /\ pending b = [])
      by (intros Hp; unfold b2z in IL; destruct (lock m); split; apply pending_none; lia).
    unfold abs. cbn [members threads]. rewrite !map_app, !pending_middle. cbn [map fst snd].
    set (aa := map (fun th => (athread_of (fst th), snd th)) a).
    set (ab := map (fun th => (athread_of (fst th), snd th)) b).
    assert (LA : length a = length aa) by (unfold aa; now rewrite map_length).
    (* the three shapes of a step *)
    assert (SAME : forall q q' x x', q = q' -> x = x' ->
      aruns {| queue := q; athreads := aa ++ x :: ab |} [] {| queue := q'; athreads := aa ++ x' :: ab |}).
    { intros q q' x x' -> ->. constructor. }
    assert (EFF : forall q q' o res ath, effect q o res q' ath -> forall prog',
      aruns {| queue := q; athreads := aa ++ (APending o res, prog') :: ab |} []
            {| queue := q'; athreads := aa ++ (ath, prog') :: ab |}).
    { intros q q' o res ath Ef prog'. apply (aruns_one _ (length aa) None). cbn [option_map].
      rewrite <- (replace_nth_middle aa (APending o res, prog') ab (ath, prog')).
      eapply a_effect; [apply nth_error_middle|exact Ef]. }
    assert (TK : forall o res, p = Inside o res -> takes o res ->
       take o res m = Goes m' p' ev ->
       aruns {| queue := contents m ++ pending a ++ unpushed p ++ pending b; athreads := aa ++ (athread_of p, prog) :: ab |}
             (match ev with Some ev => [(length a, ev)] | None => [] end)
             {| queue := contents m' ++ pending a ++ unpushed p' ++ pending b;
                athreads := aa ++ (athread_of p', rest_of p prog) :: ab |}).
    { intros o res -> Ht TE. destruct (Hab eq_refl) as [-> ->]. cbn [unpushed app athread_of rest_of].
      unfold take in TE. pose proof (pop_refill m) as PR. destruct (contents m) as [|x q] eqn:C.
      - destruct PR as [PN PC]. rewrite PN in TE. destruct o; try discriminate. injection TE as <- <- <-.
        rewrite PC. cbn [app unpushed athread_of]. apply EFF. constructor.
      - destruct PR as (m1 & PS & PC & _ & _). rewrite PS in TE.
        assert (m' = m1 /\ ev = None /\ unpushed p' = [] /\ athread_of p' = athread_of (MarkEmpty o res x)) as (-> & -> & -> & ->).
        { destruct (len m1 =? 0); injection TE as <- <- <-; rewrite ?after_pop_unpushed, ?after_pop_abs; auto. }
        rewrite PC, !app_nil_r. apply EFF. now apply take_effect. }
    destruct p as [|o res|o res|o res|o res|o res|o res x|rest cur|rest cur|r|r]; cbn [tstep] in Hstep.
    - destruct prog as [|o prog]; cbn [hd_error] in Hstep; [discriminate|]. injection Hstep as <- <- <-.
      cbn [athread_of unpushed rest_of tl]. rewrite LA. apply (aruns_one _ (length aa) (Some (Call o))). cbn [option_map].
      rewrite <- (replace_nth_middle aa (AIdle, o :: prog) ab (APending o [], prog)).
      apply a_call. apply nth_error_middle.
    - destruct (lock m); [discriminate|]. injection Hstep as <- <- <-. apply SAME; reflexivity.
    - unfold inside in Hstep. destruct o as [| |mn mx|x|l| |].
      + destruct (len m =? 0).
        * injection Hstep as <- <- <-. apply SAME; reflexivity.
        * apply (TK Get res); cbn; auto.
      + apply (TK GetNonblocking res); cbn; auto.
      + destruct (Z.ltb_spec (Z.of_nat (length res)) mx) as [M|M].
        2: { injection Hstep as <- <- <-. cbn [unpushed athread_of rest_of]. apply EFF. constructor. exact M. }
        destruct (Z.eqb_spec (len m) 0) as [Z0|Z0]; cbn [andb] in Hstep.
        2: { apply (TK (GetMany mn mx) res); cbn; auto. }
        destruct (Z.leb_spec mn (Z.of_nat (length res))).
        * injection Hstep as <- <- <-. destruct (Hab eq_refl) as [-> ->]. rewrite len_contents in Z0.
          destruct (contents m); [|cbn in Z0; lia]. cbn [unpushed athread_of rest_of app]. apply EFF. apply e_empty. assumption.
        * injection Hstep as <- <- <-. apply SAME; reflexivity.
      + destruct (Hab eq_refl) as [-> ->].
        assert (m' = set_lists m (pushable m ++ [x]) (poppable m) /\ ev = None /\ unpushed p' = [] /\ athread_of p' = ADone RNone)
          as (-> & -> & -> & ->).
        { destruct (_ =? 1) in Hstep; injection Hstep as <- <- <-; auto. }
        cbn [unpushed athread_of rest_of app]. rewrite !app_nil_r. unfold contents. cbn [set_lists poppable pushable].
        rewrite app_assoc. apply EFF. constructor.
      + injection Hstep as <- <- <-. destruct (Hab eq_refl) as [-> ->].
        cbn [unpushed athread_of rest_of app]. rewrite !app_nil_r. apply EFF. constructor.
      + injection Hstep as <- <- <-. destruct (Hab eq_refl) as [-> ->].
        cbn [unpushed athread_of rest_of app]. rewrite !app_nil_r. apply EFF.
        replace (match rev (poppable m) with [] => match pushable m with [] => None | x :: _ => Some x end | x :: _ => Some x end)
          with (hd_error (contents m)); [constructor|].
        unfold contents. destruct (rev (poppable m)); reflexivity.
      + injection Hstep as <- <- <-. destruct (Hab eq_refl) as [-> ->].
        cbn [unpushed athread_of rest_of app]. rewrite !app_nil_r, len_contents. apply EFF. constructor.
    - destruct (lock m); [|discriminate]. injection Hstep as <- <- <-. apply SAME; reflexivity.
    - destruct (isEmptyLock m); [discriminate|]. injection Hstep as <- <- <-. apply SAME; reflexivity.
    - destruct (isEmptyLock m); [|discriminate]. injection Hstep as <- <- <-. apply SAME; reflexivity.
    - destruct (isEmptyLock m); [discriminate|]. injection Hstep as <- <- <-. destruct IPp as [Ht _].
      rewrite after_pop_unpushed, after_pop_abs by exact Ht. apply SAME; reflexivity.
    - destruct (Hab eq_refl) as [-> ->]. destruct rest as [|x rest].
      + injection Hstep as <- <- <-. apply SAME; reflexivity.
      + assert (m' = set_lists m (pushable m ++ [x]) (poppable m) /\ ev = None /\ unpushed p' = rest /\ athread_of p' = ADone RNone)
          as (-> & -> & -> & ->).
        { destruct (_ =? 1) in Hstep; injection Hstep as <- <- <-; auto. }
        cbn [unpushed athread_of rest_of app]. rewrite !app_nil_r. unfold contents. cbn [set_lists poppable pushable].
        apply SAME; [|reflexivity]. rewrite <- !app_assoc. reflexivity.
    - destruct (isEmptyLock m); [|discriminate]. injection Hstep as <- <- <-. apply SAME; reflexivity.
    - destruct (lock m); [|discriminate]. injection Hstep as <- <- <-. apply SAME; reflexivity.
    - injection Hstep as <- <- <-. cbn [athread_of unpushed rest_of tl]. rewrite LA.
      apply (aruns_one _ (length aa) (Some (Return r))). cbn [option_map].
      rewrite <- (replace_nth_middle aa (ADone r, prog) ab (AIdle, prog)).
      apply a_return. apply nth_error_middle.
  Qed.

  Lemma aruns_app s1 h1 s2 h2 s3 : aruns (T:=T) s1 h1 s2 -> aruns s2 h2 s3 -> aruns s1 (h1 ++ h2) s3.
  Proof.
    induction 1 as [s|s1 e1 s2 h1 s2' S R IH]; intros R2; [exact R2|].
    specialize (IH R2). pose proof (ar_step _ _ _ _ _ S IH) as A. destruct e1; exact A.
  Qed.

  Lemma step_sim t (s s' : state) ev : inv s -> step t s = Ok (Some (s', ev)) ->
    aruns (abs s) (match ev with Some ev => [(t, ev)] | None => [] end) (abs s').
  Proof.
    intros I0 S. pose proof (step_cases t s) as C. destruct (nth_error (threads s) t) as [[p prog]|].
    - destruct C as (a & b & Es & <- & C). rewrite S in C. destruct s as [m ths]. cbn [members threads] in *. subst ths.
      destruct (tstep m p (hd_error prog)) as [| |m' p' ev'] eqn:TS; try discriminate. injection C as -> ->.
      eapply tstep_sim; eauto.
    - congruence.
  Qed.

  Lemma run_sim schedule : forall (s s' : state) hist, inv s -> run schedule s = Ok (s', hist) -> aruns (abs s) hist (abs s').
  Proof.
    induction schedule as [|t schedule IH]; intros s s' hist I0 R; cbn [run] in R.
    - injection R as <- <-. constructor.
    - pose proof (step_inv t s I0) as SI. pose proof (step_sim t s) as SS.
      destruct (step t s) as [[[s1 ev]|]|]; [|now apply IH|discriminate].
      destruct (run schedule s1) as [[s2 h2]|] eqn:R2; [|discriminate]. injection R as <- <-.
      specialize (SS s1 ev I0 eq_refl). specialize (IH s1 s2 h2 SI R2).
      pose proof (aruns_app _ _ _ _ _ SS IH) as A. destruct ev; exact A.
  Qed.

  Lemma abs_start programs : abs (start programs) = astart programs.
  Proof.
    unfold abs, start, astart. cbn [members threads]. f_equal.
    - unfold contents. cbn. induction programs; cbn; auto.
    - rewrite map_map. reflexivity.
  Qed.
End Queue.
