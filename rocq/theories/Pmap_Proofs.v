(** The invariant of [pmap]: every chunk is in one place, and its place says what is in the slots. *)
From Verif Require Import Base PyList PyList_Proofs Pmap_Model Pmap_Spec.
From Coq Require Import ZifyBool ZifyNat.
Open Scope nat_scope.
Open Scope result_scope.

Lemma nth_error_nil_none {A} n : @nth_error A [] n = None.
Proof. destruct n; reflexivity. Qed.

Lemma nth_error_repeat {A} (x : A) n i : i < n -> nth_error (repeat x n) i = Some x.
Proof. revert i; induction n as [|n IH]; intros [|i] H; cbn; try lia; auto. apply IH. lia. Qed.

Lemma NoDup_snoc {A} (l : list A) x : NoDup l -> ~ In x l -> NoDup (l ++ [x]).
Proof.
  induction l as [|y l IH]; intros ND NI; cbn; [repeat constructor; auto|].
  apply NoDup_cons_iff in ND. destruct ND as [N1 N2]. constructor.
  - rewrite in_app_iff. intros [C|[C|[]]]; [contradiction|]. subst. apply NI. now left.
  - apply IH; [exact N2|]. intros C. apply NI. now right.
Qed.

Section Proofs.
  Context {V E : Type}.
  Variable cpu : Z.
  Notation body := (body V E).
  Notation job := (job V E).
  Notation activity := (activity V E).
  Notation frame := (frame V E).

  (** ** Chunks *)
  Lemma granularity_pos n mg : 1 <= granularity cpu n mg.
  Proof. unfold granularity. lia. Qed.

  Lemma job_count_spec n g i : 1 <= g -> (i < job_count n g <-> i * g < n).
  Proof.
    intros Hg. unfold job_count.
    pose proof (Nat.div_mod n g) as DM. specialize (DM ltac:(lia)).
    pose proof (Nat.mod_upper_bound n g) as UB. specialize (UB ltac:(lia)).
    rewrite (Nat.mul_comm g) in DM. set (q := n / g) in *. set (r := n mod g) in *.
    destruct (Nat.ltb_spec (q * g) n); nia.
  Qed.

  Definition chunk (jb : job) (i ix : nat) : Prop :=
    i * gran jb <= ix /\ ix < S i * gran jb /\ ix < length (bodies jb).

  Lemma chunk_unique (jb : job) i i' ix : chunk jb i ix -> chunk jb i' ix -> i = i'.
  Proof. unfold chunk. intros. nia. Qed.
  Lemma chunk_of (jb : job) ix : 1 <= gran jb -> ix < length (bodies jb) -> exists i, chunk jb i ix /\ i < jobCount jb.
  Proof.
    intros Hg L. exists (ix / gran jb). pose proof (Nat.div_mod ix (gran jb)) as DM. specialize (DM ltac:(lia)).
    pose proof (Nat.mod_upper_bound ix (gran jb)) as UB. specialize (UB ltac:(lia)).
    rewrite (Nat.mul_comm (gran jb)) in DM.
    set (q := ix / gran jb) in *. set (r := ix mod gran jb) in *. unfold jobCount. rewrite job_count_spec by exact Hg. unfold chunk. nia.
  Qed.
  Lemma chunk_end_spec (jb : job) i ix : ix < chunk_end jb i <-> ix < length (bodies jb) /\ ix < S i * gran jb.
  Proof. unfold chunk_end. lia. Qed.

  (** ** What is in the slots *)
  Definition value_at (jb : job) (ix : nat) : Prop :=
    exists v b, nth_error (slots jb) ix = Some (Some v) /\ nth_error (bodies jb) ix = Some b /\ eval b = Good v.
  Definition fresh (jb : job) (i : nat) : Prop :=
    forall ix, chunk jb i ix -> nth_error (slots jb) ix = Some None /\ ~ In ix (called jb).
  Definition ready (jb : job) (i ix0 : nat) : Prop :=
    i * gran jb <= ix0 /\ forall ix, chunk jb i ix ->
      (ix < ix0 -> value_at jb ix) /\ (ix0 <= ix -> nth_error (slots jb) ix = Some None /\ ~ In ix (called jb)).
  Definition upto (jb : job) (i ix0 : nat) : Prop :=
    forall ix, chunk jb i ix ->
      (ix < ix0 -> value_at jb ix) /\ (ix0 <= ix -> nth_error (slots jb) ix = Some None) /\
      (ix0 < ix -> ~ In ix (called jb)).
  Definition complete (jb : job) (i : nat) : Prop :=
    exists stop, (forall ix, chunk jb i ix -> ix < stop -> value_at jb ix) /\
      ((forall ix, chunk jb i ix -> ix < stop) \/ exists e, In (stop, e) (exceptionQueue jb)).

  Record job_ok (jb : job) : Prop :=
    { jo_gran : 1 <= gran jb;
      jo_slots : length (slots jb) = length (bodies jb);
      jo_exc : forall ix e, In (ix, e) (exceptionQueue jb) -> exists b, nth_error (bodies jb) ix = Some b /\ eval b = Bad e;
      jo_called : NoDup (called jb) }.

  (** ** Collecting the results *)
  Lemma earliest_from q : forall m0 (o0 : option E),
    let r := fold_left (fun acc ie => if fst ie <? fst acc then (fst ie, Some (snd ie)) else acc) q (m0, o0) in
    fst r <= m0 /\ (forall i e, In (i, e) q -> fst r <= i) /\
    (r = (m0, o0) \/ exists e, snd r = Some e /\ In (fst r, e) q).
  Proof.
    induction q as [|[i e] q IH]; intros m0 o0; cbn [fold_left fst snd].
    - cbn. split; [lia|]. split; [tauto|]. now left.
    - destruct (Nat.ltb_spec i m0) as [L|L].
      + destruct (IH i (Some e)) as (A & B & C). cbv zeta in *. split; [lia|]. split.
        * intros i' e' [X|X]; [injection X as <- <-; lia|eauto].
        * right. destruct C as [-> |(e' & C1 & C2)]; cbn [fst snd].
          -- exists e. split; [reflexivity|now left].
          -- exists e'. split; [exact C1|now right].
      + destruct (IH m0 o0) as (A & B & C). cbv zeta in *. split; [exact A|]. split.
        * intros i' e' [X|X]; [injection X as <- <-; lia|eauto].
        * destruct C as [-> |(e' & C1 & C2)]; [now left|]. right. exists e'. split; [exact C1|now right].
  Qed.

  Lemma all_slots_ok sl : forall bs : list body, length sl = length bs ->
    (forall ix, ix < length bs -> exists v b, nth_error sl ix = Some (Some v) /\ nth_error bs ix = Some b /\ eval b = Good v) ->
    exists r, all_slots sl = Ok r /\ in_order (map eval bs) = Good r.
  Proof.
    induction sl as [|o sl IH]; intros [|b bs] L H; cbn in L; try lia.
    - exists []. split; reflexivity.
    - destruct (H 0) as (v & b' & H1 & H2 & H3); [cbn; lia|]. cbn in H1, H2. injection H1 as ->. injection H2 as <-.
      destruct (IH bs) as (r & R1 & R2); [lia| |].
      { intros ix Hix. apply (H (S ix)). cbn. lia. }
      exists (v :: r). cbn. rewrite R1, H3, R2. split; reflexivity.
  Qed.

  Lemma in_order_bad bs : forall m (b : body) e, nth_error bs m = Some b -> eval b = Bad e ->
    (forall ix, ix < m -> exists b' v, nth_error bs ix = Some b' /\ eval b' = Good v) ->
    in_order (map eval bs) = Bad e.
  Proof.
    induction bs as [|b0 bs IH]; intros [|m] b e N B G; cbn in N; try discriminate.
    - injection N as ->. cbn. now rewrite B.
    - destruct (G 0) as (b' & v & G1 & G2); [lia|]. cbn in G1. injection G1 as ->. cbn. rewrite G2.
      rewrite (IH m b e N B); [reflexivity|]. intros ix Hix. apply (G (S ix)). lia.
  Qed.

  Lemma collect_ok (jb : job) : job_ok jb -> (forall i, i < jobCount jb -> complete jb i) ->
    collect jb = Ok (in_order (map eval (bodies jb))).
  Proof.
    intros [JG JS JE JC] All. unfold collect, earliest.
    destruct (earliest_from (exceptionQueue jb) (length (bodies jb)) None) as (A & B & C). cbv zeta in *.
    destruct (fold_left _ (exceptionQueue jb) (length (bodies jb), None)) as [m o] eqn:F. cbn [fst snd] in *.
    destruct C as [C|(e & -> & Hin)].
    - injection C as -> ->.
      assert (forall ix, ix < length (bodies jb) -> value_at jb ix) as Val.
      { intros ix L. destruct (chunk_of jb ix JG L) as (i & Ci & Li). destruct (All i Li) as (stop & S1 & [S2|(e & S2)]).
        - apply S1; auto.
        - exfalso. destruct (JE _ _ S2) as (b & Nb & _). pose proof (B _ _ S2).
          assert (stop < length (bodies jb)) by (apply nth_error_Some; congruence). lia. }
      destruct (all_slots_ok (slots jb) (bodies jb) JS) as (r & R1 & R2).
      { intros ix L. destruct (Val ix L) as (v & b & ?). eauto. }
      rewrite R1. cbn [bind]. now rewrite R2.
    - destruct (JE _ _ Hin) as (b & Nb & Eb). f_equal. symmetry. apply (in_order_bad (bodies jb) m b e Nb Eb).
      intros ix L. assert (m < length (bodies jb)) by (apply nth_error_Some; congruence).
      destruct (chunk_of jb ix JG) as (i & Ci & Li); [lia|]. destruct (All i Li) as (stop & S1 & S2).
      destruct (Nat.ltb_spec ix stop) as [Lt|Ge].
      + destruct (S1 ix Ci Lt) as (v & b' & _ & ? & ?). eauto.
      + exfalso. destruct S2 as [S2|(e' & S2)]; [specialize (S2 ix Ci); lia|]. apply B in S2. lia.
  Qed.

  (** ** What a thread may do to a job that it works on *)
  Record grows (i : nat) (jb jb' : job) : Prop :=
    { gr_bodies : bodies jb' = bodies jb;
      gr_gran : gran jb' = gran jb;
      gr_value : forall ix, value_at jb ix -> value_at jb' ix;
      gr_exc : forall x, In x (exceptionQueue jb) -> In x (exceptionQueue jb');
      gr_else : forall ix, ~ chunk jb i ix ->
        nth_error (slots jb') ix = nth_error (slots jb) ix /\ (In ix (called jb') -> In ix (called jb)) }.

  Lemma grows_refl i jb : grows i jb jb.
  Proof. constructor; auto. Qed.
  Lemma grows_chunk i jb jb' : grows i jb jb' -> forall i' ix, chunk jb' i' ix <-> chunk jb i' ix.
  Proof. intros [A B _ _ _] i' ix. unfold chunk. rewrite A, B. tauto. Qed.
  Lemma grows_count i jb jb' : grows i jb jb' -> jobCount jb' = jobCount jb.
  Proof. intros [A B _ _ _]. unfold jobCount. now rewrite A, B. Qed.
  Lemma grows_trans i a b c : grows i a b -> grows i b c -> grows i a c.
  Proof.
    intros G1 G2. pose proof (grows_chunk _ _ _ G1) as GC. destruct G1 as [A1 A2 A3 A4 A5], G2 as [B1 B2 B3 B4 B5].
    constructor; try congruence; auto.
    intros ix NC. destruct (A5 ix NC) as [X1 X2]. destruct (B5 ix) as [Y1 Y2]; [rewrite GC; exact NC|].
    split; [congruence|auto].
  Qed.

  Lemma complete_grows i jb jb' i' : grows i jb jb' -> complete jb i' -> complete jb' i'.
  Proof.
    intros G (stop & S1 & S2). pose proof (grows_chunk _ _ _ G) as GC. destruct G as [A B C D F].
    exists stop. split.
    - intros ix Ci L. apply C, S1; [apply GC|]; assumption.
    - destruct S2 as [S2|(e & S2)]; [left|right; eauto]. intros ix Ci. apply S2, GC, Ci.
  Qed.
  Lemma fresh_grows i jb jb' i' : grows i jb jb' -> i <> i' \/ (forall ix, ~ chunk jb i ix) -> fresh jb i' -> fresh jb' i'.
  Proof.
    intros G D F ix Ci. pose proof (grows_chunk _ _ _ G) as GC. apply GC in Ci. destruct (F ix Ci) as [F1 F2].
    destruct (gr_else _ _ _ G ix) as [X1 X2].
    { destruct D as [D|D]; [|apply D]. intros C. apply D. eapply chunk_unique; eauto. }
    split; [congruence|tauto].
  Qed.
  Lemma upto_grows i jb jb' i' ix0 : grows i jb jb' -> i <> i' \/ (forall ix, ~ chunk jb i ix) -> upto jb i' ix0 -> upto jb' i' ix0.
  Proof.
    intros G D F ix Ci. pose proof (grows_chunk _ _ _ G) as GC. apply GC in Ci. destruct (F ix Ci) as (F1 & F2 & F3).
    destruct (gr_else _ _ _ G ix) as [X1 X2].
    { destruct D as [D|D]; [|apply D]. intros C. apply D. eapply chunk_unique; eauto. }
    split; [intros L; apply (gr_value _ _ _ G); auto|]. split; [intros L; rewrite X1; auto|]. intros L C. apply X2 in C. now apply F3 in C.
  Qed.

  (** ** Frames *)
  Definition phase_ok (jb : job) (p : phase) : Prop :=
    match p with
    | Pushing n => forall i, n <= i -> i < jobCount jb -> fresh jb i
    | Draining => True
    | Waiting taken => forall i, In i taken -> i < jobCount jb /\ complete jb i
    end.
  Definition act_ok (js : list job) (a : activity) (r : outcome E V) : Prop :=
    match a with
    | Running b => eval b = r
    | Calling j p k => exists jb, nth_error js j = Some jb /\ eval (k (in_order (map eval (bodies jb)))) = r /\ phase_ok jb p
    | Ending => False
    end.
  Definition frame_ok (js : list job) (f : frame) : Prop :=
    match f with
    | Exec j i ix Ending => exists jb, nth_error js j = Some jb /\ i < jobCount jb /\ complete jb i
    | Exec j i ix a => exists jb, nth_error js j = Some jb /\ i < jobCount jb /\ chunk jb i ix /\ upto jb i ix /\
                         exists b, nth_error (bodies jb) ix = Some b /\ act_ok js a (eval b)
    | Main p a => act_ok js a (eval p)
    end.

  Definition b2n (b : bool) : nat := if b then 1 else 0.
  Definition act_tok (j i : nat) (a : activity) : nat :=
    match a with
    | Calling j' (Pushing n) _ => b2n ((j' =? j) && (n <=? i))
    | Calling j' (Waiting taken) _ => if j' =? j then count_occ Nat.eq_dec taken i else 0
    | _ => 0
    end.
  Definition exec_tok (j i : nat) (f : frame) : nat :=
    match f with Exec j' i' _ _ => b2n ((j' =? j) && (i' =? i)) | Main _ _ => 0 end.
  Definition tok (j i : nat) (f : frame) : nat := exec_tok j i f + act_tok j i (act_of f).
  Definition calls (j : nat) (f : frame) : nat :=
    match act_of f with Calling j' _ _ => b2n (j' =? j) | _ => 0 end.

  Fixpoint sum (g : frame -> nat) (l : list frame) : nat :=
    match l with [] => 0 | f :: l => g f + sum g l end.
  Lemma sum_app g a b : sum g (a ++ b) = sum g a + sum g b.
  Proof. induction a; cbn [sum app]; lia. Qed.
  Lemma sum_in g f l : In f l -> g f <= sum g l.
  Proof. induction l as [|x l IH]; cbn; [tauto|]. intros [->|Hf]; [lia|]. specialize (IH Hf). lia. Qed.

  Lemma pair_dec (x y : nat * nat) : {x = y} + {x <> y}.
  Proof. decide equality; apply Nat.eq_dec. Defined.
  Definition qcount (wq : list (nat * nat)) (j i : nat) : nat := count_occ pair_dec wq (j, i).

  Record inv (js : list job) (wq : list (nat * nat)) (F : list frame) : Prop :=
    { i_tokens : forall j jb i, nth_error js j = Some jb -> i < jobCount jb ->
        sum (tok j i) F + qcount wq j i + count_occ Nat.eq_dec (outputQueue jb) i = sum (calls j) F;
      i_calls : forall j, sum (calls j) F <= 1;
      i_jobs : forall j jb, nth_error js j = Some jb -> job_ok jb;
      i_frames : forall f, In f F -> frame_ok js f;
      i_work : forall j i, In (j, i) wq -> exists jb, nth_error js j = Some jb /\ i < jobCount jb /\ fresh jb i;
      i_output : forall j jb i, nth_error js j = Some jb -> In i (outputQueue jb) -> i < jobCount jb /\ complete jb i }.

  (** Another frame does not mind. *)
  Lemma act_ok_grows js j jb jb' i a r : nth_error js j = Some jb -> grows i jb jb' ->
    (act_tok j i a = 0 \/ forall ix, ~ chunk jb i ix) ->
    act_ok js a r -> act_ok (replace_nth j jb' js) a r.
  Proof.
    intros N G D. destruct a as [b|j' p k|]; cbn [act_ok]; auto. intros (jb0 & N0 & R0 & P0).
    destruct (Nat.eq_dec j j') as [<-|NE].
    - assert (jb0 = jb) as -> by congruence. exists jb'.
      rewrite nth_error_replace_same by (apply nth_error_Some; congruence). rewrite (gr_bodies _ _ _ G).
      split; [reflexivity|]. split; [exact R0|]. destruct p as [n| |taken]; cbn [phase_ok] in *; auto.
      + intros i' L1 L2. rewrite (grows_count _ _ _ G) in L2. apply (fresh_grows i jb); auto.
        destruct D as [D|D]; [left|auto]. cbn [act_tok] in D. rewrite Nat.eqb_refl in D. cbn in D. unfold b2n in D.
        destruct (Nat.leb_spec n i); [discriminate|lia].
      + intros i' Hi'. rewrite (grows_count _ _ _ G). destruct (P0 i' Hi'). split; [assumption|].
        eapply complete_grows; eauto.
    - exists jb0. rewrite nth_error_replace_other by exact NE. auto.
  Qed.

  Lemma frame_ok_grows js j jb jb' i f : nth_error js j = Some jb -> grows i jb jb' ->
    (tok j i f = 0 \/ forall ix, ~ chunk jb i ix) ->
    frame_ok js f -> frame_ok (replace_nth j jb' js) f.
  Proof.
    intros N G D. destruct f as [j' i' ix a|p a].
    - assert (D2 : act_tok j i a = 0 \/ forall ix, ~ chunk jb i ix) by (destruct D as [D|D]; [left; unfold tok in D; cbn [act_of] in D; lia|auto]).
      assert (D1 : ~ (j = j' /\ i = i') \/ forall ix, ~ chunk jb i ix).
      { destruct D as [D|D]; [left|auto]. intros [<- <-]. unfold tok, exec_tok in D. rewrite !Nat.eqb_refl in D. cbn in D. lia. }
      assert (act_ok js a = fun r => act_ok js a r) as _ by reflexivity.
      assert (R : forall jb0, nth_error js j' = Some jb0 -> exists jb1, nth_error (replace_nth j jb' js) j' = Some jb1 /\
                bodies jb1 = bodies jb0 /\ gran jb1 = gran jb0 /\ (complete jb0 i' -> complete jb1 i') /\
                (forall ix0, upto jb0 i' ix0 -> upto jb1 i' ix0)).
      { intros jb0 N0. destruct (Nat.eq_dec j j') as [<-|NE].
        - assert (jb0 = jb) as -> by congruence. exists jb'.
          rewrite nth_error_replace_same by (apply nth_error_Some; congruence).
          split; [reflexivity|]. split; [apply G|]. split; [apply G|]. split; [apply (complete_grows _ _ _ _ G)|].
          intros ix0. apply (upto_grows i); [exact G|]. destruct D1 as [D1|D1]; [left|auto]. intros ->. apply D1. auto.
        - exists jb0. rewrite nth_error_replace_other by exact NE. auto 6. }
      assert (C : forall jb0 jb1, bodies jb1 = bodies jb0 -> gran jb1 = gran jb0 -> jobCount jb1 = jobCount jb0 /\
                 forall ix, chunk jb1 i' ix <-> chunk jb0 i' ix).
      { intros jb0 jb1 B1 B2. unfold jobCount, chunk. rewrite B1, B2. split; [reflexivity|tauto]. }
      destruct a as [b|jc p k|]; cbn [frame_ok].
      + intros (jb0 & N0 & L & Ci & U & b0 & Nb & A). destruct (R jb0 N0) as (jb1 & N1 & B1 & B2 & _ & U1).
        destruct (C jb0 jb1 B1 B2) as [C1 C2]. exists jb1. rewrite C1, B1. split; [exact N1|]. split; [exact L|]. split; [apply C2, Ci|].
        split; [apply U1, U|]. exists b0. auto.
      + intros (jb0 & N0 & L & Ci & U & b0 & Nb & A). destruct (R jb0 N0) as (jb1 & N1 & B1 & B2 & _ & U1).
        destruct (C jb0 jb1 B1 B2) as [C1 C2]. exists jb1. rewrite C1, B1. split; [exact N1|]. split; [exact L|]. split; [apply C2, Ci|].
        split; [apply U1, U|]. exists b0. split; [exact Nb|]. eapply act_ok_grows; eauto.
      + intros (jb0 & N0 & L & Co). destruct (R jb0 N0) as (jb1 & N1 & B1 & B2 & Co1 & _).
        destruct (C jb0 jb1 B1 B2) as [C1 _]. exists jb1. rewrite C1. auto.
    - cbn [frame_ok]. intros A. eapply act_ok_grows; eauto.
  Qed.

  Lemma replace_cases {A} j (x : A) l j' y : nth_error (replace_nth j x l) j' = Some y ->
    (j' = j /\ y = x /\ j < length l) \/ (j' <> j /\ nth_error l j' = Some y).
  Proof.
    intros N. destruct (Nat.eq_dec j j') as [<-|D].
    - left. assert (nth_error (replace_nth j x l) j <> None) as L by congruence.
      apply nth_error_Some in L. rewrite replace_nth_length in L. rewrite nth_error_replace_same in N by exact L.
      injection N as <-. auto.
    - right. rewrite nth_error_replace_other in N by exact D. auto.
  Qed.

  (** Working on chunk [i] of job [j], which no other frame or queue holds. *)
  Lemma inv_grows js wq j jb jb' i A B fs :
    nth_error js j = Some jb -> grows i jb jb' -> job_ok jb' -> outputQueue jb' = outputQueue jb ->
    (forall j0 jb0 i0, nth_error js j0 = Some jb0 -> i0 < jobCount jb0 ->
       sum (tok j0 i0) (A ++ fs ++ B) + qcount wq j0 i0 + count_occ Nat.eq_dec (outputQueue jb0) i0 = sum (calls j0) (A ++ fs ++ B)) ->
    (forall j0, sum (calls j0) (A ++ fs ++ B) <= 1) ->
    (forall j0 jb0, nth_error js j0 = Some jb0 -> job_ok jb0) ->
    (forall f, In f A \/ In f B -> frame_ok js f /\ tok j i f = 0) ->
    (forall f, In f fs -> frame_ok (replace_nth j jb' js) f) ->
    (forall j0 i0, In (j0, i0) wq -> (j0, i0) <> (j, i) /\ exists jb0, nth_error js j0 = Some jb0 /\ i0 < jobCount jb0 /\ fresh jb0 i0) ->
    (forall j0 jb0 i0, nth_error js j0 = Some jb0 -> In i0 (outputQueue jb0) -> i0 < jobCount jb0 /\ complete jb0 i0) ->
    inv (replace_nth j jb' js) wq (A ++ fs ++ B).
  Proof.
    intros N G JO OQ T C J Fo Fn Wk Out. pose proof (grows_count _ _ _ G) as GC. constructor.
    - intros j0 jb0 i0 N0 L0. apply replace_cases in N0. destruct N0 as [(-> & -> & _)|(D & N0)].
      + rewrite OQ. apply T with (jb0 := jb); [exact N|lia].
      + now apply T.
    - exact C.
    - intros j0 jb0 N0. apply replace_cases in N0. destruct N0 as [(-> & -> & _)|(D & N0)]; eauto.
    - intros f Hf. apply in_app_iff in Hf. rewrite in_app_iff in Hf. destruct Hf as [Hf|[Hf|Hf]].
      + destruct (Fo f (or_introl Hf)). eapply frame_ok_grows; eauto.
      + auto.
      + destruct (Fo f (or_intror Hf)). eapply frame_ok_grows; eauto.
    - intros j0 i0 H0. destruct (Wk _ _ H0) as (NE & jb0 & N0 & L0 & F0).
      destruct (Nat.eq_dec j j0) as [<-|D].
      + exists jb'. rewrite nth_error_replace_same by (apply nth_error_Some; congruence).
        assert (jb0 = jb) as -> by congruence. split; [reflexivity|]. split; [lia|]. apply (fresh_grows i jb); [exact G|left; congruence|exact F0].
      + exists jb0. rewrite nth_error_replace_other by exact D. auto.
    - intros j0 jb0 i0 N0 H0. apply replace_cases in N0. destruct N0 as [(-> & -> & _)|(D & N0)].
      + rewrite OQ in H0. destruct (Out _ _ _ N H0). rewrite GC. split; [assumption|]. eapply complete_grows; eauto.
      + eauto.
  Qed.

  (** ** Going on with an element *)
  Lemma at_element_ok j i ix jb : job_ok jb -> i < jobCount jb -> ready jb i ix ->
    exists jb' f, at_element j i ix jb = Ok (jb', f) /\ grows i jb jb' /\ job_ok jb' /\ outputQueue jb' = outputQueue jb /\
      exists a, f = Exec j i ix a /\ (forall j0 i0, act_tok j0 i0 a = 0) /\ (forall j0, calls j0 f = 0) /\
      forall js, nth_error js j = Some jb' -> frame_ok js f.
  Proof.
    intros JO L [R0 R]. unfold at_element. destruct (Nat.ltb_spec ix (chunk_end jb i)) as [Lt|Ge].
    - apply chunk_end_spec in Lt. destruct Lt as [Lt1 Lt2].
      assert (Ci : chunk jb i ix) by (unfold chunk; auto).
      destruct (nth_error (bodies jb) ix) as [b|] eqn:Nb; [|apply nth_error_None in Nb; lia].
      destruct (R ix Ci) as [_ R2]. destruct (R2 (le_n _)) as [Sl NC].
      eexists. eexists. split; [reflexivity|]. split; [|split; [|split; [reflexivity|]]].
      + constructor; cbn [bodies gran slots exceptionQueue called]; auto.
        intros ix' NC'. split; [reflexivity|]. rewrite in_app_iff. intros [X|[X|[]]]; [exact X|]. subst. contradiction.
      + destruct JO as [A1 A2 A3 A4]. constructor; cbn; auto. now apply NoDup_snoc.
      + exists (Running b). split; [reflexivity|]. split; [reflexivity|]. split; [reflexivity|].
        intros js Njs. cbn [frame_ok]. eexists. split; [exact Njs|]. split; [exact L|]. split; [exact Ci|].
        split; [|exists b; split; [exact Nb|reflexivity]].
        intros ix' Ci'. destruct (R ix' Ci') as [Q1 Q2]. cbn [slots called].
        split; [exact Q1|]. split; [intros; apply Q2; assumption|].
        intros Lt. rewrite in_app_iff. intros [X|[X|[]]]; [|lia]. apply Q2 in X; [exact X|lia].
    - exists jb, (Exec j i ix Ending). split; [reflexivity|]. split; [apply grows_refl|]. split; [exact JO|].
      split; [reflexivity|]. exists Ending. split; [reflexivity|]. split; [reflexivity|]. split; [reflexivity|].
      intros js Njs. cbn [frame_ok]. exists jb. split; [exact Njs|]. split; [exact L|]. exists ix.
      assert (All : forall ix', chunk jb i ix' -> ix' < ix).
      { intros ix' (C1 & C2 & C3). unfold chunk_end in Ge. lia. }
      split; [|left; exact All]. intros ix' Ci' Lt. apply R; assumption.
  Qed.

  Lemma qcount_cons j i wq j0 i0 : qcount ((j, i) :: wq) j0 i0 = b2n ((j =? j0) && (i =? i0)) + qcount wq j0 i0.
  Proof.
    unfold qcount. cbn [count_occ]. destruct (pair_dec (j, i) (j0, i0)) as [X|X].
    - injection X as -> ->. rewrite !Nat.eqb_refl. reflexivity.
    - destruct (Nat.eqb_spec j j0), (Nat.eqb_spec i i0); cbn; subst; congruence.
  Qed.
  Lemma qcount_snoc j i wq j0 i0 : qcount (wq ++ [(j, i)]) j0 i0 = qcount wq j0 i0 + b2n ((j =? j0) && (i =? i0)).
  Proof.
    induction wq as [|[j1 i1] wq IH]; cbn [app]; rewrite !qcount_cons; [unfold qcount; cbn; lia|]. rewrite IH. lia.
  Qed.
  Lemma qcount_in j i wq : In (j, i) wq <-> qcount wq j i > 0.
  Proof. apply count_occ_In. Qed.
  Lemma b2n_both j i : b2n ((j =? j) && (i =? i)) = 1.
  Proof. now rewrite !Nat.eqb_refl. Qed.

  (** The token of chunk [(j, i)] is in one place only. *)
  Lemma token_alone js wq A f B j jb i : inv js wq (A ++ f :: B) -> nth_error js j = Some jb -> i < jobCount jb ->
    1 <= tok j i f ->
    (forall g, In g A \/ In g B -> tok j i g = 0) /\ (forall j0 i0, In (j0, i0) wq -> (j0, i0) <> (j, i)).
  Proof.
    intros [T C _ _ _ _] N L Tk. specialize (T j jb i N L). specialize (C j). rewrite !sum_app in *. cbn [sum] in *.
    split.
    - intros g [Hg|Hg]; apply (sum_in (tok j i)) in Hg; lia.
    - intros j0 i0 H0 [= -> ->]. apply qcount_in in H0. lia.
  Qed.

  Lemma begin_ok js wq j i A B : inv js ((j, i) :: wq) (A ++ B) ->
    exists js' f, begin js j i = Ok (js', f) /\ inv js' wq (A ++ f :: B) /\ exists ix a, f = Exec j i ix a /\
      (a = Ending \/ exists b, a = Running b) /\ length js' = length js /\
      (forall j0 jb', nth_error js' j0 = Some jb' -> exists jb0, nth_error js j0 = Some jb0 /\
         bodies jb' = bodies jb0 /\ gran jb' = gran jb0 /\ outputQueue jb' = outputQueue jb0).
  Proof.
    intros I0. destruct (i_work _ _ _ I0 j i (or_introl eq_refl)) as (jb & N & L & Fr).
    pose proof (i_jobs _ _ _ I0 j jb N) as JO.
    assert (Rd : ready jb i (i * gran jb)).
    { split; [lia|]. intros ix Ci. split; [intros Lt; destruct Ci; lia|]. intros _. apply Fr, Ci. }
    destruct (at_element_ok j i (i * gran jb) jb JO L Rd) as (jb' & f & AE & G & JO' & OQ & a & -> & At & Ct & Fok).
    unfold begin, get_job. rewrite N. cbn [bind]. rewrite AE. cbn [bind].
    eexists. eexists. split; [reflexivity|]. split.
    - change (A ++ Exec j i (i * gran jb) a :: B) with (A ++ [Exec j i (i * gran jb) a] ++ B).
      destruct I0 as [T C J Fo Wk Out].
      pose proof (T j jb i N L) as Tj. rewrite !sum_app, qcount_cons, b2n_both in Tj.
      pose proof (C j) as Cj. rewrite sum_app in Cj.
      eapply inv_grows; eauto.
      + intros j0 jb0 i0 N0 L0. specialize (T j0 jb0 i0 N0 L0). rewrite !sum_app in *. cbn [sum].
        rewrite qcount_cons in T. rewrite Ct. unfold tok at 2. cbn [exec_tok act_of]. rewrite At. lia.
      + intros j0. specialize (C j0). rewrite !sum_app in *. cbn [sum]. rewrite Ct. lia.
      + intros f Hf. split; [apply Fo; apply in_or_app; tauto|].
        destruct Hf as [Hf|Hf]; apply (sum_in (tok j i)) in Hf; lia.
      + intros f [<-|[]]. apply Fok. apply nth_error_replace_same. apply nth_error_Some. congruence.
      + intros j0 i0 H0. split; [|apply Wk; now right]. intros [= -> ->]. apply qcount_in in H0. lia.
    - exists (i * gran jb), a. split; [reflexivity|]. split; [|split].
      + unfold at_element in AE. destruct (_ <? _) in AE; [destruct (nth_error _ _) in AE; [|discriminate]|]; injection AE as _ <-; eauto.
      + apply replace_nth_length.
      + intros j0 jb0 N0. apply replace_cases in N0. destruct N0 as [(-> & -> & _)|(D & N0)]; [|eauto 6].
        exists jb. split; [exact N|]. split; [apply G|]. split; [apply G|exact OQ].
  Qed.

  Lemma fresh_new bs mg i : fresh (new_job cpu bs mg) i.
  Proof.
    intros ix (_ & _ & L). cbn [new_job slots called bodies] in *. split; [apply nth_error_repeat; exact L|]. intros [].
  Qed.
  Lemma new_job_ok bs mg : job_ok (new_job cpu bs mg).
  Proof.
    constructor; cbn; [apply granularity_pos|apply repeat_length|intros ? ? []|constructor].
  Qed.

  Lemma act_ok_snoc js jb a r : act_ok js a r -> act_ok (js ++ [jb]) a r.
  Proof.
    destruct a as [b|j p k|]; cbn [act_ok]; auto. intros (jb0 & N & R). exists jb0. split; [|exact R].
    rewrite nth_error_app1; [exact N|]. apply nth_error_Some. congruence.
  Qed.
  Lemma frame_ok_snoc js jb f : frame_ok js f -> frame_ok (js ++ [jb]) f.
  Proof.
    assert (Nx : forall j (jb0 : job), nth_error js j = Some jb0 -> nth_error (js ++ [jb]) j = Some jb0).
    { intros j jb0 N. rewrite nth_error_app1; [exact N|]. apply nth_error_Some. congruence. }
    destruct f as [j i ix a|p a]; cbn [frame_ok].
    - destruct a as [b|jc p k|].
      + intros (jb0 & N & L & Ci & U & b0 & Nb & A). exists jb0. split; [auto|]. split; [exact L|]. split; [exact Ci|].
        split; [exact U|]. exists b0. auto.
      + intros (jb0 & N & L & Ci & U & b0 & Nb & A). exists jb0. split; [auto|]. split; [exact L|]. split; [exact Ci|].
        split; [exact U|]. exists b0. split; [exact Nb|]. now apply act_ok_snoc.
      + intros (jb0 & N & L). exists jb0. auto.
    - apply act_ok_snoc.
  Qed.

  Lemma frame_old js f j i : frame_ok js f -> length js <= j -> tok j i f = 0 /\ calls j f = 0.
  Proof.
    assert (A0 : forall a r, act_ok js a r -> length js <= j -> act_tok j i a = 0 /\ match a with Calling j' _ _ => b2n (j' =? j) | _ => 0 end = 0).
    { intros a r A L. destruct a as [b|j' p k|]; [auto| |contradiction]. destruct A as (jb & N & _).
      assert (j' < length js) by (apply nth_error_Some; congruence). cbn [act_tok].
      destruct (Nat.eqb_spec j' j); [lia|]. destruct p; cbn; auto. }
    destruct f as [j' i' ix a|p a]; intros Fk L; unfold tok, calls, exec_tok; cbn [act_of].
    - cbn [frame_ok] in Fk. assert (exists jb, nth_error js j' = Some jb) as (jb & N).
      { destruct a; destruct Fk as (jb & N & _); eauto. }
      assert (j' < length js) by (apply nth_error_Some; congruence).
      destruct (Nat.eqb_spec j' j); [lia|]. cbn [andb b2n Nat.add].
      destruct a as [b|jc p k|]; [auto| |auto]. destruct Fk as (jb0 & _ & _ & _ & _ & b0 & _ & Ak). apply (A0 _ _ Ak L).
    - cbn [frame_ok] in Fk. apply (A0 _ _ Fk L).
  Qed.

  Lemma sum_zero g l : (forall f, In f l -> g f = 0) -> sum g l = 0.
  Proof. induction l as [|x l IH]; intros H; cbn; [reflexivity|]. rewrite (H x), IH; auto; [intros; apply H; now right|now left]. Qed.

  Lemma set_act_tok j i f a : tok j i (set_act f a) = exec_tok j i f + act_tok j i a.
  Proof. destruct f; reflexivity. Qed.
  Lemma set_act_calls j f a : calls j (set_act f a) = match a with Calling j' _ _ => b2n (j' =? j) | _ => 0 end.
  Proof. destruct f; reflexivity. Qed.

  Lemma frame_ok_set js f a' : act_of f <> Ending -> a' <> Ending ->
    (forall r, act_ok js (act_of f) r -> act_ok js a' r) -> frame_ok js f -> frame_ok js (set_act f a').
  Proof.
    intros N1 N2 H Fk. destruct f as [j i ix a|p a]; cbn [act_of set_act] in *; [|cbn [frame_ok] in *; auto].
    cbn [frame_ok] in *.
    assert (exists jb, nth_error js j = Some jb /\ i < jobCount jb /\ chunk jb i ix /\ upto jb i ix /\
                         exists b, nth_error (bodies jb) ix = Some b /\ act_ok js a' (eval b)) as R.
    { destruct a; [| |contradiction]; destruct Fk as (jb & X1 & X2 & X3 & X4 & b0 & X5 & X6);
        exists jb; repeat (split; [assumption|]); exists b0; auto. }
    destruct a'; [exact R|exact R|contradiction].
  Qed.

  (** ** The steps *)
  Inductive moved (js : list job) (wq : list (nat * nat)) (ex : bool) (f : frame) : list job -> list (nat * nat) -> list frame -> Prop :=
  | m_call bs mg k : act_of f = Running (Pmap bs mg k) ->
      moved js wq ex f (js ++ [new_job cpu bs mg]) wq [set_act f (Calling (length js) (Pushing 0) k)]
  | m_good j i ix v jb jb1 jb2 f2 : f = Exec j i ix (Running (Return (Good v))) -> nth_error js j = Some jb ->
      initialize jb ix v = Ok jb1 -> at_element j i (S ix) jb1 = Ok (jb2, f2) ->
      moved js wq ex f (replace_nth j jb2 js) wq [f2]
  | m_bad j i ix e jb : f = Exec j i ix (Running (Return (Bad e))) -> nth_error js j = Some jb ->
      moved js wq ex f (replace_nth j (put_exception jb ix e) js) wq [Exec j i ix Ending]
  | m_push j n k jb : act_of f = Calling j (Pushing n) k -> nth_error js j = Some jb -> n < jobCount jb ->
      moved js wq ex f js (wq ++ [(j, n)]) [set_act f (Calling j (Pushing (S n)) k)]
  | m_drain j n k jb : act_of f = Calling j (Pushing n) k -> nth_error js j = Some jb -> jobCount jb <= n -> ex = true ->
      moved js wq ex f js wq [set_act f (Calling j Draining k)]
  | m_wait j n k jb : act_of f = Calling j (Pushing n) k -> nth_error js j = Some jb -> jobCount jb <= n -> ex = false ->
      moved js wq ex f js wq [set_act f (Calling j (Waiting []) k)]
  | m_drained j k : act_of f = Calling j Draining k -> wq = [] ->
      moved js wq ex f js wq [set_act f (Calling j (Waiting []) k)]
  | m_begin j k j' i wq' js' g : act_of f = Calling j Draining k -> wq = (j', i) :: wq' -> begin js j' i = Ok (js', g) ->
      moved js wq ex f js' wq' [g; f]
  | m_take j taken k jb i q : act_of f = Calling j (Waiting taken) k -> nth_error js j = Some jb -> length taken < jobCount jb ->
      outputQueue jb = i :: q ->
      moved js wq ex f (replace_nth j (set_output jb q) js) wq [set_act f (Calling j (Waiting (taken ++ [i])) k)]
  | m_collect j taken k jb : act_of f = Calling j (Waiting taken) k -> nth_error js j = Some jb -> jobCount jb <= length taken ->
      moved js wq ex f js wq [set_act f (Running (k (in_order (map eval (bodies jb)))))]
  | m_end j i ix jb : f = Exec j i ix Ending -> nth_error js j = Some jb ->
      moved js wq ex f (replace_nth j (set_output jb (outputQueue jb ++ [i])) js) wq [].

  Inductive waits (js : list job) (f : frame) : Prop :=
  | w_over p r : f = Main p (Running (Return r)) -> waits js f
  | w_output j taken k jb : act_of f = Calling j (Waiting taken) k -> nth_error js j = Some jb ->
      length taken < jobCount jb -> outputQueue jb = [] -> waits js f.

  Lemma calling_job js f j p k : frame_ok js f -> act_of f = Calling j p k ->
    exists jb, nth_error js j = Some jb /\ phase_ok jb p.
  Proof.
    destruct f as [j' i ix a|q a]; cbn [act_of]; intros Fk ->; cbn [frame_ok] in Fk.
    - destruct Fk as (jb & _ & _ & _ & _ & b & _ & jb1 & N & _ & P). eauto.
    - destruct Fk as (jb1 & N & _ & P). eauto.
  Qed.

  Lemma calls_calling f j p k : act_of f = Calling j p k -> calls j f = 1.
  Proof. intros H. unfold calls. rewrite H, Nat.eqb_refl. reflexivity. Qed.

  Lemma taken_all js wq A f B j taken k jb : inv js wq (A ++ f :: B) -> act_of f = Calling j (Waiting taken) k ->
    nth_error js j = Some jb -> jobCount jb <= length taken ->
    forall i, i < jobCount jb -> count_occ Nat.eq_dec taken i = 1 /\ complete jb i.
  Proof.
    intros I0 Ha N L.
    destruct (calling_job js f j (Waiting taken) k) as (jb' & N' & P); [apply (i_frames _ _ _ I0); apply in_or_app; right; now left|exact Ha|].
    assert (jb' = jb) as -> by congruence. cbn [phase_ok] in P.
    assert (Le : forall i, i < jobCount jb -> count_occ Nat.eq_dec taken i <= 1).
    { intros i Li. pose proof (i_tokens _ _ _ I0 j jb i N Li) as T. pose proof (i_calls _ _ _ I0 j) as C.
      rewrite !sum_app in *. cbn [sum] in *. unfold tok at 2 in T. rewrite Ha in T. cbn [act_tok] in T.
      rewrite Nat.eqb_refl in T. lia. }
    assert (ND : NoDup taken).
    { apply (NoDup_count_occ Nat.eq_dec). intros i. destruct (in_dec Nat.eq_dec i taken) as [Hi|Hi].
      - apply Le, P, Hi.
      - apply (count_occ_not_In Nat.eq_dec) in Hi. lia. }
    assert (Inc : incl (seq 0 (jobCount jb)) taken).
    { apply NoDup_length_incl; [exact ND|rewrite seq_length; exact L|].
      intros i Hi. apply in_seq. destruct (P i Hi). lia. }
    intros i Li. assert (Hi : In i taken) by (apply Inc, in_seq; lia).
    split; [|apply P, Hi]. pose proof (Le i Li). apply (count_occ_In Nat.eq_dec) in Hi. lia.
  Qed.

  Lemma in_split_frames {X} (f : X) A B : In f (A ++ f :: B).
  Proof. apply in_or_app. right. now left. Qed.

  Lemma exec_running js j i ix b jb : frame_ok js (Exec j i ix (Running b)) -> nth_error js j = Some jb ->
    i < jobCount jb /\ chunk jb i ix /\ upto jb i ix /\ exists b0, nth_error (bodies jb) ix = Some b0 /\ eval b = eval b0.
  Proof.
    intros (jb' & N' & L & Ci & U & b0 & Nb & A) N. assert (jb' = jb) as -> by congruence. eauto 7.
  Qed.

  Lemma initialize_ok jb i ix v b : job_ok jb -> chunk jb i ix -> upto jb i ix -> nth_error (bodies jb) ix = Some b ->
    eval b = Good v ->
    exists jb1, initialize jb ix v = Ok jb1 /\ grows i jb jb1 /\ job_ok jb1 /\ outputQueue jb1 = outputQueue jb /\ ready jb1 i (S ix).
  Proof.
    intros JO Ci U Nb Ev. destruct (U ix Ci) as (_ & Sl & _). specialize (Sl (le_n _)). unfold initialize. rewrite Sl.
    assert (Lx : ix < length (slots jb)) by (apply nth_error_Some; congruence).
    eexists. split; [reflexivity|].
    match goal with |- grows _ _ ?j1 /\ _ => set (jb1 := j1) end.
    assert (VA : forall ix', value_at jb ix' -> value_at jb1 ix').
    { intros ix' (v' & b' & V1 & V2 & V3). exists v', b'. cbn [jb1 slots bodies]. split; [|auto].
      rewrite nth_error_replace_other; [exact V1|]. intros <-. congruence. }
    assert (Vix : value_at jb1 ix).
    { exists v, b. cbn [jb1 slots bodies]. rewrite nth_error_replace_same by exact Lx. auto. }
    split; [|split; [|split; [reflexivity|]]].
    - constructor; auto. intros ix' NC. cbn [jb1 slots called]. split; [|auto]. apply nth_error_replace_other.
      intros <-. contradiction.
    - destruct JO as [A1 A2 A3 A4]. constructor; cbn [jb1 gran slots bodies exceptionQueue called]; auto.
      rewrite replace_nth_length. exact A2.
    - destruct Ci as (C1 & C2 & C3). split; [cbn [jb1 gran]; lia|]. intros ix' Ci'. 
      change (chunk jb i ix') in Ci'. destruct (U ix' Ci') as (Q1 & Q2 & Q3). split.
      + intros Lt. destruct (Nat.eq_dec ix' ix) as [->|NE]; [exact Vix|]. apply VA, Q1. lia.
      + intros Le. cbn [jb1 slots called]. rewrite nth_error_replace_other by lia. split; [apply Q2; lia|apply Q3; lia].
  Qed.

  Lemma fstep_cases js wq ex A f B : inv js wq (A ++ f :: B) ->
    (fstep cpu js wq ex f = Ok None /\ waits js f) \/
    exists js' wq' fs, fstep cpu js wq ex f = Ok (Some (js', wq', fs)) /\ moved js wq ex f js' wq' fs.
  Proof.
    intros I0. pose proof (i_frames _ _ _ I0 f (in_split_frames _ _ _)) as Fk. unfold fstep.
    destruct (act_of f) as [b|j p k|] eqn:Ha.
    - destruct b as [r|bs mg k].
      + destruct f as [j i ix a|p a]; cbn [act_of] in Ha; subst a.
        * right. assert (exists jb, nth_error js j = Some jb) as (jb & N) by (destruct Fk as (jb & N & _); eauto).
          destruct (exec_running _ _ _ _ _ _ Fk N) as (L & Ci & U & b0 & Nb & Ev). pose proof (i_jobs _ _ _ I0 j jb N) as JO.
          unfold get_job. rewrite N. cbn [bind]. destruct r as [v|e].
          -- destruct (initialize_ok jb i ix v b0) as (jb1 & E1 & G & JO1 & OQ & Rd); auto.
             rewrite E1. cbn [bind]. pose proof (grows_count _ _ _ G) as GC.
             destruct (at_element_ok j i (S ix) jb1 JO1) as (jb2 & f2 & E2 & _); [lia|exact Rd|].
             rewrite E2. cbn [bind]. do 3 eexists. split; [reflexivity|]. eapply m_good; eauto.
          -- do 3 eexists. split; [reflexivity|]. eapply m_bad; eauto.
        * left. split; [reflexivity|]. econstructor; eauto.
      + right. do 3 eexists. split; [reflexivity|]. econstructor; eauto.
    - destruct (calling_job js f j p k Fk Ha) as (jb & N & P). unfold get_job. rewrite N. cbn [bind].
      destruct p as [n| |taken].
      + right. destruct (Nat.ltb_spec n (jobCount jb)).
        * do 3 eexists. split; [reflexivity|]. econstructor; eauto.
        * destruct ex; do 3 eexists; (split; [reflexivity|]); [eapply m_drain|eapply m_wait]; eauto.
      + right. destruct wq as [|[j' i] wq].
        * do 3 eexists. split; [reflexivity|]. eapply m_drained; eauto.
        * destruct (begin_ok js wq j' i (A ++ [f]) B) as (js' & g & E1 & _); [now rewrite <- app_assoc|].
          rewrite E1. cbn [bind]. do 3 eexists. split; [reflexivity|]. eapply m_begin; eauto.
      + destruct (Nat.ltb_spec (length taken) (jobCount jb)).
        * destruct (outputQueue jb) as [|i q] eqn:OQ.
          -- left. split; [reflexivity|]. eapply w_output; eauto.
          -- right. do 3 eexists. split; [reflexivity|]. eapply m_take; eauto.
        * right. rewrite (collect_ok jb); [|apply (i_jobs _ _ _ I0 j jb N)|].
          -- cbn [bind]. do 3 eexists. split; [reflexivity|]. eapply m_collect; eauto.
          -- intros i Li. eapply taken_all; eauto.
    - destruct f as [j i ix a|p a]; cbn [act_of] in Ha; subst a.
      + right. destruct Fk as (jb & N & L & Co). unfold get_job. rewrite N. cbn [bind].
        do 3 eexists. split; [reflexivity|]. econstructor; eauto.
      + destruct Fk.
  Qed.

  Lemma no_chunk_beyond jb : job_ok jb -> forall ix, ~ chunk jb (jobCount jb) ix.
  Proof.
    intros [JG _ _ _] ix (C1 & C2 & C3). pose proof (job_count_spec (length (bodies jb)) (gran jb) (jobCount jb) JG).
    unfold jobCount in *. lia.
  Qed.
  Lemma set_output_grows i jb q : grows i jb (set_output jb q).
  Proof. constructor; auto. Qed.

  (** Changing an output queue. *)
  Lemma inv_output js wq j jb q F :
    nth_error js j = Some jb ->
    (forall j0 jb0, nth_error js j0 = Some jb0 -> job_ok jb0) ->
    (forall i, i < jobCount jb -> sum (tok j i) F + qcount wq j i + count_occ Nat.eq_dec q i = sum (calls j) F) ->
    (forall j0 jb0 i0, j0 <> j -> nth_error js j0 = Some jb0 -> i0 < jobCount jb0 ->
       sum (tok j0 i0) F + qcount wq j0 i0 + count_occ Nat.eq_dec (outputQueue jb0) i0 = sum (calls j0) F) ->
    (forall j0, sum (calls j0) F <= 1) ->
    (forall f, In f F -> frame_ok (replace_nth j (set_output jb q) js) f) ->
    (forall j0 i0, In (j0, i0) wq -> exists jb0, nth_error js j0 = Some jb0 /\ i0 < jobCount jb0 /\ fresh jb0 i0) ->
    (forall j0 jb0 i0, j0 <> j -> nth_error js j0 = Some jb0 -> In i0 (outputQueue jb0) -> i0 < jobCount jb0 /\ complete jb0 i0) ->
    (forall i0, In i0 q -> i0 < jobCount jb /\ complete jb i0) ->
    inv (replace_nth j (set_output jb q) js) wq F.
  Proof.
    intros N J T1 T2 C Fk Wk O1 O2. constructor.
    - intros j0 jb0 i0 N0 L0. apply replace_cases in N0. destruct N0 as [(-> & -> & _)|(D & N0)]; [apply T1; exact L0|auto].
    - exact C.
    - intros j0 jb0 N0. apply replace_cases in N0. destruct N0 as [(-> & -> & _)|(D & N0)]; [|eauto].
      destruct (J _ _ N). constructor; auto.
    - exact Fk.
    - intros j0 i0 H0. destruct (Wk _ _ H0) as (jb0 & N0 & L0 & F0). destruct (Nat.eq_dec j j0) as [<-|D].
      + assert (jb0 = jb) as -> by congruence. exists (set_output jb q).
        rewrite nth_error_replace_same by (apply nth_error_Some; congruence). auto.
      + exists jb0. rewrite nth_error_replace_other by exact D. auto.
    - intros j0 jb0 i0 N0 H0. apply replace_cases in N0. destruct N0 as [(-> & -> & _)|(D & N0)]; [|eauto].
      destruct (O2 i0 H0). split; [assumption|]. apply (complete_grows 0 jb); [apply set_output_grows|assumption].
  Qed.

  Lemma frame_ok_output js j jb q f : nth_error js j = Some jb -> job_ok jb ->
    frame_ok js f -> frame_ok (replace_nth j (set_output jb q) js) f.
  Proof.
    intros N JO. apply (frame_ok_grows js j jb _ (jobCount jb)); [exact N|apply set_output_grows|].
    right. now apply no_chunk_beyond.
  Qed.

  Lemma moved_inv js wq ex A f B js' wq' fs : inv js wq (A ++ f :: B) -> moved js wq ex f js' wq' fs ->
    inv js' wq' (A ++ fs ++ B).
  Proof.
    intros I0 M. pose proof (i_frames _ _ _ I0 f (in_split_frames _ _ _)) as Fk.
    assert (InA : forall g, In g A \/ In g B -> In g (A ++ f :: B)) by (intros g; rewrite in_app_iff; cbn; tauto).
    assert (In3 : forall g fs0, In g (A ++ fs0 ++ B) <-> (In g fs0 \/ (In g A \/ In g B))) by (intros; rewrite !in_app_iff; tauto).
    destruct M as [bs mg k Ha|j i ix v jb jb1 jb2 f2 -> N E1 E2|j i ix e jb -> N|j n k jb Ha N L|j n k jb Ha N L Ex|j n k jb Ha N L Ex
                  |j k Ha Hw|j k j' i wq' js' g Ha Hw E1|j taken k jb i q Ha N L OQ|j taken k jb Ha N L|j i ix jb -> N].
    - (* call *)
      destruct I0 as [T C J Fo Wk Out].
      assert (Old : forall g i, In g (A ++ f :: B) -> tok (length js) i g = 0 /\ calls (length js) g = 0).
      { intros g i Hg. apply (frame_old js); [auto|lia]. }
      assert (So : forall j0, sum (calls j0) (A ++ [set_act f (Calling (length js) (Pushing 0) k)] ++ B) =
                   sum (calls j0) (A ++ f :: B) + b2n (length js =? j0)).
      { intros j0. rewrite !sum_app. cbn [sum]. rewrite set_act_calls. unfold calls at 4. rewrite Ha. lia. }
      constructor.
      + intros j0 jb0 i0 N0 L0. rewrite So. rewrite !sum_app. cbn [sum]. rewrite set_act_tok. cbn [act_tok].
        destruct (Nat.ltb_spec j0 (length js)) as [Lt|Ge].
        * rewrite nth_error_app1 in N0 by exact Lt. specialize (T j0 jb0 i0 N0 L0). rewrite !sum_app in *. cbn [sum] in *.
          unfold tok at 2 in T. rewrite Ha in T. cbn [act_tok] in T.
          destruct (Nat.eqb_spec (length js) j0); [lia|]. cbn. lia.
        * assert (j0 = length js) as ->.
          { assert (j0 < length (js ++ [new_job cpu bs mg])) as X by (apply nth_error_Some; congruence).
            rewrite app_length in X. cbn in X. lia. }
          rewrite nth_error_app2, Nat.sub_diag in N0 by lia. injection N0 as <-. cbn [new_job outputQueue count_occ].
          assert (qcount wq (length js) i0 = 0) as ->.
          { destruct (qcount wq (length js) i0) eqn:Q; [reflexivity|]. exfalso.
            assert (In (length js, i0) wq) as X by (apply qcount_in; lia). apply Wk in X. destruct X as (jb0 & X & _).
            assert (length js < length js) by (apply nth_error_Some; congruence). lia. }
          assert (Z0 : forall l, (forall g, In g l -> In g (A ++ f :: B)) -> sum (calls (length js)) l = 0 /\ sum (tok (length js) i0) l = 0).
          { intros l Hl. split; apply sum_zero; intros g Hg; apply (Old g i0); auto. }
          destruct (Z0 A) as [-> ->]; [auto|]. destruct (Z0 B) as [-> ->]; [auto|].
          destruct (Old f i0 (in_split_frames _ _ _)) as [Of ->]. unfold tok in Of. rewrite Nat.eqb_refl. cbn. lia.
      + intros j0. rewrite So. destruct (Nat.eqb_spec (length js) j0) as [<-|D]; [|cbn; rewrite Nat.add_0_r; apply C].
        rewrite sum_zero; [cbn; lia|]. intros g Hg. apply (Old g 0 Hg).
      + intros j0 jb0 N0. destruct (Nat.ltb_spec j0 (length js)) as [Lt|Ge].
        * rewrite nth_error_app1 in N0 by exact Lt. eauto.
        * rewrite nth_error_app2 in N0 by exact Ge. destruct (j0 - length js) as [|m]; cbn in N0.
          -- injection N0 as <-. apply new_job_ok.
          -- rewrite nth_error_nil_none in N0. discriminate.
      + intros g Hg. apply In3 in Hg. destruct Hg as [[<-|[]]|Hg]; [|apply frame_ok_snoc; auto].
        apply frame_ok_set; try congruence; [|apply frame_ok_snoc; exact Fk].
        rewrite Ha. cbn [act_ok]. intros r Hr. exists (new_job cpu bs mg). rewrite nth_error_app2, Nat.sub_diag by lia.
        split; [reflexivity|]. split; [exact Hr|]. intros i _ _. apply fresh_new.
      + intros j0 i0 H0. destruct (Wk _ _ H0) as (jb0 & N0 & R0). exists jb0. split; [|exact R0].
        rewrite nth_error_app1; [exact N0|]. apply nth_error_Some. congruence.
      + intros j0 jb0 i0 N0 H0. destruct (Nat.ltb_spec j0 (length js)) as [Lt|Ge].
        * rewrite nth_error_app1 in N0 by exact Lt. eauto.
        * rewrite nth_error_app2 in N0 by exact Ge. destruct (j0 - length js) as [|m]; cbn in N0.
          -- injection N0 as <-. destruct H0.
          -- rewrite nth_error_nil_none in N0. discriminate.
    - (* good *)
      destruct (exec_running _ _ _ _ _ _ Fk N) as (L & Ci & U & b0 & Nb & Ev). pose proof (i_jobs _ _ _ I0 j jb N) as JO.
      destruct (initialize_ok jb i ix v b0) as (jb1' & E1' & G & JO1 & OQ & Rd); auto.
      assert (jb1' = jb1) as -> by congruence. pose proof (grows_count _ _ _ G) as GC.
      destruct (at_element_ok j i (S ix) jb1 JO1) as (jb2' & f2' & E2' & G2 & JO2 & OQ2 & a & Hf & At & Ct & Fok); [lia|exact Rd|].
      rewrite E2 in E2'. injection E2' as <- <-.
      destruct (token_alone _ _ _ _ _ j jb i I0 N L) as [TA1 TA2]; [unfold tok, exec_tok; rewrite b2n_both; lia|].
      destruct I0 as [T C J Fo Wk Out].
      assert (Tk : forall j0 i0, tok j0 i0 f2 = tok j0 i0 (Exec j i ix (Running (Return (Good v))) : frame)).
      { intros j0 i0. subst f2. unfold tok. cbn [act_of exec_tok]. rewrite At. reflexivity. }
      eapply (inv_grows js wq j jb jb2 i); eauto.
      + eapply grows_trans; eauto.
      + congruence.
      + intros j0 jb0 i0 N0 L0. specialize (T j0 jb0 i0 N0 L0). rewrite !sum_app in *. cbn [sum] in *. rewrite Tk, Ct.
        unfold calls at 2 in T. cbn [act_of] in T. lia.
      + intros j0. specialize (C j0). rewrite !sum_app in *. cbn [sum] in *. rewrite Ct. lia.
      + intros g [<-|[]]. apply Fok. apply nth_error_replace_same. apply nth_error_Some. congruence.
    - (* bad *)
      destruct (exec_running _ _ _ _ _ _ Fk N) as (L & Ci & U & b0 & Nb & Ev). pose proof (i_jobs _ _ _ I0 j jb N) as JO.
      destruct (token_alone _ _ _ _ _ j jb i I0 N L) as [TA1 TA2]; [unfold tok, exec_tok; rewrite b2n_both; lia|].
      destruct I0 as [T C J Fo Wk Out].
      eapply (inv_grows js wq j jb _ i); eauto.
      + constructor; auto. intros x Hx. cbn. rewrite in_app_iff. now left.
      + destruct JO as [A1 A2 A3 A4]. constructor; cbn [put_exception gran slots bodies exceptionQueue called]; auto.
        intros ix' e' Hin. apply in_app_iff in Hin. destruct Hin as [Hin|[[= <- <-]|[]]]; [auto|].
        exists b0. split; [exact Nb|]. now rewrite <- Ev.
      + intros j0 jb0 i0 N0 L0. specialize (T j0 jb0 i0 N0 L0). cbn [app]. rewrite !sum_app in *. exact T.
      + intros j0. specialize (C j0). cbn [app]. rewrite !sum_app in *. exact C.
      + intros g [<-|[]]. cbn [frame_ok]. exists (put_exception jb ix e).
        rewrite nth_error_replace_same by (apply nth_error_Some; congruence). split; [reflexivity|]. split; [exact L|].
        exists ix. split; [|right; exists e; cbn; rewrite in_app_iff; right; now left].
        intros ix' Ci' Lt. destruct (U ix' Ci') as (Q1 & _). apply Q1, Lt.
    - (* push *)
      destruct (calling_job js f j _ k Fk Ha) as (jb' & N' & P). assert (jb' = jb) as -> by congruence. cbn [phase_ok] in P.
      destruct I0 as [T C J Fo Wk Out]. constructor; auto.
      + intros j0 jb0 i0 N0 L0. specialize (T j0 jb0 i0 N0 L0). rewrite !sum_app in *. cbn [sum app] in *. rewrite qcount_snoc.
        rewrite set_act_tok, set_act_calls. unfold tok at 2, calls at 2 in T. rewrite Ha in T. cbn [act_tok] in *.
        destruct (Nat.eqb_spec j j0), (Nat.leb_spec n i0), (Nat.leb_spec (S n) i0), (Nat.eqb_spec n i0); cbn [andb b2n] in *; lia.
      + intros j0. specialize (C j0). rewrite !sum_app in *. cbn [sum app] in *. rewrite set_act_calls. unfold calls at 2 in C. rewrite Ha in C. lia.
      + intros g Hg. apply In3 in Hg. destruct Hg as [[<-|[]]|Hg]; [|auto].
        apply frame_ok_set; try congruence. rewrite Ha. cbn [act_ok]. intros r (jb' & X1 & X2 & X3). exists jb'.
        split; [exact X1|]. split; [exact X2|]. intros i Hi. apply X3. lia.
      + intros j0 i0 H0. apply in_app_iff in H0. destruct H0 as [H0|[[= <- <-]|[]]]; [auto|]. exists jb. auto.
    - (* drain *)
      destruct I0 as [T C J Fo Wk Out]. constructor; auto.
      + intros j0 jb0 i0 N0 L0. specialize (T j0 jb0 i0 N0 L0). rewrite !sum_app in *. cbn [sum app] in *.
        rewrite set_act_tok, set_act_calls. unfold tok at 2, calls at 2 in T. rewrite Ha in T. cbn [act_tok] in *.
        destruct (Nat.eqb_spec j j0) as [->|D]; cbn [andb b2n] in *; [|lia]. assert (jb0 = jb) as -> by congruence.
        destruct (Nat.leb_spec n i0); cbn [b2n] in *; lia.
      + intros j0. specialize (C j0). rewrite !sum_app in *. cbn [sum app] in *. rewrite set_act_calls. unfold calls at 2 in C. rewrite Ha in C. lia.
      + intros g Hg. apply In3 in Hg. destruct Hg as [[<-|[]]|Hg]; [|auto].
        apply frame_ok_set; try congruence. rewrite Ha. cbn [act_ok]. intros r (jb' & X1 & X2 & X3). exists jb'.
        split; [exact X1|]. split; [exact X2|]. exact I.
    - (* wait *)
      destruct I0 as [T C J Fo Wk Out]. constructor; auto.
      + intros j0 jb0 i0 N0 L0. specialize (T j0 jb0 i0 N0 L0). rewrite !sum_app in *. cbn [sum app] in *.
        rewrite set_act_tok, set_act_calls. unfold tok at 2, calls at 2 in T. rewrite Ha in T. cbn [act_tok count_occ] in *.
        destruct (Nat.eqb_spec j j0) as [->|D]; cbn [andb b2n] in *; [|lia]. assert (jb0 = jb) as -> by congruence.
        destruct (Nat.leb_spec n i0); cbn [b2n] in *; lia.
      + intros j0. specialize (C j0). rewrite !sum_app in *. cbn [sum app] in *. rewrite set_act_calls. unfold calls at 2 in C. rewrite Ha in C. lia.
      + intros g Hg. apply In3 in Hg. destruct Hg as [[<-|[]]|Hg]; [|auto].
        apply frame_ok_set; try congruence. rewrite Ha. cbn [act_ok]. intros r (jb' & X1 & X2 & X3). exists jb'.
        split; [exact X1|]. split; [exact X2|]. intros i [].
    - (* drained *)
      destruct I0 as [T C J Fo Wk Out]. constructor; auto.
      + intros j0 jb0 i0 N0 L0. specialize (T j0 jb0 i0 N0 L0). rewrite !sum_app in *. cbn [sum app] in *.
        rewrite set_act_tok, set_act_calls. unfold tok at 2, calls at 2 in T. rewrite Ha in T. cbn [act_tok count_occ] in *.
        destruct (Nat.eqb_spec j j0) as [->|D]; cbn [andb b2n] in *; lia.
      + intros j0. specialize (C j0). rewrite !sum_app in *. cbn [sum app] in *. rewrite set_act_calls. unfold calls at 2 in C. rewrite Ha in C. lia.
      + intros g Hg. apply In3 in Hg. destruct Hg as [[<-|[]]|Hg]; [|auto].
        apply frame_ok_set; try congruence. rewrite Ha. cbn [act_ok]. intros r (jb' & X1 & X2 & X3). exists jb'.
        split; [exact X1|]. split; [exact X2|]. intros i [].
    - (* begin *)
      subst wq. destruct (begin_ok js wq' j' i A (f :: B) I0) as (js1 & g1 & E1' & I1 & _).
      rewrite E1 in E1'. injection E1' as <- <-. exact I1.
    - (* take *)
      pose proof (i_jobs _ _ _ I0 j jb N) as JO. destruct I0 as [T C J Fo Wk Out].
      pose proof (Out j jb i N) as Oi. rewrite OQ in Oi. specialize (Oi (or_introl eq_refl)).
      eapply inv_output; eauto.
      + intros i0 L0. specialize (T j jb i0 N L0). rewrite !sum_app in *. cbn [sum app] in *.
        rewrite set_act_tok, set_act_calls. unfold tok at 2, calls at 2 in T. rewrite Ha, OQ in T. cbn [act_tok] in *.
        rewrite Nat.eqb_refl in *. rewrite count_occ_app. cbn [count_occ] in *. destruct (Nat.eq_dec i i0); lia.
      + intros j0 jb0 i0 D N0 L0. specialize (T j0 jb0 i0 N0 L0). rewrite !sum_app in *. cbn [sum app] in *.
        rewrite set_act_tok, set_act_calls. unfold tok at 2, calls at 2 in T. rewrite Ha in T. cbn [act_tok] in *.
        destruct (Nat.eqb_spec j j0); [congruence|]. lia.
      + intros j0. specialize (C j0). rewrite !sum_app in *. cbn [sum app] in *. rewrite set_act_calls. unfold calls at 2 in C. rewrite Ha in C. lia.
      + intros g Hg. apply In3 in Hg. destruct Hg as [[<-|[]]|Hg]; [|apply frame_ok_output; auto].
        apply frame_ok_set; try congruence; [|apply frame_ok_output; auto].
        rewrite Ha. cbn [act_ok]. intros r (jb' & X1 & X2 & X3). exists jb'. split; [exact X1|]. split; [exact X2|].
        intros i0 Hi0. apply in_app_iff in Hi0. destruct Hi0 as [Hi0|[<-|[]]]; [auto|].
        rewrite nth_error_replace_same in X1 by (apply nth_error_Some; congruence). injection X1 as <-.
        destruct Oi as [O1 O2]. split; [exact O1|]. apply (complete_grows 0 jb); [apply set_output_grows|exact O2].
      + intros i0 Hi0. apply (Out j jb i0 N). rewrite OQ. now right.
    - (* collect *)
      pose proof (taken_all _ _ _ _ _ _ _ _ _ I0 Ha N L) as TA.
      destruct I0 as [T C J Fo Wk Out]. constructor; auto.
      + intros j0 jb0 i0 N0 L0. specialize (T j0 jb0 i0 N0 L0). specialize (C j0). rewrite !sum_app in *. cbn [sum app] in *.
        rewrite set_act_tok, set_act_calls. unfold tok at 2, calls at 2 in T. unfold calls at 2 in C. rewrite Ha in *. cbn [act_tok] in *.
        destruct (Nat.eqb_spec j j0) as [->|D]; cbn [b2n] in *; [|lia]. assert (jb0 = jb) as -> by congruence.
        destruct (TA i0 L0) as [TA1 _]. lia.
      + intros j0. specialize (C j0). rewrite !sum_app in *. cbn [sum app] in *. rewrite set_act_calls. lia.
      + intros g Hg. apply In3 in Hg. destruct Hg as [[<-|[]]|Hg]; [|auto].
        apply frame_ok_set; try congruence. rewrite Ha. cbn [act_ok]. intros r (jb' & X1 & X2 & X3).
        assert (jb' = jb) as -> by congruence. exact X2.
    - (* end *)
      cbn [frame_ok] in Fk. destruct Fk as (jb' & N' & L & Co). assert (jb' = jb) as -> by congruence.
      pose proof (i_jobs _ _ _ I0 j jb N) as JO. destruct I0 as [T C J Fo Wk Out].
      eapply inv_output; eauto.
      + intros i0 L0. specialize (T j jb i0 N L0). rewrite !sum_app in *. cbn [sum app] in *.
        rewrite count_occ_app. cbn [count_occ]. unfold tok at 2, calls at 2 in T. cbn [exec_tok act_of act_tok] in T.
        rewrite Nat.eqb_refl in T. destruct (Nat.eq_dec i i0), (Nat.eqb_spec i i0); cbn [andb b2n] in T; try congruence; lia.
      + intros j0 jb0 i0 D N0 L0. specialize (T j0 jb0 i0 N0 L0). rewrite !sum_app in *. cbn [sum app] in *.
        unfold tok at 2, calls at 2 in T. cbn [exec_tok act_of act_tok] in T. destruct (Nat.eqb_spec j j0); [congruence|]. cbn [andb b2n] in T. lia.
      + intros j0. specialize (C j0). rewrite !sum_app in *. cbn [sum app] in *. lia.
      + intros g Hg. apply In3 in Hg. destruct Hg as [[]|Hg]. apply frame_ok_output; auto.
      + intros i0 Hi0. apply in_app_iff in Hi0. destruct Hi0 as [Hi0|[<-|[]]]; eauto.
  Qed.
End Proofs.
