(** The compression threads always come to an end, and every writer is served. *)
From Verif Require Import Base PyList PyList_Proofs Wire_Model Compress_Model Compress_Spec Compress_Proofs.
From Coq Require Import ZifyBool ZifyNat.
Open Scope nat_scope.

Section Live.
  Variable lz4 : bytes -> bytes.
  Variable limit : Z.
  Variable programs : list (list bytes * bool).
  Notation inv := (inv lz4 limit programs).

  (** ** Roles *)

  Lemma replace_map {A B} (f : A -> B) t x y l : nth_error l t = Some x -> f y = f x -> map f (replace_nth t y l) = map f l.
  Proof.
    revert t; induction l as [|z l IH]; intros [|t] N E; try discriminate; cbn [nth_error replace_nth map] in *.
    - injection N as ->. now rewrite E.
    - f_equal. now apply IH.
  Qed.
  Lemma map_wake l : map is_writer (map wake l) = map is_writer l.
  Proof. rewrite map_map. apply map_ext. intros; apply wake_writer. Qed.
  Lemma set_block_roles ths b blk : map is_writer (set_block ths b blk) = map is_writer ths.
  Proof. unfold set_block. destruct (nth_error ths (fst b)) as [[w|p]|] eqn:N; try reflexivity. now rewrite (replace_map _ _ (Writer w)). Qed.
  Lemma step_roles e s s' : step lz4 limit e s = Ok (Some s') -> map is_writer (threads s') = map is_writer (threads s).
  Proof.
    destruct e as [t c|t]; cbn [step]; destruct (nth_error (threads s) t) as [th|] eqn:N; try discriminate.
    - destruct th as [w|p].
      + unfold writer_step, mark. intros [= E]. destruct (wp w); try discriminate; [destruct (todo w); [destruct (finishes w)|destruct (oversized limit (top w))]|
          destruct (i <? length (full w)); [destruct (mem (t, i) (waiting s) || mem (t, i) (working s))|]];
        injection E as <-; cbn [threads]; rewrite ?map_wake, ?(replace_map _ _ (Writer w)); auto.
      + intros E. destruct p; cbn [worker_step] in E.
        * destruct (waiting s); injection E as <-; cbn [threads]; now rewrite (replace_map _ _ (Worker Looking)).
        * discriminate.
        * destruct (get_block (threads s) b) as [blk|]; [destruct (compressed blk)|discriminate]; injection E as <-; cbn [threads]; now rewrite (replace_map _ _ (Worker (Compressing b))).
        * destruct (get_block (threads s) b) as [blk|]; [|discriminate]. injection E as <-. cbn [threads].
          rewrite (replace_map _ _ (Worker (Storing b d))); [apply set_block_roles|now apply set_block_worker|reflexivity].
        * injection E as <-. cbn [threads]. rewrite map_wake. now rewrite (replace_map _ _ (Worker (Finishing b))).
    - intros [= <-]. cbn [threads]. apply (replace_map _ _ th); [exact N|apply wake_writer].
  Qed.
  Lemma run_roles schedule : forall s s', run lz4 limit schedule s = Ok s' -> map is_writer (threads s') = map is_writer (threads s).
  Proof.
    induction schedule as [|e schedule IH]; intros s s'; cbn [run]; [intros [= ->]; reflexivity|].
    destruct (step lz4 limit e s) as [[s1|]|] eqn:E; [|apply IH|discriminate]. intros R. rewrite (IH _ _ R). eapply step_roles; eauto.
  Qed.
  Lemma start_roles workers : map is_writer (threads (start workers programs)) = repeat true (length programs) ++ repeat false workers.
  Proof.
    cbn [start threads]. rewrite map_app. f_equal.
    - rewrite map_map. induction programs as [|p ps IH]; [reflexivity|]. cbn [map length repeat]. f_equal. exact IH.
    - induction workers as [|n IH]; [reflexivity|]. cbn [repeat map]. f_equal. exact IH.
  Qed.

  (** ** Every step makes some progress *)

  Definition units (th : thread) : nat :=
    match th with
    | Writer w => match wp w with
                  | Writing => 6 * length (todo w) + length (full w) + 8
                  | Checking i | Sleeping i => length (full w) + 1 - i
                  | Done _ | Dropped => 0
                  end
    | Worker (Compressing _) => 3
    | Worker (Storing _ _) => 2
    | Worker (Finishing _) => 1
    | Worker _ => 0
    end.
  Definition awake (th : thread) : nat :=
    match th with
    | Writer w => match wp w with Checking _ => 1 | _ => 0 end
    | Worker Looking => 1
    | Worker _ => 0
    end.
  Definition units_of (s : state) : nat := sum units (threads s) + 4 * length (waiting s).
  Definition measure (s : state) : nat := units_of s * (length (threads s) + 1) + sum awake (threads s).

  Lemma wake_units th : units (wake th) = units th.
  Proof. destruct th as [w|[]]; cbn; try reflexivity. destruct (wp w) eqn:E; cbn [units wp]; rewrite ?E; reflexivity. Qed.
  Lemma awake_le th : awake th <= 1.
  Proof. destruct th as [w|[]]; cbn; try lia. destruct (wp w); lia. Qed.
  Lemma sum_awake_le l : sum awake l <= length l.
  Proof. induction l as [|x l IH]; cbn [sum length]; [lia|]. pose proof (awake_le x). lia. Qed.
  Lemma sum_units_wake l : sum units (map wake l) = sum units l.
  Proof. rewrite sum_map. apply sum_ext. intros; apply wake_units. Qed.

  Lemma big_step s s' : length (threads s') = length (threads s) -> units_of s' < units_of s -> measure s' < measure s.
  Proof.
    intros L U. unfold measure. rewrite L. pose proof (sum_awake_le (threads s')) as A. rewrite L in A.
    assert (units_of s' * (length (threads s) + 1) + (length (threads s) + 1) <= units_of s * (length (threads s) + 1)); [|lia].
    replace (units_of s' * (length (threads s) + 1) + (length (threads s) + 1)) with (S (units_of s') * (length (threads s) + 1)) by lia.
    apply Nat.mul_le_mono_r. lia.
  Qed.
  Lemma small_step s s' : length (threads s') = length (threads s) -> units_of s' = units_of s ->
    sum awake (threads s') < sum awake (threads s) -> measure s' < measure s.
  Proof. intros L U A. unfold measure. rewrite L, U. lia. Qed.
  Lemma insert_length b l : length (insert b l) <= S (length l).
  Proof. unfold insert. destruct (mem b l); [lia|]. rewrite app_length. cbn. lia. Qed.
  Lemma erase_length b l : length (erase b l) + cnt b l = length l.
  Proof.
    unfold erase, cnt. induction l as [|x l IH]; cbn [filter sum length]; [reflexivity|].
    destruct (id_eqb b x); cbn [negb b2n length]; lia.
  Qed.

  Lemma mark_measure s t w w' : nth_error (threads s) t = Some (Writer w) -> units (Writer w') + 4 < units (Writer w) ->
    measure (mark t w' s) < measure s.
  Proof.
    intros N U. apply big_step; unfold mark; cbn [threads].
    - now rewrite map_length, replace_nth_length.
    - unfold units_of. cbn [threads waiting]. rewrite sum_units_wake. pose proof (sum_replace units _ _ (Writer w') _ N).
      pose proof (insert_length (t, length (full w') - 1) (waiting s)). lia.
  Qed.
  Lemma local_measure s t th th' : nth_error (threads s) t = Some th ->
    (units th' < units th \/ (units th' = units th /\ awake th' < awake th)) ->
    measure {| waiting := waiting s; working := working s; threads := replace_nth t th' (threads s) |} < measure s.
  Proof.
    intros N U. pose proof (sum_replace units _ _ th' _ N) as R1. pose proof (sum_replace awake _ _ th' _ N) as R2.
    destruct U as [U|[U A]]; [apply big_step|apply small_step]; unfold units_of; cbn [threads waiting]; rewrite ?replace_nth_length; lia.
  Qed.

  Lemma step_measure t c s s' : inv s -> step lz4 limit (Turn t c) s = Ok (Some s') -> measure s' < measure s.
  Proof.
    intros I. cbn [step]. destruct (nth_error (threads s) t) as [[w|p]|] eqn:N; try discriminate.
    - intros [= E]. unfold writer_step in E. destruct (wp w) as [|i|i|out|] eqn:Wp; try discriminate.
      + destruct (todo w) eqn:Td; [destruct (finishes w)|destruct (oversized limit (top w))]; injection E as <-.
        * eapply mark_measure; [exact N|]. cbn [units wp full]. rewrite Wp, app_length. cbn [length]. lia.
        * eapply local_measure; [exact N|]. left. cbn [units set_wp wp]. rewrite Wp. lia.
        * eapply mark_measure; [exact N|]. cbn [units wp full todo]. rewrite Wp, Td, app_length. cbn [length]. lia.
        * eapply local_measure; [exact N|]. left. cbn [units wp todo full]. rewrite Wp, Td. cbn [length]. lia.
      + assert (i <= length (full w)) as Hi.
        { destruct (i_thread _ _ _ _ I _ _ N) as (cs & L & _ & O). unfold program_ok in O.
          destruct (nth_error programs t); [|contradiction]. rewrite Wp in O. destruct O as (_ & _ & O & _). lia. }
        destruct (Nat.ltb_spec i (length (full w))); [destruct (mem (t, i) (waiting s) || mem (t, i) (working s))|]; injection E as <-;
          (eapply local_measure; [exact N|]); cbn [units awake set_wp wp full]; rewrite Wp; lia.
    - intros E. destruct p; cbn [worker_step] in E.
      + destruct (waiting s) as [|b0 l] eqn:Ew; [|rewrite <- Ew in *]; injection E as <-.
        * rewrite <- Ew. eapply local_measure; [exact N|]. cbn. lia.
        * apply big_step; [cbn [threads]; now rewrite replace_nth_length|]. unfold units_of. cbn [threads waiting].
          set (b := nth _ _ _). pose proof (sum_replace units _ _ (Worker (Compressing b)) _ N) as R. cbn [units] in R.
          pose proof (erase_length b (waiting s)). assert (1 <= cnt b (waiting s)); [|lia].
          apply cnt_in. unfold b. apply nth_choice. congruence.
      + discriminate.
      + destruct (get_block (threads s) b) as [blk|]; [destruct (compressed blk)|discriminate]; injection E as <-;
          (eapply local_measure; [exact N|]); cbn; lia.
      + destruct (get_block (threads s) b) as [blk|] eqn:Gb; [|discriminate]. injection E as <-.
        set (new := {| data := d; compressed := true; compressions := _ |}).
        apply big_step; cbn [threads].
        * rewrite replace_nth_length. unfold set_block. destruct (nth_error (threads s) (fst b)) as [[]|]; now rewrite ?replace_nth_length.
        * unfold units_of. cbn [threads waiting].
          pose proof (sum_replace units _ _ (Worker (Finishing b)) _ (set_block_worker _ b new _ _ N)) as R. cbn [units] in R.
          assert (sum units (set_block (threads s) b new) = sum units (threads s)); [|lia].
          unfold set_block. destruct (nth_error (threads s) (fst b)) as [[w|q]|] eqn:Nw; try reflexivity.
          eapply sum_same; [exact Nw|]. cbn [units wp full todo]. now rewrite replace_nth_length.
      + injection E as <-. apply big_step; cbn [threads]; [now rewrite map_length, replace_nth_length|].
        unfold units_of. cbn [threads waiting]. rewrite sum_units_wake. pose proof (sum_replace units _ _ (Worker Looking) _ N) as R. cbn [units] in R. lia.
  Qed.
  Lemma spurious_measure t s s' : step lz4 limit (Spurious t) s = Ok (Some s') -> measure s' <= S (measure s).
  Proof.
    cbn [step]. destruct (nth_error (threads s) t) as [th|] eqn:N; [|discriminate]. intros [= <-].
    pose proof (sum_replace units _ _ (wake th) _ N) as R1. pose proof (sum_replace awake _ _ (wake th) _ N) as R2.
    rewrite wake_units in R1. pose proof (awake_le (wake th)). unfold measure, units_of. cbn [threads waiting]. rewrite replace_nth_length.
    assert (sum units (replace_nth t (wake th) (threads s)) = sum units (threads s)) as -> by lia. lia.
  Qed.

  Lemma moves_measure schedule : forall s s', inv s -> run lz4 limit schedule s = Ok s' ->
    measure s' + moves lz4 limit schedule s <= measure s + spurious schedule.
  Proof.
    induction schedule as [|e schedule IH]; intros s s' I; cbn [run moves spurious]; [intros [= ->]; lia|].
    destruct (step_inv lz4 limit programs e s I) as (o & E & H). rewrite E. destruct o as [s1|].
    - intros R. specialize (H _ eq_refl). specialize (IH _ _ H R). destruct e as [t c|t].
      + pose proof (step_measure _ _ _ _ I E). lia.
      + pose proof (spurious_measure _ _ _ E). lia.
    - intros R. specialize (IH _ _ I R). destruct e; lia.
  Qed.

  (** ** When nothing moves *)

  Lemma stays t c s : inv s -> step lz4 limit (Turn t c) s = Ok None ->
    match nth_error (threads s) t with
    | None => True
    | Some (Writer w) => match wp w with Sleeping _ | Done _ | Dropped => True | _ => False end
    | Some (Worker p) => p = WorkerSleeping
    end.
  Proof.
    intros I. cbn [step]. destruct (nth_error (threads s) t) as [[w|p]|] eqn:N; [|destruct p|auto].
    - unfold writer_step. intros [= E]. destruct (wp w); auto; [destruct (todo w); [destruct (finishes w)|destruct (oversized limit (top w))]|
          destruct (i <? length (full w)); [destruct (mem (t, i) (waiting s) || mem (t, i) (working s))|]]; discriminate.
    - cbn [worker_step]. destruct (waiting s); discriminate.
    - reflexivity.
    - cbn [worker_step]. destruct (get_block (threads s) b) as [blk|]; [destruct (compressed blk)|]; discriminate.
    - cbn [worker_step]. destruct (get_block (threads s) b) as [blk|]; discriminate.
    - discriminate.
  Qed.
  Lemma stays_any t c c' s : inv s -> step lz4 limit (Turn t c) s = Ok None -> step lz4 limit (Turn t c') s = Ok None.
  Proof.
    intros I E. pose proof (stays t c s I E) as K. revert E. cbn [step]. destruct (nth_error (threads s) t) as [[w|p]|]; auto. now rewrite K.
  Qed.
  Lemma stuck_end s : inv s -> stuck lz4 limit s -> (exists t p, nth_error (threads s) t = Some (Worker p)) ->
    forall t w, nth_error (threads s) t = Some (Writer w) ->
    match nth_error programs t with
    | None => False
    | Some p => if snd p then wp w = Done (compress_serially lz4 limit (fst p)) else wp w = Dropped
    end.
  Proof.
    intros I St (tw & p & Nw) t w N. pose proof I as [O1 O2 O3 O4].
    assert (Em : waiting s = []).
    { pose proof (stays tw 0 s I (St tw 0)) as K. rewrite Nw in K. subst p. exact (O4 _ _ Nw). }
    assert (Z : forall b, marked s b = 0).
    { intros b. unfold marked. rewrite Em, O2. cbn [cnt sum Nat.add].
      destruct (sum (holds b) (threads s)) eqn:Su; [reflexivity|]. exfalso.
      destruct (sum_pos (holds b) (threads s)) as (th & Hi & Ho); [lia|]. apply In_nth_error in Hi. destruct Hi as (t' & N').
      pose proof (stays t' 0 s I (St t' 0)) as K. rewrite N' in K. destruct th as [w'|q]; cbn [holds] in Ho; [lia|]. subst q. lia. }
    destruct (O4 _ _ N) as (cs & L & _ & O). pose proof (stays t 0 s I (St t 0)) as K. rewrite N in K.
    unfold program_ok in O. destruct (nth_error programs t) as [pr|]; [|exact O].
    destruct (wp w) as [|i|i|out|]; try contradiction.
    - destruct O as (_ & _ & _ & _ & M). rewrite Z in M. lia.
    - destruct O as (F & C & _). rewrite F. now rewrite C.
    - now rewrite O.
  Qed.

  (** ** Rounds *)

  Lemma run_app a : forall b s s1, run lz4 limit a s = Ok s1 -> run lz4 limit (a ++ b) s = run lz4 limit b s1.
  Proof.
    induction a as [|e a IH]; intros b s s1; cbn [run app]; [intros [= ->]; reflexivity|].
    destruct (step lz4 limit e s) as [[s'|]|]; [apply IH|apply IH|discriminate].
  Qed.
  Lemma no_moves schedule s : inv s -> moves lz4 limit schedule s = 0 -> spurious schedule = 0 ->
    forall t c, In (Turn t c) schedule -> step lz4 limit (Turn t c) s = Ok None.
  Proof.
    intros I. induction schedule as [|e schedule IH]; cbn [moves spurious]; [intros _ _ t c []|].
    destruct (step_inv lz4 limit programs e s I) as (o & E & _). rewrite E. destruct e as [t c|t]; [|discriminate].
    destruct o; [discriminate|]. intros M S0 t' c' [[= <- <-]|H]; [exact E|]. now apply IH.
  Qed.
  Lemma stuck_run schedule s : stuck lz4 limit s -> spurious schedule = 0 -> run lz4 limit schedule s = Ok s.
  Proof.
    intros St. induction schedule as [|[t c|t] schedule IH]; cbn [run spurious]; [reflexivity| |discriminate].
    rewrite (St t). exact IH.
  Qed.
  Lemma spurious_app a b : spurious (a ++ b) = spurious a + spurious b.
  Proof. induction a as [|[]]; cbn [spurious app]; lia. Qed.
  Lemma spurious_concat n rounds : Forall (fair_round n) rounds -> spurious (concat rounds) = 0.
  Proof.
    induction 1 as [|r rounds [_ S0] _ IH]; cbn [concat]; [reflexivity|]. rewrite spurious_app. lia.
  Qed.
  Lemma fair_rounds rounds : forall s, inv s -> Forall (fair_round (length (threads s))) rounds -> measure s < length rounds ->
    exists s', run lz4 limit (concat rounds) s = Ok s' /\ inv s' /\ stuck lz4 limit s'.
  Proof.
    induction rounds as [|r rounds IH]; intros s I F L; cbn [length] in L; [lia|].
    pose proof (spurious_concat _ _ F) as SF.
    apply Forall_cons_iff in F. destruct F as [[Fr S0] F].
    destruct (run_inv lz4 limit programs r s I) as (s1 & R1 & I1). pose proof (moves_measure _ _ _ I R1) as MM.
    destruct (Nat.eq_dec (moves lz4 limit r s) 0) as [Z0|NZ].
    - assert (St : stuck lz4 limit s).
      { intros t c. destruct (Nat.ltb_spec t (length (threads s))) as [Lt|Ge].
        - destruct (Fr t Lt) as (c' & H). apply stays_any with c'; [exact I|]. now apply (no_moves r s I).
        - cbn [step]. assert (nth_error (threads s) t = None) as -> by (now apply nth_error_None). reflexivity. }
      exists s. split; [|auto]. now apply stuck_run.
    - cbn [concat]. destruct (IH s1 I1) as (s' & R' & I' & St').
      + pose proof (run_roles _ _ _ R1) as Ro. apply (f_equal (@length bool)) in Ro. rewrite !map_length in Ro. now rewrite Ro.
      + lia.
      + exists s'. split; [|auto]. now rewrite (run_app r _ s s1 R1).
  Qed.
End Live.
