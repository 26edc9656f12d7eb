(** C08: compression with threads gives the bytes that compression without threads gives, whatever the
    schedule, and always comes to an end.  C49: whoever reads compressed data sees the bytes that were
    written. *)
From Verif Require Import Base PyList Wire_Model Compress_Model Compress_Spec Compress_Proofs Compress_Live_Proofs.
From Verif Require Import Decompress_Model Decompress_Spec Decompress_Proofs.
From Coq Require Import ZifyBool ZifyNat.
Open Scope nat_scope.

(** ** C08 *)

(** A writer gets the bytes that it would have got without threads. *)
Theorem C08_output lz4 limit workers writers schedule s t p out :
  run lz4 limit schedule (start workers writers) = Ok s ->
  nth_error writers t = Some p -> output s t = Some out -> out = compress_serially lz4 limit (fst p).
Proof.
  intros R N O. destruct (run_inv lz4 limit writers schedule _ (start_inv lz4 limit writers workers)) as (s' & R' & I).
  assert (s' = s) as -> by congruence. unfold output in O.
  destruct (nth_error (threads s) t) as [[w|q]|] eqn:Nt; try discriminate.
  destruct (i_thread _ _ _ _ I _ _ Nt) as (cs & _ & _ & K). unfold program_ok in K. rewrite N in K.
  destruct (wp w); try discriminate. injection O as <-. apply K.
Qed.

(** No thread touches a block that is not there, for any number of writers and workers. *)
Theorem C08_no_fault lz4 limit workers writers schedule :
  exists s, run lz4 limit schedule (start workers writers) = Ok s.
Proof. destruct (run_inv lz4 limit writers schedule _ (start_inv lz4 limit writers workers)) as (s & R & _). eauto. Qed.

(** No block is compressed twice, and the blocks of a writer that is done have all been compressed. *)
Theorem C08_compressed_once lz4 limit workers writers schedule s t i n :
  run lz4 limit schedule (start workers writers) = Ok s ->
  times_compressed s t i = Some n -> n <= 1 /\ (output s t <> None -> n = 1).
Proof.
  intros R T. destruct (run_inv lz4 limit writers schedule _ (start_inv lz4 limit writers workers)) as (s' & R' & I).
  assert (s' = s) as -> by congruence. unfold times_compressed, get_block in T. unfold output. cbn [fst snd] in T.
  destruct (nth_error (threads s) t) as [[w|q]|] eqn:Nt; try discriminate.
  destruct (i_thread _ _ _ _ I _ _ Nt) as (cs & L & B & K).
  destruct (nth_error (full w) i) as [blk|] eqn:Nb; [|discriminate]. injection T as <-.
  destruct (nth_error cs i) as [c|] eqn:Nc.
  - specialize (B _ _ _ Nb Nc). unfold block_ok in B. split.
    + destruct (pending s (t, i) =? 0); rewrite B; cbn; lia.
    + unfold program_ok in K. destruct (nth_error writers t) as [p|]; [|contradiction].
      destruct (wp w); try (intros []; reflexivity). intros _. destruct K as (_ & _ & _ & Z).
      pose proof (pending_marked _ _ _ s (t, i) I) as P. rewrite Z in P by (apply nth_error_Some; congruence).
      destruct (Nat.eqb_spec (pending s (t, i)) 0); [|lia]. now rewrite B.
  - apply nth_error_None in Nc. assert (nth_error (full w) i <> None) as X by congruence. apply nth_error_Some in X. lia.
Qed.

(** When no thread can go on, every writer that calls [finalize] has its bytes. *)
Theorem C08_no_deadlock lz4 limit workers writers schedule s :
  1 <= workers -> run lz4 limit schedule (start workers writers) = Ok s -> stuck lz4 limit s ->
  forall t writes, nth_error writers t = Some (writes, true) -> output s t = Some (compress_serially lz4 limit writes).
Proof.
  intros L R St t writes N. destruct (run_inv lz4 limit writers schedule _ (start_inv lz4 limit writers workers)) as (s' & R' & I).
  assert (s' = s) as -> by congruence. pose proof (run_roles _ _ _ _ _ R) as Ro. rewrite start_roles in Ro.
  assert (exists w, nth_error (threads s) t = Some (Writer w)) as (w & Nt).
  { assert (nth_error (map is_writer (threads s)) t = Some true) as X.
    { rewrite Ro. assert (t < length writers) by (apply nth_error_Some; congruence).
      rewrite nth_error_app1 by (rewrite repeat_length; lia). apply nth_error_repeat. assumption. }
    apply map_nth_error_inv in X. destruct X as ([w|q] & X & E); [eauto|discriminate]. }
  assert (exists t p, nth_error (threads s) t = Some (Worker p)) as Ex.
  { assert (nth_error (map is_writer (threads s)) (length writers) = Some false) as X.
    { rewrite Ro. rewrite nth_error_app2 by (rewrite repeat_length; lia). rewrite repeat_length, Nat.sub_diag. now apply nth_error_repeat. }
    apply map_nth_error_inv in X. destruct X as ([w'|q] & X & E); [discriminate|eauto]. }
  pose proof (stuck_end _ _ _ s I St Ex t w Nt) as E. rewrite N in E. cbn [fst snd] in E. unfold output. now rewrite Nt, E.
Qed.

(** Every execution ends; a spurious wake-up costs one step. *)
Theorem C08_no_livelock lz4 limit workers writers :
  exists n, forall schedule, moves lz4 limit schedule (start workers writers) <= n + spurious schedule.
Proof.
  exists (measure (start workers writers)). intros schedule. pose proof (start_inv lz4 limit writers workers) as I.
  destruct (run_inv lz4 limit writers schedule _ I) as (s & R & _). pose proof (moves_measure _ _ _ _ _ _ I R). lia.
Qed.

(** So every writer gets its bytes when every thread gets enough turns. *)
Theorem C08_fair_schedules lz4 limit workers writers :
  1 <= workers ->
  exists n, forall rounds, Forall (fair_round (length writers + workers)) rounds -> n <= length rounds ->
  exists s, run lz4 limit (concat rounds) (start workers writers) = Ok s /\
  forall t writes, nth_error writers t = Some (writes, true) -> output s t = Some (compress_serially lz4 limit writes).
Proof.
  intros L. exists (S (measure (start workers writers))). intros rounds F Ln.
  destruct (fair_rounds lz4 limit writers rounds (start workers writers) (start_inv lz4 limit writers workers)) as (s & R & _ & St).
  - cbn [start threads]. rewrite app_length, repeat_length, map_length. exact F.
  - lia.
  - exists s. split; [exact R|]. eapply C08_no_deadlock; eauto.
Qed.

(** ** C49 *)

Lemma split_concat limit : forall writes full top, concat (split_from limit full top writes) = concat full ++ top ++ concat writes.
Proof.
  induction writes as [|w writes IH]; intros full top; cbn [split_from concat].
  - rewrite concat_app. cbn [concat]. now rewrite !app_nil_r.
  - destruct (oversized limit top); rewrite IH.
    + rewrite concat_app. cbn [concat]. now rewrite app_nil_r, <- !app_assoc.
    + now rewrite <- !app_assoc.
Qed.
Lemma split_sizes limit n : (0 <= limit)%Z -> forall writes full top, Forall (fun w => (Z.of_nat (length w) <= n)%Z) writes ->
  Forall (fun b => (Z.of_nat (length b) <= limit + n)%Z) (full ++ [top]) ->
  Forall (fun b => (Z.of_nat (length b) <= limit + n)%Z) (split_from limit full top writes).
Proof.
  intros Hl. induction writes as [|w writes IH]; intros full top F1 F2; cbn [split_from]; [exact F2|].
  apply Forall_cons_iff in F1. destruct F1 as [Hw F1]. destruct (oversized limit top) eqn:O; apply IH; auto; apply Forall_app.
  - split; [exact F2|]. constructor; [lia|constructor].
  - apply Forall_app in F2. split; [apply F2|]. constructor; [|constructor]. unfold oversized in O. rewrite app_length. lia.
Qed.

(** Without compression, the reader sees the bytes one after the other. *)
Theorem C49_uncompressed A unlz4 (r : reader A) writes :
  run_reader unlz4 false r (new_buffer (concat writes)) = read_plainly r (concat writes).
Proof. apply (reader_view (fun x => x) unlz4 false). split; [reflexivity|]. split; reflexivity. Qed.

(** With compression, it sees the same, for any cut of the data into writes and blocks, and any sequence
    of reads. *)
Theorem C49_transparent A lz4 unlz4 limit (r : reader A) writes :
  Forall (lz4_inverse lz4 unlz4) (split_from limit [] [] writes) ->
  run_reader unlz4 true r (new_buffer (compress_serially lz4 limit writes)) = read_plainly r (concat writes).
Proof.
  intros F. apply (reader_view lz4 unlz4 true). split; [reflexivity|]. exists (split_from limit [] [] writes).
  split; [exact F|]. split; [reflexivity|]. now rewrite split_concat.
Qed.

(** It is enough that LZ4 works for blocks of two megabytes, if no write is longer than one megabyte. *)
Corollary C49_megabytes A lz4 unlz4 (r : reader A) writes :
  (forall data, (Z.of_nat (length data) <= 2 * 1024 * 1024)%Z -> lz4_inverse lz4 unlz4 data) ->
  Forall (fun w => (Z.of_nat (length w) <= 1024 * 1024)%Z) writes ->
  run_reader unlz4 true r (new_buffer (compress_serially lz4 (1024 * 1024) writes)) =
  run_reader unlz4 false r (new_buffer (concat writes)).
Proof.
  intros Hl F. rewrite C49_uncompressed. apply C49_transparent. eapply Forall_impl; [exact Hl|].
  apply (split_sizes (1024 * 1024) (1024 * 1024)); [lia|exact F|]. constructor; [cbn; lia|constructor].
Qed.

(** The same for what the compression threads produce. *)
Corollary C49_threads A lz4 unlz4 limit (r : reader A) workers writers schedule s t p out :
  run lz4 limit schedule (start workers writers) = Ok s -> nth_error writers t = Some p -> output s t = Some out ->
  Forall (lz4_inverse lz4 unlz4) (split_from limit [] [] (fst p)) ->
  run_reader unlz4 true r (new_buffer out) = read_plainly r (concat (fst p)).
Proof. intros R N O F. rewrite (C08_output _ _ _ _ _ _ _ _ _ R N O). now apply C49_transparent. Qed.

(** Whatever bytes come in, reading them ends, and never reads outside the buffer. *)
Theorem C49_any_data A unlz4 enabled (r : reader A) data :
  (forall d, legal (unlz4 d)) -> legal_reader r -> legal (run_reader unlz4 enabled r (new_buffer data)).
Proof. intros Hu Hr. apply reader_safe; auto. split; reflexivity. Qed.

(** ** Examples *)

(** A format that stores the data behind a mark, and gives it back in two pieces. *)
Definition ex_lz4 (d : bytes) : bytes := 77%Z :: d.
Definition ex_unlz4 (d : bytes) : result (list bytes) :=
  match d with 77%Z :: d => Ok [firstn 2 d; skipn 2 d] | _ => Err GenericError end.
Definition ex_writers : list (list bytes * bool) :=
  [([[1; 2; 3]; [4; 5]; []; [6]; [7; 8; 9]]%Z, true); ([[1; 2; 3]; [4]]%Z, false); ([], true)].
Definition ex_rounds (n : nat) : list (list event) := repeat [Turn 4 1; Turn 0 0; Turn 2 0; Turn 3 2; Turn 1 0] n.
Example C08_example :
  Forall (fair_round 5) (ex_rounds 15) /\
  match run ex_lz4 2 (concat (ex_rounds 15)) (start 2 ex_writers) with
  | Err _ => False
  | Ok s => output s 0 = Some [4; 0; 0; 0; 77; 1; 2; 3; 4; 0; 0; 0; 77; 4; 5; 6; 4; 0; 0; 0; 77; 7; 8; 9]%Z /\
            output s 1 = None /\ output s 2 = Some [1; 0; 0; 0; 77]%Z /\
            map (times_compressed s 0) [0; 1; 2; 3] = [Some 1; Some 1; Some 1; None] /\ times_compressed s 1 0 = Some 1 /\
            Forall (fun t => match step ex_lz4 2 (Turn t 0) s with Ok None => True | _ => False end) [0; 1; 2; 3; 4]
  end.
Proof.
  split.
  - apply Forall_forall. intros r Hr. apply repeat_spec in Hr. subst r. split; [|reflexivity].
    intros t Ht. assert (t = 0 \/ t = 1 \/ t = 2 \/ t = 3 \/ t = 4) as [E|[E|[E|[E|E]]]] by lia; subst t; eexists; cbn; eauto 10.
  - vm_compute. repeat split; repeat constructor.
Qed.

Definition ex_reader : reader (list bytes) :=
  Read 2 (fun a => Read 5 (fun b => CanConsume 3 (fun ok => Read (if ok then 9 else 1) (fun c => CanConsume 3 (fun ok' =>
  Result (if ok' then Err GenericError else Ok [a; b; c])))))).
Example C49_example :
  Forall (lz4_inverse ex_lz4 ex_unlz4) (split_from 2 [] [] (fst (nth 0 ex_writers ([], true)))) /\
  run_reader ex_unlz4 true ex_reader (new_buffer (compress_serially ex_lz4 2 [[1; 2; 3]; [4; 5]; []; [6]; [7; 8]]%Z)) = Ok [[1; 2]; [3; 4; 5; 6; 7]; [8]]%Z /\
  run_reader ex_unlz4 true ex_reader (new_buffer [4; 0; 0; 0; 77; 1; 2; 3; 9; 0; 0; 0; 77]%Z) = Err GenericError.
Proof.
  split; [|split; reflexivity]. cbn. repeat constructor; (eexists; split; [reflexivity|split; [reflexivity|reflexivity]]).
Qed.

Print Assumptions C08_output.
Print Assumptions C08_no_fault.
Print Assumptions C08_compressed_once.
Print Assumptions C08_no_deadlock.
Print Assumptions C08_no_livelock.
Print Assumptions C08_fair_schedules.
Print Assumptions C49_uncompressed.
Print Assumptions C49_transparent.
Print Assumptions C49_megabytes.
Print Assumptions C49_threads.
Print Assumptions C49_any_data.
