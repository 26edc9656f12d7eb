(** C20, C21: TypedQueue is a FIFO queue for any number of threads and any schedule, and loses no
    wake-up. *)
From Verif Require Import Base PyList Queue_Model Queue_Spec Queue_Proofs Queue_Order_Proofs Queue_Live_Proofs.
Open Scope Z_scope.

(** ** C20 *)

(** Whatever the schedule, what the callers see is what they could have seen of the atomic queue. *)
Theorem C20_atomic T (programs : list (list (op T))) schedule s h :
  run schedule (start programs) = Ok (s, h) ->
  exists a, aruns (astart programs) h a /\
            (Forall between_calls (threads s) -> queue a = contents (members s)).
Proof.
  intros R. exists (abs s). split.
  - rewrite <- abs_start. exact (run_sim schedule _ _ _ (start_inv programs) R).
  - intros Q. cbn [abs queue].
    replace (pending (threads s)) with (@nil T); [apply app_nil_r|].
    induction Q as [|[p prog] l E Q IH]; [reflexivity|]. cbn [pending fst]. rewrite <- IH.
    unfold between_calls in E. cbn [fst] in E. now rewrite E.
Qed.

(** In particular there is one order of everything put and one order of everything got, each of them
    agreeing with the order of every thread, such that the items are got in the order in which they
    were put, each once, and what was not got is in the queue. *)
Theorem C20_first_in_first_out T (programs : list (list (op T))) schedule s h :
  Forall (fun program => ~ In Peek program) programs ->
  run schedule (start programs) = Ok (s, h) -> Forall between_calls (threads s) ->
  exists puts gets : list (nat * T),
    map snd puts = map snd gets ++ contents (members s) /\
    forall t, (t < length programs)%nat -> of_thread t puts = put_by t h /\ of_thread t gets = got_by t h.
Proof. exact (fifo programs schedule s h). Qed.

(** Two producers and a consumer that starts waiting before anything is there. *)
Definition ex_programs : list (list (op Z)) := [[PutMany [1; 2]; Put 3]; [Get; GetMany 1 5; GetNonblocking]; [Put 10; Len]].
Definition ex_schedule : list nat :=
  [1;1;1;1;1; 0;0;0;2;2;0;0;0;0;0;0;0]%nat ++ concat (repeat [2;1;0]%nat 40).
Example C20_example :
  exists s, run ex_schedule (start ex_programs) = Ok (s,
    [(1%nat, Call Get); (0%nat, Call (PutMany [1; 2])); (2%nat, Call (Put 10)); (0%nat, Return RNone);
     (0%nat, Call (Put 3)); (2%nat, Return RNone); (2%nat, Call Len); (1%nat, Return (RValue 1));
     (1%nat, Call (GetMany 1 5)); (0%nat, Return RNone); (2%nat, Return (RInt 3)); (1%nat, Return (RList [2; 10; 3]));
     (1%nat, Call GetNonblocking); (1%nat, Return (ROption None))]) /\
    Forall between_calls (threads s) /\ Forall (fun program => ~ In Peek program) ex_programs.
Proof.
  eexists. split; [vm_compute; reflexivity|]. split.
  - repeat constructor.
  - repeat constructor; cbn; intuition discriminate.
Qed.

(** ** C21 *)

(** No execution releases a lock that is not held, or reaches [raise Exception("impossible")]. *)
Theorem C21_no_fault T (programs : list (list (op T))) schedule :
  exists s h, run schedule (start programs) = Ok (s, h).
Proof.
  pose proof (run_inv schedule _ (start_inv programs)) as R.
  destruct (run schedule (start programs)) as [[s h]|]; [eauto|contradiction].
Qed.

(** When no thread can go on, every thread has finished or waits for an item of the empty queue. *)
Theorem C21_no_deadlock T (programs : list (list (op T))) schedule s h :
  run schedule (start programs) = Ok (s, h) -> stuck s ->
  Forall (fun th => finished th \/ waits_for_item th) (threads s) /\
  ((exists th, In th (threads s) /\ waits_for_item th) -> contents (members s) = []).
Proof.
  intros R St. apply stuck_end; [exact St|].
  pose proof (run_inv schedule _ (start_inv programs)) as RI. now rewrite R in RI.
Qed.

(** Every execution ends: the waiting and waking loops cannot go on for ever. *)
Theorem C21_no_livelock T (programs : list (list (op T))) :
  exists n, forall schedule, (moves schedule (start programs) <= n)%nat.
Proof. exact (moves_bounded programs). Qed.

(** So, if every thread gets enough turns, only threads that wait for an item of the empty queue are
    left. *)
Theorem C21_fair_schedules T (programs : list (list (op T))) :
  exists n, forall rounds, Forall (fair_round (length programs)) rounds -> (n <= length rounds)%nat ->
  exists s h, run (concat rounds) (start programs) = Ok (s, h) /\
    Forall (fun th => finished th \/ waits_for_item th) (threads s) /\
    ((exists th, In th (threads s) /\ waits_for_item th) -> contents (members s) = []).
Proof.
  exists (S (Z.to_nat (measure_of (bound_B (start programs)) (start programs)))). intros rounds F L.
  assert (LT : length (threads (start programs)) = length programs) by apply map_length.
  destruct (fair_rounds rounds (start programs) (bound_B (start programs)) (start_inv programs)) as (s & h & R & I1 & St).
  - unfold bound_B. lia.
  - rewrite LT. exact F.
  - lia.
  - exists s, h. split; [exact R|]. apply stuck_end; assumption.
Qed.

(** And if consumers ask for no more than the producers put, everybody finishes: no wake-up is lost. *)
Theorem C21_everybody_finishes T (programs : list (list (op T))) :
  Forall (fun program => Forall is_get program \/ Forall is_put program) programs ->
  (number_gets programs <= number_put programs)%nat ->
  exists n, forall rounds, Forall (fair_round (length programs)) rounds -> (n <= length rounds)%nat ->
  exists s h, run (concat rounds) (start programs) = Ok (s, h) /\ Forall finished (threads s).
Proof.
  intros FP N. exists (S (Z.to_nat (measure_of (bound_B (start programs)) (start programs)))). intros rounds F L.
  assert (LT : length (threads (start programs)) = length programs) by apply map_length.
  destruct (fair_rounds rounds (start programs) (bound_B (start programs)) (start_inv programs)) as (s & h & R & I1 & St).
  - unfold bound_B. lia.
  - rewrite LT. exact F.
  - lia.
  - exists s, h. split; [exact R|]. exact (enough_items programs (concat rounds) FP N s h R St).
Qed.

(** Three consumers that all wait, and two producers. *)
Definition ex_sided : list (list (op Z)) := [[Get; Get]; [Get]; [Get]; [Put 1; PutMany [2; 3]]; [Peek; Put 4; Len]].
Example C21_sided_example :
  Forall (fun program => Forall is_get program \/ Forall is_put program) ex_sided /\
  (number_gets ex_sided <= number_put ex_sided)%nat /\
  Forall (fair_round (length ex_sided)) (repeat [4; 0; 3; 1; 2]%nat 1000).
Proof.
  split; [|split].
  - repeat constructor; ((left; repeat constructor; fail) || (right; repeat constructor; fail)).
  - cbn. lia.
  - apply Forall_forall. intros r Hr. apply repeat_spec in Hr. subst r. intros t Ht. cbn in *. lia.
Qed.
Example C21_stuck_example :
  exists s h, run (concat (repeat [0; 1]%nat 30)) (start [[Get; Get; Put 5]; [Put 1]]) = Ok (s, h) /\
    stuck s /\ contents (members s) = [] /\ waits_for_item (nth 0 (threads s) (Idle, [])) /\ finished (nth 1 (threads s) (Idle, [])).
Proof.
  eexists. eexists. split; [vm_compute; reflexivity|]. split; [|split; [reflexivity|split; [|reflexivity]]].
  - intros [|[|[|t]]]; reflexivity.
  - exists Get, [], [Put 5]. split; [reflexivity|]. left. reflexivity.
Qed.

Print Assumptions C20_atomic.
Print Assumptions C20_first_in_first_out.
Print Assumptions C21_no_fault.
Print Assumptions C21_no_deadlock.
Print Assumptions C21_no_livelock.
Print Assumptions C21_fair_schedules.
Print Assumptions C21_everybody_finishes.
