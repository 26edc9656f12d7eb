(** C22: [pmap] returns and raises what the list comprehension does, for any number of callers and
    executors, nested calls, and any schedule; and it always comes to an end. *)
From Verif Require Import Base PyList Pmap_Model Pmap_Spec Pmap_Proofs Pmap_Live_Proofs Pmap_End_Proofs.
Open Scope nat_scope.

(** What [in_order] says: all the values, or the exception of the earliest element that raises. *)
Lemma in_order_good {V E} (l : list (outcome E V)) vs : in_order l = Good vs <-> l = map Good vs.
Proof.
  revert vs; induction l as [|[v|e] l IH]; intros vs; cbn [in_order].
  - split; [intros [= <-]; reflexivity|]. destruct vs; [reflexivity|discriminate].
  - split.
    + destruct (in_order l) as [r|] eqn:R; [|discriminate]. intros [= <-]. cbn. f_equal. now apply IH.
    + destruct vs as [|v' vs]; [discriminate|]. cbn. intros [= <- H]. apply IH in H. now rewrite H.
  - split; [discriminate|]. destruct vs; discriminate.
Qed.
Lemma in_order_raises {V E} (l : list (outcome E V)) e :
  in_order l = Bad e <-> exists vs rest, l = map Good vs ++ Bad e :: rest.
Proof.
  induction l as [|[v|e'] l IH]; cbn [in_order].
  - split; [discriminate|]. intros ([|] & rest & H); discriminate.
  - split.
    + destruct (in_order l) as [r|e1]; [discriminate|]. intros [= ->]. destruct IH as [IH _]. destruct (IH eq_refl) as (vs & rest & ->).
      exists (v :: vs), rest. reflexivity.
    + intros ([|v' vs] & rest & H); [discriminate|]. cbn in H. injection H as -> H.
      destruct IH as [_ IH]. rewrite IH; [reflexivity|eauto].
  - split; [intros [= ->]; exists [], l; reflexivity|]. intros ([|v' vs] & rest & H); [|discriminate]. cbn in H. congruence.
Qed.

(** A program that is over has the outcome that it has with list comprehensions. *)
Theorem C22_result V E cpu executors (programs : list (body V E)) schedule s t p th q r :
  run cpu schedule (start executors programs) = Ok s ->
  nth_error programs t = Some p -> nth_error (threads s) (executors + t) = Some th ->
  finished_with q r th -> r = eval p.
Proof.
  intros R N Nt [_ S]. destruct (nth_role cpu schedule executors programs s t p R N) as (th' & a & Nt' & _ & S').
  assert (th' = th) as -> by congruence. rewrite S in S'. injection S' as -> <-.
  destruct (run_ok cpu schedule _ (start_inv executors programs)) as (s' & R' & I' & _). assert (s' = s) as -> by congruence.
  pose proof (i_frames _ _ _ (I_frames _ I') (Main p (Running (Return r)))) as Fk. cbn in Fk. apply Fk.
  apply in_frames. exists th. split; [eapply nth_error_In; eauto|]. rewrite S. now left.
Qed.

(** In particular for a call with a function that does not itself call [pmap]; [over] stands for what
    the program does with the result or the exception of the call. *)
Corollary C22_pmap_is_map V E A cpu executors (f : A -> outcome E V) (lst : list A) minGranularity over schedule s th q r :
  run cpu schedule (start executors [Pmap (map (fun x => Return (f x)) lst) minGranularity (fun res => Return (over res))]) = Ok s ->
  nth_error (threads s) executors = Some th -> finished_with q r th -> r = over (in_order (map f lst)).
Proof.
  intros R N F. rewrite <- (Nat.add_0_r executors) in N. rewrite (C22_result _ _ _ _ _ _ _ 0 _ _ _ _ R eq_refl N F).
  cbn [eval]. now rewrite map_map.
Qed.

(** No execution reads or writes a cell twice, reads an empty one, or uses a job that is not there. *)
Theorem C22_no_fault V E cpu executors (programs : list (body V E)) schedule :
  exists s, run cpu schedule (start executors programs) = Ok s.
Proof. destruct (run_ok cpu schedule _ (start_inv executors programs)) as (s & R & _). eauto. Qed.

(** The function is called at most once with each element. *)
Theorem C22_at_most_once V E cpu executors (programs : list (body V E)) schedule s jb :
  run cpu schedule (start executors programs) = Ok s -> In jb (jobs s) -> NoDup (called jb).
Proof.
  intros R Hj. destruct (run_ok cpu schedule _ (start_inv executors programs)) as (s' & R' & I' & _).
  assert (s' = s) as -> by congruence. apply In_nth_error in Hj. destruct Hj as (j & N).
  exact (jo_called _ (i_jobs _ _ _ (I_frames _ I') j jb N)).
Qed.

(** When no thread can go on, every program is over. *)
Theorem C22_no_deadlock V E cpu executors (programs : list (body V E)) schedule s :
  1 <= executors -> run cpu schedule (start executors programs) = Ok s -> stuck cpu s ->
  forall t p, nth_error programs t = Some p ->
  exists th, nth_error (threads s) (executors + t) = Some th /\ finished_with p (eval p) th.
Proof.
  intros L R St t p N. destruct (nth_role cpu schedule executors programs s t p R N) as (th & a & Nt & Ex & S).
  destruct (run_ok cpu schedule _ (start_inv executors programs)) as (s' & R' & I' & _). assert (s' = s) as -> by congruence.
  exists th. split; [exact Nt|].
  destruct (stuck_end cpu s I' St (some_executor cpu schedule executors programs s R L) th (nth_error_In _ _ Nt) Ex) as (q & F).
  destruct F as [_ S']. rewrite S in S'. injection S' as -> ->. split; [exact Ex|exact S].
Qed.

(** Every execution ends. *)
Theorem C22_no_livelock V E cpu executors (programs : list (body V E)) :
  exists n, forall schedule, moves cpu schedule (start executors programs) <= n.
Proof. exists (measure_of (start executors programs)). intros schedule. apply moves_bounded, start_inv. Qed.

(** So every program comes to its end when every thread gets enough turns. *)
Theorem C22_fair_schedules V E cpu executors (programs : list (body V E)) :
  1 <= executors ->
  exists n, forall rounds, Forall (fair_round (executors + length programs)) rounds -> n <= length rounds ->
  exists s, run cpu (concat rounds) (start executors programs) = Ok s /\
  forall t p, nth_error programs t = Some p ->
  exists th, nth_error (threads s) (executors + t) = Some th /\ finished_with p (eval p) th.
Proof.
  intros L. exists (S (measure_of (start executors programs))). intros rounds F Ln.
  destruct (fair_rounds cpu rounds (start executors programs) (start_inv executors programs)) as (s & R & _ & St).
  - cbn [start threads]. rewrite app_length, repeat_length, map_length. exact F.
  - lia.
  - exists s. split; [exact R|]. eapply C22_no_deadlock; eauto.
Qed.

(** Two programs: squares with two failing elements in different chunks, and a function that calls
    [pmap] itself. *)
Definition ex_square (x : Z) : outcome Z Z := if (Z.eqb (x mod 4) 3) then Bad (100 + x)%Z else Good (x * x)%Z.
Definition ex_sum (r : outcome Z (list Z)) : outcome Z Z :=
  match r with Good l => Good (fold_left Z.add l 0%Z) | Bad e => Bad e end.
Definition ex_flat (l : list Z) : body Z Z := Pmap (map (fun x => Return (ex_square x)) l) 2 (fun r => Return (ex_sum r)).
Definition ex_nested : body Z Z :=
  Pmap [ex_flat [1; 2]%Z; ex_flat [4; 5; 6]%Z; ex_flat []] 1 (fun r => Return (ex_sum r)).
Definition ex_rounds (n : nat) : list (list nat) := repeat [3; 0; 2; 1] n.
Definition ex_outcome (th : thread Z Z) : option (outcome Z Z) :=
  match stack th with [Main _ (Running (Return r))] => if executor th then None else Some r | _ => None end.
Example C22_example :
  Forall (fair_round 4) (ex_rounds 40) /\
  match run 1 (concat (ex_rounds 40)) (start 2 [ex_flat [0; 1; 2; 3; 4; 5; 6; 7; 8]%Z; ex_nested]) with
  | Err _ => False
  | Ok s => map ex_outcome (skipn 2 (threads s)) = [Some (Bad 103%Z); Some (Good 82%Z)] /\ length (jobs s) = 5 /\
            map called (jobs s) = [[0; 1; 2]; [0; 1; 2; 3; 4; 5; 6; 7; 8]; [0; 1]; [0; 1; 2]; []] /\
            Forall (fun t => match step 1 t s with Ok None => True | _ => False end) [0; 1; 2; 3]
  end.
Proof.
  split.
  - apply Forall_forall. intros r Hr. apply repeat_spec in Hr. subst r. intros t Ht. cbn. lia.
  - vm_compute. repeat split; repeat constructor.
Qed.

Print Assumptions C22_result.
Print Assumptions C22_pmap_is_map.
Print Assumptions C22_no_fault.
Print Assumptions C22_at_most_once.
Print Assumptions C22_no_deadlock.
Print Assumptions C22_no_livelock.
Print Assumptions C22_fair_schedules.
