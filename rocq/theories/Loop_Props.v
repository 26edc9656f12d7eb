(** C64: loops over lists, ranges and tuples in compiled functions. *)
From Coq Require Import Lia ZifyBool ZifyNat.
From Verif Require Import Base PyLoop Loop_Model Loop_Spec Loop_Proofs.
Open Scope Z_scope.
Open Scope list_scope.

(** ** Programs *)

(** A compiled function does what Python does, turn by turn, for every program of loops, however nested: the
    same final state and the same ending, and it runs for ever when Python does.
    Missing: loops with [else], loops that change the length of the list they run over, loops on one line, ranges
    whose length needs more than 64 bits, and iterators that have already been advanced (all refuted below). *)
Theorem C64_same_run_partial : forall (St A R : Type) (of_int : Z -> A) (p : prog St A R) (fuel : nat) (s : St),
  counted of_int p -> compiled_program of_int fuel p s = python_run of_int fuel p s.
Proof. intros St A R of_int p fuel s. exact (@same_run St A R of_int p fuel s). Qed.
Print Assumptions C64_same_run_partial.

(** A toy: a list, and what has been written down, which starts with the value of the last target. *)
Record toy := Toy { list_ : list Z; var : Z; log : list Z }.
Definition put_var (x : Z) (s : toy) : toy * option exn := (Toy (list_ s) x (log s), None).
Definition note : prog toy Z unit := Act (fun s => (Toy (list_ s) (var s) (log s ++ var s :: nil), None)).
Definition pop : prog toy Z unit := Act (fun s => (Toy (removelast (list_ s)) (var s) (log s), None)).
Definition var_is (x : Z) (s : toy) : toy * (bool + exn) := (s, inl (var s =? x)).
Definition loop_on (l : N) (it : iterable toy Z) : loop toy Z := Loop l l (fun s => (s, inl it)) put_var.
Definition compiled_log (p : prog toy Z unit) (l : list Z) : option (list Z) :=
  match compiled_program (fun x => x) 100 p (Toy l 0 nil) with Ends s _ => Some (log s) | _ => None end.
Definition python_log (p : prog toy Z unit) (l : list Z) : option (list Z) :=
  match python_run (fun x => x) 100 p (Toy l 0 nil) with Ends s _ => Some (log s) | _ => None end.

(** [for x in xs: / for x in range(10, 4, -3): note x / if x == 7: break] *)
Definition nested : prog toy Z unit :=
  For (loop_on 1 (Seq list_))
    (Then (For (loop_on 2 (Range 10 4 (-3))) note None) (Cond (var_is 7) Brk Skip)) None.

Example C64_case : counted (fun x => x) nested /\
  compiled_log nested (1 :: 2 :: nil) = Some (10 :: 7 :: nil) /\
  python_log nested (1 :: 2 :: nil) = Some (10 :: 7 :: nil).
Proof.
  split; [|split; reflexivity].
  assert (keeps : forall fuel s s1 o, python_run (fun x => x) fuel
    (Then (For (loop_on 2 (Range 10 4 (-3))) note None) (Cond (var_is 7) Brk Skip)) s = Ends s1 o ->
    list_ s1 = list_ s).
  { intros fuel s s1 o. cbn [python_run over_expr loop_on].
    change (python_make (Range 10 4 (-3))) with (@inl (iterable toy Z) exn (Range 10 4 (-3))). cbv iota beta.
    generalize 0%nat at 1. intros i.
    assert (T : forall f i s s1 o, python_turns (R := unit) (fun x => x) (Range 10 4 (-3)) put_var
                (python_run (fun x => x) fuel note) stop_here f i s = Ends s1 o -> list_ s1 = list_ s).
    { induction f as [|f IH]; intros j t t1 o1 H; [discriminate H|]. cbn [python_turns] in H.
      destruct (element _ _ j t) as [a|].
      - cbn [put_var python_run note] in H. apply IH in H. exact H.
      - injection H as <- _. reflexivity. }
    cbn [assign]. destruct (python_turns _ _ _ _ _ _ _ _) as [s2 o2| |] eqn:E; try discriminate.
    apply T in E. destruct o2; try (intros Q; injection Q as <- _; exact E).
    cbn [var_is]. destruct (var s2 =? 7); intros Q; injection Q as <- _; exact E. }
  unfold nested. cbn [counted for_lines target_lines loop_on for_line target_line app In].
  split; [reflexivity|]. split.
  { split; [|cbn; tauto]. split; [reflexivity|]. split; [exact I|]. split; [tauto|]. split; [tauto|].
    intros s s1 it H. injection H as <- <-. cbn [steady]. unfold range_ok, i64. lia. }
  split; [intros [H|[]]; discriminate H|]. split; [intros [H|[]]; discriminate H|].
  intros s s1 it H. injection H as <- <-. cbn [steady]. split.
  - intros a t t1 e Q. injection Q as <- <-. reflexivity.
  - intros fuel t t1 o Q. apply keeps in Q. now rewrite Q.
Qed.

(** Every [else] of a counting loop is lost: the program does what it would do without it. *)
Theorem C64_else_never_runs : forall (St A R : Type) (of_int : Z -> A) (p : prog St A R) (fuel : nat) (s : St),
  compiled_program of_int fuel p s = compiled_program of_int fuel (without_else p) s.
Proof. intros St A R of_int p fuel s. exact (@else_never_runs St A R of_int p fuel s). Qed.
Print Assumptions C64_else_never_runs.

(** [for x in xs: pass / else: note]: Python writes, the compiled function does not. *)
Theorem C64_else_refuted : exists p l,
  python_log p l = Some (2 :: nil) /\ compiled_log p l = Some nil.
Proof. exists (For (loop_on 1 (Seq list_)) Skip (Some note)), (1 :: 2 :: nil). split; vm_compute; reflexivity. Qed.

(** [for x in xs: note x / if x == 1: xs.append(5)]: elements added by the body are not visited. *)
Theorem C64_growing_list_refuted : exists p l,
  python_log p l = Some (5 :: 1 :: 5 :: nil) /\ compiled_log p l = Some (5 :: 1 :: nil).
Proof.
  exists (For (loop_on 1 (Seq list_))
            (Then note (Cond (var_is 1) (Act (fun s => (Toy (list_ s ++ 5 :: nil) 1 (log s), None))) Skip)) None),
         (5 :: 1 :: nil).
  split; vm_compute; reflexivity.
Qed.

(** [for x in xs: note x / xs.pop()]: memory outside of the list is read. *)
Theorem C64_shrinking_list_refuted : exists p l,
  python_log p l = Some (1 :: nil) /\ compiled_program (fun x => x) 100 p (Toy l 0 nil) = Undefined.
Proof.
  exists (For (loop_on 1 (Seq list_)) (Then note pop) None), (1 :: 2 :: nil). split; vm_compute; reflexivity.
Qed.

(** An iterator that was advanced before the loop starts again. *)
Theorem C64_advanced_iterator_refuted : exists p l,
  python_log p l = Some (2 :: 3 :: nil) /\ compiled_log p l = Some (1 :: 2 :: 3 :: nil).
Proof.
  exists (For (loop_on 1 (Iterator list_ 1)) note None), (1 :: 2 :: 3 :: nil). split; vm_compute; reflexivity.
Qed.

(** Two loops, one in the other, whose targets are on one line: the outer loop ends after its first element, and
    if the inner one is left with [break] the program may run for ever. *)
Definition one_line (inner : prog toy Z unit) : prog toy Z unit :=
  For (loop_on 1 (Seq list_)) (For (Loop 2 1 (fun s => (s, inl (Range 10 12 1))) put_var) inner None) None.

Theorem C64_loops_on_one_line_refuted :
  (python_log (one_line note) (1 :: 2 :: 3 :: nil) = Some (10 :: 11 :: 10 :: 11 :: 10 :: 11 :: nil) /\
   compiled_log (one_line note) (1 :: 2 :: 3 :: nil) = Some (10 :: 11 :: nil)) /\
  (python_log (one_line Brk) (1 :: 2 :: 3 :: nil) = Some nil /\
   forall fuel, compiled_program (fun x => x) fuel (one_line Brk) (Toy (1 :: 2 :: 3 :: nil) 0 nil) = Forever).
Proof.
  split; [split; vm_compute; reflexivity|]. split; [vm_compute; reflexivity|].
  intros fuel. unfold compiled_program, one_line. destruct fuel as [|g]; [reflexivity|].
  assert (T : forall f (m : mem toy Z), list_ (user m) = 1 :: 2 :: 3 :: nil -> iterate_over m 1%N = Some (Seq list_) ->
    (iterator_value m 1%N = 0 /\ iterator_max m 1%N = 3) \/ (iterator_value m 1%N = 1 /\ iterator_max m 1%N = 2) ->
    compiled_turns (fun x => x) (loop_on 1 (Seq list_))
      (compiled_run (fun x => x) (S g) (For (Loop 2 1 (fun s => (s, inl (Range 10 12 1))) put_var) (R := unit) Brk None)) f m = Forever).
  { induction f as [|f IH]; intros m L O V; [reflexivity|].
    cbn [compiled_turns loop_on target_line for_line assign]. rewrite O.
    assert (exists a, int_iter_value (fun x => x) (Seq list_) (iterator_value m 1%N) (user m) = Ok a) as [a E].
    { destruct V as [[-> _]|[-> _]]; cbn [int_iter_value]; rewrite L; eexists; reflexivity. }
    rewrite E. replace (iterator_value m 1%N <? iterator_max m 1%N) with true by lia.
    cbn [put_var].
    assert (B : forall m0 : mem toy Z, compiled_run (fun x => x) (S g)
      (For (Loop 2 1 (fun s => (s, inl (Range 10 12 1))) put_var) (R := unit) Brk None) m0 =
      Ends (set_value 1 1 (set_user (fst (put_var 10 (user m0))) (set_trigger 1 false (set_value 1 0 (set_max 1 2 (set_over 2 (Range 10 12 1) (set_user (user m0) m0))))))) Normal).
    { intros m0. reflexivity. }
    rewrite B. apply IH.
    - exact L.
    - exact O.
    - right. split; reflexivity. }
  replace (compiled_run (fun x => x) (S g) _ (fresh _)) with (Forever (St := mem toy Z) (R := unit)); [reflexivity|].
  symmetry. cbn [compiled_run over_expr loop_on]. fold (loop_on 1 (Seq list_)).
  cbv zeta. cbn [int_iter_size set_over set_user user fresh list_ length].
  match goal with |- compiled_else _ _ ?x = _ => replace x with (Forever (St := mem toy Z) (R := unit)) end; [reflexivity|].
  symmetry. apply T; [reflexivity|reflexivity|left; split; reflexivity].
Qed.

(** ** Ranges *)

(** The loop counts exactly Python's range: the size is that of the range, and the i-th number is its i-th.
    Missing: the ranges of the refutations below. *)
Theorem C64_range_partial : forall start stop step, range_ok start stop step ->
  exists n, range_size start stop step = Ok n /\
    forall i, 0 <= i ->
      (i < n <-> if 0 <? step then start + i * step < stop else stop < start + i * step) /\
      (i < n -> range_value start step i = Ok (start + i * step)).
Proof.
  intros start stop step H. eexists. split; [exact (range_size_right H)|]. intros i P.
  assert (step <> 0) as N by (destruct H as (_ & _ & _ & N & _); exact N).
  pose proof (range_count_right start stop N P) as C. split.
  - unfold before in C. destruct (0 <? step); lia.
  - intros L. apply (range_value_right H P). rewrite <- C. lia.
Qed.
Print Assumptions C64_range_partial.

(** The iterator of a range (the loops of generators use it) gives the same numbers, as long as one step beyond
    the end can be taken with 64 bits. *)
Theorem C64_range_iterator_partial : forall start stop step i,
  i64 start -> i64 stop -> i64 (stop + step) ->
  (forall j, (j < i)%nat -> before stop step (start + Z.of_nat j * step) = true) ->
  exists answers, range_iterated start stop step (S i) = Ok answers /\
    nth_error answers i = Some (if before stop step (start + Z.of_nat i * step)
                                then Some (start + Z.of_nat i * step) else None).
Proof. intros start stop step i. exact (@range_iterated_right start stop step i). Qed.
Print Assumptions C64_range_iterator_partial.

Example C64_range_case : range_ok 10 (-5) (-4) /\ range_size 10 (-5) (-4) = Ok 4 /\ range_value 10 (-4) 3 = Ok (-2) /\
  range_ok (- 2 ^ 62) (2 ^ 62 - 1) (2 ^ 61) /\ range_size (- 2 ^ 62) (2 ^ 62 - 1) (2 ^ 61) = Ok 4 /\
  range_iterated 10 (-5) (-4) 5 = Ok (Some 10 :: Some 6 :: Some 2 :: Some (-2) :: None :: nil).
Proof. unfold range_ok, i64. repeat split; try lia; reflexivity. Qed.

(** A range with step 0 is not refused with Python's error. *)
Theorem C64_step_zero_refuted : exists p : prog toy Z unit,
  (exists s, python_run (fun x => x) 100 p (Toy nil 0 nil) = Ends s (Raise ValueError)) /\
  (exists s, compiled_program (fun x => x) 100 p (Toy nil 0 nil) = Ends s (Raise ZeroDivisionError)).
Proof. exists (For (loop_on 1 (Range 1 5 0)) note None). split; eexists; vm_compute; reflexivity. Qed.

(** A range of 2^63 numbers or more is not counted: this loop does not run at all, *)
Theorem C64_long_range_refuted : exists p,
  python_log p nil = Some (- 2 ^ 63 :: nil) /\ compiled_log p nil = Some nil.
Proof.
  exists (For (loop_on 1 (Range (- 2 ^ 63) (2 ^ 63 - 1) 1)) (Then note Brk) None). split; vm_compute; reflexivity.
Qed.
(** and this one runs although the range is empty. *)
Theorem C64_empty_range_refuted : exists p,
  python_log p nil = Some nil /\ compiled_log p nil = Some (2 ^ 62 :: nil).
Proof.
  exists (For (loop_on 1 (Range (2 ^ 62) (- 2 ^ 62) 2)) (Then note Brk) None). split; vm_compute; reflexivity.
Qed.
Theorem C64_least_step_refuted : exists p,
  python_log p nil = Some (1 :: nil) /\ compiled_log p nil = Some nil.
Proof. exists (For (loop_on 1 (Range 1 (-1) (- 2 ^ 63))) note None). split; vm_compute; reflexivity. Qed.
(** The iterator of a range that comes near to the largest integer goes round. *)
Theorem C64_range_iterator_refuted : exists answers,
  before (2 ^ 63 - 1) 2 (2 ^ 63 - 1) = false /\
  range_iterated (2 ^ 63 - 3) (2 ^ 63 - 1) 2 4 = Ok answers /\
  answers = Some (2 ^ 63 - 3) :: None :: Some (- 2 ^ 63 + 1) :: Some (- 2 ^ 63 + 3) :: nil.
Proof. eexists. split; [reflexivity|]. split; vm_compute; reflexivity. Qed.

(** ** Tuples of known length *)

(** A loop over a tuple, which is converted element by element, does what Python does, when the conversion is right
    about which bodies never come to their end, and there is no [break] or nothing was left out.
    Missing: the loops of the refutations below. *)
Theorem C64_tuple_partial : forall (St A R : Type) asg (body : A -> St -> run St R) returns orelse else_returns l s,
  (forall a, In a l -> returns a = false -> never_ends (body a)) ->
  (else_returns = false -> never_ends orelse) -> no_break orelse ->
  (loop_returns returns else_returns l = true \/ forall a, In a l -> no_break (body a)) ->
  unrolled asg body returns orelse else_returns l s = python_over asg body orelse l s.
Proof. intros St A R asg body returns orelse else_returns l s. apply unrolled_right. Qed.
Print Assumptions C64_tuple_partial.

(** [for x in (1, 2, 3): if x == 2: continue / note x] *)
Definition skip_two (x : Z) (s : list Z) : run (list Z) Z :=
  if x =? 2 then Ends s Continue else Ends (s ++ x :: nil) Normal.
Example C64_tuple_case :
  (forall a, In a (1 :: 2 :: 3 :: nil) -> true = false -> never_ends (skip_two a)) /\
  unrolled (fun x s => (s, None)) skip_two (fun _ => true) (fun s => Ends s Normal) true (1 :: 2 :: 3 :: nil) nil
    = Ends (1 :: 3 :: nil) Normal.
Proof. split; [discriminate|reflexivity]. Qed.

(** [for x in (1, 2): if x == 1: continue / return x]: the conversion decides that the body of the first element does
    not come to its end, because after the [if] there is a [return] (Flow_Model.v: [conv] of an [if] and of a
    block), and leaves out the second element. *)
Definition find_two (x : Z) (s : unit) : run unit Z := if x =? 1 then Ends s Continue else Ends s (Return x).
Theorem C64_tuple_continue_refuted :
  python_over (fun x s => (s, None)) find_two (fun s => Ends s Normal) (1 :: 2 :: nil) tt = Ends tt (Return 2) /\
  unrolled (fun x s => (s, None)) find_two (fun _ => false) (fun s => Ends s Normal) true (1 :: 2 :: nil) tt = Undefined.
Proof. split; reflexivity. Qed.
(** A [break] in the [else] of such a loop does not leave the loop around it. *)
Theorem C64_tuple_else_break_refuted :
  python_over (fun x s => (s, None)) (fun _ s => Ends s Normal) (fun s => Ends (R := Z) s Break) (1 :: nil) tt = Ends tt Break /\
  unrolled (fun x s => (s, None)) (fun (_ : Z) s => Ends s Normal) (fun _ => true) (fun s => Ends (R := Z) s Break) true (1 :: nil) tt
    = Ends tt Normal.
Proof. split; reflexivity. Qed.
