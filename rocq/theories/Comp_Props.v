(** C65: comprehensions in compiled functions. *)
From Coq Require Import Lia ZifyBool ZifyNat.
From Verif Require Import Base PyLoop Loop_Model Loop_Spec Comp_Spec Comp_Model Comp_Proofs.
Open Scope Z_scope.
Open Scope list_scope.

(** A compiled list, set or dict comprehension with one [for] gives what Python's gives, raises what Python's
    raises and does the same along the way, for every element expression, target and iterable, with one [if], or
    with several that only look at the state.
    Missing: comprehensions with several [for]s, and several [if]s of which one changes something or raises
    (both refuted below); lists that the comprehension makes longer or shorter, and the ranges of C64. *)
Theorem C65_one_for_partial : forall (St A B Acc : Type) (of_int : Z -> A) (fuel : nat) (c : clause St A)
    (elt : St -> St * (B + exn)) (put : B -> Acc -> Acc) (empty : Acc) (s : St),
  Forall only_looks (ifs c) \/ (length (ifs c) <= 1)%nat ->
  (forall s s1 it, iter c s = (s1, inl it) ->
     match it with
     | Seq items => leaves_length c elt items
     | Range start stop step => range_ok start stop step
     | Iterator items pos => pos = 0%nat /\ leaves_length c elt items
     end) ->
  compiled_comprehension of_int fuel (c :: nil) elt put empty s =
    python_comprehension of_int fuel (c :: nil) elt put empty s.
Proof. intros St A B Acc of_int fuel c elt put empty s. apply one_for. Qed.
Print Assumptions C65_one_for_partial.

(** A toy: two lists and two variables, which have no value at first. *)
Record toy := Toy { xs : list Z; ys : list Z; x : option Z; y : option Z }.
Definition set_x (a : Z) (s : toy) : toy * option exn := (Toy (xs s) (ys s) (Some a) (y s), None).
Definition set_y (a : Z) (s : toy) : toy * option exn := (Toy (xs s) (ys s) (x s) (Some a), None).
Definition value (v : option Z) : Z + exn := match v with Some z => inl z | None => inr GenericError end.
Definition x_positive (s : toy) : toy * (bool + exn) :=
  (s, match value (x s) with inl z => inl (0 <? z) | inr e => inr e end).
Definition x_even (s : toy) : toy * (bool + exn) :=
  (s, match value (x s) with inl z => inl (Z.even z) | inr e => inr e end).
Definition ten_by_x (s : toy) : toy * (bool + exn) :=
  (s, match value (x s) with inl z => if z =? 0 then inr ZeroDivisionError else inl (2 <? 10 / z) | inr e => inr e end).
Definition pair_xy (s : toy) : toy * (Z * Z + exn) :=
  (s, match value (x s), value (y s) with inl a, inl b => inl (a, b) | inr e, _ | _, inr e => inr e end).
Definition just_x (s : toy) : toy * (Z + exn) := (s, value (x s)).
Definition append {A} (a : A) (l : list A) : list A := l ++ a :: nil.
Definition answer {A} (r : run (toy * list A) unit) : option (list A + exn) :=
  match r with Ends s Normal => Some (inl (snd s)) | Ends _ (Raise e) => Some (inr e) | _ => None end.
Definition start (xs ys : list Z) : toy := Toy xs ys None None.

Definition python_list {B} cs (elt : toy -> toy * (B + exn)) s :=
  answer (python_comprehension (fun z => z) 100 cs elt append nil s).
Definition compiled_list {B} cs (elt : toy -> toy * (B + exn)) s :=
  answer (compiled_comprehension (fun z => z) 100 cs elt append nil s).

Definition for_x (l : N) ts : clause toy Z := Clause l (fun s => (s, inl (Seq xs))) set_x ts.
Definition for_y (l : N) ts : clause toy Z := Clause l (fun s => (s, inl (Seq ys))) set_y ts.

(** [[x for x in xs if x > 0]] *)
Example C65_case :
  (length (ifs (for_x 1 (x_positive :: nil))) <= 1)%nat /\
  (forall s s1 it, iter (for_x 1 (x_positive :: nil)) s = (s1, inl it) ->
     match it with
     | Seq items => leaves_length (for_x 1 (x_positive :: nil)) just_x items
     | Range start stop step => range_ok start stop step
     | Iterator items pos => pos = 0%nat /\ leaves_length (for_x 1 (x_positive :: nil)) just_x items
     end) /\
  compiled_list (for_x 1 (x_positive :: nil) :: nil) just_x (start (3 :: -1 :: 4 :: nil) nil) = Some (inl (3 :: 4 :: nil)).
Proof.
  split; [cbn; lia|]. split; [|reflexivity]. intros s s1 it E. injection E as <- <-. split; [|split].
  - intros a t. reflexivity.
  - intros t u [<-|[]]. reflexivity.
  - intros t. reflexivity.
Qed.

(** A test that only looks; the [if]s of a comprehension that has several. *)
Example C65_looks_case : only_looks (fun s : toy => (s, @inl bool exn (0 <? Z.of_nat (length (ys s))))).
Proof. intros s. eexists. reflexivity. Qed.

(** [[x for x in xs if x != 0 if 10 // x > 2]]: the second test is made first. *)
Theorem C65_several_ifs_refuted : exists ts s,
  python_list (for_x 1 ts :: nil) just_x s = Some (inl (1 :: nil)) /\
  compiled_list (for_x 1 ts :: nil) just_x s = Some (inr ZeroDivisionError).
Proof.
  exists (x_positive :: ten_by_x :: nil), (start (0 :: 1 :: 7 :: nil) nil). split; vm_compute; reflexivity.
Qed.

(** [[(x, y) for x in xs for y in ys]] on one line: the last [for] is the outermost and it ends after one turn. *)
Theorem C65_two_fors_refuted : exists s,
  python_list (for_x 1 nil :: for_y 1 nil :: nil) pair_xy s = Some (inl ((1, 10) :: (1, 20) :: (2, 10) :: (2, 20) :: nil)) /\
  compiled_list (for_x 1 nil :: for_y 1 nil :: nil) pair_xy s = Some (inl ((1, 10) :: (2, 10) :: nil)).
Proof. exists (start (1 :: 2 :: nil) (10 :: 20 :: nil)). split; vm_compute; reflexivity. Qed.

(** The same on two lines: the outer loop goes on with the elements of the inner one's list, and beyond the end of
    that list when it is shorter. *)
Theorem C65_two_fors_on_two_lines_refuted : exists s t,
  (python_list (for_x 1 nil :: for_y 2 nil :: nil) pair_xy s = Some (inl ((1, 10) :: (1, 20) :: (2, 10) :: (2, 20) :: nil)) /\
   compiled_list (for_x 1 nil :: for_y 2 nil :: nil) pair_xy s = Some (inl ((1, 10) :: (2, 10) :: (1, 2) :: (2, 2) :: nil))) /\
  (python_list (for_x 1 nil :: for_y 2 nil :: nil) pair_xy t = Some (inl ((1, 10) :: (1, 20) :: nil)) /\
   compiled_comprehension (fun z => z) 100 (for_x 1 nil :: for_y 2 nil :: nil) pair_xy append nil t = Undefined).
Proof.
  exists (start (1 :: 2 :: nil) (10 :: 20 :: nil)), (start (1 :: nil) (10 :: 20 :: nil)).
  split; split; vm_compute; reflexivity.
Qed.

(** [[y for x in xs for y in range(x)]]: the inner iterable is evaluated before its variable has a value. *)
Definition for_y_in_range_x : clause toy Z :=
  Clause 1 (fun s => (s, match value (x s) with inl z => inl (Range 0 z 1) | inr e => inr e end)) set_y nil.
Theorem C65_dependent_fors_refuted : exists s,
  python_list (for_x 1 nil :: for_y_in_range_x :: nil) pair_xy s = Some (inl ((1, 0) :: (2, 0) :: (2, 1) :: nil)) /\
  compiled_list (for_x 1 nil :: for_y_in_range_x :: nil) pair_xy s = Some (inr GenericError).
Proof. exists (start (1 :: 2 :: nil) nil). split; vm_compute; reflexivity. Qed.
