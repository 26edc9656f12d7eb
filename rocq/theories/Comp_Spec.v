(** Comprehensions: what Python's mean (Python reference manual, section 6.2.4: the [for] and [if] clauses nest
    from left to right). *)
From Verif Require Import Base PyLoop.
Set Implicit Arguments.
Open Scope Z_scope.
Open Scope list_scope.

(** One [for x in e] of a comprehension, with the [if]s that follow it.  The line of its target counts. *)
Record clause (St A : Type) := Clause {
  line : N;
  iter : St -> St * (iterable St A + exn);
  set_target : A -> St -> St * option exn;
  ifs : list (St -> St * (bool + exn))
}.

Section Comprehension.
  Context {St A B Acc : Type}.

  (** While a comprehension runs, there is also what has been collected: a list, a set or a dictionary, to which
      [put] adds an element. *)
  Definition with_acc {X} (f : St -> St * X) (s : St * Acc) : (St * Acc) * X :=
    let (s1, x) := f (fst s) in ((s1, snd s), x).
  Definition on_state (it : iterable St A) : iterable (St * Acc) A :=
    match it with
    | Seq items => Seq (fun s => items (fst s))
    | Range start stop step => Range start stop step
    | Iterator items pos => Iterator (fun s => items (fst s)) pos
    end.
  Definition clause_loop (for_line : N) (c : clause St A) : loop (St * Acc) A :=
    Loop for_line (line c)
      (fun s => match with_acc (iter c) s with (s1, inl it) => (s1, inl (on_state it)) | (s1, inr e) => (s1, inr e) end)
      (fun a => with_acc (set_target c a)).
  Definition collect (elt : St -> St * (B + exn)) (put : B -> Acc -> Acc) : prog (St * Acc) A unit :=
    Act (fun s => match elt (fst s) with (s1, inl b) => ((s1, put b (snd s)), None) | (s1, inr e) => ((s1, snd s), Some e) end).

  Fixpoint python_ifs (ts : list (St -> St * (bool + exn))) (p : prog (St * Acc) A unit) : prog (St * Acc) A unit :=
    match ts with
    | nil => p
    | t :: ts => Cond (with_acc t) (python_ifs ts p) Skip
    end.

  Fixpoint python_nest (cs : list (clause St A)) (p : prog (St * Acc) A unit) : prog (St * Acc) A unit :=
    match cs with
    | nil => p
    | c :: cs => For (clause_loop 0 c) (python_ifs (ifs c) (python_nest cs p)) None
    end.

  Definition python_comprehension (of_int : Z -> A) (fuel : nat) (cs : list (clause St A)) (elt : St -> St * (B + exn))
      (put : B -> Acc -> Acc) (empty : Acc) (s : St) : run (St * Acc) unit :=
    python_run of_int fuel (python_nest cs (collect elt put)) (s, empty).

  (** Assigning the target, the tests and the element leave a list as long as it is. *)
  Definition leaves_length (c : clause St A) (elt : St -> St * (B + exn)) (items : St -> list A) : Prop :=
    (forall a s, length (items (fst (set_target c a s))) = length (items s)) /\
    (forall t s, In t (ifs c) -> length (items (fst (t s))) = length (items s)) /\
    (forall s, length (items (fst (elt s))) = length (items s)).

  (** A test that only looks. *)
  Definition only_looks (t : St -> St * (bool + exn)) : Prop := forall s, exists b, t s = (s, inl b).
End Comprehension.
