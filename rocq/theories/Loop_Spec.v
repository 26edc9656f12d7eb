(** When a compiled for loop should do what Python's does. *)
From Verif Require Import Base PyLoop.
Set Implicit Arguments.
Open Scope Z_scope.
Open Scope list_scope.

Definition i64 (x : Z) : Prop := - 2 ^ 63 <= x < 2 ^ 63.

(** The numbers of a range, and its length, can be had with 64 bits. *)
Definition range_ok (start stop step : Z) : Prop :=
  i64 start /\ i64 stop /\ i64 step /\ step <> 0 /\ step <> - 2 ^ 63 /\ - 2 ^ 63 < stop - start < 2 ^ 63.

Section Spec.
  Context {St A R : Type} (of_int : Z -> A).

  (** The lines of the loops in a program. *)
  Fixpoint for_lines (p : prog St A R) : list N :=
    match p with
    | Cond _ a b | Then a b => for_lines a ++ for_lines b
    | For l body orelse =>
        for_line l :: for_lines body ++ match orelse with Some p => for_lines p | None => nil end
    | _ => nil
    end.
  Fixpoint target_lines (p : prog St A R) : list N :=
    match p with
    | Cond _ a b | Then a b => target_lines a ++ target_lines b
    | For l body orelse =>
        target_line l :: target_lines body ++ match orelse with Some p => target_lines p | None => nil end
    | _ => nil
    end.

  (** Neither assigning the target nor the body of the loop changes how many elements the list has. *)
  Definition keeps_length (l : loop St A) (body : prog St A R) (items : St -> list A) : Prop :=
    (forall a s s1 e, assign l a s = (s1, e) -> length (items s1) = length (items s)) /\
    (forall fuel s s1 o, python_run of_int fuel body s = Ends s1 o -> length (items s1) = length (items s)).

  (** What a loop may run over. *)
  Definition steady (l : loop St A) (body : prog St A R) (it : iterable St A) : Prop :=
    match it with
    | Seq items => keeps_length l body items
    | Range start stop step => range_ok start stop step
    | Iterator items pos => pos = 0%nat /\ keeps_length l body items
    end.

  (** No loop has an [else], no loop stands on the same line as a loop inside of it, and loops run over ranges,
      and over lists that the loop leaves as long as they were. *)
  Fixpoint counted (p : prog St A R) : Prop :=
    match p with
    | Cond _ a b | Then a b => counted a /\ counted b
    | For l body orelse =>
        orelse = None /\ counted body /\
        ~ In (for_line l) (for_lines body) /\ ~ In (target_line l) (target_lines body) /\
        (forall s s1 it, over_expr l s = (s1, inl it) -> steady l body it)
    | _ => True
    end.

  (** The program without the [else] parts of its loops. *)
  Fixpoint without_else (p : prog St A R) : prog St A R :=
    match p with
    | Cond t a b => Cond t (without_else a) (without_else b)
    | Then a b => Then (without_else a) (without_else b)
    | For l body _ => For l (without_else body) None
    | p => p
    end.

  (** A Python loop over the elements of a tuple. *)
  Fixpoint python_over (asg : A -> St -> St * option exn) (body : A -> St -> run St R) (orelse : St -> run St R)
      (l : list A) (s : St) : run St R :=
    match l with
    | nil => orelse s
    | a :: l' =>
        match asg a s with
        | (s1, Some e) => Ends s1 (Raise e)
        | (s1, None) =>
            match body a s1 with
            | Ends s2 Normal | Ends s2 Continue => python_over asg body orelse l' s2
            | Ends s2 Break => Ends s2 Normal
            | r => r
            end
        end
    end.

  (** [returns] is right to say that control does not come to the end. *)
  Definition never_ends (body : St -> run St R) : Prop :=
    forall s s1 o, body s = Ends s1 o -> (exists r, o = Return r) \/ (exists e, o = Raise e).
  Definition no_break (body : St -> run St R) : Prop := forall s s1, body s <> Ends s1 Break.
End Spec.
