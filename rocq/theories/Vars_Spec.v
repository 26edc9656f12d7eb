(* What is claimed about what the compiler believes of local variables, and for which programs. *)
From Verif Require Import Base Vars_Model.

Section Spec.
  Context {T V : Type}.
  Notation stmt := (stmt T V).
  Notation handlers := (handlers T V).

  (* Variables a program mentions. *)
  Fixpoint expr_vars (e : expr T V) : list nat :=
    match e with
    | Const _ _ => []
    | Read x _ => [x]
    | Op _ a b => expr_vars a ++ expr_vars b
    end.
  Definition test_vars (c : test T V) : list nat :=
    match c with CTruth e => expr_vars e | CIs x _ _ _ => [x] end.

  (* Variables whose type is tested. *)
  Definition asks (c : test T V) : list nat :=
    match c with CTruth _ => [] | CIs x _ _ _ => [x] end.
  Fixpoint tested (s : stmt) : list nat :=
    match s with
    | SSeq a b => tested a ++ tested b
    | SIf c a b | SWhile c a b => asks c ++ tested a ++ tested b
    | SFor _ _ _ _ b o => tested b ++ tested o
    | SBreakHere s | SContinueHere s => tested s
    | SAssert c => asks c
    | STry b h o f => tested b ++ h_tested h ++ tested o ++ tested f
    | _ => []
    end
  with h_tested (h : handlers) : list nat :=
    match h with
    | HNil => []
    | HCons _ _ b h => tested b ++ h_tested h
    end.

  (* Names given to caught exceptions. *)
  Definition the_name (x : option (nat * write)) : list nat :=
    match x with Some (x, _) => [x] | None => [] end.
  Fixpoint names (s : stmt) : list nat :=
    match s with
    | SSeq a b | SIf _ a b | SWhile _ a b | SFor _ _ _ _ a b => names a ++ names b
    | SBreakHere s | SContinueHere s => names s
    | STry b h o f => names b ++ h_names h ++ names o ++ names f
    | _ => []
    end
  with h_names (h : handlers) : list nat :=
    match h with
    | HNil => []
    | HCons _ x b h => the_name x ++ names b ++ h_names h
    end.

  (* Is there a return? *)
  Fixpoint returns (s : stmt) : bool :=
    match s with
    | SReturn _ _ => true
    | SSeq a b | SIf _ a b | SWhile _ a b | SFor _ _ _ _ a b => returns a || returns b
    | SBreakHere s | SContinueHere s => returns s
    | STry b h o f => returns b || h_returns h || returns o || returns f
    | _ => false
    end
  with h_returns (h : handlers) : bool :=
    match h with
    | HNil => false
    | HCons _ _ b h => returns b || h_returns h
    end.

  Fixpoint uses (s : stmt) : list nat :=
    match s with
    | SPass | SBreak | SContinue | SDead => []
    | SSeq a b => uses a ++ uses b
    | SAssign x _ e => x :: expr_vars e
    | SExpr e | SReturn _ e | SRaise e => expr_vars e
    | SIf c a b | SWhile c a b => test_vars c ++ uses a ++ uses b
    | SFor x _ _ _ b o => x :: uses b ++ uses o
    | SBreakHere s | SContinueHere s => uses s
    | SAssert c => test_vars c
    | STry b h o f => uses b ++ h_uses h ++ uses o ++ uses f
    end
  with h_uses (h : handlers) : list nat :=
    match h with
    | HNil => []
    | HCons _ x b h => the_name x ++ uses b ++ h_uses h
    end.

  (* Can a break (a continue) leave the statement? *)
  Fixpoint breaks (s : stmt) : bool :=
    match s with
    | SBreak => true
    | SSeq a b | SIf _ a b => breaks a || breaks b
    | SWhile _ _ o | SFor _ _ _ _ _ o => breaks o
    | SContinueHere s => breaks s
    | STry b h o f => breaks b || h_breaks h || breaks o || breaks f
    | _ => false
    end
  with h_breaks (h : handlers) : bool :=
    match h with
    | HNil => false
    | HCons _ _ b h => breaks b || h_breaks h
    end.
  Fixpoint continues (s : stmt) : bool :=
    match s with
    | SContinue => true
    | SSeq a b | SIf _ a b => continues a || continues b
    | SWhile _ _ o | SFor _ _ _ _ _ o => continues o
    | SBreakHere s => continues s
    | STry b h o f => continues b || h_continues h || continues o || continues f
    | _ => false
    end
  with h_continues (h : handlers) : bool :=
    match h with
    | HNil => false
    | HCons _ _ b h => continues b || h_continues h
    end.
  Definition jumps (s : stmt) : bool := breaks s || continues s.

  (* Statements that bind nothing, test no types and always come to their end. *)
  Fixpoint quiet (s : stmt) : bool :=
    match s with
    | SPass | SExpr _ | SBreak | SContinue => true
    | SSeq a b | SIf (CTruth _) a b | SWhile (CTruth _) a b => quiet a && quiet b
    | SBreakHere s | SContinueHere s => quiet s
    | _ => false
    end.

  Definition memb (x : nat) (l : list nat) : bool := existsb (Nat.eqb x) l.
  Definition apart (a b : list nat) : bool := forallb (fun x => negb (memb x b)) a.
  Definition none (l : list nat) : bool := match l with [] => true | _ => false end.
  Definition no_handlers (h : handlers) : bool := match h with HNil => true | _ => false end.

  (* The programs for which the compiler's beliefs are right:
     - after a statement that break or continue may leave, the rest of the loop's body is quiet;
     - the else of a for loop does not mention the loop's variable;
     - the else of a try with handlers is quiet;
     - a finally binds nothing, tests no types, does not jump, and mentions no variable that the rest of the try
       binds or tests;
     - a handler that names its exception has no handler of that name within it. *)
  Fixpoint tame (s : stmt) : bool :=
    match s with
    | SSeq a b => tame a && tame b && (negb (jumps a) || quiet b)
    | SIf _ a b | SWhile _ a b => tame a && tame b
    | SFor x _ _ _ b o => tame b && tame o && negb (memb x (uses o))
    | SBreakHere s | SContinueHere s => tame s
    | STry b h o f =>
        tame b && h_tame h && tame o && tame f
        && (no_handlers h && negb (jumps b) || quiet o)
        && none (stores f ++ names f ++ tested f) && negb (returns f) && negb (jumps f)
        && apart (uses f) (stores b ++ names b ++ tested b ++ h_stores h ++ h_names h ++ h_tested h
                           ++ stores o ++ names o ++ tested o)
    | _ => true
    end
  with h_tame (h : handlers) : bool :=
    match h with
    | HNil => true
    | HCons _ x b h => tame b && h_tame h && apart (the_name x) (names b)
    end.

  (* A name given to caught exceptions is used for nothing else that is assigned, and variable 0
     (.return_value) is not mentioned. *)
  Definition well_named (s : stmt) : bool :=
    apart (names s) (stores s) && negb (memb rv (uses s)).

  (* What is believed is so: an absent variable is unbound, one that is set is bound, and a bound
     variable has the type that is believed. *)
  Variable hasb : V -> T -> bool.
  Variable slots : nat -> option T.

  Definition so (e : entry T) (v : option V) : Prop :=
    match e, v with
    | None, None => True
    | None, Some _ => False
    | Some (_, u), None => u = true
    | Some (t, _), Some w => hasb w t = true
    end.
  Definition agrees (st : state T) (m : env V) : Prop := forall x, so (get st x) (m x).
  Definition in_slots (m : env V) : Prop :=
    forall x v, m x = Some v -> exists t, slots x = Some t /\ hasb v t = true.

  (* The bodies of handlers have not begun: the names of handlers are not believed to be set. *)
  Definition not_set (st : state T) (xs : list nat) : Prop :=
    forall x, In x xs -> is_set (get st x) = false.
End Spec.

(* What types have to do with values; mergeTypeWrappers and removeTypeFrom (C32) and the types the
   compiler gives to operations are taken to do this. *)
Record sensible {T V : Type} (hasb : V -> T -> bool) (teqb : T -> T -> bool) (mergeT : T -> T -> T)
    (removeT : T -> T -> option T) (apply : nat -> V -> V -> V + V)
    (op_type : nat -> T -> T -> T) : Prop := {
  same_type : forall a b, teqb a b = true -> a = b;
  merge_left : forall v a b, hasb v a = true -> hasb v (mergeT a b) = true;
  merge_right : forall v a b, hasb v b = true -> hasb v (mergeT a b) = true;
  remove_keeps : forall v t r t', hasb v t = true -> hasb v r = false -> removeT t r = Some t' ->
                 hasb v t' = true;
  op_typed : forall o a b ta tb v, hasb a ta = true -> hasb b tb = true -> apply o a b = inl v ->
             hasb v (op_type o ta tb) = true
}.
