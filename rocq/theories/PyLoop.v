(** What Python's [for] loops over lists, ranges and iterators of lists mean:
    the reference against which the compiler's rewriting of such loops is
    judged (Python reference manual, sections 8.3 and 6.2.4, and the
    documentation of [range] and of list iterators).

    A program is built from actions, conditions, [break], [continue],
    [return] and [for].  An action is any function on the state that may
    raise, so a theorem about all programs speaks of all that actions can do.
    A loop may run for at most [fuel] turns; a run that needs more answers
    [Forever]. *)
From Verif Require Import Base.
Set Implicit Arguments.
Open Scope Z_scope.

(** How a piece of program ends. *)
Inductive ending (R : Type) : Type :=
| Normal
| Break
| Continue
| Return (r : R)
| Raise (e : exn).
Arguments Normal {R}. Arguments Break {R}. Arguments Continue {R}. Arguments Return {R}. Arguments Raise {R}.

Inductive run (St R : Type) : Type :=
| Ends (s : St) (o : ending R)
| Forever                          (* more turns than [fuel] *)
| Undefined.                       (* memory outside of a list was read: never in Python *)
Arguments Ends {St R}. Arguments Forever {St R}. Arguments Undefined {St R}.

(** What may stand after [in].  A list is given by where it is kept in the
    state, since a loop's body may change it; its elements are values of type
    [A], among which are the integers. *)
Inductive iterable (St A : Type) : Type :=
| Seq (items : St -> list A)                      (* a list, a tuple, a text *)
| Range (start stop step : Z)
| Iterator (items : St -> list A) (pos : nat).    (* [iter(list)], already advanced [pos] times *)
Arguments Seq {St A}. Arguments Range {St A}. Arguments Iterator {St A}.

(** Line of the [for] and line of its target; the expression after [in];
    what assigning the target does. *)
Record loop (St A : Type) := Loop {
  for_line : N;
  target_line : N;
  over_expr : St -> St * (iterable St A + exn);
  assign : A -> St -> St * option exn
}.

Inductive prog (St A R : Type) : Type :=
| Act (f : St -> St * option exn)
| Cond (t : St -> St * (bool + exn)) (a b : prog St A R)
| Then (a b : prog St A R)
| Skip
| Brk
| Cont
| Ret (f : St -> St * (R + exn))
| For (l : loop St A) (body : prog St A R) (orelse : option (prog St A R)).
Arguments Act {St A R}. Arguments Cond {St A R}. Arguments Then {St A R}. Arguments Skip {St A R}.
Arguments Brk {St A R}. Arguments Cont {St A R}. Arguments Ret {St A R}. Arguments For {St A R}.

Section Python.
  Context {St A R : Type} (of_int : Z -> A).

  (** Is the number still before the end of the range? *)
  Definition before (stop step x : Z) : bool := if 0 <? step then x <? stop else stop <? x.

  (** The element a loop meets at its turn [i], counted from 0, if there is
      one.  A list is asked anew at each turn. *)
  Definition element (it : iterable St A) (i : nat) (s : St) : option A :=
    match it with
    | Seq items => nth_error (items s) i
    | Range start stop step =>
        let x := start + Z.of_nat i * step in
        if before stop step x then Some (of_int x) else None
    | Iterator items pos => nth_error (items s) (pos + i)
    end.

  (** [range(a, b, 0)] raises. *)
  Definition python_make (it : iterable St A) : iterable St A + exn :=
    match it with
    | Range _ _ step => if step =? 0 then inr ValueError else inl it
    | _ => inl it
    end.

  Fixpoint python_turns (it : iterable St A) (asg : A -> St -> St * option exn) (body : St -> run St R)
      (orelse : St -> run St R) (fuel : nat) (i : nat) (s : St) : run St R :=
    match fuel with
    | O => Forever
    | S f =>
        match element it i s with
        | None => orelse s
        | Some a =>
            match asg a s with
            | (s1, Some e) => Ends s1 (Raise e)
            | (s1, None) =>
                match body s1 with
                | Ends s2 Normal | Ends s2 Continue => python_turns it asg body orelse f (S i) s2
                | Ends s2 Break => Ends s2 Normal
                | r => r
                end
            end
        end
    end.

  Definition stop_here (s : St) : run St R := Ends s Normal.

  Fixpoint python_run (fuel : nat) (p : prog St A R) (s : St) : run St R :=
    match p with
    | Act f => match f s with (s1, Some e) => Ends s1 (Raise e) | (s1, None) => Ends s1 Normal end
    | Cond t a b =>
        match t s with
        | (s1, inl true) => python_run fuel a s1
        | (s1, inl false) => python_run fuel b s1
        | (s1, inr e) => Ends s1 (Raise e)
        end
    | Then a b => match python_run fuel a s with Ends s1 Normal => python_run fuel b s1 | r => r end
    | Skip => Ends s Normal
    | Brk => Ends s Break
    | Cont => Ends s Continue
    | Ret f => match f s with (s1, inl r) => Ends s1 (Return r) | (s1, inr e) => Ends s1 (Raise e) end
    | For l body orelse =>
        match over_expr l s with
        | (s1, inr e) => Ends s1 (Raise e)
        | (s1, inl it) =>
            match python_make it with
            | inr e => Ends s1 (Raise e)
            | inl it => python_turns it (assign l) (python_run fuel body)
                          (match orelse with Some p => python_run fuel p | None => stop_here end) fuel 0 s1
            end
        end
    end.
End Python.
