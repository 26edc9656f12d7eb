(** What Python's statements mean: the reference against which the
    compiler's rewriting of statements is judged.

    A program is built from primitive statements (assignments, expression
    statements, asserts, raises), [yield], [if], [while], [for], [with],
    [break], [continue], [return] and [try].  What the primitive parts do is a
    parameter (a [lang]): a state, and what each primitive statement, test,
    yielded expression and so on does to that state, raising included.  So a
    theorem about all [lang]s is a theorem about all programs.

    [exec] is the interpreter.  It follows the Python reference manual
    (sections 6.2.9, 7 and 8).  A loop may run for at most [n] turns: after
    that the answer is [NoFuel], and theorems speak of runs that do not end
    so.  A generator that reaches a [yield] answers [Yield v s k]: the value,
    the state, and what will happen from the state found when it is resumed. *)
From Verif Require Import Base.
Set Implicit Arguments.

(** Line and column of a statement. *)
Definition loc : Type := (nat * nat)%type.

Record lang := Lang {
  St : Type;          (* everything the program can see and change *)
  Val : Type;         (* values yielded *)
  Exc : Type;         (* exceptions *)
  Ret : Type;         (* values returned *)
  Obj : Type;         (* managers, iterators and what they produce *)
  prim : Type;        (* primitive statements *)
  test : Type;        (* conditions *)
  yexp : Type;        (* yielded expressions *)
  rexp : Type;        (* returned expressions *)
  oexp : Type;        (* expressions after 'with' and after 'in' *)
  target : Type;      (* assignment targets *)
  name : Type;        (* names after 'except E as' *)
  pattern : Type;     (* exception classes after 'except' *)
  (* a statement sees the exception being handled, for 'raise' on its own *)
  do_prim : prim -> option Exc -> St -> St * option Exc;
  do_test : test -> option Exc -> St -> St * (bool + Exc);
  do_yexp : yexp -> St -> St * (Val + Exc);
  do_rexp : rexp -> St -> St * (Ret + Exc);
  do_oexp : oexp -> St -> St * (Obj + Exc);
  do_assign : target -> Obj -> St -> St * option Exc;
  do_enter : Obj -> St -> St * (Obj + Exc);
  do_exit : Obj -> option Exc -> St -> St * (bool + Exc);
  do_iter : Obj -> St -> St * (Obj + Exc);
  do_next : Obj -> St -> St * (option Obj + Exc);
  bind_name : name -> Exc -> St -> St;
  unbind_name : name -> St -> St;
  matches : pattern -> Exc -> bool
}.

Inductive stmt (L : lang) : Type :=
| SPrim (p : prim L)
| SYield (y : yexp L)
| SIf (t : test L) (body orelse : block L)
| SWhile (t : test L) (body orelse : block L)
| SFor (l : loc) (x : target L) (e : oexp L) (body orelse : block L)
| SWith (l : loc) (e : oexp L) (x : option (target L)) (body : block L)
| SBreak
| SContinue
| SReturn (r : option (rexp L))
| STry (l : loc) (body : block L) (hs : handlers L) (orelse final : block L)
with block (L : lang) : Type :=
| BNil
| BCons (s : stmt L) (b : block L)
with handlers (L : lang) : Type :=
| HNil
| HCons (m : pattern L) (x : option (name L)) (body : block L) (hs : handlers L).

Arguments SPrim {L}. Arguments SYield {L}. Arguments SIf {L}. Arguments SWhile {L}.
Arguments SFor {L}. Arguments SWith {L}. Arguments SBreak {L}. Arguments SContinue {L}.
Arguments SReturn {L}. Arguments STry {L}. Arguments BNil {L}. Arguments BCons {L}.
Arguments HNil {L}. Arguments HCons {L}.

Fixpoint bapp {L} (a b : block L) : block L :=
  match a with
  | BNil => b
  | BCons s a' => BCons s (bapp a' b)
  end.

Fixpoint blk {L} (l : list (stmt L)) : block L :=
  match l with
  | nil => BNil
  | s :: l' => BCons s (blk l')
  end.

(** How a statement ends. *)
Inductive outcome (L : lang) : Type :=
| Done
| Broke
| Continued
| Returned (r : option (Ret L))
| Raised (e : Exc L).
Arguments Done {L}. Arguments Broke {L}. Arguments Continued {L}.
Arguments Returned {L}. Arguments Raised {L}.

Inductive res (L : lang) : Type :=
| Fin (o : outcome L) (s : St L)
| Yield (v : Val L) (s : St L) (k : St L -> res L)
| NoFuel.
Arguments Fin {L}. Arguments Yield {L}. Arguments NoFuel {L}.

(** What follows once a piece of program has ended. *)
Fixpoint bindr {L} (r : res L) (f : outcome L -> St L -> res L) : res L :=
  match r with
  | Fin o s => f o s
  | Yield v s k => Yield v s (fun s' => bindr (k s') f)
  | NoFuel => NoFuel
  end.

Section Exec.
  Context {L : lang}.

  (** After a statement, the next one. *)
  Definition and_then (f : St L -> res L) (o : outcome L) (s : St L) : res L :=
    match o with
    | Done => f s
    | _ => Fin o s
    end.

  (** After the body of a loop, the next turn. *)
  Definition next_turn (f : St L -> res L) (o : outcome L) (s : St L) : res L :=
    match o with
    | Done | Continued => f s
    | Broke => Fin Done s
    | _ => Fin o s
    end.

  Fixpoint while_loop (t : St L -> St L * (bool + Exc L)) (body orelse : St L -> res L)
      (fuel : nat) (s : St L) : res L :=
    match fuel with
    | O => NoFuel
    | S f =>
        match t s with
        | (s1, inl true) => bindr (body s1) (next_turn (while_loop t body orelse f))
        | (s1, inl false) => orelse s1
        | (s1, inr e) => Fin (Raised e) s1
        end
    end.

  Fixpoint for_loop (x : target L) (it : Obj L) (body orelse : St L -> res L)
      (fuel : nat) (s : St L) : res L :=
    match fuel with
    | O => NoFuel
    | S f =>
        match do_next L it s with
        | (s1, inl (Some v)) =>
            match do_assign L x v s1 with
            | (s2, None) => bindr (body s2) (next_turn (for_loop x it body orelse f))
            | (s2, Some e) => Fin (Raised e) s2
            end
        | (s1, inl None) => orelse s1
        | (s1, inr e) => Fin (Raised e) s1
        end
    end.

  (** The end of a [with] statement: the manager is told how the body ended
      and may swallow an exception. *)
  Definition leave_with (m : Obj L) (o : outcome L) (s : St L) : res L :=
    match o with
    | Raised e =>
        match do_exit L m (Some e) s with
        | (s1, inl true) => Fin Done s1
        | (s1, inl false) => Fin (Raised e) s1
        | (s1, inr e2) => Fin (Raised e2) s1
        end
    | _ =>
        match do_exit L m None s with
        | (s1, inl _) => Fin o s1
        | (s1, inr e2) => Fin (Raised e2) s1
        end
    end.

  (** The exception a [finally] block sees as being handled. *)
  Definition seen_by_final (cur : option (Exc L)) (o : outcome L) : option (Exc L) :=
    match o with
    | Raised e => Some e
    | _ => cur
    end.

  (** The [finally] block runs however the rest ended, and what was under way
      goes on after it unless the block itself leaves. *)
  Definition run_final (final : option (Exc L) -> St L -> res L) (cur : option (Exc L))
      (o : outcome L) (s : St L) : res L :=
    bindr (final (seen_by_final cur o) s)
          (fun o2 s2 => match o2 with Done => Fin o s2 | _ => Fin o2 s2 end).

  Definition run_named (x : option (name L)) (e : Exc L) (body : St L -> res L) (s : St L)
      : res L :=
    match x with
    | None => body s
    | Some n => bindr (body (bind_name L n e s)) (fun o s1 => Fin o (unbind_name L n s1))
    end.

End Exec.

Fixpoint exec {L : lang} (n : nat) (cur : option (Exc L)) (st : stmt L) (s : St L) {struct st}
    : res L :=
  match st with
  | SPrim p =>
      match do_prim L p cur s with
      | (s1, None) => Fin Done s1
      | (s1, Some e) => Fin (Raised e) s1
      end
  | SYield y =>
      match do_yexp L y s with
      | (s1, inl v) => Yield v s1 (fun s2 => Fin Done s2)
      | (s1, inr e) => Fin (Raised e) s1
      end
  | SIf t a b =>
      match do_test L t cur s with
      | (s1, inl true) => exec_block n cur a s1
      | (s1, inl false) => exec_block n cur b s1
      | (s1, inr e) => Fin (Raised e) s1
      end
  | SWhile t a b =>
      while_loop (do_test L t cur) (exec_block n cur a) (exec_block n cur b) n s
  | SFor _ x e a b =>
      match do_oexp L e s with
      | (s1, inr ex) => Fin (Raised ex) s1
      | (s1, inl v) =>
          match do_iter L v s1 with
          | (s2, inr ex) => Fin (Raised ex) s2
          | (s2, inl it) =>
              for_loop x it (exec_block n cur a) (exec_block n cur b) n s2
          end
      end
  | SWith _ e x a =>
      match do_oexp L e s with
      | (s1, inr ex) => Fin (Raised ex) s1
      | (s1, inl m) =>
          match do_enter L m s1 with
          | (s2, inr ex) => Fin (Raised ex) s2
          | (s2, inl v) =>
              bindr
                (match x with
                 | None => exec_block n cur a s2
                 | Some y =>
                     match do_assign L y v s2 with
                     | (s3, None) => exec_block n cur a s3
                     | (s3, Some ex) => Fin (Raised ex) s3
                     end
                 end)
                (leave_with m)
          end
      end
  | SBreak => Fin Broke s
  | SContinue => Fin Continued s
  | SReturn None => Fin (Returned None) s
  | SReturn (Some r) =>
      match do_rexp L r s with
      | (s1, inl v) => Fin (Returned (Some v)) s1
      | (s1, inr e) => Fin (Raised e) s1
      end
  | STry _ b hs o f =>
      bindr
        (bindr (exec_block n cur b s)
           (fun out s1 =>
              match out with
              | Raised e => exec_handlers n e hs s1
              | Done => exec_block n cur o s1
              | _ => Fin out s1
              end))
        (run_final (fun c => exec_block n c f) cur)
  end
with exec_block {L : lang} (n : nat) (cur : option (Exc L)) (b : block L)
    (s : St L) {struct b} : res L :=
  match b with
  | BNil => Fin Done s
  | BCons st b' => bindr (exec n cur st s) (and_then (exec_block n cur b'))
  end
with exec_handlers {L : lang} (n : nat) (e : Exc L) (hs : handlers L)
    (s : St L) {struct hs} : res L :=
  match hs with
  | HNil => Fin (Raised e) s
  | HCons m x b hs' =>
      if matches L m e
      then run_named x e (exec_block n (Some e) b) s
      else exec_handlers n e hs' s
  end.

(** ** Generator objects *)

(** A generator that has not started, is suspended, or has ended. *)
Inductive genobj (L : lang) : Type :=
| GFresh
| GSuspended (k : St L -> res L)
| GEnded.
Arguments GFresh {L}. Arguments GSuspended {L}. Arguments GEnded {L}.

(** What the caller of [next()] sees.  [Exhausted] is a [StopIteration]
    without a value. *)
Inductive event (L : lang) : Type :=
| Produced (v : Val L)
| Exhausted
| Threw (e : Exc L)
| Leaked (e : Exc L)  (* RuntimeError: the body let a StopIteration [e] escape (PEP 479) *)
| BadProgram.         (* break or continue outside of a loop: not a Python program *)
Arguments Produced {L}. Arguments Exhausted {L}. Arguments Threw {L}.
Arguments Leaked {L}. Arguments BadProgram {L}.

Section Generator.
  Context {L : lang}.
  (** [StopIteration(v)], and which exceptions are StopIterations. *)
  Variable stop_with : Ret L -> Exc L.
  Variable is_stop : Exc L -> bool.

  Definition gen_step (r : res L) : option (event L * St L * genobj L) :=
    match r with
    | Fin Done s | Fin (Returned None) s => Some (Exhausted, s, GEnded)
    | Fin (Returned (Some v)) s => Some (Threw (stop_with v), s, GEnded)
    | Fin (Raised e) s => Some (if is_stop e then Leaked e else Threw e, s, GEnded)
    | Fin Broke s | Fin Continued s => Some (BadProgram, s, GEnded)
    | Yield v s k => Some (Produced v, s, GSuspended k)
    | NoFuel => None
    end.

  (** One call of [next()] on a generator with this body. *)
  Definition gen_next (n : nat) (body : block L) (g : genobj L) (s : St L)
      : option (event L * St L * genobj L) :=
    match g with
    | GFresh => gen_step (exec_block n None body s)
    | GSuspended k => gen_step (k s)
    | GEnded => Some (Exhausted, s, GEnded)
    end.

  (** A history of calls.  Before each call the rest of the world changes the
      state as it likes; each entry of the answer is what the call gave and
      the state it left.  None: some loop ran out of turns. *)
  Fixpoint gen_history (n : nat) (body : block L) (g : genobj L) (s : St L)
      (calls : list (St L -> St L)) : option (list (event L * St L)) :=
    match calls with
    | nil => Some nil
    | f :: rest =>
        match gen_next n body g (f s) with
        | None => None
        | Some (ev, s1, g1) =>
            match gen_history n body g1 s1 rest with
            | None => None
            | Some h => Some ((ev, s1) :: h)
            end
        end
    end.
End Generator.
