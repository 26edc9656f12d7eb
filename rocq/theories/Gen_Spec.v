(** Which generator functions the theorem about compiled generators speaks of. *)
From Verif Require Import Base PyStmt Gen_Model.
Set Implicit Arguments.
Open Scope Z_scope.

Section Parts.
  Variable L : lang.

  (** A statement or a condition that does not look at the exception being
      handled (that is: no 'raise' on its own, no sys.exc_info()). *)
  Definition blind_prim (p : prim L) : Prop :=
    forall c c' s, do_prim L p c s = do_prim L p c' s.
  Definition blind_test (t : test L) : Prop :=
    forall c c' s, do_test L t c s = do_test L t c' s.

  (** An expression that never raises. *)
  Definition safe_yexp (e : yexp L) : Prop :=
    forall s, exists s' v, do_yexp L e s = (s', inl v).

  Definition is_nil (b : block L) : bool := match b with BNil => true | _ => false end.

End Parts.
Arguments blind_prim {L}. Arguments blind_test {L}. Arguments safe_yexp {L}. Arguments is_nil {L}.

(** [sees]: whether the exception being handled may be looked at here.
    [caught]: whether an exception raised here meets a handler or a finally
    block of the generator.

    What is asked for:
    - no 'for' and no 'with' (they are rewritten before);
    - yielded expressions do not raise;
    - 'return value' stands outside of every 'try' (precisely: no handler
      and no finally block would meet an exception raised there);
    - a finally block has no 'yield';
    - a handler binds no name, and a handler with a 'yield' does not look
      at the exception it handles;
    - an 'else' comes with a handler (which is Python's syntax). *)
Fixpoint supported {L : lang} (sees caught : bool) (st : stmt L) : Prop :=
  match st with
  | SPrim p => sees = true \/ blind_prim p
  | SYield e => safe_yexp e
  | SIf t a b | SWhile t a b =>
      (sees = true \/ blind_test t) /\ supported_block sees caught a
      /\ supported_block sees caught b
  | SFor _ _ _ _ _ | SWith _ _ _ _ => False
  | SBreak | SContinue | SReturn None => True
  | SReturn (Some _) => caught = false
  | STry _ b hs o f =>
      supported_block sees true b
      /\ supported_handlers (caught || negb (is_nil f)) hs
      /\ supported_block sees (caught || negb (is_nil f)) o
      /\ supported_block sees caught f
      /\ count_block f = 0
      /\ (hs = HNil -> o = BNil)
  end
with supported_block {L : lang} (sees caught : bool) (b : block L) : Prop :=
  match b with
  | BNil => True
  | BCons st b' => supported sees caught st /\ supported_block sees caught b'
  end
with supported_handlers {L : lang} (caught : bool) (hs : handlers L) : Prop :=
  match hs with
  | HNil => True
  | HCons _ x b hs' =>
      x = None /\ supported_block (count_block b =? 0) caught b
      /\ supported_handlers caught hs'
  end.

(** The body of a generator function. *)
Definition supported_generator {L : lang} (body : block L) : Prop :=
  supported_block true false body.

(** A history in which a StopIteration that escapes from the body is passed
    on as it is, instead of turning into a RuntimeError. *)
Definition without_pep479 {L : lang} (h : list (event L * St L)) : list (event L * St L) :=
  map (fun p => (match fst p with Leaked e => Threw e | ev => ev end, snd p)) h.

(** No StopIteration escapes from the body. *)
Definition no_leak {L : lang} (h : list (event L * St L)) : Prop :=
  forall e s, ~ In (Leaked e, s) h.
