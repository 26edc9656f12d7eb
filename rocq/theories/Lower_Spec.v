(** Which programs the theorems about the rewriting of 'with' and 'for' speak of. *)
From Verif Require Import Base PyStmt Gen_Model Gen_Spec Lower_Model.
Set Implicit Arguments.
Open Scope Z_scope.

(** An assignment target that accepts whatever it is given: a plain name. *)
Definition safe_target {L : lang} (x : target L) : Prop :=
  forall v s, exists s', do_assign L x v s = (s', None).

(** [ws], [fs]: the locations of the 'with' blocks and the lines of the 'for' loops around.

    What is asked for:
    - no 'with' has the location (as seen by the expansion) of a 'with' around it;
    - no 'for' stands on the line of a 'for' around it;
    - the targets of 'with' are plain names. *)
Fixpoint placed {L : lang} (at_ : loc -> loc) (ws : list loc) (fs : list nat) (st : stmt L) : Prop :=
  match st with
  | SIf _ a b | SWhile _ a b => placed_block at_ ws fs a /\ placed_block at_ ws fs b
  | SFor l _ _ a b =>
      ~ In (fst l) fs /\ placed_block at_ ws (fst l :: fs) a /\ placed_block at_ ws fs b
  | SWith l _ x a =>
      ~ In (at_ l) ws /\ (forall y, x = Some y -> safe_target y) /\ placed_block at_ (at_ l :: ws) fs a
  | STry _ b hs o f =>
      placed_block at_ ws fs b /\ placed_handlers at_ ws fs hs
      /\ placed_block at_ ws fs o /\ placed_block at_ ws fs f
  | _ => True
  end
with placed_block {L : lang} (at_ : loc -> loc) (ws : list loc) (fs : list nat) (b : block L) : Prop :=
  match b with
  | BNil => True
  | BCons st b' => placed at_ ws fs st /\ placed_block at_ ws fs b'
  end
with placed_handlers {L : lang} (at_ : loc -> loc) (ws : list loc) (fs : list nat) (hs : handlers L) : Prop :=
  match hs with
  | HNil => True
  | HCons _ _ b hs' => placed_block at_ ws fs b /\ placed_handlers at_ ws fs hs'
  end.

(** Whether a piece of program does in Python what its rewriting does: it ends in the same
    way, yields the same values and goes through the same states, when the world leaves the
    variables of the rewriting alone. *)
Definition same_outcome {L : lang} {unset : Exc L} (o : outcome L) : outcome (wlang unset) :=
  match o with
  | Done => Done
  | Broke => Broke
  | Continued => Continued
  | Returned r => Returned (r : option (Ret (wlang unset)))
  | Raised e => Raised (e : Exc (wlang unset))
  end.

Fixpoint same_run {L : lang} {unset : Exc L} (r : res L) (r' : res (wlang unset)) : Prop :=
  match r with
  | NoFuel => True
  | Fin o s => exists a, r' = Fin (same_outcome o) ((s, a) : St (wlang unset))
  | Yield v s k =>
      exists a k', r' = Yield (v : Val (wlang unset)) ((s, a) : St (wlang unset)) k' /\
        forall s', same_run (k s') (k' (s', a))
  end.

(** As [supported], for programs with 'for' and 'with': the body of a 'with' counts as being
    under a 'try'. *)
Fixpoint generator_ready {L : lang} (sees caught : bool) (st : stmt L) : Prop :=
  match st with
  | SPrim p => sees = true \/ blind_prim p
  | SYield e => safe_yexp e
  | SIf t a b | SWhile t a b =>
      (sees = true \/ blind_test t) /\ ready_block sees caught a /\ ready_block sees caught b
  | SFor _ _ _ a b => ready_block sees caught a /\ ready_block sees caught b
  | SWith _ _ _ a => ready_block sees true a
  | SBreak | SContinue | SReturn None => True
  | SReturn (Some _) => caught = false
  | STry _ b hs o f =>
      ready_block sees true b
      /\ ready_handlers (caught || negb (is_nil f)) hs
      /\ ready_block sees (caught || negb (is_nil f)) o
      /\ ready_block sees caught f
      /\ count_block f = 0
      /\ (hs = HNil -> o = BNil)
  end
with ready_block {L : lang} (sees caught : bool) (b : block L) : Prop :=
  match b with
  | BNil => True
  | BCons st b' => generator_ready sees caught st /\ ready_block sees caught b'
  end
with ready_handlers {L : lang} (caught : bool) (hs : handlers L) : Prop :=
  match hs with
  | HNil => True
  | HCons _ x b hs' =>
      x = None /\ ready_block (count_block b =? 0) caught b /\ ready_handlers caught hs'
  end.

(** A change of the world, when the rewriting has its variables beside it. *)
Definition beside {L : lang} (f : St L -> St L) (t : wst L) : wst L := (f (fst t), snd t).

(** A history without the variables of the rewriting. *)
Definition same_event {L : lang} {unset : Exc L} (ev : event (wlang unset)) : event L :=
  match ev with
  | Produced v => Produced (v : Val L)
  | Exhausted => Exhausted
  | Threw e => Threw (e : Exc L)
  | Leaked e => Leaked (e : Exc L)
  | BadProgram => BadProgram
  end.
Definition without_aux {L : lang} {unset : Exc L} (h : list (event (wlang unset) * St (wlang unset)))
    : list (event L * St L) :=
  map (fun p => (same_event (fst p), fst (snd p : wst L))) h.
