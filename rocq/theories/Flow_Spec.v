(** Which functions the theorem about compiled control flow speaks of. *)
From Verif Require Import Base PyStmt Flow_Model.
Set Implicit Arguments.
Open Scope Z_scope.

(** The compiler's knowledge is right: a statement it takes to end always in an exception does,
    and a condition it takes for a constant has that value. *)
Definition sound_facts {L : lang} (F : facts L) : Prop :=
  (forall p cur s, falls F p = false -> snd (do_prim L p cur s) <> None) /\
  (forall t b cur s, known F t = Some b -> snd (do_test L t cur s) = inl b).

(** A statement or condition that does not look at the exception being handled. *)
Definition blind_prim {L : lang} (p : prim L) : Prop :=
  forall c c' s, do_prim L p c s = do_prim L p c' s.
Definition blind_test {L : lang} (t : test L) : Prop :=
  forall c c' s, do_test L t c s = do_test L t c' s.

(** No 'try' inside. *)
Fixpoint try_free {L : lang} (st : stmt L) : bool :=
  match st with
  | SIf _ a b | SWhile _ a b | SFor _ _ _ a b => try_free_block a && try_free_block b
  | SWith _ _ _ _ | STry _ _ _ _ _ => false
  | _ => true
  end
with try_free_block {L : lang} (b : block L) : bool :=
  match b with
  | BNil => true
  | BCons st b' => try_free st && try_free_block b'
  end.
Fixpoint try_free_handlers {L : lang} (hs : handlers L) : bool :=
  match hs with
  | HNil => true
  | HCons _ _ b hs' => try_free_block b && try_free_handlers hs'
  end.

(** A 'break' ([brk]) or a 'continue' that leaves the piece of program. *)
Fixpoint leaves {L : lang} (brk : bool) (st : stmt L) : bool :=
  match st with
  | SBreak => brk
  | SContinue => negb brk
  | SIf _ a b => leaves_block brk a || leaves_block brk b
  | SWhile _ _ b | SFor _ _ _ _ b => leaves_block brk b
  | SWith _ _ _ a => leaves_block brk a
  | STry _ b hs o f =>
      leaves_block brk b || leaves_handlers brk hs || leaves_block brk o || leaves_block brk f
  | _ => false
  end
with leaves_block {L : lang} (brk : bool) (b : block L) : bool :=
  match b with
  | BNil => false
  | BCons st b' => leaves brk st || leaves_block brk b'
  end
with leaves_handlers {L : lang} (brk : bool) (hs : handlers L) : bool :=
  match hs with
  | HNil => false
  | HCons _ _ b hs' => leaves_block brk b || leaves_handlers brk hs'
  end.

(** Whether the compiler takes a block to end normally. *)
Definition ends {L : lang} (F : facts L) (b : block L) : bool := snd (conv_block F no_blocks b).

(** [sees]: statements may look at the exception being handled.
    [keep]: the exception being handled will be needed afterwards.
    [inside]: a loop is around (Python's own rule for 'break' and 'continue').
    [ls], [fs]: the locations of the 'try' statements and the lines of the 'for' loops around.

    What is asked for, besides that:
    - no 'try' in a 'finally' block, nor in the 'try' block or an 'except' clause when there is an
      'else' block; where statements may look at the exception being handled, no 'try' in an
      'except' clause;
    - no 'break' in the 'else' block of a loop, and no 'continue' in that of a 'for';
    - a loop that can be left by 'break' and whose body never comes to its end has an 'else' block
      that comes to its end, if it has one;
    - no 'try' shares its location with one around it, no 'for' its line. *)
Fixpoint supported {L : lang} (F : facts L) (sees keep inside : bool) (ls : list loc) (fs : list nat)
    (st : stmt L) : Prop :=
  match st with
  | SPrim p => (sees = true \/ blind_prim p) /\ (keep = true -> resets_prim F p = false)
  | SYield _ | SWith _ _ _ _ => False
  | SIf t a b =>
      (sees = true \/ blind_test t) /\ (keep = true -> resets_test F t = false) /\
      supported_block F sees keep inside ls fs a /\ supported_block F sees keep inside ls fs b
  | SWhile t a b =>
      (sees = true \/ blind_test t) /\ (keep = true -> resets_test F t = false) /\
      supported_block F sees keep true ls fs a /\ supported_block F sees keep inside ls fs b /\
      leaves_block true b = false /\
      (leaves_block true a = true -> ends F a = true \/ ends F b = true)
  | SFor l x e a b =>
      (keep = true -> resets_for F e = false) /\ ~ In (fst l) fs /\
      supported_block F sees keep true ls (fst l :: fs) a /\
      supported_block F sees keep true ls fs b /\
      leaves_block true b = false /\ leaves_block false b = false /\
      (leaves_block true a = true -> ends F a = true \/ ends F b = true)
  | SBreak | SContinue => inside = true
  | SReturn _ => True
  | STry l b hs o f =>
      keep = false /\ ~ In l ls /\
      supported_block F sees false inside (l :: ls) fs b /\
      supported_handlers F inside (l :: ls) fs hs /\
      (sees = true -> try_free_handlers hs = true) /\
      (o <> BNil -> try_free_block b = true /\ try_free_handlers hs = true) /\
      supported_block F sees false inside (l :: ls) fs o /\
      supported_block F sees true inside (l :: ls) fs f
  end
with supported_block {L : lang} (F : facts L) (sees keep inside : bool) (ls : list loc) (fs : list nat)
    (b : block L) : Prop :=
  match b with
  | BNil => True
  | BCons st b' => supported F sees keep inside ls fs st /\ supported_block F sees keep inside ls fs b'
  end
with supported_handlers {L : lang} (F : facts L) (inside : bool) (ls : list loc) (fs : list nat)
    (hs : handlers L) : Prop :=
  match hs with
  | HNil => True
  | HCons _ _ b hs' =>
      (supported_block F true true inside ls fs b \/ supported_block F false false inside ls fs b) /\
      supported_handlers F inside ls fs hs'
  end.

(** [may_look]: whether the function's statements outside of 'except' clauses may look at the
    exception being handled. *)
Definition supported_function {L : lang} (F : facts L) (may_look : bool) (body : block L) : Prop :=
  supported_block F may_look false false [] [] body.

(** What the caller of a Python function gets. *)
Definition python_answer {L : lang} (o : outcome L) : option (answer L) :=
  match o with
  | Done => Some (Gives None)
  | Returned r => Some (Gives r)
  | Raised e => Some (Throws e)
  | Broke | Continued => None
  end.

(** No 'for' loop inside. *)
Fixpoint no_for {L : lang} (st : stmt L) : bool :=
  match st with
  | SFor _ _ _ _ _ => false
  | SIf _ a b | SWhile _ a b => no_for_block a && no_for_block b
  | SWith _ _ _ a => no_for_block a
  | STry _ b hs o f => no_for_block b && no_for_handlers hs && no_for_block o && no_for_block f
  | _ => true
  end
with no_for_block {L : lang} (b : block L) : bool :=
  match b with
  | BNil => true
  | BCons st b' => no_for st && no_for_block b'
  end
with no_for_handlers {L : lang} (hs : handlers L) : bool :=
  match hs with
  | HNil => true
  | HCons _ _ b hs' => no_for_block b && no_for_handlers hs'
  end.
