(** Generators: how the compiler turns the body of a generator function into
    the [__fastnext__] method of an object that remembers where it stopped
    (typed_python/compiler/generator_codegen.py). *)
From Verif Require Import Base PyStmt.
Set Implicit Arguments.
Open Scope Z_scope.

(** The generator object: the variables of the function, all of which become
    members of the object together with everything outside it ([g_st]), the
    '..slot' member and the '..value' member
    (function_conversion_context.py:541-548). *)
Record gstate (S V : Type) := GState { g_st : S; g_slot : Z; g_val : option V }.

(** countYieldStatements: python_ast_analysis.py:257-282.  ('yield' is only
    accepted as a statement of its own.) *)
Fixpoint count {L : lang} (st : stmt L) : Z :=
  match st with
  | SYield _ => 1
  | SIf _ a b | SWhile _ a b => count_block a + count_block b
  | SFor _ _ _ a b => count_block a + count_block b
  | SWith _ _ _ a => count_block a
  | STry _ b hs o f => count_block b + count_handlers hs + count_block o + count_block f
  | _ => 0
  end
with count_block {L : lang} (b : block L) : Z :=
  match b with
  | BNil => 0
  | BCons st b' => count st + count_block b'
  end
with count_handlers {L : lang} (hs : handlers L) : Z :=
  match hs with
  | HNil => 0
  | HCons _ _ b hs' => count_block b + count_handlers hs'
  end.

Section Language.
  Variable L : lang.
  (** [StopIteration(v)]. *)
  Variable stop_with : Ret L -> Exc L.

  (** Statements of the rewritten body that are neither branches nor returns:
      those of the user, 'self..slot = z', 'self..value = e' and
      'raise StopIteration(r)' (generator_codegen.py:83-94, 250-264, 463-468). *)
  Inductive gprim := GPrim (p : prim L) | GSetSlot (z : Z) | GSetValue (e : yexp L)
                   | GRaiseStop (r : rexp L).

  (** Conditions of the rewritten body (generator_codegen.py:96-107, 229-244,
      306-322). *)
  Inductive gtest := GTest (t : test L) | GSlotLt (z : Z) | GSlotEq (z : Z)
                   | GSlotBetween (lo hi : Z) | GFalse | GOr (a b : gtest) | GAnd (a b : gtest).

  (** What [__fastnext__] returns: a pointer to '..value', or a null pointer
      (generator_codegen.py:67-73, 258-263). *)
  Inductive grexp := GPtr | GNull.

  Definition gst := gstate (St L) (Val L).

  Definition on_st {A} (t : gst) (r : St L * A) : gst * A :=
    (GState (fst r) (g_slot t) (g_val t), snd r).

  Definition do_gprim (p : gprim) (cur : option (Exc L)) (t : gst) : gst * option (Exc L) :=
    match p with
    | GPrim p => on_st t (do_prim L p cur (g_st t))
    | GSetSlot z => (GState (g_st t) z (g_val t), None)
    | GSetValue e =>
        match do_yexp L e (g_st t) with
        | (s, inl v) => (GState s (g_slot t) (Some v), None)
        | (s, inr ex) => (GState s (g_slot t) (g_val t), Some ex)
        end
    | GRaiseStop r =>
        match do_rexp L r (g_st t) with
        | (s, inl v) => (GState s (g_slot t) (g_val t), Some (stop_with v))
        | (s, inr ex) => (GState s (g_slot t) (g_val t), Some ex)
        end
    end.

  Fixpoint do_gtest (c : gtest) (cur : option (Exc L)) (t : gst) : gst * (bool + Exc L) :=
    match c with
    | GTest c => on_st t (do_test L c cur (g_st t))
    | GSlotLt z => (t, inl (g_slot t <? z))
    | GSlotEq z => (t, inl (z =? g_slot t))
    | GSlotBetween lo hi => (t, inl ((lo <=? g_slot t) && (hi >=? g_slot t)))
    | GFalse => (t, inl false)
    | GOr a b =>
        match do_gtest a cur t with
        | (t1, inl false) => do_gtest b cur t1
        | r => r
        end
    | GAnd a b =>
        match do_gtest a cur t with
        | (t1, inl true) => do_gtest b cur t1
        | r => r
        end
    end.

  (** The language of rewritten bodies.  It has no 'yield', 'for' or 'with'.
      A name bound by 'except E as x' stays a plain variable of
      [__fastnext__] (generator_codegen.py:425, name=eh.name), while the
      handler's statements read the member 'self..x': so binding it changes
      nothing they can see. *)
  Definition glang : lang :=
    {| St := gst; Val := Val L; Exc := Exc L; Ret := bool; Obj := Empty_set;
       prim := gprim; test := gtest; yexp := Empty_set; rexp := grexp;
       oexp := Empty_set; target := Empty_set; name := name L; pattern := pattern L;
       do_prim := do_gprim; do_test := do_gtest;
       do_yexp := fun y _ => match y with end;
       do_rexp := fun r t => match r with
                             | GPtr => (t, inl true)
                             | GNull => (t, inl false)
                             end;
       do_oexp := fun e _ => match e with end;
       do_assign := fun x _ _ => match x with end;
       do_enter := fun x _ => match x with end;
       do_exit := fun x _ _ => match x with end;
       do_iter := fun x _ => match x with end;
       do_next := fun x _ => match x with end;
       bind_name := fun _ _ t => t;
       unbind_name := fun _ t => t;
       matches := matches L |}.

  (** checkSlotBetween: generator_codegen.py:96-107. *)
  Definition slot_between (lo hi : Z) : gtest :=
    if hi <? lo then GFalse
    else if lo =? hi then GSlotEq lo
    else GSlotBetween lo hi.

  (** The condition of a rewritten 'if' or 'while' at yield number [y] whose
      body has [c] yields: generator_codegen.py:310-318. *)
  Definition resume_or (y c : Z) (t : test L) : gtest :=
    GOr (slot_between y (y + c - 1)) (GAnd (slot_between (-1) (-1)) (GTest t)).

  Definition one (st : stmt glang) : block glang := BCons st BNil.

  (** A branch that lets a resumed generator into a part of a 'try' with
      yields of its own: generator_codegen.py:393-409. *)
  Definition matcher (y c : Z) (b : block glang) (rest : block glang) : block glang :=
    if c =? 0 then rest
    else BCons (SIf (slot_between y (y + c - 1) : test glang) b BNil) rest.

  (** The finally block of a rewritten 'try': generator_codegen.py:430-441. *)
  Definition final_when_running (f : block L) (f' : block glang) : block glang :=
    match f with
    | BNil => BNil
    | _ => one (SIf (slot_between (-1) (-1) : test glang) f' BNil)
    end.

  (** A rewritten 'try' whose body has the yields [y, y+cb):
      generator_codegen.py:416-446. *)
  Definition gen_try (y cb : Z) (b' : block glang) (hs' : handlers glang) (o' f' : block glang)
      (cleanup : block glang) : block glang :=
    one (SIf (slot_between (-1) (y + cb - 1) : test glang)
             (one (STry (0, 0)%nat b' hs' o' f')) cleanup).

  (** changeStatement's guard: generator_codegen.py:229-244. *)
  Definition guarded (upper : Z) (b : block glang) : stmt glang :=
    SIf (GSlotLt upper : test glang) b BNil.
End Language.

Arguments glang {L} stop_with.
Arguments slot_between {L}.
Arguments do_gprim {L}. Arguments do_gtest {L}.
Arguments guarded {L stop_with}. Arguments one {L stop_with}. Arguments matcher {L stop_with}.
Arguments gen_try {L stop_with}. Arguments final_when_running {L stop_with}.
Arguments resume_or {L}. Arguments GPrim {L}. Arguments GSetSlot {L}. Arguments GSetValue {L}.
Arguments GRaiseStop {L}. Arguments GTest {L}. Arguments GSlotLt {L}. Arguments GSlotEq {L}.
Arguments GSlotBetween {L}. Arguments GFalse {L}. Arguments GOr {L}. Arguments GAnd {L}.

(** changeStatement: generator_codegen.py:229-244, and
    changeStatementInner: generator_codegen.py:246-517.  [y] is
    self.yieldsSeen.  A 'try' with handlers and a finally block is first
    split in two (357-384).  A 'for' never gets here (it is rewritten
    before, see 491-492) and a 'with' is expanded before (470-474: the
    expansion is modelled in Lower_Model.v); they are sent to an empty block
    and excluded by the theorems. *)
Fixpoint gen_stmt {L : lang} (stop : Ret L -> Exc L) (y : Z) (st : stmt L) : stmt (glang stop) :=
  guarded (y + count st)
    match st with
    | SPrim p => one (SPrim (GPrim p : prim (glang stop)))
    | SYield e =>
        one (SIf (GSlotEq y : test (glang stop))
               (one (SPrim (GSetSlot (-1) : prim (glang stop))))
               (BCons (SPrim (GSetSlot y : prim (glang stop)))
               (BCons (SPrim (GSetValue e : prim (glang stop)))
               (one (SReturn (Some (GPtr : rexp (glang stop))))))))
    | SIf t a b =>
        one (SIf (resume_or y (count_block a) t : test (glang stop))
               (gen_block stop y a) (gen_block stop (y + count_block a) b))
    | SWhile t a b =>
        one (SWhile (resume_or y (count_block a) t : test (glang stop))
               (gen_block stop y a) (gen_block stop (y + count_block a) b))
    | SFor _ _ _ _ _ | SWith _ _ _ _ => BNil
    | SBreak => one SBreak
    | SContinue => one SContinue
    | SReturn None => one (SReturn (Some (GNull : rexp (glang stop))))
    | SReturn (Some r) =>
        BCons (SPrim (GSetSlot (-2) : prim (glang stop)))
          (one (SPrim (GRaiseStop r : prim (glang stop))))
    | STry _ b hs o f =>
        let cb := count_block b in
        let ch := count_handlers hs in
        let co := count_block o in
        let cf := count_block f in
        let clean_o := matcher (y + cb + ch) co (gen_block stop (y + cb + ch) o) in
        let clean_f := matcher (y + cb + ch + co) cf (gen_block stop (y + cb + ch + co) f) BNil in
        let f' := final_when_running f (gen_block stop (y + cb + ch + co) f) in
        match hs, f with
        | HCons _ _ _ _, BCons _ _ =>
            one (guarded (y + (cb + ch + co + cf))
              (gen_try y (cb + ch + co)
                (one (guarded (y + (cb + ch + co))
                  (gen_try y cb (gen_block stop y b) (gen_handlers stop (y + cb) hs)
                     (gen_block stop (y + cb + ch) o) BNil
                     (@gen_cleanup L stop (y + cb) hs (clean_o BNil)))))
                HNil BNil f' clean_f))
        | _, _ =>
            gen_try y cb (gen_block stop y b) (gen_handlers stop (y + cb) hs)
              (gen_block stop (y + cb + ch) o) f'
              (@gen_cleanup L stop (y + cb) hs (clean_o clean_f))
        end
    end
with gen_block {L : lang} (stop : Ret L -> Exc L) (y : Z) (b : block L) : block (glang stop) :=
  match b with
  | BNil => BNil
  | BCons st b' => BCons (gen_stmt stop y st) (gen_block stop (y + count st) b')
  end
with gen_handlers {L : lang} (stop : Ret L -> Exc L) (y : Z) (hs : handlers L)
    : handlers (glang stop) :=
  match hs with
  | HNil => HNil
  | HCons m x b hs' =>
      HCons (m : pattern (glang stop)) (x : option (name (glang stop))) (gen_block stop y b)
        (gen_handlers stop (y + count_block b) hs')
  end
with gen_cleanup {L : lang} (stop : Ret L -> Exc L) (y : Z) (hs : handlers L)
    (rest : block (glang stop)) : block (glang stop) :=
  match hs with
  | HNil => rest
  | HCons _ _ b hs' =>
      matcher y (count_block b) (gen_block stop y b)
        (@gen_cleanup L stop (y + count_block b) hs' rest)
  end.

Section Objects.
  Variable L : lang.
  (** [StopIteration(v)]. *)
  Variable stop_with : Ret L -> Exc L.

  Definition return_null : stmt (glang stop_with) := SReturn (Some (GNull : rexp (glang stop_with))).

  (** convertStatementsToFunctionDef: generator_codegen.py:522-568.  (The
      variable '.slotPtr' is only another way to reach '..slot'.) *)
  Definition fastnext (body : block L) : block (glang stop_with) :=
    one (STry (0, 0)%nat
      (BCons (SIf (slot_between (-2) (-2) : test (glang stop_with)) (one return_null) BNil)
             (bapp (gen_block stop_with 0 body) (one return_null)))
      HNil BNil
      (one (SIf (slot_between (-1) (-1) : test (glang stop_with))
              (one (SPrim (GSetSlot (-2) : prim (glang stop_with)))) BNil))).

  (** Generator.__next__: generator.py:16-21. *)
  Definition typed_step (r : res (glang stop_with)) : option (event L * gst L) :=
    match r with
    | Fin (Returned (Some true)) t =>
        match g_val t with
        | Some v => Some (@Produced L v, t)
        | None => Some (BadProgram, t)
        end
    | Fin (Returned (Some false)) t => Some (Exhausted, t)
    | Fin (Raised e) t => Some (@Threw L e, t)
    | Fin _ t => Some (BadProgram, t)
    | _ => None
    end.

  Definition typed_next (n : nat) (body : block L) (t : gst L) : option (event L * gst L) :=
    typed_step (exec_block n None (fastnext body) t).

  (** The history of calls of a compiled generator: as [gen_history].  The
      rest of the world changes everything but '..slot' and '..value'.  A new
      object has slot -1 (function_conversion_context.py:602). *)
  Fixpoint typed_history (n : nat) (body : block L) (t : gst L) (calls : list (St L -> St L))
      : option (list (event L * St L)) :=
    match calls with
    | nil => Some nil
    | f :: rest =>
        match typed_next n body (GState (f (g_st t)) (g_slot t) (g_val t)) with
        | None => None
        | Some (ev, t1) =>
            match typed_history n body t1 rest with
            | None => None
            | Some h => Some ((ev, g_st t1) :: h)
            end
        end
    end.

  Definition new_generator (s : St L) : gst L := GState s (-1) None.
End Objects.

Arguments fastnext {L}. Arguments return_null {L}.
Arguments typed_step {L stop_with}. Arguments typed_next {L}. Arguments typed_history {L}.
Arguments new_generator {L}.
