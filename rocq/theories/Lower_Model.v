(** How the compiler rewrites 'with' blocks and 'for' loops into 'try' and 'while'
    (typed_python/compiler/withblock_codegen.py and
    typed_python/compiler/for_loop_codegen.py). *)
From Verif Require Import Base PyStmt.
From Coq Require Import PeanoNat.
Set Implicit Arguments.

(** The variables the rewriting introduces.  Their names contain the line and column of the
    'with' (withblock_codegen.py:29-32), and the line of the 'for'
    (for_loop_codegen.py:167-170).  None: not assigned yet.  The variables
    '.with_exception' and '.with_sys_var' are left out: they are written and read in one
    breath, in a handler. *)
Record aux (O : Type) := Aux {
  a_flag : loc -> option bool;          (* .with_hit_except: no exception was met *)
  a_mgr : loc -> option O;              (* .with_cm_var *)
  a_expr : nat -> option O;             (* .for.*.iteratorExpr *)
  a_iter : nat -> option O;             (* .for.*.iterator *)
  a_ptr : nat -> option (option O);     (* .for.*.iteratorValuePtr *)
  a_else : nat -> option bool           (* .for.*.triggerElse *)
}.
Arguments Aux {O}. Arguments a_flag {O}. Arguments a_mgr {O}. Arguments a_expr {O}.
Arguments a_iter {O}. Arguments a_ptr {O}. Arguments a_else {O}.

Definition loc_eqb (a b : loc) : bool := Nat.eqb (fst a) (fst b) && Nat.eqb (snd a) (snd b).

Definition put_loc {A} (l : loc) (v : A) (f : loc -> option A) : loc -> option A :=
  fun l' => if loc_eqb l l' then Some v else f l'.
Definition put_line {A} (i : nat) (v : A) (f : nat -> option A) : nat -> option A :=
  fun i' => if Nat.eqb i i' then Some v else f i'.

Definition no_aux {O} : aux O :=
  Aux (fun _ => None) (fun _ => None) (fun _ => None) (fun _ => None) (fun _ => None) (fun _ => None).

Section Language.
  Variable L : lang.
  (** What reading a variable before its assignment, or 'raise' with nothing to raise, raises. *)
  Variable unset : Exc L.

  (** The statements of the rewritten program: those of the user, and those that the rewriting
      makes (withblock_codegen.py:111-240, for_loop_codegen.py:172-216). *)
  Inductive wprim :=
  | WPrim (p : prim L)
  | WSetFlag (l : loc) (b : bool)                     (* with_hit_except = b *)
  | WSetMgr (l : loc) (e : oexp L)                    (* with_cm_var = e *)
  | WEnter (l : loc) (x : option (target L))          (* [x =] with_cm_var.__enter__() *)
  | WExitNone (l : loc)                               (* with_cm_var.__exit__(None, None, None) *)
  | WReraise                                          (* raise *)
  | WSetExpr (i : nat) (e : oexp L)                   (* iteratorExpr = e *)
  | WSetIter (i : nat)                                (* iterator = ExtractIteratorWithFastnext()(iteratorExpr) *)
  | WSetElse (i : nat) (b : bool)                     (* triggerElse = b *)
  | WNext (i : nat)                                   (* iteratorValuePtr = iterator.__fastnext__() *)
  | WTake (i : nat) (x : target L).                   (* x = iteratorValuePtr.get() *)

  Inductive wtest :=
  | WTest (t : test L)
  | WExit (l : loc)        (* with_cm_var.__exit__ of sys.exc_info() *)
  | WFlag (l : loc)
  | WTrue
  | WPtr (i : nat)
  | WElse (i : nat).

  Definition wst : Type := St L * aux (Obj L).

  Definition done (s : St L) (a : aux (Obj L)) : wst * option (Exc L) := (s, a, None).
  Definition raised (s : St L) (a : aux (Obj L)) (e : Exc L) : wst * option (Exc L) := (s, a, Some e).

  Definition do_wprim (p : wprim) (cur : option (Exc L)) (t : wst) : wst * option (Exc L) :=
    let '(s, a) := t in
    match p with
    | WPrim p => let '(s1, e) := do_prim L p cur s in (s1, a, e)
    | WSetFlag l b => done s (Aux (put_loc l b (a_flag a)) (a_mgr a) (a_expr a) (a_iter a) (a_ptr a) (a_else a))
    | WSetMgr l e =>
        match do_oexp L e s with
        | (s1, inl m) => done s1 (Aux (a_flag a) (put_loc l m (a_mgr a)) (a_expr a) (a_iter a) (a_ptr a) (a_else a))
        | (s1, inr ex) => raised s1 a ex
        end
    | WEnter l x =>
        match a_mgr a l with
        | None => raised s a unset
        | Some m =>
            match do_enter L m s with
            | (s1, inr ex) => raised s1 a ex
            | (s1, inl v) =>
                match x with
                | None => done s1 a
                | Some y => let '(s2, e) := do_assign L y v s1 in (s2, a, e)
                end
            end
        end
    | WExitNone l =>
        match a_mgr a l with
        | None => raised s a unset
        | Some m =>
            match do_exit L m None s with
            | (s1, inl _) => done s1 a
            | (s1, inr ex) => raised s1 a ex
            end
        end
    | WReraise => raised s a (match cur with Some e => e | None => unset end)
    | WSetExpr i e =>
        match do_oexp L e s with
        | (s1, inl v) => done s1 (Aux (a_flag a) (a_mgr a) (put_line i v (a_expr a)) (a_iter a) (a_ptr a) (a_else a))
        | (s1, inr ex) => raised s1 a ex
        end
    | WSetIter i =>
        match a_expr a i with
        | None => raised s a unset
        | Some v =>
            match do_iter L v s with
            | (s1, inl it) => done s1 (Aux (a_flag a) (a_mgr a) (a_expr a) (put_line i it (a_iter a)) (a_ptr a) (a_else a))
            | (s1, inr ex) => raised s1 a ex
            end
        end
    | WSetElse i b => done s (Aux (a_flag a) (a_mgr a) (a_expr a) (a_iter a) (a_ptr a) (put_line i b (a_else a)))
    | WNext i =>
        match a_iter a i with
        | None => raised s a unset
        | Some it =>
            match do_next L it s with
            | (s1, inl r) => done s1 (Aux (a_flag a) (a_mgr a) (a_expr a) (a_iter a) (put_line i r (a_ptr a)) (a_else a))
            | (s1, inr ex) => raised s1 a ex
            end
        end
    | WTake i x =>
        match a_ptr a i with
        | Some (Some v) => let '(s1, e) := do_assign L x v s in (s1, a, e)
        | _ => raised s a unset
        end
    end.

  Definition do_wtest (t : wtest) (cur : option (Exc L)) (u : wst) : wst * (bool + Exc L) :=
    let '(s, a) := u in
    match t with
    | WTest t => let '(s1, r) := do_test L t cur s in (s1, a, r)
    | WExit l =>
        match a_mgr a l with
        | None => (s, a, inr unset)
        | Some m => let '(s1, r) := do_exit L m cur s in (s1, a, r)
        end
    | WFlag l => (s, a, match a_flag a l with Some b => inl b | None => inr unset end)
    | WTrue => (s, a, inl true)
    | WPtr i => (s, a, match a_ptr a i with
                       | Some (Some _) => inl true
                       | Some None => inl false
                       | None => inr unset
                       end)
    | WElse i => (s, a, match a_else a i with Some b => inl b | None => inr unset end)
    end.

  (** The language of rewritten programs: 'for' and 'with' are gone. *)
  Definition wlang : lang :=
    {| St := wst; Val := Val L; Exc := Exc L; Ret := Ret L; Obj := Empty_set;
       prim := wprim; test := wtest; yexp := yexp L; rexp := rexp L;
       oexp := Empty_set; target := Empty_set; name := name L; pattern := pattern L;
       do_prim := do_wprim; do_test := do_wtest;
       do_yexp := fun y t => let '(s1, r) := do_yexp L y (fst t) in (s1, snd t, r);
       do_rexp := fun r t => let '(s1, v) := do_rexp L r (fst t) in (s1, snd t, v);
       do_oexp := fun e _ => match e with end;
       do_assign := fun x _ _ => match x with end;
       do_enter := fun x _ => match x with end;
       do_exit := fun x _ _ => match x with end;
       do_iter := fun x _ => match x with end;
       do_next := fun x _ => match x with end;
       bind_name := fun x e t => (bind_name L x e (fst t), snd t);
       unbind_name := fun x t => (unbind_name L x (fst t), snd t);
       matches := matches L |}.
End Language.
Arguments wlang {L}. Arguments WPrim {L}. Arguments WSetFlag {L}. Arguments WSetMgr {L}.
Arguments WEnter {L}. Arguments WExitNone {L}. Arguments WReraise {L}. Arguments WSetExpr {L}.
Arguments WSetIter {L}. Arguments WSetElse {L}. Arguments WNext {L}. Arguments WTake {L}.
Arguments WTest {L}. Arguments WExit {L}. Arguments WFlag {L}. Arguments WTrue {L}.
Arguments WPtr {L}. Arguments WElse {L}. Arguments do_wprim {L}. Arguments do_wtest {L}.
Arguments done {L}. Arguments raised {L}.

Section Pieces.
  Context {L : lang} {unset : Exc L}.
  Notation W := (wlang unset).
  Definition wp (p : wprim L) : stmt W := SPrim (p : prim W).

  (** expandWithBlockIntoTryCatch: withblock_codegen.py:4-240, of a block with one manager.
      (Several are first nested: 6-26.)  The handler accepts every exception: [any]. *)
  Definition expand_with (any : pattern L) (l : loc) (e : oexp L) (x : option (target L)) (body : block W)
      : block W :=
    BCons (wp (WSetFlag l true))
    (BCons (wp (WSetMgr l e))
    (BCons (wp (WEnter l x))
    (BCons (STry l body
              (HCons (any : pattern W) None
                 (BCons (wp (WSetFlag l false))
                 (BCons (SIf (WExit l : test W) BNil (BCons (wp WReraise) BNil)) BNil))
                 HNil)
              BNil
              (BCons (SIf (WFlag l : test W) (BCons (wp (WExitNone l)) BNil) BNil) BNil)) BNil))).

  (** The 'for' case of rewriteForLoopStatement: for_loop_codegen.py:164-216. *)
  Definition expand_for (i : nat) (x : target L) (e : oexp L) (body orelse : block W) : block W :=
    BCons (wp (WSetExpr i e))
    (BCons (wp (WSetIter i))
    (BCons (wp (WSetElse i false))
    (BCons (SWhile (WTrue : test W)
             (BCons (wp (WNext i))
             (BCons (SIf (WPtr i : test W) (BCons (wp (WTake i x)) BNil)
                       (BCons (wp (WSetElse i true)) (BCons SBreak BNil))) body))
             BNil)
      match orelse with
      | BNil => BNil
      | _ => BCons (SIf (WElse i : test W) orelse BNil) BNil
      end))).
End Pieces.
Arguments wp {L}. Arguments expand_with {L}. Arguments expand_for {L}.

(** rewriteForLoops (for_loop_codegen.py:76-216) followed by the expansion of every 'with'
    (generator_codegen.py:480-484).  [at] says which location a 'with' or 'try' has after the
    first: rewriteForLoops builds new 'with', 'try', 'if' and 'while' statements without line
    and column (121-162), which makes them 0, so in a generator [at] is constant; outside of
    generators, where only 'with' is expanded, it is the identity.  [any] is the pattern of
    'except:'. *)
Fixpoint lower {L : lang} (unset : Exc L) (any : pattern L) (at_ : loc -> loc) (st : stmt L)
    : block (wlang unset) :=
  match st with
  | SPrim p => BCons (wp unset (WPrim p)) BNil
  | SYield y => BCons (SYield (y : yexp (wlang unset))) BNil
  | SIf t a b => BCons (SIf (WTest t : test (wlang unset)) (lower_block unset any at_ a) (lower_block unset any at_ b)) BNil
  | SWhile t a b => BCons (SWhile (WTest t : test (wlang unset)) (lower_block unset any at_ a) (lower_block unset any at_ b)) BNil
  | SFor l x e a b => expand_for unset (fst l) x e (lower_block unset any at_ a) (lower_block unset any at_ b)
  | SWith l e x a => expand_with unset any (at_ l) e x (lower_block unset any at_ a)
  | SBreak => BCons SBreak BNil
  | SContinue => BCons SContinue BNil
  | SReturn r => BCons (SReturn (r : option (rexp (wlang unset)))) BNil
  | STry l b hs o f =>
      BCons (STry (at_ l) (lower_block unset any at_ b) (lower_handlers unset any at_ hs)
               (lower_block unset any at_ o) (lower_block unset any at_ f)) BNil
  end
with lower_block {L : lang} (unset : Exc L) (any : pattern L) (at_ : loc -> loc) (b : block L)
    : block (wlang unset) :=
  match b with
  | BNil => BNil
  | BCons st b' => bapp (lower unset any at_ st) (lower_block unset any at_ b')
  end
with lower_handlers {L : lang} (unset : Exc L) (any : pattern L) (at_ : loc -> loc) (hs : handlers L)
    : handlers (wlang unset) :=
  match hs with
  | HNil => HNil
  | HCons m x b hs' =>
      HCons (m : pattern (wlang unset)) (x : option (name (wlang unset))) (lower_block unset any at_ b)
        (lower_handlers unset any at_ hs')
  end.

(** The rewriting of the body of a generator. *)
Definition lower_generator {L : lang} (unset : Exc L) (any : pattern L) (b : block L) : block (wlang unset) :=
  lower_block unset any (fun _ => (0, 0)%nat) b.
