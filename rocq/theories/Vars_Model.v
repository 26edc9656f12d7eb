(* What the compiler believes about local variables at each point of a function
   (compiler/function_stack_state.py and its use in compiler/function_conversion_context.py
   and compiler/expression_conversion_context.py).

   The compiler walks over the statements of a function and keeps, for each local variable, the
   type it may have and whether it may be uninitialised.  It uses this to leave out the test for
   an unbound variable, to read the slot of a variable at a narrower type than the slot has, and
   to choose between assigning over the old value and initialising a fresh slot.

   Types and values are left open: a type is a T, a value is a V, and [hasb v t] says that v is
   one of the values of t.  Statements that are rewritten into others first (with, augmented
   assignment, integer for loops) are not here, nor are conditions that are constants, closures,
   generators and calls of checkType. *)
From Verif Require Import Base.

Section Vars.
  Variable T : Type.                               (* types: python type objects *)
  Variable V : Type.                               (* values, exceptions among them *)
  Variable hasb : V -> T -> bool.
  Variable teqb : T -> T -> bool.
  Variable mergeT : T -> T -> T.                   (* mergeTypeWrappers, merge_type_wrappers.py:32 *)
  Variable removeT : T -> T -> option T.           (* removeTypeFrom, function_stack_state.py:4-14 *)
  Variable truthy : V -> bool.
  Variable apply : nat -> V -> V -> V + V.         (* an operation gives a value or raises one *)
  Variable op_type : nat -> T -> T -> T.           (* the type the compiler gives to it *)
  Variable unbound : V.                            (* the UnboundLocalError *)
  Variable failed : V.                             (* the AssertionError *)

  (* How a variable is read (expression_conversion_context.py:1411-1462). *)
  Inductive look :=
  | Plain                                          (* as Python reads it *)
  | Fast (t : T)                                   (* no test, at type t *)
  | Checked (t : option T).                        (* tests the flag first *)

  (* How a variable is written (function_conversion_context.py:892-949). *)
  Inductive write :=
  | Free                                           (* as Python writes it *)
  | Over                                           (* convert_assign: destroys the old value *)
  | Fresh                                          (* convert_copy_initialize *)
  | Either.                                        (* tests the flag *)

  Inductive expr :=
  | Const (v : V) (t : T)
  | Read (x : nat) (l : look)
  | Op (o : nat) (a b : expr).

  Inductive test :=
  | CTruth (e : expr)
  | CIs (x : nat) (l : look) (t : T) (neg : bool). (* isinstance(x, t), x is None, and their negations *)

  Inductive stmt :=
  | SPass
  | SSeq (a b : stmt)
  | SAssign (x : nat) (w : write) (e : expr)
  | SExpr (e : expr)
  | SIf (c : test) (a b : stmt)
  | SWhile (c : test) (b o : stmt)
  | SFor (x : nat) (w : write) (vs : list V) (t : T) (b o : stmt)  (* over values of type t *)
  | SBreak
  | SContinue
  | SBreakHere (s : stmt)                          (* break in s ends s *)
  | SContinueHere (s : stmt)                       (* continue in s ends s *)
  | SReturn (w : write) (e : expr)
  | SRaise (e : expr)
  | SAssert (c : test)
  | STry (b : stmt) (h : handlers) (o f : stmt)
  | SDead                                          (* code that was not converted *)
  with handlers :=
  | HNil
  | HCons (t : T) (x : option (nat * write)) (b : stmt) (h : handlers).

  (* A for loop over the items of a tuple whose types are known is unrolled
     (function_conversion_context.py:2183-2211): each item is assigned and the body converted
     again after it, `continue` comes to the end of one body and `break` to the end of all. *)
  Fixpoint unrolled (x : nat) (items : list (V * T)) (b o : stmt) : stmt :=
    match items with
    | [] => o
    | (v, t) :: r => SSeq (SAssign x Free (Const v t)) (SSeq (SContinueHere b) (unrolled x r b o))
    end.
  Definition for_tuple (x : nat) (items : list (V * T)) (b o : stmt) : stmt :=
    SBreakHere (unrolled x items b o).

  (* ------------------------------------------------------------------ running *)

  Definition env := nat -> option V.               (* None: the variable is not bound *)
  Definition upd (e : env) (x : nat) (v : option V) : env :=
    fun y => if Nat.eqb y x then v else e y.

  Definition rv : nat := 0.                        (* the variable .return_value *)

  Inductive out :=
  | Normal (e : env)
  | Broke (e : env)
  | Continued (e : env)
  | Returned (v : V) (e : env)
  | Raised (v : V) (e : env)
  | Bad                                            (* read or destroyed what is not there, or leaked *)
  | Spin.                                          (* more turns than we follow *)

  Inductive got := Got (v : V) | Threw (v : V) | Wrong.

  (* Reading the slot of a variable: recastVariableAsRestrictedType takes the type on trust
     (expression_conversion_context.py:1411-1433). *)
  Definition fetch (l : look) (v : option V) : got :=
    match l, v with
    | Plain, None | Checked _, None => Threw unbound
    | Plain, Some v => Got v
    | Fast _, None => Wrong
    | Fast t, Some v | Checked (Some t), Some v => if hasb v t then Got v else Wrong
    | Checked None, Some v => Got v
    end.

  (* Only what compiled code gets wrong in memory is told apart here: whether the value is of the
     type of the slot is decided when the function is converted. *)
  Definition may_write (w : write) (v : option V) : bool :=
    match w, v with
    | Over, None => false                          (* would destroy what was never built *)
    | Fresh, Some _ => false                       (* would forget the old value *)
    | _, _ => true
    end.

  (* The value of a return is stored in .return_value; that an older value there can be forgotten,
     when a finally raises after a return, is not counted here. *)
  Definition may_return (w : write) (v : option V) : bool :=
    match w, v with
    | Over, None => false
    | _, _ => true
    end.

  Fixpoint eval (e : expr) (m : env) : got :=
    match e with
    | Const v _ => Got v
    | Read x l => fetch l (m x)
    | Op o a b =>
        match eval a m with
        | Got va =>
            match eval b m with
            | Got vb => match apply o va vb with inl v => Got v | inr x => Threw x end
            | r => r
            end
        | r => r
        end
    end.

  Inductive asked := Yes | No | AThrew (v : V) | AWrong.

  Definition ask (c : test) (m : env) : asked :=
    match c with
    | CTruth e =>
        match eval e m with
        | Got v => if truthy v then Yes else No
        | Threw v => AThrew v
        | Wrong => AWrong
        end
    | CIs x l t neg =>
        match fetch l (m x) with
        | Got v => if xorb neg (hasb v t) then Yes else No
        | Threw v => AThrew v
        | Wrong => AWrong
        end
    end.

  Definition env_of (r : out) : option env :=
    match r with
    | Normal e | Broke e | Continued e | Returned _ e | Raised _ e => Some e
    | Bad | Spin => None
    end.
  Definition with_env (r : out) (e : env) : out :=
    match r with
    | Normal _ => Normal e
    | Broke _ => Broke e
    | Continued _ => Continued e
    | Returned v _ => Returned v e
    | Raised v _ => Raised v e
    | Bad => Bad
    | Spin => Spin
    end.

  (* The name of a handler is unbound when the handler ends.  Compiled code destroys the slot
     without asking whether it holds anything (function_conversion_context.py:1761-1774). *)
  Definition forget (x : nat) (w : write) (r : out) : out :=
    match env_of r with
    | None => r
    | Some e =>
        match w, e x with
        | Free, _ | _, Some _ => with_env r (upd e x None)
        | _, None => Bad
        end
    end.

  Fixpoint for_loop (x : nat) (w : write) (body orelse : env -> out) (vs : list V) (m : env) : out :=
    match vs with
    | [] => orelse m
    | v :: r =>
        if may_write w (m x)
        then match body (upd m x (Some v)) with
             | Normal m' | Continued m' => for_loop x w body orelse r m'
             | Broke m' => Normal m'
             | z => z
             end
        else Bad
    end.

  Fixpoint while_loop (c : test) (body orelse : env -> out) (n : nat) (m : env) : out :=
    match ask c m with
    | AThrew v => Raised v m
    | AWrong => Bad
    | No => orelse m
    | Yes =>
        match n with
        | O => Spin
        | S n' =>
            match body m with
            | Normal m' | Continued m' => while_loop c body orelse n' m'
            | Broke m' => Normal m'
            | z => z
            end
        end
    end.

  (* else and except run when the body of a try ended without or with an exception; finally runs
     after that, and what it does takes the place of what was going on if it does not just end. *)
  Definition caught (orelse : env -> out) (handler : V -> env -> out) (r : out) : out :=
    match r with
    | Normal m => orelse m
    | Raised v m => handler v m
    | _ => r
    end.
  Definition at_last (final : env -> out) (r : out) : out :=
    match env_of r with
    | None => r
    | Some m => match final m with Normal m' => with_env r m' | r' => r' end
    end.

  (* Running a statement; with Plain and Free everywhere this is Python.  Each loop is followed
     for at most n turns. *)
  Fixpoint exec (n : nat) (s : stmt) (m : env) : out :=
    match s with
    | SPass => Normal m
    | SSeq a b => match exec n a m with Normal m' => exec n b m' | r => r end
    | SAssign x w e =>
        match eval e m with
        | Got v => if may_write w (m x) then Normal (upd m x (Some v)) else Bad
        | Threw v => Raised v m
        | Wrong => Bad
        end
    | SExpr e =>
        match eval e m with Got _ => Normal m | Threw v => Raised v m | Wrong => Bad end
    | SIf c a b =>
        match ask c m with
        | Yes => exec n a m
        | No => exec n b m
        | AThrew v => Raised v m
        | AWrong => Bad
        end
    | SWhile c b o => while_loop c (exec n b) (exec n o) n m
    | SFor x w vs _ b o => for_loop x w (exec n b) (exec n o) vs m
    | SBreak => Broke m
    | SContinue => Continued m
    | SBreakHere s => match exec n s m with Broke m' => Normal m' | r => r end
    | SContinueHere s => match exec n s m with Continued m' => Normal m' | r => r end
    | SReturn w e =>
        match eval e m with
        | Got v => if may_return w (m rv) then Returned v (upd m rv (Some v)) else Bad
        | Threw v => Raised v m
        | Wrong => Bad
        end
    | SRaise e =>
        match eval e m with Got v | Threw v => Raised v m | Wrong => Bad end
    | SAssert c =>
        match ask c m with
        | Yes => Normal m
        | No => Raised failed m
        | AThrew v => Raised v m
        | AWrong => Bad
        end
    | STry b h o f =>
        at_last (exec n f) (caught (exec n o) (handle n h) (exec n b m))
    | SDead => Bad
    end
  with handle (n : nat) (h : handlers) (v : V) (m : env) : out :=
    match h with
    | HNil => Raised v m
    | HCons t None b h => if hasb v t then exec n b m else handle n h v m
    | HCons t (Some (x, w)) b h =>
        if hasb v t
        then if may_write w (m x) then forget x w (exec n b (upd m x (Some v))) else Bad
        else handle n h v m
    end.

  (* ------------------------------------------------------------------ what is believed *)

  (* FunctionStackState (function_stack_state.py:17-44): for each variable nothing (it is not in
     _types) or its type and whether it is in _maybeUninitialized. *)
  Definition entry := option (T * bool).
  Definition state := list entry.

  Definition get (s : state) (x : nat) : entry := nth x s None.
  Fixpoint put (s : state) (x : nat) (e : entry) : state :=
    match x, s with
    | O, [] => [e]
    | O, _ :: r => e :: r
    | S x', [] => None :: put [] x' e
    | S x', a :: r => a :: put r x' e
    end.

  Definition is_set (e : entry) : bool := match e with Some (_, u) => negb u | None => false end.
  Definition is_absent (e : entry) : bool := match e with None => true | Some _ => false end.

  (* variableAssigned, markVariableStateUnknown, variableUninitialized (50-62). *)
  Definition assigned (s : state) (x : nat) (t : T) : state := put s x (Some (t, false)).
  Definition unknown (s : state) (x : nat) (t : T) : state := put s x (Some (t, true)).
  Definition uninitialized (s : state) (x : nat) : state :=
    match get s x with
    | Some (t, _) => put s x (Some (t, true))
    | None => s
    end.

  (* mergeTypes (merge_type_wrappers.py:14-29) of two types *)
  Definition merge_types (a b : T) : T := if teqb a b then a else mergeT a b.

  (* becomeMerge (function_stack_state.py:83-120) *)
  Definition merge_entry (a b : entry) : entry :=
    match a, b with
    | None, None => None
    | Some (t, _), None | None, Some (t, _) => Some (t, true)
    | Some (t, u), Some (t', u') => Some (merge_types t t', u || u')
    end.
  Fixpoint merge (a b : state) : state :=
    match a, b with
    | [], _ => map (merge_entry None) b
    | _, [] => map (fun e => merge_entry e None) a
    | x :: a', y :: b' => merge_entry x y :: merge a' b'
    end.
  Definition merge_live (ra rb : bool) (a b : state) : state :=
    match ra, rb with
    | true, true => merge a b
    | true, false => a
    | false, true => b
    | false, false => []
    end.

  Definition entry_eqb (a b : entry) : bool :=
    match a, b with
    | None, None => true
    | Some (t, u), Some (t', u') => teqb t t' && Bool.eqb u u'
    | _, _ => false
    end.
  Fixpoint state_eqb (a b : state) : bool :=
    match a, b with
    | [], [] => true
    | x :: a', y :: b' => entry_eqb x y && state_eqb a' b'
    | _, _ => false
    end.

  (* restrictTypeFor (124-136) and restrictByCondition (function_conversion_context.py:985-1033) *)
  Definition restrict_type (s : state) (x : nat) (t : T) (should : bool) : state :=
    match get s x with
    | None => s
    | Some (old, u) =>
        if should then put s x (Some (t, u))
        else match removeT old t with
             | Some t' => put s x (Some (t', u))
             | None => s
             end
    end.
  Definition restrict (s : state) (c : test) (result : bool) : state :=
    match c with
    | CTruth _ => s
    | CIs x _ t neg => restrict_type s x t (xorb neg result)
    end.

  (* ------------------------------------------------------------------ converting *)

  (* The variables a statement assigns by name, as computeAssignedVariables finds them
     (python_ast_analysis.py:85-158): it looks for names that are stored to, and the name of an
     exception handler is not one of these. *)
  Fixpoint stores (s : stmt) : list nat :=
    match s with
    | SPass | SExpr _ | SBreak | SContinue | SReturn _ _ | SRaise _ | SAssert _ | SDead => []
    | SSeq a b | SIf _ a b | SWhile _ a b => stores a ++ stores b
    | SAssign x _ _ => [x]
    | SFor x _ _ _ b o => x :: stores b ++ stores o
    | SBreakHere s | SContinueHere s => stores s
    | STry b h o f => stores b ++ h_stores h ++ stores o ++ stores f
    end
  with h_stores (h : handlers) : list nat :=
    match h with
    | HNil => []
    | HCons _ _ b h => stores b ++ h_stores h
    end.

  (* The types of the slots (_varname_to_type).  They grow while a function is converted and the
     function is converted again until they do not (upsizeVariableType and markTypesAreUnstable,
     function_conversion_context.py:1066-1085); what is converted here is the last round. *)
  Variable slots : nat -> option T.

  Inductive stop := Unstable | NotSource | TooLong.
  Inductive res (A : Type) := Done (a : A) | Stop (w : stop).
  Arguments Done {A}. Arguments Stop {A}.
  Definition then_ {A B} (r : res A) (k : A -> res B) : res B :=
    match r with Done a => k a | Stop w => Stop w end.
  Notation "' p <~ r ; k" := (then_ r (fun p => k)) (at level 200, p pattern, r at level 100, k at level 200).

  Definition fits_slot (x : nat) (t : T) : bool :=
    match slots x with
    | Some ts => teqb (merge_types ts t) ts
    | None => false
    end.

  Definition how_to_read (s : state) (x : nat) : look :=
    match get s x with
    | None => Checked None
    | Some (t, u) => if u then Checked (Some t) else Fast t
    end.
  Definition how_to_write (s : state) (x : nat) : write :=
    if is_set (get s x) then Over else if is_absent (get s x) then Fresh else Either.

  (* namedVariableLookup (expression_conversion_context.py:1429-1462) *)
  Fixpoint conv_expr (s : state) (e : expr) : res (expr * T) :=
    match e with
    | Const v t => if hasb v t then Done (Const v t, t) else Stop NotSource
    | Read x Plain =>
        match slots x with
        | None => Stop Unstable
        | Some ts =>
            Done (Read x (how_to_read s x), match get s x with Some (t, _) => t | None => ts end)
        end
    | Read _ _ => Stop NotSource
    | Op o a b =>
        ' (a', ta) <~ conv_expr s a;
        ' (b', tb) <~ conv_expr s b;
        Done (Op o a' b', op_type o ta tb)
    end.

  Definition conv_test (s : state) (c : test) : res test :=
    match c with
    | CTruth e => ' (e', _) <~ conv_expr s e; Done (CTruth e')
    | CIs x Plain t neg =>
        ' (e', _) <~ conv_expr s (Read x Plain); Done (CIs x (how_to_read s x) t neg)
    | CIs _ _ _ _ => Stop NotSource
    end.

  (* A while loop is converted again until what is believed at its start does not change
     (function_conversion_context.py:1612-1673). *)
  Fixpoint conv_while (k : nat) (c : test) (body orelse : state -> res (stmt * state * bool))
      (s : state) : res (stmt * state * bool) :=
    match k with
    | O => Stop TooLong
    | S k' =>
        ' c' <~ conv_test s c;
        ' (b', sb, rb) <~ body (restrict s c true);
        ' (o', so, ro) <~ orelse (restrict s c false);
        let s' := merge (merge_live rb ro sb so) s in
        if state_eqb s' s then Done (SWhile c' b' o', s', rb || ro)
        else conv_while k' c body orelse s'
    end.

  (* A for loop over an iterator (2258-2315).  The target is assigned in the branch that found an
     item, but what is believed about it is changed before the two branches part. *)
  Fixpoint conv_for (k : nat) (x : nat) (vs : list V) (t : T)
      (body orelse : state -> res (stmt * state * bool)) (s : state) : res (stmt * state * bool) :=
    match k with
    | O => Stop TooLong
    | S k' =>
        if fits_slot x t then
          let w := how_to_write s x in
          let sx := assigned s x t in
          ' (b', sb, rb) <~ body sx;
          ' (o', so, ro) <~ orelse sx;
          let s' := merge (merge_live rb ro sb so) s in
          if state_eqb s' s then Done (SFor x w vs t b' o', s', rb || ro)
          else conv_for k' x vs t body orelse s'
        else Stop Unstable
    end.

  (* What is believed going into the handlers of a try (1688-1703). *)
  Fixpoint unknowns (s : state) (xs : list nat) : state :=
    match xs with
    | [] => s
    | x :: r => match slots x with
                | Some t => unknowns (unknown s x t) r
                | None => unknowns s r
                end
    end.

  (* convert_statement_ast (1449-2160) and convert_statement_list_ast: the converted statement,
     what is believed after it, and whether control can flow on.  [tr] says that we are inside a
     try, where `return` stores its value in a variable and jumps (1534-1551).  Statements after
     one that does not flow on are not converted.  `break` and `continue` say that control flows
     on (2080-2115). *)
  Fixpoint conv (k : nat) (tr : bool) (s : stmt) (st : state) : res (stmt * state * bool) :=
    match s with
    | SPass => Done (SPass, st, true)
    | SSeq a b =>
        ' (a', sa, ra) <~ conv k tr a st;
        if ra : bool then ' (b', sb, rb) <~ conv k tr b sa; Done (SSeq a' b', sb, rb)
        else Done (SSeq a' SDead, sa, false)
    | SAssign x Free e =>
        ' (e', t) <~ conv_expr st e;
        if fits_slot x t then Done (SAssign x (how_to_write st x) e', assigned st x t, true)
        else Stop Unstable
    | SExpr e => ' (e', _) <~ conv_expr st e; Done (SExpr e', st, true)
    | SIf c a b =>
        ' c' <~ conv_test st c;
        ' (a', sa, ra) <~ conv k tr a (restrict st c true);
        ' (b', sb, rb) <~ conv k tr b (restrict st c false);
        Done (SIf c' a' b', merge_live ra rb sa sb, ra || rb)
    | SWhile c b o => conv_while k c (conv k tr b) (conv k tr o) st
    | SFor x Free vs t b o =>
        if forallb (fun v => hasb v t) vs
        then conv_for k x vs t (conv k tr b) (conv k tr o) st
        else Stop NotSource
    | SBreak => Done (SBreak, st, true)
    | SContinue => Done (SContinue, st, true)
    | SBreakHere a => ' (a', sa, ra) <~ conv k tr a st; Done (SBreakHere a', sa, ra)
    | SContinueHere a => ' (a', sa, ra) <~ conv k tr a st; Done (SContinueHere a', sa, ra)
    | SReturn Free e =>
        ' (e', t) <~ conv_expr st e;
        match slots rv with
        | None => Stop Unstable
        | Some ts =>
            if fits_slot rv t
            then if tr then Done (SReturn (how_to_write st rv) e', assigned st rv ts, false)
                 else Done (SReturn Free e', st, false)
            else Stop Unstable
        end
    | SRaise e => ' (e', _) <~ conv_expr st e; Done (SRaise e', st, false)
    | SAssert c => ' c' <~ conv_test st c; Done (SAssert c', restrict st c true, true)
    | STry b h o f =>
        let sh := unknowns st (stores b) in
        ' (b', sb, rb) <~ conv k true b st;
        ' (h', sm) <~ conv_handlers k h sh sb;
        ' (o', so, ro) <~ conv k true o sm;
        ' (f', sf, rf) <~ conv k true f so;
        Done (STry b' h' o' f', sf, true)
    | SAssign _ _ _ | SFor _ _ _ _ _ _ | SReturn _ _ | SDead => Stop NotSource
    end
  (* The handlers, last one first; each one that flows on is merged into what is believed after
     the try (1724-1799).  [sh] is what is believed going into each handler, [sb] what is believed
     after the body. *)
  with conv_handlers (k : nat) (h : handlers) (sh sb : state) : res (handlers * state) :=
    match h with
    | HNil => Done (HNil, sb)
    | HCons t x b h =>
        ' (h', sm) <~ conv_handlers k h sh sb;
        match x with
        | None =>
            ' (b', s', r) <~ conv k true b sh;
            Done (HCons t None b' h', if r : bool then merge sm s' else sm)
        | Some (x, Free) =>
            if fits_slot x t then
              ' (b', s', r) <~ conv k true b (assigned sh x t);
              Done (HCons t (Some (x, how_to_write sh x)) b' h',
                    if r : bool then merge sm (uninitialized s' x) else sm)
            else Stop Unstable
        | Some _ => Stop NotSource
        end
    end.
End Vars.

Arguments Plain {T}. Arguments Fast {T}. Arguments Checked {T}.
Arguments Const {T V}. Arguments Read {T V}. Arguments Op {T V}.
Arguments CTruth {T V}. Arguments CIs {T V}.
Arguments SPass {T V}. Arguments SSeq {T V}. Arguments SAssign {T V}. Arguments SExpr {T V}.
Arguments SIf {T V}. Arguments SWhile {T V}. Arguments SFor {T V}. Arguments SBreak {T V}.
Arguments SContinue {T V}. Arguments SBreakHere {T V}. Arguments SContinueHere {T V}.
Arguments SReturn {T V}. Arguments SRaise {T V}. Arguments SAssert {T V}. Arguments STry {T V}.
Arguments SDead {T V}. Arguments HNil {T V}. Arguments HCons {T V}.
Arguments unrolled {T V}. Arguments for_tuple {T V}.
Arguments upd {V}. Arguments Normal {V}. Arguments Broke {V}. Arguments Continued {V}.
Arguments Returned {V}. Arguments Raised {V}. Arguments Bad {V}. Arguments Spin {V}.
Arguments Got {V}. Arguments Threw {V}. Arguments Wrong {V}.
Arguments Yes {V}. Arguments No {V}. Arguments AThrew {V}. Arguments AWrong {V}.
Arguments env_of {V}. Arguments with_env {V}. Arguments forget {V}. Arguments may_write {V}.
Arguments may_return {V}. Arguments caught {V}. Arguments at_last {V}. Arguments for_loop {V}.
Arguments get {T}. Arguments put {T}. Arguments is_set {T}. Arguments is_absent {T}.
Arguments assigned {T}. Arguments unknown {T}. Arguments uninitialized {T}.
Arguments how_to_read {T}. Arguments how_to_write {T}. Arguments merge_live {T}.
Arguments stores {T V}. Arguments h_stores {T V}.
Arguments Done {A}. Arguments Stop {A}. Arguments then_ {A B}.
