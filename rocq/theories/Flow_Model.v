(** How the compiler turns the control flow of a function into native code:
    FunctionConversionContext.convert_statement_ast and convert_statement_list_ast
    (typed_python/compiler/function_conversion_context.py), and what the native code does
    (typed_python/compiler/native_compiler/native_ast_to_llvm_function_converter.py,
    typed_python/_runtime.cpp). *)
From Verif Require Import Base PyStmt.
From Coq Require Import PeanoNat.
Set Implicit Arguments.
Open Scope Z_scope.

(** What the compiler knows about the parts of a program that are not control flow.
    - [falls]: whether a statement can end normally.  It is false for 'raise', and for an
      expression whose conversion found that it always raises
      (function_conversion_context.py:1474-1554, 1947-2000).
    - [known]: the value of a condition that is a constant (1567-1574, 1625-1635).
    - [resets_*]: whether the part calls compiled code that handles an exception in its course,
      which leaves no exception being handled (np_clear_exc_info, _runtime.cpp:1108-1111).
    - [no_active]: "No active exception to reraise" (_runtime.cpp:1072-1081). *)
Record facts (L : lang) := Facts {
  falls : prim L -> bool;
  known : test L -> option bool;
  resets_prim : prim L -> bool;
  resets_test : test L -> bool;
  resets_ret : rexp L -> bool;
  resets_for : oexp L -> bool;
  no_active : Exc L
}.
Arguments Facts {L}. Arguments falls {L}. Arguments known {L}. Arguments resets_prim {L}.
Arguments resets_test {L}. Arguments resets_ret {L}. Arguments resets_for {L}.
Arguments no_active {L}.

(** The names of the places a native 'Return' can go to, besides out of the function:
    "loop_break", "loop_continue", "end_of_try{line}.{col}", "end_of_finally{line}.{col}". *)
Inductive label := LBreak | LContinue | LEndTry (l : loc) | LEndFinally (l : loc).

Definition loc_eqb (a b : loc) : bool := Nat.eqb (fst a) (fst b) && Nat.eqb (snd a) (snd b).
Definition label_eqb (a b : label) : bool :=
  match a, b with
  | LBreak, LBreak | LContinue, LContinue => true
  | LEndTry l, LEndTry l' | LEndFinally l, LEndFinally l' => loc_eqb l l'
  | _, _ => false
  end.

(** function_conversion_context.py:55-68: the values of a '.control_flow{line}.{col}' slot. *)
Definition CF_DEFAULT := 0.
Definition CF_EXCEPTION := 1.
Definition CF_BREAK := 2.
Definition CF_CONTINUE := 3.
Definition CF_RETURN := 4.

(** The native code (native_ast.py), as far as control flow produces it. *)
Inductive native (L : lang) : Type :=
| NSkip
| NSeq (a b : native L)
| NPrim (p : prim L)
| NEval (t : test L)                                (* a constant condition: its effects only *)
| NBranch (t : test L) (a b : native L)
| NWhile (t : test L) (body orelse : native L)
| NSetIter (i : nat) (e : oexp L)                   (* .iter.{line} = iter(e) *)
| NForWhile (i : nat) (e : oexp L) (x : target L) (body orelse : native L)
                                                    (* While whose condition is __fastnext__ and the
                                                       assignment of what it points to *)
| NJump (l : label)                                 (* Return(blockName=l) *)
| NLabel (l : label) (a : native L)                 (* a.withReturnTargetName(l) *)
| NTry (a h : native L)                             (* TryCatch *)
| NUnbindAfter (x : name L) (a : native L)          (* Finally whose teardown destroys x *)
| NSetOcc (b : bool)                                (* .exc_occurred = b *)
| NIfOcc (a b : native L)
| NSetCf (l : loc) (z : Z)
| NIfCf (l : loc) (z : Z) (a : native L)
| NCatch                                            (* catch_exception *)
| NFetch (x : name L)                               (* x = fetch_exception *)
| NClear                                            (* clear_exc_info *)
| NRethrow                                          (* initialize_exception(NULL), clear_exc_info if
                                                       .exc_occurred, Throw *)
| NIfMatch (m : pattern L) (a b : native L)         (* match_exception *)
| NSetRet (r : option (rexp L))                     (* .return_value = r *)
| NReturn (r : option (rexp L))
| NReturnStored                                     (* return .return_value *)
| NUnreachable.
Arguments NSkip {L}. Arguments NSeq {L}. Arguments NPrim {L}. Arguments NEval {L}.
Arguments NBranch {L}. Arguments NWhile {L}. Arguments NSetIter {L}. Arguments NForWhile {L}.
Arguments NJump {L}. Arguments NLabel {L}. Arguments NTry {L}. Arguments NUnbindAfter {L}.
Arguments NSetOcc {L}. Arguments NIfOcc {L}. Arguments NSetCf {L}. Arguments NIfCf {L}.
Arguments NCatch {L}. Arguments NFetch {L}. Arguments NClear {L}. Arguments NRethrow {L}.
Arguments NIfMatch {L}. Arguments NSetRet {L}. Arguments NReturn {L}. Arguments NReturnStored {L}.
Arguments NUnreachable {L}.

(** returnTargets: native_ast.py:491-521.  (Only asked about "loop_break".) *)
Fixpoint targets {L} (l : label) (a : native L) : bool :=
  match a with
  | NSeq a b | NBranch _ a b | NWhile _ a b | NForWhile _ _ _ a b | NTry a b | NIfOcc a b
  | NIfMatch _ a b => targets l a || targets l b
  | NJump l' => label_eqb l l'
  | NLabel l' a => if label_eqb l l' then false else targets l a
  | NUnbindAfter _ a | NIfCf _ _ a => targets l a
  | _ => false
  end.

(** ** What native code does *)

(** The state of the program; the exception that has been raised and not been caught (PyErr);
    the one being handled (exc_info); and the slots of the function. *)
Record nst (L : lang) := NSt {
  n_st : St L;
  n_err : option (Exc L);
  n_info : option (Exc L);
  n_occ : bool;
  n_cf : loc -> Z;
  n_ret : option (option (Ret L));
  n_iter : nat -> option (Obj L)
}.
Arguments NSt {L}. Arguments n_st {L}. Arguments n_err {L}. Arguments n_info {L}.
Arguments n_occ {L}. Arguments n_cf {L}. Arguments n_ret {L}. Arguments n_iter {L}.

Section State.
  Context {L : lang}.
  Implicit Types t : nst L.
  Definition w_st s t := NSt s (n_err t) (n_info t) (n_occ t) (n_cf t) (n_ret t) (n_iter t).
  Definition w_err e t := NSt (n_st t) e (n_info t) (n_occ t) (n_cf t) (n_ret t) (n_iter t).
  Definition w_info e t := NSt (n_st t) (n_err t) e (n_occ t) (n_cf t) (n_ret t) (n_iter t).
  Definition w_occ b t := NSt (n_st t) (n_err t) (n_info t) b (n_cf t) (n_ret t) (n_iter t).
  Definition w_cf (l : loc) (z : Z) t :=
    NSt (n_st t) (n_err t) (n_info t) (n_occ t)
      (fun l' => if loc_eqb l l' then z else n_cf t l') (n_ret t) (n_iter t).
  Definition w_ret r t := NSt (n_st t) (n_err t) (n_info t) (n_occ t) (n_cf t) (Some r) (n_iter t).
  Definition w_iter (i : nat) (o : Obj L) t :=
    NSt (n_st t) (n_err t) (n_info t) (n_occ t) (n_cf t) (n_ret t)
      (fun i' => if Nat.eqb i i' then Some o else n_iter t i').
  (** a part of the program has run: [r], whether it resets the exception being handled *)
  Definition ran (r : bool) (s : St L) t : nst L :=
    w_st s (if r then w_info None t else t).
End State.

(** How native code ends: normally, on its way to a label, out of the function, throwing
    (the exception is in PyErr), or in a place that must not be reached. *)
Inductive nout (L : lang) : Type :=
| NDone
| NJumped (l : label)
| NReturned (r : option (Ret L))
| NThrown
| NUndefined.
Arguments NDone {L}. Arguments NJumped {L}. Arguments NReturned {L}. Arguments NThrown {L}.
Arguments NUndefined {L}.

Definition nres (L : lang) : Type := option (nout L * nst L).   (* None: out of turns *)

Section Run.
  Context {L : lang}.
  Variable F : facts L.

  Definition throw (e : Exc L) (t : nst L) : nres L := Some (NThrown, w_err (Some e) t).
  Definition go (t : nst L) : nres L := Some (NDone, t).

  Definition then_ (r : nres L) (f : nst L -> nres L) : nres L :=
    match r with
    | Some (NDone, t) => f t
    | _ => r
    end.

  (** Expression.While: native_ast_to_llvm_function_converter.py:1148-1188 *)
  Fixpoint nwhile (cond : nst L -> nst L * (bool + Exc L)) (body orelse : nst L -> nres L)
      (fuel : nat) (t : nst L) : nres L :=
    match fuel with
    | O => None
    | S f =>
        match cond t with
        | (t1, inl true) => then_ (body t1) (nwhile cond body orelse f)
        | (t1, inl false) => orelse t1
        | (t1, inr e) => throw e t1
        end
    end.

  Definition ntest (c : test L) (t : nst L) : nst L * (bool + Exc L) :=
    let '(s, r) := do_test L c (n_info t) (n_st t) in (ran (resets_test F c) s t, r).

  (** convert_iteration_expression: function_conversion_context.py:2277-2290.  (An iterator
      variable that is not set is an exception of the compiler; here the state is stuck.) *)
  Definition nnext (i : nat) (e : oexp L) (x : target L) (t : nst L) : nst L * (bool + Exc L) :=
    match n_iter t i with
    | None => (t, inr (no_active F))
    | Some it =>
        match do_next L it (n_st t) with
        | (s1, inr ex) => (ran (resets_for F e) s1 t, inr ex)
        | (s1, inl None) => (ran (resets_for F e) s1 t, inl false)
        | (s1, inl (Some v)) =>
            match do_assign L x v s1 with
            | (s2, None) => (ran (resets_for F e) s2 t, inl true)
            | (s2, Some ex) => (ran (resets_for F e) s2 t, inr ex)
            end
        end
    end.

  Definition nret (r : option (rexp L)) (t : nst L) : nst L * (option (Ret L) + Exc L) :=
    match r with
    | None => (t, inl None)
    | Some r =>
        match do_rexp L r (n_st t) with
        | (s, inl v) => (ran (resets_ret F r) s t, inl (Some v))
        | (s, inr e) => (ran (resets_ret F r) s t, inr e)
        end
    end.

  (** np_catch_exception: _runtime.cpp:1188-1205 *)
  Definition caught (t : nst L) : nst L := w_info (n_err t) (w_err None t).

  (** native_ast_to_llvm_function_converter.py: Return 1002-1058, Branch 1060-1146,
      While 1148-1188, Throw 1406-1422, TryCatch 1424-1476, Finally 1483-1528. *)
  Fixpoint nexec (n : nat) (a : native L) (t : nst L) {struct a} : nres L :=
    match a with
    | NSkip => go t
    | NSeq a b => then_ (nexec n a t) (nexec n b)
    | NPrim p =>
        let '(s, r) := do_prim L p (n_info t) (n_st t) in
        let t1 := ran (resets_prim F p) s t in
        match r with None => go t1 | Some e => throw e t1 end
    | NEval c =>
        match ntest c t with (t1, inl _) => go t1 | (t1, inr e) => throw e t1 end
    | NBranch c a b =>
        match ntest c t with
        | (t1, inl true) => nexec n a t1
        | (t1, inl false) => nexec n b t1
        | (t1, inr e) => throw e t1
        end
    | NWhile c a b => nwhile (ntest c) (nexec n a) (nexec n b) n t
    | NSetIter i e =>
        match do_oexp L e (n_st t) with
        | (s1, inr ex) => throw ex (ran (resets_for F e) s1 t)
        | (s1, inl v) =>
            match do_iter L v s1 with
            | (s2, inr ex) => throw ex (ran (resets_for F e) s2 t)
            | (s2, inl it) => go (w_iter i it (ran (resets_for F e) s2 t))
            end
        end
    | NForWhile i e x a b => nwhile (nnext i e x) (nexec n a) (nexec n b) n t
    | NJump l => Some (NJumped l, t)
    | NLabel l a =>
        match nexec n a t with
        | Some (NJumped l', t1) => if label_eqb l l' then go t1 else Some (NJumped l', t1)
        | r => r
        end
    | NTry a h =>
        match nexec n a t with
        | Some (NThrown, t1) => nexec n h t1
        | r => r
        end
    | NUnbindAfter x a =>
        match nexec n a t with
        | Some (o, t1) => Some (o, w_st (unbind_name L x (n_st t1)) t1)
        | None => None
        end
    | NSetOcc b => go (w_occ b t)
    | NIfOcc a b => if n_occ t then nexec n a t else nexec n b t
    | NSetCf l z => go (w_cf l z t)
    | NIfCf l z a => if n_cf t l =? z then nexec n a t else go t
    | NCatch => go (caught t)
    | NFetch x =>
        match n_err t with
        | Some e => go (w_st (bind_name L x e (n_st t)) (caught t))
        | None => Some (NUndefined, t)
        end
    | NClear => go (w_info None t)
    | NRethrow =>
        match n_info t with
        | None => throw (no_active F) t
        | Some e => throw e (if n_occ t then w_info None t else t)
        end
    | NIfMatch m a b =>
        match n_err t with
        | Some e => if matches L m e then nexec n a t else nexec n b t
        | None => Some (NUndefined, t)
        end
    | NSetRet r =>
        match nret r t with
        | (t1, inl v) => go (w_ret v t1)
        | (t1, inr e) => throw e t1
        end
    | NReturn r =>
        match nret r t with
        | (t1, inl v) => Some (NReturned v, t1)
        | (t1, inr e) => throw e t1
        end
    | NReturnStored =>
        match n_ret t with
        | Some r => Some (NReturned r, t)
        | None => Some (NUndefined, t)
        end
    | NUnreachable => Some (NUndefined, t)
    end.
End Run.

(** ** The conversion *)

(** ControlFlowBlocks: function_conversion_context.py:71-101.  'return_to' and 'try_flow' are
    always set together. *)
Record blocks := Blocks { return_to : option (label * loc); in_loop : bool; in_loop_ever : bool }.
Definition push_try (to : label) (l : loc) (C : blocks) : blocks :=
  Blocks (Some (to, l)) false (in_loop_ever C).
Definition push_loop (C : blocks) : blocks := Blocks (return_to C) true true.
Definition no_blocks : blocks := Blocks None false false.

Section Convert.
  Context {L : lang}.
  Variable F : facts L.

  Definition clear_if_occ : native L := NIfOcc NClear NSkip.

  (** Break and Continue: function_conversion_context.py:2081-2113.  Without a loop around,
      which is not a Python program, an assertion fails. *)
  Definition leave_loop (inner : label) (code : Z) (C : blocks) : native L :=
    if in_loop C then NJump inner
    else match return_to C with
         | None => NUnreachable
         | Some (to, l) => NSeq (NSetCf l code) (NSeq clear_if_occ (NJump to))
         end.

  (** Return: function_conversion_context.py:1513-1554 *)
  Definition conv_return (r : option (rexp L)) (C : blocks) : native L :=
    match return_to C with
    | None => NReturn r
    | Some (to, l) =>
        NSeq (NSetRet r) (NSeq (NSetCf l CF_RETURN) (NSeq clear_if_occ (NJump to)))
    end.

  (** The same for 'return .return_value' (function_conversion_context.py:1828-1844): reading
      the variable and storing it again. *)
  Definition conv_return_stored (C : blocks) : native L :=
    match return_to C with
    | None => NReturnStored
    | Some (to, l) => NSeq (NSetCf l CF_RETURN) (NSeq clear_if_occ (NJump to))
    end.

  (** One 'except' clause: function_conversion_context.py:1731-1789 *)
  Definition conv_handler (m : pattern L) (x : option (name L)) (b rest : native L) : native L :=
    NIfMatch m
      match x with
      | None => NSeq NCatch (NSeq b clear_if_occ)
      | Some y => NSeq (NFetch y) (NSeq (NUnbindAfter y b) clear_if_occ)
      end
      rest.

  (** No clause matched: function_conversion_context.py:1724-1727; also what happens to an
      exception raised in a clause, in the 'else' block and in the 'finally' block. *)
  Definition pending (l : loc) : native L := NSeq NCatch (NSetCf l CF_EXCEPTION).

  (** The whole 'try': function_conversion_context.py:1674-1896.  [has_else]: the 'else' block
      is not empty.  (The clause for CF_RETURN is only made in functions that have a 'return'
      under a 'try'; in others the slot never has that value.) *)
  Definition conv_try (l : loc) (body handlers : native L) (has_else : bool) (orelse final : native L)
      (C : blocks) : native L :=
    NSeq (NLabel (LEndTry l)
      (NSeq (NSetOcc false) (NSeq (NSetCf l CF_DEFAULT)
      (NSeq (NTry body (NSeq (NSetOcc true) (NTry handlers (pending l))))
            (if has_else
             then NIfOcc NSkip (NTry orelse (NSeq (NSetOcc true) (pending l)))
             else NSkip)))))
    (NSeq (NTry (NLabel (LEndFinally l) final) (NSeq (NSetOcc true) (pending l)))
    (NSeq (NIfCf l CF_RETURN (NSeq clear_if_occ (conv_return_stored C)))
    (NSeq (if in_loop_ever C
           then NSeq (NIfCf l CF_BREAK (NSeq clear_if_occ (leave_loop LBreak CF_BREAK C)))
                     (NIfCf l CF_CONTINUE (NSeq clear_if_occ (leave_loop LContinue CF_CONTINUE C)))
           else NSkip)
          (NIfCf l CF_EXCEPTION NRethrow)))).

  Definition is_nil (b : block L) : bool := match b with BNil => true | _ => false end.
End Convert.

(** convert_statement_ast: function_conversion_context.py:1387-2175, and
    convert_statement_list_ast: 2465-2544.  The second component says whether control can come
    out at the end: if not, the statements that follow are left out.  A 'with' is expanded
    before (Lower_Model.v) and a 'yield' belongs to generators: both are sent to nothing and
    excluded by the theorems.  A 'for' is converted as for a type without an 'intiter' of its
    own (2254-2318). *)
Fixpoint conv {L : lang} (F : facts L) (C : blocks) (st : stmt L) : native L * bool :=
  match st with
  | SPrim p => (NPrim p, falls F p)
  | SYield _ | SWith _ _ _ _ => (NSkip, true)
  | SIf t a b =>
      match known F t with
      | Some v =>
          let '(n, r) := if v then conv_block F C a else conv_block F C b in
          (NSeq (NEval t) n, r)
      | None =>
          let '(na, ra) := conv_block F C a in
          let '(nb, rb) := conv_block F C b in
          (NBranch t na nb, ra || rb)
      end
  | SWhile t a b =>
      match known F t with
      | Some false => let '(nb, rb) := conv_block F C b in (NSeq (NEval t) nb, rb)
      | k =>
          let '(na, ra) := conv_block F (push_loop C) a in
          let '(nb, rb) := conv_block F C b in
          let forever := match k with Some true => negb (targets LBreak na) | _ => false end in
          (NLabel LBreak (NWhile t (NLabel LContinue na) nb), (ra || rb) && negb forever)
      end
  | SFor l x e a b =>
      let '(na, ra) := conv_block F (push_loop C) a in
      let '(nb, rb) := conv_block F (push_loop C) b in
      (NSeq (NSetIter (fst l) e)
            (NLabel LBreak (NForWhile (fst l) e x (NLabel LContinue na) nb)), ra || rb)
  | SBreak => (leave_loop LBreak CF_BREAK C, true)
  | SContinue => (leave_loop LContinue CF_CONTINUE C, true)
  | SReturn r => (conv_return r C, false)
  | STry l b hs o f =>
      let inside := push_try (LEndTry l) l C in
      (conv_try l (fst (conv_block F inside b)) (conv_handlers F l inside hs)
         (negb (is_nil o)) (fst (conv_block F inside o))
         (fst (conv_block F (push_try (LEndFinally l) l C) f)) C, true)
  end
with conv_block {L : lang} (F : facts L) (C : blocks) (b : block L) : native L * bool :=
  match b with
  | BNil => (NSkip, true)
  | BCons st b' =>
      let '(n, r) := conv F C st in
      if r then let '(n', r') := conv_block F C b' in (NSeq n n', r') else (n, false)
  end
with conv_handlers {L : lang} (F : facts L) (l : loc) (C : blocks) (hs : handlers L) : native L :=
  match hs with
  | HNil => pending l
  | HCons m x b hs' => conv_handler m x (fst (conv_block F C b)) (conv_handlers F l C hs')
  end.

(** The body of a function: convert_statement_list_ast(toplevel=True), 2530-2544 and
    handleFlowsOffEnd, 2546-2564. *)
Definition conv_function {L : lang} (F : facts L) (body : block L) : native L :=
  let '(n, r) := conv_block F no_blocks body in
  if r then NSeq n (NReturn None) else NSeq n NUnreachable.

(** Calling the function: [info] is the exception the caller is handling. *)
Definition start {L : lang} (s : St L) (info : option (Exc L)) : nst L :=
  NSt s None info false (fun _ => 0) None (fun _ => None).

Inductive answer (L : lang) : Type :=
| Gives (r : option (Ret L))
| Throws (e : Exc L)
| Broken.       (* undefined behaviour *)
Arguments Gives {L}. Arguments Throws {L}. Arguments Broken {L}.

(** What the caller gets, the state, and the exception being handled after the call. *)
Definition call {L : lang} (F : facts L) (n : nat) (body : block L) (s : St L) (info : option (Exc L))
    : option (answer L * St L * option (Exc L)) :=
  match nexec F n (conv_function F body) (start s info) with
  | None => None
  | Some (NReturned r, t) => Some (Gives r, n_st t, n_info t)
  | Some (NThrown, t) =>
      match n_err t with
      | Some e => Some (Throws e, n_st t, n_info t)
      | None => Some (Broken, n_st t, n_info t)
      end
  | Some (_, t) => Some (Broken, n_st t, n_info t)
  end.
