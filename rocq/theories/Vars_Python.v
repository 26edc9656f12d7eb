(* What statements mean in Python, as rules.  Nothing here speaks of types that are believed or of
   slots: a variable is bound or it is not. *)
From Verif Require Import Base Vars_Model.

Section Python.
  Context {T V : Type}.
  Variable hasb : V -> T -> bool.
  Variable truthy : V -> bool.
  Variable apply : nat -> V -> V -> V + V.
  Variable unbound failed : V.
  Notation stmt := (stmt T V).
  Notation handlers := (handlers T V).
  Notation env := (env V).
  Notation out := (out V).

  (* inl: the value of the expression; inr: what it raises *)
  Inductive py_eval : expr T V -> env -> V + V -> Prop :=
  | E_const : forall v t m, py_eval (Const v t) m (inl v)
  | E_read : forall x m v, m x = Some v -> py_eval (Read x Plain) m (inl v)
  | E_unbound : forall x m, m x = None -> py_eval (Read x Plain) m (inr unbound)
  | E_op : forall o a b m va vb, py_eval a m (inl va) -> py_eval b m (inl vb) ->
      py_eval (Op o a b) m (apply o va vb)
  | E_left : forall o a b m x, py_eval a m (inr x) -> py_eval (Op o a b) m (inr x)
  | E_right : forall o a b m va x, py_eval a m (inl va) -> py_eval b m (inr x) ->
      py_eval (Op o a b) m (inr x).

  Inductive py_ask : test T V -> env -> bool + V -> Prop :=
  | A_truth : forall e m v, py_eval e m (inl v) -> py_ask (CTruth e) m (inl (truthy v))
  | A_raise : forall e m x, py_eval e m (inr x) -> py_ask (CTruth e) m (inr x)
  | A_is : forall x t m v, m x = Some v -> py_ask (CIs x Plain t false) m (inl (hasb v t))
  | A_is_not : forall x t m v, m x = Some v -> py_ask (CIs x Plain t true) m (inl (negb (hasb v t)))
  | A_unbound : forall x t neg m, m x = None -> py_ask (CIs x Plain t neg) m (inr unbound).

  Inductive py : stmt -> env -> out -> Prop :=
  | P_pass : forall m, py SPass m (Normal m)
  | P_seq : forall a b m m' r, py a m (Normal m') -> py b m' r -> py (SSeq a b) m r
  | P_seq_leave : forall a b m r, py a m r -> (forall m', r <> Normal m') -> py (SSeq a b) m r
  | P_assign : forall x e m v, py_eval e m (inl v) -> py (SAssign x Free e) m (Normal (upd m x (Some v)))
  | P_assign_raise : forall x e m z, py_eval e m (inr z) -> py (SAssign x Free e) m (Raised z m)
  | P_expr : forall e m v, py_eval e m (inl v) -> py (SExpr e) m (Normal m)
  | P_expr_raise : forall e m z, py_eval e m (inr z) -> py (SExpr e) m (Raised z m)
  | P_then : forall c a b m r, py_ask c m (inl true) -> py a m r -> py (SIf c a b) m r
  | P_else : forall c a b m r, py_ask c m (inl false) -> py b m r -> py (SIf c a b) m r
  | P_if_raise : forall c a b m z, py_ask c m (inr z) -> py (SIf c a b) m (Raised z m)
  | P_while_end : forall c b o m r, py_ask c m (inl false) -> py o m r -> py (SWhile c b o) m r
  | P_while_next : forall c b o m m' r, py_ask c m (inl true) -> py b m (Normal m') ->
      py (SWhile c b o) m' r -> py (SWhile c b o) m r
  | P_while_continue : forall c b o m m' r, py_ask c m (inl true) -> py b m (Continued m') ->
      py (SWhile c b o) m' r -> py (SWhile c b o) m r
  | P_while_break : forall c b o m m', py_ask c m (inl true) -> py b m (Broke m') ->
      py (SWhile c b o) m (Normal m')
  | P_while_return : forall c b o m v m', py_ask c m (inl true) -> py b m (Returned v m') ->
      py (SWhile c b o) m (Returned v m')
  | P_while_raise : forall c b o m v m', py_ask c m (inl true) -> py b m (Raised v m') ->
      py (SWhile c b o) m (Raised v m')
  | P_while_ask : forall c b o m z, py_ask c m (inr z) -> py (SWhile c b o) m (Raised z m)
  | P_for_end : forall x t b o m r, py o m r -> py (SFor x Free [] t b o) m r
  | P_for_next : forall x v vs t b o m m' r, py b (upd m x (Some v)) (Normal m') ->
      py (SFor x Free vs t b o) m' r -> py (SFor x Free (v :: vs) t b o) m r
  | P_for_continue : forall x v vs t b o m m' r, py b (upd m x (Some v)) (Continued m') ->
      py (SFor x Free vs t b o) m' r -> py (SFor x Free (v :: vs) t b o) m r
  | P_for_break : forall x v vs t b o m m', py b (upd m x (Some v)) (Broke m') ->
      py (SFor x Free (v :: vs) t b o) m (Normal m')
  | P_for_return : forall x v vs t b o m z m', py b (upd m x (Some v)) (Returned z m') ->
      py (SFor x Free (v :: vs) t b o) m (Returned z m')
  | P_for_raise : forall x v vs t b o m z m', py b (upd m x (Some v)) (Raised z m') ->
      py (SFor x Free (v :: vs) t b o) m (Raised z m')
  | P_break : forall m, py SBreak m (Broke m)
  | P_continue : forall m, py SContinue m (Continued m)
  | P_here_break : forall a m m', py a m (Broke m') -> py (SBreakHere a) m (Normal m')
  | P_here_other : forall a m r, py a m r -> (forall m', r <> Broke m') -> py (SBreakHere a) m r
  | P_here_continue : forall a m m', py a m (Continued m') -> py (SContinueHere a) m (Normal m')
  | P_here_other' : forall a m r, py a m r -> (forall m', r <> Continued m') -> py (SContinueHere a) m r
  | P_return : forall e m v, py_eval e m (inl v) -> py (SReturn Free e) m (Returned v (upd m rv (Some v)))
  | P_return_raise : forall e m z, py_eval e m (inr z) -> py (SReturn Free e) m (Raised z m)
  | P_raise : forall e m v, py_eval e m (inl v) -> py (SRaise e) m (Raised v m)
  | P_raise_raise : forall e m z, py_eval e m (inr z) -> py (SRaise e) m (Raised z m)
  | P_assert : forall c m, py_ask c m (inl true) -> py (SAssert c) m (Normal m)
  | P_assert_fail : forall c m, py_ask c m (inl false) -> py (SAssert c) m (Raised failed m)
  | P_assert_raise : forall c m z, py_ask c m (inr z) -> py (SAssert c) m (Raised z m)
  | P_try : forall b h o f m r1 r2 r, py b m r1 -> py_caught h o r1 r2 -> py_final f r2 r ->
      py (STry b h o f) m r
  (* the handlers of a try, or its else, after its body *)
  with py_caught : handlers -> stmt -> out -> out -> Prop :=
  | C_else : forall h o m r, py o m r -> py_caught h o (Normal m) r
  | C_except : forall h o v m r, py_handle h v m r -> py_caught h o (Raised v m) r
  | C_break : forall h o m, py_caught h o (Broke m) (Broke m)
  | C_continue : forall h o m, py_caught h o (Continued m) (Continued m)
  | C_return : forall h o v m, py_caught h o (Returned v m) (Returned v m)
  (* its finally: if it just ends, what was going on goes on *)
  with py_final : stmt -> out -> out -> Prop :=
  | F_normal : forall f m m', py f m (Normal m') -> py_final f (Normal m) (Normal m')
  | F_break : forall f m m', py f m (Normal m') -> py_final f (Broke m) (Broke m')
  | F_continue : forall f m m', py f m (Normal m') -> py_final f (Continued m) (Continued m')
  | F_return : forall f v m m', py f m (Normal m') -> py_final f (Returned v m) (Returned v m')
  | F_raise : forall f v m m', py f m (Normal m') -> py_final f (Raised v m) (Raised v m')
  | F_leave : forall f r1 m r, env_of r1 = Some m -> py f m r -> (forall m', r <> Normal m') ->
      py_final f r1 r
  (* the first handler that takes the exception; its name is unbound when it ends *)
  with py_handle : handlers -> V -> env -> out -> Prop :=
  | H_none : forall v m, py_handle HNil v m (Raised v m)
  | H_take : forall t b h v m r, hasb v t = true -> py b m r -> py_handle (HCons t None b h) v m r
  | H_named : forall t x b h v m r m', hasb v t = true -> py b (upd m x (Some v)) r ->
      env_of r = Some m' -> py_handle (HCons t (Some (x, Free)) b h) v m (with_env r (upd m' x None))
  | H_pass : forall t x b h v m r, hasb v t = false -> py_handle h v m r ->
      py_handle (HCons t x b h) v m r.

  (* Programs as they are written: nothing has been decided about variables yet. *)
  Fixpoint plain_expr (e : expr T V) : bool :=
    match e with
    | Const _ _ => true
    | Read _ Plain => true
    | Read _ _ => false
    | Op _ a b => plain_expr a && plain_expr b
    end.
  Definition plain_test (c : test T V) : bool :=
    match c with
    | CTruth e => plain_expr e
    | CIs _ Plain _ _ => true
    | CIs _ _ _ _ => false
    end.
  Definition free (w : write) : bool := match w with Free => true | _ => false end.
  Fixpoint source (s : stmt) : bool :=
    match s with
    | SPass | SBreak | SContinue => true
    | SDead => false
    | SSeq a b => source a && source b
    | SAssign _ w e | SReturn w e => free w && plain_expr e
    | SExpr e | SRaise e => plain_expr e
    | SIf c a b | SWhile c a b => plain_test c && source a && source b
    | SFor _ w _ _ b o => free w && source b && source o
    | SBreakHere a | SContinueHere a => source a
    | SAssert c => plain_test c
    | STry b h o f => source b && h_source h && source o && source f
    end
  with h_source (h : handlers) : bool :=
    match h with
    | HNil => true
    | HCons _ None b h => source b && h_source h
    | HCons _ (Some (_, w)) b h => free w && source b && h_source h
    end.
End Python.
