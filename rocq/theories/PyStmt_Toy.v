(** A small concrete language of statements, to show programs on which the
    theorems about statements speak and programs on which the compiled code
    does something else.  Nothing here models code of the repository. *)
From Verif Require Import Base PyStmt.
Open Scope Z_scope.

(** What a toy program has done so far, its variables, and the positions of
    the iterators it has made. *)
Record toyst := Toy { t_log : list Z; t_x : Z; t_name : option Z; t_iters : list (list Z) }.

Definition toy0 : toyst := Toy nil 0 None nil.

Definition logged (z : Z) (s : toyst) : toyst := Toy (t_log s ++ [z]) (t_x s) (t_name s) (t_iters s).
Definition set_x (z : Z) (s : toyst) : toyst := Toy (t_log s) z (t_name s) (t_iters s).

(** Exceptions are numbers; these have a meaning.  [StopIteration(r)] is
    [1000 + r]. *)
Definition no_active : Z := 901.   (* RuntimeError: no active exception to reraise *)
Definition name_error : Z := 902.
Definition type_error : Z := 903.
Definition toy_stop (r : Z) : Z := 1000 + r.
Definition toy_is_stop (e : Z) : bool := 1000 <=? e.

Inductive tprim := Log (z : Z) | Raise (z : Z) | Reraise | Inc | LogName | LogX.
Inductive ttest := Const (b : bool) | Less (z : Z) | IfRaises (z : Z).
Inductive tyexp := YNum (z : Z) | YX | YRaise (z : Z).
Inductive tobj := ONum (z : Z) | OMgr (id : Z) (swallow : bool) | OList (l : list Z) | OIter (i : nat).
Inductive ttarget := VarX | BadTarget.

Definition toy_prim (p : tprim) (cur : option Z) (s : toyst) : toyst * option Z :=
  match p with
  | Log z => (logged z s, None)
  | Raise e => (s, Some e)
  | Reraise => (s, Some (match cur with Some e => e | None => no_active end))
  | Inc => (set_x (t_x s + 1) s, None)
  | LogName => match t_name s with
               | Some e => (logged e s, None)
               | None => (s, Some name_error)
               end
  | LogX => (logged (t_x s) s, None)
  end.

Definition toy_test (t : ttest) (cur : option Z) (s : toyst) : toyst * (bool + Z) :=
  match t with
  | Const b => (s, inl b)
  | Less z => (s, inl (t_x s <? z))
  | IfRaises z => (s, inr z)
  end.

Definition toy_yexp (y : tyexp) (s : toyst) : toyst * (Z + Z) :=
  match y with
  | YNum z => (s, inl z)
  | YX => (s, inl (t_x s))
  | YRaise e => (s, inr e)
  end.

Definition toy_enter (o : tobj) (s : toyst) : toyst * (tobj + Z) :=
  match o with
  | OMgr id _ => (logged (100 + id) s, inl (ONum id))
  | _ => (s, inr type_error)
  end.

(** A manager logs 200 + id, or 300 + id when it is told of an exception. *)
Definition toy_exit (o : tobj) (e : option Z) (s : toyst) : toyst * (bool + Z) :=
  match o with
  | OMgr id swallow =>
      (logged (match e with None => 200 + id | Some _ => 300 + id end) s, inl swallow)
  | _ => (s, inr type_error)
  end.

Definition toy_iter (o : tobj) (s : toyst) : toyst * (tobj + Z) :=
  match o with
  | OList l => (Toy (t_log s) (t_x s) (t_name s) (t_iters s ++ [l]), inl (OIter (length (t_iters s))))
  | OIter i => (s, inl (OIter i))
  | _ => (s, inr type_error)
  end.

Fixpoint set_nth (i : nat) (v : list Z) (l : list (list Z)) : list (list Z) :=
  match l, i with
  | nil, _ => nil
  | _ :: l', O => v :: l'
  | a :: l', S i' => a :: set_nth i' v l'
  end.

Definition toy_next (o : tobj) (s : toyst) : toyst * (option tobj + Z) :=
  match o with
  | OIter i =>
      match nth i (t_iters s) nil with
      | nil => (s, inl None)
      | z :: l => (Toy (t_log s) (t_x s) (t_name s) (set_nth i l (t_iters s)), inl (Some (ONum z)))
      end
  | _ => (s, inr type_error)
  end.

Definition toy_assign (x : ttarget) (o : tobj) (s : toyst) : toyst * option Z :=
  match x, o with
  | VarX, ONum z => (set_x z s, None)
  | VarX, _ => (set_x (-1) s, None)
  | BadTarget, _ => (s, Some type_error)
  end.

(** An 'except' clause names the exceptions it accepts: all, or one. *)
Definition toy_matches (m : option Z) (e : Z) : bool :=
  match m with None => true | Some z => z =? e end.

Definition toy : lang :=
  {| St := toyst; Val := Z; Exc := Z; Ret := Z; Obj := tobj;
     prim := tprim; test := ttest; yexp := tyexp; rexp := Z; oexp := tobj;
     target := ttarget; name := unit; pattern := option Z;
     do_prim := toy_prim; do_test := toy_test; do_yexp := toy_yexp;
     do_rexp := fun r s => (s, inl r);
     do_oexp := fun o s => (s, inl o);
     do_assign := toy_assign; do_enter := toy_enter; do_exit := toy_exit;
     do_iter := toy_iter; do_next := toy_next;
     bind_name := fun _ e s => Toy (t_log s) (t_x s) (Some e) (t_iters s);
     unbind_name := fun _ s => Toy (t_log s) (t_x s) None (t_iters s);
     matches := toy_matches |}.

(** Writing toy programs. *)
Definition P (p : tprim) : stmt toy := SPrim (p : prim toy).
Definition Y (y : tyexp) : stmt toy := SYield (y : yexp toy).
Definition If (t : ttest) (a b : list (stmt toy)) : stmt toy := SIf (t : test toy) (blk a) (blk b).
Definition While (t : ttest) (a b : list (stmt toy)) : stmt toy :=
  SWhile (t : test toy) (blk a) (blk b).
Definition For (l : loc) (x : ttarget) (o : tobj) (a b : list (stmt toy)) : stmt toy :=
  SFor l (x : target toy) (o : oexp toy) (blk a) (blk b).
Definition With (l : loc) (o : tobj) (x : option ttarget) (a : list (stmt toy)) : stmt toy :=
  SWith l (o : oexp toy) (x : option (target toy)) (blk a).
Definition Return (r : option Z) : stmt toy := SReturn (r : option (rexp toy)).
Fixpoint hlist (hs : list (option Z * option unit * list (stmt toy))) : handlers toy :=
  match hs with
  | nil => HNil
  | (m, x, b) :: hs' => HCons (m : pattern toy) (x : option (name toy)) (blk b) (hlist hs')
  end.
Definition Try (l : loc) (b : list (stmt toy)) (hs : list (option Z * option unit * list (stmt toy)))
    (o f : list (stmt toy)) : stmt toy := STry l (blk b) (hlist hs) (blk o) (blk f).
