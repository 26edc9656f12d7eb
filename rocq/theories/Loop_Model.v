(** For loops in compiled functions, when the compiler counts
    (typed_python/compiler/for_loop_codegen.py:218-260,
    typed_python/compiler/function_conversion_context.py:2177-2330,
    typed_python/compiler/type_wrappers/range_wrapper.py). *)
From Verif Require Import Base PyLoop.
From Verif Require Arith_Model.
Set Implicit Arguments.
Open Scope Z_scope.
Open Scope list_scope.
Open Scope result_scope.

(** ** Ranges *)
Notation iadd := (Arith_Model.compiled Arith_Model.Add Arith_Model.I64).
Notation isub := (Arith_Model.compiled Arith_Model.Sub Arith_Model.I64).
Notation imul := (Arith_Model.compiled Arith_Model.Mul Arith_Model.I64).
Notation ifloordiv := (Arith_Model.compiled Arith_Model.FloorDiv Arith_Model.I64).

(** [RangeCls.__typed_python_int_iter_size__], range_wrapper.py:52-59: int64 arithmetic; [-x] is [0 - x] *)
Definition range_size (start stop step : Z) : result Z :=
  if step =? 1 then isub stop start
  else if 0 <? step then
    d <- isub stop start ;; d <- isub d 1 ;; q <- ifloordiv d step ;; iadd q 1
  else
    d <- isub start stop ;; d <- isub d 1 ;; m <- isub 0 step ;; q <- ifloordiv d m ;; iadd q 1.

(** [RangeCls.__typed_python_int_iter_value__], range_wrapper.py:61-62 *)
Definition range_value (start step x : Z) : result Z := p <- imul step x ;; iadd start p.

(** [RangeCls.__iter__], range_wrapper.py:49-50: the iterator begins one step before the first number *)
Definition range_iter (start step : Z) : result Z := isub start step.

(** [RangeIterator.__fastnext__], range_wrapper.py:72-87: the number the iterator now holds, and the number
    given out, or the null pointer at the end *)
Definition range_next (stop step cur : Z) : result (Z * option Z) :=
  cur <- iadd cur step ;;
  Ok (cur, if 0 <? step then if cur <? stop then Some cur else None
           else if stop <? cur then Some cur else None).

(** The first [n] answers of an iterator over a range: each call moves it. *)
Fixpoint range_nexts (stop step cur : Z) (n : nat) : result (list (option Z)) :=
  match n with
  | O => Ok nil
  | S n => r <- range_next stop step cur ;; l <- range_nexts stop step (fst r) n ;; Ok (snd r :: l)
  end.
Definition range_iterated (start stop step : Z) (n : nat) : result (list (option Z)) :=
  c <- range_iter start step ;; range_nexts stop step c n.

(** ** Counting loops *)

(** A function's variables: those of the program, and those the compiler adds, which it names after a line
    number: the variable holding the iterable, function_conversion_context.py:2224 (".iterate_over." and the
    line of the [for]; the suffix for a OneOf is not modelled), and the count, the limit and the flag for
    [else], for_loop_codegen.py:220-222 (".for." and the line of the target). *)
Record mem (St A : Type) := Mem {
  user : St;
  iterate_over : N -> option (iterable St A);
  iterator_value : N -> Z;
  iterator_max : N -> Z;
  trigger_else : N -> bool
}.

Definition upd {B} (f : N -> B) (k : N) (v : B) : N -> B := fun x => if N.eqb x k then v else f x.

Section Compiled.
  Context {St A R : Type} (of_int : Z -> A).

  Definition set_user (s : St) (m : mem St A) : mem St A :=
    Mem s (iterate_over m) (iterator_value m) (iterator_max m) (trigger_else m).
  Definition set_over (k : N) (it : iterable St A) (m : mem St A) : mem St A :=
    Mem (user m) (upd (iterate_over m) k (Some it)) (iterator_value m) (iterator_max m) (trigger_else m).
  Definition set_value (k : N) (v : Z) (m : mem St A) : mem St A :=
    Mem (user m) (iterate_over m) (upd (iterator_value m) k v) (iterator_max m) (trigger_else m).
  Definition set_max (k : N) (v : Z) (m : mem St A) : mem St A :=
    Mem (user m) (iterate_over m) (iterator_value m) (upd (iterator_max m) k v) (trigger_else m).
  Definition set_trigger (k : N) (b : bool) (m : mem St A) : mem St A :=
    Mem (user m) (iterate_over m) (iterator_value m) (iterator_max m) (upd (trigger_else m) k b).

  (** The method [__typed_python_int_iter_size__]: of lists and tuples, tuple_of_wrapper.py:433-437; of text,
      string_wrapper.py:647-656 and bytes_wrapper.py:1287-1296; of ranges; of iterators of lists,
      tuple_of_wrapper.py:792-793, which does not look at the position. *)
  Definition int_iter_size (it : iterable St A) (s : St) : result Z :=
    match it with
    | Seq items => Ok (Z.of_nat (length (items s)))
    | Range start stop step => range_size start stop step
    | Iterator items _ => Ok (Z.of_nat (length (items s)))
    end.

  (** The method [__typed_python_int_iter_value__]: [convert_getitem_unsafe], tuple_of_wrapper.py:439-443, does
      not compare the index with the length, and no more does tuple_of_wrapper.py:795-796. *)
  Definition int_iter_value (it : iterable St A) (i : Z) (s : St) : result A :=
    match it with
    | Seq items | Iterator items _ =>
        if i <? 0 then Err UndefinedBehaviour
        else match nth_error (items s) (Z.to_nat i) with Some a => Ok a | None => Err UndefinedBehaviour end
    | Range start _ step => x <- range_value start step i ;; Ok (of_int x)
    end.

  (** The [While] of [rewriteIntiterForLoop], for_loop_codegen.py:234-247.  (The count is at most the limit, an
      int64, so that adding one to it does not wrap.) *)
  Fixpoint compiled_turns (l : loop St A) (body : mem St A -> run (mem St A) R) (fuel : nat) (m : mem St A)
      : run (mem St A) R :=
    match fuel with
    | O => Forever
    | S f =>
        if iterator_value m (target_line l) <? iterator_max m (target_line l) then
          match iterate_over m (for_line l) with
          | None => Undefined
          | Some it =>
              match int_iter_value it (iterator_value m (target_line l)) (user m) with
              | Err UndefinedBehaviour => Undefined
              | Err e => Ends m (Raise e)
              | Ok a =>
                  match assign l a (user m) with
                  | (s, Some e) => Ends (set_user s m) (Raise e)
                  | (s, None) =>
                      let m := set_user s m in
                      match body (set_value (target_line l) (iterator_value m (target_line l) + 1) m) with
                      | Ends m Normal | Ends m Continue => compiled_turns l body f m
                      | Ends m Break => Ends m Normal
                      | r => r
                      end
                  end
              end
          end
        else Ends m Normal
    end.

  (** The [If] after the loop, for_loop_codegen.py:249-253 *)
  Definition compiled_else (l : loop St A) (orelse : option (mem St A -> run (mem St A) R)) (r : run (mem St A) R)
      : run (mem St A) R :=
    match r, orelse with
    | Ends m Normal, Some p => if trigger_else m (target_line l) then p m else Ends m Normal
    | r, _ => r
    end.

  (** [convert_iteration_expression] for a type that counts, function_conversion_context.py:2217-2234, with
      [rewriteIntiterForLoop].  Making a range checks nothing, range_wrapper.py:28-35.  [if], sequences,
      [break], [continue] and [return] are Python's here: Flow_Model.v is about them. *)
  Fixpoint compiled_run (fuel : nat) (p : prog St A R) (m : mem St A) : run (mem St A) R :=
    match p with
    | Act f => match f (user m) with
               | (s, Some e) => Ends (set_user s m) (Raise e)
               | (s, None) => Ends (set_user s m) Normal
               end
    | Cond t a b =>
        match t (user m) with
        | (s, inl true) => compiled_run fuel a (set_user s m)
        | (s, inl false) => compiled_run fuel b (set_user s m)
        | (s, inr e) => Ends (set_user s m) (Raise e)
        end
    | Then a b => match compiled_run fuel a m with Ends m1 Normal => compiled_run fuel b m1 | r => r end
    | Skip => Ends m Normal
    | Brk => Ends m Break
    | Cont => Ends m Continue
    | Ret f => match f (user m) with
               | (s, inl r) => Ends (set_user s m) (Return r)
               | (s, inr e) => Ends (set_user s m) (Raise e)
               end
    | For l body orelse =>
        match over_expr l (user m) with
        | (s, inr e) => Ends (set_user s m) (Raise e)
        | (s, inl it) =>
            let m := set_over (for_line l) it (set_user s m) in
            match int_iter_size it (user m) with
            | Err e => Ends m (Raise e)
            | Ok n =>
                let m := set_trigger (target_line l) false (set_value (target_line l) 0
                           (set_max (target_line l) n m)) in
                compiled_else l (match orelse with Some p => Some (compiled_run fuel p) | None => None end)
                  (compiled_turns l (compiled_run fuel body) fuel m)
            end
        end
    end.

  (** A function begins with none of the added variables set. *)
  Definition fresh (s : St) : mem St A := Mem s (fun _ => None) (fun _ => 0) (fun _ => 0) (fun _ => false).

  (** What the program sees of a run. *)
  Definition seen (r : run (mem St A) R) : run St R :=
    match r with
    | Ends m o => Ends (user m) o
    | Forever => Forever
    | Undefined => Undefined
    end.

  Definition compiled_program (fuel : nat) (p : prog St A R) (s : St) : run St R :=
    seen (compiled_run fuel p (fresh s)).

  (** ** Loops over tuples of known length *)

  (** The first branch of [convert_iteration_expression], function_conversion_context.py:2186-2215.  The body is
      converted once for each element, with the types of that element, and the conversion says whether it thinks
      that control comes to the end of the body ([returns]).  When it says no, the other elements and the [else]
      are not converted.  [continue] leads to the end of the converted body, [break] to the end of the converted
      loop, 2197 and 2203 and 2213; the [else] is inside of the part that [break] leaves. *)

  (** What the conversion says about the whole loop, 2201-2205 and 2215.  When it says no, nothing that follows
      the loop is converted, and running into the end of the code is undefined. *)
  Definition loop_returns (returns : A -> bool) (else_returns : bool) (l : list A) : bool :=
    forallb returns l && else_returns.

  Fixpoint unrolled_turns (asg : A -> St -> St * option exn) (body : A -> St -> run St R) (returns : A -> bool)
      (orelse : St -> run St R) (l : list A) (s : St) : run St R :=
    match l with
    | nil => orelse s
    | a :: l' =>
        match asg a s with
        | (s1, Some e) => Ends s1 (Raise e)
        | (s1, None) =>
            match body a s1 with
            | Ends s2 Normal | Ends s2 Continue =>
                if returns a then unrolled_turns asg body returns orelse l' s2 else Ends s2 Normal
            | r => r
            end
        end
    end.

  Definition unrolled (asg : A -> St -> St * option exn) (body : A -> St -> run St R) (returns : A -> bool)
      (orelse : St -> run St R) (else_returns : bool) (l : list A) (s : St) : run St R :=
    match unrolled_turns asg body returns orelse l s with
    | Ends s1 Normal | Ends s1 Break => if loop_returns returns else_returns l then Ends s1 Normal else Undefined
    | r => r
    end.
End Compiled.
