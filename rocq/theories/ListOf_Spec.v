(** What a Python list does, stated on sequences; and which layouts stand for which sequence. *)
From Verif Require Import Base PyList ListOf_Model.
Open Scope Z_scope.

Section Spec.
  Context {V : Type}.
  Variable default : V.

  Definition zlength (xs : list V) : Z := Z.of_nat (length xs).

  (** ** Python's slices, from the library reference ("Common Sequence Operations")

      "The slice of s from i to j with step k is the sequence of items with index x = i + n*k such that
      0 <= n < (j-i)/k": the indices i, i+k, i+2k, ..., stopping when j is reached.  A negative i or j counts
      from the end; bounds outside the sequence are reduced to its ends; omitted ones are the ends. *)
  Definition bound (len lowest highest omitted : Z) (i : option Z) : Z :=
    match i with
    | None => omitted
    | Some i => let i := if i <? 0 then i + len else i in Z.max lowest (Z.min highest i)
    end.
  Definition positions (len : Z) : list Z := map Z.of_nat (seq 0 (Z.to_nat len)).
  Definition slice_positions (len : Z) (start stop : option Z) (k : Z) : list Z :=
    if 0 <? k then
      let i := bound len 0 len 0 start in
      let j := bound len 0 len len stop in
      filter (fun x => (i <=? x) && (x <? j) && ((x - i) mod k =? 0)) (positions len)
    else
      let i := bound len (-1) (len - 1) (len - 1) start in
      let j := bound len (-1) (len - 1) (-1) stop in
      filter (fun x => (j <? x) && (x <=? i) && ((i - x) mod (- k) =? 0)) (rev (positions len)).
  Definition items_at (xs : list V) (ps : list Z) : list V :=
    flat_map (fun x => match nth_error xs (Z.to_nat x) with Some v => [v] | None => [] end) ps.

  (** ** The operations *)

  Inductive answer :=
  | ANothing
  | ANumber (n : Z)
  | AItem (v : V)
  | AList (xs : list V)
  | ARaised (e : exn)
  | AAtLeast (n : Z).       (* any number that is not below this one *)

  Definition remove_nth (n : nat) (xs : list V) : list V := firstn n xs ++ skipn (S n) xs.

  Definition python_step (xs : list V) (o : op) : list V * answer :=
    match o with
    | Append (Value v) => (xs ++ [v], ANothing)
    | Append (Own i) => (xs ++ [nth (Z.to_nat i) xs default], ANothing)
    | ExtendTyped vs | ExtendIterable vs => (xs ++ vs, ANothing)
    | ExtendSelf => (xs ++ xs, ANothing)
    | Pop i =>
        match py_index (zlength xs) (match i with Some i => i | None => -1 end) with
        | Ok n => (remove_nth n xs, AItem (nth n xs default))
        | Err e => (xs, ARaised e)
        end
    | Get i => match py_get xs i with Ok v => (xs, AItem v) | Err e => (xs, ARaised e) end
    | Set_ i v => match py_set xs i v with Ok xs' => (xs', ANothing) | Err e => (xs, ARaised e) end
    | Slice start stop step =>
        match match step with None => 1 | Some k => k end with
        | 0 => (xs, ARaised ValueError)
        | k => (xs, AList (items_at xs (slice_positions (zlength xs) start stop k)))
        end
    | Resize n v =>
        let v := match v with Some v => v | None => default end in
        (firstn (Z.to_nat n) xs ++ repeat v (Z.to_nat n - length xs), ANothing)
    | Reserve _ => (xs, ANothing)
    | Clear => ([], ANothing)
    | Copy => (xs, AList xs)
    | AddTyped vs => (xs, AList (xs ++ vs))
    | Len => (xs, ANumber (zlength xs))
    | Reserved => (xs, AAtLeast (zlength xs))
    end.
  Fixpoint python_run (xs : list V) (h : list (mode * op)) : list V * list answer :=
    match h with
    | [] => (xs, [])
    | (_, o) :: h =>
        let '(xs, a) := python_step xs o in
        let '(xs, rs) := python_run xs h in (xs, a :: rs)
    end.

  (** ** Layouts

      A layout stands for a sequence when its first cells hold it and all the memory it claims is there. *)
  Definition represents (l : lst) (xs : list V) : Prop :=
    count l = zlength xs /\ firstn (length xs) (cells l) = map Some xs /\
    reserved l = capacity (cells l) /\ zlength xs <= reserved l < 2 ^ 31.

  Definition answers (r : reply) (a : answer) : Prop :=
    match r, a with
    | Nothing, ANothing => True
    | Number n, ANumber m => n = m
    | Number n, AAtLeast m => m <= n
    | Item v, AItem v' => v = v'
    | NewList l, AList xs => represents l xs
    | Raised e, ARaised e' => e = e'
    | _, _ => False
    end.

  (** ** Which operations the claim is about

      At most 1717986917 elements: with more, the next larger block would have 2^31 places. *)
  Definition most : Z := 1717986917.
  Definition int64 (i : Z) : Prop := - 2 ^ 63 <= i < 2 ^ 63.
  Definition opt (P : Z -> Prop) (i : option Z) : Prop := match i with None => True | Some i => P i end.
  Definition moderate (i : Z) : Prop := - 2 ^ 61 <= i <= 2 ^ 61.
  Definition admissible (by_ref : bool) (m : mode) (xs : list V) (o : op) : Prop :=
    match o with
    | Append x =>
        zlength xs < most /\
        match x with
        | Value _ => True
        | Own i => 0 <= i < zlength xs /\ (m = Interpreted \/ by_ref = false)
        end
    | ExtendTyped vs | ExtendIterable vs | AddTyped vs => zlength xs + zlength vs <= most
    | ExtendSelf => 2 * zlength xs <= most /\ (m = Interpreted \/ by_ref = false)
    | Pop i => opt int64 i
    | Get i => int64 i
    | Set_ i _ => int64 i
    | Slice start stop step =>
        match m with
        | Interpreted => True
        | Compiled => opt moderate start /\ opt moderate stop /\ opt moderate step
        end
    | Resize n _ => 0 <= n <= most
    | Reserve n => match m with Interpreted => 0 <= n < 2 ^ 31 | Compiled => n < 2 ^ 31 end
    | Clear | Copy | Len | Reserved => True
    end.
  Fixpoint admissible_history (by_ref : bool) (xs : list V) (h : list (mode * op)) : Prop :=
    match h with
    | [] => True
    | (m, o) :: h => admissible by_ref m xs o /\ admissible_history by_ref (fst (python_step xs o)) h
    end.
End Spec.
