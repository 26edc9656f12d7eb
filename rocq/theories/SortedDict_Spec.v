(** What a SortedDict should do: an association list in strictly increasing key order.
    Keys neither of which is less than the other are the same key. *)
From Verif Require Import Base Sort_Spec SortedDict_Model.
Open Scope Z_scope.

Section Spec.
  Context {K V : Type}.
  Variable less : K -> K -> bool.

  Definition same (a b : K) : bool := negb (less a b) && negb (less b a).

  (** Lookup, deletion: no order involved. *)
  Fixpoint find (k : K) (l : list (K * V)) : option V :=
    match l with
    | [] => None
    | (k', v) :: l => if same k k' then Some v else find k l
    end.
  Definition erase (k : K) (l : list (K * V)) : list (K * V) := filter (fun p => negb (same k (fst p))) l.

  (** Insertion keeps the list in order; the value of a key that is there is replaced. *)
  Fixpoint insert (k : K) (v : V) (l : list (K * V)) : list (K * V) :=
    match l with
    | [] => [(k, v)]
    | (k', v') :: l' =>
        if same k k' then (k', v) :: l'
        else if less k k' then (k, v) :: l
        else (k', v') :: insert k v l'
    end.

  Definition last_key (l : list (K * V)) : option K := nth_error (map fst l) (length l - 1).

  Definition spec_step (l : list (K * V)) (o : op K V) : list (K * V) * answer K V :=
    match o with
    | SetItem k v => (insert k v l, Done)
    | DelItem k => match find k l with Some _ => (erase k l, Done) | None => (l, Raised KeyError) end
    | Pop k => match find k l with Some v => (erase k l, Value v) | None => (l, Raised KeyError) end
    | PopDefault k d => match find k l with Some v => (erase k l, Value v) | None => (l, Value d) end
    | SetDefault k d => match find k l with Some v => (l, Value v) | None => (insert k d l, Value d) end
    | GetItem k => (l, match find k l with Some v => Value v | None => Raised KeyError end)
    | GetDefault k d => (l, match find k l with Some v => Value v | None => Value d end)
    | Contains k => (l, Bool (match find k l with Some _ => true | None => false end))
    | Len => (l, Number (Z.of_nat (length l)))
    | First => (l, Key (nth_error (map fst l) 0))
    | Last => (l, Key (last_key l))
    | Items => (l, ItemList l)
    | Iter => (l, KeyList (map fst l))
    end.
  Fixpoint spec_run (l : list (K * V)) (ops : list (op K V)) : list (K * V) * list (answer K V) :=
    match ops with
    | [] => (l, [])
    | o :: ops => let '(l, a) := spec_step l o in let '(l, r) := spec_run l ops in (l, a :: r)
    end.

  (** A dictionary reached by some history. *)
  Definition reachable (d : tree K V) : Prop := exists ops, d = fst (run less Leaf ops).
End Spec.
