(** Model of the comparisons of Dicts: two Dicts, two views of Dicts, and a Dict with a Python
    dictionary.  A Dict is the hash table of Hash_Model.v. *)
From Verif Require Import Base Hash_Model.
Open Scope Z_scope.
Open Scope result_scope.

Section Compare.
  Context {K V : Type}.
  Variable eqb : K -> K -> bool.
  Variable hash : K -> Z.
  Variable veqb : V -> V -> bool.    (* [m_value->cmp(_, _, Py_EQ)]; Py_NE is its negation *)

  (** The loop of DictType.cpp:210-225.  [values] is [compareValues]: when it is false a key that is
      not found is passed over. *)
  Fixpoint cmp_items (values : bool) (l : list (K * V)) (right : table K V) : result bool :=
    match l with
    | [] => Ok true
    | (k, v) :: l =>
        other <- lookup_value eqb hash right k ;;
        match other with
        | None => if values then Ok false else cmp_items values l right
        | Some w => if values && negb (veqb v w) then Ok false else cmp_items values l right
        end
    end.

  (** DictType.cpp:193-228: [left == right], for two different tables; [left != right] is the
      negation.  [dict_cmp false] compares the views [left.keys()] and [right.keys()], [dict_cmp true]
      the Dicts and the views [items()] (PyDictInstance.cpp:224-245). *)
  Definition dict_cmp (values : bool) (left right : table K V) : result bool :=
    if negb (count (idx left) =? count (idx right)) then Ok false
    else cmp_items values (live (items left)) right.

  (** PyDictInstance.cpp:589-652: [d == other] for a Python dictionary [other], given as its items
      in order.  A key that cannot be converted to the key type is [None]; [same w v] is
      [compare_to_python] of the value. *)
  Context {W : Type}.
  Variable same : V -> W -> bool.

  Fixpoint cmp_python (self : table K V) (other : list (option K * W)) : result bool :=
    match other with
    | [] => Ok true
    | (None, _) :: _ => Ok false
    | (Some k, w) :: other =>
        r <- lookup_value eqb hash self k ;;
        match r with
        | None => Ok false
        | Some v => if same v w then cmp_python self other else Ok false
        end
    end.

  Definition dict_eq_python (self : table K V) (other : list (option K * W)) : result bool :=
    if negb (Z.of_nat (length other) =? count (idx self)) then Ok false else cmp_python self other.

  (** PyDictInstance.cpp:301-317 and 319-341: [v in d.values()], [(k, v) in d.items()]. *)
  Definition in_values (v : V) (t : table K V) : bool :=
    existsb (fun kv => veqb v (snd kv)) (live (items t)).

  Definition in_items (kv : K * V) (t : table K V) : bool :=
    existsb (fun x => eqb (fst kv) (fst x) && veqb (snd kv) (snd x)) (live (items t)).
End Compare.
