(** What a Dict is supposed to be: a finite map that remembers the order of insertion, written
    as an association list.  Nothing here mentions the hash table. *)
From Verif Require Import Base Hash_Model.
Open Scope Z_scope.

Section Map.
  Context {K V : Type}.
  Variable eqb : K -> K -> bool.

  Fixpoint m_lookup (m : list (K * V)) (k : K) : option V :=
    match m with
    | [] => None
    | (k', v) :: m => if eqb k k' then Some v else m_lookup m k
    end.

  (** [m[k] = v]: an existing key keeps its place, a new one goes to the end. *)
  Fixpoint m_set (m : list (K * V)) (k : K) (v : V) : list (K * V) :=
    match m with
    | [] => [(k, v)]
    | (k', v') :: m => if eqb k k' then (k', v) :: m else (k', v') :: m_set m k v
    end.

  Definition m_del (m : list (K * V)) (k : K) : list (K * V) :=
    filter (fun kv => negb (eqb k (fst kv))) m.

  Definition m_update (m : list (K * V)) (l : list (K * V)) : list (K * V) :=
    fold_left (fun m kv => m_set m (fst kv) (snd kv)) l m.

  (** The map after an operation, and what the caller sees. *)
  Definition m_step (o : op K V) (m : list (K * V)) : list (K * V) * outcome K V :=
    match o with
    | SetItem k v => (m_set m k v, Done)
    | GetItem k => (m, match m_lookup m k with Some v => Value v | None => Raises KeyError end)
    | DelItem k => (m_del m k, match m_lookup m k with Some _ => Done | None => Raises KeyError end)
    | Contains k => (m, Bool match m_lookup m k with Some _ => true | None => false end)
    | Get k d => (m, Value match m_lookup m k with Some v => v | None => d end)
    | SetDefault k v =>
        match m_lookup m k with
        | Some v' => (m, Value v')
        | None => (m_set m k v, Value v)
        end
    | Pop k => (m_del m k, match m_lookup m k with Some v => Value v | None => Raises KeyError end)
    | PopDefault k d => (m_del m k, Value match m_lookup m k with Some v => v | None => d end)
    | Clear => ([], Done)
    | Len => (m, Int (Z.of_nat (length m)))
    | Items => (m, ItemList m)
    | Update l => (m_update m l, Done)
    | Copy => (m, Done)
    end.

  Fixpoint m_run (l : list (op K V)) (m : list (K * V)) : list (K * V) * list (outcome K V) :=
    match l with
    | [] => (m, [])
    | o :: l =>
        let '(m, r) := m_step o m in
        let '(m, rs) := m_run l m in
        (m, r :: rs)
    end.

  (** No two keys are equal. *)
  Fixpoint distinct_keys (m : list (K * V)) : Prop :=
    match m with
    | [] => True
    | (k, _) :: m => Forall (fun kv => eqb k (fst kv) = false) m /\ distinct_keys m
    end.

  (** The map never has more than [n] keys during a history. *)
  Fixpoint m_within (n : Z) (l : list (op K V)) (m : list (K * V)) : Prop :=
    Z.of_nat (length m) <= n /\
    match l with [] => True | o :: l => m_within n l (fst (m_step o m)) end.
End Map.

(** What the table asks of a key type: equality is an equivalence, equal keys have equal
    hashes, and hashes are 32-bit integers. *)
Record good_key {K} (eqb : K -> K -> bool) (hash : K -> Z) : Prop := {
  key_refl : forall k, eqb k k = true;
  key_sym : forall k1 k2, eqb k1 k2 = eqb k2 k1;
  key_trans : forall k1 k2 k3, eqb k1 k2 = true -> eqb k2 k3 = true -> eqb k1 k3 = true;
  key_hash : forall k1 k2, eqb k1 k2 = true -> hash k1 = hash k2;
  hash_range : forall k, - 2 ^ 31 <= hash k < 2 ^ 31
}.

(** Item and slot numbers are 32-bit integers; no claim is made about tables with more keys
    than this. *)
Definition max_keys : Z := 2 ^ 28.
