(** What Sets are supposed to be: sets in the mathematical sense, written as their membership
    functions.  Nothing here mentions the hash table. *)
From Verif Require Import Base PyList Hash_Model Set_Model.
Open Scope Z_scope.

Section MathSets.
  Context {K : Type}.
  Variable eqb : K -> K -> bool.

  Definition mset : Type := K -> bool.

  Definition s_empty : mset := fun _ => false.
  Definition s_of (l : list K) : mset := fun x => existsb (fun k => eqb k x) l.
  Definition s_add (s : mset) (k : K) : mset := fun x => s x || eqb k x.
  Definition s_del (s : mset) (k : K) : mset := fun x => s x && negb (eqb k x).

  Definition s_op (b : binary) (s t : mset) : mset := fun x =>
    match b with
    | Union => s x || t x
    | Intersection => s x && t x
    | Difference => s x && negb (t x)
    | SymmetricDifference => xorb (s x) (t x)
    end.

  (** [l] has every element of [s] exactly once, and nothing else. *)
  Fixpoint no_repeats (l : list K) : Prop :=
    match l with
    | [] => True
    | k :: l => s_of l k = false /\ no_repeats l
    end.

  Definition lists (l : list K) (s : mset) : Prop := no_repeats l /\ forall x, s_of l x = s x.

  Definition included (s t : mset) : Prop := forall x, s x = true -> t x = true.
  Definition same (s t : mset) : Prop := forall x, s x = t x.
  Definition disjoint (s t : mset) : Prop := forall x, s x = true -> t x = false.

  Definition meaning (c : comparison) (s t : mset) : Prop :=
    match c with
    | CEq => same s t
    | CNe => ~ same s t
    | CLe => included s t
    | CLt => included s t /\ ~ same s t
    | CGe => included t s
    | CGt => included t s /\ ~ same s t
    end.

  Definition test_meaning (q : test) (s t : mset) : Prop :=
    match q with
    | IsSubset => included s t
    | IsSuperset => included t s
    | IsDisjoint => disjoint s t
    end.

  Definition s_get (st : list mset) (i : nat) : mset := nth i st s_empty.
  Definition s_put (st : list mset) (i : nat) (s : mset) : list mset := replace_nth i s st.

  Definition s_arg (st : list mset) (x : arg K) : mset :=
    match x with Other j _ => s_get st j | Iterable l => s_of l end.

  (** [answers out P]: the caller is told whether [P] holds. *)
  Definition answers (out : set_outcome K) (P : Prop) : Prop :=
    exists b, out = SBool b /\ (b = true <-> P).

  Definition takes_one (b : binary) (args : list (arg K)) : bool :=
    match b, args with
    | SymmetricDifference, [_] => true
    | SymmetricDifference, _ => false
    | _, _ => true
    end.

  (** What an operation may answer, and the Sets afterwards. *)
  Definition s_step (o : set_op K) (st : list mset) (out : set_outcome K) (st' : list mset) : Prop :=
    match o with
    | MakeSet l => out = SObject (length st) /\ st' = st ++ [s_of l]
    | CopySet i => out = SObject (length st) /\ st' = st ++ [s_get st i]
    | AddKey i k => out = SDone /\ st' = s_put st i (s_add (s_get st i) k)
    | DiscardKey i k => out = SDone /\ st' = s_put st i (s_del (s_get st i) k)
    | RemoveKey i k =>
        out = (if s_get st i k then SDone else SRaises KeyError) /\ st' = s_put st i (s_del (s_get st i) k)
    | PopKey i =>
        (exists k, s_get st i k = true /\ out = SKey k /\ st' = s_put st i (s_del (s_get st i) k)) \/
        (same (s_get st i) s_empty /\ out = SRaises KeyError /\ st' = st)
    | ClearSet i => out = SDone /\ st' = s_put st i s_empty
    | InSet i k => out = SBool (s_get st i k) /\ st' = st
    | LenSet i => (exists l, lists l (s_get st i) /\ out = SInt (Z.of_nat (length l))) /\ st' = st
    | Elements i => (exists l, lists l (s_get st i) /\ out = SKeys l) /\ st' = st
    | Operator b i j => out = SObject (length st) /\ st' = st ++ [s_op b (s_get st i) (s_get st j)]
    | Method b i args =>
        if takes_one b args then
          out = SObject (length st) /\
          st' = st ++ [fold_left (fun s x => s_op b s (s_arg st x)) args (s_get st i)]
        else out = SRaises TypeError /\ st' = st
    | InPlace b i args =>
        if takes_one b args then
          out = SDone /\
          st' = fold_left (fun st x => s_put st i (s_op b (s_get st i) (s_arg st x))) args st
        else out = SRaises TypeError /\ st' = st
    | Compare c i j => answers out (meaning c (s_get st i) (s_get st j)) /\ st' = st
    | Test q i x => answers out (test_meaning q (s_get st i) (s_arg st x)) /\ st' = st
    | CompareBuiltin c i r => answers out (meaning c (s_get st i) (s_of r)) /\ st' = st
    end.

  Fixpoint s_run (l : list (set_op K)) (st : list mset) (outs : list (set_outcome K)) (st' : list mset) : Prop :=
    match l, outs with
    | [], [] => st' = st
    | o :: l, out :: outs => exists st1, s_step o st out st1 /\ s_run l st1 outs st'
    | _, _ => False
    end.

  (** The elements a program mentions. *)
  Definition arg_keys (x : arg K) : list K := match x with Other _ _ => [] | Iterable l => l end.

  Definition op_keys (o : set_op K) : list K :=
    match o with
    | MakeSet l => l
    | AddKey _ k => [k]
    | Method _ _ args | InPlace _ _ args => flat_map arg_keys args
    | _ => []
    end.

  Definition mentioned (l : list (mode * set_op K)) : list K := flat_map (fun mo => op_keys (snd mo)) l.
End MathSets.

(** The uses of Sets for which the claim is made; the theorems named [C45_..._refuted] show why each
    exception is needed. *)
Definition plain_arg {K} (m : mode) (b : binary) (i : nat) (x : arg K) : bool :=
  match x with
  | Iterable _ => true
  | Other j same =>
      match b, m with
      | Intersection, Interpreted => Nat.eqb i j       (* not s.intersection_update(t) *)
      | Intersection, Compiled => negb (Nat.eqb i j)   (* not s.intersection_update(s) *)
      | Difference, Interpreted => negb (Nat.eqb i j) || same
      | Difference, Compiled => negb (Nat.eqb i j)     (* not s.difference_update(s) *)
      | _, _ => true
      end
  end.

Definition is_other {K} (x : arg K) : bool := match x with Other _ _ => true | Iterable _ => false end.

Fixpoint distinctb {K} (eqb : K -> K -> bool) (l : list K) : bool :=
  match l with [] => true | k :: l => negb (s_of eqb l k) && distinctb eqb l end.

Definition plain {K} (eqb : K -> K -> bool) (m : mode) (o : set_op K) : bool :=
  match o with
  | InPlace b i args => forallb (plain_arg m b i) args
  | Method b _ args =>
      match m with
      | Interpreted => true
      | Compiled =>                                    (* not s.union(), and only Sets as arguments *)
          forallb is_other args && match b, args with SymmetricDifference, _ => true | _, [] => false | _, _ => true end
      end
  | Test IsDisjoint i (Other j same) =>
      match m with Interpreted => negb (Nat.eqb i j && same) | Compiled => true end
  | CompareBuiltin c _ r =>
      match m, c with
      | Interpreted, CGe | Interpreted, CGt => distinctb eqb r
      | _, _ => false
      end
  | _ => true
  end.
