(** Theorems about Set (C45, C46). *)
From Verif Require Import Base PyList Hash_Model Hash_Spec Hash_Props Hash_Index_Proofs Hash_Proofs
  Set_Model Set_Spec Set_Proofs Set_Run_Proofs.
Open Scope Z_scope.
Open Scope result_scope.

(** ** C45 *)

(** Every program that makes Sets and works on them, each operation run by the interpreter or by
    compiled code, behaves as if the Sets were mathematical sets. *)
Theorem C45_sets_are_sets_partial :
  forall K (eqb : K -> K -> bool) (hash : K -> Z) (l : list (mode * set_op K)),
  good_key eqb hash ->
  Z.of_nat (length (mentioned l)) <= max_keys ->
  forallb (fun mo => plain eqb (fst mo) (snd mo)) l = true ->
  exists st outs final,
    set_run eqb hash l [] = Ok (st, outs) /\ s_run eqb (map snd l) [] outs final.
Proof.
  intros K eqb hash l G L P.
  destruct (set_run_ok eqb hash G (mentioned l) L l [] [] (Forall2_nil _) (fun k H => H) P) as [st [outs [final [E [S _]]]]].
  exists st, outs, final. auto.
Qed.
Print Assumptions C45_sets_are_sets_partial.

Definition set_outcomes (r : result (@store Z * list (set_outcome Z))) : list (set_outcome Z) :=
  match r with Ok (_, outs) => outs | Err e => [SRaises e] end.

Definition I (o : set_op Z) : mode * set_op Z := (Interpreted, o).
Definition C (o : set_op Z) : mode * set_op Z := (Compiled, o).

Definition set_example : list (mode * set_op Z) :=
  [I (MakeSet [1; 2; 3; 4; 5; 6; 7; 8; 9; 10; 11; 12]); C (MakeSet [2; 4; 6; 20; 4]);
   C (Operator Intersection 0 1); I (Operator SymmetricDifference 1 0); C (Method Difference 0 [Other 1 false; Other 2 false]);
   I (InPlace Difference 0 [Iterable [1; 3; 5; 7; 9; 11]; Other 1 false]); C (InPlace Union 0 [Iterable [30; 31]; Other 0 true]);
   I (Elements 0); C (Elements 2); I (LenSet 3); C (Compare CLt 2 1); I (Compare CGe 1 2); C (Test IsDisjoint 0 (Other 1 false));
   I (Test IsSubset 2 (Iterable [6; 2; 2; 4; 9])); I (PopKey 2); C (RemoveKey 2 2); C (RemoveKey 2 4); I (CompareBuiltin CGt 1 [20; 2]);
   I (InPlace Intersection 1 [Iterable [2; 6; 7]]); C (InPlace SymmetricDifference 1 [Iterable [6; 8; 8]]); I (Elements 1)].

Example C45_ex : good_key Z.eqb hash_int /\ Z.of_nat (length (mentioned set_example)) <= max_keys /\
  forallb (fun mo => plain Z.eqb (fst mo) (snd mo)) set_example = true /\
  skipn 7 (set_outcomes (set_run Z.eqb hash_int set_example [])) =
  [SKeys [8; 10; 12; 30; 31]; SKeys [2; 4; 6]; SInt 10; SBool true; SBool true; SBool true; SBool true; SKey 2;
   SRaises KeyError; SDone; SBool true; SDone; SDone; SKeys [2; 8]].
Proof.
  split; [apply Z_good, hash_int_range|]. split; [vm_compute; discriminate|]. split; vm_compute; reflexivity.
Qed.

(** [s.intersection_update(t)] in the interpreter, for two Sets, is right as long as the item array
    of [s] has at most four times as many slots as there are common elements, and a few more. *)
Theorem C45_intersection_update_partial :
  forall K (eqb : K -> K -> bool) (hash : K -> Z) (U : list K) (a b : table K unit) (s p : K -> bool) (l : list K),
  good_key eqb hash -> Z.of_nat (length U) <= max_keys ->
  has eqb hash U a s -> has eqb hash U b p -> lists eqb l (s_op Intersection s p) ->
  reserved a <= 4 * (Z.of_nat (length l) + 3) ->
  exists t, i_intersection_update eqb hash a (ArgSet b) = Ok (t, None) /\ has eqb hash U t (s_op Intersection s p).
Proof. intros K eqb hash U a b s p l G HU. exact (i_intersection_update_walk eqb hash G U HU a b s p l). Qed.
Print Assumptions C45_intersection_update_partial.

Definition example_set (l : list Z) : table Z unit :=
  match copy_elements Z.eqb hash_int new_table l with Ok t => t | Err _ => new_table end.

Example C45_intersection_update_ex :
  exists s p, has Z.eqb hash_int [1; 2; 3; 4; 5; 6] (example_set [1; 2; 3; 4; 5]) s /\
    has Z.eqb hash_int [1; 2; 3; 4; 5; 6] (example_set [4; 2; 6]) p /\ lists Z.eqb [2; 4] (s_op Intersection s p) /\
    reserved (example_set [1; 2; 3; 4; 5]) <= 4 * (Z.of_nat (length [2; 4]) + 3).
Proof.
  assert (G := Z_good hash_int hash_int_range).
  assert (U_ok : Z.of_nat (length [1; 2; 3; 4; 5; 6]) <= max_keys) by (vm_compute; discriminate).
  assert (Kn : forall l, forallb (fun x => existsb (Z.eqb x) [1; 2; 3; 4; 5; 6]) l = true ->
            forall x, s_of Z.eqb l x = true -> known Z.eqb [1; 2; 3; 4; 5; 6] x).
  { intros l Hl x Hx. apply (list_known Z.eqb hash_int G [1; 2; 3; 4; 5; 6] l); [|exact Hx]. intros k Hk. rewrite forallb_forall in Hl. specialize (Hl k Hk).
    apply existsb_exists in Hl. destruct Hl as [y [Hy E]]. apply Z.eqb_eq in E. now subst y. }
  assert (M : forall l, forallb (fun x => existsb (Z.eqb x) [1; 2; 3; 4; 5; 6]) l = true ->
            has Z.eqb hash_int [1; 2; 3; 4; 5; 6] (example_set l) (s_of Z.eqb l)).
  { intros l Hl. destruct (copy_elements_has Z.eqb hash_int G [1; 2; 3; 4; 5; 6] U_ok l new_table _ (new_has Z.eqb hash_int _) (Kn l Hl)) as [t [E H]].
    unfold example_set. rewrite E. exact (has_ext _ _ _ _ _ _ H (fun x => eq_refl)). }
  exists (s_of Z.eqb [1; 2; 3; 4; 5]), (s_of Z.eqb [4; 2; 6]).
  split; [apply M; reflexivity|]. split; [apply M; reflexivity|]. split; [|vm_compute; discriminate].
  split; [vm_compute; auto|]. intros x. unfold s_op, s_of, existsb.
  destruct (Z.eqb_spec 2 x) as [<-|N2]; [reflexivity|]. destruct (Z.eqb_spec 4 x) as [<-|N4]; [reflexivity|].
  destruct (Z.eqb_spec 6 x) as [<-|N6]; [reflexivity|]. cbn. now rewrite Bool.andb_false_r.
Qed.

(** The uses of Sets excepted above do go wrong. *)

(** In the interpreter [s.intersection_update(t)] walks over the items of [s] and discards while it
    walks.  A discard that compresses the items is given a pointer to memory that is then moved and
    reallocated: here [s] has twelve elements and [t] none. *)
Theorem C45_intersection_update_refuted :
  exists l, set_run Z.eqb hash_int l [] = Err UndefinedBehaviour /\
    l = [I (MakeSet [1; 2; 3; 4; 5; 6; 7; 8; 9; 10; 11; 12]); I (MakeSet []); I (InPlace Intersection 0 [Other 1 false])].
Proof. eexists. split; [|reflexivity]. vm_compute. reflexivity. Qed.
Print Assumptions C45_intersection_update_refuted.

(** [s.difference_update(t)] in the interpreter, when [t] is the same Set through another object (an
    attribute read twice, for example): a TypeError after one element has gone.  In compiled code
    [s.difference_update(s)] does the same with a RuntimeError. *)
Theorem C45_difference_update_of_itself_refuted :
  set_outcomes (set_run Z.eqb hash_int [I (MakeSet [1; 2; 3]); I (InPlace Difference 0 [Other 0 false]); I (Elements 0)] []) =
    [SObject 0; SRaises TypeError; SKeys [2; 3]] /\
  set_outcomes (set_run Z.eqb hash_int [I (MakeSet [1; 2; 3]); C (InPlace Difference 0 [Other 0 true]); I (Elements 0)] []) =
    [SObject 0; SRaises GenericError; SKeys [2; 3]].
Proof. split; vm_compute; reflexivity. Qed.
Print Assumptions C45_difference_update_of_itself_refuted.

(** Compiled [s.intersection_update(s)] empties [s]. *)
Theorem C45_compiled_intersection_update_of_itself_refuted :
  set_outcomes (set_run Z.eqb hash_int [I (MakeSet [1; 2; 3]); C (InPlace Intersection 0 [Other 0 true]); I (Elements 0)] []) =
    [SObject 0; SDone; SKeys []].
Proof. vm_compute. reflexivity. Qed.
Print Assumptions C45_compiled_intersection_update_of_itself_refuted.

(** Compiled [s.union()] is [s] itself and not a copy: adding to it adds to [s]. *)
Theorem C45_compiled_union_of_nothing_refuted :
  set_outcomes (set_run Z.eqb hash_int [I (MakeSet [1]); C (Method Union 0 []); C (Method Intersection 0 []); C (Method Difference 0 [])] []) =
    [SObject 0; SObject 0; SObject 0; SObject 0] /\
  set_outcomes (set_run Z.eqb hash_int [I (MakeSet [1]); I (Method Union 0 []); I (Method Intersection 0 []); I (Method Difference 0 [])] []) =
    [SObject 0; SObject 1; SObject 2; SObject 3].
Proof. split; vm_compute; reflexivity. Qed.
Print Assumptions C45_compiled_union_of_nothing_refuted.

(** In the interpreter [s.isdisjoint(s)] is False although [s] is empty; compiled code says True. *)
Theorem C45_isdisjoint_of_itself_refuted :
  set_outcomes (set_run Z.eqb hash_int [I (MakeSet []); I (Test IsDisjoint 0 (Other 0 true)); C (Test IsDisjoint 0 (Other 0 true))] []) =
    [SObject 0; SBool false; SBool true].
Proof. vm_compute. reflexivity. Qed.
Print Assumptions C45_isdisjoint_of_itself_refuted.

(** ** C46 *)

(** [s >= r] and [s > r] for a builtin set [r] mean superset and proper superset. *)
Theorem C46_superset_of_builtin_partial :
  forall K (eqb : K -> K -> bool) (hash : K -> Z) (U : list K) (a : table K unit) (s : K -> bool) (r : list K),
  good_key eqb hash -> has eqb hash U a s -> no_repeats eqb r ->
  (compare_builtin eqb CGe a r = true <-> included (s_of eqb r) s) /\
  (compare_builtin eqb CGt a r = true <-> included (s_of eqb r) s /\ ~ same s (s_of eqb r)).
Proof.
  intros K eqb hash U a s r G Ha Dr. split.
  - exact (compare_builtin_ge eqb hash G U a s r Ha Dr).
  - exact (compare_builtin_gt eqb hash G U a s r Ha Dr).
Qed.
Print Assumptions C46_superset_of_builtin_partial.

Example C46_ex : good_key Z.eqb hash_int /\ (exists s, has Z.eqb hash_int [1; 2; 3; 4; 5; 6] (example_set [1; 2; 3; 4; 5]) s) /\
  no_repeats Z.eqb [5; 1] /\ compare_builtin Z.eqb CGt (example_set [1; 2; 3; 4; 5]) [5; 1] = true /\
  compare_builtin Z.eqb CGe (example_set [1; 2; 3; 4; 5]) [5; 7] = false.
Proof.
  split; [apply Z_good, hash_int_range|]. split; [|split; [vm_compute; auto|split; vm_compute; reflexivity]].
  destruct C45_intersection_update_ex as [s [p [H _]]]. now exists s.
Qed.

(** [==], [<=] and [<] do not mean what they mean for sets: the walk stops at the first element that
    is in both. *)
Theorem C46_equal_to_builtin_refuted :
  compare_builtin Z.eqb CEq (example_set [1; 2]) [1; 3] = true /\
  compare_builtin Z.eqb CNe (example_set [1; 2]) [1; 3] = false /\
  compare_builtin Z.eqb CLe (example_set [1; 2]) [1; 3; 4] = true /\
  compare_builtin Z.eqb CLt (example_set [1; 2]) [1; 3; 4] = true.
Proof. repeat split; vm_compute; reflexivity. Qed.
Print Assumptions C46_equal_to_builtin_refuted.

(** What they do mean: equality is "as many elements, and one of them in common, or both empty". *)
Theorem C46_equality_is_one_common_element :
  forall K (eqb : K -> K -> bool) (hash : K -> Z) (U : list K) (a : table K unit) (s : K -> bool) (r : list K),
  good_key eqb hash -> has eqb hash U a s ->
  compare_builtin eqb CEq a r = true <->
  count (idx a) = Z.of_nat (length r) /\ (r = [] \/ exists x, s x = true /\ s_of eqb r x = true).
Proof. intros K eqb hash U a s r G Ha. exact (builtin_eq_meaning eqb hash G U a s r Ha). Qed.
Print Assumptions C46_equality_is_one_common_element.
