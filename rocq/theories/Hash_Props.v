(** Theorems about Dict and the hash table (C09, C10, C11, C12, C44). *)
From Verif Require Import Base Hash_Model Hash_Spec Hash_Probe_Proofs Hash_Index_Proofs Hash_Proofs Hash_Iter_Proofs.
Open Scope Z_scope.
Open Scope result_scope.

(** Examples use integer keys whose hashes collide in every way that matters: all equal, all
    most negative, and the hash of small integers. *)
Definition hash_same (k : Z) : Z := 7.
Definition hash_min (k : Z) : Z := - 2 ^ 31.
Definition hash_int (k : Z) : Z := wrap_s 32 k.

Lemma Z_good (hash : Z -> Z) : (forall k, - 2 ^ 31 <= hash k < 2 ^ 31) -> good_key Z.eqb hash.
Proof.
  intros H. constructor; [apply Z.eqb_refl|apply Z.eqb_sym| | |exact H].
  - intros k1 k2 k3 E1 E2. apply Z.eqb_eq in E1, E2. apply Z.eqb_eq. congruence.
  - intros k1 k2 E. apply Z.eqb_eq in E. congruence.
Qed.

Lemma hash_int_range k : - 2 ^ 31 <= hash_int k < 2 ^ 31.
Proof.
  unfold hash_int, wrap_s. change (2 ^ (32 - 1)) with 2147483648. change (2 ^ 32) with 4294967296.
  pose proof (Z.mod_pos_bound k 4294967296). destruct (k mod 4294967296 <? 2147483648) eqn:E; lia.
Qed.

(** What the caller of a history sees. *)
Definition outcomes {K V} (r : result (table K V * list (outcome K V))) : option (list (outcome K V)) :=
  match r with Ok (_, rs) => Some rs | Err _ => None end.

(** ** C09 *)

(** Every history of operations, each run by the interpreter or by compiled code, gives the
    answers of the association list: same values, lengths, items and exceptions. *)
Theorem C09_dict_is_a_map : forall K V (eqb : K -> K -> bool) (hash : K -> Z) (l : list (mode * op K V)),
  good_key eqb hash -> m_within eqb max_keys (map snd l) [] ->
  exists t, run eqb hash l new_table = Ok (t, snd (m_run eqb (map snd l) [])).
Proof.
  intros K V eqb hash l G W. destruct (run_ok eqb hash G l new_table [] (new_represents eqb hash) W) as [t [E _]]. eauto.
Qed.
Print Assumptions C09_dict_is_a_map.

(** The association list is a finite map: these are its laws. *)
Theorem C09_laws_of_the_map : forall K V (eqb : K -> K -> bool) (hash : K -> Z) (m : list (K * V)) k v k',
  good_key eqb hash ->
  m_lookup eqb (m_set eqb m k v) k' = (if eqb k' k then Some v else m_lookup eqb m k') /\
  m_lookup eqb (m_del eqb m k) k' = (if eqb k k' then None else m_lookup eqb m k') /\
  (distinct_keys eqb m -> distinct_keys eqb (m_set eqb m k v) /\ distinct_keys eqb (m_del eqb m k)) /\
  length (m_set eqb m k v) = (length m + match m_lookup eqb m k with Some _ => 0 | None => 1 end)%nat.
Proof. intros K V eqb hash m k v k' G. exact (map_laws eqb hash G m k v k'). Qed.
Print Assumptions C09_laws_of_the_map.

Definition example_ops : list (mode * op Z Z) :=
  map (fun k => (Interpreted, SetItem k (k * 10))) [5; 3; 8; 1; 4; 7; 9; 2; 6; 11; 10; 12; 13; 14; 15; 16; 17; 18] ++
  map (fun k => (Compiled, DelItem k)) [5; 3; 8; 1; 4; 7; 9; 2; 6; 11; 10; 12; 13; 14] ++
  [(Compiled, SetItem 16 0); (Interpreted, DelItem 5); (Compiled, Pop 17); (Interpreted, PopDefault 17 3);
   (Compiled, SetDefault 20 2); (Interpreted, SetDefault 20 9); (Interpreted, GetItem 16); (Compiled, GetItem 5);
   (Compiled, Contains 15); (Interpreted, Get 5 1); (Compiled, Update [(15, 1); (21, 4); (22, 5)]); (Interpreted, Copy);
   (Compiled, Copy); (Compiled, Len); (Interpreted, Items); (Compiled, Items); (Interpreted, Clear); (Compiled, Len)].

Fixpoint withinb (n : Z) (l : list (op Z Z)) (m : list (Z * Z)) : bool :=
  (Z.of_nat (length m) <=? n) && match l with [] => true | o :: l => withinb n l (fst (m_step Z.eqb o m)) end.

Lemma withinb_ok n l : forall m, withinb n l m = true -> m_within Z.eqb n l m.
Proof.
  induction l as [|o l IH]; intros m H; cbn [withinb] in H; apply andb_true_iff in H; destruct H as [H1 H2];
    apply Z.leb_le in H1; split; auto.
Qed.

Example C09_ex : good_key Z.eqb hash_same /\ m_within Z.eqb max_keys (map snd example_ops) [] /\
  option_map (skipn 32) (outcomes (run Z.eqb hash_same example_ops new_table)) =
  Some [Done; Raises KeyError; Value 170; Value 3; Value 2; Value 2; Value 0; Raises KeyError; Bool true; Value 1; Done; Done; Done;
        Int 6; ItemList [(15, 1); (16, 0); (18, 180); (20, 2); (21, 4); (22, 5)];
        ItemList [(15, 1); (16, 0); (18, 180); (20, 2); (21, 4); (22, 5)]; Done; Int 0].
Proof.
  split; [apply Z_good; intros; unfold hash_same; lia|].
  split; [apply withinb_ok; vm_compute; reflexivity|vm_compute; reflexivity].
Qed.

(** Without the agreement of hash and equality the claim is false: a key is lost. *)
Theorem C09_needs_hash_agreement : exists (eqb : bool * Z -> bool * Z -> bool) hash (l : list (mode * op (bool * Z) Z)),
  (forall k, eqb k k = true) /\ m_within eqb max_keys (map snd l) [] /\
  outcomes (run eqb hash l new_table) = Some [Done; Raises KeyError] /\ snd (m_run eqb (map snd l) []) = [Done; Value 5].
Proof.
  exists (fun a b : bool * Z => snd a =? snd b), (fun a : bool * Z => if fst a then 1 else 2),
    [(Interpreted, SetItem (true, 0) 5); (Interpreted, GetItem (false, 0))].
  split; [intros k; apply Z.eqb_refl|]. split; [unfold max_keys; cbn; lia|].
  split; [vm_compute; reflexivity|reflexivity].
Qed.
Print Assumptions C09_needs_hash_agreement.

(** ** C10 *)

(** After any history, every operation finishes normally: no probe runs for ever and no read or
    write leaves its array (the model's [OutOfFuel] and [UndefinedBehaviour]). *)
Theorem C10_every_operation_finishes : forall K V (eqb : K -> K -> bool) (hash : K -> Z) (l : list (mode * op K V)) md o,
  good_key eqb hash -> m_within eqb max_keys (map snd (l ++ [(md, o)])) [] ->
  exists t rs t' r, run eqb hash l new_table = Ok (t, rs) /\ step_in eqb hash md o t = Ok (t', r).
Proof. intros K V eqb hash l md o G W. exact (every_step_finishes eqb hash G l md o W). Qed.
Print Assumptions C10_every_operation_finishes.

(** The reason: from any hash the probe sequence visits every position of the table in at most
    13 steps more than the table has positions. *)
Theorem C10_probe_visits_every_position : forall k h j, (k <= 64)%nat -> (j < 2 ^ k)%nat ->
  exists n, (n < 13 + 2 ^ k)%nat /\
    Z.land (fst (Nat.iter n next_probe (wrap_u 64 h, wrap_u 64 h))) (Z.of_nat (2 ^ k) - 1) = Z.of_nat j.
Proof. intros k h j Hk Hj. exact (probe_visits k h j Hk Hj). Qed.
Print Assumptions C10_probe_visits_every_position.

Example C10_ex : good_key Z.eqb hash_min /\ m_within Z.eqb max_keys (map snd (example_ops ++ [(Compiled, DelItem 3)])) [] /\
  map (fun n => Z.land (fst (Nat.iter n next_probe (wrap_u 64 (- 2 ^ 31), wrap_u 64 (- 2 ^ 31)))) 7) (seq 0 21) =
    [0; 1; 6; 7; 4; 5; 2; 1; 5; 1; 5; 1; 5; 1; 6; 7; 4; 5; 2; 3; 0].
Proof.
  split; [apply Z_good; intros; unfold hash_min; lia|].
  split; [apply withinb_ok; vm_compute; reflexivity|vm_compute; reflexivity].
Qed.

(** The bound on the number of keys is needed: one key more and the next resize of the table
    overflows the 32-bit size it computes. *)
Theorem C10_more_keys_refuted : forall ix, count ix = max_keys + 1 -> resize_table ix = Err UndefinedBehaviour.
Proof. intros ix E. unfold resize_table. rewrite E. reflexivity. Qed.
Print Assumptions C10_more_keys_refuted.

(** ** C11 *)

(** Walking over the Dict after any history gives every item exactly once, in insertion order:
    the list is the association list, in which an overwritten key keeps its place, and whose
    keys are distinct. *)
Theorem C11_iteration : forall K V (eqb : K -> K -> bool) (hash : K -> Z) (l : list (mode * op K V)),
  good_key eqb hash -> m_within eqb max_keys (map snd l) [] ->
  let m := fst (m_run eqb (map snd l) []) in
  distinct_keys eqb m /\
  exists t rs, run eqb hash l new_table = Ok (t, rs) /\
    iter_all iter_next (S (length (items t))) t (iter_start t) = Ok m /\
    iter_all c_iter_next (S (length (items t))) t (c_iter_start t) = Ok m.
Proof. intros K V eqb hash l G W. exact (iteration_after eqb hash G l W). Qed.
Print Assumptions C11_iteration.

(** A loop whose body assigns to keys that are there still sees every key exactly once. *)
Theorem C11_assignments_do_not_disturb : forall K V (eqb : K -> K -> bool) (hash : K -> Z) (l : list (mode * op K V))
    (body : K * V -> list (K * V)),
  good_key eqb hash -> m_within eqb max_keys (map snd l) [] ->
  let m := fst (m_run eqb (map snd l) []) in
  (forall kv, Forall (fun kv' => m_lookup eqb m (fst kv') <> None) (body kv)) ->
  exists t rs t' seen, run eqb hash l new_table = Ok (t, rs) /\
    iter_assign eqb hash iter_next body (S (length (items t))) t (iter_start t) = Ok (t', seen) /\
    map fst seen = map fst m.
Proof. intros K V eqb hash l body G W. exact (assignments_after eqb hash G l body W). Qed.
Print Assumptions C11_assignments_do_not_disturb.

(** A loop that meets a Dict of another size than it began with raises. *)
Theorem C11_size_change_raises : forall K V (t t' : table K V),
  count (idx t') <> count (idx t) ->
  (forall off, iter_next t' (Iterator off (it_size (iter_start t))) = Err GenericError) /\
  (forall off, c_iter_next t' (Iterator off (it_size (c_iter_start t))) = Err GenericError).
Proof. intros K V t t' H. exact (size_change t t' H). Qed.
Print Assumptions C11_size_change_raises.

Example C11_ex : good_key Z.eqb hash_int /\ m_within Z.eqb max_keys (map snd (firstn 40 example_ops)) [] /\
  fst (m_run Z.eqb (map snd (firstn 40 example_ops)) []) = [(15, 150); (16, 0); (18, 180); (20, 2)].
Proof.
  split; [apply Z_good, hash_int_range|].
  split; [apply withinb_ok; vm_compute; reflexivity|vm_compute; reflexivity].
Qed.

(** ** C12 *)

(** The table built around the items read from a stream behaves from then on like the map with
    those items: every later history gives the answers of the association list. *)
Theorem C12_rebuilt_table : forall K V (eqb : K -> K -> bool) (hash : K -> Z) (m : list (K * V)) (l : list (mode * op K V)),
  good_key eqb hash -> distinct_keys eqb m -> m_within eqb max_keys (map snd l) m ->
  exists t t', rebuild hash m = Ok t /\ run eqb hash l t = Ok (t', snd (m_run eqb (map snd l) m)).
Proof. intros K V eqb hash m l G D W. exact (rebuilt_history eqb hash G m l D W). Qed.
Print Assumptions C12_rebuilt_table.

Example C12_ex : good_key Z.eqb hash_int /\ distinct_keys Z.eqb (map (fun k => (k, k)) [1; 9; 17; 25; -1; -9; 33; 41; 49]) /\
  m_within Z.eqb max_keys (map snd [(Interpreted, GetItem 25); (Compiled, DelItem (-9)); (Interpreted, Items)])
    (map (fun k => (k, k)) [1; 9; 17; 25; -1; -9; 33; 41; 49]) /\
  outcomes (t <- rebuild hash_int (map (fun k => (k, k)) [1; 9; 17; 25; -1; -9; 33; 41; 49]) ;;
    run Z.eqb hash_int [(Interpreted, GetItem 25); (Compiled, DelItem (-9)); (Interpreted, Items)] t) =
  Some [Value 25; Done; ItemList (map (fun k => (k, k)) [1; 9; 17; 25; -1; 33; 41; 49])].
Proof.
  split; [apply Z_good, hash_int_range|]. split; [cbn; repeat (constructor; auto)|].
  split; [apply withinb_ok; vm_compute; reflexivity|vm_compute; reflexivity].
Qed.

(** The keys of the stream must be distinct: a repeated key is kept twice, and deleting it
    leaves it in the Dict. *)
Theorem C12_repeated_keys_refuted : outcomes (
  t <- rebuild hash_int [(1, 10); (1, 20)] ;;
  run Z.eqb hash_int [(Interpreted, Len); (Interpreted, DelItem 1); (Interpreted, Contains 1)] t) =
  Some [Int 2; Done; Bool true].
Proof. vm_compute. reflexivity. Qed.
Print Assumptions C12_repeated_keys_refuted.

(** ** C44 *)

(** It does not matter which operations of a history are compiled.
    Partial: both modes hash a key alike; C53 shows the keys for which they do not. *)
Theorem C44_compiled_and_interpreted_agree_partial : forall K V (eqb : K -> K -> bool) (hash : K -> Z) (l l' : list (mode * op K V)),
  good_key eqb hash -> map snd l = map snd l' -> m_within eqb max_keys (map snd l) [] ->
  exists t t' rs, run eqb hash l new_table = Ok (t, rs) /\ run eqb hash l' new_table = Ok (t', rs).
Proof. intros K V eqb hash l l' G E W. exact (modes_agree eqb hash G l l' E W). Qed.
Print Assumptions C44_compiled_and_interpreted_agree_partial.

Example C44_ex : map snd example_ops = map snd (map (fun mo => (Compiled, snd mo)) example_ops) /\
  m_within Z.eqb max_keys (map snd example_ops) [].
Proof. split; [reflexivity|apply withinb_ok; vm_compute; reflexivity]. Qed.
