(** Theorems about comparing and constructing Dicts (C47, C48). *)
From Verif Require Import Base Hash_Model Hash_Spec Hash_Props Hash_Index_Proofs Hash_Proofs Dict_Cmp_Model Dict_Cmp_Proofs.
Open Scope Z_scope.
Open Scope result_scope.

(** ** C47 *)

(** After any two histories, [a == b] says whether the two maps have the same keys with equal
    values; so do the views [a.items() == b.items()], which are the same comparison. *)
Theorem C47_equality_of_dicts :
  forall K V (eqb : K -> K -> bool) (hash : K -> Z) (veqb : V -> V -> bool) (la lb : list (mode * op K V)),
  good_key eqb hash -> m_within eqb max_keys (map snd la) [] -> m_within eqb max_keys (map snd lb) [] ->
  exists a b r, run eqb hash la new_table = Ok (a, snd (m_run eqb (map snd la) [])) /\
    run eqb hash lb new_table = Ok (b, snd (m_run eqb (map snd lb) [])) /\
    dict_cmp eqb hash veqb true a b = Ok r /\
    (r = true <-> forall k,
       match m_lookup eqb (fst (m_run eqb (map snd la) [])) k, m_lookup eqb (fst (m_run eqb (map snd lb) [])) k with
       | Some v, Some w => veqb v w = true
       | None, None => True
       | _, _ => False
       end).
Proof.
  intros K V eqb hash veqb la lb G Wa Wb.
  destruct (run_ok eqb hash G la new_table [] (new_represents eqb hash) Wa) as [a [Ea [Ta La]]].
  destruct (run_ok eqb hash G lb new_table [] (new_represents eqb hash) Wb) as [b [Eb [Tb Lb]]].
  destruct (dict_cmp_ok eqb hash G veqb a b Ta Tb) as [r [Er Hr]].
  exists a, b, r. repeat (split; [assumption|]). rewrite Hr. unfold same_map. now rewrite La, Lb.
Qed.
Print Assumptions C47_equality_of_dicts.

Definition table_of (l : list (mode * op Z Z)) : table Z Z :=
  match run Z.eqb hash_int l new_table with Ok (t, _) => t | Err _ => new_table end.

Example C47_ex :
  m_within Z.eqb max_keys (map snd [(Interpreted, SetItem 1 10); (Compiled, SetItem 2 20)]) [] /\
  m_within Z.eqb max_keys (map snd [(Interpreted, SetItem 2 20); (Compiled, SetItem 7 0); (Compiled, DelItem 7); (Interpreted, SetItem 1 10)]) [] /\
  dict_cmp Z.eqb hash_int Z.eqb true (table_of [(Interpreted, SetItem 1 10); (Compiled, SetItem 2 20)])
    (table_of [(Interpreted, SetItem 2 20); (Compiled, SetItem 7 0); (Compiled, DelItem 7); (Interpreted, SetItem 1 10)]) = Ok true /\
  dict_cmp Z.eqb hash_int Z.eqb true (table_of [(Interpreted, SetItem 1 10); (Compiled, SetItem 2 20)])
    (table_of [(Interpreted, SetItem 2 20); (Interpreted, SetItem 1 11)]) = Ok false.
Proof. split; [apply withinb_ok; vm_compute; reflexivity|]. split; [apply withinb_ok; vm_compute; reflexivity|]. split; vm_compute; reflexivity. Qed.

(** Comparing a Dict with a Python dictionary whose keys stay different when they are converted to
    the key type. *)
Theorem C47_equality_with_python_dict_partial :
  forall K V W (eqb : K -> K -> bool) (hash : K -> Z) (same : V -> W -> bool) (l : list (mode * op K V))
         (other : list (option K * W)),
  good_key eqb hash -> m_within eqb max_keys (map snd l) [] ->
  (forall o, converted other = Some o -> distinct_keys eqb o) ->
  exists t r, run eqb hash l new_table = Ok (t, snd (m_run eqb (map snd l) [])) /\
    dict_eq_python eqb hash same t other = Ok r /\
    (r = true <-> exists o, converted other = Some o /\ forall k,
       match m_lookup eqb (fst (m_run eqb (map snd l) [])) k, m_lookup eqb o k with
       | Some v, Some w => same v w = true
       | None, None => True
       | _, _ => False
       end).
Proof.
  intros K V W eqb hash same l other G Wl D.
  destruct (run_ok eqb hash G l new_table [] (new_represents eqb hash) Wl) as [t [E [T L]]].
  destruct (dict_eq_python_ok eqb hash G same t other T D) as [r [Er Hr]].
  exists t, r. repeat (split; [assumption|]). rewrite Hr. unfold same_map. now rewrite L.
Qed.
Print Assumptions C47_equality_with_python_dict_partial.

Example C47_python_ex :
  (forall o, converted [(Some 2, 20); (Some 1, 10)] = Some o -> distinct_keys Z.eqb o) /\
  dict_eq_python Z.eqb hash_int Z.eqb (table_of [(Interpreted, SetItem 1 10); (Compiled, SetItem 2 20)])
    [(Some 2, 20); (Some 1, 10)] = Ok true /\
  dict_eq_python Z.eqb hash_int Z.eqb (table_of [(Interpreted, SetItem 1 10); (Compiled, SetItem 2 20)])
    [(Some 2, 20); (None, 10)] = Ok false.
Proof.
  split; [|split; vm_compute; reflexivity]. cbn [converted]. intros o [= <-]. cbn. repeat split; repeat constructor.
Qed.

(** When two keys of the Python dictionary become one key, the Dict may be called equal although it
    has a key that the dictionary does not have.  With the conversion of int to float: the Dict
    {2.0**53: 1, 7.0: 1} against {2**53: 1, 2**53 + 1: 1}. *)
Theorem C47_equality_with_python_dict_refuted :
  dict_eq_python Z.eqb hash_int Z.eqb
    (table_of [(Interpreted, SetItem 9007199254740992 1); (Interpreted, SetItem 7 1)])
    [(Some 9007199254740992, 1); (Some 9007199254740992, 1)] = Ok true.
Proof. vm_compute. reflexivity. Qed.
Print Assumptions C47_equality_with_python_dict_refuted.

(** [a.keys() == b.keys()] is only a comparison of sizes. *)
Theorem C47_equality_of_keys_is_of_sizes :
  forall K V (eqb : K -> K -> bool) (hash : K -> Z) (veqb : V -> V -> bool) (a b : table K V),
  good_key eqb hash -> table_ok eqb hash a -> table_ok eqb hash b ->
  dict_cmp eqb hash veqb false a b = Ok (count (idx a) =? count (idx b)).
Proof. intros K V eqb hash veqb a b G. exact (keys_cmp_ok eqb hash G veqb a b). Qed.
Print Assumptions C47_equality_of_keys_is_of_sizes.

Theorem C47_equality_of_keys_refuted :
  dict_cmp Z.eqb hash_int Z.eqb false (table_of [(Interpreted, SetItem 1 1)]) (table_of [(Interpreted, SetItem 2 2)]) = Ok true.
Proof. vm_compute. reflexivity. Qed.
Print Assumptions C47_equality_of_keys_refuted.

(** [v in d.values()] and [(k, v) in d.items()]. *)
Theorem C47_membership_in_views :
  forall K V (eqb : K -> K -> bool) (hash : K -> Z) (veqb : V -> V -> bool) (l : list (mode * op K V)) k v,
  good_key eqb hash -> m_within eqb max_keys (map snd l) [] ->
  exists t, run eqb hash l new_table = Ok (t, snd (m_run eqb (map snd l) [])) /\
    (in_values veqb v t = true <-> exists k w, In (k, w) (fst (m_run eqb (map snd l) [])) /\ veqb v w = true) /\
    (in_items eqb veqb (k, v) t = true <->
       exists w, m_lookup eqb (fst (m_run eqb (map snd l) [])) k = Some w /\ veqb v w = true).
Proof.
  intros K V eqb hash veqb l k v G Wl.
  destruct (run_ok eqb hash G l new_table [] (new_represents eqb hash) Wl) as [t [E [T L]]].
  exists t. split; [exact E|]. rewrite <- L. split; [apply in_values_ok|]. now apply (in_items_ok eqb hash G).
Qed.
Print Assumptions C47_membership_in_views.

(** ** C48 *)

(** [Dict(K, V)(mapping)]: when the converted keys are different, the Dict has the items of the
    mapping in its order. *)
Theorem C48_dict_of_mapping_partial :
  forall K V (eqb : K -> K -> bool) (hash : K -> Z) (l : list (K * V)),
  good_key eqb hash -> distinct_keys eqb l -> Z.of_nat (length l) <= max_keys ->
  exists t, construct_from_mapping eqb hash l = Ok t /\
    iter_all iter_next (S (length (items t))) t (iter_start t) = Ok l /\
    forall k, lookup_value eqb hash t k = Ok (m_lookup eqb l k).
Proof.
  intros K V eqb hash l G D L. destruct (construct_ok (W:=unit) eqb hash G (fun _ _ => true) (fun _ _ => true) l D L) as [t [E [T Hl]]].
  exists t. split; [exact E|]. split; [rewrite iter_all_ok; now rewrite Hl|].
  intros k. rewrite (lookup_value_ok eqb hash G t k T). now rewrite Hl.
Qed.
Print Assumptions C48_dict_of_mapping_partial.

Example C48_ex : distinct_keys Z.eqb [(3, 1); (1, 2); (9, 3)] /\
  match construct_from_mapping Z.eqb hash_int [(3, 1); (1, 2); (9, 3)] with
  | Ok t => lookup_value Z.eqb hash_int t 9 = Ok (Some 3) | Err _ => False end.
Proof. split; [repeat split; repeat constructor|vm_compute; reflexivity]. Qed.

(** Two keys of the mapping that become the same key, such as 2**53 and 2**53 + 1 as floats: the
    value is written over the handle of the new Dict. *)
Theorem C48_dict_of_mapping_refuted :
  construct_from_mapping Z.eqb hash_int [(9007199254740992, 1); (9007199254740992, 2)] = Err UndefinedBehaviour.
Proof. vm_compute. reflexivity. Qed.
Print Assumptions C48_dict_of_mapping_refuted.
