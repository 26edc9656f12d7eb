(** Theorems about ConstDict (C13, C14). *)
From Verif Require Import Base Sort_Spec Sort_Model Sort_Proofs Hash_Spec HashAcc_Model ConstDict_Model ConstDict_Spec ConstDict_Proofs ConstDict_Cmp_Proofs.
Open Scope Z_scope.
Open Scope result_scope.

(** A function that meets the contract of [std::sort], for the examples. *)
Definition some_sort (less : nat -> nat -> bool) (l : list nat) : list nat :=
  match sort less Nat.eqb l with Ok l' => l' | Err _ => l end.

Lemma some_sort_ok : std_sort_contract some_sort.
Proof.
  intros less l S. assert (equality_respects_order less Nat.eqb) as E.
  { intros x y H. apply Nat.eqb_eq in H. subst y. split; apply S. }
  unfold some_sort. destruct (sort_correct less Nat.eqb S E l) as [l' [-> [P N]]]. split; [now symmetry|exact N].
Qed.

Lemma Z_total : total_order Z.ltb Z.eqb.
Proof. split; [constructor; intros; lia|intros x y; lia]. Qed.

(** ** C13 *)

(** Every program that constructs ConstDicts from mappings with different keys and combines them with
    [+] and [-], in the interpreter or in compiled code, gives a dictionary whose keys ascend strictly
    and in which looking up any key, on either side, finds exactly what the program means. *)
Theorem C13_programs_partial :
  forall K V (lt eqb : K -> K -> bool) std_sort (e : expr K V),
  total_order lt eqb -> std_sort_contract std_sort -> distinct_sources eqb e ->
  exists d, eval lt eqb std_sort e = Ok d /\ ascending_keys lt d /\
    forall s k,
      get lt eqb s d k = Ok (meaning eqb e k) /\
      getitem lt eqb s d k = match meaning eqb e k with Some v => Ok v | None => Err KeyError end /\
      contains lt eqb s d k = Ok match meaning eqb e k with Some _ => true | None => false end.
Proof.
  intros K V lt eqb std_sort e TO SS D. destruct (eval_ok lt eqb TO std_sort SS e D) as [d [E [A L]]].
  exists d. split; [exact E|]. split; [now apply asc_ascending|]. intros s k. unfold getitem.
  rewrite (get_ok lt eqb TO s d k A), (contains_ok lt eqb TO s d k A), L. cbn [bind]. split; [reflexivity|].
  split; [reflexivity|]. now destruct (meaning eqb e k).
Qed.
Print Assumptions C13_programs_partial.

(** It does not matter where each step runs: the resulting dictionaries are identical. *)
Theorem C13_compiled_and_interpreted_agree :
  forall K V (lt eqb : K -> K -> bool) std_sort (e1 e2 : expr K V),
  total_order lt eqb -> std_sort_contract std_sort -> distinct_sources eqb e1 -> same_program e1 e2 ->
  eval lt eqb std_sort e1 = eval lt eqb std_sort e2.
Proof. intros K V lt eqb std_sort e1 e2 TO SS. exact (eval_sides lt eqb TO std_sort SS e1 e2). Qed.
Print Assumptions C13_compiled_and_interpreted_agree.

Definition example_program (s1 s2 : side) : expr Z Z :=
  Minus s2 (Plus s1 (Build s1 [(5, 50); (1, 10); (3, 30); (2, 20)]) (Build s2 [(4, 44); (3, 33); (9, 99)])) [2; 7; 9; 2].

Example C13_ex :
  distinct_sources Z.eqb (example_program Interpreter CompiledCode) /\
  same_program (example_program Interpreter CompiledCode) (example_program CompiledCode Interpreter) /\
  eval Z.ltb Z.eqb some_sort (example_program Interpreter CompiledCode) = Ok [(1, 10); (3, 33); (4, 44); (5, 50)] /\
  eval Z.ltb Z.eqb some_sort (example_program CompiledCode Interpreter) = Ok [(1, 10); (3, 33); (4, 44); (5, 50)].
Proof. vm_compute. repeat split; repeat constructor. Qed.

(** The condition on the sources is needed.  A Python dictionary can have different keys that are
    converted to the same key: 5 and 2^64 + 5 both become the 64-bit integer 5
    (PyRegisterTypeInstance.hpp:588-600), and the ConstDict has the key twice. *)
Theorem C13_duplicates_after_conversion_refuted :
  exists source : list (Z * Z), distinct_keys Z.eqb source /\
  forall std_sort,
    ~ ascending_keys Z.ltb (construct Z.ltb std_sort (map (fun kv => (wrap_s 64 (fst kv), snd kv)) source)).
Proof.
  exists [(5, 1); (2 ^ 64 + 5, 2)]. split; [vm_compute; repeat split; repeat constructor|]. intros std_sort A.
  specialize (A 0%nat 1%nat 5 1 5 2 ltac:(lia) eq_refl eq_refl). discriminate.
Qed.
Print Assumptions C13_duplicates_after_conversion_refuted.

(** Compiled code constructs a ConstDict from a dict display by storing every pair of the display
    (const_dict_wrapper.py:641-699): with two equal keys both stay, where the Python dictionary that
    the display means has one. *)
Theorem C13_dict_display_duplicates_refuted :
  exists display : list (Z * Z), length (m_update Z.eqb [] display) = 1%nat /\
  forall std_sort, length (construct Z.ltb std_sort display) = 2%nat /\
    ~ ascending_keys Z.ltb (construct Z.ltb std_sort display).
Proof.
  exists [(7, 1); (7, 2)]. split; [reflexivity|]. intros std_sort. split; [reflexivity|]. intros A.
  specialize (A 0%nat 1%nat 7 1 7 2 ltac:(lia) eq_refl eq_refl). discriminate.
Qed.
Print Assumptions C13_dict_display_duplicates_refuted.

(** ** C14 *)

(** In the interpreter the six operators on ConstDicts form a total order.  A ConstDict is an address;
    two names of one object are compared by address first. *)
Theorem C14_interpreter_order :
  forall K V (lt eqb : K -> K -> bool) (vlt veqb : V -> V -> bool) (heap : nat -> list (K * V)),
  total_order lt eqb -> total_order vlt veqb ->
  good_comparison (fun op a b => cmp lt eqb vlt veqb true op (Nat.eqb a b) (heap a) (heap b)).
Proof. intros K V lt eqb vlt veqb heap TO VTO. exact (cmp_good lt eqb vlt veqb TO VTO heap). Qed.
Print Assumptions C14_interpreter_order.

(** So they do in compiled code. *)
Theorem C14_compiled_order :
  forall K V (lt eqb : K -> K -> bool) (vlt veqb : V -> V -> bool),
  total_order lt eqb -> total_order vlt veqb -> good_comparison (compiled_cmp lt eqb vlt veqb).
Proof. intros K V lt eqb vlt veqb TO VTO. exact (compiled_good lt eqb vlt veqb TO VTO). Qed.
Print Assumptions C14_compiled_order.

(** But the two orders are different: the interpreter compares sizes first, compiled code the first
    keys. *)
Theorem C14_same_order_compiled_refuted :
  exists a b : list (Z * Z), ascending_keys Z.ltb a /\ ascending_keys Z.ltb b /\
    cmp Z.ltb Z.eqb Z.ltb Z.eqb true LT false a b = false /\ compiled_cmp Z.ltb Z.eqb Z.ltb Z.eqb LT a b = true.
Proof.
  exists [(1, 0); (2, 0)], [(3, 0)]. split; [|split; [|split; reflexivity]]; apply asc_ascending; vm_compute; repeat constructor.
Qed.
Print Assumptions C14_same_order_compiled_refuted.

(** Two ConstDicts are equal, on either side, exactly when they have the same keys with equal values. *)
Theorem C14_equal_iff_same_items :
  forall K V (lt eqb : K -> K -> bool) (vlt veqb : V -> V -> bool) std_sort (e1 e2 : expr K V),
  total_order lt eqb -> total_order vlt veqb -> std_sort_contract std_sort ->
  distinct_sources eqb e1 -> distinct_sources eqb e2 ->
  exists a b, eval lt eqb std_sort e1 = Ok a /\ eval lt eqb std_sort e2 = Ok b /\
    forall same : bool, (same = true -> a = b) ->
      cmp lt eqb vlt veqb true EQ same a b = compiled_cmp lt eqb vlt veqb EQ a b /\
      (cmp lt eqb vlt veqb true EQ same a b = true <-> forall k,
         match meaning eqb e1 k, meaning eqb e2 k with
         | Some v, Some w => veqb v w = true
         | None, None => True
         | _, _ => False
         end).
Proof.
  intros K V lt eqb vlt veqb std_sort e1 e2 TO VTO SS D1 D2.
  destruct (eval_ok lt eqb TO std_sort SS e1 D1) as [a [E1 [A1 L1]]]. destruct (eval_ok lt eqb TO std_sort SS e2 D2) as [b [E2 [A2 L2]]].
  exists a, b. split; [exact E1|]. split; [exact E2|]. intros same Hs.
  rewrite (cmp_eq_compiled lt eqb vlt veqb TO VTO same a b Hs). split; [reflexivity|].
  rewrite const_dict_eq_pairwise. split.
  - intros P k. rewrite <- L1, <- L2. exact (pairwise_same lt eqb veqb TO a b P k).
  - intros H. apply (same_pairwise lt eqb veqb TO); auto. intros k. rewrite L1, L2. apply H.
Qed.
Print Assumptions C14_equal_iff_same_items.

(** Equal ConstDicts have equal hashes, whichever of their caches are filled; and filling a cache
    leaves it right. *)
Theorem C14_equal_hash :
  forall K V (lt eqb : K -> K -> bool) (vlt veqb : V -> V -> bool) (khash : K -> Z) (vhash : V -> Z)
         (a b : list (K * V)) (same : bool) (c1 c2 : Z),
  total_order lt eqb -> total_order vlt veqb ->
  (forall x y, eqb x y = true -> khash x = khash y) -> (forall x y, veqb x y = true -> vhash x = vhash y) ->
  (c1 = -1 \/ c1 = computed_hash khash vhash a) -> (c2 = -1 \/ c2 = computed_hash khash vhash b) ->
  (same = true -> a = b) -> cmp lt eqb vlt veqb true EQ same a b = true ->
  fst (hash khash vhash c1 a) = fst (hash khash vhash c2 b) /\
  (snd (hash khash vhash c1 a) = -1 \/ snd (hash khash vhash c1 a) = computed_hash khash vhash a).
Proof.
  intros K V lt eqb vlt veqb khash vhash a b same c1 c2 TO VTO KH VH C1 C2 Hs E.
  rewrite (cmp_eq_compiled lt eqb vlt veqb TO VTO same a b Hs) in E. apply const_dict_eq_pairwise in E.
  split; [exact (equal_hash eqb veqb khash vhash KH VH a b c1 c2 E C1 C2)|exact (proj2 (hash_ok khash vhash c1 a C1))].
Qed.
Print Assumptions C14_equal_hash.

Example C14_ex :
  good_comparison (compiled_cmp Z.ltb Z.eqb Z.ltb Z.eqb) /\
  cmp Z.ltb Z.eqb Z.ltb Z.eqb true EQ false [(1, 10); (3, 33)] [(1, 10); (3, 33)] = true /\
  cmp Z.ltb Z.eqb Z.ltb Z.eqb true LT false [(1, 10); (3, 33)] [(1, 11); (3, 3)] = true /\
  hash (fun x => x) (fun x => x) (-1) [(1, 10); (3, 33)] = hash (fun x => x) (fun x => x) (fst (hash (fun x => x) (fun x => x) (-1) [(1, 10); (3, 33)])) [(1, 10); (3, 33)].
Proof.
  split; [exact (C14_compiled_order Z Z Z.ltb Z.eqb Z.ltb Z.eqb Z_total Z_total)|]. split; [|split]; vm_compute; reflexivity.
Qed.

(** [a.keys() == b.keys()] says whether the keys are the same. *)
Theorem C14_keys_view_equality :
  forall K V (lt eqb : K -> K -> bool) (vlt veqb : V -> V -> bool) (a b : list (K * V)) (same : bool),
  total_order lt eqb -> total_order vlt veqb -> ascending_keys lt a -> ascending_keys lt b -> (same = true -> a = b) ->
  (cmp lt eqb vlt veqb false EQ same a b = true <->
   forall k, (exists v, m_lookup eqb a k = Some v) <-> (exists v, m_lookup eqb b k = Some v)).
Proof.
  intros K V lt eqb vlt veqb a b same TO VTO A B Hs. apply asc_ascending in A. apply asc_ascending in B.
  rewrite (cmp_keys_eq lt eqb vlt veqb TO VTO same a b Hs), const_dict_eq_pairwise. split.
  - intros P k. pose proof (pairwise_same lt eqb _ TO a b P k) as S.
    destruct (m_lookup eqb a k), (m_lookup eqb b k); split; intros [? ?]; eauto; try discriminate; contradiction.
  - intros H. apply (same_pairwise lt eqb _ TO); auto. intros k. specialize (H k).
    destruct (m_lookup eqb a k) as [v|], (m_lookup eqb b k) as [w|]; auto.
    + destruct H as [H _]. destruct H; [eauto|discriminate].
    + destruct H as [_ H]. destruct H; [eauto|discriminate].
Qed.
Print Assumptions C14_keys_view_equality.

(** [a.keys() != b.keys()] compares the values too, so both [==] and [!=] can hold of two key views. *)
Theorem C14_keys_view_inequality_refuted :
  exists a b : list (Z * Z), ascending_keys Z.ltb a /\ ascending_keys Z.ltb b /\
    cmp Z.ltb Z.eqb Z.ltb Z.eqb false EQ false a b = true /\ cmp Z.ltb Z.eqb Z.ltb Z.eqb false NE false a b = true.
Proof.
  exists [(1, 0)], [(1, 1)]. split; [|split; [|split; reflexivity]]; apply asc_ascending; vm_compute; repeat constructor.
Qed.
Print Assumptions C14_keys_view_inequality_refuted.
