(** C37: a ListOf behaves like a Python list.  C54: slices of ListOf and TupleOf are Python's slices. *)
From Coq Require Import List.
From Verif Require Import Base PyList ListOf_Model ListOf_Spec ListOf_Proofs ListOf_Run_Proofs.
From Coq Require Import ZifyBool ZifyNat.
Open Scope Z_scope.
Open Scope result_scope.

(** ** C37 *)

(** The ways to make a list: [ListOf(T)()], the same in compiled code, and [ListOf(T)(iterable)]. *)
Inductive made {V} (w : Z) : result (@lst V) -> list V -> Prop :=
| by_interpreter : made w (empty w) []
| by_compiled_code : made w (c_empty w) []
| from_iterable vs : zlength vs <= most -> made w (construct_iterable w vs) vs.

(** However a list was made, and whichever operations interpreted and compiled code then do to it in turn,
    nothing undefined happens, every reply is the one Python gives, the list is the one Python ends up with,
    and there is room for it. *)
Theorem C37_history_partial {V} (w : Z) (pod by_ref : bool) (default : V) (made_as : result lst) (xs : list V) (h : list (mode * op)) :
  0 < w <= 32768 -> made w made_as xs -> admissible_history default by_ref xs h ->
  exists l l' replies,
    made_as = Ok l /\ run w pod by_ref default l h = Ok (l', replies) /\
    Forall2 answers replies (snd (python_run default xs h)) /\
    represents l' (fst (python_run default xs h)) /\
    zlength (fst (python_run default xs h)) <= reserved l' <= capacity (cells l').
Proof.
  intros Hw Hm Ha.
  assert (Hl : exists l, made_as = Ok l /\ represents l xs).
  { destruct Hm as [| |vs Hv].
    - destruct (empty_ok (V := V) w) as [rest [E Hf]]; [assumption..|]; eexists; split; [exact E|apply represents_mk; eauto].
    - destruct (c_empty_ok (V := V) w Hw) as [rest [E Hf]]; eexists; split; [exact E|apply represents_mk; eauto].
    - apply construct_iterable_ok; assumption. }
  destruct Hl as [l [-> Hr]].
  destruct (run_ok w pod by_ref default Hw h l xs Hr Ha) as [l' [rs [E [Hr' Hrs]]]].
  exists l, l', rs; repeat split; try assumption; try apply Hr'. destruct Hr' as [_ [_ [Hc _]]]; lia.
Qed.
Print Assumptions C37_history_partial.

(** The same for one operation on any list that is in order. *)
Theorem C37_operation_partial {V} (w : Z) (pod by_ref : bool) (default : V) (m : mode) (l : lst) (xs : list V) (o : op) :
  0 < w <= 32768 -> represents l xs -> admissible by_ref m xs o ->
  exists l' reply,
    step w pod by_ref default m l o = Ok (l', reply) /\
    represents l' (fst (python_step default xs o)) /\ answers reply (snd (python_step default xs o)).
Proof. intros Hw Hr Ha; exact (step_ok w pod by_ref default Hw m l xs o Hr Ha). Qed.
Print Assumptions C37_operation_partial.

(** Reversal in place, which the string types use. *)
Theorem C37_reverse {V} (l : lst) (xs : list V) : represents l xs -> exists l', reverse l = Ok l' /\ represents l' (rev xs).
Proof. exact (reverse_ok l xs). Qed.
Print Assumptions C37_reverse.

(** A history that does everything once; strings (8 bytes, passed by pointer) as elements. *)
Definition example_history : list (mode * @op Z) :=
  [(Interpreted, Append (Value 4)); (Compiled, Append (Value 5)); (Interpreted, Append (Own 0)); (Interpreted, ExtendSelf);
   (Compiled, ExtendTyped [7; 8]); (Interpreted, ExtendIterable [9]); (Compiled, Pop (Some (-2))); (Interpreted, Pop None);
   (Compiled, Set_ (-1) 70); (Interpreted, Get 100); (Compiled, Slice (Some 5) None (Some (-2))); (Interpreted, Slice None (Some (10 ^ 30)) (Some 5));
   (Compiled, Resize 20 (Some 1)); (Interpreted, Resize 6 None); (Compiled, Reserve (-1)); (Interpreted, Reserve 100);
   (Compiled, Copy); (Interpreted, AddTyped [11]); (Compiled, Len); (Interpreted, Reserved); (Compiled, Clear)].
Example C37_case :
  admissible_history 0 true [1; 2; 3] example_history /\
  python_run 0 [1; 2; 3] example_history =
  ([], [ANothing; ANothing; ANothing; ANothing; ANothing; ANothing; AItem 8; AItem 9; ANothing; ARaised IndexError;
        AList [1; 4; 2]; AList [1; 1; 5]; ANothing; ANothing; ANothing; ANothing;
        AList [1; 2; 3; 4; 5; 1]; AList [1; 2; 3; 4; 5; 1; 11]; ANumber 6; AAtLeast 6; ANothing]) /\
  match construct_iterable 8 [1; 2; 3] with
  | Ok l => match run 8 false true 0 l example_history with Ok (l', replies) => count l' = 0 /\ length replies = 21%nat | _ => False end
  | Err _ => False
  end.
Proof.
  split; [|split; vm_compute; [reflexivity|split; reflexivity]].
  cbn [admissible_history example_history admissible python_step fst snd opt].
  repeat match goal with |- _ /\ _ => split | |- True => exact I | |- _ \/ _ => left; reflexivity | |- context [zlength] => vm_compute; intuition congruence
         | |- _ => unfold int64, moderate, most; lia end.
Qed.

(** *** What is excepted goes wrong *)

(** [l.reserve(-1)] in the interpreter gives memory away that the list needs; compiled code does not. *)
Theorem C37_interpreted_reserve_refuted : exists l : @lst Z, represents l [1; 2; 3] /\
  (exists l', step 8 true false 0 Interpreted l (Reserve (-1)) = Ok (l', Nothing) /\
     count l' = 3 /\ reserved l' = -1 /\ capacity (cells l') = 0 /\ step 8 true false 0 Interpreted l' (Get 0) = Err UndefinedBehaviour) /\
  (exists l', step 8 true false 0 Compiled l (Reserve (-1)) = Ok (l', Nothing) /\ represents l' [1; 2; 3]).
Proof.
  exists (mk [1; 2; 3] [None]). split; [apply represents_mk; exists [None]; split; reflexivity|]. split.
  - eexists; split; [vm_compute; reflexivity|]; repeat split.
  - exists (mk [1; 2; 3] []); split; [reflexivity|apply represents_mk; exists []; split; reflexivity].
Qed.
Print Assumptions C37_interpreted_reserve_refuted.

(** [l.resize(-1)]: undefined in the interpreter, a list of length -1 in compiled code. *)
Theorem C37_resize_refuted : exists l : @lst Z, represents l [1; 2; 3] /\
  step 8 true false 0 Interpreted l (Resize (-1) None) = Err UndefinedBehaviour /\
  exists l', step 8 true false 0 Compiled l (Resize (-1) None) = Ok (l', Nothing) /\
    step 8 true false 0 Compiled l' Len = Ok (l', Number (-1)).
Proof.
  exists (mk [1; 2; 3] [None]). split; [apply represents_mk; exists [None]; split; reflexivity|].
  split; [vm_compute; reflexivity|]. eexists; split; vm_compute; reflexivity.
Qed.
Print Assumptions C37_resize_refuted.

(** [l[2**70]], [l[2**70] = 9] and [l.pop(2**70)] act on the last element, and leave an OverflowError behind. *)
Theorem C37_big_index_refuted : exists l : @lst Z, represents l [1; 2; 3] /\
  snd (python_step 0 [1; 2; 3] (Get (2 ^ 70))) = ARaised IndexError /\
  step 8 true false 0 Interpreted l (Get (2 ^ 70)) = Ok (l, Pending (Item 3)) /\
  (exists l', step 8 true false 0 Interpreted l (Set_ (2 ^ 70) 9) = Ok (l', Pending Nothing) /\ represents l' [1; 2; 9]) /\
  (exists l', step 8 true false 0 Interpreted l (Pop (Some (2 ^ 70))) = Ok (l', Pending (Item 3)) /\ represents l' [1; 2]).
Proof.
  exists (mk [1; 2; 3] [None]). split; [apply represents_mk; exists [None]; split; reflexivity|].
  split; [vm_compute; reflexivity|]. split; [vm_compute; reflexivity|]. split.
  - exists (mk [1; 2; 9] [None]); split; [vm_compute; reflexivity|apply represents_mk; exists [None]; split; reflexivity].
  - exists (mk [1; 2] [None; None]); split; [vm_compute; reflexivity|apply represents_mk; exists [None; None]; split; reflexivity].
Qed.
Print Assumptions C37_big_index_refuted.

(** [l.append(l[0])] and [l.extend(l)] in compiled code, with elements that are passed by pointer (such as
    str), on a list without free room: the element is read from the old block. *)
Theorem C37_compiled_append_own_refuted : exists l : @lst Z, represents l [1; 2; 3] /\
  step 8 false true 0 Compiled l (Append (Own 0)) = Err UndefinedBehaviour /\
  step 8 false true 0 Compiled l ExtendSelf = Err UndefinedBehaviour /\
  exists l', step 8 false true 0 Interpreted l (Append (Own 0)) = Ok (l', Nothing).
Proof.
  exists (mk [1; 2; 3] []). split; [apply represents_mk; exists []; split; reflexivity|].
  split; [vm_compute; reflexivity|]. split; [vm_compute; reflexivity|]. eexists; vm_compute; reflexivity.
Qed.
Print Assumptions C37_compiled_append_own_refuted.

(** While there is free room, [l.append(l[i])] in compiled code is right for such elements too. *)
Theorem C37_compiled_append_own_room {V} (w : Z) (pod by_ref : bool) (default : V) (l : lst) (xs : list V) (i : Z) :
  0 < w <= 32768 -> represents l xs -> 0 <= i < zlength xs -> zlength xs < most -> zlength xs < reserved l ->
  exists l', step w pod by_ref default Compiled l (Append (Own i)) = Ok (l', Nothing) /\
             represents l' (xs ++ [nth (Z.to_nat i) xs default]).
Proof.
  intros Hw Hr Hi Hm Hf.
  assert (E : step w pod by_ref default Compiled l (Append (Own i)) = step w pod false default Compiled l (Append (Own i))).
  { cbn [step compiled]. unfold c_append. cbv zeta.
    replace (reserved l <? count l + 1) with false by (destruct Hr as [Hc _]; lia).
    unfold operand_value. rewrite andb_false_r. reflexivity. }
  destruct (C37_operation_partial w pod false default Compiled l xs (Append (Own i)) Hw Hr) as (l' & r & E' & Hl & Ha).
  { cbn [admissible]. auto. }
  exists l'. rewrite E, E'. cbn [python_step fst snd] in *. split; [|exact Hl]. destruct r; cbn in Ha; try contradiction; reflexivity.
Qed.
Print Assumptions C37_compiled_append_own_room.

(** A full list of more than 1717986917 elements: after the next append the recorded capacity is negative. *)
Theorem C37_huge_refuted {V} (w : Z) (xs : list V) v :
  0 < w <= 32768 -> most < zlength xs < 2 ^ 31 - 1 ->
  exists l l', represents l xs /\ append w l v = Ok l' /\ reserved l' < 0 /\ count l' = zlength xs + 1.
Proof.
  intros Hw Hx. enough (H : exists l', append w (mk xs []) v = Ok l' /\ reserved l' < 0 /\ count l' = zlength xs + 1).
  { destruct H as [l' H]. exists (mk xs []), l'. split; [apply represents_mk; exists []; split; [reflexivity|unfold fits; cbn [length]; lia]|exact H]. }
  unfold append. cbn [mk count reserved]. change (Z.of_nat (length (@nil (option V)))) with 0. rewrite Z.add_0_r, Z.eqb_refl.
  unfold most in Hx. assert (Hg : 2 ^ 31 <= grown (zlength xs) < 2 ^ 32 - 1).
  { unfold grown. rewrite Z.quot_div_nonneg by lia. lia. }
  assert (Hgx : zlength xs < grown (zlength xs)) by lia.
  set (g := grown (zlength xs)) in *. clearbody g. unfold mk; cbn [cells]. rewrite app_nil_r.
  assert (Hwg : 0 < w * g < 2 ^ 47 - 16) by nia.
  assert (Hfit : fitting w (wrap_u 64 (w * g)) = Ok (Z.to_nat g)).
  { rewrite wrap_u64_small by lia. unfold fitting. destruct (w * g =? 0) eqn:E; [lia|]. cbv zeta.
    rewrite wrap_u64_small by lia. destruct ((w * g + 16 <? 8) || (2 ^ 47 <? w * g + 16)) eqn:E2; [lia|].
    f_equal. f_equal. replace (Z.max 0 (w * g + 16 - 16)) with (g * w) by lia. apply Z.div_mul; lia. }
  unfold realloc; rewrite Hfit; cbn [bind cells count reserved].
  rewrite firstn_all2 by (rewrite map_length; unfold zlength in *; lia). rewrite map_length.
  destruct (Z.to_nat g - length xs)%nat as [|k] eqn:Ek; [unfold zlength in *; lia|]. cbn [repeat].
  rewrite write_next by reflexivity. cbn [bind]. eexists. split; [reflexivity|]. cbn [reserved count].
  split; [|apply wrap_s32_small; lia].
  unfold wrap_s. rewrite Z.mod_small by (change (2 ^ 32) with 4294967296 in *; lia).
  change (2 ^ (32 - 1)) with (2 ^ 31). destruct (g <? 2 ^ 31) eqn:E; lia.
Qed.
Print Assumptions C37_huge_refuted.
Example C37_huge_case : exists xs : list Z, most < zlength xs < 2 ^ 31 - 1.
Proof.
  assert (H : forall n, exists xs : list Z, zlength xs = Z.of_nat n) by (intros n; exists (repeat 0 n); unfold zlength; rewrite repeat_length; reflexivity).
  destruct (H (Z.to_nat (most + 1))) as [xs Hx]. exists xs. rewrite Hx, Z2Nat.id; unfold most; lia.
Qed.

(** ** C54 *)

(** In the interpreter, a slice with any bounds and any step but 0 is Python's slice. *)
Theorem C54_interpreted {V} (w : Z) (pod : bool) (default : V) (l : lst) (xs : list V) (start stop step : option Z) :
  let k := match step with None => 1 | Some k => k end in
  0 < w <= 32768 -> represents l xs -> k <> 0 ->
  exists new, interpreted w pod default l (Slice start stop step) = Ok (l, NewList new) /\
    represents new (items_at xs (slice_positions (zlength xs) start stop k)).
Proof. cbv zeta. intros Hw [rest [-> Hf]]%represents_mk Hk. apply interpreted_slice_ok; assumption. Qed.
Print Assumptions C54_interpreted.

(** In compiled code, with moderate bounds and step; a slice of a TupleOf must not be empty. *)
Theorem C54_compiled_partial {V} (w : Z) (is_tuple : bool) (l : lst) (xs : list V) (start stop step : option Z) :
  let k := match step with None => 1 | Some k => k end in
  let slice := items_at xs (slice_positions (zlength xs) start stop k) in
  0 < w <= 32768 -> represents l xs -> k <> 0 -> opt moderate start -> opt moderate stop -> opt moderate step ->
  (is_tuple = true -> slice <> []) ->
  exists new, c_slice w is_tuple l start stop step = Ok (inl new) /\ represents new slice.
Proof. cbv zeta. intros Hw [rest [-> Hf]]%represents_mk Hk Hs He Hst Ht. apply c_slice_ok; assumption. Qed.
Print Assumptions C54_compiled_partial.

(** A step of 0 is a ValueError in both. *)
Theorem C54_zero_step {V} (w : Z) (pod is_tuple : bool) (default : V) (l : lst) (start stop : option Z) :
  interpreted w pod default l (Slice start stop (Some 0)) = Ok (l, Raised ValueError) /\
  c_slice w is_tuple l start stop (Some 0) = Ok (inr ValueError).
Proof. split; reflexivity. Qed.
Print Assumptions C54_zero_step.

Example C54_case :
  items_at [10; 11; 12; 13; 14] (slice_positions 5 (Some (-2)) None (-2)) = [13; 11].
Proof. reflexivity. Qed.
Example C54_compiled_case : exists l new : @lst Z, represents l [10; 11; 12; 13; 14] /\
  c_slice 8 true l (Some (-2)) None (Some (-2)) = Ok (inl new) /\ represents new [13; 11].
Proof.
  exists (mk [10; 11; 12; 13; 14] []), (mk [13; 11] []). repeat split; vm_compute; congruence.
Qed.

(** Compiled code stores the size of an empty TupleOf through a null pointer: [t[:0]]. *)
Theorem C54_compiled_empty_tuple_refuted : exists l : @lst Z, represents l [1; 2; 3] /\
  slice_positions 3 None (Some 0) 1 = [] /\ c_slice 8 true l None (Some 0) None = Err UndefinedBehaviour.
Proof. exists (mk [1; 2; 3] []). repeat split; vm_compute; congruence. Qed.
Print Assumptions C54_compiled_empty_tuple_refuted.

(** The count of the elements overflows: [l[::2**63 - 1]] stores an element where there is room for none. *)
Theorem C54_compiled_big_step_refuted : exists l : @lst Z, represents l [1; 2; 3] /\
  items_at [1; 2; 3] (slice_positions 3 None None (2 ^ 63 - 1)) = [1] /\
  c_slice 8 false l None None (Some (2 ^ 63 - 1)) = Err UndefinedBehaviour.
Proof. exists (mk [1; 2; 3] []). repeat split; vm_compute; congruence. Qed.
Print Assumptions C54_compiled_big_step_refuted.
(** Their difference overflows: [l[2**63 - 1:-2**63]] has four elements that were never constructed. *)
Theorem C54_compiled_big_bounds_refuted : exists l new : @lst Z, represents l [1; 2; 3] /\
  slice_positions 3 (Some (2 ^ 63 - 1)) (Some (- 2 ^ 63)) 1 = [] /\
  c_slice 8 false l (Some (2 ^ 63 - 1)) (Some (- 2 ^ 63)) None = Ok (inl new) /\ count new = 4 /\ cells new = [None; None; None; None].
Proof. exists (mk [1; 2; 3] []), (Lst [None; None; None; None] 4 4). repeat split; vm_compute; congruence. Qed.
Print Assumptions C54_compiled_big_bounds_refuted.
