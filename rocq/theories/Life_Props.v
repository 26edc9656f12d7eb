(** C79: objects live exactly as long as something refers to them. *)
From Verif Require Import Base Life_Model Life_Spec Life_Proofs Life_Memory Life_Assign Life_Program.
Open Scope Z_scope.
Open Scope list_scope.

(** [full_statement]: in every program, interpreted or compiled, every object that is allocated has as many references as it counts, at
    least one; no reference is to memory that was freed; and what cannot be reached is freed.  Below: programs in the interpreter,
    assignments in both, and what fails. *)

(** Whatever a program does in the interpreter, counts are right after each step, no step uses freed memory, and none frees an object twice. *)
Theorem C79_programs_keep_counts_partial : forall steps, match run nothing steps with Ok m => sound m | Err e => harmless e end.
Proof. exact programs_sound. Qed.

(** What is allocated is what the variables lead to, unless objects refer to each other in a circle. *)
Theorem C79_allocated_is_reached_partial : forall m, sound m -> acyclic m -> forall a, find (objects m) a <> None <-> reached m a.
Proof. intros m S A a. split; [apply allocated_reached; assumption | apply reached_allocated; assumption]. Qed.

(** When the last value is gone, so is every object. *)
Theorem C79_everything_is_freed_partial : forall m, sound m -> acyclic m -> no_values m -> objects m = [].
Proof. exact all_freed. Qed.

(** Assignment, interpreted or compiled, gives a place its new value, leaves everything else alone and keeps the counts. *)
Theorem C79_assignments_keep_counts_partial : forall compiled m self other old new,
  sound m -> safe m self other -> read m self = Ok old -> read m other = Ok new -> fits old new = true -> settled compiled old new = true ->
  exists m', assigns compiled m self other = Ok m' /\ sound m' /\ changed m m' self new /\ read m' self = Ok new /\ read m' other = Ok new.
Proof. exact assigns_sound. Qed.

(** A member that had no value gets a copy of one. *)
Theorem C79_first_value_of_a_member_partial : forall compiled m a k other ms new,
  sound m -> whole m (At a) = Some (Members ms) -> nth_error ms k = Some None -> read m other = Ok new ->
  exists m', set_attribute compiled m a k other = Ok m' /\ sound m' /\ changed m m' (Place (At a) []) (Members (replace ms k (Some new))).
Proof. exact set_attribute_sound. Qed.

Theorem C79_deleted_member_partial : forall compiled m a k ms v,
  sound m -> held m (At a) a -> whole m (At a) = Some (Members ms) -> nth_error ms k = Some (Some v) ->
  exists m', del_attribute compiled m a k = Ok m' /\ sound m' /\ changed m m' (Place (At a) []) (Members (replace ms k None)).
Proof. exact del_attribute_sound. Qed.

Theorem C79_appended_element_partial : forall m a es other new,
  sound m -> whole m (At a) = Some (Row es) -> read m other = Ok new ->
  exists m', append m a other = Ok m' /\ sound m' /\ changed m m' (Place (At a) []) (Row (es ++ [Some new])).
Proof. exact append_sound. Qed.

Theorem C79_removed_element_partial : forall m a es i v,
  sound m -> held m (At a) a -> whole m (At a) = Some (Row es) -> nth_error es i = Some (Some v) ->
  exists m', remove m a i = Ok m' /\ sound m' /\ changed m m' (Place (At a) []) (Row (firstn i es ++ skipn (S i) es)).
Proof. exact remove_sound. Qed.

Theorem C79_cleared_cell_partial : forall m a v,
  sound m -> held m (At a) a -> whole m (At a) = Some (Members [Some v]) ->
  exists m', cell_clear false m a = Ok m' /\ sound m' /\ changed m m' (Place (At a) []) (Members [None]).
Proof. exact cell_clear_sound. Qed.

(** ** A program that meets the hypotheses *)

(** [t = "..."; l = ListOf(t, t); c = C(l, 7); c.x = ListOf(); del l; del c] and so on. *)
Definition a_program : list step :=
  [New 10 Text []; New 20 Array [0%nat; 0%nat]; Lit 7; New 30 Object [1%nat; 2%nat]; New 40 Array []; Choose 1 3; Tuple [5%nat; 0%nat];
   SetAttr 3 0 4; Append 1 0; Remove 1 0; DelAttr 3 1; SetAttr 3 1 0; Get 3 [0%nat]].

Example a_program_runs : exists m, run nothing a_program = Ok m /\ sound m /\
  map (fun p => (fst p, count (snd p))) (objects m) = [(40, 3); (30, 3); (20, 1); (10, 5)].
Proof.
  destruct (run nothing a_program) as [m | e] eqn:R; [| vm_compute in R; discriminate]. exists m. split; [reflexivity |].
  pose proof (programs_sound a_program) as P. rewrite R in P. split; [exact P |]. vm_compute in R. inversion R. reflexivity.
Qed.

Example a_program_ends : exists m, run nothing (a_program ++ map Drop [0; 1; 2; 3; 4; 5; 6; 7]%nat) = Ok m /\ no_values m /\ objects m = [].
Proof. eexists. split; [vm_compute; reflexivity |]. split; [repeat constructor | reflexivity]. Qed.

(** A list in a member of an object is assigned, in the interpreter and in compiled code, to a variable that has another list. *)
Definition a_memory : mem :=
  Mem [Some (Ref Array (Some 1)); Some (Ref Object (Some 2))]
      [(1, Node 1 (Row [Some (Ref Text (Some 4))])); (2, Node 1 (Members [Some (Ref Array (Some 3)); None])); (3, Node 1 (Row [])); (4, Node 1 (Plain 0))].

Lemma sound_by_cases m : NoDup (map fst (objects m)) ->
  Forall (fun p => 1 <= count (snd p) /\ count (snd p) = times (fst p) (references m)) (objects m) ->
  Forall (fun a => find (objects m) a <> None) (references m) ->
  Forall (fun o => match o with Some v => proper v = true | None => True end) (vars m) ->
  Forall (fun p => proper (body (snd p)) = true) (objects m) -> sound m.
Proof.
  intros N C D V P. rewrite Forall_forall in *. constructor.
  - exact N.
  - intros a n F. apply find_In in F. apply (C (a, n) F).
  - exact D.
  - intros [x | a] v H; [apply whole_var in H; apply (V (Some v)); eapply nth_error_In; exact H |].
    apply whole_at in H as (n & F & <-). apply find_In in F. apply (P (a, n) F).
Qed.

Ltac sound_memory :=
  apply sound_by_cases; cbn;
  [repeat constructor; cbn; intuition discriminate
  | repeat constructor; cbn; discriminate
  | repeat constructor; cbn; discriminate
  | repeat constructor
  | repeat constructor].

Lemma a_memory_sound : sound a_memory.
Proof. sound_memory. Qed.

Example a_memory_meets_hypotheses : forall compiled,
  sound a_memory /\ safe a_memory (Place (Var 0) []) (Place (At 2) [0%nat]) /\
  read a_memory (Place (Var 0) []) = Ok (Ref Array (Some 1)) /\ read a_memory (Place (At 2) [0%nat]) = Ok (Ref Array (Some 3)) /\
  fits (Ref Array (Some 1)) (Ref Array (Some 3)) = true /\ settled compiled (Ref Array (Some 1)) (Ref Array (Some 3)) = true /\
  acyclic a_memory /\ held a_memory (At 2) 2 /\ whole a_memory (At 2) = Some (Members [Some (Ref Array (Some 3)); None]).
Proof.
  intros c. split; [exact a_memory_sound |]. split.
  { split; [exact I |]. left. split; [discriminate |]. eapply by_variable with (y := 1%nat); [discriminate | reflexivity | left; reflexivity]. }
  split; [reflexivity |]. split; [reflexivity |]. split; [reflexivity |]. split; [reflexivity |]. split.
  { exists (fun a => if a =? 2 then 1%nat else if a =? 1 then 1%nat else O). intros a n b F O. apply find_In in F. cbn in F.
    destruct F as [F | [F | [F | [F | []]]]]; inversion F; subst; cbn in O; try contradiction;
      destruct O as [<- | []]; cbn; auto with arith. }
  split; [eapply by_variable with (y := 1%nat); [discriminate | reflexivity | left; reflexivity] | reflexivity].
Qed.

Example a_memory_assigned : forall compiled, exists m',
  assigns compiled a_memory (Place (Var 0) []) (Place (At 2) [0%nat]) = Ok m' /\ map (fun p => (fst p, count (snd p))) (objects m') = [(2, 1); (3, 2)].
Proof. intros []; eexists; (split; [vm_compute; reflexivity |]); reflexivity. Qed.

(** A tuple with a OneOf is assigned between two elements of one list. *)
Example elements_of_one_list : exists m', let t x := Parts [OneOf 1 (Ref Text (Some x)); Plain x] in
  let m := Mem [Some (Ref Array (Some 1))] [(1, Node 1 (Row [Some (t 2); Some (t 3)])); (2, Node 1 (Plain 0)); (3, Node 1 (Plain 0))] in
  sound m /\ safe m (Place (At 1) [0%nat]) (Place (At 1) [1%nat]) /\ settled false (t 2) (t 3) = true /\ fits (t 2) (t 3) = true /\
  assigns false m (Place (At 1) [0%nat]) (Place (At 1) [1%nat]) = Ok m' /\ map (fun p => (fst p, count (snd p))) (objects m') = [(1, 1); (3, 2)].
Proof.
  eexists. cbv zeta. split; [sound_memory |]. split.
  { split; [eapply by_variable with (y := 0%nat); [discriminate | reflexivity | left; reflexivity] |]. right. split; [reflexivity |].
    exists [], 0%nat, 1%nat, [], []. auto. }
  split; [reflexivity |]. split; [reflexivity |]. split; [vm_compute; reflexivity | reflexivity].
Qed.

(** ** What the hypotheses leave out *)

(** [x = x.next]: the compiled code reads the new value after it has destroyed the old one, which was all that held it. *)
Theorem C79_compiled_next_refuted : exists m, let x := Place (Var 0) [] in let next := Place (At 1) [0%nat] in
  sound m /\ read m x = Ok (Ref Object (Some 1)) /\ read m next = Ok (Ref Object (Some 2)) /\
  assigns true m x next = Err UndefinedBehaviour /\ exists m', assigns false m x next = Ok m' /\ sound m'.
Proof.
  exists (Mem [Some (Ref Object (Some 1))] [(1, Node 1 (Members [Some (Ref Object (Some 2))])); (2, Node 1 (Members [None]))]).
  cbv zeta. split; [sound_memory |]. split; [reflexivity |]. split; [reflexivity |]. split; [vm_compute; reflexivity |].
  eexists. split; [vm_compute; reflexivity |]. sound_memory.
Qed.

(** [s.next = s.next.next], where [s] itself stays. *)
Theorem C79_compiled_unlink_refuted : exists m,
  sound m /\ read m (Place (At 1) [0%nat]) = Ok (Ref Object (Some 2)) /\ read m (Place (At 2) [0%nat]) = Ok (Ref Object (Some 3)) /\
  assigns true m (Place (At 1) [0%nat]) (Place (At 2) [0%nat]) = Err UndefinedBehaviour.
Proof.
  exists (Mem [Some (Ref Object (Some 1))]
    [(1, Node 1 (Members [Some (Ref Object (Some 2))])); (2, Node 1 (Members [Some (Ref Object (Some 3))])); (3, Node 1 (Members [None]))]).
  split; [sound_memory |]. split; [reflexivity |]. split; [reflexivity |]. vm_compute. reflexivity.
Qed.

(** A HeldClass whose member is set is assigned to one whose member is not: the reference is counted and then forgotten, so the
    object is never freed, and the member still has no value. *)
Theorem C79_held_class_members_refuted : forall compiled, exists m m' n,
  sound m /\ read m (Place (Var 0) []) = Ok (Members [None]) /\ read m (Place (Var 1) []) = Ok (Members [Some (Ref Text (Some 1))]) /\
  assigns compiled m (Place (Var 0) []) (Place (Var 1) []) = Ok m' /\ read m' (Place (Var 0) []) = Ok (Members [None]) /\
  find (objects m') 1 = Some n /\ count n = 2 /\ times 1 (references m') = 1.
Proof.
  intros c. exists (Mem [Some (Members [None]); Some (Members [Some (Ref Text (Some 1))])] [(1, Node 1 (Plain 0))]).
  destruct c; (eexists; eexists; split; [sound_memory |]; split; [reflexivity |]; split; [reflexivity |]; split; [vm_compute; reflexivity |];
    split; [reflexivity |]; split; [reflexivity |]; split; reflexivity).
Qed.

(** An Alternative none of whose alternatives has members is a byte, which [assign] takes for a pointer. *)
Theorem C79_alternatives_without_members_refuted : exists m,
  sound m /\ read m (Place (Var 0) []) = Ok (Tag 0) /\ read m (Place (Var 1) []) = Ok (Tag 1) /\
  assigns false m (Place (Var 0) []) (Place (Var 1) []) = Err UndefinedBehaviour.
Proof.
  exists (Mem [Some (Tag 0); Some (Tag 1)] []). split; [sound_memory |]. split; [reflexivity |]. split; reflexivity.
Qed.

(** A TypedCell that compiled code has cleared destroys its value again when it goes away itself. *)
Theorem C79_compiled_clear_refuted : exists m m',
  sound m /\ cell_clear true m 1 = Ok m' /\ whole m' (At 1) = Some (Members [Some (Ref Text (Some 2))]) /\ find (objects m') 2 = None /\
  destroys true m' (Ref Cell (Some 1)) = Err UndefinedBehaviour.
Proof.
  exists (Mem [Some (Ref Cell (Some 1))] [(1, Node 1 (Members [Some (Ref Text (Some 2))])); (2, Node 1 (Plain 0))]).
  eexists. split; [sound_memory |]. split; [vm_compute; reflexivity |]. split; [reflexivity |]. split; [reflexivity |]. vm_compute. reflexivity.
Qed.

(** An object that holds itself is never freed. *)
Theorem C79_circles_refuted : exists m, run nothing [Lit 0; New 1 Object [0%nat]; DelAttr 1 0; SetAttr 1 0 1; Drop 0; Drop 1] = Ok m /\
  sound m /\ no_values m /\ ~ acyclic m /\ objects m = [(1, Node 1 (Members [Some (Ref Object (Some 1))]))].
Proof.
  eexists. split; [vm_compute; reflexivity |]. split; [sound_memory |]. split; [repeat constructor |]. split; [| reflexivity].
  intros (rank & R). specialize (R 1 _ 1 eq_refl (or_introl eq_refl)). exact (Nat.lt_irrefl _ R).
Qed.

Print Assumptions C79_programs_keep_counts_partial.
Print Assumptions C79_allocated_is_reached_partial.
Print Assumptions C79_everything_is_freed_partial.
Print Assumptions C79_assignments_keep_counts_partial.
Print Assumptions C79_first_value_of_a_member_partial.
Print Assumptions C79_deleted_member_partial.
Print Assumptions C79_appended_element_partial.
Print Assumptions C79_removed_element_partial.
Print Assumptions C79_cleared_cell_partial.
Print Assumptions C79_compiled_next_refuted.
Print Assumptions C79_compiled_unlink_refuted.
Print Assumptions C79_held_class_members_refuted.
Print Assumptions C79_alternatives_without_members_refuted.
Print Assumptions C79_compiled_clear_refuted.
Print Assumptions C79_circles_refuted.
