(** Property C69: compiled code calls the method of the object's own class, whatever class it knows the object as. *)
From Verif Require Import Base Class_Model Class_Spec Class_Proofs Disp_Model Disp_Spec Disp_Table_Proofs Disp_Proofs Disp_Step_Proofs.
Open Scope list_scope.
Open Scope Z_scope.

(** Every answer of every program is the one a user expects: each call runs the code by which the object's own class
    answers the signature of the call site, and each cast succeeds if the object's class inherits from the other one.
    This holds however classes, loads of code, objects, casts and calls follow each other, and whatever slots code
    that is compiled in the middle of a call needs.  [partial]: one thread at a time, and code always compiles. *)
Theorem C69_calls_run_the_code_of_the_objects_class_partial : forall ps,
  all_sensible ideal_nothing nil ps -> snd (run nothing ps) = snd (ideal_run ideal_nothing ps).
Proof. intros ps H. exact (proj2 (run_right ps _ _ _ _ inv_start H)). Qed.
Print Assumptions C69_calls_run_the_code_of_the_objects_class_partial.

(** The last operation of a program, in words: a call at a site for class [a] and signature [s] of an object of class
    [c] that is known as an [a] runs the code of [c] for [s]. *)
Lemma ideal_run_app : forall ps qs st, ideal_run st (ps ++ qs) =
  (fst (ideal_run (fst (ideal_run st ps)) qs), snd (ideal_run st ps) ++ snd (ideal_run (fst (ideal_run st ps)) qs)).
Proof.
  induction ps as [|p ps IH]; intros qs st; cbn [app ideal_run fst snd]; [now destruct (ideal_run st qs)|].
  destruct (ideal_step st p) as (st1, a). rewrite IH. destruct (ideal_run st1 ps) as (st2, l). reflexivity.
Qed.
Lemma ideal_run_last : forall ps p, 
  last (snd (ideal_run ideal_nothing (ps ++ [p]))) Done = snd (ideal_step (fst (ideal_run ideal_nothing ps)) p).
Proof.
  intros ps p. rewrite ideal_run_app. cbn [snd ideal_run]. destruct (ideal_step (fst (ideal_run ideal_nothing ps)) p) as (st, a).
  cbn [snd]. apply last_last.
Qed.
Theorem C69_one_call_partial : forall ps site x loads a c s,
  all_sensible ideal_nothing nil (ps ++ [Call site x loads]) ->
  nth_error (i_vars (fst (ideal_run ideal_nothing ps))) x = Some (a, c) ->
  nth_error (i_sites (fst (ideal_run ideal_nothing ps))) site = Some (a, s) ->
  last (snd (run nothing (ps ++ [Call site x loads]))) Done = Ran c s.
Proof.
  intros ps site x loads a c s H V L. rewrite C69_calls_run_the_code_of_the_objects_class_partial by exact H. rewrite ideal_run_last.
  cbn [ideal_step]. rewrite V, L, Nat.eqb_refl. reflexivity.
Qed.
Print Assumptions C69_one_call_partial.

(** A cast succeeds if and only if the class of the object is the other class or inherits from it, whether the class
    that the object is known as is a base, a subclass or a sibling of the other. *)
Lemma all_sensible_app : forall ps qs st used, all_sensible st used (ps ++ qs) -> all_sensible st used ps.
Proof. induction ps as [|p ps IH]; intros qs st used H; [exact I|]. destruct H as (H1 & H2). split; [exact H1|]. eapply IH; exact H2. Qed.
Theorem C69_casts_follow_inheritance_partial : forall ps x a c b,
  all_sensible ideal_nothing nil (ps ++ [Cast x b]) ->
  nth_error (i_vars (fst (ideal_run ideal_nothing ps))) x = Some (a, c) ->
  exists answer, last (snd (run nothing (ps ++ [Cast x b]))) Done = Truth answer /\
    (answer = true <-> ancestor (bases_of (i_world (fst (ideal_run ideal_nothing ps)))) c b).
Proof.
  intros ps x a c b H V. rewrite C69_calls_run_the_code_of_the_objects_class_partial by exact H. rewrite ideal_run_last.
  destruct (run_right ps _ _ _ _ inv_start (all_sensible_app _ _ _ _ H)) as ((slots & used & IV) & _).
  set (id := fst (ideal_run ideal_nothing ps)) in *. assert (S := core_sound _ _ (inv_core _ _ _ _ IV)).
  rewrite <- (inv_world _ _ _ _ IV) in S. cbn [ideal_step]. rewrite V. exists (is_subclass (i_world id) c b). split.
  - now destruct (is_subclass (i_world id) c b).
  - rewrite <- (order_ancestor _ _ _ S). apply order_subclass.
Qed.
Print Assumptions C69_casts_follow_inheritance_partial.

(** Compiled code never reads a pointer that was not written, a table that is not there or an object that is not one. *)
Lemma ideal_sound : forall st p, sound (i_world st) -> (forall bs b, p = ClassStatement bs b -> NoDup bs) ->
  sound (i_world (fst (ideal_step st p))).
Proof.
  intros st p S N.
  destruct p as [bs b|c|a s|c address|a c address|x b|site x loads|site c loads|c s loads]; cbn [ideal_step]; auto.
  - destruct (make (i_world st) bs b) as [w'|x] eqn:E; [|exact S]. cbn [fst i_world]. eapply sound_step; [exact S| |exact E].
    now apply (N bs b).
  - cbn [fst i_world]. now apply sound_again.
  - destruct (is_subclass (i_world st) c a); exact S.
  - destruct (nth_error (i_vars st) x) as [(a, c)|]; [|exact S]. destruct (is_subclass (i_world st) c b); exact S.
  - destruct (nth_error (i_vars st) x) as [(a, c)|]; [|exact S]. destruct (nth_error (i_sites st) site) as [(a', s)|]; [|exact S].
    destruct (Nat.eqb a a'); exact S.
  - destruct (nth_error (i_sites st) site) as [(a', s)|]; exact S.
Qed.
Lemma ideal_failures : forall ps st e, In (Failure e) (snd (ideal_run st ps)) -> sound (i_world st) ->
  (forall bs b, In (ClassStatement bs b) ps -> NoDup bs) -> e = GenericError \/ e = TypeError.
Proof.
  induction ps as [|p ps IH]; intros st e I S N; cbn [ideal_run] in I; [destruct I|].
  assert (S' : sound (i_world (fst (ideal_step st p)))) by (apply ideal_sound; [exact S|]; intros bs b ->; apply (N bs b); now left).
  assert (F : snd (ideal_step st p) = Failure e -> e = GenericError \/ e = TypeError).
  { destruct p as [bs b|c|a s|c address|a c address|x b|site x loads|site c loads|c s loads]; cbn [ideal_step snd]; try discriminate.
    - assert (M := make_right (i_world st) bs b S (N bs b (or_introl eq_refl))).
      destruct (make (i_world st) bs b) as [w'|x] eqn:E; cbn [snd]; [discriminate|]. intros F. injection F as <-. right. apply M.
    - destruct (is_subclass (i_world st) c a); cbn [snd]; [discriminate|]. intros F. injection F as <-. now left.
    - destruct (nth_error (i_vars st) x) as [(a, c)|]; [destruct (is_subclass (i_world st) c b)|]; cbn [snd]; try discriminate.
      intros F. injection F as <-. now left.
    - destruct (nth_error (i_vars st) x) as [(a, c)|]; [destruct (nth_error (i_sites st) site) as [(a', s)|]; [destruct (Nat.eqb a a')|]|];
        cbn [snd]; try discriminate; intros F; injection F as <-; now left.
    - destruct (nth_error (i_sites st) site) as [(a', s)|]; cbn [snd]; try discriminate. intros F. injection F as <-. now left. }
  destruct (ideal_step st p) as (st1, a). cbn [fst snd] in *. destruct (ideal_run st1 ps) as (st2, l) eqn:R. cbn [snd] in I.
  destruct I as [I|I]; [now apply F|]. apply (IH st1 e); [now rewrite R|exact S'|]. intros bs b J. apply (N bs b). now right.
Qed.
Lemma sensible_statements : forall ps st used, all_sensible st used ps -> forall bs b, In (ClassStatement bs b) ps -> NoDup bs.
Proof.
  induction ps as [|p ps IH]; intros st used H bs b J; [destruct J|]. destruct H as (H1 & H2). destruct J as [->|J]; [apply H1|].
  exact (IH _ _ H2 bs b J).
Qed.
Theorem C69_nothing_undefined_is_read_partial : forall ps,
  all_sensible ideal_nothing nil ps -> ~ In (Failure UndefinedBehaviour) (snd (run nothing ps)).
Proof.
  intros ps H I. rewrite C69_calls_run_the_code_of_the_objects_class_partial in I by exact H.
  apply ideal_failures in I.
  - destruct I; discriminate.
  - intros c k N. destruct c; discriminate.
  - exact (sensible_statements ps _ _ H).
Qed.
Print Assumptions C69_nothing_undefined_is_read_partial.

(** Code that was compiled for a call stays: no class that is defined and no code that is loaded later changes what a
    call runs.  The call is made twice with anything in between. *)
Theorem C69_calls_stay_partial : forall ps qs site x loads loads' a c s,
  all_sensible ideal_nothing nil (ps ++ Call site x loads :: qs ++ [Call site x loads']) ->
  nth_error (i_vars (fst (ideal_run ideal_nothing ps))) x = Some (a, c) ->
  nth_error (i_sites (fst (ideal_run ideal_nothing ps))) site = Some (a, s) ->
  last (snd (run nothing (ps ++ [Call site x loads]))) Done = Ran c s /\
  last (snd (run nothing (ps ++ Call site x loads :: qs ++ [Call site x loads']))) Done = Ran c s.
Proof.
  intros ps qs site x loads loads' a c s H V L. split.
  - apply C69_one_call_partial with (a := a); auto. apply (all_sensible_app _ (qs ++ [Call site x loads'])).
    rewrite <- app_assoc. exact H.
  - assert (G : forall qs st, nth_error (i_vars st) x = Some (a, c) -> nth_error (i_sites st) site = Some (a, s) ->
              nth_error (i_vars (fst (ideal_run st qs))) x = Some (a, c) /\ nth_error (i_sites (fst (ideal_run st qs))) site = Some (a, s)).
    { clear. induction qs as [|p qs IH]; intros st V L; [now split|]. cbn [ideal_run].
      assert (X : nth_error (i_vars (fst (ideal_step st p))) x = Some (a, c) /\ nth_error (i_sites (fst (ideal_step st p))) site = Some (a, s)).
      { destruct p as [bs b|d|d t|d address|d e address|y b|site' y loads|site' d loads|d t loads]; cbn [ideal_step].
        - destruct (make (i_world st) bs b); now split.
        - now split.
        - split; [exact V|]. now apply nth_error_more.
        - split; [|exact L]. now apply nth_error_more.
        - destruct (is_subclass (i_world st) e d); [|now split]. split; [|exact L]. now apply nth_error_more.
        - destruct (nth_error (i_vars st) y) as [(d, e)|]; [|now split]. destruct (is_subclass (i_world st) e b); [|now split].
          split; [|exact L]. now apply nth_error_more.
        - destruct (nth_error (i_vars st) y) as [(d, e)|]; [|now split]. destruct (nth_error (i_sites st) site') as [(f, t)|]; [|now split].
          destruct (Nat.eqb d f); [|now split]. split; [|exact L]. now apply nth_error_more.
        - destruct (nth_error (i_sites st) site') as [(f, t)|]; now split.
        - now split. }
      destruct (ideal_step st p) as (st1, ans). cbn [fst] in X. destruct (IH st1 (proj1 X) (proj2 X)) as (Y1 & Y2).
      destruct (ideal_run st1 qs) as (st2, l). now split. }
    assert (E : ps ++ Call site x loads :: qs ++ [Call site x loads'] = (ps ++ Call site x loads :: qs) ++ [Call site x loads'])
      by (rewrite <- app_assoc; reflexivity).
    rewrite E in *. destruct (G (Call site x loads :: qs) _ V L) as (V' & L').
    apply C69_one_call_partial with (a := a); [exact H| |]; rewrite ideal_run_app; cbn [fst]; assumption.
Qed.
Print Assumptions C69_calls_stay_partial.

(** ** A program *)

(** A; B(A); C(A), final; D(B): code is loaded that calls signatures 7 and 8 of A, with a subclass that is defined
    later, objects that are known as A and B, and casts down and across. *)
Definition plain : body := Body false nil nil nil nil nil nil.
Definition last_one : body := Body true nil nil nil nil nil nil.
Definition program : list op :=
  [ClassStatement nil plain; ClassStatement [0%nat] plain; Load 0 7; ClassStatement [0%nat] last_one;
   Create 1 4096; Cast 0 0; Call 0 1 [(0%nat, 8); (1%nat, 9)]; ClassStatement [1%nat] plain; Load 0 8; Load 1 9;
   Receive 0 3 8192; Call 1 3 nil; Cast 3 1; Call 2 5 nil; Cast 3 2; Create 2 12288; Cast 7 0; Cast 8 2; Call 0 8 nil;
   Force 3 7 nil; Call 0 3 nil; CallOnType 0 3 nil; Merge 1; Call 0 3 nil].
Example program_runs : snd (run nothing program) =
  [Done; Done; Done; Done; Done; Truth true; Ran 1 7; Done; Done; Done; Done; Ran 3 8; Truth true; Ran 3 9; Truth false; Done;
   Truth true; Truth true; Ran 2 7; Done; Ran 3 7; Ran 3 7; Done; Ran 3 7].
Proof. vm_compute. reflexivity. Qed.

(** The hypothesis holds for it, so all its answers are as expected. *)
Definition check (st : ideal) (used : list Z) (p : op) : bool :=
  let w := i_world st in
  let known := fun c => Nat.ltb c (length w) in
  let ok := fun loads : list (nat * Z) => forallb (fun l => known (fst l)) loads in
  let free := fun address => (0 <=? address) && (address <? 281474976710656) && negb (existsb (Z.eqb address) used) in
  match p with
  | ClassStatement bases b => (length bases <=? 1)%nat && match make w bases b with
                                | Ok w' => match nth_error w' (length w) with Some k => Z.of_nat (length (c_mro k)) <? 65535 | None => true end
                                | Err _ => true end
  | Merge _ => true
  | Load a _ => known a
  | Create c address | Receive _ c address => known c && free address
  | Cast x b => known b
  | Call _ _ loads | Force _ _ loads => ok loads
  | CallOnType site c loads => ok loads && match nth_error (i_sites st) site with Some (a, _) => is_subclass w c a | None => true end
  end.
Fixpoint check_all (st : ideal) (used : list Z) (ps : list op) : bool :=
  match ps with nil => true | p :: r => check st used p && check_all (fst (ideal_step st p)) (uses p ++ used) r end.

Lemma check_right : forall st used p, sound (i_world st) -> check st used p = true ->
  sensible st used p /\ (forall bs b, p = ClassStatement bs b -> NoDup bs).
Proof.
  intros st used p S H.
  assert (FR : forall address, (0 <=? address) && (address <? 281474976710656) && negb (existsb (Z.eqb address) used) = true -> free used address).
  { intros address E. apply andb_true_iff in E. destruct E as (E & E3). apply andb_true_iff in E. destruct E as (E1 & E2).
    split; [lia|]. intros I. apply negb_true_iff in E3. rewrite <- Bool.not_true_iff_false in E3. apply E3. apply existsb_exists.
    exists address. split; [exact I|apply Z.eqb_refl]. }
  assert (EX : forall loads : list (nat * Z), forallb (fun l => Nat.ltb (fst l) (length (i_world st))) loads = true -> classes_exist (i_world st) loads).
  { intros loads E a s I. rewrite forallb_forall in E. specialize (E _ I). cbn [fst] in E. apply Nat.ltb_lt in E. exact E. }
  destruct p as [bs b|c|a s|c address|a c address|x b|site x loads|site c loads|c s loads]; cbn [check sensible] in *;
    (split; [|try (intros ? ? X; discriminate X)]).
  - apply andb_true_iff in H. destruct H as (H1 & H2). split.
    + destruct bs as [|x [|y bs]]; [constructor|constructor; [intros []|constructor]|discriminate].
    + intros w' k E N. rewrite E, N in H2. lia.
  - apply andb_true_iff in H. intros bs' b' X. injection X as -> ->. destruct H as (H1 & H2).
    destruct bs' as [|x [|y bs]]; [constructor|constructor; [intros []|constructor]|discriminate].
  - exact I.
  - now apply Nat.ltb_lt in H.
  - apply andb_true_iff in H. destruct H as (H1 & H2). apply Nat.ltb_lt in H1. split; [exact H1|now apply FR].
  - apply andb_true_iff in H. destruct H as (H1 & H2). apply Nat.ltb_lt in H1. split; [exact H1|now apply FR].
  - now apply Nat.ltb_lt in H.
  - now apply EX.
  - apply andb_true_iff in H. destruct H as (H1 & H2). split; [now apply EX|]. intros a s E. rewrite E in H2.
    apply order_ancestor; [exact S|]. now apply order_subclass.
  - now apply EX.
Qed.
Lemma check_all_right : forall ps st used, sound (i_world st) -> check_all st used ps = true -> all_sensible st used ps.
Proof.
  induction ps as [|p ps IH]; intros st used S H; [exact I|]. cbn [check_all] in H. apply andb_true_iff in H. destruct H as (H1 & H2).
  destruct (check_right st used p S H1) as (H & N). split; [exact H|]. apply IH; [|exact H2]. now apply ideal_sound.
Qed.
Example program_sensible : all_sensible ideal_nothing nil program.
Proof. apply check_all_right; [intros c k N; destruct c; discriminate|vm_compute; reflexivity]. Qed.

(** Without the limit on the length of an order the index of a table does not fit into its sixteen bits: the pointer
    of an object that is known as the class with index 65536 is that of one known as its own class. *)
Theorem C69_long_orders_refuted : exists address i, free nil address /\ i <> O /\ tagged address i = tagged address 0.
Proof.
  exists 4096, (Z.to_nat 65536). split; [split; [lia|intros []]|]. split; [lia|]. unfold tagged. rewrite Z2Nat.id by lia. vm_compute. reflexivity.
Qed.
Print Assumptions C69_long_orders_refuted.
