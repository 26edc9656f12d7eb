(** C80: in compiled code a variable can be read when it could be in Python, with the value last
    given to it. *)
From Verif Require Import Base Vars_Model Vars_Spec Vars_Believe Vars_Sound Vars_Python Vars_Meaning Vars_Example.

(** What the compiled program comes to is what it comes to in Python, with the same variables bound
    to the same values.  The whole property has no [tame] and no [well_named]. *)
Theorem C80_compiled_runs_as_python_partial :
  forall (T V : Type) (hasb : V -> T -> bool) (teqb : T -> T -> bool) (mergeT : T -> T -> T)
    (removeT : T -> T -> option T) (truthy : V -> bool) (apply : nat -> V -> V -> V + V)
    (op_type : nat -> T -> T -> T) (unbound failed : V) (slots : nat -> option T),
  sensible hasb teqb mergeT removeT apply op_type ->
  forall k tr s st s' st' r m, conv T V hasb teqb mergeT removeT op_type slots k tr s st = Done (s', st', r) ->
  source s = true -> tame s = true -> well_named s = true -> not_set st (names s) ->
  agrees hasb st m -> in_slots hasb slots m ->
  (forall n, exec T V hasb truthy apply unbound failed n s' m <> Spin ->
     py hasb truthy apply unbound failed s m (exec T V hasb truthy apply unbound failed n s' m)) /\
  (forall e, py hasb truthy apply unbound failed s m e ->
     exists n0, forall n, (n0 <= n)%nat -> exec T V hasb truthy apply unbound failed n s' m = e).
Proof.
  intros T V hasb teqb mergeT removeT truthy apply op_type unbound failed slots Hs k tr s st s' st' r m E S Tm W N A J.
  assert (X : forall n, exec T V hasb truthy apply unbound failed n s' m = exec T V hasb truthy apply unbound failed n s m)
    by (intros n; eapply program_sound; eauto).
  split.
  - intros n. rewrite X. assert (P := proj1 (exec_py hasb truthy apply unbound failed n) s S m).
    destruct (Vars_Model.exec _ _ _ _ _ _ _ n s m); cbn in P; auto; try contradiction.
  - intros e P. destruct (proj1 (py_runs hasb truthy apply unbound failed) _ _ _ P) as (n0 & R).
    exists n0. intros n Hn. rewrite X. now apply R.
Qed.

(** Loops are given as many turns in both. *)
Theorem C80_compiled_variables_like_python_partial :
  forall (T V : Type) (hasb : V -> T -> bool) (teqb : T -> T -> bool) (mergeT : T -> T -> T)
    (removeT : T -> T -> option T) (truthy : V -> bool) (apply : nat -> V -> V -> V + V)
    (op_type : nat -> T -> T -> T) (unbound failed : V) (slots : nat -> option T),
  sensible hasb teqb mergeT removeT apply op_type ->
  forall k tr s st s' st' r m, conv T V hasb teqb mergeT removeT op_type slots k tr s st = Done (s', st', r) ->
  tame s = true -> well_named s = true -> not_set st (names s) ->
  agrees hasb st m -> in_slots hasb slots m ->
  forall n, exec T V hasb truthy apply unbound failed n s' m = exec T V hasb truthy apply unbound failed n s m.
Proof.
  intros T V hasb teqb mergeT removeT truthy apply op_type unbound failed slots Hs k tr s st s' st' r m E Tm W N A J n.
  eapply program_sound; eauto.
Qed.

(** It never takes a value for one of another type, reads or destroys what is not there, or
    forgets to destroy what is. *)
Theorem C80_compiled_variables_are_safe_partial :
  forall (T V : Type) (hasb : V -> T -> bool) (teqb : T -> T -> bool) (mergeT : T -> T -> T)
    (removeT : T -> T -> option T) (truthy : V -> bool) (apply : nat -> V -> V -> V + V)
    (op_type : nat -> T -> T -> T) (unbound failed : V) (slots : nat -> option T),
  sensible hasb teqb mergeT removeT apply op_type ->
  forall k tr s st s' st' r m, conv T V hasb teqb mergeT removeT op_type slots k tr s st = Done (s', st', r) ->
  tame s = true -> well_named s = true -> not_set st (names s) ->
  agrees hasb st m -> in_slots hasb slots m ->
  forall n, exec T V hasb truthy apply unbound failed n s' m <> Bad.
Proof.
  intros T V hasb teqb mergeT removeT truthy apply op_type unbound failed slots Hs k tr s st s' st' r m E Tm W N A J n.
  destruct (program_sound hasb teqb mergeT removeT truthy apply op_type unbound failed slots Hs
              _ _ _ _ _ _ _ _ E Tm W N A J n) as [X G].
  rewrite X. destruct (Vars_Model.exec _ _ _ _ _ _ _ n s m); cbn in G; try discriminate; contradiction.
Qed.

(** When the program comes to its end, what the compiler believes of each variable is so; if the
    compiler believes the end is not reached, it is not. *)
Theorem C80_beliefs_are_right_partial :
  forall (T V : Type) (hasb : V -> T -> bool) (teqb : T -> T -> bool) (mergeT : T -> T -> T)
    (removeT : T -> T -> option T) (truthy : V -> bool) (apply : nat -> V -> V -> V + V)
    (op_type : nat -> T -> T -> T) (unbound failed : V) (slots : nat -> option T),
  sensible hasb teqb mergeT removeT apply op_type ->
  forall k tr s st s' st' r m, conv T V hasb teqb mergeT removeT op_type slots k tr s st = Done (s', st', r) ->
  tame s = true -> well_named s = true -> not_set st (names s) ->
  agrees hasb st m -> in_slots hasb slots m ->
  forall n m', exec T V hasb truthy apply unbound failed n s m = Normal m' ->
  r = true /\ in_slots hasb slots m' /\ (forall x, x <> rv -> so hasb (get st' x) (m' x)).
Proof.
  intros T V hasb teqb mergeT removeT truthy apply op_type unbound failed slots Hs k tr s st s' st' r m E Tm W N A J n m' Em.
  destruct (program_sound hasb teqb mergeT removeT truthy apply op_type unbound failed slots Hs
              _ _ _ _ _ _ _ _ E Tm W N A J n) as [X G].
  rewrite Em in G. destruct G as (R & F & J'). split; [exact R|]. split; [exact J'|].
  intros x Nx. assert (Q := proj1 (F eq_refl) x Logic.I Nx). unfold so.
  destruct (get st' x) as [[t u]|], (m' x); cbn in Q; auto.
  destruct Q; discriminate.
Qed.

(** A program with a loop, a test of a type, exceptions and a finally. *)
Definition sample : stmt ty val := block [
  set 2 (k one);
  SWhile (CTruth (rd 1)) (block [
    set 3 (rd 2);
    STry (set 2 (may_fail (k txt)))
         (HCons terr (Some (4%nat, Free)) (block [set 2 (k half); SExpr (rd 4)]) HNil)
         SPass (SExpr (rd 3));
    if_c (SSeq (set 1 (k no)) SContinue) SPass]) (set 3 (k no));
  SIf (CIs 2 Plain tfloat false) (set 3 (Op 0 (rd 2) (rd 2))) SPass;
  SFor 5 Free [one; one] tint (if_c SBreak (set 2 (rd 5))) (set 3 (rd 2));
  SReturn Free (rd 3)].

Example sample_meets_the_hypotheses :
  converts sample = true /\ source sample = true /\ tame sample = true /\ well_named sample = true /\
  not_set start (names sample) /\
  agrees has start (with_c yes) /\ in_slots has slot (with_c yes) /\
  match run (compiled sample) (with_c yes) with Returned v _ => v = one | _ => False end /\
  compiled sample <> sample.
Proof.
  split; [vm_compute; reflexivity|]. split; [vm_compute; reflexivity|]. split; [vm_compute; reflexivity|].
  split; [vm_compute; reflexivity|]. split; [intros x [<-|[]]; reflexivity|].
  split; [now apply start_agrees|]. split; [now apply start_slots|].
  split; [vm_compute; reflexivity | vm_compute; discriminate].
Qed.

(** Programs that are not tame; Python has no trouble with them. *)
Definition ends_well (s : stmt ty val) : Prop :=
  exists r, py has true_ do name_error assertion_error s (with_c yes) r.
Definition goes_wrong (s : stmt ty val) : Prop :=
  converts s = true /\ well_named s = true /\ not_set start (names s) /\
  run (compiled s) (with_c yes) = Bad /\ ends_well s.

Lemma it_ends_well : forall s, source s = true ->
  match run s (with_c yes) with Bad | Spin => false | _ => true end = true -> ends_well s.
Proof.
  intros s S E. exists (run s (with_c yes)).
  assert (P := proj1 (exec_py has true_ do name_error assertion_error 20) s S (with_c yes)).
  unfold run in *. destruct (exec _ _ _ _ _ _ _ 20 s (with_c yes)); cbn in P; auto; discriminate.
Qed.

Ltac wrong := split; [vm_compute; reflexivity|]; split; [vm_compute; reflexivity|];
  split; [intros x Hx; cbn in Hx; intuition (subst; reflexivity)|];
  split; [vm_compute; reflexivity | apply it_ends_well; vm_compute; reflexivity].

(** x = 1; while c: (if c: x = 0.5; break); x = "a".  After it x is believed to be an int or str. *)
Theorem C80_break_refuted : goes_wrong (block [
  set 2 (k one);
  SWhile (CTruth (rd 1)) (block [if_c (SSeq (set 2 (k half)) SBreak) SPass; set 2 (k txt)]) SPass;
  set 3 (rd 2)]).
Proof. wrong. Qed.

(** The same with continue. *)
Theorem C80_continue_refuted : goes_wrong (block [
  set 2 (k one);
  SWhile (CTruth (rd 1)) (block [
    if_c (block [set 2 (k half); set 1 (k no); SContinue]) SPass; set 2 (k txt)]) SPass;
  set 3 (rd 2)]).
Proof. wrong. Qed.

(** The same in a loop over a tuple, which is unrolled. *)
Theorem C80_break_from_tuple_refuted : goes_wrong (block [
  set 2 (k one);
  for_tuple 5 [(one, tint); (txt, tstr)] (block [if_c (SSeq (set 2 (k half)) SBreak) SPass; set 2 (k txt)]) SPass;
  set 3 (rd 2)]).
Proof. wrong. Qed.

(** for z in []: pass; else: y = z.  Python raises; compiled code reads an empty slot. *)
Theorem C80_for_else_refuted : goes_wrong (SFor 5 Free [] tint SPass (set 3 (rd 5))).
Proof. wrong. Qed.

(** try: x = f(); finally: y = x, when f raises. *)
Theorem C80_finally_refuted : goes_wrong (
  STry (set 2 (may_fail (k one))) HNil SPass (set 3 (rd 2))).
Proof. wrong. Qed.

(** try: assert isinstance(x, int); finally: y = x, when x is a str. *)
Theorem C80_assert_then_finally_refuted : goes_wrong (block [
  set 2 (k one); if_c (set 2 (k txt)) SPass;
  STry (SAssert (CIs 2 Plain tint false)) HNil SPass (set 3 (rd 2))]).
Proof. wrong. Qed.

(** try: f(); except: x = 1; else: x = "a".  After it x is believed to be a str. *)
Theorem C80_try_else_refuted : goes_wrong (block [
  STry (SExpr (may_fail (k one))) (HCons terr None (set 2 (k one)) HNil) (set 2 (k txt)) SPass;
  set 3 (rd 2)]).
Proof. wrong. Qed.

(** except E as e: (try: raise; except E as e: pass) destroys e twice. *)
Theorem C80_nested_handlers_refuted : goes_wrong (
  STry (SRaise (k err))
       (HCons terr (Some (4%nat, Free))
          (STry (SRaise (k err)) (HCons terr (Some (4%nat, Free)) SPass HNil) SPass SPass) HNil)
       SPass SPass).
Proof. wrong. Qed.

(** try: return f(); finally: return "b", when f raises: the value assigned over was never built. *)
Theorem C80_return_in_finally_refuted : goes_wrong (
  STry (SReturn Free (may_fail (k one))) HNil SPass (SReturn Free (k txt))).
Proof. wrong. Qed.

(** e = 1; try: (try: raise; except E as e: pass); f(); except: y = e.  Here the name of a handler
    is that of another variable. *)
Theorem C80_handler_names_refuted : exists s,
  converts s = true /\ tame s = true /\
  run (compiled s) (with_c yes) = Bad /\ ends_well s.
Proof.
  exists (block [
    set 4 (k one);
    STry (block [STry (SRaise (k err)) (HCons terr (Some (4%nat, Free)) SPass HNil) SPass SPass;
                 SExpr (may_fail (k one))])
         (HCons terr None (set 3 (rd 4)) HNil) SPass SPass]).
  split; [vm_compute; reflexivity|]. split; [vm_compute; reflexivity|].
  split; [vm_compute; reflexivity | apply it_ends_well; vm_compute; reflexivity].
Qed.

Print Assumptions C80_compiled_runs_as_python_partial.
Print Assumptions C80_compiled_variables_like_python_partial.
Print Assumptions C80_compiled_variables_are_safe_partial.
Print Assumptions C80_beliefs_are_right_partial.
Print Assumptions C80_break_refuted.
Print Assumptions C80_continue_refuted.
Print Assumptions C80_break_from_tuple_refuted.
Print Assumptions C80_for_else_refuted.
Print Assumptions C80_finally_refuted.
Print Assumptions C80_assert_then_finally_refuted.
Print Assumptions C80_try_else_refuted.
Print Assumptions C80_nested_handlers_refuted.
Print Assumptions C80_return_in_finally_refuted.
Print Assumptions C80_handler_names_refuted.
