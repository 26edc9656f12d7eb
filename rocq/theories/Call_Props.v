(** C31 and C51: binding the arguments of a call, and choosing the overload. *)
From Coq Require Import List.
From Verif Require Import Base Call_Model Call_Spec Call_Proofs Call_Overload_Proofs.
Open Scope nat_scope.
Open Scope result_scope.

(** The arguments as the function sees them, with the object a method is called on in front. *)
Definition with_self {V} (self : option V) (pos : list V) : list V := match self with Some v => v :: pos | None => pos end.

Lemma make_all {V T} (ss : list (signature V T)) os : Forall plain ss ->
  Forall2 (fun s ps => make_params V T (getfullargspec V T s) = Ok ps) ss os -> os = map params_of ss.
Proof.
  intros P H; induction H as [|s ps ss os E H IH]; [reflexivity|]. inversion P as [|? ? [_ K] P']; subst.
  cbn [map]. rewrite (make_params_ok _ K) in E. injection E as <-. now rewrite <- IH.
Qed.

(** ** C31 *)

(** A call of a function without annotations, from the interpreter: the Python function is called with
    arguments that bind exactly what Python would have bound, and there is a [TypeError] exactly if Python
    would have raised one. *)
Theorem C31_interpreted_binding_partial :
  forall (V T level : Type) exact convert could_be (l : level) ls (s : signature V T) ps self pos kw,
    plain s -> well_formed s -> distinct_keywords kw -> plain_keywords kw ->
    (forall n, s_annotation _ _ s n = None) -> could_be_sound exact convert could_be ->
    make_params V T (getfullargspec V T s) = Ok ps ->
    (forall b, python_binds s (with_self self pos) kw b ->
       exists args, call_any V T level exact convert could_be (l :: ls) [ps] self pos kw = Ok (0, args) /\
                    python_binds s (fst args) (snd args) b) /\
    ((forall b, ~ python_binds s (with_self self pos) kw b) ->
       call_any V T level exact convert could_be (l :: ls) [ps] self pos kw = Err TypeError).
Proof.
  intros V T level exact convert could_be l ls s ps self pos kw PL WF DK PK NA CB MP.
  assert ([ps] = map params_of [s]) as -> by (apply make_all; repeat constructor; auto; apply PL).
  assert (forall l' b, accepts exact convert s (with_self self pos) kw l' b <-> python_binds s (with_self self pos) kw b) as AP.
  { assert (forall n, annotation_of s n = None) as NA' by (intros [n|]; cbn; auto).
    intros l' b. split.
    - intros [b0 [H [[CV CL] CS CE CK]]]. rewrite !NA' in *. cbn [converts] in *.
      assert (b_values b = b_values b0) as E1.
      { revert CV CL. generalize (b_values b) (b_values b0).
        induction (map fst (parameters s)) as [|n ns IH]; intros [|y v] [|y0 v0] CV CL; try discriminate; try reflexivity.
        - inversion CV.
        - cbn [combine] in CV. inversion CV as [|? ? ? ? C1 C2]; subst. rewrite NA in C1. cbn in C1. subst. f_equal.
          apply IH; [assumption|]. now injection CL. }
      assert (b_star b = b_star b0) as E2.
      { revert CS. generalize (b_star b) (b_star b0). intros x y F; induction F; congruence. }
      assert (b_extra b = b_extra b0) as E3.
      { revert CE. generalize (b_extra b) (b_extra b0). intros x y F; induction F as [|[? ?] [? ?] ? ? [? ?]]; cbn in *; congruence. }
      assert (b = b0) as ->; [|assumption]. destruct b, b0; cbn in *; congruence.
    - intros H. exists b. split; [assumption|]. constructor; rewrite ?NA'; cbn [converts].
      + split; [|reflexivity]. pose proof (bound_values _ _ _ _ H) as [L _].
        rewrite <- (map_length fst) in L. revert L. generalize (b_values b) (map fst (parameters s)).
        clear -NA. intros vs ns; revert vs; induction ns as [|n ns IH]; intros [|v vs] L; try discriminate; cbn [combine]; constructor.
        * now rewrite NA.
        * apply IH. now injection L.
      + clear. induction (b_star b); constructor; auto; reflexivity.
      + clear. induction (b_extra b); constructor; auto.
      + reflexivity. }
  split.
  - intros b H.
    assert (first_accepting exact convert (l :: ls) [s] (with_self self pos) kw 0 0 b) as F.
    { split; [exists l, s; repeat split; now apply AP|]. intros [|j] [|m] l' s' b' N1 N2 _; cbn in N2; try lia; destruct m; discriminate. }
    exists (flat b). split.
    + apply (call_any_iff exact convert could_be [s] self pos kw); auto. eexists _, _. split; [exact F|reflexivity].
    + apply (accepts_shape exact convert s self pos kw l); auto. now apply AP.
  - intros N. apply (call_any_fails exact convert could_be [s] self pos kw); auto.
    intros l' s' b _ [<-|[]] A. apply AP in A. exact (N _ A).
Qed.
(** def f(a, b, c=7, *args, **kwargs), called as f(1, c=3, b=2, z=9) *)
Definition sample : signature Z unit :=
  {| s_posonly := 0; s_required := [[97%Z]; [98%Z]]; s_optional := [([99%Z], 7%Z)]; s_varargs := Some [100%Z]; s_kwonly := [];
     s_varkw := Some [101%Z]; s_annotation := fun _ => None |}.
Example C31_sample :
  let kw := [([99%Z], 3%Z); ([98%Z], 2%Z); ([122%Z], 9%Z)] in
  plain sample /\ well_formed sample /\ distinct_keywords kw /\ plain_keywords kw /\
  python_binds sample [1%Z] kw {| b_values := [1; 2; 3]%Z; b_star := []; b_kwonly := []; b_extra := [([122%Z], 9%Z)] |} /\
  (forall b, ~ python_binds sample [1%Z] [([97%Z], 3%Z)] b).
Proof.
  cbv zeta. repeat split; vm_compute; try lia; auto.
  - repeat constructor; cbn; intuition discriminate.
  - repeat constructor; cbn; intuition discriminate.
  - intros n v H H0. repeat (destruct H as [[= <- <-]|H]; [destruct H0 as [X|[]]; discriminate|]). destruct H.
  - intros [|[|i]] n _ L N; cbn in N; try lia. injection N as <-. reflexivity.
  - discriminate.
  - intros [|[|[|i]]] n d N; cbn in N; try discriminate; [injection N as <- <-; reflexivity..|]. destruct i; discriminate.
  - intros [|i] n d; discriminate.
  - intros b H. pose proof (no_argument_twice _ _ _ _ H 0 [97%Z]) as X. cbn in X. specialize (X (le_n _) (le_n _) eq_refl). discriminate.
Qed.

(** A call from compiled code: [mapFunctionArguments] says where each parameter's value comes from. *)
Theorem C31_compiled_binding_partial :
  forall (V T : Type) (s : signature V T) ps pos kw,
    plain s -> well_formed s -> distinct_keywords kw ->
    make_params V T (getfullargspec V T s) = Ok ps ->
    match map_function_arguments V T ps pos kw with
    | Ok l => python_binds s pos kw (mapped l)
    | Err e => e = TypeError /\ forall b, ~ python_binds s pos kw b
    end.
Proof.
  intros V T s ps pos kw PL WF _ MP. rewrite make_params_ok in MP by apply PL. injection MP as <-.
  now apply map_function_arguments_spec.
Qed.
Example C31_compiled_sample :
  map_function_arguments Z unit (params_of sample) [1%Z] [([99%Z], 3%Z); ([98%Z], 2%Z); ([122%Z], 9%Z)] =
    Ok [Arg _ 1%Z; Arg _ 2%Z; Arg _ 3%Z; StarArgs _ []; Kwargs _ [([122%Z], 9%Z)]] /\
  map_function_arguments Z unit (params_of sample) [1; 2; 3; 4; 5]%Z [] =
    Ok [Arg _ 1%Z; Arg _ 2%Z; Arg _ 3%Z; StarArgs _ [4; 5]%Z; Kwargs _ []].
Proof. vm_compute. auto. Qed.

(** The "/" of a signature is lost.  With def f(a, /): ... the call f(a=1) runs instead of raising a
    TypeError, interpreted and compiled. *)
Theorem C31_positional_only_refuted :
  exists s : signature Z unit, well_formed s /\ s_kwonly _ _ s = [] /\ (forall n, s_annotation _ _ s n = None) /\
  exists kw, distinct_keywords kw /\ plain_keywords kw /\
    (forall b, ~ python_binds s [] kw b) /\
    exists ps, make_params Z unit (getfullargspec Z unit s) = Ok ps /\
    call_any Z unit unit (fun _ _ => true) (fun _ v _ => Some v) (fun _ _ _ => true) [tt] [ps] None [] kw = Ok (0, ([1%Z], [])) /\
    map_function_arguments Z unit ps [] kw = Ok [Arg _ 1%Z].
Proof.
  exists {| s_posonly := 1; s_required := [[97%Z]]; s_optional := []; s_varargs := None; s_kwonly := []; s_varkw := None; s_annotation := fun _ => None |}.
  split; [split; [repeat constructor; intros []|cbn; lia]|]. split; [reflexivity|]. split; [reflexivity|].
  exists [([97%Z], 1%Z)]. split; [repeat constructor; intros []|]. split.
  - intros n v [[= <- <-]|[]] [X|[]]; discriminate.
  - split; [|eexists; split; [reflexivity|]; vm_compute; auto].
    intros b H. pose proof (no_unknown_keyword _ _ _ _ H eq_refl _ _ (or_introl eq_refl)) as []. 
Qed.
(** And with def f(a, /, **kwargs): ... the call f(1, a=2), which Python accepts, raises a TypeError. *)
Theorem C31_positional_only_keywords_refuted :
  exists s : signature Z unit, well_formed s /\ s_kwonly _ _ s = [] /\ (forall n, s_annotation _ _ s n = None) /\
  exists kw b, distinct_keywords kw /\ plain_keywords kw /\
    python_binds s [1%Z] kw b /\
    exists ps, make_params Z unit (getfullargspec Z unit s) = Ok ps /\
    call_any Z unit unit (fun _ _ => true) (fun _ v _ => Some v) (fun _ _ _ => true) [tt] [ps] None [1%Z] kw = Err TypeError /\
    map_function_arguments Z unit ps [1%Z] kw = Err TypeError.
Proof.
  exists {| s_posonly := 1; s_required := [[97%Z]]; s_optional := []; s_varargs := None; s_kwonly := []; s_varkw := Some [98%Z]; s_annotation := fun _ => None |}.
  split; [split; [repeat constructor; intros []|cbn; lia]|]. split; [reflexivity|]. split; [reflexivity|].
  exists [([97%Z], 2%Z)], {| b_values := [1%Z]; b_star := []; b_kwonly := []; b_extra := [([97%Z], 2%Z)] |}.
  split; [repeat constructor; intros []|]. split.
  - intros n v [[= <- <-]|[]] [X|[]]; discriminate.
  - split; [|eexists; split; [reflexivity|]; vm_compute; auto]. constructor; cbn; try reflexivity; try lia; try discriminate.
    + split; [reflexivity|]. intros [|i] n d N; cbn in N; [injection N as <- <-; reflexivity|destruct i; discriminate].
    + split; [reflexivity|]. intros [|i] n d; discriminate.
Qed.
(** The name of a keyword ends at its first NUL character: with def f(a): ... the call f( **{"a\0b": 1}) runs
    from the interpreter, where Python raises a TypeError. *)
Theorem C31_nul_in_keyword_refuted :
  exists s : signature Z unit, well_formed s /\ plain s /\ (forall n, s_annotation _ _ s n = None) /\
  exists kw, distinct_keywords kw /\ (forall b, ~ python_binds s [] kw b) /\
    exists ps, make_params Z unit (getfullargspec Z unit s) = Ok ps /\
    call_any Z unit unit (fun _ _ => true) (fun _ v _ => Some v) (fun _ _ _ => true) [tt] [ps] None [] kw = Ok (0, ([1%Z], [])).
Proof.
  exists {| s_posonly := 0; s_required := [[97%Z]]; s_optional := []; s_varargs := None; s_kwonly := []; s_varkw := None; s_annotation := fun _ => None |}.
  split; [split; [repeat constructor; intros []|cbn; lia]|]. split; [split; reflexivity|]. split; [reflexivity|].
  exists [([97; 0; 98]%Z, 1%Z)]. split; [repeat constructor; intros []|].
  split; [|eexists; split; [reflexivity|]; vm_compute; auto].
  intros b H. pose proof (no_unknown_keyword _ _ _ _ H eq_refl _ _ (or_introl eq_refl)) as [X|[]]. discriminate.
Qed.
(** No function with a keyword-only parameter can be made at all. *)
Theorem C31_keyword_only_refuted :
  forall (V T : Type) (s : signature V T), s_kwonly _ _ s <> [] -> make_params V T (getfullargspec V T s) = Err GenericError.
Proof. exact @make_params_kwonly. Qed.

(** ** C51 *)

(** From the interpreter, the overload that runs is the first one that accepts the call, at the lowest level
    at which one accepts, and its body finds the values Python's convention binds, converted to the annotated
    types; there is a [TypeError] exactly if no overload accepts the call at any level. *)
Theorem C51_first_accepting_overload_runs_partial :
  forall (V T level : Type) exact convert could_be (ls : list level) (ss : list (signature V T)) os self pos kw,
    Forall plain ss -> Forall well_formed ss -> distinct_keywords kw -> plain_keywords kw ->
    could_be_sound exact convert could_be ->
    Forall2 (fun s ps => make_params V T (getfullargspec V T s) = Ok ps) ss os ->
    let called := call_any V T level exact convert could_be ls os self pos kw in
    (forall k args, called = Ok (k, args) ->
       exists i b s, first_accepting exact convert ls ss (with_self self pos) kw i k b /\
                     nth_error ss k = Some s /\ python_binds s (fst args) (snd args) b) /\
    (forall i k b, first_accepting exact convert ls ss (with_self self pos) kw i k b ->
       exists args s, called = Ok (k, args) /\ nth_error ss k = Some s /\ python_binds s (fst args) (snd args) b) /\
    (called = Err TypeError <-> forall l s b, In l ls -> In s ss -> ~ accepts exact convert s (with_self self pos) kw l b).
Proof.
  intros V T level exact convert could_be ls ss os self pos kw PL WF DK PK CB MA. cbv zeta.
  rewrite (make_all _ _ PL MA). clear os MA.
  assert (forall i k b, first_accepting exact convert ls ss (with_self self pos) kw i k b ->
            exists s, nth_error ss k = Some s /\ python_binds s (fst (flat b)) (snd (flat b)) b) as SH.
  { intros i k b [[l [s [_ [Ns A]]]] _]. exists s. split; [assumption|].
    rewrite Forall_forall in PL, WF. apply nth_error_In in Ns.
    apply (accepts_shape exact convert s self pos kw l); auto. }
  split; [|split].
  - intros k args E. apply (call_any_iff exact convert could_be ss self pos kw) in E as [i [b [F ->]]]; auto.
    destruct (SH _ _ _ F) as [s [N B]]. exists i, b, s. auto.
  - intros i k b F. destruct (SH _ _ _ F) as [s [N B]]. exists (flat b), s. split; [|auto].
    apply (call_any_iff exact convert could_be ss self pos kw); auto. exists i, b. auto.
  - now apply (call_any_fails exact convert could_be ss self pos kw).
Qed.
(** Two overloads, def f(x: A) and def f(x: B): a number converts to type [t] at level [l] if it is below
    [10 * t + 5 * l]. *)
Definition overload_example (t : nat) : signature nat nat :=
  {| s_posonly := 0; s_required := [[120%Z]]; s_optional := []; s_varargs := None; s_kwonly := []; s_varkw := None; s_annotation := fun _ => Some t |}.
Definition example_convert (t v l : nat) : option nat := if v <? 10 * t + 5 * l then Some (v + 1) else None.
Example C51_sample :
  let exact := fun _ _ : nat => false in
  let os := map (overload_example) [0; 1] in
  Forall plain os /\ Forall well_formed os /\ could_be_sound exact example_convert (fun t v l => v <? 10 * t + 5 * l) /\
  call_any nat nat nat exact example_convert (fun t v l => v <? 10 * t + 5 * l) [0; 1] (map params_of os) None [3] [] = Ok (1, ([4], [])) /\
  call_any nat nat nat exact example_convert (fun t v l => v <? 10 * t + 5 * l) [1; 0] (map params_of os) None [3] [] = Ok (0, ([4], [])) /\
  call_any nat nat nat exact example_convert (fun t v l => v <? 10 * t + 5 * l) [0; 1] (map params_of os) None [30] [] = Err TypeError.
Proof.
  cbv zeta. split; [repeat constructor|]. split; [repeat constructor; auto|]. split; [|vm_compute; auto].
  intros t v l v' H. cbn [converts] in H. unfold example_convert in H. destruct (v <? 10 * t + 5 * l); [reflexivity|discriminate].
Qed.

(** Compiled code chooses the same overload, if what the compiler concludes from the types is right: an
    overload it rules out accepts no such arguments, and one it is sure of accepts all. *)
Theorem C51_compiled_choice_partial :
  forall (V T level : Type) exact convert could_be (ls : list level) (ss : list (signature V T)) os self pos kw
         (might : level -> signature V T -> answer) (test : level -> signature V T -> bool),
    Forall plain ss -> Forall well_formed ss -> distinct_keywords kw -> plain_keywords kw ->
    could_be_sound exact convert could_be ->
    Forall2 (fun s ps => make_params V T (getfullargspec V T s) = Ok ps) ss os ->
    (forall l s, In l ls -> In s ss -> might l s = No -> forall b, ~ accepts exact convert s (with_self self pos) kw l b) ->
    (forall l s, In l ls -> In s ss -> might l s = Yes -> exists b, accepts exact convert s (with_self self pos) kw l b) ->
    (forall l s, In l ls -> In s ss -> test l s = true <-> exists b, accepts exact convert s (with_self self pos) kw l b) ->
    (forall k, compiled_choice level might test ls ss = Ok k <->
               exists args, call_any V T level exact convert could_be ls os self pos kw = Ok (k, args)) /\
    (forall k l, single_choice level might ls ss = Some (k, l) ->
               exists i b, nth_error ls i = Some l /\ first_accepting exact convert ls ss (with_self self pos) kw i k b).
Proof.
  intros V T level exact convert could_be ls ss os self pos kw might test PL WF DK PK CB MA H1 H2 H3.
  rewrite (make_all _ _ PL MA). clear os MA.
  assert (answers_right exact convert ss self pos kw might test ls) as AR by (repeat split; auto; now apply H3).
  split.
  - intros k. rewrite (compiled_choice_iff exact convert could_be ss self pos kw PL WF DK PK CB might test ls k AR). split.
    + intros [i [b F]]. exists (flat b). apply (call_any_iff exact convert could_be ss self pos kw); eauto.
    + intros [args E]. apply (call_any_iff exact convert could_be ss self pos kw) in E as [i [b [F _]]]; eauto.
  - intros k l E. exact (single_choice_spec exact convert ss self pos kw might test ls k l AR E).
Qed.
Example C51_compiled_sample :
  compiled_choice nat (fun l s => match l, s with 0, 0 => No | 0, _ => Maybe | _, _ => Yes end) (fun l s => (3 <? 10 * s + 5 * l)%nat) [0; 1] [0; 1] = Ok 1 /\
  compiled_choice nat (fun l s => match l, s with 0, 0 => No | 0, _ => Maybe | _, _ => Yes end) (fun l s => (12 <? 10 * s + 15 * l)%nat) [0; 1] [0; 1] = Ok 0 /\
  single_choice nat (fun l s => match s with 0 => No | _ => Yes end) [0; 1] [0; 1] = Some (1, 0).
Proof. vm_compute. auto. Qed.

Print Assumptions C31_interpreted_binding_partial.
Print Assumptions C31_compiled_binding_partial.
Print Assumptions C31_positional_only_refuted.
Print Assumptions C31_positional_only_keywords_refuted.
Print Assumptions C31_nul_in_keyword_refuted.
Print Assumptions C31_keyword_only_refuted.
Print Assumptions C51_first_accepting_overload_runs_partial.
Print Assumptions C51_compiled_choice_partial.
