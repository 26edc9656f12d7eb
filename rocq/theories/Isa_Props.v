(** Property C70: [isinstance] and [issubclass] of compiled code. *)
From Coq Require Import String List.
From Verif Require Import Base Class_Model Class_Spec Class_Proofs Inst_Class_Proofs Isa_Model Isa_Spec Isa_Proofs.
Open Scope string_scope.
Open Scope list_scope.
Open Scope nat_scope.

(** The classes of a program when a question is compiled, [history es], and when it is asked, [history (es ++ es')]. *)

(** [issubclass(C, T)] with a type [T] that the compiler knows, and [C] that it knows or knows as [SubclassOf(S)], is
    true of exactly the types that inherit from [T], also of classes that are defined after the question was compiled.
    Partial: the known types must not have different class members under one name. *)
Theorem C70_issubclass_of_a_known_type_partial : forall es es' o t a,
  no_base_twice (es ++ es') -> exists_type (history es) (operand_type o) -> exists_type (history es) t ->
  members_agree (history es) (operand_type o) t -> may_be (history (es ++ es')) o a ->
  compiled_issubclass (history es) (history (es ++ es')) o (Known t) a t = true <-> inherits (history (es ++ es')) a t.
Proof.
  intros es es' o t a N ES ET AG H. destruct (history_later es es' N) as (G & S & S' & LO & SI). now apply known_right.
Qed.
Print Assumptions C70_issubclass_of_a_known_type_partial.

(** [isinstance(x, T)] of a value that the compiler knows as an [S] and that is one of type [a]. *)
Theorem C70_isinstance_of_a_known_type_partial : forall es es' s t a,
  no_base_twice (es ++ es') -> exists_type (history es) s -> exists_type (history es) t ->
  members_agree (history es) s t -> inherits (history (es ++ es')) a s ->
  compiled_isinstance (history es) (history (es ++ es')) s (Known t) a t = true <-> inherits (history (es ++ es')) a t.
Proof.
  intros es es' s t a N ES ET AG H. unfold compiled_isinstance, type_operand. destruct (exactly (history es) s) eqn:X.
  - apply C70_issubclass_of_a_known_type_partial; auto. cbn [may_be]. destruct (history_later es es' N) as (G & S & S' & LO & SI).
    destruct s as [| |c|k|k i]; cbn in X; try discriminate.
    + rewrite <- (final_grown _ _ c G ES) in X. destruct a as [| |x| |]; cbn in H; try tauto. f_equal. eapply final_ancestor; eauto.
    + destruct a as [| |x| |]; cbn in H; try tauto. destruct H; congruence.
  - apply C70_issubclass_of_a_known_type_partial; auto.
Qed.
Print Assumptions C70_isinstance_of_a_known_type_partial.

(** [issubclass(C, T)] with two types that the compiler knows as [SubclassOf(s)] and [SubclassOf(t)]. *)
Theorem C70_issubclass_of_unknown_types_partial : forall es es' s t a b,
  no_base_twice (es ++ es') -> exists_type (history es) s -> exists_type (history es) t -> exists_type (history (es ++ es')) b ->
  members_agree (history es) s t -> inherits (history (es ++ es')) a s -> inherits (history (es ++ es')) b t ->
  compiled_issubclass (history es) (history (es ++ es')) (SomeSubtype s) (SomeSubtype t) a b = true <-> inherits (history (es ++ es')) a b.
Proof.
  intros es es' s t a b N ES ET EB AG H HB. destruct (history_later es es' N) as (G & S & S' & LO & SI). now apply unknown_right.
Qed.
Print Assumptions C70_issubclass_of_unknown_types_partial.

(** A conversion between classes, an overload or a branch that the compiler leaves out because no object can be of both
    types is not missed. *)
Theorem C70_impossible_conversions_partial : forall es es' s t a,
  no_base_twice (es ++ es') -> exists_type (history es) s -> exists_type (history es) t -> members_agree (history es) s t ->
  could_be (history es) s t = No -> inherits (history (es ++ es')) a s -> ~ inherits (history (es ++ es')) a t.
Proof.
  intros es es' s t a N ES ET AG E H. destruct (history_later es es' N) as (G & S & S' & LO & SI).
  assert (R := could_be_right _ _ s t a G S S' LO SI ES ET AG H). now rewrite E in R.
Qed.
Print Assumptions C70_impossible_conversions_partial.

(** ** Where it is wrong *)

Definition plain (final : bool) (members : list member) (classmembers : list (string * Z)) : body :=
  Body final members nil nil nil nil classmembers.

(** Two classes with different class members of one name (or different docstrings) may have a subclass: the check in
    [HeldClass::Make] compares only what the new class itself defines with what each base itself defines.  Its
    instances are instances of both classes, but compiled code says that they are not. *)
Theorem C70_class_members_refuted : exists es es' s t a,
  no_base_twice (es ++ es') /\ exists_type (history es) s /\ exists_type (history es) t /\
  inherits (history (es ++ es')) a s /\ inherits (history (es ++ es')) a t /\
  compiled_isinstance (history es) (history (es ++ es')) s (Known t) a t = false.
Proof.
  exists [Define nil (plain false nil [("__doc__", 1%Z)]); Define nil (plain false nil [("__doc__", 2%Z)])],
         [Define [0; 1] (plain false nil nil)], (TClass 0), (TClass 1), (TClass 2).
  assert (N : no_base_twice ([Define nil (plain false nil [("__doc__", 1%Z)]); Define nil (plain false nil [("__doc__", 2%Z)])] ++
                             [Define [0; 1] (plain false nil nil)])).
  { intros bs b [E|[E|[E|[]]]]; injection E as <- <-; repeat constructor; cbn; intuition discriminate. }
  split; [exact N|]. split; [cbn; auto|]. split; [cbn; auto|].
  destruct (history_later [Define nil (plain false nil [("__doc__", 1%Z)]); Define nil (plain false nil [("__doc__", 2%Z)])]
                          [Define [0; 1] (plain false nil nil)] N) as (_ & _ & S & _).
  split; [apply subclass_ancestor; [exact S|vm_compute; reflexivity]|].
  split; [apply subclass_ancestor; [exact S|vm_compute; reflexivity]|]. vm_compute. reflexivity.
Qed.
Print Assumptions C70_class_members_refuted.

(** A type that the compiler knows, against one that it knows as [SubclassOf(t)]: it asks about [t] instead of the type
    that is there when the code runs. *)
Theorem C70_known_against_unknown_refuted : exists es s t b,
  no_base_twice es /\ exists_type (history es) s /\ exists_type (history es) t /\ inherits (history es) b t /\
  ~ inherits (history es) s b /\ compiled_issubclass (history es) (history es) (Known s) (SomeSubtype t) s b = true.
Proof.
  exists [Define nil (plain false nil nil); Define [0] (plain false nil nil); Define [0] (plain true nil nil)], (TClass 2), (TClass 0), (TClass 1).
  assert (N : no_base_twice [Define nil (plain false nil nil); Define [0] (plain false nil nil); Define [0] (plain true nil nil)]).
  { intros bs b [E|[E|[E|[]]]]; injection E as <- <-; repeat constructor; cbn; intuition discriminate. }
  assert (S := history_sound _ N).
  split; [exact N|]. split; [cbn; auto|]. split; [cbn; auto|].
  split; [apply subclass_ancestor; [exact S|vm_compute; reflexivity]|]. split; [|vm_compute; reflexivity].
  intros A. apply subclass_ancestor in A; [|exact S]. vm_compute in A. discriminate.
Qed.
Print Assumptions C70_known_against_unknown_refuted.

(** Its "no" is right all the same, and its "yes" if the type is [t] itself. *)
Theorem C70_known_against_unknown_partial : forall es es' s t b,
  no_base_twice (es ++ es') -> exists_type (history es) s -> inherits (history (es ++ es')) b t ->
  (compiled_issubclass (history es) (history (es ++ es')) (Known s) (SomeSubtype t) s b = false -> ~ inherits (history (es ++ es')) s b) /\
  (compiled_issubclass (history es) (history (es ++ es')) (Known s) (SomeSubtype t) s t = true <-> inherits (history (es ++ es')) s t).
Proof.
  intros es es' s t b N ES B. destruct (history_later es es' N) as (G & S & S' & LO & SI). cbn [compiled_issubclass].
  assert (R : subtype (history es) s t = true <-> inherits (history (es ++ es')) s t).
  { rewrite (inherits_grown _ _ s t G S S' ES). now apply subtype_right. }
  split; [|exact R]. intros E A. assert (X : inherits (history (es ++ es')) s t) by (eapply inherits_trans; eauto).
  apply R in X. congruence.
Qed.
Print Assumptions C70_known_against_unknown_partial.

(** ** The hypotheses hold for classes with data members, a final class and a diamond that is closed later *)

Definition int_member (n : string) : member := Member n 1 8 false.
Definition before : list event :=
  [Define nil (plain false [int_member "x"] nil); Define [0] (plain false nil nil); Define [0] (plain false [int_member "y"] nil);
   Define nil (plain false nil [("__module__", 3%Z)]); Define [3] (plain true nil nil)].
Definition after : list event := [Define [2; 3] (plain false nil [("__module__", 4%Z)]); MergeAgain 5].
Example before_after : no_base_twice (before ++ after).
Proof.
  intros bs b I. repeat (destruct I as [I|I]; [try discriminate; injection I as <- <-; repeat constructor; cbn; intuition discriminate|]).
  destruct I.
Qed.
Example agree_0_3 : members_agree (history before) (TClass 2) (TClass 3).
Proof. intros k l n x y E F LX LY. vm_compute in E. injection E as <-. discriminate LX. Qed.
Example five_is_both : compiled_isinstance (history before) (history (before ++ after)) (TClass 2) (Known (TClass 3)) (TClass 5) (TClass 3) = true.
Proof. vm_compute. reflexivity. Qed.
Example verdicts : 
  (could_be (history before) (TClass 1) (TClass 2), could_be (history before) (TClass 2) (TClass 3), could_be (history before) (TClass 2) (TClass 4),
   could_be (history before) (TClass 1) (TClass 0), could_be (history before) (TClass 0) (TClass 1)) = (No, Maybe, No, Yes, Maybe).
Proof. vm_compute. reflexivity. Qed.
