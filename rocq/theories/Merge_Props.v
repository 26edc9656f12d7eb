(** C32: merged types. *)
From Coq Require Import List Permutation Cantor.
From Verif Require Import Base Graph_Model Merge_Model Merge_Spec Merge_Proofs.
Open Scope Z_scope.
Open Scope result_scope.

(** The merged type admits what one of the given types admits, and nothing else, except that the bools of
    constants disappear when int is among the types. *)
Theorem C32_admits_the_union_partial :
  forall mro name_of id_of, good_mro mro -> (forall a b, id_of a = id_of b -> a = b) ->
  forall ws m, nonempty ws -> merge_types mro name_of id_of ws = Ok (Some m) ->
    ~ bool_and_int ws -> forall o, admits mro m o <-> some_admits mro ws o.
Proof.
  intros mro name_of id_of GM ID ws m NE E NB o.
  destruct (merge_types_ok mro name_of id_of GM ID ws _ NE E) as [[X _]|[t [[= <-] [A B]]]]; [discriminate|].
  rewrite all_options_admits. split.
  - intros [u [I M]]. eauto.
  - intros [u [I M]]. destruct (B _ I) as [v [Iv S]].
    destruct (subsumes_member mro name_of id_of GM ID o _ _ S M) as [X|[b [-> [-> ->]]]]; [exists v; auto|].
    exfalso. apply NB. split; [now apply A|eauto].
Qed.
Print Assumptions C32_admits_the_union_partial.
(** In every case only such bools are lost. *)
Theorem C32_only_bools_are_lost :
  forall mro name_of id_of, good_mro mro -> (forall a b, id_of a = id_of b -> a = b) ->
  forall ws m, nonempty ws -> merge_types mro name_of id_of ws = Ok (Some m) ->
    (forall o, admits mro m o -> some_admits mro ws o) /\
    (forall o, some_admits mro ws o -> admits mro m o \/
       exists b, o = OBool b /\ In (ValueT (CBool b)) (all_options ws) /\ In IntT (options m)).
Proof.
  intros mro name_of id_of GM ID ws m NE E.
  destruct (merge_types_ok mro name_of id_of GM ID ws _ NE E) as [[X _]|[t [[= <-] [A B]]]]; [discriminate|]. split.
  - intros o [u [I M]]. apply all_options_admits. eauto.
  - intros o H. apply all_options_admits in H as [u [I M]]. destruct (B _ I) as [v [Iv S]].
    destruct (subsumes_member mro name_of id_of GM ID o _ _ S M) as [X|[b [-> [-> ->]]]]; [left; exists v; auto|]. right. eauto.
Qed.
Print Assumptions C32_only_bools_are_lost.

(** *** Identities of types and a class hierarchy for examples *)
Definition z_code (z : Z) : nat := match z with Z0 => 0 | Zpos p => S (2 * Pos.to_nat p) | Zneg p => 2 * Pos.to_nat p end%nat.
Lemma z_code_inj a b : z_code a = z_code b -> a = b.
Proof. destruct a, b; cbn [z_code]; intros; try reflexivity; try lia; f_equal; lia. Qed.
Fixpoint list_code (l : list Z) : nat := match l with [] => 0%nat | z :: l => S (Cantor.to_nat (z_code z, list_code l)) end.
Lemma pair_inj p q : Cantor.to_nat p = Cantor.to_nat q -> p = q.
Proof. intros E. rewrite <- (Cantor.cancel_of_to p), <- (Cantor.cancel_of_to q). now rewrite E. Qed.
Lemma list_code_inj a b : list_code a = list_code b -> a = b.
Proof.
  revert b; induction a as [|x a IH]; intros [|y b]; cbn [list_code]; try discriminate; [reflexivity|].
  intros E. apply eq_add_S, pair_inj in E. injection E as E1 E2. apply z_code_inj in E1 as ->. f_equal. auto.
Qed.
Definition const_code (c : const) : nat :=
  match c with
  | CBool b => Cantor.to_nat (0, if b then 1 else 0) | CInt z => Cantor.to_nat (1, z_code z) | CFloat z => Cantor.to_nat (2, z_code z)
  | CStr l => Cantor.to_nat (3, list_code l) | CBytes l => Cantor.to_nat (4, list_code l) | CType z => Cantor.to_nat (5, z_code z)
  end%nat.
Definition ty_code (t : ty) : nat :=
  match t with
  | Object => Cantor.to_nat (0, 0) | NoneT => Cantor.to_nat (1, 0) | BoolT => Cantor.to_nat (2, 0) | IntT => Cantor.to_nat (3, 0)
  | FloatT => Cantor.to_nat (4, 0) | StrT => Cantor.to_nat (5, 0) | BytesT => Cantor.to_nat (6, 0) | ClassT c => Cantor.to_nat (7, z_code c)
  | AlternativeT a => Cantor.to_nat (8, z_code a) | ConcreteT a i => Cantor.to_nat (9, Cantor.to_nat (z_code a, z_code i))
  | ValueT c => Cantor.to_nat (10, const_code c) | OtherT n => Cantor.to_nat (11, z_code n)
  end%nat.
Lemma const_code_inj a b : const_code a = const_code b -> a = b.
Proof.
  destruct a, b; cbn [const_code]; intros E; apply pair_inj in E; try discriminate; injection E as E;
    try solve [f_equal; first [now apply z_code_inj|now apply list_code_inj]].
  repeat match goal with x : bool |- _ => destruct x end; congruence.
Qed.
Lemma ty_code_inj a b : ty_code a = ty_code b -> a = b.
Proof.
  destruct a, b; cbn [ty_code]; intros E; apply pair_inj in E; try discriminate; try reflexivity;
    apply (f_equal snd) in E; cbn [snd] in E; try solve [f_equal; first [now apply z_code_inj|now apply const_code_inj]].
  apply pair_inj in E. injection E as E1 E2. f_equal; now apply z_code_inj.
Qed.
Definition an_id (t : ty) : Z := Z.of_nat (ty_code t).
Lemma an_id_inj a b : an_id a = an_id b -> a = b.
Proof. intros E. apply ty_code_inj. unfold an_id in E. lia. Qed.
(** class 2 derives from class 1 *)
Definition two_classes (c : Z) : list Z := if c =? 2 then [2; 1] else [c].
Lemma two_classes_good : good_mro two_classes.
Proof.
  unfold two_classes. constructor.
  - intros c. destruct (Z.eqb_spec c 2); cbn; auto.
  - intros a b c. destruct (Z.eqb_spec a 2); cbn [In]; intros H1 H2; destruct (Z.eqb_spec b 2); cbn [In] in *; lia.
  - intros a b. destruct (Z.eqb_spec a 2), (Z.eqb_spec b 2); cbn [In]; lia.
Qed.
Definition no_names (t : ty) : list Z := [].

(** True is an instance of int to [isinstance], so Value(True) and int merge to int, which is not the type
    of True. *)
Theorem C32_bool_constant_refuted :
  exists mro name_of id_of ws m o, good_mro mro /\ (forall a b : ty, id_of a = id_of b :> Z -> a = b) /\
    nonempty ws /\ merge_types mro name_of id_of ws = Ok (Some m) /\ some_admits mro ws o /\ ~ admits mro m o.
Proof.
  exists two_classes, no_names, an_id, [Some (Single (ValueT (CBool true))); Some (Single IntT)], (Single IntT), (OBool true).
  split; [exact two_classes_good|]. split; [exact an_id_inj|]. split.
  - intros t [[= <-]|[[= <-]|[]]]; discriminate.
  - split; [reflexivity|]. split.
    + exists (Single (ValueT (CBool true))). split; [now left|]. exists (ValueT (CBool true)). split; [now left|reflexivity].
    + intros [u [[<-|[]] []]].
Qed.
Print Assumptions C32_bool_constant_refuted.

(** The order of the given types does not matter. *)
Theorem C32_order_does_not_matter :
  forall mro name_of id_of, good_mro mro -> (forall a b, id_of a = id_of b -> a = b) ->
  forall ws ws', Permutation ws ws' -> merge_types mro name_of id_of ws = merge_types mro name_of id_of ws'.
Proof. exact merge_types_permutation. Qed.
Print Assumptions C32_order_does_not_matter.

(** If at least two different types were given, no option of the merged type lies within another, but for a
    concrete alternative beside its Alternative. *)
Theorem C32_no_option_within_another_partial :
  forall mro name_of id_of, good_mro mro -> (forall a b, id_of a = id_of b -> a = b) ->
  forall ws m, nonempty ws -> (exists t u, In (Some t) ws /\ In (Some u) ws /\ t <> u) ->
    merge_types mro name_of id_of ws = Ok (Some m) ->
    NoDup (options m) /\
    forall a b, In a (options m) -> In b (options m) -> within mro a b ->
      a = b \/ exists x i, a = ConcreteT x i /\ b = AlternativeT x.
Proof.
  intros mro name_of id_of GM ID ws m NE [t [u [It [Iu D]]]] E.
  assert (~ simple ws) as NS.
  { unfold simple. apply present_in in It, Iu. destruct (present ws) as [|x [|y [|z l]]]; [destruct It| | |tauto].
    - destruct It as [<-|[]], Iu as [<-|[]]. congruence.
    - intros ->. destruct It as [<-|[<-|[]]], Iu as [<-|[<-|[]]]; congruence. }
  destruct (merge_types_greatest mro name_of id_of GM ID ws m NS NE E) as [N G]. split; [assumption|].
  intros a b Ia Ib W. destruct (within_subsumes mro name_of id_of GM ID a b W) as [S|S]; [left; symmetry; now apply G|now right].
Qed.
Print Assumptions C32_no_option_within_another_partial.
(** A single OneOf is returned as it is, and concrete alternatives stay beside their Alternative. *)
Theorem C32_no_option_within_another_refuted :
  exists mro name_of id_of, good_mro mro /\ (forall a b : ty, id_of a = id_of b :> Z -> a = b) /\
    (exists ws m a b, nonempty ws /\ merge_types mro name_of id_of ws = Ok (Some m) /\ In a (options m) /\ In b (options m) /\ a <> b /\ within mro a b) /\
    (exists t u m a b, t <> u /\ nonempty [Some t; Some u] /\ merge_types mro name_of id_of [Some t; Some u] = Ok (Some m) /\
       In a (options m) /\ In b (options m) /\ a <> b /\ within mro a b).
Proof.
  exists two_classes, no_names, an_id. split; [exact two_classes_good|]. split; [exact an_id_inj|]. split.
  - exists [Some (OneOf [ClassT 1; ClassT 2])], (OneOf [ClassT 1; ClassT 2]), (ClassT 2), (ClassT 1).
    split; [intros t [[= <-]|[]]; discriminate|]. split; [reflexivity|]. cbn. repeat split; auto; [discriminate|].
    intros [] M; cbn in *; try contradiction. unfold two_classes in *. destruct (Z.eqb_spec c 2); cbn in *; auto. lia.
  - exists (Single (AlternativeT 1)), (Single (ConcreteT 1 0)), (OneOf [AlternativeT 1; ConcreteT 1 0]), (ConcreteT 1 0), (AlternativeT 1).
    split; [discriminate|]. split; [intros t [[= <-]|[[= <-]|[]]]; discriminate|]. split; [vm_compute; reflexivity|].
    cbn. repeat split; auto; [discriminate|]. intros [] M; cbn in *; tauto.
Qed.
Print Assumptions C32_no_option_within_another_refuted.

(** Merging fails only if more than 255 types remain, none of which includes another: a OneOf is limited to
    that. *)
Theorem C32_fails_only_beyond_255_types :
  forall mro name_of id_of, good_mro mro -> (forall a b, id_of a = id_of b -> a = b) ->
  forall ws e, nonempty ws -> merge_types mro name_of id_of ws = Err e ->
    exists ts, NoDup ts /\ (255 < length ts)%nat /\ incl ts (all_options ws) /\
      forall a b, In a ts -> In b ts -> within mro a b -> a = b \/ exists x i, a = ConcreteT x i /\ b = AlternativeT x.
Proof.
  intros mro name_of id_of GM ID ws e NE E.
  destruct (merge_types_error mro name_of id_of GM ID ws e NE E) as [_ [ts [N [L [I G]]]]]. exists ts. repeat split; auto.
  intros a b Ia Ib W. destruct (within_subsumes mro name_of id_of GM ID a b W) as [S|S]; [left; symmetry; now apply G|now right].
Qed.
Print Assumptions C32_fails_only_beyond_255_types.
(** 256 different constants have no merged type. *)
Theorem C32_too_many_constants_refuted :
  exists mro name_of id_of ws, good_mro mro /\ (forall a b : ty, id_of a = id_of b :> Z -> a = b) /\ nonempty ws /\
    merge_types mro name_of id_of ws = Err GenericError.
Proof.
  exists two_classes, no_names, an_id, (map (fun k => Some (Single (ValueT (CInt (Z.of_nat k))))) (seq 0 256)).
  split; [exact two_classes_good|]. split; [exact an_id_inj|]. split.
  - intros t I. apply in_map_iff in I as [k [[= <-] _]]. discriminate.
  - vm_compute. reflexivity.
Qed.
Print Assumptions C32_too_many_constants_refuted.

Example C32_case :
  let ws := [Some (OneOf [FloatT; ClassT 2]); None; Some (OneOf [ValueT (CInt 5); ClassT 1]); Some (Single IntT)] in
  nonempty ws /\ ~ bool_and_int ws /\ (exists t u, In (Some t) ws /\ In (Some u) ws /\ t <> u) /\
  merge_types two_classes (fun t => match t with ClassT _ => [66] | FloatT => [102] | _ => [105] end) (fun _ => 0) ws = Ok (Some (OneOf [ClassT 1; FloatT; IntT])).
Proof.
  cbv zeta. split; [|split; [|split]].
  - intros t [[= <-]|[H|[[= <-]|[[= <-]|[]]]]]; discriminate.
  - intros [_ [b H]]. repeat (destruct H as [H|H]; [discriminate|]). destruct H.
  - eexists _, _. split; [now left|]. split; [right; right; now left|discriminate].
  - vm_compute. reflexivity.
Qed.
