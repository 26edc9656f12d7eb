(** Property C83: what a OneOf holds. *)
From Coq Require Import Floats.SpecFloat QArith ZifyBool ZifyNat.
From Verif Require Import Base Arith_Model Arith_Spec Upcast_Model Upcast_Spec OneOf_Model OneOf_Spec OneOf_Proofs.
Open Scope Z_scope.

(** ** The options *)

(** The options are the types named, each once, in the order in which they are named first. *)
Theorem C83_options : forall args ts, make args = Ok ts <-> ts = first_occurrences (named args) /\ (length ts <= 255)%nat.
Proof.
  intros args ts. rewrite make_spec. destruct (255 <? length (first_occurrences (named args)))%nat eqn:L.
  - split; [discriminate|]. intros [-> H]. lia.
  - split; [intros H; injection H as <-; split; [reflexivity|lia]|]. intros [-> _]. reflexivity.
Qed.
Print Assumptions C83_options.
Corollary C83_options_once : forall args ts, make args = Ok ts -> NoDup ts /\ (forall t, In t ts <-> In t (named args)).
Proof.
  intros args ts M. apply C83_options in M. destruct M as [-> _]. unfold first_occurrences. split.
  - apply NoDup_rev, NoDup_nodup.
  - intros t. now rewrite <- in_rev, nodup_In, <- in_rev.
Qed.
Print Assumptions C83_options_once.
(** A OneOf among the arguments counts as its options, with its arguments in place of it. *)
Theorem C83_nested : forall before inner ts after, make inner = Ok ts ->
  make (before ++ [Node (map Leaf ts)] ++ after) = make (before ++ inner ++ after).
Proof. exact make_nested. Qed.
Print Assumptions C83_nested.

(** ** The choice *)

(** A conversion takes the first option at the strictest level at which there is one. *)
Theorem C83_choice : forall w ts o l i d, (length ts <= 255)%nat ->
  (convert_oneof w ts o l = Ok (Z.of_nat i, d) <-> best w ts o l i d).
Proof.
  intros w ts o l i d L.
  assert (forall j, (j < length ts)%nat -> byte_of j = Z.of_nat j) as B by (intros j J; unfold byte_of; rewrite Z.mod_small; lia).
  split; intros H.
  - apply convert_best in H. destruct H as (j & E & H). pose proof H as (s & _ & _ & K & _). rewrite (B j (takes_in _ _ _ _ _ _ K)) in E.
    apply Nat2Z.inj in E. now subst.
  - pose proof H as (s & _ & _ & K & _). rewrite <- (B i (takes_in _ _ _ _ _ _ K)). now apply best_converts.
Qed.
Print Assumptions C83_choice.
(** It fails only if no option takes the object at any level allowed, and then with a TypeError. *)
Theorem C83_refusal : forall w ts o l,
  (forall s i d, s <> New -> no_looser s l -> ~ takes w ts i o s d) <-> convert_oneof w ts o l = Err TypeError.
Proof.
  intros w ts o l. split; intros H.
  - destruct (convert_oneof w ts o l) as [[b d]|e] eqn:C; [|apply convert_fails in C; destruct C as [-> _]; reflexivity].
    exfalso. apply convert_best in C. destruct C as (i & _ & s & N & L & K & _). eapply H; eassumption.
  - intros s i d. apply convert_fails in H. apply H.
Qed.
Print Assumptions C83_refusal.
Theorem C83_errors : forall w ts o l e, convert_oneof w ts o l = Err e -> e = TypeError.
Proof. intros w ts o l e H. apply convert_fails in H. apply H. Qed.
Print Assumptions C83_errors.
(** Where conversions are freer an object that was taken anyway becomes the same. *)
Theorem C83_levels : forall w ts o l l' r, no_looser l l' -> convert_oneof w ts o l = Ok r -> convert_oneof w ts o l' = Ok r.
Proof.
  intros w ts o l l' [b d] H C. apply convert_best in C. destruct C as (i & -> & B). apply best_converts. eapply best_looser; eassumption.
Qed.
Print Assumptions C83_levels.
(** An explicit call does no more than an implicit conversion: texts are not parsed, and nothing is turned into
    a text. *)
Theorem C83_calls : forall w ts o, convert_oneof w ts o New = convert_oneof w ts o ImplicitContainers.
Proof. reflexivity. Qed.
Print Assumptions C83_calls.
Theorem C83_strings : forall w ts s l, (forall n, ~ In (TTyped n) ts) ->
  ((exists r, convert_oneof w ts (OStr s) l = Ok r) <-> In TStr ts \/ In (TValue (CStr s)) ts).
Proof. exact strings. Qed.
Print Assumptions C83_strings.

(** A world for the examples: type 0 is a list of ints, which takes instances of type 1 at level
    UpcastContainers as its own with the same content; type 2 is [object]. *)
Definition example_world : world := {|
  to_int := fun t f => match f with S754_finite s m e => if 0 <=? e then 0 else (if s then -1 else 1) * (Zpos m / 2 ^ (- e)) | _ => 0 end;
  typed_could_be := fun n o l => match n with 0%N => 1 <? level_number l | _ => true end;
  typed_convert := fun n o l =>
    match n, o with
    | 0%N, OTyped 1%N c => if 1 <? level_number l then Ok (OTyped 0%N c) else Err TypeError
    | 2%N, o => Ok o
    | _, _ => Err TypeError
    end;
  typed_default := fun n => match n with 0%N => Some (OTyped 0%N 0) | _ => None end |}.
Definition half : spec_float := S754_finite false 4503599627370496 (-53).
Example C83_options_case :
  make [Leaf TNone; Node [Leaf (TReg I64); Leaf TNone]; Leaf TStr; Leaf (TReg I64)] = Ok [TNone; TReg I64; TStr]
  /\ make [Leaf TStr; Node [Leaf TNone; Leaf TStr]] = Ok [TStr; TNone].
Proof. split; vm_compute; reflexivity. Qed.
Example C83_choice_case :
  let ts := [TReg F64; TReg I64; TTyped 0%N; TNone] in
  convert_oneof example_world ts (OInt 3) Implicit = Ok (1, DReg (Int 3))
  /\ convert_oneof example_world ts (OReg I32 (Int 3)) Signature = Err TypeError
  /\ convert_oneof example_world ts (OReg I32 (Int 3)) Upcast = Ok (0, DReg (Float (round_to F64 3 0)))
  /\ convert_oneof example_world ts (OTyped 1%N 7) Upcast = Err TypeError
  /\ convert_oneof example_world ts (OTyped 1%N 7) New = Ok (2, DTyped (OTyped 0%N 7))
  /\ convert_oneof example_world ts (OStr [49]) New = Err TypeError
  /\ convert_oneof example_world ts ONone Signature = Ok (3, DNone)
  /\ (length ts <= 255)%nat.
Proof. cbv zeta. repeat split; try (vm_compute; reflexivity). cbn. lia. Qed.

(** ** Round trips *)

(** An object whose own type is an option comes back as it is, at every level and wherever the option stands,
    unless one of the constants mistakes it. *)
Theorem C83_round_trip_partial : forall w ts o l, faithful w -> (length ts <= 255)%nat -> is_object o ->
  (forall t, In t ts -> is_type t /\ ~ mistakes t o) -> In (own_type o) ts ->
  exists r, convert_oneof w ts o l = Ok r /\ extract ts r = Ok o.
Proof. exact round_trip. Qed.
Print Assumptions C83_round_trip_partial.
(** With types alone as options there is nothing to mistake. *)
Corollary C83_round_trip_types : forall w ts o l, faithful w -> (length ts <= 255)%nat -> is_object o ->
  (forall c, ~ In (TValue c) ts) -> In (own_type o) ts -> exists r, convert_oneof w ts o l = Ok r /\ extract ts r = Ok o.
Proof.
  intros w ts o l W L O N I. apply round_trip; try assumption. intros t T. destruct t as [| | | |c|]; cbn; try tauto. exfalso. eapply N, T.
Qed.
Print Assumptions C83_round_trip_types.
Example C83_round_trip_case :
  let ts := [TReg F64; TValue (CReg I64 (Int 7)); TReg Bool; TTyped 2%N; TReg I64; TReg F32; TValue (CStr [97]); TStr] in
  faithful example_world /\ (forall o, In o [OInt 8; OInt 7; OFloat half; OStr [97]; OReg F32 (Float half)] -> In (own_type o) ts)
  /\ (forall t, In t ts -> is_type t /\ ~ mistakes t (OInt 7))
  /\ convert_oneof example_world ts (OInt 7) Signature = Ok (1, DValue) /\ extract ts (1, DValue) = Ok (OInt 7)
  /\ convert_oneof example_world ts (OInt 8) Signature = Ok (3, DTyped (OInt 8)).
Proof.
  cbv zeta. split; [|split; [|split; [|repeat split; vm_compute; reflexivity]]].
  - intros n o x. cbn. destruct n as [|[[p|p|]|[p|p|]|]]; try discriminate; congruence.
  - intros o H. repeat (destruct H as [<-|H]; [cbn; tauto|]). destruct H.
  - intros t H. repeat (destruct H as [<-|H]; [split; [cbn [is_type has_type in_range]; try exact Logic.I; lia|cbn [mistakes is_nan]; intros X; try exact X; destruct X as [b E]; discriminate E]|]). destruct H.
Qed.
(** True becomes 1 if the constant 1 stands before bool; -0.0 becomes 0.0; every Float32 becomes a NaN where
    that is a constant; an int of more than 64 bits loses its upper bits, also by being mistaken for a
    constant. *)
Theorem C83_round_trip_refuted : forall w,
  extract [TValue (CReg I64 (Int 1)); TReg Bool] (0, DValue) = Ok (OInt 1)
  /\ convert_oneof w [TValue (CReg I64 (Int 1)); TReg Bool] (OBool true) Signature = Ok (0, DValue)
  /\ convert_oneof w [TValue (CReg F64 (Float (S754_zero false))); TReg F64] (OFloat (S754_zero true)) Signature = Ok (0, DValue)
  /\ convert_oneof w [TValue (CReg F32 (Float S754_nan)); TReg F32] (OReg F32 (Float half)) Signature = Ok (0, DValue)
  /\ convert_oneof w [TNone; TReg I64] (OInt (2 ^ 64 + 5)) Signature = Ok (1, DReg (Int 5))
  /\ convert_oneof w [TValue (CReg I64 (Int 5)); TReg F64] (OInt (2 ^ 64 + 5)) Signature = Ok (0, DValue).
Proof. intros w. repeat split; vm_compute; reflexivity. Qed.
Print Assumptions C83_round_trip_refuted.

(** ** Numbers *)

(** Among number types, if an upcast to one of the options is possible then no other conversion is made: the
    number is kept if the type chosen has it. *)
Theorem C83_numbers_partial : forall w ts o a v b l, only_numbers ts -> (length ts <= 255)%nat -> number_object o a v -> has_type a v ->
  In (TReg b) ts -> valid_upcast a b = true -> no_looser Upcast l ->
  exists i c u, convert_oneof w ts o l = Ok (Z.of_nat i, DReg u) /\ nth_error ts i = Some (TReg c)
    /\ (same_number (number_of v) (number_of u) <-> fits c v).
Proof.
  intros w ts o a v b l O L N T I U M. destruct (numbers w ts o a v b l O N T I U M) as (i & c & u & C & E & S). exists i, c, u.
  split; [|now split]. rewrite C. assert (i < length ts)%nat by (apply nth_error_Some; congruence).
  unfold byte_of. rewrite Z.mod_small by lia. reflexivity.
Qed.
Print Assumptions C83_numbers_partial.
Example C83_numbers_case :
  let ts := [TReg I8; TReg U16; TReg F32; TReg I64] in
  only_numbers ts /\ number_object (OReg U8 (Int 200)) U8 (Int 200) /\ has_type U8 (Int 200) /\ valid_upcast U8 I64 = true
  /\ convert_oneof example_world ts (OReg U8 (Int 200)) Implicit = Ok (1, DReg (Int 200)).
Proof.
  cbv zeta. split; [|repeat split; vm_compute; congruence].
  intros t H. repeat (destruct H as [<-|H]; [eexists; reflexivity|]). destruct H.
Qed.
(** Without one the first type is taken, though a later one has the number; and an upcast that loses digits is
    made before one that does not. *)
Theorem C83_numbers_refuted : forall w,
  convert_oneof w [TReg I8; TReg I16] (OInt 300) Implicit = Ok (0, DReg (Int 44))
  /\ convert_oneof w [TReg F32; TReg I64] (OReg I32 (Int (2 ^ 24 + 1))) Upcast = Ok (0, DReg (Float (round_to F32 (2 ^ 24) 0)))
  /\ convert_oneof w [TNone; TReg F64] (OInt (10 ^ 400)) Upcast = Ok (1, DReg (Float (round_to F64 (-1) 0))).
Proof. intros w. repeat split; vm_compute; reflexivity. Qed.
Print Assumptions C83_numbers_refuted.

(** ** The default *)

(** The default is the default of the first option that has one. *)
Theorem C83_default : forall w ts i d, (length ts <= 255)%nat ->
  (default_oneof w ts = Ok (Z.of_nat i, d) <->
   (exists t, nth_error ts i = Some t /\ default_of w t = Some d) /\ forall j t, (j < i)%nat -> nth_error ts j = Some t -> default_of w t = None).
Proof.
  intros w ts i d L. pose proof (default_spec w ts 0) as H. fold (default_oneof w ts) in H. split.
  - intros E. rewrite E in H. destruct H as (j & t & B & N & D & F). cbn [Nat.add] in B. assert (j < length ts)%nat by (apply nth_error_Some; congruence).
    unfold byte_of in B. rewrite Z.mod_small in B by lia. apply Nat2Z.inj in B. subst j. split; [exists t; now split|exact F].
  - intros [(t & N & D) F]. destruct (default_oneof w ts) as [[b d']|e].
    + destruct H as (j & t' & B & N' & D' & F'). cbn [Nat.add] in B. assert (i = j) as <-.
      { destruct (Nat.lt_trichotomy i j) as [X|[X|X]]; [|exact X|]; exfalso.
        - specialize (F' i t X N). congruence.
        - specialize (F j t' X N'). congruence. }
      assert (i < length ts)%nat by (apply nth_error_Some; congruence). rewrite N in N'. injection N' as <-. rewrite D in D'. injection D' as <-.
      rewrite B. unfold byte_of. rewrite Z.mod_small by lia. reflexivity.
    + exfalso. specialize (H t (nth_error_In _ _ N)). congruence.
Qed.
Print Assumptions C83_default.
Example C83_default_case : default_oneof example_world [TTyped 1%N; TTyped 0%N; TNone] = Ok (1, DTyped (OTyped 0%N 0))
  /\ default_oneof example_world [TReg I64; TNone] = Ok (0, DReg (Int 0)).
Proof. split; reflexivity. Qed.
