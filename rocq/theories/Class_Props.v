(** Properties C66 and C67: the order in which base classes are searched, and what attributes mean. *)
From Verif Require Import Base Class_Model Class_Spec Class_Order_Proofs Class_Proofs Class_Attr_Proofs.
From Coq Require Import String ZArith.
Open Scope string_scope.
Open Scope list_scope.

(** ** C66 *)

(** The order of every class is Python's.  Partial: for programs that name no base twice in one class statement. *)
Theorem C66_order_is_pythons_partial : forall es c k,
  no_base_twice es -> nth_error (history es) c = Some k -> python_mro (bases_of (history es)) c (c_mro k).
Proof. intros es c k F N. exact (proj1 (history_sound es F c k N)). Qed.
Print Assumptions C66_order_is_pythons_partial.

Theorem C66_pythons_order_is_unique : forall bases c l l', python_mro bases c l -> python_mro bases c l' -> l = l'.
Proof. intros bases c l l' M M'. exact (python_mro_deterministic bases c l M l' M'). Qed.
Print Assumptions C66_pythons_order_is_unique.

(** A class statement is accepted exactly if Python finds an order and the restrictions of typed_python are met. *)
Theorem C66_accepted_when_python_accepts_partial : forall es bs b,
  no_base_twice es -> NoDup bs ->
  let w := history es in
  ((exists w', make w bs b = Ok w') <-> allowed w bs b /\ exists l, python_mro (bases_of w ++ [bs]) (List.length w) l) /\
  ((exists w', make w bs b = Ok w') \/ make w bs b = Err TypeError).
Proof.
  intros es bs b F N w. assert (M := make_right w bs b (history_sound es F) N). destruct (make w bs b) as [w'|e].
  - destruct M as (A & k & _ & _ & _ & P & _). split; [|left; eauto]. split; [intros _; eauto|eauto].
  - destruct M as (-> & NO). split; [|now right]. split; [intros (? & ?); discriminate|intros X; contradiction].
Qed.
Print Assumptions C66_accepted_when_python_accepts_partial.

(** The order has the class first, each class it inherits from once and nothing else, and keeps the order of the
    statement and of every base. *)
Theorem C66_order_keeps_all_orders_partial : forall es c k,
  no_base_twice es -> nth_error (history es) c = Some k ->
  hd_error (c_mro k) = Some c /\ NoDup (c_mro k) /\
  (forall a, In a (c_mro k) <-> ancestor (bases_of (history es)) c a) /\
  subsequence (c_bases k) (c_mro k) /\
  (forall b kb, In b (c_bases k) -> nth_error (history es) b = Some kb -> subsequence (c_mro kb) (c_mro k)).
Proof.
  intros es c k F N. assert (S := history_sound es F). destruct (S c k N) as (P & _).
  assert (A := python_mro_ancestors _ _ _ P).
  destruct (python_mro_facts _ (sound_before _ S) c _ P) as (bs & mros & out & NB & F2 & E & ND & LI & LA & LS).
  assert (bs = c_bases k) as -> by (rewrite (nth_bases _ _ _ N) in NB; congruence).
  split; [now rewrite E|]. split; [exact ND|]. split; [exact A|]. rewrite E. split.
  - apply sub_skip. apply LS. apply in_or_app. right. now left.
  - intros b kb I NK. apply sub_skip. apply LS. apply in_or_app. left.
    destruct (Forall2_left _ _ _ _ _ _ F2 I) as (m & J & X).
    destruct (S b kb NK) as (Y & _). now rewrite (python_mro_deterministic _ _ _ Y _ X).
Qed.
Print Assumptions C66_order_keeps_all_orders_partial.

(** A statement that meets the restrictions is refused only if no order at all keeps the orders of the bases and of
    the statement. *)
Theorem C66_refused_only_without_an_order_partial : forall es bs b,
  no_base_twice es -> NoDup bs ->
  let w := history es in
  allowed w bs b -> make w bs b = Err TypeError ->
  ~ exists out, linearizes (map (fun c => match nth_error w c with Some k => c_mro k | None => nil end) bs ++ [bs]) out.
Proof.
  intros es bs b F N w A E (out & ND & _ & SU). assert (S := history_sound es F). fold w in S.
  assert (M := make_right w bs b S N). rewrite E in M. destruct M as (_ & NO). apply NO. split; [exact A|].
  assert (G : Forall2 (python_mro (bases_of w)) bs (map (fun c => match nth_error w c with Some k => c_mro k | None => nil end) bs)).
  { destruct A as (A1 & _). clear - A1 S. assert (H : forall l, (forall c, In c l -> In c bs) ->
      Forall2 (python_mro (bases_of w)) l (map (fun c => match nth_error w c with Some k => c_mro k | None => nil end) l)).
    { induction l as [|c l IH]; intros I; cbn [map]; constructor.
      - destruct (A1 c (I c (or_introl eq_refl))) as (k & Y & _). rewrite Y. now apply (S c k).
      - apply IH. intros x J. apply I. now right. }
    apply H. auto. }
  destruct (c3_complete _ out ND SU) as (out' & M'). exists (List.length w :: out'). apply (new_class_mro w bs _ _ G). eauto.
Qed.
Print Assumptions C66_refused_only_without_an_order_partial.

(** [issubclass] and the place of a base in the order. *)
Theorem C66_subclass_and_index_partial : forall es c a i,
  no_base_twice es ->
  let w := history es in
  (is_subclass w c a = true <-> ancestor (bases_of w) c a) /\
  (mro_index w c a = Some i <-> exists k, nth_error w c = Some k /\ nth_error (c_mro k) i = Some a) /\
  (mro_index w c a = None <-> ~ ancestor (bases_of w) c a).
Proof.
  intros es c a i F w. assert (S := history_sound es F). fold w in S. unfold is_subclass, mro_index.
  destruct (nth_error w c) as [k|] eqn:N.
  - destruct (S c k N) as (P & _). assert (A := python_mro_ancestors _ _ _ P a).
    destruct (python_mro_facts _ (sound_before _ S) c _ P) as (_ & _ & _ & _ & _ & _ & ND & _).
    split; [now rewrite mem_in, A|]. split.
    + rewrite mro_index_right by exact ND. split; [eauto|]. intros (k' & E & X). congruence.
    + rewrite <- A. destruct (find_index (index_map (c_mro k)) a) as [j|] eqn:E.
      * apply mro_index_right in E; [|exact ND]. apply nth_error_In in E. split; [discriminate|]. intros X. contradiction.
      * split; [|reflexivity]. intros _ I. apply In_nth_error in I. destruct I as (j & X).
        apply (mro_index_right _ _ _ ND) in X. congruence.
  - assert (NA : ~ ancestor (bases_of w) c a).
    { intros X. destruct X as [c bs Y|c bs b a Y _ _]; apply nth_bases_inv in Y; destruct Y as (k & Y & _); congruence. }
    split; [split; [discriminate|contradiction]|]. split; [split; [discriminate|intros (k & E & _); congruence]|]. split; auto.
Qed.
Print Assumptions C66_subclass_and_index_partial.

(** *** A base that is named twice *)
Definition empty : body := Body false nil nil nil nil nil nil.
Definition twice : list event := [Define nil empty; Define nil empty; Define [1; 0; 0]%nat empty].
(** [class C(B, A, A)] is accepted, with an order that has a class twice; Python refuses it.  [class C(A, A)] is
    refused. *)
Theorem C66_base_named_twice_refuted : exists k,
  nth_error (history twice) 2 = Some k /\ c_mro k = [2; 1; 0; 0]%nat /\ ~ NoDup (c_mro k) /\
  ~ (exists l, python_mro (bases_of (history twice)) 2 l) /\
  make (history twice) [0; 0]%nat empty = Err TypeError.
Proof.
  eexists. split; [reflexivity|]. split; [reflexivity|]. split.
  - cbn [c_mro]. intros N. inversion N as [|? ? _ N1]. inversion N1 as [|? ? _ N2]. inversion N2 as [|? ? N3 _]. apply N3. now left.
  - split; [|reflexivity]. intros (l & M). inversion M as [c bs mros out NB F2 C E1 E2]. subst.
    cbn in NB. injection NB as <-. destruct (c3_sound _ _ C) as (ND & _ & SU).
    specialize (SU [1; 0; 0]%nat). assert (I : In [1; 0; 0]%nat (mros ++ [[1; 0; 0]%nat])) by (apply in_or_app; right; now left).
    specialize (SU I). apply (sub_nodup _ _ _ SU) in ND. inversion ND as [|? ? _ N2]. inversion N2 as [|? ? N3 _]. apply N3. now left.
Qed.
Print Assumptions C66_base_named_twice_refuted.

(** *** A program with a diamond and a refused class *)
Definition diamond : list event :=
  [Define nil empty; Define [0]%nat empty; Define [0]%nat empty; Define [1; 2]%nat empty; MergeAgain 1; Define [2; 3]%nat empty].
Example diamond_order : no_base_twice diamond /\ map c_mro (history diamond) = [[0]; [1; 0]; [2; 0]; [3; 1; 2; 0]]%nat.
Proof.
  split; [|reflexivity]. intros bs b I. cbn in I.
  repeat (destruct I as [E|I]; [try discriminate; injection E as <- _; repeat constructor; cbn; intuition discriminate|]). destruct I.
Qed.
Example diamond_refuses : allowed (history diamond) [2; 3]%nat empty /\ make (history diamond) [2; 3]%nat empty = Err TypeError.
Proof.
  split; [|reflexivity]. split; [|split; [|split; [constructor|intros ? ? ? ? ? ? ? []]]].
  - intros c [<-|[<-|[]]]; eexists; split; [reflexivity| |reflexivity|]; (split; [reflexivity|intros n new old []]).
  - intros c d k l [<-|[<-|[]]] [<-|[<-|[]]] E1 E2 P Q; try reflexivity; exfalso; injection E1 as <-; apply P; reflexivity.
Qed.

(** ** C67 *)

(** What an instance shows under a name is what Python's search finds first.  Partial: if every class that says
    something about the name says the same kind of thing. *)
Theorem C67_attribute_is_pythons_partial : forall es c n kd m,
  no_base_twice es -> well_formed_program es ->
  let w := history es in
  one_kind (searched w c) n kd -> python_attribute (searched w c) n m ->
  exists a, get_attribute w c n = Some a /\ found w c n m a.
Proof. exact attribute_right. Qed.
Print Assumptions C67_attribute_is_pythons_partial.

(** There is no attribute exactly if no class says something about it. *)
Theorem C67_no_attribute_partial : forall es c n,
  no_base_twice es -> well_formed_program es ->
  let w := history es in
  get_attribute w c n = None <-> forall b, In b (searched w c) -> silent b n.
Proof. exact missing_right. Qed.
Print Assumptions C67_no_attribute_partial.

Theorem C67_class_and_instance_agree_partial : forall es c n kd,
  no_base_twice es -> well_formed_program es ->
  let w := history es in
  one_kind (searched w c) n kd -> kd <> KMember -> kd <> KProperty ->
  get_class_attribute w c n = get_attribute w c n.
Proof. exact class_attribute_right. Qed.
Print Assumptions C67_class_and_instance_agree_partial.

(** A call of a method runs the first overload that takes the arguments: first by level of conversion, then by the
    order of search. *)
Theorem C67_call_runs_first_accepting_overload_partial : forall es c n os level (accepts : level -> Z -> bool) levels,
  no_base_twice es -> well_formed_program es ->
  let w := history es in
  one_kind (searched w c) n KMethod -> python_attribute (searched w c) n (IsMethod os) ->
  exists ps, get_attribute w c n = Some (AMethod ps) /\
  match call accepts levels ps with
  | Some o => runs accepts levels b_methods (searched w c) n o
  | None => forall l b qs o, In l levels -> In b (searched w c) -> lookup (b_methods b) n = Some qs -> In o qs -> accepts l o = false
  end.
Proof.
  intros es c n os level accepts levels F P w OK PA.
  destruct (attribute_right es c n KMethod (IsMethod os) F P OK PA) as (a & E & FD). fold w in E, FD.
  unfold found in FD. destruct a as [|ps| | | |]; try contradiction. exists ps. split; [exact E|]. subst ps. apply call_runs.
Qed.
Print Assumptions C67_call_runs_first_accepting_overload_partial.

(** It is the overload of the class that Python would choose if that class takes the arguments without conversion. *)
Theorem C67_override_runs_partial : forall es c n os level (accepts : level -> Z -> bool) l levels o,
  no_base_twice es -> well_formed_program es ->
  let w := history es in
  one_kind (searched w c) n KMethod -> python_attribute (searched w c) n (IsMethod os) ->
  first_accepting (accepts l) os = Some o ->
  exists ps, get_attribute w c n = Some (AMethod ps) /\ call accepts (l :: levels) ps = Some o.
Proof.
  intros es c n os level accepts l levels o F P w OK PA FA.
  destruct (attribute_right es c n KMethod (IsMethod os) F P OK PA) as (a & E & FD). fold w in E, FD.
  unfold found in FD. destruct a as [|ps| | | |]; try contradiction. exists ps. split; [exact E|]. subst ps.
  destruct PA as (e & b & la & D & SI & SA). rewrite D, overloads_split.
  - cbn in SA. rewrite SA. now apply call_first.
  - intros x I. destruct (lookup (b_methods x) n) as [qs|] eqn:X; [|reflexivity]. exfalso. exact (SI x I (IsMethod qs) X).
Qed.
Print Assumptions C67_override_runs_partial.

(** Merging a class again, as deserialization does, leaves all attributes as they are for every call. *)
Definition same_attribute (a b : option attribute) : Prop :=
  a = b \/ exists os ps, a = Some (AStatic os) /\ b = Some (AStatic ps) /\ same_calls os ps.
Theorem C67_merging_again_changes_nothing_partial : forall es d c n,
  no_base_twice es -> well_formed_program es ->
  same_attribute (get_attribute (history (es ++ [MergeAgain d])) c n) (get_attribute (history es) c n).
Proof.
  intros es d c n F P. assert (EH : history (es ++ [MergeAgain d]) = merge_again (history es) d)
    by (unfold history; now rewrite fold_left_app).
  rewrite EH. destruct (history_merged es F P) as (M & W). assert (M' := merged_again _ d W M).
  unfold get_attribute. destruct (nth_error (merge_again (history es) d) c) as [k|] eqn:N.
  - destruct (merge_again_nth _ _ _ _ N) as (k' & N' & _ & _ & EM & EMem). rewrite N', EMem.
    destruct (M' c k N n) as (A1 & A2 & A3 & A4 & A5). destruct (M c k' N' n) as (B1 & B2 & B3 & B4 & B5).
    rewrite bodies_again, EM in A1, A2, A3, A4, A5. rewrite A1, A2, A3, A4, B1, B2, B3, B4.
    destruct (member_index (c_members k') n); [now left|].
    destruct (inherited b_methods _ n); [now left|]. destruct (inherited b_properties _ n); [now left|].
    destruct (fold_right _ None _); [now left|]. destruct (inherited b_classmethods _ n); [now left|].
    destruct (lookup (c_statics k) n) as [os|], (lookup (c_statics k') n) as [ps|], (inherited b_statics _ n) as [qs|];
      try contradiction; cbn [option_map]; [|now left].
    right. exists os, ps. split; [reflexivity|]. split; [reflexivity|]. apply same_finds_calls. intros p. now rewrite (A5 p), (B5 p).
  - assert (N' : nth_error (history es) c = None).
    { apply nth_error_None. apply nth_error_None in N. now rewrite merge_again_length in N. }
    rewrite N'. now left.
Qed.
Print Assumptions C67_merging_again_changes_nothing_partial.

(** *** Where Python finds something else *)
Definition with_methods (fs : functions) : body := Body false nil fs nil nil nil nil.
Definition with_objects (os : list (string * Z)) : body := Body false nil nil nil nil nil os.

(** A class member does not replace a method of a base on instances, though it does on the class:
    [class A(Class): def f(self): ...] and [class B(A): f = 7]. *)
Definition hidden_object : list event := [Define nil (with_methods [("f", [1%Z])]); Define [0]%nat (with_objects [("f", 7%Z)])].
Theorem C67_class_member_over_method_refuted :
  let w := history hidden_object in
  python_attribute (searched w 1) "f" (IsObject 7) /\
  get_attribute w 1 "f" = Some (AMethod [1%Z]) /\ get_class_attribute w 1 "f" = Some (AObject 7).
Proof.
  cbv zeta. split; [|split; reflexivity]. exists nil. eexists. eexists. split; [reflexivity|]. split; [intros e []|].
  split; [intros []|reflexivity].
Qed.
Print Assumptions C67_class_member_over_method_refuted.

(** A property does not replace a method either. *)
Definition hidden_property : list event :=
  [Define nil (with_methods [("f", [1%Z])]); Define [0]%nat (Body false nil nil nil [("f", [2%Z])] nil nil)].
Theorem C67_property_over_method_refuted :
  let w := history hidden_property in
  python_attribute (searched w 1) "f" (IsProperty [2%Z]) /\ get_attribute w 1 "f" = Some (AMethod [1%Z]).
Proof.
  cbv zeta. split; [|reflexivity]. exists nil. eexists. eexists. split; [reflexivity|]. split; [intros e []|reflexivity].
Qed.
Print Assumptions C67_property_over_method_refuted.

(** A method that takes the arguments only after a conversion is passed over for the method of a base that takes them
    as they are.  Level 0 is no conversion; overload 1 takes them there, overload 2 at level 1. *)
Definition narrowed : list event := [Define nil (with_methods [("f", [1%Z])]); Define [0]%nat (with_methods [("f", [2%Z])])].
Theorem C67_override_with_conversion_refuted :
  let w := history narrowed in
  let accepts (l : nat) (o : Z) := Z.leb o (Z.of_nat l + 1) in
  python_attribute (searched w 1) "f" (IsMethod [2%Z]) /\ call accepts [0; 1]%nat [2%Z] = Some 2%Z /\
  exists ps, get_attribute w 1 "f" = Some (AMethod ps) /\ call accepts [0; 1]%nat ps = Some 1%Z.
Proof.
  cbv zeta. split; [|split; [reflexivity|eexists; split; reflexivity]].
  exists nil. eexists. eexists. split; [reflexivity|]. split; [intros e []|reflexivity].
Qed.
Print Assumptions C67_override_with_conversion_refuted.

(** *** A program with methods in three classes *)
Definition three : list event :=
  [Define nil (with_methods [("f", [1%Z])]);
   Define nil (Body false [Member "x" 5 8 false] [("f", [2%Z]); ("g", [3%Z])] nil nil nil [("x", 9%Z)]);
   Define [1; 0]%nat (with_methods [("f", [4%Z; 5%Z])]);
   MergeAgain 2].
Example three_classes : no_base_twice three /\ well_formed_program three /\
  one_kind (searched (history three) 2) "f" KMethod /\ python_attribute (searched (history three) 2) "f" (IsMethod [4%Z; 5%Z]) /\
  get_attribute (history three) 2 "f" = Some (AMethod [4; 5; 2; 1]%Z) /\ get_attribute (history three) 2 "x" = Some (AMember 0).
Proof.
  split; [|split; [|split; [|split; [|split; reflexivity]]]].
  - intros bs b I. cbn in I.
    repeat (destruct I as [E|I]; [try discriminate; injection E as <- _; repeat constructor; cbn; intuition discriminate|]). destruct I.
  - intros bs b I. cbn in I.
    repeat (destruct I as [E|I]; [try discriminate; injection E as _ <-; repeat split; repeat constructor; cbn; intuition discriminate|]). destruct I.
  - intros b m I S. change (searched (history three) 2) with
      [with_methods [("f", [4%Z; 5%Z])]; Body false [Member "x" 5 8 false] [("f", [2%Z]); ("g", [3%Z])] nil nil nil [("x", 9%Z)];
       with_methods [("f", [1%Z])]] in I.
    destruct I as [<-|[<-|[<-|[]]]]; destruct m; cbn in S; try discriminate; try contradiction; try reflexivity;
      try (destruct S as [S|[]]; discriminate); destruct S; discriminate.
  - exists nil. eexists. eexists. split; [reflexivity|]. split; [intros e []|reflexivity].
Qed.
