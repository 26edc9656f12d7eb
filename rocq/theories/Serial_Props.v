(** Theorems about serialization of values (C04, C05, C06, C07, C42). *)
From Verif Require Import Base Wire_Model Wire_Spec Wire_Proofs Wire_Props Serial_Model Serial_Spec
  Serial_Data_Proofs Serial_Proofs Serial_Graph_Proofs Serial_Roundtrip_Proofs Serial_Total_Proofs Serial_Evolution_Proofs.
From Coq Require Import ZifyBool ZifyNat.
Open Scope Z_scope.

(** ** C04 *)

(** Serializing a well-typed value succeeds (in finitely many steps, whatever cycles its
    object graph has). *)
Theorem C04_serialize_succeeds : forall c S h t v,
  context_ok c -> heap_has_types c S h -> has_type c S t v ->
  exists fuel bs, serialize c fuel h t v = Ok bs.
Proof. intros c S h t v Hc Hh Ht. exact (serialize_succeeds c S h Hc Hh t v Ht). Qed.
Print Assumptions C04_serialize_succeeds.

(** What is written is exactly one well-formed message. *)
Theorem C04_serialize_well_formed : forall c S h fuel t v bs,
  context_ok c -> heap_has_types c S h -> has_type c S t v -> serialize c fuel h t v = Ok bs ->
  (exists m, encodes_tagged 0 m bs) /\ validateSerializedObject bs = true.
Proof.
  intros c S h fuel t v bs Hc Hh Ht H. destruct (serialize_message c S h Hc Hh fuel t v bs Ht H) as [m Hm].
  split; [now exists m|]. rewrite <- (app_nil_r bs). now rewrite (C41_validate_partial 0 m bs []).
Qed.
Print Assumptions C04_serialize_well_formed.

(** A value without mutable containers is read back unchanged; what follows in the stream is
    left alone. *)
Theorem C04_roundtrip_immutable : forall c S h fuel t v bs rest,
  context_ok c -> heap_has_types c S h -> has_type c S t v -> tree v ->
  serialize c fuel h t v = Ok bs ->
  exists h', deserialize c t (bs ++ rest) = Ok (v, rest, h').
Proof. intros c S h fuel t v bs rest Hc Hh Ht Htr H. exact (serialize_tree c S h Hc Hh fuel t v bs rest Ht Htr H). Qed.
Print Assumptions C04_roundtrip_immutable.

(** With lists, dicts and sets: the value and everything reachable from it is read back with
    the same contents and the same shape.  This is also C05. *)
Theorem C04_roundtrip : forall c S h fuel t v bs rest,
  context_ok c -> heap_has_types c S h -> has_type c S t v -> serialize c fuel h t v = Ok bs ->
  exists v' h', deserialize c t (bs ++ rest) = Ok (v', rest, h') /\ same_graph h v h' v'.
Proof. intros c S h fuel t v bs rest Hc Hh Ht H. exact (serialize_roundtrip c S h Hc Hh fuel t v bs rest Ht H). Qed.
Print Assumptions C04_roundtrip.

(** A value that uses every kind of type. *)
Definition ex_context (inline : bool) : context :=
  {| types := [TListOf (TOneOf [TNone; TNamed 0; TStr])]; inline_pod := inline;
     garbage := fun _ n => repeat 0 n; depth := 10 |}.
Definition ex_type : ty :=
  TTuple [TBool; TInt true 2; TInt false 8; TFloat 8; TStr; TBytes; TTupleOf (TInt true 8);
          TAlternative [TTuple []; TTuple [TInt true 8]]; TConstDict TStr (TOneOf [TNone; TBool]);
          TTupleOf (TTuple [TInt true 4; TBool]); TTuple [TFloat 4]].
Definition ex_value : val :=
  VTuple [VBool true; VInt (-300); VInt 18446744073709551615; VFloat 4611686018427387904;
          VStr [104; 228; 8364; 128512]; VBytes [0; 255]; VSeq (map VInt [1; -2; 70000; 5000000000; 3]);
          VAlt 1 (VTuple [VInt (-1)]); VConstDict [(VStr [97], VOneOf 1 (VBool true)); (VStr [98], VOneOf 0 VNone)];
          VSeq [VTuple [VInt 7; VBool false]; VTuple [VInt (-8); VBool true]]; VTuple [VFloat 1065353216]].

Lemma ex_context_ok inline : context_ok (ex_context inline).
Proof. intros v n. apply repeat_length. Qed.

Lemma ex_value_typed inline : has_type (ex_context inline) [] ex_type ex_value.
Proof.
  assert (B : forall b, has_type (ex_context inline) [] TBool (VBool b)) by constructor.
  unfold ex_type, ex_value. constructor; [|cbn; lia].
  constructor; [apply B|].
  constructor; [constructor; cbn; [tauto|lia]|].
  constructor; [constructor; cbn; [tauto|lia]|].
  constructor; [constructor; cbn; [tauto|lia]|].
  constructor; [constructor; [repeat constructor; cbn; lia|cbn; lia]|].
  constructor; [constructor; [repeat constructor; cbn; lia|cbn; lia]|].
  constructor; [constructor; [repeat (constructor; [constructor; cbn; [tauto|lia]|]); constructor|cbn; lia|cbn; lia]|].
  constructor.
  { eapply ht_alternative; [reflexivity|lia|]. constructor; [|cbn; lia]. constructor; [constructor; cbn; [tauto|lia]|constructor]. }
  constructor.
  { constructor; [|cbn; lia]. constructor; [split; [constructor; [repeat constructor; cbn; lia|cbn; lia]|]|].
    - eapply ht_oneof; [reflexivity|lia|apply B].
    - constructor; [split; [constructor; [repeat constructor; cbn; lia|cbn; lia]|]|constructor].
      eapply ht_oneof; [reflexivity|lia|constructor]. }
  constructor.
  { constructor; [|cbn; lia|cbn; lia].
    repeat (constructor; [constructor; [constructor; [constructor; cbn; [tauto|lia]|constructor; [apply B|constructor]]|cbn; lia]|]). constructor. }
  constructor; [|constructor]. constructor; [|cbn; lia]. constructor; [constructor; cbn; [tauto|lia]|constructor].
Qed.

Example C04_hypotheses_ex :
  context_ok (ex_context true) /\ heap_has_types (ex_context true) [] [] /\ has_type (ex_context true) [] ex_type ex_value.
Proof. split; [apply ex_context_ok|]. split; [split; [constructor|cbn; lia]|]. apply ex_value_typed. Qed.
Example C04_roundtrip_ex :
  (bs <- serialize (ex_context true) 10 [] ex_type ex_value ;; deserialize (ex_context true) ex_type (bs ++ [9]))%result
  = Ok (ex_value, [9], []).
Proof. vm_compute. reflexivity. Qed.

(** ** C05 *)

Theorem C05_aliasing_preserved : forall c S h fuel t v bs rest,
  context_ok c -> heap_has_types c S h -> has_type c S t v -> serialize c fuel h t v = Ok bs ->
  exists v' h', deserialize c t (bs ++ rest) = Ok (v', rest, h') /\
    (* every position holds a matching value, *)
    (forall path, (at_path h v path = None <-> at_path h' v' path = None)) /\
    (forall path x, tree x -> at_path h v path = Some x -> at_path h' v' path = Some x) /\
    (* references stay references, *)
    (forall path p, at_path h v path = Some (VRef p) -> exists p', at_path h' v' path = Some (VRef p')) /\
    (* and two positions hold the same object exactly if they did before *)
    (forall path1 path2 p1 p2 p1' p2',
       at_path h v path1 = Some (VRef p1) -> at_path h v path2 = Some (VRef p2) ->
       at_path h' v' path1 = Some (VRef p1') -> at_path h' v' path2 = Some (VRef p2') ->
       (p1 = p2 <-> p1' = p2')).
Proof.
  intros c S h fuel t v bs rest Hc Hh Ht H.
  destruct (serialize_roundtrip c S h Hc Hh fuel t v bs rest Ht H) as (v' & h' & E & R & Hf & Hi & _ & Hv & Ho).
  exists v', h'. split; [exact E|]. pose proof (at_path_rel R h h' Ho) as Hp. split; [|split; [|split]].
  - intros path. specialize (Hp path v v' Hv). destruct (at_path h v path), (at_path h' v' path); try contradiction; split; congruence.
  - intros path x Htr Hpath. specialize (Hp path v v' Hv). rewrite Hpath in Hp. destruct (at_path h' v' path) as [w|]; [|contradiction].
    f_equal. symmetry. eapply tree_rel_eq; eassumption.
  - intros path p Hpath. specialize (Hp path v v' Hv). rewrite Hpath in Hp. destruct (at_path h' v' path) as [w|]; [|contradiction].
    inversion Hp; subst. now exists q.
  - intros path1 path2 p1 p2 p1' p2' A1 A2 B1 B2. pose proof (Hp path1 v v' Hv) as R1. pose proof (Hp path2 v v' Hv) as R2.
    rewrite A1, B1 in R1. rewrite A2, B2 in R2. inversion R1; inversion R2; subst. split; intros ->.
    + eapply Hf; eassumption.
    + eapply Hi; eassumption.
Qed.
Print Assumptions C05_aliasing_preserved.

(** A list that contains itself, a second list twice, and a string. *)
Definition ex_heap : heap :=
  [OList [VOneOf 1 (VRef 0); VOneOf 1 (VRef 1); VOneOf 1 (VRef 1); VOneOf 2 (VStr [104; 105]); VOneOf 0 VNone];
   OList [VOneOf 1 (VRef 0)]].
Definition ex_heap_types : list ty := [TListOf (TOneOf [TNone; TNamed 0; TStr]); TListOf (TOneOf [TNone; TNamed 0; TStr])].
Example C05_hypotheses_ex :
  context_ok (ex_context false) /\ heap_has_types (ex_context false) ex_heap_types ex_heap /\
  has_type (ex_context false) ex_heap_types (TNamed 0) (VRef 0).
Proof.
  split; [apply ex_context_ok|].
  assert (A : forall p, (p < 2)%nat -> has_type (ex_context false) ex_heap_types (TNamed 0) (VRef p)).
  { intros p Hp. eapply ht_named; [reflexivity|exact I|]. constructor. destruct p as [|[|p]]; [reflexivity|reflexivity|lia]. }
  split; [|apply A; lia]. split; [|cbn; lia].
  constructor; [|constructor; [|constructor]].
  - constructor; [|cbn; lia|cbn; lia].
    constructor; [eapply ht_oneof; [reflexivity|lia|apply A; lia]|].
    constructor; [eapply ht_oneof; [reflexivity|lia|apply A; lia]|].
    constructor; [eapply ht_oneof; [reflexivity|lia|apply A; lia]|].
    constructor; [eapply ht_oneof; [reflexivity|lia|constructor; [repeat constructor; cbn; lia|cbn; lia]]|].
    constructor; [eapply ht_oneof; [reflexivity|lia|constructor]|constructor].
  - constructor; [|cbn; lia|cbn; lia]. constructor; [eapply ht_oneof; [reflexivity|lia|apply A; lia]|constructor].
Qed.
Example C05_aliasing_ex :
  (bs <- serialize (ex_context false) 10 ex_heap (TNamed 0) (VRef 1) ;; deserialize (ex_context false) (TNamed 0) bs)%result
  = Ok (VRef 0, [],
        [OList [VOneOf 1 (VRef 1)];
         OList [VOneOf 1 (VRef 1); VOneOf 1 (VRef 0); VOneOf 1 (VRef 0); VOneOf 2 (VStr [104; 105]); VOneOf 0 VNone]]).
Proof. vm_compute. reflexivity. Qed.

(** ** C06 *)

(** A reader with additional fields: the common fields are read back, the additional ones
    are default-constructed. *)
Theorem C06_added_fields : forall c S h ts added vs fuel bs rest,
  context_ok c -> heap_has_types c S h -> has_type c S (TTuple ts) (VTuple vs) ->
  forallb (default_constructible c (depth c)) added = true ->
  serialize c fuel h (TTuple ts) (VTuple vs) = Ok bs ->
  exists vs' ds h' new,
    deserialize c (TTuple (ts ++ added)) (bs ++ rest) = Ok (VTuple (vs' ++ ds), rest, h' ++ new) /\
    same_graph h (VTuple vs) h' (VTuple vs') /\
    Forall2 (default_of c (h' ++ new)) added ds.
Proof.
  intros c S h ts added vs fuel bs rest Hc Hh Ht Hd H.
  assert (Hl : length ts = length vs) by (inversion Ht; subst; eapply Forall2_length; eauto).
  pose proof (tuple_evolution c S h Hc Hh ts [] added vs [] fuel bs rest) as T. rewrite !app_nil_r in T.
  destruct T as (vs' & ds & h1 & new & E & G & D & _); auto. exists vs', ds, h1, new. auto.
Qed.
Print Assumptions C06_added_fields.

(** A reader with fewer fields: the fields it knows are read back, the others ignored. *)
Theorem C06_dropped_fields : forall c S h ts dropped vs ws fuel bs rest,
  context_ok c -> heap_has_types c S h -> length ts = length vs ->
  has_type c S (TTuple (ts ++ dropped)) (VTuple (vs ++ ws)) ->
  serialize c fuel h (TTuple (ts ++ dropped)) (VTuple (vs ++ ws)) = Ok bs ->
  exists vs' h',
    deserialize c (TTuple ts) (bs ++ rest) = Ok (VTuple vs', rest, h') /\
    same_graph h (VTuple vs) h' (VTuple vs').
Proof.
  intros c S h ts dropped vs ws fuel bs rest Hc Hh Hl Ht H.
  destruct (tuple_evolution c S h Hc Hh ts dropped [] vs ws fuel bs rest) as (vs' & ds & h1 & new & E & G & D & N); auto.
  inversion D; subst. rewrite (N eq_refl), !app_nil_r in E. exists vs', h1. split; [exact E|exact G].
Qed.
Print Assumptions C06_dropped_fields.

Example C06_ex :
  let c := ex_context false in
  let bs := match serialize c 10 [OList [VInt 5; VInt 6]] (TTuple [TStr; TListOf (TInt true 8)]) (VTuple [VStr [104; 105]; VRef 0]) with
            | Ok bs => bs | Err _ => [] end in
  deserialize c (TTuple [TStr; TListOf (TInt true 8); TOneOf [TFloat 8; TNone]; TListOf TStr]) (bs ++ [3])
    = Ok (VTuple [VStr [104; 105]; VRef 0; VOneOf 0 (VFloat 0); VRef 1], [3], [OList [VInt 5; VInt 6]; OList []])
  /\ deserialize c (TTuple [TStr]) (bs ++ [3]) = Ok (VTuple [VStr [104; 105]], [3], [])
  /\ forallb (default_constructible c (depth c)) [TOneOf [TFloat 8; TNone]; TListOf TStr] = true
  /\ has_type c [TListOf (TInt true 8)] (TTuple [TStr; TListOf (TInt true 8)]) (VTuple [VStr [104; 105]; VRef 0])
  /\ heap_has_types c [TListOf (TInt true 8)] [OList [VInt 5; VInt 6]].
Proof.
  split; [vm_compute; reflexivity|]. split; [vm_compute; reflexivity|]. split; [reflexivity|]. split.
  - constructor; [|cbn; lia]. constructor; [constructor; [repeat constructor; cbn; lia|cbn; lia]|].
    constructor; [constructor; reflexivity|constructor].
  - split; [|cbn; lia]. constructor; [|constructor].
    constructor; [repeat (constructor; [constructor; cbn; [tauto|lia]|]); constructor|cbn; lia|cbn; lia].
Qed.

(** The theorems are about the fields of the tuple that is itself serialized.  For tuples inside
    other values the property fails in two ways.  First: a list that is reachable through a
    dropped field and also elsewhere cannot be read any more. *)
Theorem C06_nested_dropped_alias_refuted :
  exists c S h bs,
    let writer := TTuple [TTuple [TStr; TListOf TStr]; TListOf TStr] in
    let reader := TTuple [TTuple [TStr]; TListOf TStr] in
    let v := VTuple [VTuple [VStr []; VRef 0]; VRef 0] in
    context_ok c /\ heap_has_types c S h /\ has_type c S writer v /\
    serialize c 10 h writer v = Ok bs /\
    (exists e, deserialize c reader bs = Err e).
Proof.
  exists (ex_context false), [TListOf TStr], [OList []]. eexists. cbv zeta. split; [apply ex_context_ok|].
  split; [split; [constructor; [constructor; [constructor|cbn; lia|cbn; lia]|constructor]|cbn; lia]|].
  split.
  { constructor; [|cbn; lia]. constructor.
    - constructor; [|cbn; lia]. constructor; [constructor; [constructor|cbn; lia]|constructor; [constructor; reflexivity|constructor]].
    - constructor; [constructor; reflexivity|constructor]. }
  split; [vm_compute; reflexivity|]. eexists. vm_compute. reflexivity.
Qed.
Print Assumptions C06_nested_dropped_alias_refuted.

(** Second: with [serializePodListsInline], a list of tuples of plain data is written as raw
    memory, so that a reader whose tuples have fewer fields gets other values without any
    error. *)
Theorem C06_inline_plain_data_refuted :
  exists c S h bs,
    let writer := TListOf (TTuple [TInt true 4; TInt true 4]) in
    let reader := TListOf (TTuple [TInt true 4]) in
    inline_pod c = true /\ context_ok c /\ heap_has_types c S h /\ has_type c S writer (VRef 0) /\
    h = [OList [VTuple [VInt 1; VInt 2]; VTuple [VInt 3; VInt 4]]] /\
    serialize c 10 h writer (VRef 0) = Ok bs /\
    deserialize c reader bs = Ok (VRef 0, [], [OList [VTuple [VInt 1]; VTuple [VInt 2]; VTuple [VInt 3]; VTuple [VInt 4]]]).
Proof.
  exists (ex_context true), [TListOf (TTuple [TInt true 4; TInt true 4])], [OList [VTuple [VInt 1; VInt 2]; VTuple [VInt 3; VInt 4]]].
  eexists. cbv zeta. split; [reflexivity|]. split; [apply ex_context_ok|].
  split; [split; [constructor; [|constructor]|cbn; lia]|].
  { constructor; [|cbn; lia|cbn; lia].
    repeat (constructor; [constructor; [repeat (constructor; [constructor; cbn; [tauto|lia]|]); constructor|cbn; lia]|]). constructor. }
  split; [constructor; reflexivity|]. split; [reflexivity|]. split; [vm_compute; reflexivity|]. vm_compute. reflexivity.
Qed.
Print Assumptions C06_inline_plain_data_refuted.

(** ** C07 *)

(** The encoder cuts the list into blocks of at most 255 integers, each wide enough. *)
Theorem C07_blocks : forall zs,
  Forall (fun z => - 2 ^ 63 <= z < 2 ^ 63) zs ->
  exists fs bs, serialize_int_list (length zs) zs = Ok bs /\ int_blocks zs fs bs.
Proof. intros zs H. apply serialize_int_list_blocks; [exact H|lia]. Qed.
Print Assumptions C07_blocks.

Theorem C07_int_list_roundtrip : forall zs rest,
  Forall (fun z => - 2 ^ 63 <= z < 2 ^ 63) zs ->
  exists bs, serialize_int_list (length zs) zs = Ok bs /\
    deserialize_int_list (length bs) (Z.of_nat (length zs)) (bs ++ rest) = Ok (zs, rest).
Proof.
  intros zs rest H. destruct (serialize_int_list_blocks (length zs) zs H ltac:(lia)) as (fs & bs & E & B).
  exists bs. split; [exact E|]. eapply int_blocks_read; [exact B|lia].
Qed.
Print Assumptions C07_int_list_roundtrip.

(** The whole TupleOf(int), through [serialize] and [deserialize] with inline blocks. *)
Theorem C07_tuple_of_int_roundtrip : forall c zs rest,
  context_ok c -> Forall (fun z => - 2 ^ 63 <= z < 2 ^ 63) zs -> Z.of_nat (length zs) < 2 ^ 31 ->
  exists fuel bs h', serialize c fuel [] (TTupleOf (TInt true 8)) (VSeq (map VInt zs)) = Ok bs /\
    deserialize c (TTupleOf (TInt true 8)) (bs ++ rest) = Ok (VSeq (map VInt zs), rest, h').
Proof.
  intros c zs rest Hc Hz Hl.
  assert (Ht : has_type c [] (TTupleOf (TInt true 8)) (VSeq (map VInt zs))).
  { constructor; [|now rewrite map_length|cbn; lia]. apply Forall_map. eapply Forall_impl; [|exact Hz].
    cbv beta. intros z Hz'. constructor; [cbn; tauto|exact Hz']. }
  assert (Hh : heap_has_types c [] []) by (split; [constructor|cbn; lia]).
  destruct (serialize_succeeds c [] [] Hc Hh _ _ Ht) as (fuel & bs & E).
  destruct (serialize_tree c [] [] Hc Hh fuel _ _ bs rest Ht) as [h' E']; [|exact E|].
  { constructor. apply Forall_map. apply Forall_forall. constructor. }
  exists fuel, bs, h'. split; assumption.
Qed.
Print Assumptions C07_tuple_of_int_roundtrip.

Example C07_ex :
  let zs := repeat (-5) 300 ++ [40000; -9223372036854775808] in
  serialize_int_list (length zs) zs =
    Ok ([20; 255; 1] ++ repeat 251 255 ++ [20; 45] ++ repeat 251 45 ++ [36; 4; 64; 156; 0; 0; 44; 8; 0; 0; 0; 0; 0; 0; 0; 128])
  /\ Forall (fun z => - 2 ^ 63 <= z < 2 ^ 63) zs.
Proof.
  split; [vm_compute; reflexivity|]. apply Forall_app. split; [|repeat constructor; lia].
  apply Forall_forall. intros z Hz. apply repeat_spec in Hz. lia.
Qed.

(** ** C42: OneOf and Alternative types with more options *)

Lemma nth_error_more {A} (ts more : list A) i t : nth_error ts i = Some t -> nth_error (ts ++ more) i = Some t.
Proof. apply nth_error_app_l. Qed.

Theorem C42_added_options : forall c S h ts more i v fuel bs rest,
  context_ok c -> heap_has_types c S h -> has_type c S (TOneOf ts) (VOneOf i v) ->
  serialize c fuel h (TOneOf ts) (VOneOf i v) = Ok bs ->
  exists v' h', deserialize c (TOneOf (ts ++ more)) (bs ++ rest) = Ok (v', rest, h') /\ same_graph h (VOneOf i v) h' v'.
Proof.
  intros c S h ts more i v fuel bs rest Hc Hh Ht H.
  inversion Ht as [| | | | | | | | | |ts' j t w Hi Hlt Hw E1 E2| | | | | |]; subst.
  apply (serialize_roundtrip c S h Hc Hh fuel).
  - eapply ht_oneof; [apply nth_error_more; exact Hi|exact Hlt|exact Hw].
  - rewrite <- H. unfold serialize. destruct fuel as [|fuel]; [reflexivity|]. cbn [ser resolve].
    now rewrite Hi, (nth_error_more _ more _ _ Hi).
Qed.
Print Assumptions C42_added_options.

Theorem C42_added_alternatives : forall c S h ts more i v fuel bs rest,
  context_ok c -> heap_has_types c S h -> has_type c S (TAlternative ts) (VAlt i v) ->
  serialize c fuel h (TAlternative ts) (VAlt i v) = Ok bs ->
  exists v' h', deserialize c (TAlternative (ts ++ more)) (bs ++ rest) = Ok (v', rest, h') /\ same_graph h (VAlt i v) h' v'.
Proof.
  intros c S h ts more i v fuel bs rest Hc Hh Ht H.
  inversion Ht as [| | | | | | | | | | |ts' j t w Hi Hlt Hw E1 E2| | | | |]; subst.
  apply (serialize_roundtrip c S h Hc Hh fuel).
  - eapply ht_alternative; [apply nth_error_more; exact Hi|exact Hlt|exact Hw].
  - rewrite <- H. unfold serialize. destruct fuel as [|fuel]; [reflexivity|]. cbn [ser resolve].
    now rewrite Hi, (nth_error_more _ more _ _ Hi).
Qed.
Print Assumptions C42_added_alternatives.
Example C42_ex :
  let c := ex_context false in
  (bs <- serialize c 5 [] (TOneOf [TNone; TStr]) (VOneOf 1 (VStr [65])) ;;
   deserialize c (TOneOf [TNone; TStr; TBool]) (bs ++ [1]))%result = Ok (VOneOf 1 (VStr [65]), [1], [])
  /\ has_type c [] (TOneOf [TNone; TStr]) (VOneOf 1 (VStr [65])).
Proof.
  split; [vm_compute; reflexivity|]. eapply ht_oneof; [reflexivity|lia|]. constructor; [repeat constructor; cbn; lia|cbn; lia].
Qed.

(** The other direction fails: an option the reader does not know is not skipped, its content
    is taken for the fields that follow.  Here an empty string is written, and the reader
    finds the string "B" that it takes from the bytes of the unknown option. *)
Theorem C42_dropped_option_refuted :
  exists c bs rest,
    let writer := TTuple [TOneOf [TNone; TBool; TBytes]; TStr] in
    let reader := TTuple [TOneOf [TNone; TBool]; TStr] in
    let v := VTuple [VOneOf 2 (VBytes [1; 66; 7; 0; 0; 0; 0; 0; 0; 0; 0; 0]); VStr []] in
    context_ok c /\ has_type c [] writer v /\ serialize c 10 [] writer v = Ok bs /\
    deserialize c reader bs = Ok (VTuple [VOneOf 0 VNone; VStr [66]], rest, []).
Proof.
  exists (ex_context false). eexists. eexists. cbv zeta. split; [apply ex_context_ok|]. split.
  { constructor; [|cbn; lia]. constructor; [eapply ht_oneof; [reflexivity|lia|]|constructor; [|constructor]].
    - constructor; [repeat constructor; cbn; lia|cbn; lia].
    - constructor; [constructor|cbn; lia]. }
  split; [vm_compute; reflexivity|]. vm_compute. reflexivity.
Qed.
Print Assumptions C42_dropped_option_refuted.
