(** Property C68: the data members of instances. *)
From Verif Require Import Base Class_Model Class_Spec Class_Order_Proofs Class_Proofs Class_Attr_Proofs Inst_Model Inst_Spec Inst_Proofs Inst_Class_Proofs Inst_Heap_Proofs.
From Coq Require Import String ZArith Lia.
Open Scope string_scope.
Open Scope list_scope.

(** ** C68 *)

(** Whatever classes were defined, and whatever the program does with their instances, in the interpreter and in
    compiled code, it gets the answers that it would get if an instance were a map from names to values.  In
    particular no answer is undefined behaviour: no member is read before it has a value, none is destroyed twice,
    and the values of a dropped instance are destroyed.  Partial: [sensible] leaves out the operations of which the
    theorems below say what is wrong with them. *)
Theorem C68_instances_are_maps_partial : forall T es ps,
  no_base_twice es -> types_fit T -> all_sensible T (history es) nil ps ->
  snd (run_ops T (history es) nil ps) = snd (ideal_ops T (history es) nil ps).
Proof. intros T es ps N TF S. apply ops_right; auto. now apply history_laid_out. Qed.
Print Assumptions C68_instances_are_maps_partial.

(** A member's place is after the flags and within the instance, and apart from the places of all others. *)
Theorem C68_members_do_not_overlap : forall ms j k a b,
  nth_error ms j = Some a -> nth_error ms k = Some b -> (j < k)%nat ->
  (offset ms j + size_of a <= offset ms k)%nat /\ (init_bytes ms <= offset ms j)%nat /\
  (offset ms k + size_of b <= bytecount ms)%nat /\
  (m_nonempty a = false -> (Nat.div j 8 < init_bytes ms)%nat).
Proof.
  intros ms j k a b EJ EK L. assert (A := sizes_before ms j k a EJ L). assert (B := sizes_split ms k b EK).
  unfold offset, bytecount. repeat split; try lia. now apply flag_room.
Qed.
Print Assumptions C68_members_do_not_overlap.

(** Code compiled for a class finds the members of an instance of any subclass where they are. *)
Theorem C68_subclasses_keep_the_layout_partial : forall es c a k m,
  no_base_twice es -> ancestor (bases_of (history es)) c a ->
  nth_error (members_of (history es) a) k = Some m ->
  nth_error (members_of (history es) c) k = Some m /\
  compiled_offset (view_of (history es) a) (members_of (history es) c) k = offset (members_of (history es) c) k.
Proof.
  intros es c a k m N AN E. destruct (ancestor_prefix _ c a (history_laid_out es N) AN) as (P & _).
  assert (O : own (view_of (history es) a) = members_of (history es) a) by (unfold view_of, members_of; destruct (nth_error (history es) a); reflexivity).
  assert (L : (k < List.length (own (view_of (history es) a)))%nat) by (rewrite O; eapply lt_nth; eauto).
  split; [now rewrite <- (prefix_nth _ _ k P L), O|]. now apply prefix_offset.
Qed.
Print Assumptions C68_subclasses_keep_the_layout_partial.

(** Nothing that a program does to one instance changes another. *)
Theorem C68_other_instances_stay_partial : forall T es ps qs c f,
  no_base_twice es -> types_fit T -> all_sensible T (history es) nil (ps ++ qs) ->
  let h := fst (ideal_ops T (history es) nil ps) in
  forall i, nth_error h i = Some (c, Some f) ->
  (forall p, In p qs -> match p with
                        | Set_ j _ _ | Del j _ | CompiledSet _ j _ _ | CompiledDel _ j _ | Assign _ j _ | Drop j => j <> i
                        | _ => True
                        end) ->
  forall n, snd (run_ops T (history es) nil (ps ++ qs ++ [Get i n])) =
            snd (run_ops T (history es) nil (ps ++ qs)) ++ [to_answer Value (get_attr f n)].
Proof.
  intros T es ps qs c f N TF S h i E Q n.
  assert (APP : forall as_ bs H, ideal_ops T (history es) H (as_ ++ bs) =
    let (H1, l1) := ideal_ops T (history es) H as_ in let (H2, l2) := ideal_ops T (history es) H1 bs in (H2, l1 ++ l2)).
  { induction as_ as [|a as_ IH]; intros bs H; cbn [app ideal_ops].
    - destruct (ideal_ops T (history es) H bs). reflexivity.
    - destruct (ideal_op T (history es) H a) as (H1 & x). rewrite IH. destruct (ideal_ops T (history es) H1 as_) as (H2 & l2).
      destruct (ideal_ops T (history es) H2 bs). reflexivity. }
  assert (SAPP : forall as_ bs H, all_sensible T (history es) H as_ ->
    all_sensible T (history es) (fst (ideal_ops T (history es) H as_)) bs -> all_sensible T (history es) H (as_ ++ bs)).
  { induction as_ as [|a as_ IH]; intros bs H S1 S2; [exact S2|]. destruct S1 as (S0 & S1). cbn [app all_sensible]. split; [exact S0|].
    apply IH; [exact S1|]. cbn [ideal_ops] in S2. destruct (ideal_op T (history es) H a) as (H1 & x). cbn [fst] in *.
    destruct (ideal_ops T (history es) H1 as_) as (H2 & l2). exact S2. }
  rewrite (C68_instances_are_maps_partial T es (ps ++ qs) N TF S).
  rewrite C68_instances_are_maps_partial; [|exact N|exact TF|].
  2: { rewrite app_assoc. apply SAPP; [exact S|]. split; exact I. }
  rewrite app_assoc, (APP (ps ++ qs)), (APP ps). subst h. destruct (ideal_ops T (history es) nil ps) as (h & l). cbn [fst] in E.
  destruct (ideal_ops T (history es) h qs) as (h2 & l2) eqn:E2. cbn [snd].
  assert (E3 : nth_error h2 i = Some (c, Some f)).
  { clear - E E2 Q. revert h l2 E E2. induction qs as [|q qs IH]; intros h l2 E E2; cbn [ideal_ops] in E2; [congruence|].
    destruct (ideal_op T (history es) h q) as (h1 & x) eqn:EO. destruct (ideal_ops T (history es) h1 qs) as (h3 & l3) eqn:E3.
    injection E2 as -> _. apply (IH (fun p J => Q p (or_intror J)) h1 l3); [|exact E3].
    assert (QQ := Q q (or_introl eq_refl)).
    assert (PUT : forall j d o, j <> i -> nth_error (ideal_put h j d o) i = Some (c, Some f)).
    { intros j d o NJ. unfold ideal_put. assert (LI : (i < List.length h)%nat) by (eapply lt_nth; eauto). clear - E NJ LI.
      destruct (Nat.lt_trichotomy i j) as [L|[L|L]]; [|congruence|].
      - rewrite nth_error_app1 by (rewrite firstn_length; lia). rewrite <- E. rewrite <- (firstn_skipn j h) at 2. rewrite nth_error_app1 by (rewrite firstn_length; lia). reflexivity.
      - rewrite nth_error_app2 by (rewrite firstn_length; lia). rewrite firstn_length.
        replace (i - Nat.min j (List.length h))%nat with (S (i - S j)) by lia. cbn [nth_error].
        rewrite <- E. rewrite <- (firstn_skipn (S j) h) at 2. rewrite nth_error_app2 by (rewrite firstn_length; lia).
        rewrite firstn_length. now replace (i - Nat.min (S j) (List.length h))%nat with (i - S j)%nat by lia. }
    assert (ADD : forall d r, nth_error (fst (ideal_added h d r)) i = Some (c, Some f)).
    { intros d r. unfold ideal_added. destruct r; cbn [fst]; auto. rewrite nth_error_app1; [exact E|eapply lt_nth; eauto]. }
    assert (CH : forall j d r, j <> i -> nth_error (fst (ideal_changed h j d r)) i = Some (c, Some f)).
    { intros j d r NJ. unfold ideal_changed. destruct r; cbn [fst]; auto. }
    assert (WI : forall j K, (forall d g, nth_error h j = Some (d, Some g) -> nth_error (fst (K d g)) i = Some (c, Some f)) ->
      nth_error (fst (ideal_with h j K)) i = Some (c, Some f)).
    { intros j K HK. unfold ideal_with. destruct (nth_error h j) as [(d & [g|])|] eqn:EJ; auto. }
    replace h1 with (fst (ideal_op T (history es) h q)) by (now rewrite EO). clear EO.
    destruct q; cbn [ideal_op] in *; auto; apply WI; intros d g EG; cbn [fst]; auto.
    all: first [apply (ADD d (Gives g)) | apply WI; intros d' g' _; cbn [fst]; auto]. }
  cbn [ideal_ops ideal_op]. unfold ideal_with. rewrite E3. cbn [snd]. reflexivity.
Qed.
Print Assumptions C68_other_instances_stay_partial.

(** *** A program *)

(** Two classes: Point has x (eight bytes), label and y, and is not final; Child inherits from it and has nine more
    members, so the flags take two bytes instead of one. *)
Definition number (n : string) := Member n 1 8 false.
Definition text (n : string) := Member n 2 8 false.
Definition sure (n : string) := Member n 1 8 true.
Definition point : body := Body false [number "x"; text "label"; sure "y"] nil nil nil nil nil.
Definition child : body := Body true (map number ["a"; "b"; "c"; "d"; "e"; "f"; "g"]) nil nil nil nil nil.
Definition classes : list event := [Define nil point; Define [0%nat] child].
Definition zeros : value := repeat 0%Z 8.
Definition seven : value := repeat 7%Z 8.
Definition kinds : types :=
  Types (fun m => if Z.eqb (m_size m) 8 && String.eqb (m_name m) "y" then Some seven else None) (fun m => Z.eqb (m_type m) 1 && String.eqb (m_name m) "x")
        (fun m => if Z.eqb (m_size m) 8 then Gives zeros else Raises TypeError) (fun m => Z.eqb (m_type m) 1)
        (fun _ v u => if list_eq_dec Z.eq_dec v u then true else false).
Definition garbage (n : nat) : list Z := repeat 255%Z n.
Definition program : list op :=
  [ New false 0 (garbage 25) [("label", seven)];
    New true 1 (garbage 82) [("c", seven)];
    Get 0 "label"; CompiledGet 0 1 "y"; Get 1 "c"; Get 1 "g"; CompiledHas 0 1 "label";
    CompiledSet 0 1 "label" seven; Get 1 "label"; Get 1 "a"; Del 1 "label"; CompiledGet 0 1 "label"; CompiledDel 0 1 "y";
    Copy true 0 (garbage 25); Equal 0 2; Set_ 2 "x" seven; Equal 0 2; Get 0 "x"; Assign false 0 2; Equal 0 2;
    Send 1 (garbage 82); Equal 1 3; DeepCopy 1 (repeat 0%Z 82); Get 4 "c"; Set_ 4 "nothing" seven;
    Drop 0; Drop 1; Drop 2; Drop 3; Drop 4 ].

Example classes_are_defined : map (fun k => List.length (c_members k)) (history classes) = [3; 10]%nat.
Proof. vm_compute. reflexivity. Qed.
Example program_answers : snd (run_ops kinds (history classes) nil program) =
  [ Nothing; Nothing; Value seven; Value seven; Value seven; NoAttribute; Truth false;
    Nothing; Value seven; NoAttribute; Nothing; NoAttribute; NoAttribute;
    Nothing; Truth true; Nothing; Truth false; Value zeros; Nothing; Truth true;
    Nothing; Truth true; Nothing; Value seven; NoAttribute;
    Nothing; Nothing; Nothing; Nothing; Nothing ].
Proof. vm_compute. reflexivity. Qed.

Ltac next_op := match goal with |- all_sensible ?T ?w ?h (?p :: ?r) =>
  split; [ | let h' := eval vm_compute in (fst (ideal_op T w h p)) in change (all_sensible T w h' r) ] end.
Ltac of_instance := let E := fresh "E" in intros ? ? E; cbn [nth_error] in E; injection E as <- <-.
Ltac sized := let I := fresh "I" in let m := fresh "m" in
  intros m I _; vm_compute in I; repeat (destruct I as [<-|I]; [reflexivity|]); destruct I.
Ltac inherits := split;
  [ first [eapply ancestor_self; reflexivity | eapply ancestor_base; [vm_compute; reflexivity|left; reflexivity|eapply ancestor_self; reflexivity]]
  | vm_compute; repeat (first [left; reflexivity | right]) ].
Example program_is_sensible :
  no_base_twice classes /\ types_fit kinds /\ all_sensible kinds (history classes) nil program.
Proof.
  split; [|split].
  - intros bs b [X|[X|[]]]; injection X as <- <-; repeat constructor; intros [].
  - intros m. split; intros v; cbn [default_of Inst_Model.fresh kinds]; unfold size_of; destruct (Z.eqb_spec (m_size m) 8) as [->|]; cbn [andb]; try discriminate.
    + destruct (String.eqb (m_name m) "y"); [|discriminate]. intros X. now injection X as <-.
    + intros X. now injection X as <-.
  - unfold program. repeat next_op; try exact I; cbn [sensible].
    + split; [reflexivity|]. split; [|discriminate]. intros n v [X|[]]. injection X as <- <-. sized.
    + split; [reflexivity|]. split.
      * intros n v [X|[]]. injection X as <- <-. sized.
      * intros _ m IM. vm_compute in IM. repeat (destruct IM as [<-|IM]; [vm_compute; first [now right | now intros []]|]). destruct IM.
    + of_instance. inherits.
    + of_instance. inherits.
    + split; [of_instance; inherits|sized].
    + of_instance. inherits.
    + of_instance. inherits.
    + of_instance. reflexivity.
    + intros c f d g A B. cbn [nth_error] in A, B. injection A as <- <-. now injection B as <- <-.
    + of_instance. sized.
    + intros c f d g A B. cbn [nth_error] in A, B. injection A as <- <-. now injection B as <- <-.
    + intros c f d g A B. cbn [nth_error] in A, B. injection A as <- <-. injection B as <- <-. split; [reflexivity|].
      intros n. repeat match goal with |- context [if ?b then _ else _] => destruct b end; congruence.
    + intros c f d g A B. cbn [nth_error] in A, B. injection A as <- <-. now injection B as <- <-.
    + of_instance. reflexivity.
    + intros c f d g A B. cbn [nth_error] in A, B. injection A as <- <-. now injection B as <- <-.
    + of_instance. split; reflexivity.
    + of_instance. sized.
Qed.

(** *** Operations that go wrong *)

(** Assigning a held instance that has a value for a member to one that has none leaves the target without the
    attribute, and what was copied is never destroyed; in the interpreter and in compiled code alike. *)
Definition lacking (compiled : bool) : list op :=
  [ New false 0 (garbage 25) nil; New false 0 (garbage 25) [("label", seven)];
    Assign compiled 0 1; Get 1 "label"; Get 0 "label"; Drop 0 ].
Theorem C68_assignment_loses_members_refuted : forall compiled,
  snd (run_ops kinds (history classes) nil (lacking compiled)) =
    [ Nothing; Nothing; Nothing; Value seven; NoAttribute; Failure UndefinedBehaviour ] /\
  snd (ideal_ops kinds (history classes) nil (lacking compiled)) =
    [ Nothing; Nothing; Nothing; Value seven; Value seven; Nothing ].
Proof. intros [|]; vm_compute; split; reflexivity. Qed.
Print Assumptions C68_assignment_loses_members_refuted.

(** The deep copy of an instance without a value for a member has one if the memory that is allocated says so. *)
Theorem C68_deep_copy_finds_values_refuted :
  let ps := [ New false 0 (garbage 25) nil; DeepCopy 0 (garbage 25); Get 0 "label"; Get 1 "label" ] in
  snd (run_ops kinds (history classes) nil ps) = [ Nothing; Nothing; NoAttribute; Failure UndefinedBehaviour ] /\
  snd (ideal_ops kinds (history classes) nil ps) = [ Nothing; Nothing; NoAttribute; NoAttribute ].
Proof. vm_compute. split; reflexivity. Qed.
Print Assumptions C68_deep_copy_finds_values_refuted.

(** A constructor in compiled code forgets the default value of a member whose type does not make a value by itself:
    here a class with a member [Member(OneOf(...), default_value=...)]. *)
Definition optional : body := Body false [Member "y" 2 8 false] nil nil nil nil nil.
Theorem C68_compiled_constructor_forgets_defaults_refuted :
  let es := [Define nil optional] in
  let ps := fun compiled => [ New compiled 0 (garbage 9) nil; Get 0 "y" ] in
  snd (run_ops kinds (history es) nil (ps false)) = [ Nothing; Value seven ] /\
  snd (run_ops kinds (history es) nil (ps true)) = [ Nothing; NoAttribute ].
Proof. vm_compute. split; reflexivity. Qed.
Print Assumptions C68_compiled_constructor_forgets_defaults_refuted.

(** A message that lacks a member that must not be empty gives an instance that says it has one; and one that has a
    member twice overwrites a value without destroying it. *)
Theorem C68_messages_are_not_checked_refuted :
  (exists o, deserialize [sure "y"] nil (garbage 8) = Gives o /\ get_name [sure "y"] "y" o = Raises UndefinedBehaviour) /\
  deserialize [number "x"] [(0%nat, seven); (0%nat, seven)] (garbage 9) = Raises UndefinedBehaviour.
Proof. split; [eexists; split; vm_compute; reflexivity|vm_compute; reflexivity]. Qed.
Print Assumptions C68_messages_are_not_checked_refuted.

(** A held instance that compiled code makes by default lacks a value that must not be empty. *)
Definition bare : types := Types (fun _ => None) (fun _ => false) (fun _ => Gives zeros) (fun _ => false) (fun _ _ _ => true).
Theorem C68_default_held_instance_is_empty_refuted :
  (exists o, compiled_default bare [sure "y"] (garbage 8) = Gives o /\ get_name [sure "y"] "y" o = Raises UndefinedBehaviour) /\
  (exists o, make_instance bare [sure "y"] (garbage 8) = Gives o /\ get_name [sure "y"] "y" o = Gives zeros).
Proof. split; eexists; split; vm_compute; reflexivity. Qed.
Print Assumptions C68_default_held_instance_is_empty_refuted.
