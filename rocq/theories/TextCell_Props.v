(** Property C72: text that compiled code makes is stored, compared and hashed by its characters. *)
From Coq Require Import List ZArith Lia.
From Verif Require Import Base Text_Model TextSplit_Model TextEdit_Model Utf8_Model Utf8_Spec Utf8_Proofs Utf8_Props TextCell_Model TextCell_Spec TextCell_Proofs.
Import ListNotations.
Open Scope Z_scope.
Open Scope list_scope.

(** Whatever compiled code does to make a text, its cells hold its code points: none is cut off. *)
Theorem C72_cells_hold_the_text : forall space joining s, made space joining s -> holds s.
Proof. exact made_holds. Qed.
Print Assumptions C72_cells_hold_the_text.

(** So the text can be encoded, and read back. *)
Corollary C72_made_text_is_read_back : forall space joining s, made space joining s -> Forall (fun c => c < 1114112) (sdata s) ->
  exists b t, str_encode s NotGiven = Some (Ok b) /\ bytes_decode b NotGiven = Some (Ok t) /\ sdata t = sdata s.
Proof.
  intros space joining s M F. assert (H := made_holds _ _ _ M).
  destruct (C71_round_trip s NotGiven Strict NotGiven Strict eq_refl eq_refl H) as (b & t & E & D & S & _).
  - destruct H as [_ H]. rewrite Forall_forall in *. intros c I. specialize (F c I). specialize (H c I). lia.
  - eauto.
Qed.
Print Assumptions C72_made_text_is_read_back.

(** [chr] gives the one character, and refuses what is not a code point. *)
Theorem C72_chr : forall c,
  (0 <= c < 1114112 -> exists s, str_chr c = Ok s /\ sdata s = [c]) /\ (c < 0 \/ 1114112 <= c -> str_chr c = Err ValueError).
Proof.
  intros c. split; intros R.
  - assert (E : exists s, str_chr c = Ok s).
    { unfold str_chr. destruct (c <? 0) eqn:A; [apply Z.ltb_lt in A; lia|]. destruct (1114111 <? c) eqn:B; [apply Z.ltb_lt in B; lia|]. eexists. reflexivity. }
    destruct E as [s E]. exists s. split; [exact E|]. now destruct (chr_python c s E) as [-> _].
  - unfold str_chr. destruct R as [R|R].
    + replace (c <? 0) with true by (symmetry; apply Z.ltb_lt; lia). reflexivity.
    + replace (1114111 <? c) with true by (symmetry; apply Z.ltb_lt; lia). now rewrite Bool.orb_true_r.
Qed.
Print Assumptions C72_chr.

(** Comparison is by the characters.  Partial: if the texts are empty then neither may be the result of joining. *)
Theorem C72_equality_partial : forall space x y, made space false x -> made space false y ->
  str_eq x y = true <-> sdata x = sdata y.
Proof. intros space x y X Y. apply eq_right; eapply made_null; eauto. Qed.
Print Assumptions C72_equality_partial.
Theorem C72_order_partial : forall space x y, made space false x -> made space false y ->
  (str_cmp x y < 0 <-> precedes (sdata x) (sdata y)) /\ (str_cmp x y > 0 <-> precedes (sdata y) (sdata x)) /\
  (str_cmp x y = 0 <-> sdata x = sdata y).
Proof. intros space x y X Y. apply cmp_right; eapply made_null; eauto. Qed.
Print Assumptions C72_order_partial.

(** All texts compare right, however they are made, unless both are empty. *)
Theorem C72_comparison_of_other_text : forall x y, sdata x <> nil \/ sdata y <> nil ->
  (str_eq x y = true <-> sdata x = sdata y) /\ (str_cmp x y < 0 <-> precedes (sdata x) (sdata y)) /\
  (str_cmp x y > 0 <-> precedes (sdata y) (sdata x)) /\ (str_cmp x y = 0 <-> sdata x = sdata y).
Proof. exact not_both_empty. Qed.
Print Assumptions C72_comparison_of_other_text.

(** [precedes] is a strict total order. *)
Theorem C72_order_is_total : (forall l, ~ precedes l l) /\ (forall l r, precedes l r -> ~ precedes r l) /\
  (forall l r q, precedes l r -> precedes r q -> precedes l q) /\ (forall l r, precedes l r \/ l = r \/ precedes r l).
Proof. exact (conj precedes_irrefl (conj precedes_asym (conj precedes_trans precedes_total))). Qed.
Print Assumptions C72_order_is_total.

(** Texts that are put together from Python's and from characters, and have the same characters, are stored alike. So they have
    the same hash, and dictionaries and sets find one by the other.  Partial: not for text that was taken apart or decoded. *)
Theorem C72_same_text_same_hash_partial : forall x y, put_together x -> put_together y -> sdata x = sdata y ->
  x = y /\ str_hash x = str_hash y.
Proof.
  intros x y X Y E. apply put_together_as in X, Y. unfold as_python in *. rewrite X, Y, E. split; reflexivity.
Qed.
Print Assumptions C72_same_text_same_hash_partial.
Theorem C72_put_together_is_made : forall space s, put_together s -> made space false s.
Proof.
  intros space s P. induction P; eauto using made.
Qed.
Print Assumptions C72_put_together_is_made.

(** ["".join([""]) == ""] is false in compiled code, and so is ["a".replace("a", "") == ""], ["".expandtabs() == ""] and
    ["".zfill(0) == ""]; the two are different keys of a dictionary.  So is ["".encode() == b""]. *)
Theorem C72_joined_to_nothing_refuted :
  (exists x, x = str_join None [None] /\ sdata x = nil /\ str_eq x None = false /\ str_cmp x None = 1) /\
  (exists x, str_replace true (from_python [97]) (from_python [97]) None (-1) = Ok x /\ sdata x = nil /\ str_eq x None = false) /\
  (exists x, str_expandtabs None 8 = Ok x /\ sdata x = nil /\ str_eq x None = false) /\
  (exists x, str_zfill None 0 = Ok x /\ sdata x = nil /\ str_eq x None = false) /\
  (exists x, str_encode None NotGiven = Some (Ok x) /\ bdata x = nil /\ bytes_eq x None = false) /\
  str_hash (str_join None [None]) <> str_hash None.
Proof. repeat split; try (eexists; repeat split; vm_compute; reflexivity). vm_compute. discriminate. Qed.
Print Assumptions C72_joined_to_nothing_refuted.

(** Decoding gives "é" two bytes where Python gives it one: equal to Python's "é", but with another hash. *)
Theorem C72_decoded_text_hash_refuted : exists s, bytes_decode (Some [195; 169]) NotGiven = Some (Ok s) /\
  str_eq s (from_python [233]) = true /\ str_hash s <> str_hash (from_python [233]).
Proof. exists (Some (mk_slayout 2 [233])). split; [vm_compute; reflexivity|]. split; vm_compute; [reflexivity|discriminate]. Qed.
Print Assumptions C72_decoded_text_hash_refuted.
(** The same for an item of a text with wider characters, and for a join of one item with a separator that is not used. *)
Theorem C72_item_hash_refuted : exists s, str_getitem (from_python [97; 955]) 0 = Ok s /\
  str_eq s (from_python [97]) = true /\ str_hash s <> str_hash (from_python [97]).
Proof. exists (Some (mk_slayout 2 [97])). split; [vm_compute; reflexivity|]. split; vm_compute; [reflexivity|discriminate]. Qed.
Print Assumptions C72_item_hash_refuted.
Theorem C72_join_of_one_hash_refuted : let s := str_join (from_python [955]) [from_python [97]] in
  str_eq s (from_python [97]) = true /\ str_hash s <> str_hash (from_python [97]).
Proof. split; vm_compute; [reflexivity|discriminate]. Qed.
Print Assumptions C72_join_of_one_hash_refuted.

(** ** The hypotheses can be met *)

Definition blank (c : Z) : bool := c =? 32.
(** ["aλ b".split()[0].center(6, "é") + chr(128512)] *)
Example ex_made : exists s, made blank false s /\ sdata s = [233; 233; 97; 955; 233; 233; 128512] /\ swidth s = 4 /\
  str_cmp s (from_python [233]) > 0 /\ str_eq s (from_python [233; 233; 97; 955; 233; 233; 128512]) = true.
Proof.
  assert (A : made blank false (from_python [97; 955; 32; 98])) by (constructor; repeat constructor; lia).
  assert (F : made blank false (from_python [233])) by (constructor; repeat constructor; lia).
  assert (B : made blank false (Some (mk_slayout 2 [97; 955]))).
  { eapply made_split with (sep := None) (max := -1); [exact A|vm_compute; reflexivity|left; reflexivity]. }
  assert (C : made blank false (Some (mk_slayout 2 [233; 233; 97; 955; 233; 233]))).
  { eapply made_center with (width := 6) (fill := Some (from_python [233])); [exact B|intros f E; injection E as <-; exact F|vm_compute; reflexivity]. }
  assert (D : made blank false (Some (mk_slayout 4 [128512]))) by (eapply made_chr with (c := 128512); vm_compute; reflexivity).
  exists (Some (mk_slayout 4 [233; 233; 97; 955; 233; 233; 128512])). split; [exact (made_concat _ _ _ _ C D)|].
  repeat split; vm_compute; reflexivity.
Qed.
(** [", ".join(["a", chr(955)]) * 2 == "a, λa, λ"], with the same hash. *)
Example ex_put_together : let s := str_mult (str_join (from_python [44; 32]) [from_python [97]; from_python [955]]) 2 in
  put_together s /\ s = from_python [97; 44; 32; 955; 97; 44; 32; 955] /\ str_hash s = str_hash (from_python [97; 44; 32; 955; 97; 44; 32; 955]).
Proof.
  assert (P : put_together (str_join (from_python [44; 32]) [from_python [97]; from_python [955]])).
  { apply from_join; [constructor; repeat constructor; lia| |cbn; lia|discriminate].
    intros i [<-|[<-|[]]]; constructor; repeat constructor; lia. }
  split; [now apply from_mult|]. split; vm_compute; reflexivity.
Qed.
Example ex_precedes : precedes [97; 98] [97; 99] /\ precedes [97] [97; 98] /\ ~ precedes [98] [97; 99].
Proof. repeat split; [apply further, smaller; lia|apply further, shorter|intros P; inversion P; lia]. Qed.
