(** Proofs that instances behave as their attributes say, one operation after another. *)
From Verif Require Import Base Class_Model Class_Spec Class_Order_Proofs Class_Proofs Class_Attr_Proofs Inst_Model Inst_Spec Inst_Proofs Inst_Class_Proofs.
From Coq Require Import ZArith Lia ZifyBool ZifyNat.
Open Scope list_scope.

(** ** Members by index *)

Lemma map_indices : forall A B (ms : list A) (F : option A -> B), map (fun k => F (nth_error ms k)) (seq 0 (List.length ms)) = map (fun m => F (Some m)) ms.
Proof.
  intros A B ms F. assert (H : forall suf pre, map (fun k => F (nth_error (pre ++ suf) k)) (seq (List.length pre) (List.length suf)) = map (fun m => F (Some m)) suf).
  { induction suf as [|m suf IH]; intros pre; [reflexivity|]. cbn [List.length seq map]. f_equal.
    - rewrite nth_error_app2 by lia. now rewrite Nat.sub_diag.
    - specialize (IH (pre ++ [m])). rewrite <- app_assoc in IH. cbn [app] in IH. rewrite app_length in IH. cbn [List.length] in IH.
      replace (List.length pre + 1)%nat with (S (List.length pre)) in IH by lia. exact IH. }
  exact (H ms nil).
Qed.

Lemma indices_in : forall ms k, In k (indices ms) <-> (k < List.length ms)%nat.
Proof. intros ms k. unfold indices. rewrite in_seq. lia. Qed.
Lemma indices_nodup : forall ms, NoDup (indices ms).
Proof. intros ms. apply seq_NoDup. Qed.
Lemma nth_lt : forall A (l : list A) k, (k < List.length l)%nat -> exists m, nth_error l k = Some m.
Proof. intros A l k L. destruct (nth_error l k) as [m|] eqn:E; [eauto|]. apply nth_error_None in E. lia. Qed.
Lemma lt_nth : forall A (l : list A) k m, nth_error l k = Some m -> (k < List.length l)%nat.
Proof. intros A l k m E. apply nth_error_Some. congruence. Qed.

Lemma names_inj : forall ms j k a b, NoDup (map m_name ms) -> nth_error ms j = Some a -> nth_error ms k = Some b -> m_name a = m_name b -> j = k.
Proof.
  intros ms j k a b ND A B E. apply (map_nth_error m_name) in A. apply (map_nth_error m_name) in B.
  apply (proj1 (NoDup_nth_error (map m_name ms)) ND); [apply nth_error_Some; congruence|congruence].
Qed.

(** ** An instance shows its attributes *)

Definition shows (ms : list member) (o : object) (f : attributes) : Prop :=
  wf ms o /\ (forall k m, nth_error ms k = Some m -> slot_is (cell ms o k) (f (m_name m))) /\
  (forall n, ~ declared ms n -> f n = None).

Lemma declares_right : forall ms n, declares ms n = true <-> declared ms n.
Proof.
  intros ms n. unfold declares, declared. rewrite existsb_exists, in_map_iff. split.
  - intros (m & I & E). apply String.eqb_eq in E. eauto.
  - intros (m & E & I). exists m. split; [exact I|]. now apply String.eqb_eq.
Qed.
Lemma nonempty_right : forall ms n k m, NoDup (map m_name ms) -> nth_error ms k = Some m -> m_name m = n -> nonempty ms n = m_nonempty m.
Proof.
  intros ms n k m ND E EN. unfold nonempty. destruct (m_nonempty m) eqn:N.
  - apply existsb_exists. exists m. split; [eapply nth_error_In; eauto|]. rewrite EN, String.eqb_refl, N. reflexivity.
  - destruct (existsb _ ms) eqn:X; [|reflexivity]. apply existsb_exists in X. destruct X as (m' & I & Y). apply andb_prop in Y.
    destruct Y as (Y & Y'). apply String.eqb_eq in Y. apply In_nth_error in I. destruct I as (j & I).
    assert (j = k) as -> by (eapply names_inj; eauto; congruence). congruence.
Qed.
Lemma nonempty_undeclared : forall ms n, ~ declared ms n -> nonempty ms n = false.
Proof.
  intros ms n D. destruct (nonempty ms n) eqn:X; [|reflexivity]. exfalso. apply D. unfold nonempty in X. apply existsb_exists in X.
  destruct X as (m & I & Y). apply andb_prop in Y. destruct Y as (Y & _). apply String.eqb_eq in Y. unfold declared. apply in_map_iff. eauto.
Qed.

Lemma change_same : forall f n x, change f n x n = x.
Proof. intros f n x. unfold change. now rewrite String.eqb_refl. Qed.
Lemma change_other : forall f n x k, n <> k -> change f n x k = f k.
Proof. intros f n x k N. unfold change. apply String.eqb_neq in N. now rewrite N. Qed.

Section Instance.
  Variable ms : list member.
  Hypothesis ND : NoDup (map m_name ms).

  Lemma shows_change : forall o o' f k m x, shows ms o f -> nth_error ms k = Some m -> only ms k o o' -> slot_is (cell ms o' k) x ->
    shows ms o' (change f (m_name m) x).
  Proof.
    intros o o' f k m x (W & S & U) E (W' & O) C. split; [exact W'|]. split.
    - intros j mj EJ. destruct (Nat.eq_dec j k) as [->|N].
      + rewrite E in EJ. injection EJ as <-. now rewrite change_same.
      + rewrite change_other by (intros X; apply N; eapply names_inj; eauto). rewrite O; [now apply S|eapply lt_nth; eauto|exact N].
    - intros n D. rewrite change_other; [now apply U|]. intros <-. apply D. unfold declared. apply in_map. eapply nth_error_In; eauto.
  Qed.

  Lemma slot_length : forall o k m v, wf ms o -> nth_error ms k = Some m -> slot_is (cell ms o k) (Some v) -> List.length v = size_of m.
  Proof.
    intros o k m v (W & _) E S. cbn [slot_is] in S. unfold cell in S. rewrite E in S. injection S as _ _ <-.
    unfold read_bytes. rewrite firstn_length, skipn_length, W. assert (X := sizes_split _ _ _ E). unfold bytecount, offset. lia.
  Qed.

  Lemma get_right : forall o f n, shows ms o f -> get_name ms n o = get_attr f n.
  Proof.
    intros o f n (W & S & U). unfold get_name, get_attr. assert (MI := member_index_right ms n).
    destruct (member_index ms n) as [k|]; [|now rewrite U].
    destruct MI as (m & E & <-). specialize (S k m E). unfold with_member. rewrite E.
    destruct (f (m_name m)) as [v|] eqn:F; cbn [slot_is] in S.
    - rewrite (read_right ms o k m E v S). unfold cell in S. injection S as _ -> _. reflexivity.
    - unfold cell in S. injection S as _ ->. reflexivity.
  Qed.

  Lemma set_right : forall o f n v, shows ms o f -> fits ms n v ->
    match set_attr ms f n v with
    | Gives g => exists o', set_name ms n v o = Gives o' /\ shows ms o' g
    | AttributeError => set_name ms n v o = AttributeError
    | Raises _ => False
    end.
  Proof.
    intros o f n v S F. unfold set_attr, set_name. assert (MI := member_index_right ms n).
    destruct (member_index ms n) as [k|].
    - destruct MI as (m & E & <-). assert (D : declares ms (m_name m) = true).
      { apply declares_right. unfold declared. apply in_map. eapply nth_error_In; eauto. }
      rewrite D. destruct (set_at_right ms o k m (proj1 S) E v (f (m_name m))) as (o' & E1 & O & C).
      + apply F; [eapply nth_error_In; eauto|reflexivity].
      + now apply S.
      + exists o'. split; [exact E1|]. eapply shows_change; eauto.
    - destruct (declares ms n) eqn:D; [|reflexivity]. apply declares_right in D. contradiction.
  Qed.

  Lemma del_right : forall o f n, shows ms o f ->
    match del_attr ms f n with
    | Gives g => exists o', del_name ms n o = Gives o' /\ shows ms o' g
    | AttributeError => del_name ms n o = AttributeError
    | Raises _ => False
    end.
  Proof.
    intros o f n S. unfold del_attr, del_name. assert (MI := member_index_right ms n).
    destruct (member_index ms n) as [k|].
    - destruct MI as (m & E & <-). rewrite (nonempty_right ms _ k m ND E eq_refl). unfold guaranteed. rewrite E.
      destruct (m_nonempty m) eqn:N; [reflexivity|]. destruct S as (W & S & U). assert (C := S k m E).
      destruct (f (m_name m)) as [v|] eqn:F.
      + destruct (del_at_right ms o k m W E v C N) as (o' & E1 & O & C'). exists o'. cbn [slot_is] in C.
        assert (X : check_flag ms o k = true) by (rewrite check_cell, C; reflexivity). rewrite X. cbn [negb]. split; [exact E1|].
        eapply shows_change; eauto. now split.
      + cbn [slot_is] in C. assert (X : check_flag ms o k = false) by (rewrite check_cell, C; reflexivity). now rewrite X.
    - rewrite nonempty_undeclared by exact MI. destruct S as (_ & _ & U). now rewrite U.
  Qed.

  Lemma sets_right : forall kwargs o f, shows ms o f -> (forall n v, In (n, v) kwargs -> fits ms n v) ->
    match set_attrs ms kwargs f with
    | Gives g => exists o', set_names ms kwargs o = Gives o' /\ shows ms o' g
    | AttributeError => set_names ms kwargs o = AttributeError
    | Raises _ => False
    end.
  Proof.
    induction kwargs as [|(n & v) r IH]; intros o f S F; cbn [set_attrs set_names]; [eauto|].
    assert (X := set_right o f n v S (F n v (or_introl eq_refl))). destruct (set_attr ms f n v) as [g| |e]; cbn [andthen].
    - destruct X as (o' & -> & S'). cbn [andthen]. apply IH; [exact S'|]. intros a b I. apply F. now right.
    - now rewrite X.
    - contradiction.
  Qed.

  (** *** Compiled access *)
  Variable A : view.
  Hypothesis PA : prefix A ms.
  Let own_nth : forall k m, nth_error (own A) k = Some m -> nth_error ms k = Some m.
  Proof. intros k m E. rewrite <- (prefix_nth A ms k PA); [exact E|]. eapply lt_nth; eauto. Qed.

  Lemma compiled_get_right : forall o f n, shows ms o f -> declared (own A) n -> compiled_get A ms n o = get_attr f n.
  Proof.
    intros o f n S D. rewrite <- (get_right o f n S). unfold compiled_get, get_name.
    assert (M1 := member_index_right (own A) n). assert (M2 := member_index_right ms n).
    destruct (member_index (own A) n) as [k|]; [|contradiction]. destruct M1 as (m & E & EN). assert (E' := own_nth k m E).
    destruct (member_index ms n) as [j|].
    - destruct M2 as (m2 & E2 & EN2). assert (j = k) as -> by (eapply names_inj; eauto; congruence).
      assert (L := lt_nth _ _ _ _ E). rewrite (prefix_check A ms o k PA L), (prefix_offset A ms k PA L).
      unfold with_member. now rewrite E, E'.
    - exfalso. apply M2. rewrite <- EN. apply in_map. eapply nth_error_In; eauto.
  Qed.

  Lemma compiled_has_right : forall o f n, shows ms o f -> declared (own A) n ->
    compiled_has A n o = Gives (match f n with Some _ => true | None => false end).
  Proof.
    intros o f n (W & S & U) D. unfold compiled_has. assert (M1 := member_index_right (own A) n).
    destruct (member_index (own A) n) as [k|]; [|contradiction]. destruct M1 as (m & E & <-). assert (L := lt_nth _ _ _ _ E).
    rewrite (prefix_check A ms o k PA L), check_cell. specialize (S k m (own_nth k m E)). destruct (f (m_name m)); cbn [slot_is] in S; now rewrite S.
  Qed.

  Lemma compiled_set_right : forall T o f n v, shows ms o f -> declared (own A) n -> fits (own A) n v ->
    exists o', compiled_set T A ms n v o = Gives o' /\ shows ms o' (change f n (Some v)) /\ declares ms n = true.
  Proof.
    intros T o f n v S D F. unfold compiled_set. assert (M1 := member_index_right (own A) n).
    destruct (member_index (own A) n) as [k|]; [|contradiction]. destruct M1 as (m & E & EN). assert (L := lt_nth _ _ _ _ E).
    assert (E' := own_nth k m E). unfold with_member. rewrite E.
    rewrite (prefix_offset A ms k PA L), (prefix_check A ms o k PA L).
    assert (LV : List.length v = size_of m) by (apply F; [eapply nth_error_In; eauto|exact EN]).
    assert (LM := lt_nth _ _ _ _ E').
    assert (DM : declares ms n = true) by (apply declares_right; rewrite <- EN; unfold declared; apply in_map; eapply nth_error_In; eauto).
    destruct (pod T m).
    - eexists. split; [reflexivity|]. split; [|exact DM]. rewrite (prefix_mark A ms _ k PA L).
      destruct (store_right ms o k m v (proj1 S) E' LV) as (O1 & C1).
      destruct (note_right ms _ k true (proj1 O1) LM) as (O2 & C2).
      destruct (set_flag_right ms _ k (proj1 O2) LM) as (O3 & C3).
      rewrite <- EN. eapply shows_change; [exact S|exact E'|eapply only_trans; [eapply only_trans; [exact O1|exact O2]|exact O3]|].
      cbn [slot_is]. now rewrite C3, C2, C1.
    - destruct (set_at_right ms o k m (proj1 S) E' v (f (m_name m)) LV (proj1 (proj2 S) k m E')) as (o' & E1 & O & C).
      unfold set_at in E1. exists o'. split.
      + destruct (check_flag ms o k); [exact E1|]. destruct (construct (offset ms k) k v o) as [o1| |e]; cbn [andthen] in *; [|discriminate|discriminate].
        now rewrite (prefix_mark A ms o1 k PA L).
      + split; [|exact DM]. rewrite <- EN. eapply shows_change; eauto.
  Qed.

  Lemma compiled_del_right : forall T o f n, shows ms o f -> declared (own A) n ->
    match del_attr ms f n with
    | Gives g => exists o', compiled_del T A n o = Gives o' /\ shows ms o' g
    | AttributeError => compiled_del T A n o = AttributeError
    | Raises _ => False
    end.
  Proof.
    intros T o f n S D. unfold compiled_del, del_attr. assert (M1 := member_index_right (own A) n).
    destruct (member_index (own A) n) as [k|]; [|contradiction]. destruct M1 as (m & E & <-). assert (L := lt_nth _ _ _ _ E).
    assert (E' := own_nth k m E). assert (LM := lt_nth _ _ _ _ E').
    rewrite (nonempty_right ms _ k m ND E' eq_refl). unfold with_member. rewrite E. rewrite (prefix_guaranteed A ms k PA L).
    unfold guaranteed. rewrite E'. destruct (m_nonempty m) eqn:N; [reflexivity|].
    rewrite (prefix_check A ms o k PA L), check_cell. assert (C := proj1 (proj2 S) k m E').
    destruct (f (m_name m)) as [v|]; cbn [slot_is] in C.
    - rewrite C. cbn [fst snd]. assert (X : exists o1, (if pod T m then Gives (note o k false) else destroy_slot k o) = Gives o1 /\
        only ms k o o1 /\ cell ms o1 k = (false, true, v)).
      { destruct (pod T m).
        - destruct (note_right ms o k false (proj1 S) LM) as (O1 & C1). eexists. split; [reflexivity|]. split; [exact O1|]. now rewrite C1, C.
        - destruct (destroy_right ms o k m (proj1 S) E') as (o1 & E1 & O1 & C1); [now rewrite C|]. exists o1. rewrite C1, C. auto. }
      destruct X as (o1 & -> & O1 & C1). cbn [andthen]. eexists. split; [reflexivity|].
      destruct (prefix_clear A ms o1 k PA L (proj1 O1)) as (O2 & C2).
      eapply shows_change; [exact S|exact E'|eapply only_trans; eauto|]. cbn [slot_is]. rewrite C2, C1. cbn [fst snd].
      unfold guaranteed. now rewrite E', N.
    - now rewrite C.
  Qed.
End Instance.

Lemma compiled_sets_right : forall ms, NoDup (map m_name ms) -> forall T kwargs o f, shows ms o f -> (forall n v, In (n, v) kwargs -> fits ms n v) ->
  match set_attrs ms kwargs f with
  | Gives g => exists o', compiled_set_names T ms kwargs o = Gives o' /\ shows ms o' g
  | AttributeError => compiled_set_names T ms kwargs o = AttributeError
  | Raises _ => False
  end.
Proof.
  intros ms ND T. induction kwargs as [|(n & v) r IH]; intros o f S F; cbn [set_attrs compiled_set_names]; [eauto|].
  unfold set_attr. destruct (declares ms n) eqn:D; cbn [andthen].
  - destruct (compiled_set_right ms ND (View ms true) (prefix_self ms true) T o f n v S) as (o' & -> & S' & _).
    + now apply declares_right.
    + apply F. now left.
    + cbn [andthen]. apply IH; [exact S'|]. intros a b I. apply F. now right.
  - unfold compiled_set. assert (M1 := member_index_right ms n). cbn [own]. destruct (member_index ms n) as [k|]; [|reflexivity].
    exfalso. destruct M1 as (m & E & <-). assert (X : declares ms (m_name m) = true); [|congruence].
    apply declares_right. unfold declared. apply in_map. eapply nth_error_In; eauto.
Qed.

(** ** Loops over all members *)

Definition of_index (ms : list member) (f : attributes) (k : nat) : outcome (option value) :=
  match nth_error ms k with Some m => Gives (f (m_name m)) | None => Gives None end.
Lemma all_of_index : forall ms f ks, exists xs, all (map (of_index ms f) ks) = Gives xs.
Proof.
  intros ms f ks. apply all_gives. intros x I. apply in_map_iff in I. destruct I as (k & <- & _). unfold of_index. destruct (nth_error ms k); eauto.
Qed.

(** A loop that makes every member what [f] says. *)
Lemma loop_right : forall ms (P : nat -> bool * bool * list Z -> Prop) step f o ks,
  (forall n, ~ declared ms n -> f n = None) -> ks = indices ms \/ ks = rev (indices ms) ->
  wf ms o -> (forall k, (k < List.length ms)%nat -> P k (cell ms o k)) ->
  (forall k m o, nth_error ms k = Some m -> wf ms o -> P k (cell ms o k) ->
     exists o', step k o = Gives o' /\ only ms k o o' /\ slot_is (cell ms o' k) (f (m_name m))) ->
  exists o', each ks step o = Gives o' /\ shows ms o' f.
Proof.
  intros ms P step f o ks U KS W PRE STEP.
  assert (KI : forall k, In k ks <-> (k < List.length ms)%nat).
  { intros k. destruct KS as [-> | ->]; [|rewrite <- in_rev]; apply indices_in. }
  assert (KN : NoDup ks) by (destruct KS as [-> | ->]; [|apply NoDup_rev]; apply indices_nodup).
  assert (H := each_right ms (option value) P (fun x c => slot_is c x) step (of_index ms f) ks o KN (fun k I => proj1 (KI k) I) W (fun k I => PRE k (proj1 (KI k) I))).
  destruct (all_of_index ms f ks) as (xs & EX). rewrite EX in H. destruct H as (o' & E & W' & S & _).
  - intros k o1 I W1 P1. apply KI in I. destruct (nth_lt _ _ _ I) as (m & EM). unfold of_index. rewrite EM. now apply STEP.
  - exists o'. split; [exact E|]. split; [exact W'|]. split; [|exact U]. intros k m EM. destruct (S k) as (x & G & C).
    + apply KI. eapply lt_nth; eauto.
    + unfold of_index in G. rewrite EM in G. now injection G as ->.
Qed.

Lemma unmade_right : forall ms memory, List.length memory = bytecount ms -> wf ms (unmade ms memory) /\
  forall k, fst (fst (cell ms (unmade ms memory) k)) = false.
Proof.
  intros ms memory L. split; [split; [exact L|apply repeat_length]|]. intros k. unfold cell, is_built, unmade. cbn [fst o_built].
  destruct (Nat.lt_ge_cases k (List.length ms)) as [H|H]; [apply nth_repeat|]. apply nth_overflow. now rewrite repeat_length.
Qed.

Lemma copy_right : forall ms src f memory, shows ms src f -> List.length memory = bytecount ms ->
  exists o, copy_construct ms src memory = Gives o /\ shows ms o f.
Proof.
  intros ms src f memory S L. destruct (unmade_right ms memory L) as (W & B).
  apply (loop_right ms (fun _ c => fst (fst c) = false)); [apply S|now right|exact W|auto|].
  intros k m o E W1 P. assert (C := proj1 (proj2 S) k m E). unfold copy_member. rewrite check_cell.
  destruct (f (m_name m)) as [v|] eqn:FV.
  - cbn [slot_is] in C. rewrite C. cbn [fst snd]. unfold with_member. rewrite E, (read_right ms src k m E v C). cbn [andthen].
    apply (fill_right ms o k m W1 E v); [|exact P]. eapply slot_length; [exact (proj1 S)|exact E|exact C].
  - cbn [slot_is] in C. rewrite C. cbn [fst snd]. eexists. split; [reflexivity|].
    destruct (clear_flag_right ms o k W1 (lt_nth _ _ _ _ E)) as (O1 & C1). split; [exact O1|]. cbn [slot_is]. rewrite C1. cbn [fst snd]. rewrite P.
    replace (guaranteed ms k) with false; [reflexivity|]. destruct (guaranteed ms k) eqn:G; [|reflexivity].
    unfold cell in C. cbn [fst] in C. rewrite check_bit, G in C. discriminate.
Qed.

Lemma none_not_guaranteed : forall ms o k, slot_is (cell ms o k) None -> guaranteed ms k = false.
Proof.
  intros ms o k C. cbn [slot_is] in C. destruct (guaranteed ms k) eqn:G; [|reflexivity].
  unfold cell in C. cbn [fst] in C. rewrite check_bit, G in C. discriminate.
Qed.

Lemma compiled_copy_right : forall ms src f memory, shows ms src f -> List.length memory = bytecount ms ->
  exists o, compiled_copy ms src memory = Gives o /\ shows ms o f.
Proof.
  intros ms src f memory S L. destruct (unmade_right ms memory L) as (W & B).
  apply (loop_right ms (fun _ c => fst (fst c) = false)); [apply S|now left|exact W|auto|].
  intros k m o E W1 P. assert (C := proj1 (proj2 S) k m E). assert (LK := lt_nth _ _ _ _ E). unfold compiled_copy_member.
  rewrite (prefix_check (View ms true) ms src k (prefix_self ms true) LK), check_cell.
  destruct (f (m_name m)) as [v|] eqn:FV.
  - assert (C' := C). cbn [slot_is] in C. rewrite C. cbn [fst snd]. unfold with_member. rewrite E, (read_right ms src k m E v C). cbn [andthen].
    destruct (fill_right ms o k m W1 E v) as (o' & E1 & R); [|exact P|].
    + eapply slot_length; [exact (proj1 S)|exact E|exact C'].
    + exists o'. split; [|exact R]. destruct (construct (offset ms k) k v o) as [o1| |e]; cbn [andthen] in *; [|discriminate|discriminate].
      now rewrite (prefix_mark (View ms true) ms o1 k (prefix_self ms true) LK).
  - assert (G := none_not_guaranteed ms src k C). cbn [slot_is] in C. rewrite C. cbn [fst snd]. eexists. split; [reflexivity|].
    destruct (prefix_clear (View ms true) ms o k (prefix_self ms true) LK W1) as (O1 & C1). split; [exact O1|]. cbn [slot_is]. rewrite C1. cbn [fst snd]. now rewrite P, G.
Qed.

(** Memory whose flags are zero. *)
Lemma zero_cells : forall ms o, wf ms o -> (forall i, (i < init_bytes ms)%nat -> nth i (o_bytes o) 0%Z = 0%Z) ->
  forall k, (k < List.length ms)%nat -> check_flag ms o k = guaranteed ms k.
Proof.
  intros ms o W H k L. rewrite check_bit. destruct (guaranteed ms k) eqn:G; [reflexivity|].
  destruct (guaranteed_false _ _ L G) as (m & E & N). rewrite H by (eapply flag_room; eauto). apply Z.bits_0.
Qed.

Lemma deepcopy_right : forall ms src f memory, shows ms src f -> List.length memory = bytecount ms ->
  firstn (init_bytes ms) memory = repeat 0%Z (init_bytes ms) ->
  exists o, deepcopy ms src memory = Gives o /\ shows ms o f.
Proof.
  intros ms src f memory S L Z0. destruct (unmade_right ms memory L) as (W & B).
  assert (FL : forall k, (k < List.length ms)%nat -> check_flag ms (unmade ms memory) k = guaranteed ms k).
  { apply zero_cells; [exact W|]. intros i I. cbn [unmade o_bytes].
    rewrite <- (firstn_skipn (init_bytes ms) memory), Z0. rewrite app_nth1 by (now rewrite repeat_length). apply nth_repeat. }
  apply (loop_right ms (fun k c => fst c = (false, guaranteed ms k))); [apply S|now left|exact W| |].
  - intros k LK. unfold cell. cbn [fst]. rewrite FL by exact LK. f_equal. exact (B k).
  - intros k m o E W1 P. assert (C := proj1 (proj2 S) k m E). unfold deepcopy_member. rewrite check_cell.
    destruct (f (m_name m)) as [v|] eqn:FV.
    + assert (C' := C). cbn [slot_is] in C. rewrite C. cbn [fst snd]. unfold with_member. rewrite E, (read_right ms src k m E v C). cbn [andthen].
      apply (fill_right ms o k m W1 E v); [|now rewrite P]. eapply slot_length; [exact (proj1 S)|exact E|exact C'].
    + assert (G := none_not_guaranteed ms src k C). cbn [slot_is] in C. rewrite C. cbn [fst snd]. exists o. split; [reflexivity|].
      split; [now apply only_refl|]. cbn [slot_is]. now rewrite P, G.
Qed.

Lemma assign_right_all : forall ms src o f g, shows ms o f -> shows ms src g -> (forall n, g n <> None -> f n <> None) ->
  (exists o', assign ms src o = Gives o' /\ shows ms o' g) /\ (exists o', compiled_assign ms src o = Gives o' /\ shows ms o' g).
Proof.
  intros ms src o f g S R H.
  assert (PRE : forall k, (k < List.length ms)%nat -> (fun k c => forall m, nth_error ms k = Some m -> slot_is c (f (m_name m))) k (cell ms o k)).
  { intros k L m E. now apply S. }
  split; apply (loop_right ms (fun k c => forall m, nth_error ms k = Some m -> slot_is c (f (m_name m)))); try (apply R); auto; try (apply S).
  - intros k m o1 E W1 P. specialize (P m E). assert (C := proj1 (proj2 R) k m E). unfold assign_member, with_member. rewrite E, !check_cell.
    assert (LK := lt_nth _ _ _ _ E).
    destruct (g (m_name m)) as [v|] eqn:GV, (f (m_name m)) as [u|] eqn:FV.
    + assert (LV : List.length v = size_of m) by (eapply slot_length; [exact (proj1 R)|exact E|exact C]).
      cbn [slot_is] in C, P. rewrite C, P. cbn [fst snd]. rewrite (read_right ms src k m E v C). cbn [andthen].
      destruct (assign_right ms o1 k m W1 E v LV) as (o' & E1 & O1 & C1); [now rewrite P|]. exists o'. split; [exact E1|]. split; [exact O1|].
      cbn [slot_is]. now rewrite C1, P.
    + exfalso. apply (H (m_name m)); congruence.
    + assert (G := none_not_guaranteed ms src k C). cbn [slot_is] in C, P. rewrite C, P. cbn [fst snd].
      destruct (destroy_right ms o1 k m W1 E) as (o2 & E2 & O2 & C2); [now rewrite P|]. rewrite E2. cbn [andthen]. eexists. split; [reflexivity|].
      destruct (clear_flag_right ms o2 k (proj1 O2) LK) as (O3 & C3). split; [eapply only_trans; eauto|]. cbn [slot_is]. now rewrite C3, C2, G.
    + cbn [slot_is] in C, P. rewrite C, P. cbn [fst snd]. exists o1. split; [reflexivity|]. split; [now apply only_refl|exact P].
  - intros k m o1 E W1 P. specialize (P m E). assert (C := proj1 (proj2 R) k m E). unfold compiled_assign_member, with_member.
    assert (LK := lt_nth _ _ _ _ E). rewrite E, !(prefix_check (View ms true) ms _ k (prefix_self ms true) LK), !check_cell.
    destruct (g (m_name m)) as [v|] eqn:GV, (f (m_name m)) as [u|] eqn:FV.
    + assert (LV : List.length v = size_of m) by (eapply slot_length; [exact (proj1 R)|exact E|exact C]).
      cbn [slot_is] in C, P. rewrite C, P. cbn [fst snd]. rewrite (read_right ms src k m E v C). cbn [andthen].
      destruct (assign_right ms o1 k m W1 E v LV) as (o' & E1 & O1 & C1); [now rewrite P|]. exists o'. split; [exact E1|]. split; [exact O1|].
      cbn [slot_is]. now rewrite C1, P.
    + exfalso. apply (H (m_name m)); congruence.
    + assert (G := none_not_guaranteed ms src k C). cbn [slot_is] in C, P. rewrite C, P. cbn [fst snd].
      destruct (destroy_right ms o1 k m W1 E) as (o2 & E2 & O2 & C2); [now rewrite P|]. rewrite E2. cbn [andthen]. eexists. split; [reflexivity|].
      destruct (prefix_clear (View ms true) ms o2 k (prefix_self ms true) LK (proj1 O2)) as (O3 & C3). split; [eapply only_trans; eauto|]. cbn [slot_is]. now rewrite C3, C2, G.
    + cbn [slot_is] in C, P. rewrite C, P. cbn [fst snd]. exists o1. split; [reflexivity|]. split; [now apply only_refl|exact P].
Qed.

(** Destruction leaves nothing behind. *)
Lemma destroy_all_right : forall ms o f, shows ms o f -> exists o', destroy ms o = Gives o' /\ existsb (fun x => x) (o_built o') = false.
Proof.
  intros ms o f S. unfold destroy.
  assert (H := each_right ms unit (fun k c => forall m, nth_error ms k = Some m -> slot_is c (f (m_name m))) (fun _ c => fst (fst c) = false)
    (fun k o => if check_flag ms o k then destroy_slot k o else Gives o) (fun _ => Gives tt) (rev (indices ms)) o
    (NoDup_rev (indices_nodup ms)) (fun k I => proj1 (indices_in ms k) (proj2 (in_rev _ _) I)) (proj1 S)).
  destruct (all_gives _ (map (fun _ : nat => Gives tt) (rev (indices ms)))) as (xs & EX).
  { intros x I. apply in_map_iff in I. destruct I as (k & <- & _). eauto. }
  rewrite EX in H. destruct H as (o' & E & (_ & W') & C & _).
  - intros k _ m E. now apply S.
  - intros k o1 I W1 P. apply in_rev in I. apply indices_in in I. destruct (nth_lt _ _ _ I) as (m & E). specialize (P m E).
    rewrite check_cell. destruct (f (m_name m)) as [v|]; cbn [slot_is] in P.
    + rewrite P. cbn [fst snd]. destruct (destroy_right ms o1 k m W1 E) as (o2 & E2 & O2 & C2); [now rewrite P|]. exists o2. split; [exact E2|]. split; [exact O2|]. now rewrite C2.
    + rewrite P. cbn [fst snd]. exists o1. split; [reflexivity|]. split; [now apply only_refl|]. now rewrite P.
  - exists o'. split; [exact E|]. destruct (existsb _ (o_built o')) eqn:X; [|reflexivity]. exfalso. apply existsb_exists in X.
    destruct X as (b & I & ->). apply In_nth with (d := false) in I. destruct I as (k & L & NK). rewrite W' in L.
    destruct (C k) as (_ & _ & Y); [rewrite <- in_rev; now apply indices_in|]. unfold cell, is_built in Y. cbn [fst] in Y. congruence.
Qed.

(** ** Construction *)

Lemma start_right : forall T ms, NoDup (map m_name ms) ->
  match all (map (initial T) ms) with
  | Gives _ => exists f, start T ms = Gives f /\ (forall m, In m ms -> initial T m = Gives (f (m_name m))) /\ (forall n, ~ declared ms n -> f n = None)
  | AttributeError => start T ms = AttributeError
  | Raises e => start T ms = Raises e
  end.
Proof.
  intros T ms. induction ms as [|m ms IH]; intros ND; cbn [map all start].
  - eexists. split; [reflexivity|]. split; [intros m []|reflexivity].
  - cbn [map] in ND. inversion ND as [|? ? NI ND']. subst. specialize (IH ND').
    destruct (initial T m) as [x| |e] eqn:I; cbn [andthen]; [|reflexivity|reflexivity].
    destruct (all (map (initial T) ms)) as [xs| |e]; cbn [andthen]; [|now rewrite IH|now rewrite IH].
    destruct IH as (f & -> & H & U). cbn [andthen]. eexists. split; [reflexivity|]. split.
    + intros m' [<-|J]; [now rewrite change_same|]. rewrite change_other; [now apply H|]. intros X. apply NI. rewrite X. now apply in_map.
    + intros n D. rewrite change_other; [apply U; intros J; apply D; now right|]. intros <-. apply D. now left.
Qed.

Lemma make_loop : forall T ms step o (P : nat -> bool * bool * list Z -> Prop), NoDup (map m_name ms) -> wf ms o ->
  (forall k, (k < List.length ms)%nat -> P k (cell ms o k)) ->
  (forall k m o, nth_error ms k = Some m -> wf ms o -> P k (cell ms o k) ->
     match initial T m with
     | Gives x => exists o', step k o = Gives o' /\ only ms k o o' /\ slot_is (cell ms o' k) x
     | AttributeError => step k o = AttributeError
     | Raises e => step k o = Raises e
     end) ->
  match start T ms with
  | Gives f => exists o', each (indices ms) step o = Gives o' /\ shows ms o' f
  | AttributeError => each (indices ms) step o = AttributeError
  | Raises e => each (indices ms) step o = Raises e
  end.
Proof.
  intros T ms step o P ND W PRE STEP. set (F := fun x : option member => match x with Some m => initial T m | None => Gives None end).
  assert (H := each_right ms (option value) P (fun x c => slot_is c x) step (fun k => F (nth_error ms k)) (indices ms) o
    (indices_nodup ms) (fun k I => proj1 (indices_in ms k) I) W (fun k I => PRE k (proj1 (indices_in ms k) I))).
  assert (MI : map (fun k => F (nth_error ms k)) (indices ms) = map (initial T) ms) by exact (map_indices _ _ ms F).
  rewrite MI in H. clear MI.
  assert (S := start_right T ms ND). destruct (all (map (initial T) ms)) as [xs| |e].
  - destruct S as (f & -> & I & U). destruct H as (o' & E & W' & C & _).
    + intros k o1 J W1 P1. apply indices_in in J. destruct (nth_lt _ _ _ J) as (m & EM). rewrite EM. now apply STEP.
    + exists o'. split; [exact E|]. split; [exact W'|]. split; [|exact U]. intros k m EM. destruct (C k) as (x & G & Y).
      * apply indices_in. eapply lt_nth; eauto.
      * rewrite EM in G. cbn [F] in G. rewrite I in G by (eapply nth_error_In; eauto). now injection G as ->.
  - rewrite S. apply H. intros k o1 J W1 P1. apply indices_in in J. destruct (nth_lt _ _ _ J) as (m & EM). rewrite EM. now apply STEP.
  - rewrite S. apply H. intros k o1 J W1 P1. apply indices_in in J. destruct (nth_lt _ _ _ J) as (m & EM). rewrite EM. now apply STEP.
Qed.

Lemma make_instance_right : forall T ms memory, types_fit T -> NoDup (map m_name ms) -> List.length memory = bytecount ms ->
  match start T ms with
  | Gives f => exists o, make_instance T ms memory = Gives o /\ shows ms o f
  | AttributeError => make_instance T ms memory = AttributeError
  | Raises e => make_instance T ms memory = Raises e
  end.
Proof.
  intros T ms memory TF ND L. destruct (unmade_right ms memory L) as (W & B).
  apply (make_loop T ms _ _ (fun _ c => fst (fst c) = false)); auto.
  intros k m o E W1 P. unfold make_member, with_member, initial. rewrite E. destruct (TF m) as (T1 & T2).
  destruct (default_of T m) as [v|] eqn:D.
  - apply (fill_right ms o k m W1 E v); auto.
  - destruct (wants T m || m_nonempty m) eqn:N.
    + destruct (fresh T m) as [v| |e] eqn:F; cbn [andthen]; [|reflexivity|reflexivity]. apply (fill_right ms o k m W1 E v); auto.
    + eexists. split; [reflexivity|]. destruct (clear_flag_right ms o k W1 (lt_nth _ _ _ _ E)) as (O1 & C1). split; [exact O1|].
      cbn [slot_is]. rewrite C1. cbn [fst snd]. rewrite P. apply orb_false_iff in N. destruct N as (_ & N). unfold guaranteed. now rewrite E, N.
Qed.

Lemma zero_flags_right : forall ms memory, List.length memory = bytecount ms ->
  wf ms (zero_flags ms (unmade ms memory)) /\
  forall k, (k < List.length ms)%nat -> fst (cell ms (zero_flags ms (unmade ms memory)) k) = (false, guaranteed ms k).
Proof.
  intros ms memory L. destruct (unmade_right ms memory L) as (W & B).
  assert (IN : (0 + List.length (repeat 0%Z (init_bytes ms)) <= List.length memory)%nat) by (rewrite repeat_length, L; unfold bytecount; lia).
  assert (W' : wf ms (zero_flags ms (unmade ms memory))).
  { split; cbn [zero_flags o_bytes o_built unmade]; [|apply repeat_length]. rewrite write_length by exact IN. exact L. }
  split; [exact W'|]. intros k LK. unfold cell. cbn [fst]. f_equal; [exact (B k)|].
  apply zero_cells; [exact W'| |exact LK]. intros i I. cbn [zero_flags o_bytes unmade]. unfold write_bytes. cbn [firstn app].
  rewrite app_nth1 by (now rewrite repeat_length). apply nth_repeat.
Qed.

Lemma compiled_make_right : forall T ms memory, types_fit T -> NoDup (map m_name ms) -> List.length memory = bytecount ms ->
  defaults_seen T ms ->
  match start T ms with
  | Gives f => exists o, compiled_make T ms memory = Gives o /\ shows ms o f
  | AttributeError => compiled_make T ms memory = AttributeError
  | Raises e => compiled_make T ms memory = Raises e
  end.
Proof.
  intros T ms memory TF ND L DS. destruct (zero_flags_right ms memory L) as (W & B).
  apply (make_loop T ms _ _ (fun k c => fst c = (false, guaranteed ms k))); auto.
  intros k m o E W1 P. unfold compiled_make_member, with_member, initial. rewrite E. destruct (TF m) as (T1 & T2).
  assert (LK := lt_nth _ _ _ _ E).
  assert (FILL : forall v, List.length v = size_of m ->
    exists o', (x <~ construct (offset ms k) k v o ; Gives (compiled_mark (View ms true) x k)) = Gives o' /\ only ms k o o' /\ slot_is (cell ms o' k) (Some v)).
  { intros v LV. destruct (fill_right ms o k m W1 E v LV) as (o' & E1 & R); [now rewrite P|]. exists o'. split; [|exact R].
    destruct (construct (offset ms k) k v o) as [o1| |e]; cbn [andthen] in *; [|discriminate|discriminate].
    now rewrite (prefix_mark (View ms true) ms o1 k (prefix_self ms true) LK). }
  destruct (default_of T m) as [v|] eqn:D.
  - assert (X : wants T m || m_nonempty m = true).
    { apply orb_true_iff. apply DS; [eapply nth_error_In; eauto|congruence]. }
    rewrite X. cbn [andthen]. apply FILL. auto.
  - destruct (wants T m || m_nonempty m) eqn:N.
    + destruct (fresh T m) as [v| |e] eqn:F; cbn [andthen]; [|reflexivity|reflexivity]. apply FILL. auto.
    + exists o. split; [reflexivity|]. split; [now apply only_refl|]. cbn [slot_is]. rewrite P.
      apply orb_false_iff in N. destruct N as (_ & N). unfold guaranteed. now rewrite E, N.
Qed.

(** ** Comparison *)

Lemma equal_right : forall T ms a b f g, shows ms a f -> shows ms b g -> equal T ms a b = Gives (forallb (equal_attr T f g) ms).
Proof.
  intros T ms a b f g SA SB. unfold equal.
  assert (X : forallb (equal_attr T f g) ms = forallb (fun k => match nth_error ms k with Some m => equal_attr T f g m | None => true end) (indices ms)).
  { assert (Y := map_indices _ _ ms (fun x => match x with Some m => equal_attr T f g m | None => true end)).
    assert (FM : forall A (p : A -> bool) l, forallb p l = forallb (fun x => x) (map p l)).
    { intros A p l. induction l as [|x l IH]; [reflexivity|]. cbn [forallb map]. now rewrite IH. }
    rewrite (FM _ (equal_attr T f g) ms), (FM _ _ (indices ms)). unfold indices. now rewrite Y. }
  rewrite X. assert (K : forall k, In k (indices ms) -> (k < List.length ms)%nat) by (intros k; apply indices_in).
  revert K. generalize (indices ms) as ks. clear X. induction ks as [|k ks IH]; intros K; cbn [equal_from forallb]; [reflexivity|].
  specialize (IH (fun j I => K j (or_intror I))). destruct (nth_lt _ _ _ (K k (or_introl eq_refl))) as (m & E).
  assert (CA := proj1 (proj2 SA) k m E). assert (CB := proj1 (proj2 SB) k m E). rewrite !check_cell. unfold with_member. rewrite E. unfold equal_attr at 1.
  destruct (f (m_name m)) as [v|], (g (m_name m)) as [u|]; cbn [slot_is] in CA, CB; rewrite CA, CB; cbn [fst snd Bool.eqb negb andb]; try reflexivity; [|exact IH].
  rewrite (read_right ms a k m E v CA), (read_right ms b k m E u CB). cbn [andthen]. destruct (same T m v u); [exact IH|reflexivity].
Qed.

(** ** Sending *)

Definition fields_of (ms : list member) (f : attributes) (ks : list nat) : list (nat * value) :=
  flat_map (fun k => match nth_error ms k with
                     | Some m => match f (m_name m) with Some v => [(k, v)] | None => nil end
                     | None => nil
                     end) ks.

Lemma serialize_right : forall ms o f, shows ms o f -> serialize ms o = Gives (fields_of ms f (indices ms)).
Proof.
  intros ms o f S. unfold serialize. assert (K : forall k, In k (indices ms) -> (k < List.length ms)%nat) by (intros k; apply indices_in).
  revert K. generalize (indices ms) as ks. induction ks as [|k ks IH]; intros K; [reflexivity|].
  specialize (IH (fun j I => K j (or_intror I))). destruct (nth_lt _ _ _ (K k (or_introl eq_refl))) as (m & E).
  assert (C := proj1 (proj2 S) k m E). cbn [serialize_from]. unfold fields_of. cbn [flat_map]. fold (fields_of ms f ks).
  rewrite check_cell. unfold with_member. rewrite E. destruct (f (m_name m)) as [v|]; cbn [slot_is] in C; rewrite C; cbn [fst snd].
  - rewrite (read_right ms o k m E v C). cbn [andthen]. rewrite IH. reflexivity.
  - exact IH.
Qed.

Lemma fields_in : forall ms f ks k v, In (k, v) (fields_of ms f ks) <-> In k ks /\ exists m, nth_error ms k = Some m /\ f (m_name m) = Some v.
Proof.
  intros ms f ks k v. unfold fields_of. rewrite in_flat_map. split.
  - intros (j & I & H). destruct (nth_error ms j) as [m|] eqn:E; [|destruct H]. destruct (f (m_name m)) as [u|] eqn:F; [|destruct H].
    destruct H as [H|[]]. injection H as <- <-. eauto.
  - intros (I & m & E & F). exists k. split; [exact I|]. rewrite E, F. now left.
Qed.

Lemma fields_nodup : forall ms f ks, NoDup ks -> NoDup (map fst (fields_of ms f ks)).
Proof.
  intros ms f ks N. induction N as [|k ks NI N IH]; [constructor|]. unfold fields_of. cbn [flat_map]. fold (fields_of ms f ks).
  destruct (nth_error ms k) as [m|]; [|exact IH]. destruct (f (m_name m)) as [v|]; [|exact IH]. cbn [app map fst]. constructor; [|exact IH].
  intros I. apply NI. apply in_map_iff in I. destruct I as ((j & u) & X & I). cbn [fst] in X. subst j. now apply fields_in in I.
Qed.

Lemma read_fields_right : forall ms fields o, wf ms o -> NoDup (map fst fields) ->
  (forall k v, In (k, v) fields -> exists m, nth_error ms k = Some m /\ List.length v = size_of m) ->
  (forall k v, In (k, v) fields -> fst (fst (cell ms o k)) = false) ->
  exists o', read_fields ms fields o = Gives o' /\ wf ms o' /\
    (forall k v, In (k, v) fields -> cell ms o' k = (true, true, v)) /\
    (forall j, (j < List.length ms)%nat -> ~ In j (map fst fields) -> cell ms o' j = cell ms o j).
Proof.
  intros ms. induction fields as [|(k & v) r IH]; intros o W N F B; cbn [read_fields].
  - exists o. split; [reflexivity|]. split; [exact W|]. split; [intros ? ? []|auto].
  - cbn [map fst] in N. inversion N as [|? ? NI N']. subst. destruct (F k v (or_introl eq_refl)) as (m & E & LV). assert (LK := lt_nth _ _ _ _ E).
    assert (X := LK). apply Nat.ltb_lt in X. rewrite X.
    destruct (fill_right ms o k m W E v LV (B k v (or_introl eq_refl))) as (o1 & E1 & (W1 & O1) & C1).
    destruct (construct (offset ms k) k v o) as [o0| |e]; cbn [andthen] in E1; [|discriminate|discriminate]. injection E1 as E1. cbn [andthen]. rewrite E1.
    destruct (IH o1 W1 N') as (o' & E2 & W2 & C2 & F2).
    + intros j u I. apply F. now right.
    + intros j u I. rewrite O1.
      * apply (B j u). now right.
      * destruct (F j u (or_intror I)) as (mj & EJ & _). eapply lt_nth; eauto.
      * intros ->. apply NI. apply in_map_iff. exists (k, u). auto.
    + exists o'. split; [exact E2|]. split; [exact W2|]. split.
      * intros j u [H|I]; [injection H as <- <-; now rewrite F2|]. now apply C2.
      * intros j LJ NJ. cbn [map fst] in NJ. rewrite F2; [|exact LJ|intros I; apply NJ; now right]. apply O1; [exact LJ|]. intros ->. apply NJ. now left.
Qed.

Lemma send_right : forall ms o f memory, shows ms o f -> List.length memory = bytecount ms ->
  exists o', (fs <~ serialize ms o ; deserialize ms fs memory) = Gives o' /\ shows ms o' f.
Proof.
  intros ms o f memory S L. rewrite (serialize_right ms o f S). cbn [andthen]. unfold deserialize.
  destruct (unmade_right ms memory L) as (W & B).
  assert (H := each_right ms nat (fun _ c => fst (fst c) = false) (fun k c => fst c = (false, guaranteed ms k))
    (fun k o => Gives (clear_flag ms o k)) (fun k => Gives k) (indices ms) (unmade ms memory) (indices_nodup ms)
    (fun k I => proj1 (indices_in ms k) I) W (fun k _ => B k)).
  destruct (all_gives _ (map (fun k : nat => Gives k) (indices ms))) as (xs & EX).
  { intros x I. apply in_map_iff in I. destruct I as (k & <- & _). eauto. }
  rewrite EX in H. destruct H as (o1 & E1 & W1 & C1 & _).
  { intros k o1 I W1 P. apply indices_in in I. eexists. split; [reflexivity|]. destruct (clear_flag_right ms o1 k W1 I) as (O2 & C2).
    split; [exact O2|]. rewrite C2. cbn [fst snd]. now rewrite P. }
  rewrite E1. cbn [andthen]. assert (C : forall k, (k < List.length ms)%nat -> fst (cell ms o1 k) = (false, guaranteed ms k)).
  { intros k LK. destruct (C1 k) as (x & G & Y); [now apply indices_in|]. now injection G as <-. }
  destruct (read_fields_right ms (fields_of ms f (indices ms)) o1 W1) as (o2 & E2 & W2 & C2 & F2).
  - apply fields_nodup. apply indices_nodup.
  - intros k v I. apply fields_in in I. destruct I as (_ & m & E & FV). exists m. split; [exact E|].
    eapply slot_length; [exact (proj1 S)|exact E|]. rewrite <- FV. now apply S.
  - intros k v I. apply fields_in in I. destruct I as (I & _). apply indices_in in I. now rewrite C.
  - exists o2. split; [exact E2|]. split; [exact W2|]. split; [|apply S]. intros k m E. assert (LK := lt_nth _ _ _ _ E).
    destruct (f (m_name m)) as [v|] eqn:FV.
    + cbn [slot_is]. apply C2. apply fields_in. split; [now apply indices_in|eauto].
    + assert (G : guaranteed ms k = false) by (apply (none_not_guaranteed ms o); rewrite <- FV; now apply S).
      cbn [slot_is]. rewrite F2; [now rewrite C, G|exact LK|]. intros I. apply in_map_iff in I. destruct I as ((j & u) & X & I).
      cbn [fst] in X. subst j. apply fields_in in I. destruct I as (_ & m' & E' & F'). congruence.
Qed.

(** ** Programs *)

Definition related (w : world) (a : nat * option object) (b : nat * option attributes) : Prop :=
  fst a = fst b /\ match snd a, snd b with
                   | Some o, Some f => shows (members_of w (fst a)) o f
                   | None, None => True
                   | _, _ => False
                   end.

Lemma related_nth : forall w h H i, Forall2 (related w) h H ->
  match nth_error h i, nth_error H i with
  | Some (c, Some o), Some (d, Some f) => c = d /\ shows (members_of w c) o f
  | Some (c, None), Some (d, None) => c = d
  | None, None => True
  | _, _ => False
  end.
Proof.
  intros w h H i R. revert i. induction R as [|(c & o) (d & f) h H (E & X) R IH]; intros [|i]; cbn [nth_error]; auto.
  - cbn [fst snd] in *. subst d. destruct o as [o|], f as [f|]; auto; contradiction.
  - apply IH.
Qed.

Lemma related_put : forall w h H i a b, Forall2 (related w) h H -> related w a b ->
  Forall2 (related w) (firstn i h ++ a :: skipn (S i) h) (firstn i H ++ b :: skipn (S i) H).
Proof.
  intros w h H i a b R X. revert i. induction R as [|x y h H Q R IH]; intros [|i].
  - cbn. constructor; [exact X|constructor].
  - cbn. constructor; [exact X|constructor].
  - cbn [firstn app skipn]. constructor; [exact X|exact R].
  - cbn [firstn app]. change (skipn (S (S i)) (x :: h)) with (skipn (S i) h). change (skipn (S (S i)) (y :: H)) with (skipn (S i) H).
    constructor; [exact Q|apply IH].
Qed.

Definition agree (w : world) (x : heap * answer) (y : ideal_heap * answer) : Prop :=
  Forall2 (related w) (fst x) (fst y) /\ snd x = snd y.

Lemma with_agree : forall w h H i k K, Forall2 (related w) h H ->
  (forall c o f, nth_error H i = Some (c, Some f) -> shows (members_of w c) o f -> agree w (k c o) (K c f)) ->
  agree w (with_object h i k) (ideal_with H i K).
Proof.
  intros w h H i k K R X. unfold with_object, ideal_with. assert (N := related_nth w h H i R).
  destruct (nth_error h i) as [(c & [o|])|] eqn:E1, (nth_error H i) as [(d & [f|])|] eqn:E2; try contradiction; try (split; [exact R|reflexivity]).
  destruct N as (<- & S). apply X; auto.
Qed.

Lemma added_agree : forall w h H c r x, Forall2 (related w) h H ->
  match x with
  | Gives f => exists o, r = Gives o /\ shows (members_of w c) o f
  | AttributeError => r = AttributeError
  | Raises e => r = Raises e
  end -> agree w (added h c r) (ideal_added H c x).
Proof.
  intros w h H c r x R X. unfold added, ideal_added. destruct x as [f| |e].
  - destruct X as (o & -> & S). split; [|reflexivity]. apply Forall2_app; [exact R|]. constructor; [|constructor]. split; [reflexivity|exact S].
  - rewrite X. now split.
  - rewrite X. now split.
Qed.

Lemma changed_agree : forall w h H i c r x, Forall2 (related w) h H ->
  match x with
  | Gives f => exists o, r = Gives o /\ shows (members_of w c) o f
  | AttributeError => r = AttributeError
  | Raises e => r = Raises e
  end -> agree w (changed h i c r) (ideal_changed H i c x).
Proof.
  intros w h H i c r x R X. unfold changed, ideal_changed. destruct x as [f| |e].
  - destruct X as (o & -> & S). split; [|reflexivity]. apply related_put; [exact R|]. split; [reflexivity|exact S].
  - rewrite X. now split.
  - rewrite X. now split.
Qed.

Lemma op_right : forall T w h H p, laid_out w -> types_fit T -> Forall2 (related w) h H -> sensible T w H p ->
  agree w (run_op T w h p) (ideal_op T w H p).
Proof.
  intros T w h H p LO TF R SE. assert (ND := fun c => names_nodup w c LO).
  assert (GETS : forall A (f : A -> answer) (r s : outcome A), r = s -> agree w (h, to_answer f r) (H, to_answer f s)).
  { intros A f r s ->. now split. }
  assert (NF : forall (x : outcome attributes) (r : outcome object) (P : object -> attributes -> Prop),
    match x with Gives g => exists o', r = Gives o' /\ P o' g | AttributeError => r = AttributeError | Raises _ => False end ->
    match x with Gives g => exists o', r = Gives o' /\ P o' g | AttributeError => r = AttributeError | Raises e => r = Raises e end).
  { intros [g| |e] r P X; auto. contradiction. }
  destruct p as [compiled c memory kwargs|i n|i n v|i n|A i n|A i n|A i n v|A i n|compiled i memory|i memory|compiled i j|i j|i memory|i];
    cbn [run_op ideal_op sensible] in *.
  - destruct SE as (RM & KW & DS). apply added_agree; [exact R|]. destruct compiled.
    + assert (M := compiled_make_right T _ memory TF (ND c) RM (DS eq_refl)). destruct (start T (members_of w c)) as [f| |e]; cbn [andthen].
      * destruct M as (o & -> & S). cbn [andthen]. apply (NF _ _ (shows (members_of w c))). now apply compiled_sets_right.
      * now rewrite M.
      * now rewrite M.
    + assert (M := make_instance_right T _ memory TF (ND c) RM). destruct (start T (members_of w c)) as [f| |e]; cbn [andthen].
      * destruct M as (o & -> & S). cbn [andthen]. apply (NF _ _ (shows (members_of w c))). now apply sets_right.
      * now rewrite M.
      * now rewrite M.
  - apply with_agree; [exact R|]. intros c o f N S. apply GETS. now apply get_right.
  - apply with_agree; [exact R|]. intros c o f N S. apply changed_agree; [exact R|]. apply (NF _ _ (shows (members_of w c))). apply set_right; auto. eapply SE; eauto.
  - apply with_agree; [exact R|]. intros c o f N S. apply changed_agree; [exact R|]. apply (NF _ _ (shows (members_of w c))). now apply del_right.
  - apply with_agree; [exact R|]. intros c o f N S. apply GETS. destruct (SE c f N) as (AN & D).
    destruct (ancestor_prefix w c A LO AN) as (PA & _). apply (compiled_get_right (members_of w c) (ND c) (view_of w A) PA); [exact S|].
    unfold view_of, members_of in *. destruct (nth_error w A); exact D.
  - apply with_agree; [exact R|]. intros c o f N S. destruct (SE c f N) as (AN & D).
    destruct (ancestor_prefix w c A LO AN) as (PA & _). rewrite (compiled_has_right (members_of w c) (view_of w A) PA o f n S).
    + split; [exact R|reflexivity].
    + unfold view_of, members_of in *. destruct (nth_error w A); exact D.
  - destruct SE as (SE & FT). apply with_agree; [exact R|]. intros c o f N S. destruct (SE c f N) as (AN & D).
    destruct (ancestor_prefix w c A LO AN) as (PA & _). apply changed_agree; [exact R|].
    destruct (compiled_set_right (members_of w c) (ND c) (view_of w A) PA T o f n v S) as (o' & E & S' & DC).
    + unfold view_of, members_of in *. destruct (nth_error w A); exact D.
    + unfold view_of, members_of in *. destruct (nth_error w A); exact FT.
    + unfold set_attr. rewrite DC. eauto.
  - apply with_agree; [exact R|]. intros c o f N S. destruct (SE c f N) as (AN & D).
    destruct (ancestor_prefix w c A LO AN) as (PA & _). apply changed_agree; [exact R|]. apply (NF _ _ (shows (members_of w c))).
    apply (compiled_del_right (members_of w c) (ND c) (view_of w A) PA); [exact S|].
    unfold view_of, members_of in *. destruct (nth_error w A); exact D.
  - apply with_agree; [exact R|]. intros c o f N S. assert (RM := SE c f N). apply (added_agree w h H c _ (Gives f) R).
    destruct compiled; [now apply compiled_copy_right|now apply copy_right].
  - apply with_agree; [exact R|]. intros c o f N S. destruct (SE c f N) as (RM & Z0). apply (added_agree w h H c _ (Gives f) R). now apply deepcopy_right.
  - apply with_agree; [exact R|]. intros c o f N S. apply with_agree; [exact R|]. intros d src g N' S'.
    destruct (SE c f d g N N') as (<- & X). apply (changed_agree w h H i c _ (Gives g) R).
    destruct (assign_right_all _ src o f g S S' X). now destruct compiled.
  - apply with_agree; [exact R|]. intros c o f N S. apply with_agree; [exact R|]. intros d b g N' S'.
    assert (c = d) as <- by (eapply SE; eauto). rewrite (equal_right T _ o b f g S S'). split; [exact R|reflexivity].
  - apply with_agree; [exact R|]. intros c o f N S. assert (RM := SE c f N). apply (added_agree w h H c _ (Gives f) R). now apply send_right.
  - apply with_agree; [exact R|]. intros c o f N S. destruct (destroy_all_right _ o f S) as (o' & -> & ->).
    split; [|reflexivity]. apply related_put; [exact R|]. now split.
Qed.

Lemma ops_right : forall T w ps h H, laid_out w -> types_fit T -> Forall2 (related w) h H -> all_sensible T w H ps ->
  snd (run_ops T w h ps) = snd (ideal_ops T w H ps).
Proof.
  intros T w ps. induction ps as [|p ps IH]; intros h H LO TF R SE; [reflexivity|]. destruct SE as (S1 & S2).
  destruct (op_right T w h H p LO TF R S1) as (R1 & E1). cbn [run_ops ideal_ops].
  destruct (run_op T w h p) as (h1 & a), (ideal_op T w H p) as (H1 & b). cbn [fst snd] in *. subst b.
  specialize (IH h1 H1 LO TF R1 S2). destruct (run_ops T w h1 ps), (ideal_ops T w H1 ps). cbn [snd] in *. now f_equal.
Qed.
