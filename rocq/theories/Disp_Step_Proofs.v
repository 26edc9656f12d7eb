(** Proofs about compiled method calls, for Disp_Props: new classes, casts and whole programs. *)
From Coq Require Import ZifyBool ZifyNat.
From Verif Require Import Base Class_Model Class_Spec Class_Proofs Disp_Model Disp_Spec Disp_Table_Proofs Disp_Proofs.
Open Scope list_scope.
Open Scope result_scope.

(** ** A new class *)

Lemma order_new : forall w k, order_of (w ++ [k]) (length w) = c_mro k.
Proof. intros w k. unfold order_of. rewrite nth_error_app2 by lia. now rewrite Nat.sub_diag. Qed.

Lemma finals_step : forall w bs b k, sound w -> sound (w ++ [k]) -> finals w -> allowed w bs b -> c_bases k = bs -> finals (w ++ [k]).
Proof.
  intros w bs b k S S' F (A & _) EB c a I FA. assert (LC := order_exists _ _ _ I). rewrite app_length in LC. cbn [length] in LC.
  assert (LE := order_le _ _ _ S' I). destruct (Nat.eq_dec c (length w)) as [->|N].
  - destruct (Nat.eq_dec a (length w)) as [->|NA]; [reflexivity|]. exfalso.
    apply order_ancestor in I; [|exact S']. inversion I as [c0 bs0 N0 E1|c0 bs0 x a0 N0 J AN]; subst; [congruence|].
    rewrite bases_app in N0. rewrite nth_error_app2 in N0 by (unfold bases_of; rewrite map_length; lia).
    unfold bases_of in N0 at 1. rewrite map_length, Nat.sub_diag in N0. cbn in N0. injection N0 as <-.
    destruct (A x J) as (kx & NX & FX & _). assert (LX : (x < length w)%nat) by (apply nth_error_Some; congruence).
    apply order_ancestor in AN; [|exact S']. rewrite order_more in AN by exact LX. 
    assert (LA := order_le _ _ _ S AN). rewrite final_more in FA by lia. specialize (F x a AN FA). subst x.
    unfold is_final in FA. rewrite NX in FA. congruence.
  - rewrite order_more in I by lia. apply F; [exact I|]. rewrite final_more in FA by lia. exact FA.
Qed.

Lemma table_ok_more : forall w k ins c a ss t, sound w -> (c < length w)%nat -> (a < length w)%nat ->
  table_ok w ins c a ss t -> table_ok (w ++ [k]) ins c a ss t.
Proof.
  intros w k ins c a ss t S L M [k1 k2 k3 k4 k5 k6 k7 k8 k9 k10 k11]. constructor; auto.
  rewrite !order_more by assumption. exact k11.
Qed.

Lemma initialise_right : forall w ins c a like w0 ins0 ss, sound w -> (Z.of_nat (length (order_of w c)) < 65535)%Z ->
  In a (order_of w c) -> (a < length w)%nat -> table_ok w0 ins0 a a ss like \/ ss = nil /\ like = empty_table c ->
  (forall i, ~ In (a, c, i) ins) ->
  exists t, initialise w c a like = Ok t /\ table_ok w ins c a ss t.
Proof.
  intros w ins c a like w0 ins0 ss S B I L K NI. unfold initialise.
  destruct (nth_error w a) as [ka|] eqn:N; [|apply nth_error_None in N; lia]. cbn [or_fail bind].
  assert (EO : order_of w a = c_mro ka) by (unfold order_of; now rewrite N).
  destruct (upcasts_right w c (c_mro ka) S B) as (l & -> & F).
  { intros x X. rewrite <- EO in X. eapply order_trans; eauto. }
  cbn [bind]. eexists. split; [reflexivity|].
  assert (E : t_indices like = numbered ss /\ t_definitions like = listed ss /\ NoDup ss /\ t_used like = length ss /\
              (length ss <= t_allocated like)%nat).
  { destruct K as [K|(-> & ->)]; [|cbn; repeat split; auto; constructor]. destruct K as [k1 k2 k3 k4 k5 k6 k7 k8 k9 k10 k11].
    rewrite k7. auto. }
  destruct E as (E1 & E2 & E3 & E4 & E5).
  constructor; cbn [t_impl t_iface t_ptrs t_upcast t_allocated t_used t_indices t_definitions t_needing]; auto.
  - rewrite app_length, !repeat_length. lia.
  - rewrite app_length, !repeat_length. lia.
  - intros i s X. assert (LI : (i < length ss)%nat) by (apply nth_error_Some; congruence). right. split; [|split; [|apply NI]].
    + rewrite nth_error_app1 by (rewrite repeat_length; lia). apply nth_error_repeat. lia.
    + apply in_seq. lia.
  - intros i X. destruct (NI i X).
  - now rewrite EO.
Qed.

Lemma new_tables_right : forall slots st k order, core slots st -> sound (s_world st ++ [k]) ->
  (Z.of_nat (length (c_mro k)) < 65535)%Z -> (forall a, In a order -> In a (c_mro k)) ->
  exists ts, new_tables st (s_world st ++ [k]) (length (s_world st)) order = Ok ts /\
    Forall2 (fun a t => table_ok (s_world st ++ [k]) (s_installed st) (length (s_world st)) a (slots a) t) order ts.
Proof.
  intros slots st k order K S B. set (n := length (s_world st)) in *. induction order as [|a order IH]; intros I; cbn [new_tables].
  { exists nil. split; [reflexivity|constructor]. }
  assert (EO : order_of (s_world st ++ [k]) n = c_mro k) by apply order_new.
  assert (J : In a (order_of (s_world st ++ [k]) n)) by (rewrite EO; apply I; now left).
  assert (LE := order_le _ _ _ S J).
  assert (NI : forall i, ~ In (a, n, i) (s_installed st)) by (intros i X; apply (core_installed _ _ K) in X; unfold n in X; lia).
  destruct IH as (ts & ET & FT); [intros x X; apply I; now right|]. rewrite ET. rewrite <- EO in B.
  destruct (Nat.eqb_spec a n) as [EQ|NE].
  - destruct (initialise_right (s_world st ++ [k]) (s_installed st) n a (empty_table n) nil nil (slots a) S B J) as (t & E & T); auto.
    { rewrite app_length. cbn [length]. fold n. lia. }
    { right. split; [|reflexivity]. apply (core_none _ _ K). fold n. lia. }
    cbn [bind]. rewrite E. cbn [bind]. exists (t :: ts). split; [reflexivity|]. constructor; assumption.
  - assert (LA : (a < length (s_world st))%nat) by (fold n; lia).
    destruct (table_as_right st _ a 0 a (core_sound _ _ K) (core_tables _ _ K) (order_head _ a (core_sound _ _ K) LA)) as (like & E0 & T0).
    rewrite E0. cbn [bind snd].
    destruct (initialise_right (s_world st ++ [k]) (s_installed st) n a like (s_world st) (s_installed st) (slots a) S B J) as (t & E & T); auto.
    { rewrite app_length. lia. }
    rewrite E. cbn [bind]. exists (t :: ts). split; [reflexivity|]. constructor; assumption.
Qed.

Lemma nth_combine_seq : forall A (l : list A) n i x, nth_error l i = Some x -> nth_error (combine (seq n (length l)) l) i = Some ((n + i)%nat, x).
Proof.
  intros A. induction l as [|y l IH]; intros n [|i] x E; cbn [length seq combine nth_error] in *; try discriminate.
  - injection E as ->. now rewrite Nat.add_0_r.
  - rewrite (IH (S n) i x E). now rewrite Nat.add_succ_comm.
Qed.

Lemma new_class_right : forall slots st bs b, core slots st -> NoDup bs ->
  (forall w' k, make (s_world st) bs b = Ok w' -> nth_error w' (length (s_world st)) = Some k -> (Z.of_nat (length (c_mro k)) < 65535)%Z) ->
  match make (s_world st) bs b with
  | Err e => new_class st bs b = Err e
  | Ok w' => exists st' k, w' = s_world st ++ [k] /\ sound w' /\ new_class st bs b = Ok st' /\ s_world st' = w' /\ core slots st' /\
      s_memory st' = s_memory st /\ s_vars st' = s_vars st /\ s_sites st' = s_sites st
  end.
Proof.
  intros slots st bs b K ND SH. unfold new_class. assert (S := core_sound _ _ K). assert (M := make_right (s_world st) bs b S ND).
  destruct (make (s_world st) bs b) as [w'|e] eqn:EM; [|reflexivity]. assert (S' := sound_step _ _ _ _ S ND EM).
  destruct M as (AL & k & -> & EB & _). cbn [bind].
  assert (NK : nth_error (s_world st ++ [k]) (length (s_world st)) = Some k) by (rewrite nth_error_app2 by lia; now rewrite Nat.sub_diag).
  rewrite NK. cbn [or_fail bind]. specialize (SH _ _ eq_refl NK).
  destruct (new_tables_right slots st k (c_mro k) K S' SH (fun a I => I)) as (ts & -> & FT). cbn [bind].
  eexists _, k. split; [reflexivity|]. split; [exact S'|]. split; [reflexivity|]. cbn [s_world s_memory s_vars s_sites].
  split; [reflexivity|]. split; [|auto]. set (n := length (s_world st)) in *.
  assert (EO : order_of (s_world st ++ [k]) n = c_mro k) by apply order_new.
  assert (OE : forall c a, In a (order_of (s_world st ++ [k]) c) -> (c < n)%nat \/ c = n).
  { intros c a I. apply order_exists in I. rewrite app_length in I. cbn [length] in I. fold n in I. lia. }
  destruct (core_shape _ _ K) as (SH1 & SH2).
  constructor; cbn [s_world s_tables s_implementors s_installed s_memory s_vars s_sites].
  - exact S'.
  - eapply finals_step; eauto. keep K.
  - intros c. destruct (Nat.lt_ge_cases c n) as [L|L].
    + rewrite order_more by exact L. apply (core_short _ _ K).
    + destruct (Nat.eq_dec c n) as [->|N]; [now rewrite EO|]. unfold order_of.
      destruct (nth_error (s_world st ++ [k]) c) eqn:Q; [|cbn; lia].
      assert (X : nth_error (s_world st ++ [k]) c <> None) by congruence. apply nth_error_Some in X. rewrite app_length in X. cbn [length] in X.
      fold n in X. lia.
  - split; [rewrite !app_length; cbn [length]; lia|]. intros c us E. destruct (Nat.lt_ge_cases c n) as [L|L].
    + rewrite nth_error_app1 in E by (fold n in SH1; lia). rewrite order_more by exact L. now apply SH2.
    + rewrite nth_error_app2 in E by (fold n in SH1; lia). fold n in SH1. rewrite SH1 in E.
      destruct (c - n)%nat as [|d] eqn:D; [|destruct d; discriminate]. cbn in E. injection E as <-. assert (c = n) as -> by lia.
      rewrite EO. clear - FT. induction FT; cbn; congruence.
  - intros c i a N. assert (I := nth_error_In _ _ N). destruct (OE c a I) as [L|EC].
    + rewrite order_more in N by exact L. destruct (core_tables _ _ K c i a N) as (us & t & E1 & E2 & T). exists us, t.
      rewrite nth_error_app1 by (fold n in SH1; lia). split; [exact E1|]. split; [exact E2|]. apply table_ok_more; auto.
      rewrite order_more in I by exact L. apply order_le in I; [|exact S]. fold n. lia.
    + subst c. rewrite EO in N. exists ts. fold n in SH1. rewrite nth_error_app2 by lia. rewrite SH1, Nat.sub_diag.
      clear - FT N. revert i N. induction FT as [|x y l m X F IH]; intros [|i] N; cbn in N; try discriminate.
      * injection N as <-. exists y. auto.
      * destruct (IH i N) as (t & Q). exists t. now split.
  - keep K.
  - intros a L. apply (core_none _ _ K). rewrite app_length in L. lia.
  - intros a c i I. apply (core_installed _ _ K) in I. rewrite app_length. lia.
  - rewrite map_length, combine_length, seq_length, !app_length. cbn [length]. rewrite (core_implementors_length _ _ K). lia.
  - intros a l E c.
    assert (LA : (a < n + 1)%nat).
    { assert (X : nth_error (map (fun p : nat * list nat => if mem (fst p) (c_mro k) then snd p ++ [n] else snd p)
        (combine (seq 0 (length (s_implementors st ++ [nil]))) (s_implementors st ++ [nil]))) a <> None) by congruence.
      apply nth_error_Some in X. rewrite map_length, combine_length, seq_length, !app_length, (core_implementors_length _ _ K) in X.
      cbn [length] in X. fold n in X. lia. }
    assert (Q : exists x, nth_error (s_implementors st ++ [nil]) a = Some x /\
              forall c, (c < n)%nat -> In c x <-> In a (order_of (s_world st ++ [k]) c)).
    { assert (LI := core_implementors_length _ _ K). fold n in LI. destruct (Nat.eq_dec a n) as [->|NA].
      - exists nil. rewrite nth_error_app2 by lia. rewrite LI, Nat.sub_diag. split; [reflexivity|]. intros d LD.
        split; [intros []|]. intros I. apply order_le in I; [lia|exact S'].
      - destruct (nth_error (s_implementors st) a) as [x|] eqn:NX; [|apply nth_error_None in NX; lia]. exists x.
        rewrite nth_error_app1 by lia. split; [exact NX|]. intros d LD. rewrite order_more by exact LD.
        apply (core_implementors _ _ K a x NX). }
    destruct Q as (x & NX & HX).
    assert (HN : forall c, In c x -> (c < n)%nat).
    { intros d ID. assert (LI := core_implementors_length _ _ K). fold n in LI. destruct (Nat.eq_dec a n) as [->|NA].
      - rewrite nth_error_app2 in NX by lia. rewrite LI, Nat.sub_diag in NX. injection NX as <-. destruct ID.
      - rewrite nth_error_app1 in NX by lia. apply (core_implementors _ _ K a x NX) in ID. now apply order_exists in ID. }
    rewrite nth_error_map, (nth_combine_seq _ _ 0 a x NX) in E. cbn [option_map fst snd] in E. injection E as <-.
    destruct (mem a (c_mro k)) eqn:MA.
    + apply mem_in in MA. rewrite in_app_iff. split.
      * intros [I|[<-|[]]]; [apply HX; auto|now rewrite EO].
      * intros I. destruct (OE c a I) as [L| ->]; [left; now apply HX|right; now left].
    + split; [intros I; apply HX; auto|]. intros I. destruct (OE c a I) as [L| ->]; [now apply HX|].
      rewrite EO in I. apply mem_in in I. congruence.
Qed.

(** ** Variables *)

Definition found_at (memory : list (Z * nat)) (address : Z) (c : nat) : Prop :=
  find (fun e => Z.eqb (fst e) address) memory = Some (address, c).
Definition var_ok (w : world) (memory : list (Z * nat)) (v : nat * Z) (v' : nat * nat) : Prop :=
  exists address i, fst v = fst v' /\ found_at memory address (snd v') /\ (0 <= address < 281474976710656)%Z /\
    nth_error (order_of w (snd v')) i = Some (fst v) /\ snd v = place address i.

Lemma class_at_right : forall st address c, found_at (s_memory st) address c -> class_at st address = Ok c.
Proof. intros st address c H. unfold class_at. now rewrite H. Qed.

Lemma place_zero : forall address, place address 0 = address.
Proof. intros address. unfold place. lia. Qed.

Lemma final_place : forall w c a i, sound w -> finals w -> nth_error (order_of w c) i = Some a -> is_final w a = true -> c = a /\ i = O.
Proof.
  intros w c a i S F N FA. assert (E := F c a (nth_error_In _ _ N) FA). subst c. split; [reflexivity|].
  eapply NoDup_nth; [apply (order_nodup w a S)|exact N|]. apply order_head; [exact S|]. eapply order_exists, nth_error_In. exact N.
Qed.

Lemma layout_right : forall w c a i address, sound w -> finals w -> nth_error (order_of w c) i = Some a ->
  (0 <= address < 281474976710656)%Z -> layout_pointer w a (place address i) = address.
Proof.
  intros w c a i address S F N B. unfold layout_pointer. destruct (is_final w a) eqn:FA; [|now apply place_low].
  destruct (final_place w c a i S F N FA) as (_ & ->). apply place_zero.
Qed.

Lemma table_of_right : forall slots st a c i address, core slots st -> found_at (s_memory st) address c ->
  (0 <= address < 281474976710656)%Z -> nth_error (order_of (s_world st) c) i = Some a ->
  exists t, table_of st a (place address i) = Ok t /\ is_table st c a t.
Proof.
  intros slots st a c i address K FM B N. unfold table_of.
  rewrite (layout_right _ _ _ _ _ (core_sound _ _ K) (core_finals _ _ K) N B), (class_at_right _ _ _ FM). cbn [bind].
  destruct (core_tables _ _ K c i a N) as (ts & t & E1 & E2 & _). rewrite E1. cbn [or_fail bind]. rewrite place_index by exact B.
  rewrite E2. exists t. split; [reflexivity|]. exists i, ts. auto.
Qed.

Lemma Forall2_nth : forall A B (R : A -> B -> Prop) l m i a, Forall2 R l m -> nth_error l i = Some a -> exists b, nth_error m i = Some b /\ R a b.
Proof.
  intros A B R l m i a F. revert i. induction F as [|x y l m X F IH]; intros [|i] N; cbn in N; try discriminate; [|now apply IH].
  injection N as <-. exists y. auto.
Qed.

Lemma upcast_right : forall slots st a b c i address, core slots st -> found_at (s_memory st) address c ->
  (0 <= address < 281474976710656)%Z -> nth_error (order_of (s_world st) c) i = Some a -> In b (order_of (s_world st) a) ->
  exists j, nth_error (order_of (s_world st) c) j = Some b /\ upcast st a b (place address i) = Ok (place address j).
Proof.
  intros slots st a b c i address K FM B N I. apply In_nth_error in I. destruct I as (n & I). unfold upcast.
  rewrite (proj2 (order_nth _ a b n (core_sound _ _ K)) I). cbn [or_fail bind].
  destruct (table_of_right slots st a c i address K FM B N) as (t & -> & T). cbn [bind].
  assert (TK := is_table_ok _ _ _ _ _ K T).
  destruct (Forall2_nth _ _ _ _ _ _ _ (ok_upcast _ _ _ _ _ _ TK) I) as (u & EU & j & NJ & ->). rewrite EU. cbn [or_fail bind].
  exists j. split; [exact NJ|]. rewrite place_low by exact B.
  assert (LJ : (j < length (order_of (s_world st) c))%nat) by (apply nth_error_Some; congruence).
  assert (SJ := core_short _ _ K c). rewrite shift_small by lia. unfold place. f_equal. apply Z.mod_small. unfold two64. lia.
Qed.

Lemma cast_right : forall slots st a b c p, core slots st -> var_ok (s_world st) (s_memory st) (a, p) (a, c) ->
  (b < length (s_world st))%nat ->
  if is_subclass (s_world st) c b
  then exists q, cast st a b p = Ok (Some q) /\ var_ok (s_world st) (s_memory st) (b, q) (b, c)
  else cast st a b p = Ok None.
Proof.
  intros slots st a b c p K (address & i & _ & FM & B & N & EP) LB. cbn [fst snd] in *. subst p. unfold cast.
  assert (S := core_sound _ _ K). assert (F := core_finals _ _ K).
  assert (OK : forall j, nth_error (order_of (s_world st) c) j = Some b ->
            var_ok (s_world st) (s_memory st) (b, place address j) (b, c)).
  { intros j NJ. exists address, j. cbn [fst snd]. auto. }
  assert (LC : (c < length (s_world st))%nat) by (eapply order_exists, nth_error_In; exact N).
  destruct (is_subclass (s_world st) a b) eqn:AB.
  - apply order_subclass in AB. destruct (upcast_right slots st a b c i address K FM B N AB) as (j & NJ & ->). cbn [bind].
    assert (CB : is_subclass (s_world st) c b = true) by (apply order_subclass; eapply nth_error_In; exact NJ).
    rewrite CB. eauto.
  - destruct (is_final (s_world st) b) eqn:FB.
    + rewrite (layout_right _ _ _ _ _ S F N B), (class_at_right _ _ _ FM). cbn [bind].
      destruct (is_subclass (s_world st) c b) eqn:CB.
      * apply order_subclass in CB. assert (c = b) as -> by (now apply F). rewrite Nat.eqb_refl. exists address. split; [reflexivity|].
        rewrite <- (place_zero address). apply OK. now apply order_head.
      * destruct (Nat.eqb_spec c b) as [->|NE]; [|reflexivity]. exfalso.
        assert (X : is_subclass (s_world st) b b = true) by (apply order_subclass; eapply nth_error_In; apply order_head; auto).
        congruence.
    + unfold downcast. rewrite place_low by exact B. rewrite (class_at_right _ _ _ FM). cbn [bind].
      destruct (mro_index (s_world st) c b) as [j|] eqn:MJ.
      * apply order_nth in MJ; [|exact S]. assert (CB : is_subclass (s_world st) c b = true) by (apply order_subclass; eapply nth_error_In; exact MJ).
        rewrite CB. assert (LJ : (j < length (order_of (s_world st) c))%nat) by (apply nth_error_Some; congruence).
        assert (SJ := core_short _ _ K c). rewrite tagged_place by lia. eauto.
      * destruct (is_subclass (s_world st) c b) eqn:CB; [|reflexivity]. exfalso. apply order_subclass in CB.
        apply In_nth_error in CB. destruct CB as (j & CB). apply order_nth in CB; [congruence|exact S].
Qed.

Lemma type_table_right : forall slots st c a, core slots st -> In a (order_of (s_world st) c) ->
  exists t, table_of_type c a st = Ok t /\ is_table st c a t.
Proof.
  intros slots st c a K I. apply In_nth_error in I. destruct I as (i & N). unfold table_of_type.
  destruct (core_tables _ _ K c i a N) as (ts & t & E1 & E2 & T). rewrite E1. cbn [or_fail bind].
  destruct (find (fun t => Nat.eqb (t_iface t) a) ts) as [t'|] eqn:F.
  - apply find_some in F. destruct F as (I' & EA). apply Nat.eqb_eq in EA. cbn [or_fail]. exists t'. split; [reflexivity|].
    apply In_nth_error in I'. destruct I' as (j & E3). 
    assert (LJ : (j < length ts)%nat) by (apply nth_error_Some; congruence).
    destruct (core_shape _ _ K) as (_ & SH). rewrite (SH c ts E1) in LJ.
    destruct (nth_error (order_of (s_world st) c) j) as [x|] eqn:NX; [|apply nth_error_None in NX; lia].
    destruct (core_tables _ _ K c j x NX) as (ts2 & t2 & G1 & G2 & G3). assert (ts2 = ts) as -> by congruence.
    assert (t2 = t') as -> by congruence. rewrite (ok_iface _ _ _ _ _ _ G3) in EA. subst x. exists j, ts. auto.
  - exfalso. assert (X := find_none _ _ F t (nth_error_In _ _ E2)). cbn beta in X. rewrite (ok_iface _ _ _ _ _ _ T), Nat.eqb_refl in X. discriminate.
Qed.

(** ** Programs *)

Definition site_ok (w : world) (slots : nat -> list Z) (l : nat * Z * nat) (l' : nat * Z) : Prop :=
  fst l = l' /\ (fst l' < length w)%nat /\ nth_error (slots (fst l')) (snd l) = Some (snd l').
Record inv (slots : nat -> list Z) (st : state) (id : ideal) (used : list Z) : Prop := {
  inv_core : core slots st;
  inv_world : i_world id = s_world st;
  inv_memory : forall e, In e (s_memory st) -> In (fst e) used;
  inv_vars : Forall2 (var_ok (s_world st) (s_memory st)) (s_vars st) (i_vars id);
  inv_sites : Forall2 (site_ok (s_world st) slots) (s_sites st) (i_sites id)
}.

Lemma inv_start : inv (fun _ => nil) nothing ideal_nothing nil.
Proof.
  constructor; [|reflexivity|intros e []|constructor|constructor]. constructor; cbn.
  - intros c k N. destruct c; discriminate.
  - intros c a I. unfold order_of in I. destruct c; destruct I.
  - intros c. unfold order_of. destruct c; cbn; lia.
  - split; [reflexivity|]. intros c ts N. destruct c; discriminate.
  - intros c i a N. unfold order_of in N. destruct c, i; discriminate.
  - constructor.
  - reflexivity.
  - intros a c i [].
  - reflexivity.
  - intros a l N. destruct a; discriminate.
Qed.

Lemma Forall2_nth_none : forall A B (R : A -> B -> Prop) l m i, Forall2 R l m -> nth_error l i = None -> nth_error m i = None.
Proof.
  intros A B R l m i F. revert i. induction F as [|x y l m X F IH]; intros [|i] N; cbn in *; try discriminate; [reflexivity|reflexivity|now apply IH].
Qed.

Lemma Forall2_more : forall A B (R : A -> B -> Prop) l m a b, Forall2 R l m -> R a b -> Forall2 R (l ++ [a]) (m ++ [b]).
Proof. intros A B R l m a b F X. induction F; cbn; constructor; auto. Qed.

Lemma var_more : forall w w' mem v v', (forall c, (c < length w)%nat -> order_of w' c = order_of w c) -> var_ok w mem v v' -> var_ok w' mem v v'.
Proof.
  intros w w' mem v v' H (address & i & E & F & B & N & P). exists address, i. split; [exact E|]. split; [exact F|]. split; [exact B|].
  split; [|exact P]. rewrite H; [exact N|]. eapply order_exists, nth_error_In. exact N.
Qed.
Lemma var_new : forall w mem v v' address c, (forall e, In e mem -> fst e <> address) -> var_ok w mem v v' -> var_ok w ((address, c) :: mem) v v'.
Proof.
  intros w mem v v' address c H (address' & i & E & F & B & N & P). exists address', i. split; [exact E|]. split; [|auto].
  unfold found_at in *. cbn [find fst]. destruct (Z.eqb_spec address address') as [<-|X]; [|exact F]. exfalso.
  apply find_some in F. destruct F as (I & _). exact (H _ I eq_refl).
Qed.

Lemma inv_tables_only : forall slots slots' st st' id used, inv slots st id used -> core slots' st' -> tables_only st st' -> grows slots slots' ->
  inv slots' st' id used.
Proof.
  intros slots slots' st st' id used [k1 k2 k3 k4 k5] K (a1 & a2 & a3 & a4 & a5) G. constructor; rewrite ?a1, ?a3, ?a4, ?a5; auto.
  clear - k5 G. induction k5 as [|x y l m X F IH]; constructor; [|exact IH]. destruct X as (X1 & X2 & X3).
  split; [exact X1|]. split; [exact X2|]. now apply G.
Qed.

(** A new variable. *)
Lemma inv_var : forall slots st id used a p c, inv slots st id used -> var_ok (s_world st) (s_memory st) (a, p) (a, c) ->
  inv slots (add_var st a p) (Ideal (i_world id) (i_vars id ++ [(a, c)]) (i_sites id)) used.
Proof.
  intros slots st id used a p c [k1 k2 k3 k4 k5] V. constructor; cbn [s_world s_memory s_vars s_sites add_var i_world i_vars i_sites]; auto.
  - destruct k1. constructor; assumption.
  - now apply Forall2_more.
Qed.

(** A new object. *)
Lemma inv_object : forall slots st id used address c, inv slots st id used -> free used address ->
  inv slots (add_object st address c) id (address :: used).
Proof.
  intros slots st id used address c [k1 k2 k3 k4 k5] (_ & F).
  constructor; cbn [s_world s_memory s_vars s_sites add_object i_world i_vars i_sites]; auto.
  - destruct k1. constructor; assumption.
  - intros e [<-|I]; [now left|]. right. now apply k3.
  - clear - k3 k4 F. assert (H : forall e, In e (s_memory st) -> fst e <> address) by (intros e I E; apply F; rewrite <- E; now apply k3).
    induction k4; constructor; auto. now apply var_new.
Qed.

Lemma object_found : forall mem address c, found_at ((address, c) :: mem) address c.
Proof. intros mem address c. unfold found_at. cbn [find fst]. now rewrite Z.eqb_refl. Qed.

Definition outcome (st : state) (p : op) : state * answer := match step st p with Ok x => x | Err e => (st, Failure e) end.

Lemma step_right : forall slots st id used p, inv slots st id used -> sensible id used p ->
  exists slots', inv slots' (fst (outcome st p)) (fst (ideal_step id p)) (uses p ++ used) /\ snd (outcome st p) = snd (ideal_step id p).
Proof.
  intros slots st id used p V SE. assert (K := inv_core _ _ _ _ V). assert (EW := inv_world _ _ _ _ V).
  assert (S := core_sound _ _ K). unfold outcome.
  destruct p as [bs b|c|a s|c address|a c address|x b|site x loads|site c loads|c s loads];
    cbn [step ideal_step sensible uses app] in *; rewrite ?EW in *.
  - destruct SE as (ND & SH). assert (R := new_class_right slots st bs b K ND SH). destruct (make (s_world st) bs b) as [w'|e].
    + destruct R as (st' & k & EK & S' & -> & E1 & K' & E2 & E3 & E4). cbn [bind fst snd]. exists slots. split; [|reflexivity].
      constructor; cbn [i_world i_vars i_sites]; rewrite ?E1, ?E2, ?E3, ?E4; auto; try apply V.
      * subst w'. assert (F := inv_vars _ _ _ _ V). clear - F. induction F; constructor; auto.
        eapply var_more; [|exact H]. intros c L. now apply order_more.
      * subst w'. assert (F := inv_sites _ _ _ _ V). clear - F. induction F; constructor; auto.
        destruct H as (H1 & H2 & H3). split; [exact H1|]. split; [rewrite app_length; lia|exact H3].
    + rewrite R. cbn [fst snd]. exists slots. split; [exact V|reflexivity].
  - exists slots. split; [|reflexivity]. cbn [fst]. assert (EL := merge_again_length (s_world st) c).
    constructor; cbn [i_world i_vars i_sites s_world s_memory s_vars s_sites with_world]; auto; try apply V.
    + destruct K as [k1 k2 k3 k4 k5 k6 k7 k8 k9 k10].
      constructor; cbn [i_world i_vars i_sites s_world s_tables s_implementors s_installed s_memory s_vars s_sites with_world]; rewrite ?EL; auto.
      * now apply sound_again.
      * intros d a. rewrite order_again, final_again. apply k2.
      * intros d. rewrite order_again. apply k3.
      * destruct k4 as (k4 & k4'). split; [now rewrite EL|]. intros d ts. rewrite order_again. apply k4'.
      * intros d i a. rewrite order_again. intros N. destruct (k5 d i a N) as (ts & t & E1 & E2 & T). exists ts, t.
        split; [exact E1|]. split; [exact E2|]. destruct T as [t1 t2 t3 t4 t5 t6 t7 t8 t9 t10 t11]. constructor; auto.
        rewrite !order_again. exact t11.
      * intros a l E d. rewrite order_again. now apply k10.
    + assert (F := inv_vars _ _ _ _ V). clear - F. induction F; constructor; auto.
      eapply var_more; [|exact H]. intros d _. apply order_again.
    + assert (F := inv_sites _ _ _ _ V). clear - F EL. induction F; constructor; auto.
      destruct H as (H1 & H2 & H3). split; [exact H1|]. split; [now rewrite EL|exact H3].
  - destruct (allocate_right slots st a s K SE) as (i & st' & slots' & -> & K' & T & _ & G & N). cbn [bind fst snd].
    exists slots'. split; [|reflexivity]. assert (V' := inv_tables_only _ _ _ _ _ _ V K' T G). destruct T as (T & _).
    constructor; cbn [i_world i_vars i_sites s_world s_memory s_vars s_sites add_site]; try apply V'.
    + destruct K'. constructor; assumption.
    + congruence.
    + apply Forall2_more; [apply V'|]. split; [reflexivity|]. cbn [fst snd]. rewrite T. split; [exact SE|exact N].
  - destruct SE as (L & FR). cbn [fst snd]. exists slots. split; [|reflexivity]. rewrite <- EW.
    assert (V' := inv_object slots st id used address c V FR). apply (inv_var _ _ _ _ _ _ _ V').
    destruct FR as (B & _). exists address, O. cbn [fst snd s_world s_memory add_object]. split; [reflexivity|]. split; [apply object_found|].
    split; [exact B|]. split; [now apply order_head|]. apply tagged_place; lia.
  - destruct SE as (L & FR). destruct (mro_index (s_world st) c a) as [i|] eqn:MI.
    + assert (N := proj1 (order_nth _ c a i S) MI). cbn [or_fail bind fst snd].
      assert (CB : is_subclass (s_world st) c a = true) by (apply order_subclass; eapply nth_error_In; exact N). rewrite CB.
      cbn [fst snd]. exists slots. split; [|reflexivity]. rewrite <- EW.
      assert (V' := inv_object slots st id used address c V FR). apply (inv_var _ _ _ _ _ _ _ V').
      destruct FR as (B & _). exists address, i. cbn [fst snd s_world s_memory add_object]. split; [reflexivity|]. split; [apply object_found|].
      split; [exact B|]. split; [exact N|]. apply tagged_place; [exact B|].
      assert (LI : (i < length (order_of (s_world st) c))%nat) by (apply nth_error_Some; congruence).
      assert (SJ := core_short _ _ K c). lia.
    + cbn [or_fail bind fst snd]. destruct (is_subclass (s_world st) c a) eqn:CB.
      { exfalso. apply order_subclass in CB. apply In_nth_error in CB. destruct CB as (j & CB). apply order_nth in CB; [congruence|exact S]. }
      cbn [fst snd]. exists slots. split; [|reflexivity]. destruct V. constructor; auto. intros e I. right. auto.
  - destruct (nth_error (s_vars st) x) as [(a, p)|] eqn:NV; cbn [or_fail bind fst snd].
    + destruct (Forall2_nth _ _ _ _ _ _ _ (inv_vars _ _ _ _ V) NV) as ((a', c) & -> & VO).
      assert (a' = a) as -> by (destruct VO as (? & ? & E & _); cbn in E; congruence).
      assert (R := cast_right slots st a b c p K VO SE). destruct (is_subclass (s_world st) c b).
      * destruct R as (q & -> & VO'). cbn [bind fst snd]. exists slots. split; [|reflexivity]. rewrite <- EW. now apply inv_var.
      * rewrite R. cbn [bind fst snd]. exists slots. split; [exact V|reflexivity].
    + rewrite (Forall2_nth_none _ _ _ _ _ _ (inv_vars _ _ _ _ V) NV). cbn [fst snd]. exists slots. split; [exact V|reflexivity].
  - destruct (nth_error (s_vars st) x) as [(a, p)|] eqn:NV; cbn [or_fail bind fst snd].
    + destruct (Forall2_nth _ _ _ _ _ _ _ (inv_vars _ _ _ _ V) NV) as ((a', c) & -> & VO).
      assert (a' = a) as -> by (destruct VO as (? & ? & E & _); cbn in E; congruence).
      destruct (nth_error (s_sites st) site) as [l|] eqn:NL; cbn [or_fail bind fst snd].
      * destruct (Forall2_nth _ _ _ _ _ _ _ (inv_sites _ _ _ _ V) NL) as ((a', s) & -> & E1 & E2 & E3). rewrite E1. cbn [fst snd] in *.
        destruct (Nat.eqb_spec a a') as [<-|NE]; [|cbn [fst snd]; exists slots; split; [exact V|reflexivity]].
        destruct VO as (address & i & _ & FM & B & N & EP). cbn [fst snd] in *. subst p.
        destruct (dispatch_right loads (fun st => table_of st a (place address i)) slots st a c (snd l) s K SE (nth_error_In _ _ N) E3)
          as (st' & slots' & -> & K' & T & G).
        { intros st' slots' K' (T1 & T2 & T3 & T4). apply (table_of_right slots'); auto; congruence. }
        cbn [bind fst snd]. exists slots'. split; [|reflexivity].
        assert (V' := inv_tables_only _ _ _ _ _ _ V K' T G). rewrite <- EW. apply (inv_var _ _ _ _ _ _ _ V').
        destruct T as (T1 & T2 & T3 & T4). rewrite T1, T3. exists address, O. cbn [fst snd]. split; [reflexivity|]. split; [exact FM|].
        split; [exact B|]. split; [apply order_head; [exact S|]; eapply order_exists, nth_error_In; exact N|].
        now rewrite place_low, place_zero.
      * rewrite (Forall2_nth_none _ _ _ _ _ _ (inv_sites _ _ _ _ V) NL). cbn [fst snd]. exists slots. split; [exact V|reflexivity].
    + rewrite (Forall2_nth_none _ _ _ _ _ _ (inv_vars _ _ _ _ V) NV). cbn [fst snd]. exists slots. split; [exact V|reflexivity].
  - destruct SE as (L & AN). destruct (nth_error (s_sites st) site) as [l|] eqn:NL; cbn [or_fail bind fst snd].
    + destruct (Forall2_nth _ _ _ _ _ _ _ (inv_sites _ _ _ _ V) NL) as ((a, s) & NI & E1 & E2 & E3). rewrite NI, E1. cbn [fst snd] in *.
      specialize (AN a s NI). apply order_ancestor in AN; [|exact S].
      destruct (dispatch_right loads (table_of_type c a) slots st a c (snd l) s K L AN E3) as (st' & slots' & -> & K' & T & G).
      { intros st' slots' K' (T1 & _). apply (type_table_right slots'); [exact K'|]. now rewrite T1. }
      cbn [bind fst snd]. exists slots'. split; [|reflexivity]. exact (inv_tables_only _ _ _ _ _ _ V K' T G).
    + rewrite (Forall2_nth_none _ _ _ _ _ _ (inv_sites _ _ _ _ V) NL). cbn [fst snd]. exists slots. split; [exact V|reflexivity].
  - destruct (force_right (order_of (s_world st) c) slots st c s K) as (st1 & slots1 & l & -> & K1 & T1 & G1 & H).
    { intros a I. assert (LC := order_exists _ _ _ I). apply order_le in I; [lia|exact S]. }
    cbn [bind fst snd].
    destruct (compile_all_right loads l slots1 st1 c s K1) as (st2 & slots2 & -> & K2 & T2 & G2).
    { destruct T1 as (-> & _). exact SE. }
    { intros a i I. destruct T1 as (-> & _). now apply H. }
    cbn [bind fst snd]. exists slots2. split; [|reflexivity].
    exact (inv_tables_only _ _ _ _ _ _ V K2 (tables_only_trans _ _ _ T1 T2) (grows_trans _ _ _ G1 G2)).
Qed.

Lemma run_right : forall ps slots st id used, inv slots st id used -> all_sensible id used ps ->
  (exists slots' used', inv slots' (fst (run st ps)) (fst (ideal_run id ps)) used') /\ snd (run st ps) = snd (ideal_run id ps).
Proof.
  induction ps as [|p ps IH]; intros slots st id used V SE; cbn [run ideal_run]; [eauto|].
  destruct SE as (SE & SR). destruct (step_right slots st id used p V SE) as (slots' & V' & E).
  unfold outcome in *. destruct (match step st p with Ok x => x | Err e => (st, Failure e) end) as (st1, a1).
  destruct (ideal_step id p) as (id1, a2). cbn [fst snd] in *. subst a2.
  destruct (IH slots' st1 id1 (uses p ++ used) V' SR) as (H1 & H2).
  destruct (run st1 ps) as (st2, l1). destruct (ideal_run id1 ps) as (id2, l2). cbn [fst snd] in *. split; [exact H1|congruence].
Qed.
