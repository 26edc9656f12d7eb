(** Reading a tuple with a type that has more or fewer fields than the writer's. *)
From Verif Require Import Base Wire_Model Wire_Spec Wire_Proofs Serial_Model Serial_Spec
  Serial_Data_Proofs Serial_Proofs Serial_Graph_Proofs Serial_Roundtrip_Proofs Serial_Total_Proofs.
From Coq Require Import ZifyBool ZifyNat.
Ltac Zify.zify_post_hook ::= Z.div_mod_to_equations.
Open Scope Z_scope.

(** ** Default construction *)

Lemma first_default_spec c n ts : forall i, existsb (default_constructible c n) ts = true ->
  exists j t, first_default c n i ts = Some ((i + j)%nat, t) /\ nth_error ts j = Some t /\ default_constructible c n t = true.
Proof.
  induction ts as [|t ts IH]; intros i H; cbn [existsb first_default] in *; [discriminate|].
  destruct (default_constructible c n t) eqn:E.
  - exists 0%nat, t. rewrite Nat.add_0_r. repeat split. exact E.
  - cbn [orb] in H. destruct (IH (S i) H) as (j & t' & A & B & C). exists (S j), t'. rewrite A. repeat split; [f_equal; f_equal; lia|exact B|exact C].
Qed.

(** Default construction only adds objects. *)
Definition extends (s s' : rstate) : Prop := cached s' = cached s /\ exists new, rheap s' = rheap s ++ new.

Lemma extends_refl s : extends s s.
Proof. split; [reflexivity|exists []; now rewrite app_nil_r]. Qed.

Lemma extends_trans a b d : extends a b -> extends b d -> extends a d.
Proof. intros [H1 [n1 E1]] [H2 [n2 E2]]. split; [congruence|]. exists (n1 ++ n2). rewrite E2, E1. now rewrite app_assoc. Qed.

Lemma default_of_mono c h new t v : default_of c h t v -> default_of c (h ++ new) t v.
Proof.
  revert t v. fix IH 3. intros t v [ | | | | | | | | | | | |ts vs H| | | ]; try (constructor; fail).
  - constructor. now apply nth_error_app_l.
  - constructor. now apply nth_error_app_l.
  - constructor. now apply nth_error_app_l.
  - constructor. induction H; constructor; [now apply IH|assumption].
  - econstructor; [eassumption|]. now apply IH.
  - econstructor; [eassumption|]. now apply IH.
  - econstructor; [eassumption|]. now apply IH.
Qed.

Lemma default_fields_ok c n (one : ty -> rstate -> result (val * rstate)) :
  (forall t s, default_constructible c n t = true -> exists v s', one t s = Ok (v, s') /\ extends s s' /\ default_of c (rheap s') t v) ->
  forall ts s, forallb (default_constructible c n) ts = true ->
  exists vs s', default_fields one ts s = Ok (vs, s') /\ extends s s' /\ Forall2 (default_of c (rheap s')) ts vs.
Proof.
  intros H. induction ts as [|t ts IH]; intros s Hs; cbn [forallb default_fields] in *.
  - exists [], s. split; [reflexivity|]. split; [apply extends_refl|constructor].
  - apply andb_prop in Hs. destruct Hs as [H1 H2]. destruct (H t s H1) as (v & s1 & E1 & X1 & D1).
    destruct (IH s1 H2) as (vs & s2 & E2 & X2 & D2). exists (v :: vs), s2. rewrite E1. cbn [bind]. rewrite E2. cbn [bind].
    split; [reflexivity|]. split; [eapply extends_trans; eauto|]. constructor; [|exact D2].
    destruct X2 as [_ [new ->]]. now apply default_of_mono.
Qed.

Lemma default_value_ok c : forall n t s, default_constructible c n t = true ->
  exists v s', default_value c n t s = Ok (v, s') /\ extends s s' /\ default_of c (rheap s') t v.
Proof.
  induction n as [|n IH]; intros t s H; [discriminate|]. cbn [default_constructible default_value] in *.
  assert (Hres : forall v h, default_of c h (resolve c t) v -> default_of c h t v).
  { intros v h Hd. destruct t; cbn [resolve] in Hd; try exact Hd.
    destruct (nth_error (types c) n0) as [t|] eqn:E; [|].
    - apply (dflt_named _ _ _ t); [exact E|]. now erewrite nth_error_nth in Hd by exact E.
    - exfalso. cbn [resolve] in H. rewrite nth_overflow in H by now apply nth_error_None. discriminate. }
  destruct (resolve c t) eqn:Er; try discriminate;
    try (eexists _, s; split; [reflexivity|]; split; [apply extends_refl|]; apply Hres; constructor; fail).
  - eexists _, _. split; [reflexivity|]. split; [split; [reflexivity|eexists; reflexivity]|]. apply Hres. constructor. apply nth_error_app_mid.
  - destruct (default_fields_ok c n (default_value c n) IH ts s H) as (vs & s' & E & X & D).
    rewrite H, E. exists (VTuple vs), s'. split; [reflexivity|]. split; [exact X|]. apply Hres. now constructor.
  - destruct (first_default_spec c n ts 0 H) as (j & t' & A & B & C). rewrite A.
    destruct (IH t' s C) as (v & s' & E & X & D). rewrite E. exists (VOneOf j v), s'. split; [reflexivity|]. split; [exact X|].
    apply Hres. econstructor; eassumption.
  - destruct (first_default_spec c n ts 0 H) as (j & t' & A & B & C). rewrite A.
    destruct (IH t' s C) as (v & s' & E & X & D). rewrite E. exists (VAlt j v), s'. split; [reflexivity|]. split; [exact X|].
    apply Hres. econstructor; eassumption.
  - eexists _, _. split; [reflexivity|]. split; [split; [reflexivity|eexists; reflexivity]|]. apply Hres. constructor. apply nth_error_app_mid.
  - eexists _, _. split; [reflexivity|]. split; [split; [reflexivity|eexists; reflexivity]|]. apply Hres. constructor. apply nth_error_app_mid.
Qed.

Lemma fill_rest make extra : forall s, fill_missing make extra (repeat None (length extra)) s = default_fields make extra s.
Proof.
  induction extra as [|t extra IH]; intros s; [reflexivity|]. cbn [length repeat fill_missing default_fields].
  destruct (make t s) as [[v s1]|]; [|reflexivity]. cbn [bind]. now rewrite IH.
Qed.

Lemma fill_prefix make com extra : forall vals s, length vals = length com ->
  fill_missing make (com ++ extra) (map Some vals ++ repeat None (length extra)) s =
  bind (default_fields make extra s) (fun '(ds, s) => Ok (vals ++ ds, s)).
Proof.
  induction com as [|t com IH]; intros [|v vals] s H; cbn [length] in H; try lia.
  - cbn [map app]. rewrite fill_rest. destruct (default_fields make extra s) as [[ds s1]|]; reflexivity.
  - cbn [map app fill_missing bind]. rewrite IH by lia. destruct (default_fields make extra s) as [[ds s1]|]; reflexivity.
Qed.

(** ** Runs of messages *)

Section Evolution.
Variable c : context.
Variable S0 : list ty.
Variable h : heap.
Hypothesis Hc : context_ok c.
Hypothesis Hh : heap_has_types c S0 h.
Notation written := (written c h).
Notation step := (step h).
Notation memo_ok := (memo_ok h).

Lemma written_app_inv a b : forall m bs m', written (a ++ b) m bs m' ->
  exists bs1 bs2 m1, bs = bs1 ++ bs2 /\ written a m bs1 m1 /\ written b m1 bs2 m'.
Proof.
  induction a as [|x a IH]; intros m bs m' H; cbn [app] in H.
  - exists [], bs, m. split; [reflexivity|]. split; [constructor|exact H].
  - inversion H as [|f t v items m0 b0 m1 bs0 m2 Hf Hg Hw]; subst. destruct (IH _ _ _ Hw) as (b1 & b2 & m2 & -> & H1 & H2).
    exists (b0 ++ b1), b2, m2. split; [now rewrite app_assoc|]. split; [econstructor; eauto|exact H2].
Qed.

Lemma written_length items : forall m bs m', written items m bs m' -> (length items <= length bs)%nat.
Proof.
  induction items as [|x items IH]; intros m bs m' H; inversion H as [|f t v its m0 b0 m1 bs0 m2 Hf Hg Hw]; subst; [cbn [length]; lia|].
  destruct Hg as (msg & body & -> & _). pose proof (wire_type_range msg).
  pose proof (write_tag_length f (wire_type msg) Hf ltac:(lia)).
  apply IH in Hw. rewrite !app_length. cbn [length]. lia.
Qed.

Lemma field_items_app com dropped : forall vs1 vs2 k, length com = length vs1 ->
  field_items k (com ++ dropped) (vs1 ++ vs2) = field_items k com vs1 ++ field_items (k + Z.of_nat (length com)) dropped vs2.
Proof.
  induction com as [|t com IH]; intros [|v vs1] vs2 k H; cbn [length] in H; try lia.
  - cbn [app field_items length]. f_equal. lia.
  - cbn [app field_items length]. rewrite IH by lia. do 3 f_equal. lia.
Qed.

Lemma consume_prefix {A} (cb : Z -> Z -> bytes -> A -> result (bytes * A)) dfuel
    (Inv : list (Z * ty * val) -> list val -> rstate -> A -> Prop) items :
  (forall done f t v more vals s a w bs v' bs' s',
     items = done ++ (f, t, v) :: more -> Inv done vals s a -> length vals = length done ->
     des c dfuel t w bs s = Ok (v', bs', s') ->
     exists a', cb f w bs a = Ok (bs', a') /\ Inv (done ++ [(f, t, v)]) (vals ++ [v']) s' a') ->
  forall more done vals m bs m', written more m bs m' -> items = done ++ more -> length vals = length done ->
  forall fuel rest s a, (length bs + length rest < dfuel)%nat -> inv m s -> Inv done vals s a ->
  exists vals' s' a',
    consume_fields cb (length more + fuel) (bs ++ rest) a = consume_fields cb fuel rest a' /\
    step m m' s s' /\ Inv items (vals ++ vals') s' a' /\
    Forall2 (fun it v' => val_rel (R m') (snd it) v') more vals'.
Proof.
  intros Hcb. induction more as [|[[f t] v] more IH]; intros done vals m bs m' Hw Hit Hl fuel rest s a Hd Hi HI;
    inversion Hw; subst.
  - exists [], s, a. split; [reflexivity|]. split; [now apply step_refl|]. rewrite !app_nil_r. split; [exact HI|constructor].
  - match goal with H : good _ _ _ _ _ _ _ _ |- _ => destruct H as (msg & body & -> & He & Hm1 & [new E1] & Hrd) end.
    pose proof (wire_type_range msg) as Hwt.
    pose proof (write_tag_length f (wire_type msg) ltac:(lia) ltac:(lia)) as Htl.
    rewrite !app_length in *.
    destruct (Hrd dfuel (bs0 ++ rest) s) as (v' & s1 & Hdes & Hst & Hrel); [rewrite !app_length; lia|exact Hi|].
    destruct (Hcb done f t v more vals s a (wire_type msg) _ v' _ s1 eq_refl HI Hl Hdes) as (a1 & Hcb1 & HI1).
    match goal with H : written _ m1 bs0 m' |- _ => pose proof (written_memo _ _ _ _ _ _ H Hm1) as [_ [new' E']];
      destruct (IH (done ++ [(f, t, v)]) (vals ++ [v']) _ _ _ H) with (fuel := fuel) (rest := rest) (s := s1) (a := a1)
        as (vals' & s2 & a2 & Hrd2 & Hst2 & HI2 & Hrel2) end.
    + now rewrite <- app_assoc.
    + rewrite !app_length. cbn [length]. lia.
    + lia.
    + apply (st_inv _ _ _ _ _ Hst).
    + exact HI1.
    + exists (v' :: vals'), s2, a2. split; [|split; [|split]].
      * cbn [length Nat.add consume_fields]. rewrite <- !app_assoc. rewrite tag_roundtrip by lia. cbn [bind].
        destruct (Z.eqb_spec (wire_type msg) END_COMPOUND) as [Eq|_]; [unfold END_COMPOUND in Eq; lia|].
        rewrite Hcb1. cbn [bind]. exact Hrd2.
      * eapply step_trans; eauto.
      * now rewrite <- app_assoc in HI2.
      * constructor; [|exact Hrel2]. cbn [snd]. eapply val_rel_mono; [|exact Hrel]. intros. rewrite E'. now apply R_mono.
Qed.

(** Fields the callback discards. *)
Lemma consume_discard {A} (cb : Z -> Z -> bytes -> A -> result (bytes * A)) a items :
  Forall (fun it : Z * ty * val => forall w bs, cb (fst (fst it)) w bs a = bind (finishReadingMessageAndDiscard w bs) (fun bs => Ok (bs, a))) items ->
  forall m bs m' fuel rest, written items m bs m' -> (length items < fuel)%nat ->
  consume_fields cb fuel (bs ++ write_end_compound ++ rest) a = Ok (rest, a).
Proof.
  induction 1 as [|[[f t] v] items Hd Hds IH]; intros m bs m' fuel rest Hw Hf; inversion Hw; subst.
  - destruct fuel as [|fuel]; [lia|]. cbn [consume_fields app]. rewrite read_end. reflexivity.
  - match goal with H : good _ _ _ _ _ _ _ _ |- _ => destruct H as (msg & body & -> & He & _) end.
    pose proof (wire_type_range msg) as Hwt. cbn [length] in Hf. destruct fuel as [|fuel]; [lia|].
    cbn [consume_fields]. rewrite <- !app_assoc. rewrite tag_roundtrip by lia. cbn [bind].
    destruct (Z.eqb_spec (wire_type msg) END_COMPOUND) as [Eq|_]; [unfold END_COMPOUND in Eq; lia|].
    cbn [fst] in Hd. rewrite Hd, finish_discard_encodes by exact He. cbn [bind].
    eapply IH; [eassumption|lia].
Qed.

Lemma field_items_from ts : forall vs k, Forall (fun it : Z * ty * val => k <= fst (fst it)) (field_items k ts vs).
Proof.
  induction ts as [|t ts IH]; intros [|v vs] k; cbn [field_items]; try constructor; [cbn [fst]; lia|].
  eapply Forall_impl; [|apply IH]. cbv beta. intros. lia.
Qed.

(** The callback of CompositeType::deserialize for a reader with fields [rts]. *)
Definition tuple_callback (rts : list ty) (dfuel : nat) (field sub : Z) (bs : bytes) (a : list (option val) * rstate) :=
  let '(vs, s) := a in
  match (if field <? Z.of_nat (length rts) then nth_error rts (Z.to_nat field) else None) with
  | Some t => bind (des c dfuel t sub bs s) (fun '(v, bs, s) => Ok (bs, (set_nth (Z.to_nat field) (Some v) vs, s)))
  | None => bind (finishReadingMessageAndDiscard sub bs) (fun bs => Ok (bs, (vs, s)))
  end.

Lemma des_tuple rts fuel w bs s : des c (S fuel) (TTuple rts) w bs s =
  bind (consume (tuple_callback rts fuel) fuel w bs (repeat None (length rts), s)) (fun '(bs, (vs, s)) =>
  bind (fill_missing (default_value c (depth c)) rts vs s) (fun '(vs, s) => Ok (VTuple vs, bs, s))).
Proof. reflexivity. Qed.

(** What is read of a tuple with fields [com ++ dropped] by a reader with fields [com ++ added]. *)
Lemma consume_evolved com dropped added vs1 vs2 bs m' fuel rest s :
  dropped = [] \/ added = [] -> length com = length vs1 -> length dropped = length vs2 ->
  written (field_items 0 (com ++ dropped) (vs1 ++ vs2)) [] bs m' ->
  inv [] s -> (length bs + 1 + length rest < fuel)%nat ->
  exists vals s' m1,
    consume_fields (tuple_callback (com ++ added) fuel) fuel (bs ++ write_end_compound ++ rest) (repeat None (length (com ++ added)), s)
      = Ok (rest, (map Some vals ++ repeat None (length added), s')) /\
    step [] m1 s s' /\ memo_ok m1 /\ Forall2 (val_rel (R m1)) vs1 vals.
Proof.
  intros Hda Hl1 Hl2 Hw Hi Hfu.
  rewrite field_items_app in Hw by exact Hl1. apply written_app_inv in Hw. destruct Hw as (bs1 & bs2 & m1 & -> & Hw1 & Hw2).
  set (Inv := fun (done : list (Z * ty * val)) vals (s : rstate) (a : list (option val) * rstate) =>
     a = (map Some vals ++ repeat None (length (com ++ added) - length done), s)).
  assert (Hcb : forall done f t v more vals s a w bs v' bs' s',
     field_items 0 com vs1 = done ++ (f, t, v) :: more -> Inv done vals s a -> length vals = length done ->
     des c fuel t w bs s = Ok (v', bs', s') ->
     exists a', tuple_callback (com ++ added) fuel f w bs a = Ok (bs', a') /\ Inv (done ++ [(f, t, v)]) (vals ++ [v']) s' a').
  { intros done f0 t v more vals s1 a w bs' v' bs'' s' Hit HI Hl Hd. unfold Inv in HI. subst a. unfold tuple_callback.
    pose proof (nth_error_done _ _ _ _ Hit) as Hnth. apply field_items_nth in Hnth. destruct Hnth as [-> Hnth].
    assert (length done < length com)%nat by (apply nth_error_Some; congruence).
    apply (nth_error_app_l com added) in Hnth.
    destruct (Z.ltb_spec (0 + Z.of_nat (length done)) (Z.of_nat (length (com ++ added)))); [|rewrite app_length in *; lia].
    replace (Z.to_nat (0 + Z.of_nat (length done))) with (length done) by lia. rewrite Hnth, Hd. cbn [bind].
    eexists. split; [reflexivity|]. unfold Inv. f_equal. rewrite !app_length. cbn [length].
    replace (length com + length added - length done)%nat with (S (length com + length added - (length done + 1))) by lia. cbn [repeat].
    rewrite <- Hl at 1. rewrite <- (map_length Some vals), set_nth_app, map_app, <- app_assoc. reflexivity. }
  pose proof (written_length _ _ _ _ Hw1) as Hw1l. pose proof (written_length _ _ _ _ Hw2) as Hw2l.
  rewrite app_length in Hfu.
  destruct (consume_prefix (tuple_callback (com ++ added) fuel) fuel Inv (field_items 0 com vs1) Hcb
      (field_items 0 com vs1) [] [] _ _ _ Hw1 eq_refl eq_refl (fuel - length (field_items 0 com vs1)) (bs2 ++ write_end_compound ++ rest)
      s (repeat None (length (com ++ added)), s)) as (vals & s' & a' & H1 & H2 & H3 & H4).
  { rewrite !app_length, end_length. lia. }
  { exact Hi. }
  { unfold Inv. cbn [map app length]. now rewrite Nat.sub_0_r. }
  replace (length (field_items 0 com vs1) + (fuel - length (field_items 0 com vs1)))%nat with fuel in H1 by lia.
  unfold Inv in H3. cbn [app] in H3. rewrite field_items_length, app_length in H3 by exact Hl1.
  replace (length com + length added - length com)%nat with (length added) in H3 by lia. subst a'.
  exists vals, s', m1. split; [|split; [exact H2|split]].
  - rewrite <- app_assoc, H1. eapply consume_discard; [|exact Hw2|lia].
    destruct Hda as [->| ->]; [destruct vs2; [constructor|discriminate Hl2]|].
    eapply Forall_impl; [|apply field_items_from]. cbv beta. intros it Hit w bs. unfold tuple_callback.
    rewrite app_nil_r. destruct (Z.ltb_spec (fst (fst it)) (Z.of_nat (length com))); [lia|reflexivity].
  - apply (written_memo _ _ _ _ _ _ Hw1). split; constructor.
  - eapply field_rel; eauto.
Qed.

Lemma same_graph_of_step m1 s' v v' : memo_ok m1 -> step [] m1 {| cached := []; rheap := [] |} s' ->
  val_rel (R m1) v v' -> same_graph h v (rheap s') v'.
Proof.
  intros [Hnd _] [_ [_ Hlen] _ Hobj] H3. exists (R m1). split; [|split; [|split; [|split; [exact H3|]]]].
  - unfold R. intros p q1 q2 A B. rewrite NoDup_nth_error in Hnd. apply Hnd; [apply nth_error_Some; congruence|congruence].
  - unfold R. intros. congruence.
  - intros q Hq. unfold R. rewrite Hlen in Hq. destruct (nth_error m1 q) as [p|] eqn:Eq; [now exists p|].
    apply nth_error_None in Eq. lia.
  - intros p q Hpq. apply Hobj; [cbn [length]; lia|exact Hpq].
Qed.

Theorem tuple_evolution com dropped added vs1 vs2 fuel bs rest :
  dropped = [] \/ added = [] -> length com = length vs1 ->
  has_type c S0 (TTuple (com ++ dropped)) (VTuple (vs1 ++ vs2)) ->
  forallb (default_constructible c (depth c)) added = true ->
  serialize c fuel h (TTuple (com ++ dropped)) (VTuple (vs1 ++ vs2)) = Ok bs ->
  exists vs1' ds h1 new,
    deserialize c (TTuple (com ++ added)) (bs ++ rest) = Ok (VTuple (vs1' ++ ds), rest, h1 ++ new) /\
    same_graph h (VTuple vs1) h1 (VTuple vs1') /\
    Forall2 (default_of c (h1 ++ new)) added ds /\ (added = [] -> new = []).
Proof.
  intros Hda Hl1 Ht Hdef H. inversion Ht as [| | | | | | | | |ts vs Hvs Hlen E1 E2| | | | | | |]; subst.
  assert (Hll := Forall2_length _ _ _ Hvs). rewrite !app_length in Hll.
  unfold serialize in H. destruct (ser c h fuel _ _ 0 []) as [[bs0 m']|] eqn:E; cbn [bind] in H; [|discriminate].
  injection H as ->. destruct fuel as [|fuel]; [discriminate|]. cbn [ser resolve] in E.
  destruct (ser_fields _ _ _ _ _) as [[body m1]|] eqn:Ef; cbn [bind] in E; [|discriminate].
  assert (Hw : written (field_items 0 (com ++ dropped) (vs1 ++ vs2)) [] body m1).
  { eapply fields_written; [|lia|lia|apply memo_nil|exact Ef].
    eapply Forall2_impl'; [|exact Hvs]. cbv beta. intros. eapply ser_good; eauto. }
  set (s0 := {| cached := []; rheap := [] |}).
  assert (Hi0 : inv [] s0) by (split; reflexivity).
  (* the result of reading, from the state after the fields *)
  assert (Hfin : forall vals s' m2 w bs', step [] m2 s0 s' -> memo_ok m2 -> Forall2 (val_rel (R m2)) vs1 vals ->
     consume (tuple_callback (com ++ added) (length (bs ++ rest))) (length (bs ++ rest)) w bs' (repeat None (length (com ++ added)), s0)
       = Ok (rest, (map Some vals ++ repeat None (length added), s')) ->
     read_tag (bs ++ rest) = Ok (0, w, bs') ->
     exists vs1' ds h1 new,
       deserialize c (TTuple (com ++ added)) (bs ++ rest) = Ok (VTuple (vs1' ++ ds), rest, h1 ++ new) /\
       same_graph h (VTuple vs1) h1 (VTuple vs1') /\
       Forall2 (default_of c (h1 ++ new)) added ds /\ (added = [] -> new = [])).
  { intros vals s' m2 w bs' Hst Hm2 Hrel Hcons Htag.
    destruct (default_fields_ok c (depth c) (default_value c (depth c)) (default_value_ok c (depth c)) added s' Hdef)
      as (ds & s2 & Ed & [_ [new En]] & Hd).
    exists vals, ds, (rheap s'), new. split; [|split].
    - unfold deserialize. rewrite Htag. cbn [bind]. rewrite des_tuple. fold s0. rewrite Hcons. cbn [bind].
      rewrite fill_prefix by (symmetry; rewrite Hl1; eapply Forall2_length; eauto). rewrite Ed. cbn [bind]. now rewrite En.
    - eapply same_graph_of_step; [exact Hm2|exact Hst|now constructor].
    - split; [now rewrite <- En|]. intros ->. cbn [default_fields] in Ed. apply Ok_pair in Ed. destruct Ed as [_ <-].
      apply (f_equal (@length obj)) in En. rewrite app_length in En. destruct new; [reflexivity|cbn [length] in En; lia]. }
  assert (Hcase : (com ++ dropped = [] /\ bs = write_empty 0) \/ (exists t0, com ++ dropped = [t0] /\ bs = write_begin_single 0 ++ body) \/
      bs = write_begin_compound 0 ++ body ++ write_end_compound).
  { destruct (com ++ dropped) as [|t0 [|t1 l]]; apply Ok_pair in E; destruct E as [<- _].
    - now left.
    - right. left. now exists t0.
    - now right; right. }
  destruct Hcase as [[E0 ->]|[[t0 [E0 ->]]| ->]].
  - (* no fields written *)
    apply app_eq_nil in E0. destruct E0 as [-> ->]. destruct vs1; [|discriminate].
    apply (Hfin [] s0 [] EMPTY rest); [now apply step_refl|apply memo_nil|constructor|reflexivity|].
    unfold write_empty. apply tag_roundtrip; unfold EMPTY; lia.
  - (* one field written *)
    unfold write_begin_single in *.
    pose proof (write_tag_length 0 SINGLE ltac:(lia) ltac:(unfold SINGLE; lia)) as Htl.
    destruct com as [|tc com].
    + (* it is dropped *)
      cbn [app] in E0. subst dropped. destruct Hda as [Hda| ->]; [discriminate|]. destruct vs1; [|discriminate].
      destruct vs2 as [|v2 [|]]; cbn [length] in Hll; try lia. cbn [app field_items] in Hw.
      inversion Hw as [|? ? ? ? ? ? ? ? ? Hf0 Hg Hw']; subst. inversion Hw'; subst.
      destruct Hg as (msg & body' & -> & He & _). pose proof (wire_type_range msg) as Hwt. repeat rewrite app_nil_r in *.
      eapply (Hfin [] s0 [] SINGLE); [now apply step_refl|apply memo_nil|constructor| |
        rewrite <- app_assoc; apply tag_roundtrip; unfold SINGLE; lia].
      unfold consume. cbn [Z.eqb EMPTY SINGLE Pos.eqb]. rewrite <- app_assoc, tag_roundtrip by lia. cbn [bind].
      unfold tuple_callback. cbn [app length Z.of_nat]. change (0 <? 0) with false. cbv iota.
      rewrite finish_discard_encodes by exact He. reflexivity.
    + (* it is read *)
      cbn [app] in E0. injection E0 as -> E0. apply app_eq_nil in E0. destruct E0 as [-> ->].
      destruct vs1 as [|v1 [|]]; cbn [length] in Hl1; try discriminate. destruct vs2; cbn [length] in Hll; try lia.
      cbn [app field_items] in Hw. inversion Hw as [|? ? ? ? ? ? ? ? ? Hf0 Hg Hw']; subst. inversion Hw'; subst.
      destruct Hg as (msg & body' & -> & He & Hm1 & _ & Hrd). pose proof (wire_type_range msg) as Hwt. repeat rewrite app_nil_r in *.
      pose proof (write_tag_length 0 (wire_type msg) ltac:(lia) ltac:(lia)) as Htl'.
      destruct (Hrd (length ((write_tag 0 SINGLE ++ write_tag 0 (wire_type msg) ++ body') ++ rest)) rest s0)
        as (v' & s' & H1 & H2 & H3); [rewrite !app_length; lia|exact Hi0|].
      eapply (Hfin [v'] s' m1 SINGLE); [exact H2|exact Hm1|constructor; [exact H3|constructor]| |
        rewrite <- app_assoc; apply tag_roundtrip; unfold SINGLE; lia].
      unfold consume. cbn [Z.eqb EMPTY SINGLE Pos.eqb]. rewrite <- (app_assoc (write_tag 0 (wire_type msg))), tag_roundtrip by lia. cbn [bind].
      unfold tuple_callback at 1. cbn [app length].
      destruct (Z.ltb_spec 0 (Z.of_nat (S (length added)))); [|lia]. cbn [Z.to_nat nth_error].
      change 5 with SINGLE in *. fold s0. rewrite H1. cbn [bind repeat set_nth map app]. reflexivity.
  - (* several fields written *)
    unfold write_begin_compound in *.
    pose proof (write_tag_length 0 BEGIN_COMPOUND ltac:(lia) ltac:(unfold BEGIN_COMPOUND; lia)) as Htl.
    set (n := length ((write_tag 0 BEGIN_COMPOUND ++ body ++ write_end_compound) ++ rest)) in *.
    destruct (consume_evolved com dropped added vs1 vs2 body m1 n rest s0) as (vals & s' & m2 & H1 & H2 & H3 & H4);
      [exact Hda|exact Hl1|lia|exact Hw|exact Hi0|unfold n; rewrite !app_length, end_length; lia|].
    apply (Hfin vals s' m2 BEGIN_COMPOUND (body ++ write_end_compound ++ rest)); [exact H2|exact H3|exact H4|exact H1|].
    rewrite <- !app_assoc. apply tag_roundtrip; unfold BEGIN_COMPOUND; lia.
Qed.

End Evolution.
