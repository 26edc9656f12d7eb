(** The round trip of whole object graphs. *)
From Verif Require Import Base Wire_Model Wire_Spec Wire_Proofs Serial_Model Serial_Spec
  Serial_Data_Proofs Serial_Proofs.
From Coq Require Import ZifyBool ZifyNat.
Ltac Zify.zify_post_hook ::= Z.div_mod_to_equations.
Open Scope Z_scope.

Lemma Ok_pair {A B} (a a' : A) (b b' : B) : Ok (a, b) = Ok (a', b') -> a = a' /\ b = b'.
Proof. intros H. injection H. auto. Qed.

(** ** Pointers, memos and heaps *)

Lemma memo_find_some p m i : memo_find p m = Some i -> nth_error m i = Some p.
Proof.
  revert i. induction m as [|q m IH]; intros i H; cbn [memo_find] in H; [discriminate|].
  destruct (Nat.eqb_spec p q).
  - injection H as <-. subst. reflexivity.
  - destruct (memo_find p m) as [j|]; [|discriminate]. injection H as <-. cbn [nth_error]. now apply IH.
Qed.

Lemma memo_find_none p m : memo_find p m = None -> ~ In p m.
Proof.
  induction m as [|q m IH]; intros H; cbn [memo_find] in H; [intros []|].
  destruct (Nat.eqb_spec p q); [discriminate|].
  destruct (memo_find p m) as [j|]; [discriminate|]. intros [E|E]; [congruence|]. now apply IH.
Qed.

Lemma nth_error_app_l {A} (l l' : list A) n x : nth_error l n = Some x -> nth_error (l ++ l') n = Some x.
Proof.
  intros H. rewrite nth_error_app1; [exact H|]. apply nth_error_Some. congruence.
Qed.

Lemma set_nth_length {A} (x : A) l : forall n, length (set_nth n x l) = length l.
Proof. induction l as [|y l IH]; intros [|n]; cbn [set_nth length]; auto. Qed.

Lemma set_nth_app {A} (x y : A) l r : set_nth (length l) x (l ++ y :: r) = l ++ x :: r.
Proof. induction l as [|z l IH]; [reflexivity|]. cbn [length app set_nth]. now rewrite IH. Qed.

Lemma nth_error_app_mid {A} (l r : list A) x : nth_error (l ++ x :: r) (length l) = Some x.
Proof. induction l as [|y l IH]; [reflexivity|]. exact IH. Qed.

Section Graph.
Variable c : context.
Variable S0 : list ty.
Variable h : heap.
Hypothesis Hc : context_ok c.
Hypothesis Hh : heap_has_types c S0 h.

(** The reader numbers the objects exactly as the writer met them. *)
Definition R (m : memo) (p q : nat) : Prop := nth_error m q = Some p.

Definition memo_ok (m : memo) : Prop := NoDup m /\ Forall (fun p => (p < length h)%nat) m.

Definition inv (m : memo) (s : rstate) : Prop :=
  cached s = map Some (seq 0 (length m)) /\ length (rheap s) = length m.

Definition objects_ok (m : memo) (from : nat) (s : rstate) : Prop :=
  forall q p, (from <= q)%nat -> nth_error m q = Some p ->
    exists o o', nth_error h p = Some o /\ nth_error (rheap s) q = Some o' /\ obj_rel (R m) o o'.

(** From memo [m] and state [s] the reader got to [m'] and [s']. *)
Record step (m m' : memo) (s s' : rstate) : Prop := {
  st_ext : exists new, m' = m ++ new;
  st_inv : inv m' s';
  st_heap : exists e, rheap s' = rheap s ++ e;
  st_new : objects_ok m' (length m) s'
}.

Lemma R_mono m new p q : R m p q -> R (m ++ new) p q.
Proof. apply nth_error_app_l. Qed.

Lemma step_refl m s : inv m s -> step m m s s.
Proof.
  intros H. split; [exists []; now rewrite app_nil_r|exact H|exists []; now rewrite app_nil_r|].
  intros q p Hq Hn. exfalso. assert (nth_error m q <> None) by congruence. apply nth_error_Some in H0. lia.
Qed.

Lemma step_trans m1 m2 m3 s1 s2 s3 : step m1 m2 s1 s2 -> step m2 m3 s2 s3 -> step m1 m3 s1 s3.
Proof.
  intros [[n1 E1] I1 [e1 H1] O1] [[n2 E2] I2 [e2 H2] O2]. split.
  - exists (n1 ++ n2). subst. now rewrite app_assoc.
  - exact I2.
  - exists (e1 ++ e2). rewrite H2, H1. now rewrite app_assoc.
  - intros q p Hq Hn. destruct (Nat.lt_ge_cases q (length m2)) as [Hlt|Hge].
    + rewrite E2 in Hn. rewrite nth_error_app1 in Hn by exact Hlt.
      destruct (O1 q p Hq Hn) as (o & o' & A & B & C). exists o, o'. repeat split; [exact A| |].
      * rewrite H2. now apply nth_error_app_l.
      * eapply obj_rel_mono; [|exact C]. intros. rewrite E2. now apply R_mono.
    + now apply O2.
Qed.

(** ** One message *)

(** [good t v f m bs m']: the bytes [bs] are a well-formed message with field number [f], and
    reading them at type [t] gives back [v]. *)
Definition good (t : ty) (v : val) (f : Z) (m : memo) (bs : bytes) (m' : memo) : Prop :=
  exists msg body,
    bs = write_tag f (wire_type msg) ++ body /\ encodes msg body /\ memo_ok m' /\ (exists new, m' = m ++ new) /\
    forall fuel rest s, (length body + length rest < fuel)%nat -> inv m s ->
      exists v' s', des c fuel t (wire_type msg) (body ++ rest) s = Ok (v', rest, s') /\
        step m m' s s' /\ val_rel (R m') v v'.

(** A run of consecutive messages: field number, type and value of each. *)
Inductive written : list (Z * ty * val) -> memo -> bytes -> memo -> Prop :=
| w_nil m : written [] m [] m
| w_cons f t v items m b m1 bs m2 :
    0 <= f < 2 ^ 61 -> good t v f m b m1 -> written items m1 bs m2 ->
    written ((f, t, v) :: items) m (b ++ bs) m2.

Lemma written_memo items m bs m' : written items m bs m' -> memo_ok m -> memo_ok m' /\ exists new, m' = m ++ new.
Proof.
  induction 1 as [m|f t v items m b m1 bs m2 Hf Hg Hw IH]; intros Hm; [split; [exact Hm|exists []; now rewrite app_nil_r]|].
  destruct Hg as (msg & body & -> & He & Hm1 & [n1 E1] & _). destruct (IH Hm1) as [Hm2 [n2 E2]].
  split; [exact Hm2|]. exists (n1 ++ n2). subst. now rewrite app_assoc.
Qed.

Lemma written_encodes items m bs m' : written items m bs m' ->
  exists fs, forall fs' bs', encodes_fields fs' bs' -> encodes_fields (fs ++ fs') (bs ++ bs').
Proof.
  induction 1 as [m|f t v items m b m1 bs m2 Hf Hg Hw IH]; [exists []; auto|].
  destruct Hg as (msg & body & -> & He & _). destruct IH as [fs IH].
  exists ((f, msg) :: fs). intros fs' bs' H'. rewrite <- !app_assoc. cbn [app].
  constructor; [lia| |exact He|apply IH, H'].
  apply write_tag_varint64; [exact Hf|]. pose proof (wire_type_range msg). lia.
Qed.

Lemma write_tag_length f w : 0 <= f < 2 ^ 61 -> 0 <= w < 8 -> (1 <= length (write_tag f w))%nat.
Proof. intros. eapply varint64_length, write_tag_varint64; lia. Qed.

Lemma write_uvarint_length n : 0 <= n < 2 ^ 64 -> (1 <= length (write_uvarint n))%nat.
Proof. intros. eapply varint64_length, write_uvarint_varint64; lia. Qed.

Lemma read_end rest : read_tag (write_end_compound ++ rest) = Ok (0, END_COMPOUND, rest).
Proof. apply read_tag_varint64; [unfold END_COMPOUND; lia|]. apply write_uvarint_varint64. unfold END_COMPOUND. lia. Qed.

Lemma encodes_end : encodes_fields [] write_end_compound.
Proof. apply (enc_end 0); [lia|]. apply write_uvarint_varint64. unfold END_COMPOUND. lia. Qed.

Lemma end_length : length write_end_compound = 1%nat.
Proof. reflexivity. Qed.

Lemma finish_end rest : finish_compound BEGIN_COMPOUND (write_end_compound ++ rest) = Ok rest.
Proof.
  unfold finish_compound. cbn [Z.eqb EMPTY SINGLE BEGIN_COMPOUND orb].
  unfold readMessageAndDiscard. rewrite read_end. cbn [bind].
  unfold finishReadingMessageAndDiscard, enough. rewrite Nat.add_comm. cbn [Nat.add discard].
  reflexivity.
Qed.

(** Elements of a list. *)
Lemma read_written e vs : forall m bs m', written (map (fun v => (0, e, v)) vs) m bs m' ->
  forall dfuel fuel rest s, (length bs + length rest <= dfuel)%nat -> (length bs + length rest <= fuel)%nat -> inv m s ->
  exists vs' s', read_elements (des c dfuel e) fuel (Z.of_nat (length vs)) (bs ++ rest) s = Ok (vs', rest, s') /\
    step m m' s s' /\ Forall2 (val_rel (R m')) vs vs'.
Proof.
  induction vs as [|v vs IH]; intros m bs m' Hw dfuel fuel rest s Hd Hf Hi; cbn [map] in Hw; inversion Hw; subst.
  - exists [], s. split; [destruct fuel; reflexivity|]. split; [now apply step_refl|constructor].
  - match goal with H : good _ _ _ _ _ _ |- _ => destruct H as (msg & body & -> & He & Hm1 & [new E1] & Hrd) end.
    pose proof (wire_type_range msg) as Hwt.
    pose proof (write_tag_length 0 (wire_type msg) ltac:(lia) ltac:(lia)) as Htl.
    rewrite !app_length in *. destruct fuel as [|fuel]; [lia|].
    destruct (Hrd dfuel (bs0 ++ rest) s) as (v' & s1 & Hdes & Hst & Hrel); [rewrite app_length; lia|exact Hi|].
    match goal with H : written _ m1 bs0 m' |- _ => pose proof (written_memo _ _ _ _ H Hm1) as [_ [new' E']];
      destruct (IH _ _ _ H dfuel fuel rest s1 ltac:(lia) ltac:(lia) (st_inv _ _ _ _ Hst)) as (vs' & s2 & Hrd2 & Hst2 & Hrel2) end.
    exists (v' :: vs'), s2. split; [|split].
    + cbn [read_elements length]. destruct (Z.eqb_spec (Z.of_nat (Datatypes.S (length vs))) 0); [lia|].
      rewrite <- !app_assoc. rewrite tag_roundtrip by lia. cbn [bind negb Z.eqb].
      destruct (Z.eqb_spec (wire_type msg) END_COMPOUND) as [Eq|_]; [unfold END_COMPOUND in Eq; lia|].
      rewrite Hdes. cbn [bind].
      replace (Z.of_nat (Datatypes.S (length vs)) - 1) with (Z.of_nat (length vs)) by lia.
      rewrite Hrd2. reflexivity.
    + eapply step_trans; eauto.
    + constructor; [|exact Hrel2]. eapply val_rel_mono; [|exact Hrel]. intros. rewrite E'. now apply R_mono.
Qed.

(** Messages consumed by a callback up to the end marker.  [Inv done vals s a] relates what
    has been consumed so far, the values read, the reader's state and the callback's. *)
Lemma consume_written {A} (cb : Z -> Z -> bytes -> A -> result (bytes * A)) dfuel
    (Inv : list (Z * ty * val) -> list val -> rstate -> A -> Prop) items :
  (forall done f t v more vals s a w bs v' bs' s',
     items = done ++ (f, t, v) :: more -> Inv done vals s a -> length vals = length done ->
     des c dfuel t w bs s = Ok (v', bs', s') ->
     exists a', cb f w bs a = Ok (bs', a') /\ Inv (done ++ [(f, t, v)]) (vals ++ [v']) s' a') ->
  forall more done vals m bs m', written more m bs m' -> items = done ++ more -> length vals = length done ->
  forall fuel rest s a, (length bs + length rest < dfuel)%nat -> (length bs + length rest < fuel)%nat ->
    inv m s -> Inv done vals s a ->
  exists vals' s' a',
    consume_fields cb fuel (bs ++ write_end_compound ++ rest) a = Ok (rest, a') /\
    step m m' s s' /\ Inv items (vals ++ vals') s' a' /\
    Forall2 (fun it v' => val_rel (R m') (snd it) v') more vals'.
Proof.
  intros Hcb. induction more as [|[[f t] v] more IH]; intros done vals m bs m' Hw Hit Hl fuel rest s a Hd Hf Hi HI;
    inversion Hw; subst.
  - exists [], s, a. destruct fuel as [|fuel]; [lia|]. cbn [consume_fields app]. rewrite read_end. cbn [bind].
    cbn [Z.eqb END_COMPOUND Pos.eqb]. split; [reflexivity|]. split; [now apply step_refl|].
    rewrite !app_nil_r. split; [exact HI|constructor].
  - match goal with H : good _ _ _ _ _ _ |- _ => destruct H as (msg & body & -> & He & Hm1 & [new E1] & Hrd) end.
    pose proof (wire_type_range msg) as Hwt.
    pose proof (write_tag_length f (wire_type msg) ltac:(lia) ltac:(lia)) as Htl.
    rewrite !app_length in *. destruct fuel as [|fuel]; [lia|].
    destruct (Hrd dfuel (bs0 ++ write_end_compound ++ rest) s) as (v' & s1 & Hdes & Hst & Hrel);
      [rewrite !app_length, end_length; lia|exact Hi|].
    destruct (Hcb done f t v more vals s a (wire_type msg) _ v' _ s1 eq_refl HI Hl Hdes) as (a1 & Hcb1 & HI1).
    match goal with H : written _ m1 bs0 m' |- _ => pose proof (written_memo _ _ _ _ H Hm1) as [_ [new' E']];
      destruct (IH (done ++ [(f, t, v)]) (vals ++ [v']) _ _ _ H) with (fuel := fuel) (rest := rest) (s := s1) (a := a1)
        as (vals' & s2 & a2 & Hrd2 & Hst2 & HI2 & Hrel2) end.
    + now rewrite <- app_assoc.
    + rewrite !app_length. cbn [length]. lia.
    + lia.
    + lia.
    + apply (st_inv _ _ _ _ Hst).
    + exact HI1.
    + exists (v' :: vals'), s2, a2. split; [|split; [|split]].
      * cbn [consume_fields]. rewrite <- !app_assoc. rewrite tag_roundtrip by lia. cbn [bind].
        destruct (Z.eqb_spec (wire_type msg) END_COMPOUND) as [Eq|_]; [unfold END_COMPOUND in Eq; lia|].
        rewrite Hcb1. cbn [bind]. exact Hrd2.
      * eapply step_trans; eauto.
      * now rewrite <- app_assoc in HI2.
      * constructor; [|exact Hrel2]. cbn [snd]. eapply val_rel_mono; [|exact Hrel]. intros. rewrite E'. now apply R_mono.
Qed.

(** ** The body of a list *)

Definition writes (one : val -> memo -> result (bytes * memo)) (e : ty) (vs : list val) : Prop :=
  Forall (fun v => forall m bs m', memo_ok m -> one v m = Ok (bs, m') -> good e v 0 m bs m') vs.

Lemma ser_all_written one e vs : writes one e vs -> forall m bs m', memo_ok m ->
  ser_all one vs m = Ok (bs, m') -> written (map (fun v => (0, e, v)) vs) m bs m'.
Proof.
  induction 1 as [|v vs Hv Hvs IH]; intros m bs m' Hm H; cbn [ser_all] in H.
  - apply Ok_pair in H; destruct H as [<- <-]. constructor.
  - destruct (one v m) as [[b m1]|] eqn:E1; cbn [bind] in H; [|discriminate].
    destruct (ser_all one vs m1) as [[bs1 m2]|] eqn:E2; cbn [bind] in H; [|discriminate].
    apply Ok_pair in H; destruct H as [<- <-]. pose proof (Hv _ _ _ Hm E1) as Hg.
    cbn [map]. econstructor; [lia|exact Hg|]. apply IH; [|exact E2].
    destruct Hg as (? & ? & _ & _ & Hm1 & _). exact Hm1.
Qed.

Lemma as_ints_ok vs : Forall (has_type c S0 (TInt true 8)) vs ->
  exists zs, as_ints vs = Ok zs /\ Forall int64 zs /\ vs = map VInt zs.
Proof.
  induction 1 as [|v vs Hv Hvs IH]; [exists []; repeat split; constructor|].
  destruct IH as (zs & E & F & ->). inversion Hv; subst. exists (z :: zs). cbn [as_ints as_int bind]. rewrite E. cbn [bind].
  repeat split. constructor; [|exact F]. unfold int64. exact H1.
Qed.

Lemma repeat_zero_size t vs : bytecount t = 0%nat -> Forall (has_type c S0 t) vs ->
  vs = repeat (zero_size_value t) (length vs).
Proof.
  intros Hb. induction 1 as [|v vs Hv Hvs IH]; [reflexivity|]. cbn [length repeat].
  destruct (zero_size c S0 t Hb v Hv) as [-> _]. now rewrite <- IH.
Qed.

Lemma pod_trees m t vs : is_pod t = true -> Forall (has_type c S0 t) vs -> Forall2 (val_rel (R m)) vs vs.
Proof.
  intros Hp. induction 1 as [|v vs Hv Hvs IH]; constructor; [|exact IH].
  apply tree_rel. now apply (raw_ok c S0 Hc t Hp v Hv).
Qed.

Lemma list_body one e vs m body m' :
  Forall (has_type c S0 e) vs -> Z.of_nat (length vs) < 2 ^ 31 -> Z.of_nat (bytecount e) < 2 ^ 31 ->
  writes one e vs -> memo_ok m -> ser_elements c one e vs m = Ok (body, m') ->
  (exists fs, encodes_fields fs body) /\ memo_ok m' /\ (exists new, m' = m ++ new) /\
  forall fuel rest enter s s1, (length body + length rest <= fuel)%nat ->
    enter s = Ok s1 -> inv m s1 ->
    exists vs' s', read_list_body fuel BEGIN_COMPOUND e (des c fuel e) enter (body ++ rest) s = Ok (vs', rest, s') /\
      step m m' s1 s' /\ Forall2 (val_rel (R m')) vs vs'.
Proof.
  intros Hvs Hlen Hsz Hone Hm H. unfold ser_elements in H.
  destruct ((negb (Z.of_nat (length vs) =? 0) && is_pod e && inline_pod c)%bool) eqn:Einl.
  - apply andb_prop in Einl. destruct Einl as [Einl _]. apply andb_prop in Einl. destruct Einl as [Hne Hpod].
    apply negb_true_iff, Z.eqb_neq in Hne.
    destruct (Nat.eqb_spec (bytecount e) 0) as [Hz|Hz].
    + (* elements without data *)
      cbn [bind] in H. apply Ok_pair in H; destruct H as [<- <-]. split; [|split; [|split]].
      * eexists [(3, MVarint (Z.of_nat (length vs)))]. unfold write_uvarint_object. rewrite <- !app_assoc.
        constructor; [lia| | |apply encodes_end].
        -- apply write_tag_varint64; unfold VARINT; lia.
        -- constructor. apply write_uvarint_varint64. lia.
      * exact Hm.
      * exists []. now rewrite app_nil_r.
      * intros fuel rest enter s s1 Hf He Hi. exists vs, s1. split; [|split; [now apply step_refl|now apply pod_trees with e]].
        unfold read_list_body, write_uvarint_object. rewrite <- !app_assoc.
        rewrite tag_roundtrip by (unfold VARINT; lia). cbn [bind]. rewrite uvarint_roundtrip by lia. cbn [bind].
        apply Z.eqb_neq in Hne. rewrite Hne. cbn [Z.eqb Pos.eqb]. rewrite Hpod. apply Nat.eqb_eq in Hz as Hz'. rewrite Hz'.
        cbn [negb orb]. rewrite He. cbn [bind]. rewrite finish_end. cbn [bind].
        rewrite Nat2Z.id, <- repeat_zero_size by assumption. reflexivity.
    + destruct (match e with TInt true 8 => true | _ => false end) eqn:E64.
      * (* blocks of integers *)
        destruct e; try discriminate E64. destruct signed; [|discriminate E64].
        do 9 (destruct size as [|size]; try discriminate E64). clear E64.
        destruct (as_ints_ok vs Hvs) as (zs & Ez & Fz & ->). rewrite Ez in H. cbn [bind] in H.
        destruct (serialize_int_list_blocks (length zs) zs Fz (le_n _)) as (fs & bs & Es & Hb).
        rewrite Es in H. cbn [bind] in H. apply Ok_pair in H; destruct H as [<- <-]. rewrite map_length in *. split; [|split; [|split]].
        -- exists ((1, MVarint (Z.of_nat (length zs))) :: fs ++ []). unfold write_uvarint_object. rewrite <- !app_assoc.
           constructor; [lia| | |].
           ++ apply write_tag_varint64; unfold VARINT; lia.
           ++ constructor. apply write_uvarint_varint64. lia.
           ++ eapply int_blocks_encodes; [exact Hb|apply encodes_end].
        -- exact Hm.
        -- exists []. now rewrite app_nil_r.
        -- intros fuel rest enter s s1 Hf He Hi. exists (map VInt zs), s1.
           split; [|split; [now apply step_refl|now apply pod_trees with (TInt true 8)]].
           unfold read_list_body, write_uvarint_object. rewrite <- !app_assoc.
           rewrite tag_roundtrip by (unfold VARINT; lia). cbn [bind]. rewrite uvarint_roundtrip by lia. cbn [bind].
           apply Z.eqb_neq in Hne. rewrite Hne. cbn [Z.eqb Pos.eqb]. rewrite He. cbn [bind].
           rewrite (int_blocks_read _ _ _ Hb).
           ++ cbn [bind]. rewrite finish_end. reflexivity.
           ++ rewrite !app_length in Hf. lia.
      * (* raw memory *)
        assert (H' : Ok (write_begin_bytes 2 (Z.of_nat (bytecount e) * Z.of_nat (length vs)) ++ concat (map (raw c e) vs)
                    ++ write_end_compound, m) = Ok (body, m')).
        { rewrite app_assoc. destruct e; try exact H. destruct signed; [|exact H].
          do 9 (destruct size as [|size]; try exact H). discriminate E64. }
        clear H E64. apply Ok_pair in H'; destruct H' as [<- <-].
        destruct (raws_ok c S0 Hc e vs Hpod Hvs) as [Hrl Hro].
        assert (Hprod : 0 <= Z.of_nat (bytecount e) * Z.of_nat (length vs) < 2 ^ 64) by nia.
        split; [|split; [|split]].
        -- eexists [(2, MBytes (concat (map (raw c e) vs)))]. unfold write_begin_bytes. rewrite <- !app_assoc.
           rewrite (app_assoc (write_uvarint _)). constructor; [lia| | |apply encodes_end].
           ++ apply write_tag_varint64; unfold BYTES; lia.
           ++ constructor. rewrite Hrl. rewrite Nat2Z.inj_mul, Z.mul_comm. now apply write_uvarint_varint64.
        -- exact Hm.
        -- exists []. now rewrite app_nil_r.
        -- intros fuel rest enter s s1 Hf He Hi. exists vs, s1. split; [|split; [now apply step_refl|now apply pod_trees with e]].
           unfold read_list_body, write_begin_bytes. rewrite <- !app_assoc.
           rewrite tag_roundtrip by (unfold BYTES; lia). cbn [bind]. rewrite uvarint_roundtrip by exact Hprod. cbn [bind].
           destruct (Z.eqb_spec (Z.of_nat (bytecount e) * Z.of_nat (length vs)) 0); [lia|]. cbn [Z.eqb Pos.eqb].
           rewrite Hpod. cbn [negb]. apply Nat.eqb_neq in Hz as Hz'. rewrite Hz'.
           replace (Z.of_nat (bytecount e) * Z.of_nat (length vs) / Z.of_nat (bytecount e)) with (Z.of_nat (length vs))
             by (rewrite Z.mul_comm, Z.div_mul; lia).
           rewrite (Z.mul_comm (Z.of_nat (length vs))), Z.eqb_refl. cbn [negb]. rewrite He. cbn [bind].
           rewrite read_bytes_app by (rewrite Hrl; lia). cbn [bind].
           rewrite Nat2Z.id, Hro. cbn [bind]. rewrite finish_end. reflexivity.
  - (* one message per element *)
    clear Einl. destruct (ser_all one vs m) as [[bs m1]|] eqn:Ea; cbn [bind] in H; [|discriminate].
    apply Ok_pair in H; destruct H as [<- <-]. pose proof (ser_all_written one e vs Hone _ _ _ Hm Ea) as Hw.
    destruct (written_memo _ _ _ _ Hw Hm) as [Hm1 Hext]. split; [|split; [exact Hm1|split; [exact Hext|]]].
    + destruct (written_encodes _ _ _ _ Hw) as [fs Hfs].
      exists ((0, MVarint (Z.of_nat (length vs))) :: fs ++ []). unfold write_uvarint_object. rewrite <- !app_assoc.
      constructor; [lia| | |].
      * apply write_tag_varint64; unfold VARINT; lia.
      * constructor. apply write_uvarint_varint64. lia.
      * apply Hfs, encodes_end.
    + intros fuel rest enter s s1 Hf He Hi.
      destruct (read_written e vs _ _ _ Hw fuel fuel (write_end_compound ++ rest) s1) as (vs' & s' & Hrd & Hst & Hrel).
      * rewrite !app_length in *. lia.
      * rewrite !app_length in *. lia.
      * exact Hi.
      * exists vs', s'. split; [|split; assumption].
        unfold read_list_body, write_uvarint_object. rewrite <- !app_assoc.
        rewrite tag_roundtrip by (unfold VARINT; lia). cbn [bind]. rewrite uvarint_roundtrip by lia. cbn [bind].
        cbn [Z.eqb negb]. destruct (Z.eqb_spec (Z.of_nat (length vs)) 0) as [E0|E0].
        -- destruct vs; [|cbn [length] in E0; lia]. cbn [map] in Hw. inversion Hw; subst.
           cbn [length read_elements Z.of_nat app] in Hrd.
           assert (Hnil : read_elements (des c fuel e) fuel 0 (write_end_compound ++ rest) s1 = Ok ([], write_end_compound ++ rest, s1))
             by (destruct fuel; reflexivity).
           rewrite Hnil in Hrd. injection Hrd as <- <-. rewrite He. cbn [bind app]. rewrite finish_end. reflexivity.
        -- rewrite He. cbn [bind]. rewrite Hrd. cbn [bind]. rewrite finish_end. reflexivity.
Qed.

End Graph.
