(** Serializing a well-typed value always succeeds, and the top-level round trip. *)
From Verif Require Import Base Wire_Model Wire_Spec Wire_Proofs Serial_Model Serial_Spec
  Serial_Data_Proofs Serial_Proofs Serial_Graph_Proofs Serial_Roundtrip_Proofs.
From Coq Require Import ZifyBool ZifyNat.
Ltac Zify.zify_post_hook ::= Z.div_mod_to_equations.
Open Scope Z_scope.

(** ** More fuel changes nothing *)

Definition le_fun {A B M} (one one' : A -> M -> result B) : Prop :=
  forall x m r, one x m = Ok r -> one' x m = Ok r.

Lemma ser_all_mono {M A} (one one' : A -> M -> result (bytes * M)) : le_fun one one' ->
  forall vs m r, ser_all one vs m = Ok r -> ser_all one' vs m = Ok r.
Proof.
  intros H. induction vs as [|v vs IH]; intros m r Hr; cbn [ser_all] in *; [exact Hr|].
  destruct (one v m) as [[b m1]|] eqn:E; cbn [bind] in Hr; [|discriminate]. rewrite (H _ _ _ E). cbn [bind].
  destruct (ser_all one vs m1) as [[b2 m2]|] eqn:E2; cbn [bind] in Hr; [|discriminate]. rewrite (IH _ _ E2). exact Hr.
Qed.

Lemma ser_elements_mono {M} c (one one' : val -> M -> result (bytes * M)) t vs m r : le_fun one one' ->
  ser_elements c one t vs m = Ok r -> ser_elements c one' t vs m = Ok r.
Proof.
  intros H. unfold ser_elements. destruct (_ && _ && _)%bool; [auto|].
  destruct (ser_all one vs m) as [[b m1]|] eqn:E; cbn [bind]; [|discriminate].
  rewrite (ser_all_mono _ _ H _ _ _ E). auto.
Qed.

Lemma ser_fields_mono {M} (one one' : ty -> val -> Z -> M -> result (bytes * M)) :
  (forall t v k m r, one t v k m = Ok r -> one' t v k m = Ok r) ->
  forall ts vs k m r, ser_fields one k ts vs m = Ok r -> ser_fields one' k ts vs m = Ok r.
Proof.
  intros H. induction ts as [|t ts IH]; intros [|v vs] k m r Hr; cbn [ser_fields] in *; try exact Hr.
  destruct (one t v k m) as [[b m1]|] eqn:E; cbn [bind] in Hr; [|discriminate]. rewrite (H _ _ _ _ _ E). cbn [bind].
  destruct (ser_fields one (k + 1) ts vs m1) as [[b2 m2]|] eqn:E2; cbn [bind] in Hr; [|discriminate].
  rewrite (IH _ _ _ _ E2). exact Hr.
Qed.

Lemma pair_mono {M} (k1 k2 v1 v2 : val -> M -> result (bytes * M)) : le_fun k1 k2 -> le_fun v1 v2 ->
  le_fun (fun (kv : val * val) m => bind (k1 (fst kv) m) (fun '(b1, m) => bind (v1 (snd kv) m) (fun '(b2, m) => Ok (b1 ++ b2, m))))
         (fun (kv : val * val) m => bind (k2 (fst kv) m) (fun '(b1, m) => bind (v2 (snd kv) m) (fun '(b2, m) => Ok (b1 ++ b2, m)))).
Proof.
  intros Hk Hv kv m r Hr. destruct (k1 (fst kv) m) as [[b m1]|] eqn:E; cbn [bind] in Hr; [|discriminate].
  rewrite (Hk _ _ _ E). cbn [bind].
  destruct (v1 (snd kv) m1) as [[b2 m2]|] eqn:E2; cbn [bind] in Hr; [|discriminate]. rewrite (Hv _ _ _ E2). exact Hr.
Qed.

Lemma ser_mono c h : forall fuel fuel' t v f m r, (fuel <= fuel')%nat ->
  ser c h fuel t v f m = Ok r -> ser c h fuel' t v f m = Ok r.
Proof.
  induction fuel as [|fuel IH]; intros fuel' t v f m r Hle Hr; [discriminate|].
  destruct fuel' as [|fuel']; [lia|].
  assert (IH' : forall t v f m r, ser c h fuel t v f m = Ok r -> ser c h fuel' t v f m = Ok r) by (intros; apply IH; [lia|assumption]).
  clear IH. cbn [ser] in *.
  assert (H1 : forall t, le_fun (fun v m => ser c h fuel t v 0 m) (fun v m => ser c h fuel' t v 0 m)) by (intros ? ? ? ? ?; now apply IH').
  assert (H2 : forall k v, le_fun
    (fun (kv : val * val) m => bind (ser c h fuel k (fst kv) 0 m) (fun '(b1, m) => bind (ser c h fuel v (snd kv) 0 m) (fun '(b2, m) => Ok (b1 ++ b2, m))))
    (fun (kv : val * val) m => bind (ser c h fuel' k (fst kv) 0 m) (fun '(b1, m) => bind (ser c h fuel' v (snd kv) 0 m) (fun '(b2, m) => Ok (b1 ++ b2, m))))).
  { intros k v0. exact (pair_mono _ _ _ _ (H1 k) (H1 v0)). }
  destruct (resolve c t); destruct v; try exact Hr.
  - destruct vs; [exact Hr|]. destruct (ser_elements _ _ _ _ _) as [[b m1]|] eqn:E; cbn [bind] in Hr; [|discriminate].
    rewrite (ser_elements_mono _ _ _ _ _ _ _ (H1 _) E). exact Hr.
  - destruct (memo_find p m); [exact Hr|]. destruct (nth_error h p) as [[]|]; try exact Hr.
    destruct (ser_elements _ _ _ _ _) as [[b m1]|] eqn:E; cbn [bind] in Hr; [|discriminate].
    rewrite (ser_elements_mono _ _ _ _ _ _ _ (H1 _) E). exact Hr.
  - destruct (ser_fields _ _ _ _ _) as [[b m1]|] eqn:E; cbn [bind] in Hr; [|discriminate].
    rewrite (ser_fields_mono _ _ IH' _ _ _ _ _ E). exact Hr.
  - destruct (nth_error ts which); [|exact Hr]. destruct (ser c h fuel _ _ _ _) as [[b m1]|] eqn:E; cbn [bind] in Hr; [|discriminate].
    rewrite (IH' _ _ _ _ _ E). exact Hr.
  - destruct (nth_error ts which); [|exact Hr]. destruct (ser c h fuel _ _ _ _) as [[b m1]|] eqn:E; cbn [bind] in Hr; [|discriminate].
    rewrite (IH' _ _ _ _ _ E). exact Hr.
  - destruct (ser_all _ _ _) as [[b m1]|] eqn:E; cbn [bind] in Hr; [|discriminate].
    rewrite (ser_all_mono _ _ (H2 _ _) _ _ _ E). exact Hr.
  - destruct (memo_find p m); [exact Hr|]. destruct (nth_error h p) as [[]|]; try exact Hr.
    destruct (ser_all _ _ _) as [[b m1]|] eqn:E; cbn [bind] in Hr; [|discriminate].
    rewrite (ser_all_mono _ _ (H2 _ _) _ _ _ E). exact Hr.
  - destruct (memo_find p m); [exact Hr|]. destruct (nth_error h p) as [[]|]; try exact Hr.
    destruct (ser_all _ _ _) as [[b m1]|] eqn:E; cbn [bind] in Hr; [|discriminate].
    rewrite (ser_all_mono _ _ (H1 _) _ _ _ E). exact Hr.
Qed.

(** ** Enough fuel exists *)

Section Total.
Variable c : context.
Variable S0 : list ty.
Variable h : heap.
Hypothesis Hc : context_ok c.
Hypothesis Hh : heap_has_types c S0 h.
Notation memo_ok := (memo_ok h).

(** [one fuel] succeeds on [x] for some fuel, from any memo with at least [k] objects. *)
Definition can {A} (k : nat) (one : nat -> A -> memo -> result (bytes * memo)) (x : A) : Prop :=
  forall m, memo_ok m -> (k <= length m)%nat ->
  exists fuel bs m', one fuel x m = Ok (bs, m') /\ memo_ok m' /\ (length m <= length m')%nat.

Definition increasing {A} (one : nat -> A -> memo -> result (bytes * memo)) : Prop :=
  forall fuel fuel', (fuel <= fuel')%nat -> le_fun (one fuel) (one fuel').

Lemma can_all {A} k (one : nat -> A -> memo -> result (bytes * memo)) vs : increasing one ->
  Forall (can k one) vs -> can k (fun fuel vs m => ser_all (one fuel) vs m) vs.
Proof.
  intros Hinc. induction 1 as [|v vs Hv Hvs IH]; intros m Hm Hk.
  - exists 0%nat, [], m. repeat split; try apply Hm; lia.
  - destruct (Hv m Hm Hk) as (f1 & b1 & m1 & E1 & Hm1 & Hl1).
    destruct (IH m1 Hm1 ltac:(lia)) as (f2 & b2 & m2 & E2 & Hm2 & Hl2).
    exists (Nat.max f1 f2), (b1 ++ b2), m2. split; [|split; [exact Hm2|lia]]. cbn [ser_all].
    rewrite (Hinc f1 (Nat.max f1 f2) ltac:(lia) _ _ _ E1). cbn [bind].
    rewrite (ser_all_mono _ _ (Hinc f2 (Nat.max f1 f2) ltac:(lia)) _ _ _ E2). reflexivity.
Qed.

Lemma can_elements k one e vs : increasing one -> Forall (can k one) vs -> Forall (has_type c S0 e) vs ->
  can k (fun fuel vs m => ser_elements c (one fuel) e vs m) vs.
Proof.
  intros Hinc Hvs Hty m Hm Hk. unfold ser_elements. destruct (_ && _ && _)%bool.
  - destruct (Nat.eqb (bytecount e) 0); [eexists 0%nat, _, m; split; [reflexivity|split; [exact Hm|lia]]|].
    destruct e as [|signed size| | | | | | | | | | | | | |]; try (eexists 0%nat, _, m; split; [reflexivity|split; [exact Hm|lia]]).
    destruct signed; [|eexists 0%nat, _, m; split; [reflexivity|split; [exact Hm|lia]]].
    do 9 (destruct size as [|size]; [solve [eexists 0%nat, _, m; split; [reflexivity|split; [exact Hm|lia]]|
      destruct (as_ints_ok c S0 vs Hty) as (zs & E & F & _);
      destruct (serialize_int_list_blocks (length zs) zs F (le_n _)) as (? & bl & Eb & _);
      eexists 0%nat, _, m; split; [rewrite E; cbn [bind]; rewrite Eb; reflexivity|split; [exact Hm|lia]]]|]).
    eexists 0%nat, _, m; split; [reflexivity|split; [exact Hm|lia]].
  - destruct (can_all k one vs Hinc Hvs m Hm Hk) as (f & b & m' & E & Hm' & Hl).
    exists f. eexists _, m'. split; [rewrite E; reflexivity|]. split; assumption.
Qed.

Lemma can_fields k (one : nat -> ty -> val -> Z -> memo -> result (bytes * memo)) ts vs :
  (forall fuel fuel' t v f m r, (fuel <= fuel')%nat -> one fuel t v f m = Ok r -> one fuel' t v f m = Ok r) ->
  Forall2 (fun t v => forall f, 0 <= f < 2 ^ 61 -> can k (fun fuel v m => one fuel t v f m) v) ts vs ->
  forall f0, 0 <= f0 -> f0 + Z.of_nat (length ts) < 2 ^ 61 -> can k (fun fuel vs m => ser_fields (one fuel) f0 ts vs m) vs.
Proof.
  intros Hinc. induction 1 as [|t v ts vs Hv Hvs IH]; intros f0 Hf0 Hb m Hm Hk.
  - exists 0%nat, [], m. repeat split; try apply Hm; lia.
  - cbn [length] in Hb. destruct (Hv f0 ltac:(lia) m Hm Hk) as (f1 & b1 & m1 & E1 & Hm1 & Hl1).
    destruct (IH (f0 + 1) ltac:(lia) ltac:(lia) m1 Hm1 ltac:(lia)) as (f2 & b2 & m2 & E2 & Hm2 & Hl2).
    exists (Nat.max f1 f2), (b1 ++ b2), m2. split; [|split; [exact Hm2|lia]]. cbn [ser_fields].
    rewrite (Hinc f1 (Nat.max f1 f2) _ _ _ _ _ ltac:(lia) E1). cbn [bind].
    erewrite (ser_fields_mono (one f2)); [|intros t0 v0 k0 m0 r0 H0; apply (Hinc f2); [lia|exact H0]|exact E2]. reflexivity.
Qed.

Lemma ser_increasing t : increasing (fun fuel v m => ser c h fuel t v 0 m).
Proof. intros f f' Hle x m r Hr. eapply ser_mono; eauto. Qed.

Lemma can_pair k tk tv kv : can k (fun fuel v m => ser c h fuel tk v 0 m) (fst kv) ->
  can k (fun fuel v m => ser c h fuel tv v 0 m) (snd kv) ->
  can k (fun fuel (kv : val * val) m => bind (ser c h fuel tk (fst kv) 0 m) (fun '(b1, m) =>
           bind (ser c h fuel tv (snd kv) 0 m) (fun '(b2, m) => Ok (b1 ++ b2, m)))) kv.
Proof.
  intros Hk Hv m Hm Hl. destruct (Hk m Hm Hl) as (f1 & b1 & m1 & E1 & Hm1 & Hl1).
  destruct (Hv m1 Hm1 ltac:(lia)) as (f2 & b2 & m2 & E2 & Hm2 & Hl2).
  exists (Nat.max f1 f2), (b1 ++ b2), m2. split; [|split; [exact Hm2|lia]].
  rewrite (ser_mono _ _ f1 (Nat.max f1 f2) _ _ _ _ _ ltac:(lia) E1). cbn [bind].
  rewrite (ser_mono _ _ f2 (Nat.max f1 f2) _ _ _ _ _ ltac:(lia) E2). reflexivity.
Qed.

Lemma pair_increasing tk tv : increasing (fun fuel (kv : val * val) m => bind (ser c h fuel tk (fst kv) 0 m) (fun '(b1, m) =>
           bind (ser c h fuel tv (snd kv) 0 m) (fun '(b2, m) => Ok (b1 ++ b2, m)))).
Proof. intros f f' Hle. exact (pair_mono _ _ _ _ (ser_increasing tk f f' Hle) (ser_increasing tv f f' Hle)). Qed.

Lemma can_ser k t v f : 0 <= f < 2 ^ 61 -> has_type c S0 t v ->
  (forall m, memo_ok m -> (k <= length m)%nat -> exists fuel r, ser c h fuel t v f m = Ok r) ->
  can k (fun fuel v m => ser c h fuel t v f m) v.
Proof.
  intros Hf Ht H m Hm Hk. destruct (H m Hm Hk) as (fuel & [bs m'] & E). exists fuel, bs, m'. split; [exact E|].
  pose proof (ser_good c S0 h Hc Hh fuel t v f m bs m' E Ht Hm Hf) as (? & ? & _ & _ & Hm' & [new ->] & _).
  split; [exact Hm'|]. rewrite app_length. lia.
Qed.

Lemma memo_bound m : memo_ok m -> (length m <= length h)%nat.
Proof. intros [Hn Hf]. now apply NoDup_bounded. Qed.

Definition serializable (n : nat) (v : val) : Prop := forall t f m, (length h - length m < n)%nat ->
  has_type c S0 t v -> memo_ok m -> 0 <= f < 2 ^ 61 -> exists fuel r, ser c h fuel t v f m = Ok r.

Lemma serializable_can n v k t f : serializable n v -> has_type c S0 t v -> (length h - k < n)%nat -> 0 <= f < 2 ^ 61 ->
  can k (fun fuel v m => ser c h fuel t v f m) v.
Proof. intros Hs Ht Hk Hf. apply can_ser; [exact Hf|exact Ht|]. intros m Hm Hl. apply Hs; auto. lia. Qed.

Lemma Forall2_conj {A B} (P Q : A -> B -> Prop) l l' : Forall2 P l l' -> Forall2 Q l l' ->
  Forall2 (fun a b => P a b /\ Q a b) l l'.
Proof. induction 1; intros H2; inversion H2; subst; constructor; auto. Qed.

Lemma Forall_Forall2 {A B} (P : B -> Prop) (Q : A -> B -> Prop) l l' : Forall P l' -> Forall2 Q l l' ->
  Forall2 (fun a b => P b /\ Q a b) l l'.
Proof. intros H1 H2. induction H2; inversion H1; subst; constructor; auto. Qed.

Local Ltac no_named Hnn := match goal with E : TNamed _ = _ |- _ => rewrite <- E in Hnn; contradiction Hnn end.

Theorem ser_total : forall n v, serializable n v.
Proof.
  induction n as [|n IHn]; [intros v t f m H; lia|].
  assert (IHvs : forall k e vs, (length h - k < n)%nat -> Forall (has_type c S0 e) vs ->
     Forall (can k (fun fuel v m => ser c h fuel e v 0 m)) vs).
  { intros k e vs Hk Hvs. eapply Forall_impl; [|exact Hvs]. cbv beta. intros. eapply serializable_can; eauto. lia. }
  refine (val_induct _ _ _ _ _ _ _ _ _ _ _ _ _).
  all: intros; intros t f m Hn Ht Hm Hf; apply resolve_typed in Ht; destruct Ht as [Ht Hnn].
  - exists 1%nat. cbn [ser]. generalize dependent (resolve c t). intros rt Ht Hnn. inversion Ht; subst; [eexists; reflexivity|contradiction Hnn].
  - exists 1%nat. cbn [ser]. generalize dependent (resolve c t). intros rt Ht Hnn. inversion Ht; subst; try contradiction Hnn; eexists; reflexivity.
  - exists 1%nat. cbn [ser]. generalize dependent (resolve c t). intros rt Ht Hnn. inversion Ht; subst; [|contradiction Hnn]. cbn [In] in *. intuition subst; eexists; reflexivity.
  - exists 1%nat. cbn [ser]. generalize dependent (resolve c t). intros rt Ht Hnn. inversion Ht; subst; try contradiction Hnn; eexists; reflexivity.
  - exists 1%nat. cbn [ser]. generalize dependent (resolve c t). intros rt Ht Hnn. inversion Ht; subst; try contradiction Hnn; eexists; reflexivity.
  - exists 1%nat. cbn [ser]. generalize dependent (resolve c t). intros rt Ht Hnn. inversion Ht; subst; try contradiction Hnn; eexists; reflexivity.
  - (* TupleOf *)
    inversion Ht as [| | | | | | | |e vs' Hvs Hlen Hbc E1 E2| | | | | | | |]; subst; [|no_named Hnn].
    destruct (can_elements (length m) (fun fuel v m => ser c h fuel e v 0 m) e vs (ser_increasing e)) with (m := m)
      as (fuel & bs & m' & E & _); [|exact Hvs|exact Hm|lia|].
    { rewrite Forall_forall in *. intros x Hx. eapply serializable_can; [apply H, Hx|apply Hvs, Hx|lia|lia]. }
    exists (S fuel). cbn [ser]. rewrite <- E1. destruct vs; [eexists; reflexivity|]. rewrite E. eexists; reflexivity.
  - (* Tuple *)
    inversion Ht as [| | | | | | | | |ts vs' Hvs Hlen E1 E2| | | | | | |]; subst; [|no_named Hnn].
    destruct (can_fields (length m) (ser c h) ts vs) with (f0 := 0) (m := m) as (fuel & bs & m' & E & _);
      [intros; eapply ser_mono; eauto| |lia|lia|exact Hm|lia|].
    { eapply Forall2_impl'; [|exact (Forall_Forall2 _ _ _ _ H Hvs)]. cbv beta. intros t0 v0 [Hs Hv] f0 Hf0.
      eapply serializable_can; eauto. }
    exists (S fuel). cbn [ser]. rewrite <- E1, E. cbn [bind]. destruct ts as [|? [|]]; eexists; reflexivity.
  - (* OneOf *)
    inversion Ht as [| | | | | | | | | |ts j t0 w Hi Hlt Hw E1 E2| | | | | |]; subst; [|no_named Hnn].
    destruct (H t0 (Z.of_nat i) m Hn Hw Hm ltac:(lia)) as (fuel & [bs m'] & E).
    exists (S fuel). cbn [ser]. rewrite <- E1, Hi, E. eexists; reflexivity.
  - (* Alternative *)
    inversion Ht as [| | | | | | | | | | |ts j t0 w Hi Hlt Hw E1 E2| | | | |]; subst; [|no_named Hnn].
    destruct (H t0 (Z.of_nat i) m Hn Hw Hm ltac:(lia)) as (fuel & [bs m'] & E).
    exists (S fuel). cbn [ser]. rewrite <- E1, Hi, E. eexists; reflexivity.
  - (* ConstDict *)
    inversion Ht as [| | | | | | | | | | | |tk tv kvs' Hkvs Hlen E1 E2| | | |]; subst; [|no_named Hnn].
    destruct (can_all (length m) _ kvs (pair_increasing tk tv)) with (m := m) as (fuel & bs & m' & E & _); [|exact Hm|lia|].
    { rewrite Forall_forall in *. intros x Hx. destruct (H x Hx), (Hkvs x Hx).
      apply can_pair; eapply serializable_can; eauto; lia. }
    exists (S fuel). cbn [ser]. rewrite <- E1, E. eexists; reflexivity.
  - (* references *)
    assert (Hmeas : memo_find p m = None -> (p < length h)%nat ->
      memo_ok (m ++ [p]) /\ (length h - length (m ++ [p]) < n)%nat).
    { intros Hf1 Hp. apply memo_find_none in Hf1. assert (Hm' : memo_ok (m ++ [p])) by now apply memo_ok_snoc.
      split; [exact Hm'|]. pose proof (memo_bound _ Hm') as Hb. rewrite app_length in *. cbn [length] in *. lia. }
    inversion Ht as [| | | | | | | | | | | | |e p' Hp E1 E2|tk tv p' Hp E1 E2|tk p' Hp E1 E2|]; subst; [| | |no_named Hnn];
    (destruct (memo_find p m) as [id|] eqn:Ef; [exists 1%nat; cbn [ser]; rewrite <- E1, Ef; eexists; reflexivity|]);
    destruct (heap_typed c S0 h Hh p _ Hp) as (o & Ho & Hto);
    (destruct (Hmeas eq_refl) as [Hm' Hlt]; [apply nth_error_Some; congruence|]);
    inversion Hto as [? vs Hvs Hlen Hbc|? ? kvs Hkvs Hlen|? vs Hvs Hlen]; subst.
    + destruct (can_elements (length (m ++ [p])) (fun fuel v m => ser c h fuel e v 0 m) e vs (ser_increasing e)) with (m := m ++ [p])
        as (fuel & bs & m' & E & _); [now apply IHvs|exact Hvs|exact Hm'|lia|].
      exists (S fuel). cbn [ser]. rewrite <- E1, Ef, Ho, E. eexists; reflexivity.
    + destruct (can_all (length (m ++ [p])) _ kvs (pair_increasing tk tv)) with (m := m ++ [p]) as (fuel & bs & m' & E & _); [|exact Hm'|lia|].
      { rewrite Forall_forall in *. intros x Hx. destruct (Hkvs x Hx).
        apply can_pair; eapply serializable_can; eauto; lia. }
      exists (S fuel). cbn [ser]. rewrite <- E1, Ef, Ho, E. eexists; reflexivity.
    + destruct (can_all (length (m ++ [p])) (fun fuel v m => ser c h fuel tk v 0 m) vs (ser_increasing tk)) with (m := m ++ [p])
        as (fuel & bs & m' & E & _); [now apply IHvs|exact Hm'|lia|].
      exists (S fuel). cbn [ser]. rewrite <- E1, Ef, Ho, E. eexists; reflexivity.
Qed.

(** ** The Python functions *)

Lemma memo_nil : memo_ok [].
Proof. split; constructor. Qed.

Theorem serialize_succeeds t v : has_type c S0 t v -> exists fuel bs, serialize c fuel h t v = Ok bs.
Proof.
  intros Ht. destruct (ser_total (S (length h)) v t 0 []) as (fuel & [bs m] & E); [cbn [length]; lia|exact Ht|exact memo_nil|lia|].
  exists fuel, bs. unfold serialize. rewrite E. reflexivity.
Qed.

Theorem serialize_message fuel t v bs : has_type c S0 t v -> serialize c fuel h t v = Ok bs ->
  exists m, encodes_tagged 0 m bs.
Proof.
  intros Ht H. unfold serialize in H. destruct (ser c h fuel t v 0 []) as [[bs0 m']|] eqn:E; cbn [bind] in H; [|discriminate].
  injection H as ->. apply (ser_good c S0 h Hc Hh) in E; [|exact Ht|exact memo_nil|lia].
  destruct E as (msg & body & -> & He & _). exists msg. exists (write_tag 0 (wire_type msg)), body.
  pose proof (wire_type_range msg). split; [reflexivity|]. split; [lia|]. split; [|exact He].
  apply write_tag_varint64; lia.
Qed.

Theorem serialize_roundtrip fuel t v bs rest : has_type c S0 t v -> serialize c fuel h t v = Ok bs ->
  exists v' h', deserialize c t (bs ++ rest) = Ok (v', rest, h') /\ same_graph h v h' v'.
Proof.
  intros Ht H. unfold serialize in H. destruct (ser c h fuel t v 0 []) as [[bs0 m']|] eqn:E; cbn [bind] in H; [|discriminate].
  injection H as ->. apply (ser_good c S0 h Hc Hh) in E; [|exact Ht|exact memo_nil|lia].
  destruct E as (msg & body & -> & He & Hm & _ & Hrd).
  pose proof (wire_type_range msg) as Hwt.
  destruct (Hrd (S (length ((write_tag 0 (wire_type msg) ++ body) ++ rest))) rest {| cached := []; rheap := [] |})
    as (v' & s' & H1 & H2 & H3).
  - rewrite !app_length. lia.
  - split; reflexivity.
  - exists v', (rheap s'). split.
    + unfold deserialize. rewrite <- app_assoc, tag_roundtrip by lia. cbn [bind]. rewrite <- app_assoc in H1. rewrite H1. reflexivity.
    + destruct H2 as [_ [_ Hlen] _ Hobj]. destruct Hm as [Hnd _].
      exists (R m'). split; [|split; [|split; [|split; [exact H3|]]]].
      * unfold R. intros p q1 q2 A B. rewrite NoDup_nth_error in Hnd. apply Hnd; [apply nth_error_Some; congruence|congruence].
      * unfold R. intros. congruence.
      * intros q Hq. unfold R. rewrite Hlen in Hq. destruct (nth_error m' q) as [p|] eqn:Eq; [now exists p|].
        apply nth_error_None in Eq. lia.
      * intros p q Hpq. apply Hobj; [cbn [length]; lia|exact Hpq].
Qed.

Theorem serialize_tree fuel t v bs rest : has_type c S0 t v -> tree v -> serialize c fuel h t v = Ok bs ->
  exists h', deserialize c t (bs ++ rest) = Ok (v, rest, h').
Proof.
  intros Ht Htr H. destruct (serialize_roundtrip fuel t v bs rest Ht H) as (v' & h' & E & R & _ & _ & _ & Hv & _).
  apply (tree_rel_eq R) in Hv; [|exact Htr]. subst v'. now exists h'.
Qed.

End Total.
