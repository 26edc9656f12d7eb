(** Every successful serialization reads back: the induction over the writer. *)
From Verif Require Import Base Wire_Model Wire_Spec Wire_Proofs Serial_Model Serial_Spec
  Serial_Data_Proofs Serial_Proofs Serial_Graph_Proofs.
From Coq Require Import ZifyBool ZifyNat.
Ltac Zify.zify_post_hook ::= Z.div_mod_to_equations.
Open Scope Z_scope.

Lemma Forall2_length {A B} (P : A -> B -> Prop) l l' : Forall2 P l l' -> length l = length l'.
Proof. induction 1; cbn [length]; congruence. Qed.

(** ** The reader's memo *)

Lemma cached_nth n i : nth_error (map Some (seq 0 n)) i = if (i <? n)%nat then Some (Some i) else None.
Proof.
  destruct (Nat.ltb_spec i n) as [H|H].
  - rewrite nth_error_map. rewrite (nth_error_nth' _ 0%nat) by (rewrite seq_length; exact H).
    cbn [option_map]. rewrite seq_nth by exact H. reflexivity.
  - apply nth_error_None. rewrite map_length, seq_length. exact H.
Qed.

Lemma lookup_known m s i : inv m s -> Z.of_nat (length m) < 2 ^ 31 -> (i < length m)%nat ->
  lookup_cached (Z.of_nat i) s = Ok (Some i).
Proof.
  intros [Hi _] Hl Hlt. unfold lookup_cached. rewrite wrap_s_small by (cbn; lia).
  destruct (Z.ltb_spec (Z.of_nat i) 0); [lia|]. rewrite Nat2Z.id, Hi, cached_nth.
  destruct (Nat.ltb_spec i (length m)); [reflexivity|lia].
Qed.

Lemma lookup_new m s : inv m s -> Z.of_nat (length m) < 2 ^ 31 ->
  lookup_cached (Z.of_nat (length m)) s = Ok None.
Proof.
  intros [Hi _] Hl. unfold lookup_cached. rewrite wrap_s_small by (cbn; lia).
  destruct (Z.ltb_spec (Z.of_nat (length m)) 0); [lia|]. rewrite Nat2Z.id, Hi, cached_nth, Nat.ltb_irrefl. reflexivity.
Qed.

Definition entered (o : obj) (s : rstate) : rstate :=
  {| cached := cached s ++ [Some (length (rheap s))]; rheap := rheap s ++ [o] |}.

Lemma enter_new m s o : inv m s -> Z.of_nat (length m) < 2 ^ 31 ->
  (let '(p, s) := alloc o s in add_cached (Z.of_nat (length m)) p s) = Ok (entered o s).
Proof.
  intros [Hi Hl] Hb. unfold alloc, add_cached, entered. rewrite wrap_s_small by (cbn; lia). cbn [cached rheap].
  destruct (Z.ltb_spec (Z.of_nat (length m)) 0); [lia|].
  rewrite Hi, map_length, seq_length.
  destruct (Z.ltb_spec (Z.of_nat (length m) + 1000000) (Z.of_nat (length m))); [lia|].
  rewrite Nat2Z.id. replace (S (length m) - length m)%nat with 1%nat by lia. cbn [repeat].
  generalize (eq_refl (map (@Some nat) (seq 0 (length m)))). generalize (map (@Some nat) (seq 0 (length m))) at 1 3 4 5.
  intros l Hl2. assert (L : length m = length l) by now rewrite Hl2, map_length, seq_length.
  rewrite L, nth_error_app_mid, set_nth_app. reflexivity.
Qed.

Lemma inv_entered m s o p : inv m s -> inv (m ++ [p]) (entered o s).
Proof.
  intros [Hi Hl]. unfold inv, entered. cbn [cached rheap]. rewrite !app_length. cbn [length].
  split; [|lia]. rewrite Nat.add_1_r, seq_S, map_app, Hi, Hl. reflexivity.
Qed.

Lemma NoDup_bounded m n : NoDup m -> Forall (fun p => (p < n)%nat) m -> (length m <= n)%nat.
Proof.
  intros Hn Hf. rewrite <- (seq_length n 0). apply NoDup_incl_length; [exact Hn|].
  intros p Hp. rewrite Forall_forall in Hf. apply in_seq. specialize (Hf p Hp). lia.
Qed.

Lemma memo_ok_snoc h m p : memo_ok h m -> ~ In p m -> (p < length h)%nat -> memo_ok h (m ++ [p]).
Proof.
  intros [Hn Hf] Hp Hl. split.
  - apply NoDup_rev in Hn. rewrite <- (rev_involutive (m ++ [p])), rev_app_distr. apply NoDup_rev. cbn [rev app].
    constructor; [|exact Hn]. now rewrite <- in_rev.
  - apply Forall_app. split; [exact Hf|]. now constructor.
Qed.

Lemma step_store h m m' s s2 p o o' o0 :
  inv m s -> step h (m ++ [p]) m' (entered o0 s) s2 -> nth_error h p = Some o -> obj_rel (R m') o o' ->
  step h m m' s (store (length m) o' s2) /\ R m' p (length m).
Proof.
  intros [Hi Hl] [[new E] [Hi2 Hl2] [e He] Ho] Hp Hrel.
  assert (HR : R m' p (length m)).
  { unfold R. rewrite E, <- app_assoc. cbn [app]. apply nth_error_app_mid. }
  split; [|exact HR].
  unfold entered in He. cbn [rheap] in He. rewrite <- app_assoc in He. cbn [app] in He.
  assert (Hset : set_nth (length m) o' (rheap s2) = rheap s ++ o' :: e).
  { rewrite He. rewrite <- Hl. apply set_nth_app. }
  split.
  - exists ([p] ++ new). rewrite E. now rewrite app_assoc.
  - split; [exact Hi2|]. cbn [store rheap]. now rewrite set_nth_length.
  - exists (o' :: e). exact Hset.
  - intros q p' Hq Hn. cbn [store rheap]. rewrite Hset.
    destruct (Nat.eq_dec q (length m)) as [->|Hne].
    + unfold R in HR. assert (p' = p) by congruence. subst p'. exists o, o'. repeat split; [exact Hp| |exact Hrel].
      rewrite <- Hl. apply nth_error_app_mid.
    + destruct (Ho q p') as (a & b & A & B & C); [rewrite app_length; cbn [length]; lia|exact Hn|].
      exists a, b. repeat split; [exact A| |exact C]. rewrite He in B.
      rewrite nth_error_app2 in * by lia. rewrite <- Hl in Hne.
      destruct (q - length (rheap s))%nat as [|k] eqn:Ek; [lia|]. exact B.
Qed.

(** ** Dictionaries and tuples as runs of messages *)

Definition kv_items (k v : ty) (kvs : list (val * val)) : list (Z * ty * val) :=
  flat_map (fun kv => [(0, k, fst kv); (0, v, snd kv)]) kvs.

Lemma kv_items_length k v kvs : length (kv_items k v kvs) = (2 * length kvs)%nat.
Proof. induction kvs as [|[a b] kvs IH]; [reflexivity|]. cbn [kv_items flat_map app length]. unfold kv_items in IH. rewrite IH. lia. Qed.

Lemma kv_items_nth k v kvs : forall n f t x, nth_error (kv_items k v kvs) n = Some (f, t, x) ->
  f = 0 /\ t = (if Nat.even n then k else v) /\ (n < 2 * length kvs)%nat.
Proof.
  induction kvs as [|[a b] kvs IH]; intros n f t x H.
  - destruct n; discriminate H.
  - cbn [kv_items flat_map app fst snd] in H. destruct n as [|[|n]]; cbn [nth_error] in H.
    + injection H as <- <- _. cbn [length Nat.even]. repeat split; lia.
    + injection H as <- <- _. cbn [length Nat.even]. repeat split; lia.
    + apply IH in H. cbn [length Nat.even]. intuition lia.
Qed.

Lemma nth_error_done {A} (done more : list A) x l : l = done ++ x :: more -> nth_error l (length done) = Some x.
Proof. intros ->. apply nth_error_app_mid. Qed.

Lemma even_of_nat n : Z.even (Z.of_nat n) = Nat.even n.
Proof.
  induction n as [|n IH]; [reflexivity|]. rewrite Nat2Z.inj_succ, Z.even_succ, Nat.even_succ.
  rewrite <- Z.negb_even, <- Nat.negb_even, IH. reflexivity.
Qed.

Lemma kv_pairs (P : val -> val -> Prop) k v kvs : forall vals,
  Forall2 (fun (it : Z * ty * val) v' => P (snd it) v') (kv_items k v kvs) vals ->
  Forall2 (fun kv kw => P (fst kv) (fst kw) /\ P (snd kv) (snd kw)) kvs (pairs vals).
Proof.
  induction kvs as [|[a b] kvs IH]; intros vals H; cbn [kv_items flat_map app fst snd] in H; inversion H; subst.
  - constructor.
  - match goal with H : Forall2 _ (_ :: _) _ |- _ => inversion H; subst end.
    cbn [pairs]. constructor; [split; assumption|]. apply IH. assumption.
Qed.

Section Main.
Variable c : context.
Variable S0 : list ty.
Variable h : heap.
Hypothesis Hc : context_ok c.
Hypothesis Hh : heap_has_types c S0 h.

Lemma memo_small m : memo_ok h m -> Z.of_nat (length m) < 2 ^ 31.
Proof.
  intros [Hn Hf]. destruct Hh as [_ Hl]. pose proof (NoDup_bounded _ _ Hn Hf). lia.
Qed.

Lemma heap_typed p t : nth_error S0 p = Some t -> exists o, nth_error h p = Some o /\ obj_has_type c S0 t o.
Proof.
  intros Hp. destruct Hh as [HF _]. clear Hh. revert HF Hp.
  generalize S0 at 2 3. intros l HF. revert p. induction HF as [|t0 o l hh Ho HF IH]; intros [|p] Hp; try discriminate.
  - injection Hp as ->. exists o. now split.
  - apply IH. exact Hp.
Qed.

Notation good := (good c h).
Notation written := (written c h).
Notation step := (step h).
Notation memo_ok := (memo_ok h).

Lemma kv_written one_k one_v k v kvs :
  Forall (fun kv => (forall m bs m', memo_ok m -> one_k (fst kv) m = Ok (bs, m') -> good k (fst kv) 0 m bs m') /\
                    (forall m bs m', memo_ok m -> one_v (snd kv) m = Ok (bs, m') -> good v (snd kv) 0 m bs m')) kvs ->
  forall m bs m', memo_ok m ->
  ser_all (fun kv m => bind (one_k (fst kv) m) (fun '(b1, m) => bind (one_v (snd kv) m) (fun '(b2, m) => Ok (b1 ++ b2, m)))) kvs m
    = Ok (bs, m') ->
  written (kv_items k v kvs) m bs m'.
Proof.
  induction 1 as [|[a b] kvs [Ha Hb] Hvs IH]; intros m bs m' Hm H; cbn [ser_all] in H.
  - apply Ok_pair in H; destruct H as [<- <-]. constructor.
  - cbn [fst snd] in *. destruct (one_k a m) as [[b1 m1]|] eqn:E1; cbn [bind] in H; [|discriminate].
    destruct (one_v b m1) as [[b2 m2]|] eqn:E2; cbn [bind] in H; [|discriminate].
    match type of H with bind ?r _ = _ => destruct r as [[bs3 m3]|] eqn:E3 end; cbn [bind] in H; [|discriminate].
    apply Ok_pair in H; destruct H as [<- <-].
    pose proof (Ha _ _ _ Hm E1) as G1. assert (Hm1 : memo_ok m1) by (destruct G1 as (? & ? & _ & _ & X & _); exact X).
    pose proof (Hb _ _ _ Hm1 E2) as G2. assert (Hm2 : memo_ok m2) by (destruct G2 as (? & ? & _ & _ & X & _); exact X).
    cbn [kv_items flat_map app fst snd]. rewrite <- app_assoc.
    econstructor; [lia|exact G1|]. econstructor; [lia|exact G2|]. apply IH; assumption.
Qed.

Fixpoint field_items (k : Z) (ts : list ty) (vs : list val) : list (Z * ty * val) :=
  match ts, vs with
  | t :: ts, v :: vs => (k, t, v) :: field_items (k + 1) ts vs
  | _, _ => []
  end.

Lemma field_items_nth ts : forall vs k n f t x, nth_error (field_items k ts vs) n = Some (f, t, x) ->
  f = k + Z.of_nat n /\ nth_error ts n = Some t.
Proof.
  induction ts as [|t0 ts IH]; intros [|v vs] k n f t x H; cbn [field_items] in H; try (destruct n; discriminate H).
  destruct n as [|n]; cbn [nth_error] in *.
  - injection H as <- <- _. split; [lia|reflexivity].
  - apply IH in H. destruct H as [-> H]. split; [lia|exact H].
Qed.

Lemma field_items_length ts : forall vs k, length ts = length vs -> length (field_items k ts vs) = length ts.
Proof. induction ts as [|t ts IH]; intros [|v vs] k H; cbn [field_items length] in *; try lia. rewrite IH; lia. Qed.

Lemma fields_written one ts vs :
  Forall2 (fun t v => forall f m bs m', 0 <= f < 2 ^ 61 -> memo_ok m -> one t v f m = Ok (bs, m') -> good t v f m bs m') ts vs ->
  forall k m bs m', 0 <= k -> k + Z.of_nat (length ts) < 2 ^ 61 -> memo_ok m ->
  ser_fields one k ts vs m = Ok (bs, m') -> written (field_items k ts vs) m bs m'.
Proof.
  induction 1 as [|t v ts vs Ht Hts IH]; intros k m bs m' Hk Hb Hm H; cbn [ser_fields field_items] in *.
  - apply Ok_pair in H; destruct H as [<- <-]. constructor.
  - cbn [length] in Hb. destruct (one t v k m) as [[b m1]|] eqn:E1; cbn [bind] in H; [|discriminate].
    destruct (ser_fields one (k + 1) ts vs m1) as [[bs1 m2]|] eqn:E2; cbn [bind] in H; [|discriminate].
    apply Ok_pair in H; destruct H as [<- <-].
    pose proof (Ht k _ _ _ ltac:(lia) Hm E1) as G. econstructor; [lia|exact G|].
    apply IH; [lia|lia| |exact E2]. destruct G as (? & ? & _ & _ & X & _); exact X.
Qed.

Lemma fill_all make ts : forall vals s, length vals = length ts ->
  fill_missing make ts (map Some vals) s = Ok (vals, s).
Proof.
  induction ts as [|t ts IH]; intros [|v vals] s H; cbn [length] in H; try lia; [reflexivity|].
  cbn [map fill_missing bind]. rewrite IH by lia. reflexivity.
Qed.

Lemma field_rel m ts : forall k vs vals, length ts = length vs ->
  Forall2 (fun (it : Z * ty * val) v' => val_rel (R m) (snd it) v') (field_items k ts vs) vals ->
  Forall2 (val_rel (R m)) vs vals.
Proof.
  induction ts as [|t ts IH]; intros k [|v vs] vals Hl H; cbn [length] in Hl; try lia; cbn [field_items] in H; inversion H; subst.
  - constructor.
  - constructor; [assumption|]. eapply IH; [lia|eassumption].
Qed.

(** A reference to an object already written. *)
Lemma good_known t p m id f : memo_ok m -> memo_find p m = Some id -> 0 <= f < 2 ^ 61 ->
  (forall fuel rest s, inv m s -> (2 <= fuel)%nat ->
     des c fuel t SINGLE (write_uvarint_object 0 (Z.of_nat id) ++ rest) s = Ok (VRef id, rest, s)) ->
  good t (VRef p) f m (write_begin_single f ++ write_uvarint_object 0 (Z.of_nat id)) m.
Proof.
  intros Hm Hf Hr Hdes. apply memo_find_some in Hf.
  assert (Hlt : (id < length m)%nat) by (apply nth_error_Some; congruence). pose proof (memo_small m Hm) as Hsm.
  exists (MSingle 0 (MVarint (Z.of_nat id))), (write_uvarint_object 0 (Z.of_nat id)). repeat split.
  - unfold write_uvarint_object. constructor; [lia| |constructor; apply write_uvarint_varint64; lia].
    apply write_tag_varint64; cbn [wire_type]; unfold VARINT; lia.
  - apply Hm.
  - apply Hm.
  - exists []. now rewrite app_nil_r.
  - intros fuel rest s Hfl Hi. exists (VRef id), s. split; [|split; [now apply step_refl|constructor; exact Hf]].
    apply Hdes; [exact Hi|]. unfold write_uvarint_object in Hfl. rewrite app_length in Hfl.
    pose proof (write_tag_length 0 VARINT ltac:(lia) ltac:(unfold VARINT; lia)).
    pose proof (write_uvarint_length (Z.of_nat id) ltac:(lia)). lia.
Qed.

Lemma resolve_typed t v : has_type c S0 t v -> has_type c S0 (resolve c t) v /\ not_named (resolve c t).
Proof.
  intros H. destruct t; cbn [resolve]; try (split; [exact H|exact I]).
  inversion H; subst. erewrite nth_error_nth by eassumption. now split.
Qed.

Lemma resolve_done t : not_named t -> resolve c t = t.
Proof. destruct t; cbn [not_named resolve]; [reflexivity..|contradiction]. Qed.

Lemma des_resolve fuel t w bs s : not_named (resolve c t) -> des c fuel t w bs s = des c fuel (resolve c t) w bs s.
Proof. intros H. destruct fuel; [reflexivity|]. cbn [des]. now rewrite (resolve_done _ H). Qed.

Lemma good_resolve t v f m bs m' : not_named (resolve c t) -> good (resolve c t) v f m bs m' -> good t v f m bs m'.
Proof.
  intros Hn (msg & body & E & He & Hm & Hx & Hr). exists msg, body. repeat (split; [assumption|]).
  intros. rewrite des_resolve by exact Hn. auto.
Qed.

(** A leaf: a message that does not touch memo or heap. *)
Lemma good_leaf t v f m msg body : tree v -> encodes msg body -> memo_ok m ->
  (forall fuel rest s, des c (S fuel) t (wire_type msg) (body ++ rest) s = Ok (v, rest, s)) ->
  good t v f m (write_tag f (wire_type msg) ++ body) m.
Proof.
  intros Ht He Hm Hr. exists msg, body. split; [reflexivity|]. split; [exact He|]. split; [exact Hm|].
  split; [exists []; now rewrite app_nil_r|].
  intros fuel rest s Hf Hi. exists v, s. destruct fuel as [|fuel]; [lia|].
  split; [apply Hr|]. split; [now apply step_refl|now apply tree_rel].
Qed.

Lemma odd_of_succ n : Z.odd (Z.of_nat n + 1) = Nat.even n.
Proof. rewrite Z.add_1_r, Z.odd_succ. apply even_of_nat. Qed.

Theorem ser_good fuel : forall t v f m bs m',
  ser c h fuel t v f m = Ok (bs, m') -> has_type c S0 t v -> memo_ok m -> 0 <= f < 2 ^ 61 ->
  good t v f m bs m'.
Proof.
  induction fuel as [|fuel IH]; intros t v f m bs m' H Ht Hm Hf; [discriminate H|].
  apply resolve_typed in Ht. destruct Ht as [Ht Hn]. apply good_resolve; [exact Hn|].
  cbn [ser] in H. generalize dependent (resolve c t). clear t. intros t H Ht Hn.
  assert (Hres : resolve c t = t) by now apply resolve_done.
  destruct Ht as [b|size z Hsz Hz|size z Hsz Hz|size bits Hsz Hb| | |points Hpts Hlen|data Hdata Hlen|e vs Hvs Hlen Hbc
    |ts vs Hvs Hlen|ts i t w Hi Hlt Hw|ts i t w Hi Hlt Hw|tk tv kvs Hkvs Hlen|e p Hp|tk tv p Hp|tk p Hp|n t w Hnth Hnn Hw];
    [..|contradiction Hn].
  - (* bool *)
    apply Ok_pair in H; destruct H as [<- <-]. apply (good_leaf _ _ _ _ (MVarint (b2z b))); [constructor| |exact Hm|].
    + constructor. apply write_uvarint_varint64. destruct b; cbn; lia.
    + intros. cbn [des]. rewrite Hres. cbn [wire_type Z.eqb VARINT Pos.eqb].
      rewrite uvarint_roundtrip by (destruct b; cbn; lia). destruct b; reflexivity.
  - (* signed *)
    apply Ok_pair in H; destruct H as [<- <-].
    assert (Hz64 : - 2 ^ 63 <= z < 2 ^ 63).
    { assert (2 ^ (8 * Z.of_nat size - 1) <= 2 ^ 63) by (apply Z.pow_le_mono_r; [lia|]; cbn [In] in Hsz; lia). lia. }
    apply (good_leaf _ _ _ _ (MVarint (zigzag z))); [constructor| |exact Hm|].
    + constructor. apply write_uvarint_varint64, zigzag_range. exact Hz64.
    + intros. cbn [des]. rewrite Hres. cbn [wire_type Z.eqb VARINT Pos.eqb].
      rewrite svarint_roundtrip by exact Hz64. cbn [bind]. rewrite wrap_s_small; [reflexivity| |exact Hz].
      cbn [In] in Hsz. lia.
  - (* unsigned *)
    apply Ok_pair in H; destruct H as [<- <-].
    assert (Hz64 : 0 <= z < 2 ^ 64).
    { assert (2 ^ (8 * Z.of_nat size) <= 2 ^ 64) by (apply Z.pow_le_mono_r; [lia|]; cbn [In] in Hsz; lia). lia. }
    apply (good_leaf _ _ _ _ (MVarint z)); [constructor| |exact Hm|].
    + constructor. now apply write_uvarint_varint64.
    + intros. cbn [des]. rewrite Hres. cbn [wire_type Z.eqb VARINT Pos.eqb].
      rewrite uvarint_roundtrip by exact Hz64. cbn [bind]. rewrite wrap_u_small by exact Hz. reflexivity.
  - (* float *)
    cbn [In] in Hsz. destruct Hsz as [<-|[<-|[]]]; apply Ok_pair in H; destruct H as [<- <-].
    + apply (good_leaf _ _ _ _ (MBits32 (le_bytes 4 bits))); [constructor|constructor; apply le_bytes_length|exact Hm|].
      intros. cbn [des]. rewrite Hres. cbn [wire_type Nat.eqb Z.eqb BITS_32 Pos.eqb].
      rewrite read_bytes_app by now rewrite le_bytes_length. cbn [bind]. rewrite of_le_bytes_unsigned by exact Hb. reflexivity.
    + apply (good_leaf _ _ _ _ (MBits64 (le_bytes 8 bits))); [constructor|constructor; apply le_bytes_length|exact Hm|].
      intros. cbn [des]. rewrite Hres. cbn [wire_type Nat.eqb Z.eqb BITS_64 Pos.eqb].
      rewrite read_bytes_app by now rewrite le_bytes_length. cbn [bind]. rewrite of_le_bytes_unsigned by exact Hb. reflexivity.
  - (* None *)
    apply Ok_pair in H; destruct H as [<- <-]. unfold write_empty. rewrite <- (app_nil_r (write_tag f EMPTY)).
    apply (good_leaf _ _ _ _ MEmpty); [constructor|constructor|exact Hm|].
    intros. cbn [des]. rewrite Hres. reflexivity.
  - (* Value *)
    apply Ok_pair in H; destruct H as [<- <-]. unfold write_empty. rewrite <- (app_nil_r (write_tag f EMPTY)).
    apply (good_leaf _ _ _ _ MEmpty); [constructor|constructor|exact Hm|].
    intros. cbn [des]. rewrite Hres. reflexivity.
  - (* str *)
    apply Ok_pair in H; destruct H as [<- <-]. unfold write_begin_bytes. rewrite <- app_assoc.
    pose proof (utf8_count_bound points) as Hcb. pose proof (utf8_encode_length points) as Hel.
    apply (good_leaf _ _ _ _ (MBytes (utf8_encode points))); [constructor| |exact Hm|].
    + rewrite <- Hel. constructor. apply write_uvarint_varint64. lia.
    + intros. cbn [des]. rewrite Hres. cbn [wire_type Z.eqb BYTES Pos.eqb]. rewrite <- app_assoc.
      rewrite uvarint_roundtrip by lia. cbn [bind].
      rewrite wrap_s_small by (cbn; lia). rewrite wrap_u_small by lia.
      rewrite read_bytes_app by exact Hel. cbn [bind]. rewrite decode_string_encode by exact Hpts. reflexivity.
  - (* bytes *)
    apply Ok_pair in H; destruct H as [<- <-]. unfold write_begin_bytes. rewrite <- app_assoc.
    apply (good_leaf _ _ _ _ (MBytes data)); [constructor| |exact Hm|].
    + constructor. apply write_uvarint_varint64. lia.
    + intros. cbn [des]. rewrite Hres. cbn [wire_type Z.eqb BYTES Pos.eqb]. rewrite <- app_assoc.
      rewrite uvarint_roundtrip by lia. cbn [bind]. rewrite read_bytes_app by reflexivity. reflexivity.
  - (* TupleOf *)
    destruct vs as [|v0 vs0] eqn:Evs.
    + apply Ok_pair in H; destruct H as [<- <-]. unfold write_empty. rewrite <- (app_nil_r (write_tag f EMPTY)).
      apply (good_leaf _ _ _ _ MEmpty); [repeat constructor|constructor|exact Hm|].
      intros. cbn [des]. rewrite Hres. reflexivity.
    + rewrite <- Evs in *. clear v0 vs0 Evs.
      destruct (ser_elements _ _ _ _ _) as [[body m1]|] eqn:E; cbn [bind] in H; [|discriminate].
      apply Ok_pair in H; destruct H as [<- <-].
      apply (list_body c S0 h Hc) in E; [|exact Hvs|exact Hlen|exact Hbc| |exact Hm].
      2: { unfold writes. rewrite Forall_forall in *. intros x Hx m0 b0 m0' Hm0 H0. eapply IH; eauto; lia. }
      destruct E as ([fs He] & Hm1 & Hext & Hrd).
      exists (MCompound fs), body. split; [reflexivity|]. split; [now constructor|]. split; [exact Hm1|]. split; [exact Hext|].
      intros fl rest s Hfl Hi. destruct fl as [|fl]; [lia|].
      destruct (Hrd fl rest (fun s => Ok s) s s) as (vs' & s' & H1 & H2 & H3); [lia|reflexivity|exact Hi|].
      exists (VSeq vs'), s'. split; [|split; [exact H2|now constructor]].
      cbn [des]. rewrite Hres. cbn [wire_type Z.eqb EMPTY BEGIN_COMPOUND SINGLE Pos.eqb orb negb].
      change 6 with BEGIN_COMPOUND. rewrite H1. reflexivity.
  - (* Tuple *)
    destruct (ser_fields _ _ _ _ _) as [[body m1]|] eqn:E; cbn [bind] in H; [|discriminate].
    assert (Hll : length ts = length vs) by (eapply Forall2_length; eauto).
    assert (Hw : written (field_items 0 ts vs) m body m1).
    { eapply fields_written; [|lia|lia|exact Hm|exact E].
      eapply Forall2_impl'; [|exact Hvs]. cbv beta. intros. eapply IH; eauto. }
    destruct (written_memo _ _ _ _ _ _ Hw Hm) as [Hm1 Hext].
    pose proof (field_items_length ts vs 0 Hll) as Hfl.
    assert (Hcase : ts = [] \/ (exists t0, ts = [t0]) \/
      Ok (write_begin_compound f ++ body ++ write_end_compound, m1) = Ok (bs, m')).
    { destruct ts as [|t0 [|t1 ts]]; [now left|right; left; now exists t0|right; right; exact H]. }
    destruct Hcase as [->|[[t0 ->]|Hb]].
    + (* no fields *)
      destruct vs; [|discriminate Hll]. apply Ok_pair in H; destruct H as [<- <-].
      inversion Hw; subst. unfold write_empty. rewrite <- (app_nil_r (write_tag f EMPTY)).
      apply (good_leaf _ _ _ _ MEmpty); [repeat constructor|constructor|exact Hm|].
      intros. cbn [des]. rewrite Hres. reflexivity.
    + (* one field *)
      apply Ok_pair in H; destruct H as [<- <-]. destruct vs as [|v0 [|]]; try discriminate Hll.
      cbn [field_items] in Hw. inversion Hw as [|? ? ? ? ? ? ? ? ? Hf0 Hg Hw']; subst. inversion Hw'; subst. rewrite app_nil_r.
      destruct Hg as (msg & body' & -> & He & _ & _ & Hrd).
      pose proof (wire_type_range msg) as Hwt.
      exists (MSingle 0 msg), (write_tag 0 (wire_type msg) ++ body'). split; [reflexivity|].
      split; [constructor; [lia| |exact He]; apply write_tag_varint64; lia|]. split; [exact Hm1|]. split; [exact Hext|].
      intros fl rest s Hfl' Hi. rewrite app_length in Hfl'. pose proof (write_tag_length 0 (wire_type msg) ltac:(lia) ltac:(lia)).
      destruct fl as [|fl]; [lia|]. destruct (Hrd fl rest s ltac:(lia) Hi) as (v' & s' & H1 & H2 & H3).
      exists (VTuple [v']), s'. split; [|split; [exact H2|]].
      * cbn [des]. rewrite Hres. cbn [wire_type]. unfold consume. cbn [Z.eqb EMPTY SINGLE Pos.eqb].
        rewrite <- app_assoc, tag_roundtrip by lia. cbn [bind length].
        change (0 <? Z.of_nat 1) with true. cbv iota. cbn [nth_error Z.to_nat]. rewrite H1. cbn [bind repeat set_nth].
        reflexivity.
      * constructor. constructor; [exact H3|constructor].
    + (* several fields *)
      clear H. apply Ok_pair in Hb; destruct Hb as [<- <-].
      set (cb := fun dfuel (field sub : Z) (bs : bytes) (a : list (option val) * rstate) =>
         let '(vs0, s) := a in
         match (if field <? Z.of_nat (length ts) then nth_error ts (Z.to_nat field) else None) with
         | Some t => bind (des c dfuel t sub bs s) (fun '(v, bs, s) => Ok (bs, (set_nth (Z.to_nat field) (Some v) vs0, s)))
         | None => bind (finishReadingMessageAndDiscard sub bs) (fun bs => Ok (bs, (vs0, s)))
         end).
      set (Inv := fun (done : list (Z * ty * val)) vals (s : rstate) (a : list (option val) * rstate) =>
         a = (map Some vals ++ repeat None (length ts - length done), s)).
      assert (Hcb : forall dfuel, forall done f t v more vals s a w bs v' bs' s',
         field_items 0 ts vs = done ++ (f, t, v) :: more -> Inv done vals s a -> length vals = length done ->
         des c dfuel t w bs s = Ok (v', bs', s') ->
         exists a', cb dfuel f w bs a = Ok (bs', a') /\ Inv (done ++ [(f, t, v)]) (vals ++ [v']) s' a').
      { intros dfuel done f0 t v more vals s1 a w bs1 v' bs' s' Hit HI Hl Hd. unfold Inv in HI. subst a. unfold cb.
        pose proof (nth_error_done _ _ _ _ Hit) as Hnth. apply field_items_nth in Hnth. destruct Hnth as [-> Hnth].
        assert (length done < length ts)%nat by (apply nth_error_Some; congruence).
        destruct (Z.ltb_spec (0 + Z.of_nat (length done)) (Z.of_nat (length ts))); [|lia].
        replace (Z.to_nat (0 + Z.of_nat (length done))) with (length done) by lia. rewrite Hnth, Hd. cbn [bind].
        eexists. split; [reflexivity|]. unfold Inv. f_equal. rewrite app_length. cbn [length].
        replace (length ts - length done)%nat with (S (length ts - (length done + 1))) by lia. cbn [repeat].
        rewrite <- Hl at 1. rewrite <- (map_length Some vals), set_nth_app, map_app, <- app_assoc. reflexivity. }
      assert (Hinit : forall s, Inv [] [] s (repeat None (length ts), s))
        by (intros s; unfold Inv; cbn [map app length]; now rewrite Nat.sub_0_r).
      destruct (written_encodes _ _ _ _ _ _ Hw) as [fs Hfs].
      exists (MCompound (fs ++ [])), (body ++ write_end_compound). split; [reflexivity|].
      split; [constructor; apply Hfs, encodes_end|]. split; [exact Hm1|]. split; [exact Hext|].
      intros fl rest s Hfl' Hi. rewrite app_length, end_length in Hfl'. destruct fl as [|fl]; [lia|].
      destruct (consume_written c h (cb fl) fl Inv (field_items 0 ts vs) (Hcb fl) (field_items 0 ts vs) [] [] _ _ _ Hw
        eq_refl eq_refl fl rest s (repeat None (length ts), s)) as (vals & s' & a' & H1 & H2 & H3 & H4);
        [lia|lia|exact Hi|apply Hinit|].
      unfold Inv in H3. rewrite Hfl, Nat.sub_diag in H3. cbn [app repeat] in H3. rewrite app_nil_r in H3. subst a'.
      exists (VTuple vals), s'. split; [|split; [exact H2|constructor; eapply field_rel; eauto]].
      cbn [des]. rewrite Hres. cbn [wire_type]. unfold consume. cbn [Z.eqb EMPTY SINGLE BEGIN_COMPOUND Pos.eqb].
      rewrite <- app_assoc. fold (cb fl). rewrite H1. cbn [bind].
      rewrite fill_all; [reflexivity|]. apply Forall2_length in H4. lia.
  - (* OneOf *)
    rewrite Hi in H. destruct (ser _ _ _ _ _ _ _) as [[body m1]|] eqn:E; cbn [bind] in H; [|discriminate].
    apply Ok_pair in H; destruct H as [<- <-].
    apply IH in E; [|exact Hw|exact Hm|lia]. destruct E as (msg & body' & -> & He & Hm1 & Hext & Hrd).
    pose proof (wire_type_range msg) as Hwt.
    assert (Hits : (i < length ts)%nat) by (apply nth_error_Some; congruence).
    exists (MSingle (Z.of_nat i) msg), (write_tag (Z.of_nat i) (wire_type msg) ++ body'). split; [reflexivity|].
    split; [constructor; [lia| |exact He]; apply write_tag_varint64; lia|]. split; [exact Hm1|]. split; [exact Hext|].
    intros fl rest s Hfl' Hinv. rewrite app_length in Hfl'. pose proof (write_tag_length (Z.of_nat i) (wire_type msg) ltac:(lia) ltac:(lia)).
    destruct fl as [|fl]; [lia|]. destruct (Hrd fl rest s ltac:(lia) Hinv) as (v' & s' & H1 & H2 & H3).
    exists (VOneOf i v'), s'. split; [|split; [exact H2|now constructor]].
    cbn [des]. rewrite Hres. cbn [wire_type]. unfold consume. cbn [Z.eqb EMPTY SINGLE Pos.eqb].
    rewrite <- app_assoc, tag_roundtrip by lia. cbn [bind].
    destruct (Z.ltb_spec (Z.of_nat i) (Z.of_nat (length ts))); [|lia]. rewrite Nat2Z.id, Hi, H1. reflexivity.
  - (* Alternative *)
    rewrite Hi in H. destruct (ser _ _ _ _ _ _ _) as [[body m1]|] eqn:E; cbn [bind] in H; [|discriminate].
    apply Ok_pair in H; destruct H as [<- <-].
    apply IH in E; [|exact Hw|exact Hm|lia]. destruct E as (msg & body' & -> & He & Hm1 & Hext & Hrd).
    pose proof (wire_type_range msg) as Hwt.
    assert (Hits : (i < length ts)%nat) by (apply nth_error_Some; congruence).
    exists (MSingle (Z.of_nat i) msg), (write_tag (Z.of_nat i) (wire_type msg) ++ body'). split; [reflexivity|].
    split; [constructor; [lia| |exact He]; apply write_tag_varint64; lia|]. split; [exact Hm1|]. split; [exact Hext|].
    intros fl rest s Hfl' Hinv. rewrite app_length in Hfl'. pose proof (write_tag_length (Z.of_nat i) (wire_type msg) ltac:(lia) ltac:(lia)).
    destruct fl as [|fl]; [lia|]. destruct (Hrd fl rest s ltac:(lia) Hinv) as (v' & s' & H1 & H2 & H3).
    exists (VAlt i v'), s'. split; [|split; [exact H2|now constructor]].
    cbn [des]. rewrite Hres. cbn [wire_type Z.eqb SINGLE Pos.eqb].
    rewrite <- app_assoc, tag_roundtrip by lia. cbn [bind].
    destruct (Z.ltb_spec (Z.of_nat i) (Z.of_nat (length ts))); [|lia]. rewrite Nat2Z.id, Hi, H1. reflexivity.
  - (* ConstDict *)
    destruct (ser_all _ _ _) as [[body m1]|] eqn:E; cbn [bind] in H; [|discriminate].
    apply Ok_pair in H; destruct H as [<- <-].
    assert (Hw : written (kv_items tk tv kvs) m body m1).
    { eapply (kv_written (fun x m => ser c h fuel tk x 0 m) (fun x m => ser c h fuel tv x 0 m)); [|exact Hm|exact E].
      eapply Forall_impl; [|exact Hkvs]. cbv beta. intros kv [Hk Hv]. split; intros; eapply IH; eauto; lia. }
    clear E. destruct (written_memo _ _ _ _ _ _ Hw Hm) as [Hm1 Hext].
    destruct (written_encodes _ _ _ _ _ _ Hw) as [fs Hfs].
    eexists (MCompound ((0, MVarint (Z.of_nat (length kvs))) :: fs ++ [])),
      (write_uvarint_object 0 (Z.of_nat (length kvs)) ++ body ++ write_end_compound).
    split; [reflexivity|]. split.
    { constructor. unfold write_uvarint_object. rewrite <- app_assoc. constructor; [lia| | |apply Hfs, encodes_end].
      - apply write_tag_varint64; cbn [wire_type]; unfold VARINT; lia.
      - constructor. apply write_uvarint_varint64. lia. }
    split; [exact Hm1|]. split; [exact Hext|].
    intros fl rest s Hfl Hi. unfold write_uvarint_object in Hfl. rewrite !app_length, end_length in Hfl.
    pose proof (write_tag_length 0 VARINT ltac:(lia) ltac:(unfold VARINT; lia)).
    destruct fl as [|fl]; [lia|].
    cbn [des]. rewrite Hres. set (D := des c fl). destruct fl as [|fl]; [lia|]. cbn [wire_type]. unfold consume_numbered, consume.
    cbn [Z.eqb EMPTY SINGLE BEGIN_COMPOUND Pos.eqb consume_fields].
    unfold write_uvarint_object. rewrite <- !app_assoc. rewrite tag_roundtrip by (unfold VARINT; lia).
    cbn [bind]. cbn [Z.eqb VARINT END_COMPOUND Pos.eqb]. rewrite uvarint_roundtrip by lia. cbn [bind].
    rewrite wrap_s_small by (cbn; lia).
    match goal with |- context [consume_fields ?f fl _ _] => set (cb := f) end.
    set (Inv := fun (done : list (Z * ty * val)) (vals : list val) (s : rstate) (a : Z * (Z * list val * rstate)) =>
       a = (Z.of_nat (length done) + 1, (Z.of_nat (length kvs), vals, s))).
    assert (Hcb : forall done f t v more vals s a w bs v' bs' s',
       kv_items tk tv kvs = done ++ (f, t, v) :: more -> Inv done vals s a -> length vals = length done ->
       D t w bs s = Ok (v', bs', s') ->
       exists a', cb f w bs a = Ok (bs', a') /\ Inv (done ++ [(f, t, v)]) (vals ++ [v']) s' a').
    { intros done f0 t v more vals s1 a w bs1 v' bs' s' Hit HI Hl Hd. unfold Inv in HI. subst a. unfold cb.
      pose proof (nth_error_done _ _ _ _ Hit) as Hnth. apply kv_items_nth in Hnth. destruct Hnth as (-> & -> & Hlt).
      cbn [Z.eqb]. destruct (Z.eqb_spec (Z.of_nat (length done) + 1) 0); [lia|].
      destruct (Z.leb_spec (Z.of_nat (length kvs)) ((Z.of_nat (length done) + 1 - 1) / 2)); [lia|].
      rewrite odd_of_succ. rewrite Hd. cbn [bind]. eexists. split; [reflexivity|].
      unfold Inv. rewrite app_length. cbn [length]. f_equal. lia. }
    change (0 + 1) with 1.
    destruct (consume_written c h cb (S fl) Inv (kv_items tk tv kvs) Hcb (kv_items tk tv kvs) [] [] _ _ _ Hw
      eq_refl eq_refl fl rest s (1, (Z.of_nat (length kvs), [], s))) as (vals & s' & a' & H1 & H2 & H3 & H4);
      [lia|lia|exact Hi|reflexivity|].
    rewrite H1. cbn [bind]. unfold Inv in H3. rewrite kv_items_length in H3. subst a'. cbn [app].
    destruct (Z.eqb_spec (Z.of_nat (length kvs)) (-1)); [lia|].
    replace ((Z.of_nat (2 * length kvs) + 1 - 1) / 2) with (Z.of_nat (length kvs)) by lia. rewrite Z.eqb_refl. cbn [negb orb].
    eexists _, _. split; [reflexivity|]. split; [exact H2|]. constructor. eapply kv_pairs. exact H4.
  - (* ListOf *)
    destruct (memo_find p m) as [id|] eqn:Ef.
    + apply Ok_pair in H; destruct H as [<- <-]. apply good_known; auto.
      intros fl rest s Hi Hfl. destruct fl as [|fl]; [lia|]. cbn [des]. rewrite Hres.
      cbn [Z.eqb BEGIN_COMPOUND SINGLE Pos.eqb orb negb]. unfold read_uvarint_object, write_uvarint_object.
      rewrite <- app_assoc. apply memo_find_some in Ef.
      assert (Hlt : (id < length m)%nat) by (apply nth_error_Some; congruence). pose proof (memo_small m Hm).
      rewrite tag_roundtrip by (unfold VARINT; lia). cbn [bind]. cbn [Z.eqb VARINT Pos.eqb].
      rewrite uvarint_roundtrip by lia. cbn [bind]. rewrite (lookup_known m) by assumption. reflexivity.
    + destruct (heap_typed p _ Hp) as (o & Ho & Hto). rewrite Ho in H. inversion Hto as [? vs Hvs Hlen Hbc| |]; subst.
      destruct (ser_elements _ _ _ _ _) as [[body m1]|] eqn:E; cbn [bind] in H; [|discriminate].
      apply Ok_pair in H; destruct H as [<- <-].
      assert (Hm' : memo_ok (m ++ [p])).
      { apply memo_ok_snoc; [exact Hm|now apply memo_find_none|]. apply nth_error_Some. congruence. }
      pose proof (memo_small m Hm) as Hsm.
      apply (list_body c S0 h Hc) in E; [|exact Hvs|exact Hlen|exact Hbc| |exact Hm'].
      2: { unfold writes. rewrite Forall_forall in *. intros x Hx m0 b0 m0' Hm0 H0. eapply IH; eauto; lia. }
      destruct E as ([fs He] & Hm1 & [new Hext] & Hrd).
      exists (MCompound ((0, MVarint (Z.of_nat (length m))) :: fs)), (write_uvarint_object 0 (Z.of_nat (length m)) ++ body).
      split; [reflexivity|]. split.
      { constructor. unfold write_uvarint_object. rewrite <- app_assoc. constructor; [lia| | |exact He].
        - apply write_tag_varint64; cbn [wire_type]; unfold VARINT; lia.
        - constructor. apply write_uvarint_varint64. lia. }
      split; [exact Hm1|]. split; [exists ([p] ++ new); now rewrite app_assoc|].
      intros fl rest s Hfl Hi. rewrite app_length in Hfl. destruct fl as [|fl]; [lia|].
      destruct (Hrd fl rest (fun s => let '(p, s) := alloc (OList []) s in add_cached (Z.of_nat (length m)) p s) s (entered (OList []) s))
        as (vs' & s2 & H1 & H2 & H3); [lia|now apply enter_new|now apply inv_entered|].
      destruct (step_store h m m1 s s2 p (OList vs) (OList vs') (OList []) Hi H2 Ho) as [H4 H5]; [now constructor|].
      exists (VRef (length m)), (store (length m) (OList vs') s2). split; [|split; [exact H4|now constructor]].
      cbn [des]. rewrite Hres. cbn [wire_type Z.eqb BEGIN_COMPOUND SINGLE Pos.eqb orb negb].
      unfold read_uvarint_object, write_uvarint_object. rewrite <- !app_assoc.
      rewrite tag_roundtrip by (unfold VARINT; lia). cbn [bind]. cbn [Z.eqb VARINT Pos.eqb].
      rewrite uvarint_roundtrip by lia. cbn [bind]. rewrite (lookup_new m) by assumption. cbn [bind].
      change 6 with BEGIN_COMPOUND. rewrite H1. cbn [bind]. destruct Hi as [_ Hl]. rewrite Hl. reflexivity.
  - (* Dict *)
    destruct (memo_find p m) as [id|] eqn:Ef.
    + apply Ok_pair in H; destruct H as [<- <-]. apply good_known; auto.
      intros fl rest s Hi Hfl. destruct fl as [|fl]; [lia|]. cbn [des]. rewrite Hres.
      unfold consume_numbered, consume. cbn [Z.eqb EMPTY SINGLE Pos.eqb]. unfold write_uvarint_object.
      rewrite <- app_assoc. apply memo_find_some in Ef.
      assert (Hlt : (id < length m)%nat) by (apply nth_error_Some; congruence). pose proof (memo_small m Hm).
      rewrite tag_roundtrip by (unfold VARINT; lia). cbn [bind]. cbn [Z.eqb VARINT Pos.eqb].
      rewrite uvarint_roundtrip by lia. cbn [bind]. rewrite (lookup_known m) by assumption. reflexivity.
    + destruct (heap_typed p _ Hp) as (o & Ho & Hto). rewrite Ho in H. inversion Hto as [|? ? kvs Hkvs Hlen|]; subst.
      destruct (ser_all _ _ _) as [[body m1]|] eqn:E; cbn [bind] in H; [|discriminate].
      apply Ok_pair in H; destruct H as [<- <-].
      assert (Hm' : memo_ok (m ++ [p])).
      { apply memo_ok_snoc; [exact Hm|now apply memo_find_none|]. apply nth_error_Some. congruence. }
      pose proof (memo_small m Hm) as Hsm.
      assert (Hw : written (kv_items tk tv kvs) (m ++ [p]) body m1).
      { eapply (kv_written (fun x m => ser c h fuel tk x 0 m) (fun x m => ser c h fuel tv x 0 m)); [|exact Hm'|exact E].
        eapply Forall_impl; [|exact Hkvs]. cbv beta. intros kv [Hk Hv]. split; intros; eapply IH; eauto; lia. }
      clear E. destruct (written_memo _ _ _ _ _ _ Hw Hm') as [Hm1 [new Hext]].
      destruct (written_encodes _ _ _ _ _ _ Hw) as [fs Hfs].
      eexists (MCompound ((0, MVarint (Z.of_nat (length m))) :: (0, MVarint (Z.of_nat (length kvs))) :: fs ++ [])),
        (write_uvarint_object 0 (Z.of_nat (length m)) ++ write_uvarint_object 0 (Z.of_nat (length kvs)) ++ body ++ write_end_compound).
      split; [reflexivity|]. split.
      { constructor. unfold write_uvarint_object. rewrite <- !app_assoc. constructor; [lia| | |constructor; [lia| | |apply Hfs, encodes_end]].
        - apply write_tag_varint64; cbn [wire_type]; unfold VARINT; lia.
        - constructor. apply write_uvarint_varint64. lia.
        - apply write_tag_varint64; cbn [wire_type]; unfold VARINT; lia.
        - constructor. apply write_uvarint_varint64. lia. }
      split; [exact Hm1|]. split; [exists ([p] ++ new); now rewrite app_assoc|].
      intros fl rest s Hfl Hi. unfold write_uvarint_object in Hfl. rewrite !app_length, end_length in Hfl.
      pose proof (write_tag_length 0 VARINT ltac:(lia) ltac:(unfold VARINT; lia)).
      destruct fl as [|fl]; [lia|].
      cbn [des]. rewrite Hres. set (D := des c fl). destruct fl as [|[|fl]]; [lia|lia|]. cbn [wire_type]. unfold consume_numbered, consume.
      cbn [Z.eqb EMPTY SINGLE BEGIN_COMPOUND Pos.eqb consume_fields].
      unfold write_uvarint_object. rewrite <- !app_assoc. rewrite tag_roundtrip by (unfold VARINT; lia).
      cbn [bind]. cbn [Z.eqb VARINT END_COMPOUND Pos.eqb]. rewrite uvarint_roundtrip by lia. cbn [bind].
      rewrite (lookup_new m) by assumption. cbn [bind]. change (0 + 1) with 1. cbn [consume_fields].
      rewrite tag_roundtrip by (unfold VARINT; lia). cbn [bind]. cbn [Z.eqb VARINT END_COMPOUND Pos.eqb].
      rewrite uvarint_roundtrip by lia. cbn [bind].
      pose proof (enter_new m s (ODict []) Hi Hsm) as Hent. cbn [alloc] in Hent |- *. rewrite Hent. cbn [bind].
      change (1 + 1) with 2.
      match goal with |- context [consume_fields ?f fl _ _] => set (cb := f) end.
      set (Inv := fun (done : list (Z * ty * val)) (vals : list val) (s : rstate) (a : Z * (Z * option nat * Z * list val * rstate)) =>
         a = (Z.of_nat (length done) + 2, (Z.of_nat (length m), None, Z.of_nat (length kvs), vals, s))).
      assert (Hcb : forall done f t v more vals s a w bs v' bs' s',
         kv_items tk tv kvs = done ++ (f, t, v) :: more -> Inv done vals s a -> length vals = length done ->
         D t w bs s = Ok (v', bs', s') ->
         exists a', cb f w bs a = Ok (bs', a') /\ Inv (done ++ [(f, t, v)]) (vals ++ [v']) s' a').
      { intros done f0 t v more vals s1 a w bs1 v' bs' s' Hit HI Hl Hd. unfold Inv in HI. subst a. unfold cb.
        pose proof (nth_error_done _ _ _ _ Hit) as Hnth. apply kv_items_nth in Hnth. destruct Hnth as (-> & -> & Hlt).
        cbn [Z.eqb]. destruct (Z.eqb_spec (Z.of_nat (length done) + 2) 0); [lia|].
        destruct (Z.eqb_spec (Z.of_nat (length done) + 2) 1); [lia|].
        rewrite wrap_u_small by lia.
        destruct (Z.leb_spec (Z.of_nat (length kvs)) ((Z.of_nat (length done) + 2 - 2) / 2)); [lia|].
        replace (Z.even (Z.of_nat (length done) + 2)) with (Nat.even (length done))
          by (rewrite <- even_of_nat, Z.even_add; destruct (Z.even (Z.of_nat (length done))); reflexivity).
        rewrite Hd. cbn [bind]. eexists. split; [reflexivity|].
        unfold Inv. rewrite app_length. cbn [length]. f_equal. lia. }
      destruct (consume_written c h cb (S (S fl)) Inv (kv_items tk tv kvs) Hcb (kv_items tk tv kvs) [] [] _ _ _ Hw
        eq_refl eq_refl fl rest (entered (ODict []) s) (2, (Z.of_nat (length m), None, Z.of_nat (length kvs), [], entered (ODict []) s)))
        as (vals & s2 & a' & H1 & H2 & H3 & H4); [lia|lia|now apply inv_entered|reflexivity|].
      rewrite H1. cbn [bind]. unfold Inv in H3. rewrite kv_items_length in H3. subst a'. cbn [app].
      replace (Z.of_nat (2 * length kvs) + 2 - 2) with (2 * Z.of_nat (length kvs)) by lia.
      rewrite wrap_u_small by lia.
      replace (2 * Z.of_nat (length kvs) / 2) with (Z.of_nat (length kvs)) by lia. rewrite Z.eqb_refl. cbn [negb].
      rewrite (lookup_known m1); [|apply (st_inv _ _ _ _ _ H2)|now apply memo_small|rewrite Hext, !app_length; cbn [length]; lia].
      cbn [bind].
      destruct (step_store h m m1 s s2 p (ODict kvs) (ODict (pairs vals)) (ODict []) Hi H2 Ho) as [H5 H6];
        [constructor; eapply kv_pairs; exact H4|].
      eexists _, _. split; [reflexivity|]. split; [exact H5|now constructor].
  - (* Set *)
    destruct (memo_find p m) as [id|] eqn:Ef.
    + apply Ok_pair in H; destruct H as [<- <-]. apply good_known; auto.
      intros fl rest s Hi Hfl. destruct fl as [|fl]; [lia|]. cbn [des]. rewrite Hres.
      unfold consume_numbered, consume. cbn [Z.eqb EMPTY SINGLE Pos.eqb]. unfold write_uvarint_object.
      rewrite <- app_assoc. apply memo_find_some in Ef.
      assert (Hlt : (id < length m)%nat) by (apply nth_error_Some; congruence). pose proof (memo_small m Hm).
      rewrite tag_roundtrip by (unfold VARINT; lia). cbn [bind]. cbn [Z.eqb VARINT Pos.eqb].
      rewrite uvarint_roundtrip by lia. cbn [bind]. rewrite (lookup_known m) by assumption. reflexivity.
    + destruct (heap_typed p _ Hp) as (o & Ho & Hto). rewrite Ho in H. inversion Hto as [| |? vs Hvs Hlen]; subst.
      destruct (ser_all _ _ _) as [[body m1]|] eqn:E; cbn [bind] in H; [|discriminate].
      apply Ok_pair in H; destruct H as [<- <-].
      assert (Hm' : memo_ok (m ++ [p])).
      { apply memo_ok_snoc; [exact Hm|now apply memo_find_none|]. apply nth_error_Some. congruence. }
      pose proof (memo_small m Hm) as Hsm.
      assert (Hw : written (map (fun v => (0, tk, v)) vs) (m ++ [p]) body m1).
      { eapply ser_all_written; [|exact Hm'|exact E].
        unfold writes. rewrite Forall_forall in *. intros x Hx m0 b0 m0' Hm0 H0. eapply IH; eauto; lia. }
      clear E. destruct (written_memo _ _ _ _ _ _ Hw Hm') as [Hm1 [new Hext]].
      destruct (written_encodes _ _ _ _ _ _ Hw) as [fs Hfs].
      eexists (MCompound ((0, MVarint (Z.of_nat (length m))) :: (0, MVarint (Z.of_nat (length vs))) :: fs ++ [])),
        (write_uvarint_object 0 (Z.of_nat (length m)) ++ write_uvarint_object 0 (Z.of_nat (length vs)) ++ body ++ write_end_compound).
      split; [reflexivity|]. split.
      { constructor. unfold write_uvarint_object. rewrite <- !app_assoc. constructor; [lia| | |constructor; [lia| | |apply Hfs, encodes_end]].
        - apply write_tag_varint64; cbn [wire_type]; unfold VARINT; lia.
        - constructor. apply write_uvarint_varint64. lia.
        - apply write_tag_varint64; cbn [wire_type]; unfold VARINT; lia.
        - constructor. apply write_uvarint_varint64. lia. }
      split; [exact Hm1|]. split; [exists ([p] ++ new); now rewrite app_assoc|].
      intros fl rest s Hfl Hi. unfold write_uvarint_object in Hfl. rewrite !app_length, end_length in Hfl.
      pose proof (write_tag_length 0 VARINT ltac:(lia) ltac:(unfold VARINT; lia)).
      destruct fl as [|fl]; [lia|].
      cbn [des]. rewrite Hres. set (D := des c fl). destruct fl as [|[|fl]]; [lia|lia|]. cbn [wire_type]. unfold consume_numbered, consume.
      cbn [Z.eqb EMPTY SINGLE BEGIN_COMPOUND Pos.eqb consume_fields].
      unfold write_uvarint_object. rewrite <- !app_assoc. rewrite tag_roundtrip by (unfold VARINT; lia).
      cbn [bind]. cbn [Z.eqb VARINT END_COMPOUND Pos.eqb]. rewrite uvarint_roundtrip by lia. cbn [bind].
      rewrite (lookup_new m) by assumption. cbn [bind]. change (0 + 1) with 1. cbn [consume_fields].
      rewrite tag_roundtrip by (unfold VARINT; lia). cbn [bind]. cbn [Z.eqb VARINT END_COMPOUND Pos.eqb].
      rewrite uvarint_roundtrip by lia. cbn [bind].
      pose proof (enter_new m s (OSet []) Hi Hsm) as Hent. cbn [alloc] in Hent |- *. rewrite Hent. cbn [bind].
      change (1 + 1) with 2.
      match goal with |- context [consume_fields ?f fl _ _] => set (cb := f) end.
      set (items := map (fun v => (0, tk, v)) vs) in *.
      assert (Hil : length items = length vs) by (unfold items; now rewrite map_length).
      set (Inv := fun (done : list (Z * ty * val)) (vals : list val) (s : rstate) (a : Z * (Z * option nat * Z * list val * rstate)) =>
         a = (Z.of_nat (length done) + 2, (Z.of_nat (length m), None, Z.of_nat (length vs), vals, s))).
      assert (Hcb : forall done f t v more vals s a w bs v' bs' s',
         items = done ++ (f, t, v) :: more -> Inv done vals s a -> length vals = length done ->
         D t w bs s = Ok (v', bs', s') ->
         exists a', cb f w bs a = Ok (bs', a') /\ Inv (done ++ [(f, t, v)]) (vals ++ [v']) s' a').
      { intros done f0 t v more vals s1 a w bs1 v' bs' s' Hit HI Hl Hd. unfold Inv in HI. subst a. unfold cb.
        pose proof (nth_error_done _ _ _ _ Hit) as Hnth.
        assert (Hlt : (length done < length vs)%nat) by (rewrite <- Hil; apply nth_error_Some; congruence).
        unfold items in Hnth. rewrite nth_error_map in Hnth.
        destruct (nth_error vs (length done)) as [x|]; [|discriminate]. cbn [option_map] in Hnth. injection Hnth as <- <- _.
        cbn [Z.eqb]. destruct (Z.eqb_spec (Z.of_nat (length done) + 2) 0); [lia|].
        destruct (Z.eqb_spec (Z.of_nat (length done) + 2) 1); [lia|].
        rewrite wrap_u_small by lia.
        destruct (Z.leb_spec (Z.of_nat (length vs)) (Z.of_nat (length done) + 2 - 2)); [lia|].
        rewrite Hd. cbn [bind]. eexists. split; [reflexivity|].
        unfold Inv. rewrite app_length. cbn [length]. f_equal. lia. }
      destruct (consume_written c h cb (S (S fl)) Inv items Hcb items [] [] _ _ _ Hw
        eq_refl eq_refl fl rest (entered (OSet []) s) (2, (Z.of_nat (length m), None, Z.of_nat (length vs), [], entered (OSet []) s)))
        as (vals & s2 & a' & H1 & H2 & H3 & H4); [lia|lia|now apply inv_entered|reflexivity|].
      rewrite H1. cbn [bind]. unfold Inv in H3. rewrite Hil in H3. subst a'. cbn [app].
      replace (Z.of_nat (length vs) + 2 - 2) with (Z.of_nat (length vs)) by lia.
      rewrite wrap_u_small by lia. rewrite Z.eqb_refl. cbn [negb].
      rewrite (lookup_known m1); [|apply (st_inv _ _ _ _ _ H2)|now apply memo_small|rewrite Hext, !app_length; cbn [length]; lia].
      cbn [bind].
      destruct (step_store h m m1 s s2 p (OSet vs) (OSet vals) (OSet []) Hi H2 Ho) as [H5 H6].
      { constructor. clear - H4. unfold items in H4. revert vals H4.
        induction vs as [|v vs IH]; intros vals H4; cbn [map] in H4; inversion H4; subst; constructor; auto. }
      eexists _, _. split; [reflexivity|]. split; [exact H5|now constructor].
Qed.

End Main.
