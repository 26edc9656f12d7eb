(** Reading back what was serialized gives the same graph of objects. *)
From Verif Require Import Base Wire_Model Wire_Spec Wire_Proofs Serial_Model Serial_Spec Serial_Data_Proofs.
From Coq Require Import ZifyBool ZifyNat.
Ltac Zify.zify_post_hook ::= Z.div_mod_to_equations.
Open Scope Z_scope.

(** ** Induction over nested types and values *)

Lemma ty_induct (P : ty -> Prop) :
  P TBool -> (forall s n, P (TInt s n)) -> (forall n, P (TFloat n)) -> P TNone -> P TValue -> P TStr -> P TBytes ->
  (forall t, P t -> P (TTupleOf t)) -> (forall t, P t -> P (TListOf t)) ->
  (forall ts, Forall P ts -> P (TTuple ts)) -> (forall ts, Forall P ts -> P (TOneOf ts)) ->
  (forall ts, Forall P ts -> P (TAlternative ts)) ->
  (forall k v, P k -> P v -> P (TConstDict k v)) -> (forall k v, P k -> P v -> P (TDict k v)) ->
  (forall k, P k -> P (TSet k)) -> (forall n, P (TNamed n)) -> forall t, P t.
Proof.
  intros Hb Hi Hf Hn Hv Hs Hy Htof Hlof Htuple Honeof Halt Hcd Hd Hset Hnamed. fix IH 1. intros [].
  - apply Hb.
  - apply Hi.
  - apply Hf.
  - apply Hn.
  - apply Hv.
  - apply Hs.
  - apply Hy.
  - apply Htof, IH.
  - apply Hlof, IH.
  - apply Htuple. induction ts as [|t ts IHts]; constructor; [apply IH|exact IHts].
  - apply Honeof. induction ts as [|t ts IHts]; constructor; [apply IH|exact IHts].
  - apply Halt. induction ts as [|t ts IHts]; constructor; [apply IH|exact IHts].
  - apply Hcd; apply IH.
  - apply Hd; apply IH.
  - apply Hset; apply IH.
  - apply Hnamed.
Qed.

Lemma val_induct (P : val -> Prop) :
  (forall b, P (VBool b)) -> (forall z, P (VInt z)) -> (forall z, P (VFloat z)) -> P VNone ->
  (forall ps, P (VStr ps)) -> (forall d, P (VBytes d)) ->
  (forall vs, Forall P vs -> P (VSeq vs)) -> (forall vs, Forall P vs -> P (VTuple vs)) ->
  (forall i v, P v -> P (VOneOf i v)) -> (forall i v, P v -> P (VAlt i v)) ->
  (forall kvs, Forall (fun kv => P (fst kv) /\ P (snd kv)) kvs -> P (VConstDict kvs)) ->
  (forall p, P (VRef p)) -> forall v, P v.
Proof.
  intros Hb Hi Hf Hn Hs Hy Hseq Htup Hone Halt Hcd Hr. fix IH 1. intros [].
  - apply Hb.
  - apply Hi.
  - apply Hf.
  - apply Hn.
  - apply Hs.
  - apply Hy.
  - apply Hseq. induction vs as [|v vs IHvs]; constructor; [apply IH|exact IHvs].
  - apply Htup. induction vs as [|v vs IHvs]; constructor; [apply IH|exact IHvs].
  - apply Hone, IH.
  - apply Halt, IH.
  - apply Hcd. induction kvs as [|[k v] kvs IHvs]; constructor; [split; apply IH|exact IHvs].
  - apply Hr.
Qed.

Lemma val_rel_mono (R1 R2 : nat -> nat -> Prop) : (forall p q, R1 p q -> R2 p q) ->
  forall v w, val_rel R1 v w -> val_rel R2 v w.
Proof.
  intros HR. induction v using val_induct; intros w Hw; inversion Hw; subst; constructor; auto.
  - match goal with H : Forall2 _ vs ?l |- _ => revert l H Hw end.
    induction H as [|v vs Hv Hvs IH]; intros l Hl _; inversion Hl; subst; constructor; auto.
    apply IH; [assumption|now constructor].
  - match goal with H : Forall2 _ vs ?l |- _ => revert l H Hw end.
    induction H as [|v vs Hv Hvs IH]; intros l Hl _; inversion Hl; subst; constructor; auto.
    apply IH; [assumption|now constructor].
  - match goal with H : Forall2 _ kvs ?l |- _ => revert l H Hw end.
    induction H as [|v vs Hv Hvs IH]; intros l Hl _; inversion Hl; subst; constructor; auto.
    + destruct Hv as [Hv1 Hv2]. match goal with H : _ /\ _ |- _ => destruct H end. split; auto.
    + apply IH; [assumption|now constructor].
Qed.

Lemma Forall2_impl' {A B} (P Q : A -> B -> Prop) l l' :
  (forall a b, P a b -> Q a b) -> Forall2 P l l' -> Forall2 Q l l'.
Proof. intros H. induction 1; constructor; auto. Qed.

Lemma obj_rel_mono (R1 R2 : nat -> nat -> Prop) : (forall p q, R1 p q -> R2 p q) ->
  forall o o', obj_rel R1 o o' -> obj_rel R2 o o'.
Proof.
  intros HR o o' H. destruct H; constructor; (eapply Forall2_impl'; [|eassumption]); cbv beta; intros.
  - eapply val_rel_mono; eauto.
  - destruct H0. split; eapply val_rel_mono; eauto.
  - eapply val_rel_mono; eauto.
Qed.

Lemma tree_rel R v : tree v -> val_rel R v v.
Proof.
  induction v using val_induct; intros Ht; inversion Ht; subst; constructor; auto.
  - match goal with Ha : Forall tree vs |- _ => clear Ht; induction Ha; inversion H; subst; constructor; auto end.
  - match goal with Ha : Forall tree vs |- _ => clear Ht; induction Ha; inversion H; subst; constructor; auto end.
  - match goal with Ha : Forall _ kvs, Hb : Forall _ kvs |- _ => clear Ht; induction kvs; inversion Ha; inversion Hb; subst; constructor; auto end.
    intuition.
Qed.

Lemma tree_rel_eq R v w : tree v -> val_rel R v w -> v = w.
Proof.
  intros Ht. revert w. induction v using val_induct; intros w Hw; inversion Ht; inversion Hw; subst; f_equal; auto.
  - match goal with Ha : Forall2 _ vs ?l |- _ => revert Ha; clear Hw Ht; generalize l end.
    intros l Hl. induction Hl; [reflexivity|]. inversion H; inversion H1; subst. f_equal; auto.
  - match goal with Ha : Forall2 _ vs ?l |- _ => revert Ha; clear Hw Ht; generalize l end.
    intros l Hl. induction Hl; [reflexivity|]. inversion H; inversion H1; subst. f_equal; auto.
  - match goal with Ha : Forall2 _ kvs ?l |- _ => revert Ha; clear Hw Ht; generalize l end.
    intros l Hl. induction Hl as [|[a b] [a' b'] l l' Hh Hl IH]; [reflexivity|].
    inversion H; inversion H1; subst. cbn [fst snd] in *.
    f_equal; [|auto]. f_equal; intuition.
Qed.

(** ** Plain data *)

Definition sum_bytes (ts : list ty) : nat := fold_right (fun t n => bytecount t + n)%nat 0%nat ts.
Definition max_bytes (ts : list ty) : nat := fold_right (fun t n => Nat.max (bytecount t) n) 0%nat ts.

Lemma bytecount_tuple ts : bytecount (TTuple ts) = sum_bytes ts.
Proof. cbn [bytecount]. induction ts as [|t ts IH]; [reflexivity|]. cbn [sum_bytes fold_right]. now rewrite IH. Qed.

Lemma bytecount_oneof ts : bytecount (TOneOf ts) = S (max_bytes ts).
Proof. reflexivity. Qed.

Lemma is_pod_tuple ts : is_pod (TTuple ts) = forallb is_pod ts.
Proof. cbn [is_pod]. induction ts as [|t ts IH]; [reflexivity|]. cbn [forallb]. now rewrite IH. Qed.

Lemma is_pod_oneof ts : is_pod (TOneOf ts) = forallb is_pod ts.
Proof. cbn [is_pod]. induction ts as [|t ts IH]; [reflexivity|]. cbn [forallb]. now rewrite IH. Qed.

Lemma is_pod_alternative ts : is_pod (TAlternative ts) = forallb (fun t => Nat.eqb (bytecount t) 0) ts.
Proof. cbn [is_pod]. induction ts as [|t ts IH]; [reflexivity|]. cbn [forallb]. now rewrite IH. Qed.

Lemma bytecount_alternative ts :
  bytecount (TAlternative ts) = if forallb (fun t => Nat.eqb (bytecount t) 0) ts then 1%nat else 8%nat.
Proof.
  cbn [bytecount].
  match goal with |- (if ?a then _ else _) = (if ?b then _ else _) => replace a with b; [reflexivity|] end.
  induction ts as [|t ts IH]; [reflexivity|]. cbn [forallb]. now rewrite IH.
Qed.

Lemma forallb_nth {A} (f : A -> bool) l i x : forallb f l = true -> nth_error l i = Some x -> f x = true.
Proof. intros H Hn. rewrite forallb_forall in H. apply H. eapply nth_error_In; eauto. Qed.

Lemma max_bytes_nth ts i t : nth_error ts i = Some t -> (bytecount t <= max_bytes ts)%nat.
Proof.
  revert i. induction ts as [|t0 ts IH]; intros [|i] H; cbn [nth_error max_bytes fold_right] in *; try discriminate.
  - injection H as ->. lia.
  - apply IH in H. unfold max_bytes in H. lia.
Qed.

Section Typed.
Variable c : context.
Variable S0 : list ty.

Lemma zero_size t : bytecount t = 0%nat -> forall v, has_type c S0 t v -> v = zero_size_value t /\ tree v.
Proof.
  induction t using ty_induct; intros Hb v Hv; try discriminate Hb;
    try (inversion Hv; subst; split; [reflexivity|constructor]; fail).
  - cbn [bytecount] in Hb. subst n. inversion Hv; subst; cbn [In] in *; exfalso; intuition discriminate.
  - cbn [bytecount] in Hb. subst n. inversion Hv; subst; cbn [In] in *; exfalso; intuition discriminate.
  - inversion Hv; subst. rewrite bytecount_tuple in Hb. cbn [zero_size_value].
    match goal with H2 : Forall2 _ ts vs |- _ => rename H2 into Hvs end. clear Hv.
    assert (G : vs = map zero_size_value ts /\ Forall tree vs).
    { match goal with Hl : _ < _ |- _ => clear Hl end.
      revert H Hb. induction Hvs as [|t v ts vs Ht Hvs IH]; intros H Hb; [split; [reflexivity|constructor]|].
      inversion H as [|? ? H0 H1]; subst. cbn [sum_bytes fold_right] in Hb.
      destruct (H0 ltac:(lia) v Ht). destruct (IH H1) as [E F]; [unfold sum_bytes; lia|].
      cbn [map]. split; [congruence|now constructor]. }
    destruct G as [-> F]. split; [reflexivity|now constructor].
  - rewrite bytecount_alternative in Hb. destruct (forallb _ ts); discriminate.
Qed.

Lemma raw_fields_nil ts vs :
  (fix fields (ts : list ty) (vs : list val) {struct ts} : bytes :=
     match ts, vs with t :: ts, v :: vs => raw c t v ++ fields ts vs | _, _ => [] end) ts vs
  = concat (map (fun tv => raw c (fst tv) (snd tv)) (combine ts vs)).
Proof.
  revert vs. induction ts as [|t ts IH]; intros [|v vs]; try reflexivity.
  cbn [combine map concat fst snd]. now rewrite IH.
Qed.

Lemma firstn_app_exact {A} n (a b : list A) : length a = n -> firstn n (a ++ b) = a.
Proof. intros <-. rewrite firstn_app, Nat.sub_diag, firstn_all. cbn. apply app_nil_r. Qed.

Lemma skipn_app_exact {A} n (a b : list A) : length a = n -> skipn n (a ++ b) = b.
Proof. intros <-. rewrite skipn_app, Nat.sub_diag, skipn_all. reflexivity. Qed.

Hypothesis Hc : context_ok c.

Lemma raw_ok t : is_pod t = true -> forall v, has_type c S0 t v ->
  length (raw c t v) = bytecount t /\ of_raw t (raw c t v) = Ok v /\ tree v.
Proof.
  induction t using ty_induct; intros Hp v Hv; try discriminate Hp.
  - inversion Hv; subst. cbn. destruct b; repeat split; constructor.
  - inversion Hv as [|? ? Hin Hr|? ? Hin Hr| | | | | | | | | | | | | |]; subst; cbn [raw bytecount of_raw]; rewrite le_bytes_length;
      (split; [reflexivity|]); (split; [|constructor]).
    + rewrite le_bytes_signed; [reflexivity| |exact Hr]. cbn [In] in Hin. lia.
    + rewrite of_le_bytes_unsigned by exact Hr. reflexivity.
  - inversion Hv; subst. cbn [raw bytecount of_raw]. rewrite le_bytes_length, of_le_bytes_unsigned by assumption.
    repeat split; constructor.
  - inversion Hv; subst. cbn. repeat split; constructor.
  - inversion Hv; subst. cbn. repeat split; constructor.
  - inversion Hv as [| | | | | | | | |? ? Hvs Hlen| | | | | | |]; subst. rewrite is_pod_tuple in Hp. rewrite bytecount_tuple.
    assert (G : length (concat (map (fun tv => raw c (fst tv) (snd tv)) (combine ts vs))) = sum_bytes ts /\
      (fix fields (ts : list ty) (bs : bytes) {struct ts} : result (list val) :=
         match ts with
         | [] => Ok []
         | t :: ts =>
             bind (of_raw t (firstn (bytecount t) bs)) (fun v =>
             bind (fields ts (skipn (bytecount t) bs)) (fun vs => Ok (v :: vs)))
         end) ts (concat (map (fun tv => raw c (fst tv) (snd tv)) (combine ts vs))) = Ok vs /\ Forall tree vs).
    { clear Hlen Hv. revert H Hp. induction Hvs as [|t v ts vs Ht Hvs IH]; intros H Hp; [repeat split; constructor|].
      inversion H as [|? ? H0 H1]; subst. cbn [forallb] in Hp. apply andb_prop in Hp. destruct Hp as [Hp1 Hp2].
      destruct (H0 Hp1 v Ht) as (L & O & T). destruct (IH H1 Hp2) as (L' & O' & T').
      cbn [combine map concat fst snd sum_bytes fold_right]. rewrite app_length, L, L'. repeat split.
      - rewrite firstn_app_exact, skipn_app_exact by exact L. rewrite O. cbn [bind]. rewrite O'. reflexivity.
      - now constructor. }
    destruct G as (G1 & G2 & G3). cbn [raw of_raw]. rewrite raw_fields_nil, G1, G2. repeat split. now constructor.
  - inversion Hv as [| | | | | | | | | |? i t w Hi Hlt Hw| | | | | |]; subst. rewrite is_pod_oneof in Hp. rewrite bytecount_oneof.
    assert (G : (fix pick (ts : list ty) (i : nat) {struct ts} : bytes :=
           match ts, i with
           | t :: _, O => raw c t w
           | _ :: ts, Datatypes.S i => pick ts i
           | [], _ => []
           end) ts i = raw c t w).
    { clear - Hi. revert i Hi. induction ts as [|t0 ts IH]; intros [|i] Hi; cbn [nth_error] in *; try discriminate.
      - congruence.
      - apply IH, Hi. }
    assert (Ht := Hp). apply (forallb_nth _ _ _ _ Ht) in Hi as Hpt.
    rewrite Forall_forall in H. destruct (H t (nth_error_In _ _ Hi) Hpt w Hw) as (L & O & T).
    cbn [raw]. rewrite G.
    assert (Hm := max_bytes_nth _ _ _ Hi).
    assert (Eb : bytecount (TOneOf ts) = Datatypes.S (max_bytes ts)) by apply bytecount_oneof.
    split; [|split; [|now constructor]].
    + cbn [length]. rewrite app_length, Hc, L. rewrite Eb. lia.
    + cbn [of_raw]. rewrite Nat2Z.id.
      match goal with |- bind ?p _ = _ => replace p with (Ok (A := val) w); [reflexivity|] end.
      rewrite Eb. symmetry. clear - Hi O L.
      match goal with |- context [garbage c ?v ?n] => generalize (garbage c v n) end. intros g.
      revert i Hi. induction ts as [|t0 ts IH]; intros [|i] Hi; cbn [nth_error] in *; try discriminate.
      * injection Hi as ->. rewrite firstn_app_exact by exact L. exact O.
      * apply IH, Hi.
  - inversion Hv as [| | | | | | | | | | |? i t w Hi Hlt Hw| | | | |]; subst. rewrite is_pod_alternative in Hp.
    rewrite bytecount_alternative, Hp. cbn [raw of_raw length]. rewrite Nat2Z.id, Hi.
    assert (Hz := forallb_nth _ _ _ _ Hp Hi). cbv beta in Hz. apply Nat.eqb_eq in Hz.
    destruct (zero_size t Hz w Hw) as [-> T]. repeat split. now constructor.
Qed.

Lemma raws_ok t vs : is_pod t = true -> Forall (has_type c S0 t) vs ->
  length (concat (map (raw c t) vs)) = (length vs * bytecount t)%nat /\
  of_raws t (length vs) (concat (map (raw c t) vs)) = Ok vs.
Proof.
  intros Hp. induction 1 as [|v vs Hv Hvs [IH1 IH2]]; [split; reflexivity|].
  destruct (raw_ok t Hp v Hv) as (L & O & _).
  cbn [map concat length of_raws]. rewrite app_length, L, IH1. split; [lia|].
  rewrite firstn_app_exact, skipn_app_exact by exact L. rewrite O. cbn [bind]. rewrite IH2. reflexivity.
Qed.

End Typed.

(** ** Positions *)

Lemma Forall2_flat (P : val -> val -> Prop) kvs kws :
  Forall2 (fun kv kw => P (fst kv) (fst kw) /\ P (snd kv) (snd kw)) kvs kws ->
  Forall2 P (flat_map (fun kv => [fst kv; snd kv]) kvs) (flat_map (fun kv => [fst kv; snd kv]) kws).
Proof. induction 1 as [|kv kw kvs kws [H1 H2] H IH]; [constructor|]. cbn [flat_map app]. constructor; [exact H1|constructor; [exact H2|exact IH]]. Qed.

Lemma parts_rel (R : nat -> nat -> Prop) h h' :
  (forall p q, R p q -> exists o o', nth_error h p = Some o /\ nth_error h' q = Some o' /\ obj_rel R o o') ->
  forall v v', val_rel R v v' -> Forall2 (val_rel R) (parts h v) (parts h' v').
Proof.
  intros Ho v v' H. destruct H; cbn [parts]; try constructor; try assumption; try constructor.
  - now apply Forall2_flat.
  - destruct (Ho p q H) as (o & o' & -> & -> & Hr). destruct Hr; [assumption|now apply Forall2_flat|assumption].
Qed.

Lemma Forall2_nth {A B} (P : A -> B -> Prop) l l' : Forall2 P l l' -> forall i,
  match nth_error l i, nth_error l' i with
  | Some a, Some b => P a b
  | None, None => True
  | _, _ => False
  end.
Proof. induction 1; intros [|i]; cbn [nth_error]; try exact I; [assumption|apply IHForall2]. Qed.

Lemma at_path_rel (R : nat -> nat -> Prop) h h' :
  (forall p q, R p q -> exists o o', nth_error h p = Some o /\ nth_error h' q = Some o' /\ obj_rel R o o') ->
  forall path v v', val_rel R v v' ->
  match at_path h v path, at_path h' v' path with
  | Some a, Some b => val_rel R a b
  | None, None => True
  | _, _ => False
  end.
Proof.
  intros Ho. induction path as [|i path IH]; intros v v' H; cbn [at_path]; [exact H|].
  pose proof (Forall2_nth _ _ _ (parts_rel R h h' Ho v v' H) i) as Hn.
  destruct (nth_error (parts h v) i), (nth_error (parts h' v') i); try contradiction; [now apply IH|exact I].
Qed.
