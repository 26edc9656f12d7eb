(** Proofs that values with one meaning have one hash, and about compiled hashing. *)
From Coq Require Import ZifyBool ZifyNat.
From Verif Require Import Base HashAcc_Model ConstDict_Model Val_Model Val_Spec Val_Proofs.
Open Scope Z_scope.
Open Scope result_scope.

Section Hash.
Variable D : declarations.

Lemma map_Num_inj : forall l r, map Num l = map Num r -> l = r.
Proof. induction l as [|x l IH]; intros [|y r]; try discriminate; auto. intros [= -> H]; f_equal; auto. Qed.

Lemma cached_valid cache h : (cache <> -1 -> cache = finish_hash h) -> cached cache h = finish_hash h.
Proof. intros H; unfold cached; destruct (Z.eqb_spec cache (-1)); auto. Qed.

Lemma same_hashes : forall vs ws,
  (forall v w, In (v, w) (combine vs ws) -> meaning v = meaning w -> hash v = hash w) ->
  map meaning vs = map meaning ws -> map hash vs = map hash ws.
Proof.
  induction vs as [|v vs IH]; intros [|w ws] H E; try discriminate; auto.
  assert (E1 : meaning v = meaning w) by (injection E; auto).
  assert (E2 : map meaning vs = map meaning ws) by (injection E; auto).
  cbn [map]; f_equal; [apply H; auto; left; auto | apply IH; auto; intros; apply H; auto; right; auto].
Qed.

Lemma everywhere_here (P : val -> Prop) v : everywhere P v -> P v.
Proof. destruct v; cbn; tauto. Qed.

Lemma hash_of_meaning : forall v w t, has_type D v t -> has_type D w t ->
  everywhere representable v -> everywhere representable w -> meaning v = meaning w -> hash v = hash w.
Proof.
  induction v as [|b|b z|b|p wd c l|p c l|p c vs IH|vs IH|i v IH|p i v IH|v IH|p|p fs IH] using val_ind2;
    intros w t Tv Tw Rv Rw; pose proof (everywhere_here _ _ Rv) as (Nv & Ev & Wv & Cv & Hv);
    pose proof (everywhere_here _ _ Rw) as (Nw & Ew & Ww & Cw & Hw);
    destruct t; cbn in Tv; try contradiction; destruct w; cbn in Tw; try contradiction; intros E.
  - reflexivity.
  - destruct b, b0; discriminate || reflexivity.
  - cbn in E; injection E as ->. destruct Tv as (-> & _), Tw as (-> & _). reflexivity.
  - cbn in E, Nv, Nw. destruct (float_value b) as [x|] eqn:E1; [|contradiction].
    destruct (float_value bits) as [y|] eqn:E2; [|contradiction]. injection E as ->.
    cbn [hash]. eapply float_same; eauto.
  - cbn in E; injection E as E; apply map_Num_inj in E as <-.
    cbn in Wv, Ww; subst. cbn [hash]; unfold hash_string. cbn in Cv, Cw; unfold hash_string in Cv, Cw.
    destruct Tv as (Pv & _), Tw as (Pw & _). cbn in Ev, Ew.
    destruct (Z.eqb_spec p 0) as [E1|E1], (Z.eqb_spec p0 0) as [E2|E2]; auto; try tauto.
    rewrite !cached_valid; auto.
  - cbn in E; injection E as E; apply map_Num_inj in E as <-.
    cbn [hash]; unfold hash_bytes. cbn in Cv, Cw; unfold hash_bytes in Cv, Cw.
    destruct Tv as (Pv & _), Tw as (Pw & _). cbn in Ev, Ew.
    destruct (Z.eqb_spec p 0) as [E1|E1], (Z.eqb_spec p0 0) as [E2|E2]; auto; try tauto.
    rewrite !cached_valid; auto.
  - assert (Em : map meaning vs = map meaning vs0) by (cbn in E; injection E; auto).
    destruct Tv as (Pv & Tv), Tw as (Pw & Tw), Rv as (_ & Rv), Rw as (_ & Rw). rewrite Forall_forall in IH.
    assert (Eh : map hash vs = map hash vs0).
    { apply same_hashes; auto. intros x y I.
      pose proof (in_combine_l _ _ _ _ I) as I1; pose proof (in_combine_r _ _ _ _ I) as I2.
      apply (IH x I1 y t); [exact (all_in _ _ _ Tv I1) | exact (all_in _ _ _ Tw I2) |
        exact (all_in _ _ _ Rv I1) | exact (all_in _ _ _ Rw I2)]. }
    cbn in Cv, Cw; cbn [hash]. rewrite <- Eh in *.
    assert (L : length vs = length vs0) by (apply (f_equal (@length tree)) in Em; rewrite !map_length in Em; auto).
    destruct (Z.eqb_spec p 0) as [E1|E1], (Z.eqb_spec p0 0) as [E2|E2]; auto.
    + exfalso; apply E2, Pw. apply Pv in E1; subst. destruct vs0; auto; discriminate.
    + exfalso; apply E1, Pv. apply Pw in E2; subst. destruct vs; auto; discriminate.
    + rewrite !cached_valid; auto.
  - assert (Em : map meaning vs = map meaning vs0) by (cbn in E; injection E; auto).
    destruct Tv as (Pv & Tv), Tw as (Pw & Tw), Rv as (_ & Rv), Rw as (_ & Rw). rewrite Forall_forall in IH.
    assert (Eh : map hash vs = map hash vs0).
    { apply same_hashes; auto. intros x y I.
      pose proof (in_combine_l _ _ _ _ I) as I1; pose proof (in_combine_r _ _ _ _ I) as I2.
      apply (IH x I1 y t); [exact (all_in _ _ _ Tv I1) | exact (all_in _ _ _ Tw I2) |
        exact (all_in _ _ _ Rv I1) | exact (all_in _ _ _ Rw I2)]. }
    cbn in Cv, Cw; cbn [hash]. rewrite <- Eh in *.
    destruct (Z.eqb_spec p 0) as [E1|E1], (Z.eqb_spec p0 0) as [E2|E2]; auto; try tauto.
    rewrite !cached_valid; auto.
  - assert (Em : map meaning vs = map meaning vs0) by (cbn in E; injection E; auto).
    destruct Rv as (_ & Rv), Rw as (_ & Rw). rewrite Forall_forall in IH.
    assert (Eh : map hash vs = map hash vs0).
    { apply same_hashes; auto. intros x y I.
      pose proof (in_combine_l _ _ _ _ I) as I1; pose proof (in_combine_r _ _ _ _ I) as I2.
      destruct (all2_in _ _ _ _ _ _ Tv Tw I) as (t & T1 & T2).
      apply (IH x I1 y t); [exact T1 | exact T2 | exact (all_in _ _ _ Rv I1) | exact (all_in _ _ _ Rw I2)]. }
    cbn [hash]; rewrite Eh; reflexivity.
  - assert (E1 : i = which) by (cbn in E; injection E; intros; lia).
    assert (E2 : meaning v = meaning w) by (cbn in E; injection E; auto).
    subst which. destruct Rv as (_ & Rv), Rw as (_ & Rw).
    destruct (nth_error ts i) as [t|]; [|contradiction]. cbn [hash]; eauto.
  - assert (E1 : i = which) by (cbn in E; injection E; intros; lia).
    assert (E2 : meaning v = meaning w) by (cbn in E; injection E; auto).
    subst which. destruct Rv as (_ & Rv), Rw as (_ & Rw), Tv as (_ & Tv), Tw as (_ & Tw).
    destruct (nth_error (options_of D name) i) as [ts|]; [|contradiction].
    cbn [hash]. rewrite (IH w (TTuple ts)); auto.
  - subst; reflexivity.
  - cbn in E; injection E as ->; reflexivity.
Qed.
End Hash.

(** ** Compiled hashing *)

Lemma compiled_all_ok (f : Z -> Z) : forall vs,
  (forall v, In v vs -> compiled_hash v = Ok (hash v)) ->
  (fix go vs := match vs with [] => Ok [] | v :: vs => h <- compiled_hash v ;; hs <- go vs ;; Ok (f h :: hs) end) vs =
  Ok (map f (map hash vs)).
Proof.
  induction vs as [|v vs IH]; intros H; auto.
  rewrite (H v) by (left; auto); cbn [bind]. rewrite IH by (intros; apply H; right; auto). reflexivity.
Qed.
Lemma finish_map : forall l, Forall (fun h => h <> -1) l -> map finish_hash l = l.
Proof.
  induction 1 as [|h l H _ IH]; auto. cbn [map]. rewrite IH. f_equal.
  unfold finish_hash; destruct (Z.eqb_spec h (-1)); auto; contradiction.
Qed.

Lemma compiled_agrees : forall v, compiles v -> compiled_hash v = Ok (hash v).
Proof.
  induction v as [|b|b z|b|p wd c l|p c l|p c vs IH|vs IH|i v IH|p i v IH|v IH|p|p fs IH] using val_ind2;
    intros H; cbn in H; try contradiction; try reflexivity.
  - destruct H as (Hp & Hh & Hc). rewrite Forall_forall in IH. cbn [compiled_hash hash].
    apply Z.eqb_neq in Hp as ->. unfold cached.
    destruct (Z.eqb_spec c (-1)) as [E|E]; cbn [negb]; auto.
    rewrite compiled_all_ok by (intros v I; apply IH; auto; exact (all_in _ _ _ Hc I)).
    cbn [bind]. rewrite finish_map by (apply Forall_map; auto). reflexivity.
  - rewrite Forall_forall in IH. cbn [compiled_hash hash].
    rewrite compiled_all_ok by (intros v I; apply IH; auto; exact (all_in _ _ _ H I)).
    cbn [bind]. rewrite map_id. reflexivity.
  - cbn [compiled_hash hash]; auto.
Qed.
