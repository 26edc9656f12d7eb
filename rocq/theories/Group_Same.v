(** Hashes do not depend on which objects stand for which. *)

From Verif Require Import Base Group_Model Group_Spec Group_Proofs.
Open Scope list_scope.

Section Same.
Context {V W H : Type} (eqb : V -> V -> bool) (eqb' : W -> W -> bool)
  (succ : V -> list V) (succ' : W -> list W) (const : V -> bool) (const' : W -> bool)
  (root_of : list V -> V * bool) (root_of' : list W -> W * bool)
  (mix : V -> list (ref V H) -> H) (mix' : W -> list (ref W H) -> H)
  (sum : list H -> H) (poison : H) (to : V -> W).

Hypothesis eqb_spec : forall x y, eqb x y = true <-> x = y.
Hypothesis eqb_spec' : forall x y, eqb' x y = true <-> x = y.
Hypothesis root_same' : forall ms ns, same ms ns -> root_of' ms = root_of' ns.
Hypothesis to_inj : forall x y, to x = to y -> x = y.
Hypothesis to_succ : forall v, succ' (to v) = map to (succ v).
Hypothesis to_const : forall v, const' (to v) = const v.
Hypothesis to_root : forall ms, class succ const ms ->
  root_of' (map to ms) = (to (fst (root_of ms)), snd (root_of ms)).
Hypothesis to_mix : forall v rs, mix' (to v) (map (ref_to to) rs) = mix v rs.

Lemma reach_to u v : reach succ const u v -> reach succ' const' (to u) (to v).
Proof.
  intros R. induction R as [|u v w R IH I C]; [apply reach_refl|].
  apply (reach_step _ _ _ (to v)); [exact IH|rewrite to_succ; now apply in_map|now rewrite to_const].
Qed.

Lemma reach_from x y : reach succ' const' x y -> forall u, x = to u ->
  exists v, y = to v /\ reach succ const u v.
Proof.
  intros R. induction R as [x|x y z R IH I C]; intros u E.
  - exists u. split; [exact E|apply reach_refl].
  - destruct (IH u E) as (v & -> & Rv). rewrite to_succ in I. apply in_map_iff in I as (w & <- & Iw).
    exists w. split; [reflexivity|]. apply (reach_step _ _ _ v); [exact Rv|exact Iw|now rewrite <- to_const].
Qed.

Lemma in_to v ms : In (to v) (map to ms) <-> In v ms.
Proof.
  rewrite in_map_iff. split; [|eauto]. intros (x & E & I). apply to_inj in E. now subst.
Qed.

Lemma class_to ms : class succ const ms -> class succ' const' (map to ms).
Proof.
  intros (NE & ND & K). split; [destruct ms; [congruence|discriminate]|]. split.
  - clear - ND to_inj. induction ND as [|x ms N ND IH]; cbn; constructor; [|exact IH].
    intros I. apply in_map_iff in I as (y & E & J). apply to_inj in E. now subst.
  - intros x Hx y. apply in_map_iff in Hx as (v & <- & Hv). split.
    + intros Hy. apply in_map_iff in Hy as (w & <- & Hw). apply (K v Hv) in Hw as [A B].
      split; now apply reach_to.
    + intros [A B]. destruct (reach_from _ _ A v eq_refl) as (w & -> & Rw).
      destruct (reach_from _ _ B w eq_refl) as (v' & E & Rv). apply to_inj in E. subst v'.
      apply in_map, (K v Hv). split; assumption.
Qed.

Lemma mem_to v ms : mem eqb' (to v) (map to ms) = mem eqb v ms.
Proof.
  apply Bool.eq_iff_eq_true. rewrite (mem_In eqb' eqb_spec'), (mem_In eqb eqb_spec). apply in_to.
Qed.

Lemma eqb_to v w : eqb' (to v) (to w) = eqb v w.
Proof.
  apply Bool.eq_iff_eq_true. rewrite eqb_spec', eqb_spec. split; [apply to_inj|congruence].
Qed.

Lemma index_to v ms : index eqb' (to v) (map to ms) = index eqb v ms.
Proof.
  induction ms as [|m ms IH]; [reflexivity|]. cbn [map index]. rewrite eqb_to, IH. reflexivity.
Qed.

Lemma walks_to ms todo seen ord : walks succ ms todo seen ord ->
  walks succ' (map to ms) (map to todo) (map to seen) (map to ord).
Proof.
  intros W0. induction W0 as [seen|v todo seen ord D W0 IH|v todo seen ord I N W0 IH]; cbn [map].
  - constructor.
  - apply walks_skip; [|exact IH]. now rewrite !in_to.
  - apply walks_new; [now rewrite in_to|now rewrite in_to|].
    rewrite map_app in IH. rewrite to_succ. now rewrite map_app in IH.
Qed.

Lemma walk_to ord : class succ const ord ->
  walk succ root_of ord -> walk succ' root_of' (map to ord).
Proof.
  intros C Wk. unfold walk in *. rewrite (to_root ord C). cbn [fst].
  exact (walks_to _ _ _ _ Wk).
Qed.

Lemma hashed_to g : hashed succ const root_of mix sum poison eqb g ->
  forall g' v, hashed succ' const' root_of' mix' sum poison eqb' g' ->
  In v (order g) -> In (to v) (order g') ->
  order g' = map to (order g) /\ hash g' = hash g.
Proof.
  induction 1 as [ord other C Wk K _ IH]. intros g' v Hg I I'.
  destruct Hg as [ord' other' C' W' K' H']. cbn [order hash] in *.
  assert (ord' = map to ord).
  { pose proof (class_to ord C) as C2.
    apply (walk_unique succ' const' root_of' mix' root_same'); auto; [|now apply walk_to].
    apply (class_same succ' const' _ _ (to v)); auto. now apply in_to. }
  subst ord'. split; [reflexivity|]. rewrite (to_root ord C). cbn [snd].
  destruct (snd (root_of ord)); [reflexivity|]. f_equal. rewrite map_map.
  apply map_ext_in. intros x Hx. rewrite <- to_mix, to_succ, !map_map. f_equal.
  apply map_ext_in. intros w Hw. unfold refers. rewrite to_const, index_to.
  destruct (const w) eqn:Cw; [reflexivity|].
  destruct (index eqb w ord) as [i|] eqn:Ei; [reflexivity|].
  assert (N : ~ In w ord).
  { intros Iw. destruct (index_some eqb eqb_spec w ord Iw). congruence. }
  assert (Hx' : In (to x) (map to ord)) by now apply in_to.
  assert (Hw' : In (to w) (succ' (to x))) by (rewrite to_succ; now apply in_to).
  assert (Cw' : const' (to w) = false) by now rewrite to_const.
  assert (N' : ~ In (to w) (map to ord)) by now rewrite in_to.
  destruct (IH x w Hx Hw Cw N (other' (to w)) w (H' _ _ Hx' Hw' Cw' N') (K x w Hx Hw Cw N)
              (K' _ _ Hx' Hw' Cw' N')) as [E1 E2].
  rewrite E1, E2, index_to. now destruct (index eqb w (order (other w))).
Qed.

End Same.
