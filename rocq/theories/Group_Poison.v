(** Groups whose root is not clear: their hash spreads to all that see them. *)

From Verif Require Import Base Group_Model Group_Spec Group_Proofs Group_Same.
Open Scope list_scope.

Section Spread.
Context {V H : Type} (eqb : V -> V -> bool) (succ : V -> list V) (const : V -> bool)
  (root_of : list V -> V * bool) (mix : V -> list (ref V H) -> H)
  (sum : list H -> H) (poison : H).

Hypothesis eqb_spec : forall x y, eqb x y = true <-> x = y.
Hypothesis poisoned : absorbs mix sum poison.

Notation hashed := (hashed succ const root_of mix sum poison eqb).

Lemma refers_out ord other w : const w = false -> ~ In w ord -> In w (order (other w)) ->
  exists i, refers const eqb ord other w = ROut (hash (other w) : H) i.
Proof.
  intros C N I. unfold refers. rewrite C, (index_none eqb eqb_spec w ord N).
  destruct (index_some eqb eqb_spec w _ I) as [i ->]. eauto.
Qed.

Lemma sum_poisoned ord other x w : In x ord -> In w (succ x) -> const w = false -> ~ In w ord ->
  In w (order (other w)) -> hash (other w) = poison ->
  sum (map (fun v => mix v (map (refers const eqb ord other) (succ v))) ord) = poison.
Proof.
  intros Ix Iw C N I E. destruct poisoned as [Pm Ps]. apply Ps.
  apply in_map_iff. exists x. split; [|exact Ix].
  destruct (refers_out ord other w C N I) as [i R]. rewrite E in R.
  apply (Pm x _ i). apply in_map_iff. exists w. split; [exact R|exact Iw].
Qed.

Lemma clean_step g v w g' : hashed g -> hash g <> poison -> In v (order g) ->
  In w (succ v) -> const w = false -> hashed g' -> In w (order g') ->
  (forall a b u, hashed a -> hashed b -> In u (order a) -> In u (order b) -> a = b) ->
  hash g' <> poison /\ snd (root_of (order g)) = false.
Proof.
  intros Hg NP Iv Iw C Hg' Iw' U. pose proof Hg as Hg0. destruct Hg as [ord other Co W K1 K2].
  cbn [order hash] in *. destruct (snd (root_of ord)) eqn:R; [congruence|]. split; [|reflexivity].
  destruct (mem eqb w ord) eqn:M.
  - apply (mem_In eqb eqb_spec) in M. rewrite <- (U _ _ w Hg0 Hg' M Iw'). cbn [hash]. exact NP.
  - apply (mem_not eqb eqb_spec) in M.
    rewrite <- (U _ _ w (K2 v w Iv Iw C M) Hg' (K1 v w Iv Iw C M) Iw'). intros E.
    apply NP. exact (sum_poisoned ord other v w Iv Iw C M (K1 v w Iv Iw C M) E).
Qed.

Lemma clean_root g : hashed g -> hash g <> poison -> snd (root_of (order g)) = false.
Proof.
  intros Hg NP. destruct Hg as [ord other Co W K1 K2]. cbn [order hash] in *.
  destruct (snd (root_of ord)); congruence.
Qed.

End Spread.

Lemma exists_or_not {X} (P : X -> Prop) xs : (forall x, P x \/ ~ P x) ->
  (exists x, In x xs /\ P x) \/ (forall x, In x xs -> ~ P x).
Proof.
  intros D. induction xs as [|x xs IH]; [right; intros x []|].
  destruct (D x) as [p|n]; [left; exists x; cbn; auto|].
  destruct IH as [(y & I & p)|A]; [left; exists y; cbn; auto|].
  right. intros y [<-|I]; auto.
Qed.

Section Agree.
Context {V W H : Type} (eqb : V -> V -> bool) (eqb' : W -> W -> bool)
  (succ : V -> list V) (succ' : W -> list W) (const : V -> bool) (const' : W -> bool)
  (root_of : list V -> V * bool) (root_of' : list W -> W * bool)
  (mix : V -> list (ref V H) -> H) (mix' : W -> list (ref W H) -> H)
  (sum : list H -> H) (poison : H) (to : V -> W).

Hypothesis eqb_spec : forall x y, eqb x y = true <-> x = y.
Hypothesis eqb_spec' : forall x y, eqb' x y = true <-> x = y.
Hypothesis root_same' : forall ms ns, same ms ns -> root_of' ms = root_of' ns.
Hypothesis to_inj : forall x y, to x = to y -> x = y.
Hypothesis to_succ : forall v, succ' (to v) = map to (succ v).
Hypothesis to_const : forall v, const' (to v) = const v.
Hypothesis to_clear : forall ms, class succ const ms -> snd (root_of' (map to ms)) = snd (root_of ms).
Hypothesis to_root : forall ms, class succ const ms -> snd (root_of ms) = false ->
  fst (root_of' (map to ms)) = to (fst (root_of ms)).
Hypothesis to_mix : forall v rs, mix' (to v) (map (ref_to to) rs) = mix v rs.
Hypothesis poisoned : absorbs mix sum poison.
Hypothesis poisoned' : absorbs mix' sum poison.
Hypothesis poison_dec : forall h : H, h = poison \/ h <> poison.

Lemma hashed_agree g : hashed succ const root_of mix sum poison eqb g ->
  forall g' v, hashed succ' const' root_of' mix' sum poison eqb' g' ->
  In v (order g) -> In (to v) (order g') ->
  hash g' = hash g /\ (hash g <> poison -> order g' = map to (order g)).
Proof.
  induction 1 as [ord other C Wk K H0 IH]. intros g' v Hg I I'.
  destruct Hg as [ord' other' C' W' K' H']. cbn [order hash] in *.
  pose proof (class_to succ succ' const const' to to_inj to_succ to_const ord C) as C2.
  assert (Sm : same (map to ord) ord').
  { apply (class_same succ' const' _ _ (to v)); auto. now apply in_to. }
  assert (Rc : snd (root_of' ord') = snd (root_of ord))
    by (rewrite <- (root_same' _ _ Sm); now apply to_clear).
  rewrite Rc. destruct (snd (root_of ord)) eqn:R; [split; congruence|].
  assert (ord' = map to ord).
  { symmetry. apply (walk_unique succ' const' root_of' mix' root_same'); auto.
    unfold walk in *. rewrite (to_root ord C R).
    exact (walks_to succ succ' to to_inj to_succ _ _ _ _ Wk). }
  subst ord'. split; [|reflexivity].
  assert (A : forall x w, In x ord -> In w (succ x) -> const w = false -> ~ In w ord ->
    hash (other' (to w)) = hash (other w) /\
    (hash (other w) <> poison -> order (other' (to w)) = map to (order (other w))) /\
    In (to w) (order (other' (to w)))).
  { intros x w Hx Hw Cw N.
    assert (Hx' : In (to x) (map to ord)) by now apply in_to.
    assert (Hw' : In (to w) (succ' (to x))) by (rewrite to_succ; now apply in_to).
    assert (Cw' : const' (to w) = false) by now rewrite to_const.
    assert (N' : ~ In (to w) (map to ord)) by now rewrite in_to.
    pose proof (IH x w Hx Hw Cw N (other' (to w)) w (H' _ _ Hx' Hw' Cw' N') (K x w Hx Hw Cw N)
                  (K' _ _ Hx' Hw' Cw' N')) as [E1 E2].
    split; [exact E1|]. split; [exact E2|exact (K' _ _ Hx' Hw' Cw' N')]. }
  set (bad := fun w => const w = false /\ ~ In w ord /\ hash (other w) = poison).
  assert (D : forall w, bad w \/ ~ bad w).
  { intros w. unfold bad. destruct (const w); [right; intros (?&_); discriminate|].
    destruct (mem eqb w ord) eqn:M.
    - apply (mem_In eqb eqb_spec) in M. right. tauto.
    - apply (mem_not eqb eqb_spec) in M. destruct (poison_dec (hash (other w))); tauto. }
  destruct (exists_or_not bad (concat (map succ ord)) D) as [(w & Hw & Cw & N & Ew)|Ok].
  - apply in_concat in Hw as (l & Hl & Hw). apply in_map_iff in Hl as (x & <- & Hx).
    rewrite (sum_poisoned eqb succ const mix sum poison eqb_spec poisoned ord other x w Hx Hw Cw N
               (K x w Hx Hw Cw N) Ew).
    destruct (A x w Hx Hw Cw N) as (E1 & _ & I1). rewrite Ew in E1.
    apply (sum_poisoned eqb' succ' const' mix' sum poison eqb_spec' poisoned' (map to ord) other'
             (to x) (to w)); try assumption.
    + now apply in_map.
    + rewrite to_succ. now apply in_map.
    + now rewrite to_const.
    + now rewrite in_to.
  - f_equal. rewrite map_map. apply map_ext_in. intros x Hx. rewrite <- to_mix, to_succ, !map_map. f_equal.
    apply map_ext_in. intros w Hw. unfold refers.
    rewrite to_const, (index_to eqb eqb' to eqb_spec eqb_spec' to_inj).
    destruct (const w) eqn:Cw; [reflexivity|].
    destruct (index eqb w ord) as [i|] eqn:Ei; [reflexivity|].
    assert (N : ~ In w ord).
    { intros Iw. destruct (index_some eqb eqb_spec w ord Iw). congruence. }
    destruct (A x w Hx Hw Cw N) as (E1 & E2 & _).
    assert (NP : hash (other w) <> poison).
    { intros E. apply (Ok w); [|unfold bad; auto]. apply in_concat. exists (succ x).
      split; [now apply in_map|exact Hw]. }
    rewrite E1, (E2 NP), (index_to eqb eqb' to eqb_spec eqb_spec' to_inj).
    now destruct (index eqb w (order (other w))).
Qed.

End Agree.
