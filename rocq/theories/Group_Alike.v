(** Objects with equal hashes are alike. *)

From Verif Require Import Base Group_Model Group_Spec Group_Proofs.
Open Scope list_scope.

Section Alike.
Context {V H L : Type} (eqb : V -> V -> bool) (succ : V -> list V) (const : V -> bool)
  (root_of : list V -> V * bool) (mix : V -> list (ref V H) -> H)
  (sum : list H -> H) (poison : H) (label : V -> L).

Hypothesis S : sound eqb root_of.
Hypothesis mix_inj : forall x x' rs rs', mix x rs = mix x' rs' -> label x = label x' /\ rs = rs'.
Hypothesis sum_inj : forall hs hs', sum hs = sum hs' -> hs = hs'.

Notation tidy := (tidy eqb succ const root_of mix sum poison).
Notation hashed := (hashed succ const root_of mix sum poison eqb).
Implicit Types t : table V H.

Lemma index_nth v xs i : index eqb v xs = Some i -> nth_error xs i = Some v.
Proof.
  revert i. induction xs as [|x xs IH]; intros i; cbn [index]; [discriminate|].
  destruct (eqb v x) eqn:E.
  - intros X. inversion X. apply (proj1 S) in E. now subst.
  - destruct (index eqb v xs) as [j|]; [|discriminate]. intros X. inversion X. now apply IH.
Qed.

(** An object that is reached from an installed one by hashing has its place. *)
Lemma place_of t g x : tidy t -> hashed g -> In x (order g) -> installed eqb t x = true ->
  forall i, index eqb x (order g) = Some i -> place eqb t x = Some (hash g, i).
Proof.
  intros T Hg Ix I i Ei. unfold installed in I. unfold place.
  destruct (lookup eqb t x) as [g'|] eqn:El; [|discriminate].
  destruct (proj1 T x g' El) as (Ix' & _ & Hg').
  rewrite <- (hashed_unique eqb succ const root_of mix sum poison (proj1 S) (proj2 (proj2 S)) g Hg g' x Hg' Ix Ix').
  now rewrite Ei.
Qed.

Lemma refers_place t ord other h : tidy t -> hashed (Group ord h) ->
  (forall v w, In v ord -> In w (succ v) -> const w = false -> ~ In w ord -> In w (order (other w))) ->
  (forall v w, In v ord -> In w (succ v) -> const w = false -> ~ In w ord -> hashed (other w)) ->
  forall v x, In v ord -> installed eqb t v = true -> In x (succ v) ->
  (const x = true /\ refers const eqb ord other x = RConst x) \/
  (const x = false /\
    ((exists j, refers const eqb ord other x = RIn j /\ place eqb t x = Some (h, j)) \/
     (exists k j, refers const eqb ord other x = ROut k j /\ place eqb t x = Some (k, j)))).
Proof.
  intros T Hg K1 K2 v x Iv I Ix. unfold refers. destruct (const x) eqn:Cx; [auto|].
  right. split; [reflexivity|]. pose proof (proj2 T v x I Ix Cx) as Jx.
  destruct (index eqb x ord) as [j|] eqn:Ej.
  - left. exists j. split; [reflexivity|].
    apply (place_of t (Group ord h)); auto. cbn [order]. exact (nth_error_In _ _ (index_nth x ord j Ej)).
  - assert (N : ~ In x ord).
    { intros J. destruct (index_some eqb (proj1 S) x ord J). congruence. }
    right. destruct (index_some eqb (proj1 S) x _ (K1 v x Iv Ix Cx N)) as [j Ej'].
    rewrite Ej'. exists (hash (other x)), j. split; [reflexivity|].
    exact (place_of t (other x) x T (K2 v x Iv Ix Cx N) (K1 v x Iv Ix Cx N) Jx j Ej').
Qed.

Lemma map_Forall2 {X Y} (f g : X -> Y) (P : X -> X -> Prop) xs : forall ys,
  map f xs = map g ys -> (forall x y, In x xs -> In y ys -> f x = g y -> P x y) -> Forall2 P xs ys.
Proof.
  induction xs as [|x xs IH]; intros [|y ys] E K; try discriminate; [constructor|].
  cbn in E. inversion E. constructor; [apply K; cbn; auto|]. apply IH; [assumption|].
  intros a b Ia Ib. apply K; cbn; auto.
Qed.

Lemma places_alike (w : world V H) : good eqb succ const root_of mix sum poison w ->
  forall v v' h i, h <> poison ->
  place eqb (groups w) v = Some (h, i) -> place eqb (groups w) v' = Some (h, i) ->
  label v = label v' /\
  Forall2 (fun x x' =>
      (const x = true /\ x = x') \/
      (const x = false /\ const x' = false /\
       exists p, place eqb (groups w) x = Some p /\ place eqb (groups w) x' = Some p))
    (succ v) (succ v').
Proof.
  intros [T _] v v' h i NP P P'.
  assert (Q : forall u, place eqb (groups w) u = Some (h, i) ->
    installed eqb (groups w) u = true /\
    exists ord other, nth_error ord i = Some u /\ hashed (Group ord h) /\
      h = sum (map (fun v => mix v (map (refers const eqb ord other) (succ v))) ord) /\
      (forall v w, In v ord -> In w (succ v) -> const w = false -> ~ In w ord -> In w (order (other w))) /\
      (forall v w, In v ord -> In w (succ v) -> const w = false -> ~ In w ord -> hashed (other w))).
  { intros u Pu. unfold place in Pu. unfold installed.
    destruct (lookup eqb (groups w) u) as [g|] eqn:El; [|discriminate]. split; [reflexivity|].
    destruct (proj1 T u g El) as (_ & _ & Hg). pose proof Hg as Hg2.
    destruct Hg as [ord other C W K1 K2]. cbn [order hash] in Pu.
    destruct (index eqb u ord) as [j|] eqn:Ej; [|discriminate]. inversion Pu as [[Eh Ei]]. subst j.
    exists ord, other. split; [now apply index_nth|]. rewrite Eh in Hg2. rewrite Eh.
    destruct (snd (root_of ord)); [congruence|]. split; [exact Hg2|]. auto. }
  destruct (Q v P) as (I & ord & other & Nv & Hg & Eh & K1 & K2).
  destruct (Q v' P') as (I' & ord' & other' & Nv' & Hg' & Eh' & K1' & K2').
  rewrite Eh in Eh'. apply sum_inj in Eh'.
  pose proof (map_nth_error (fun v => mix v (map (refers const eqb ord other) (succ v))) i ord Nv) as M.
  pose proof (map_nth_error (fun v => mix v (map (refers const eqb ord' other') (succ v))) i ord' Nv') as M'.
  rewrite Eh', M' in M. inversion M as [Em]. symmetry in Em.
  apply mix_inj in Em as [El Er]. split; [exact El|].
  apply (map_Forall2 _ _ _ _ _ Er). intros x x' Ix Ix' Ex.
  pose proof (refers_place (groups w) ord other h T Hg K1 K2 v x (nth_error_In _ _ Nv) I Ix) as D.
  pose proof (refers_place (groups w) ord' other' h T Hg' K1' K2' v' x' (nth_error_In _ _ Nv') I' Ix') as D'.
  destruct D as [[Cx R]|[Cx [(j & R & Px)|(k & j & R & Px)]]];
  destruct D' as [[Cx' R']|[Cx' [(j' & R' & Px')|(k' & j' & R' & Px')]]];
    rewrite R, R' in Ex; try discriminate; injection Ex.
  - intros E. left. auto.
  - intros E. right. split; [exact Cx|]. split; [exact Cx'|]. exists (h, j). rewrite E in *. auto.
  - intros E1 E2. right. split; [exact Cx|]. split; [exact Cx'|]. exists (k, j). rewrite E1, E2 in *. auto.
Qed.

End Alike.
