(** C82: groups of types and objects that see each other. *)

From Verif Require Import Base Group_Model Group_Spec Group_Proofs Group_Ends Group_Same Group_Alike Group_Poison.
Open Scope list_scope.

(** Any number of threads may seek groups at once, in any order of steps: no
    error is raised. *)
Theorem C82_no_error {V H : Type} (eqb : V -> V -> bool) (succ : V -> list V) (const : V -> bool)
    (root_of : list V -> V * bool) (mix : V -> list (ref V H) -> H) (sum : list H -> H) (poison : H) :
  sound eqb root_of ->
  forall es, exists w, history eqb succ const root_of mix sum poison (World [] []) es = Ok w.
Proof.
  intros (A & B & C) es.
  destruct (history_good eqb succ const root_of mix sum poison A B C es _
              (good_empty eqb succ const root_of mix sum poison)) as (w & E & _). eauto.
Qed.

Lemma reached_good {V H : Type} (eqb : V -> V -> bool) (succ : V -> list V) (const : V -> bool)
    (root_of : list V -> V * bool) (mix : V -> list (ref V H) -> H) (sum : list H -> H) (poison : H)
    es w :
  sound eqb root_of ->
  history eqb succ const root_of mix sum poison (World [] []) es = Ok w ->
  good eqb succ const root_of mix sum poison w.
Proof.
  intros (A & B & C) E.
  destruct (history_good eqb succ const root_of mix sum poison A B C es _
              (good_empty eqb succ const root_of mix sum poison)) as (w' & E' & G & _). congruence.
Qed.

(** The group of an object has no object twice, and its members are those
    that the object sees and that see it; they all have this group. *)
Theorem C82_groups_are_classes {V H : Type} (eqb : V -> V -> bool) (succ : V -> list V) (const : V -> bool)
    (root_of : list V -> V * bool) (mix : V -> list (ref V H) -> H) (sum : list H -> H) (poison : H)
    es w v g :
  sound eqb root_of ->
  history eqb succ const root_of mix sum poison (World [] []) es = Ok w ->
  lookup eqb (groups w) v = Some g ->
  NoDup (order g) /\
  forall u, (In u (order g) <-> mutual succ const v u) /\
            (In u (order g) -> lookup eqb (groups w) u = Some g).
Proof.
  intros S E L. pose proof (reached_good _ _ _ _ _ _ _ _ _ S E) as [T _]. destruct S as (A & B & C).
  destruct (proj1 T v g L) as (Iv & (_ & ND & K) & Hg). split; [exact ND|]. intros u.
  split; [exact (K v Iv u)|]. intros Iu. apply (K v Iv) in Iu as Mu.
  assert (I : installed eqb (groups w) u = true).
  { apply (installed_reach eqb succ const root_of mix sum poison (groups w) v u T); [|apply Mu].
    unfold installed. now rewrite L. }
  unfold installed in I. destruct (lookup eqb (groups w) u) as [g'|] eqn:L'; [|discriminate].
  destruct (proj1 T u g' L') as (Iu' & _ & Hg'). f_equal. symmetry.
  exact (hashed_unique eqb succ const root_of mix sum poison A C g Hg g' u Hg' Iu Iu').
Qed.

(** The group of an object, with its order and hash, is the same whatever was
    asked for before, by which threads, and in which order. *)
Theorem C82_groups_are_determined {V H : Type} (eqb : V -> V -> bool) (succ : V -> list V) (const : V -> bool)
    (root_of : list V -> V * bool) (mix : V -> list (ref V H) -> H) (sum : list H -> H) (poison : H)
    es es' w w' v g g' :
  sound eqb root_of ->
  history eqb succ const root_of mix sum poison (World [] []) es = Ok w ->
  history eqb succ const root_of mix sum poison (World [] []) es' = Ok w' ->
  lookup eqb (groups w) v = Some g -> lookup eqb (groups w') v = Some g' ->
  g = g' /\ hashed succ const root_of mix sum poison eqb g.
Proof.
  intros S E E' L L'. pose proof (reached_good _ _ _ _ _ _ _ _ _ S E) as [T _].
  pose proof (reached_good _ _ _ _ _ _ _ _ _ S E') as [T' _]. destruct S as (A & B & C).
  destruct (proj1 T v g L) as (Iv & _ & Hg). destruct (proj1 T' v g' L') as (Iv' & _ & Hg').
  split; [|exact Hg].
  exact (hashed_unique eqb succ const root_of mix sum poison A C g Hg g' v Hg' Iv Iv').
Qed.

(** An object never loses its group. *)
Theorem C82_groups_are_kept {V H : Type} (eqb : V -> V -> bool) (succ : V -> list V) (const : V -> bool)
    (root_of : list V -> V * bool) (mix : V -> list (ref V H) -> H) (sum : list H -> H) (poison : H)
    es es' w w' v g :
  sound eqb root_of ->
  history eqb succ const root_of mix sum poison (World [] []) es = Ok w ->
  history eqb succ const root_of mix sum poison w es' = Ok w' ->
  lookup eqb (groups w) v = Some g -> lookup eqb (groups w') v = Some g.
Proof.
  intros S E E' L. pose proof (reached_good _ _ _ _ _ _ _ _ _ S E) as G. destruct S as (A & B & C).
  destruct (history_good eqb succ const root_of mix sum poison A B C es' w G) as (w1 & E1 & G1 & K).
  rewrite E' in E1. inversion E1; subst w1.
  assert (I : installed eqb (groups w') v = true) by (apply (proj1 K); unfold installed; now rewrite L).
  unfold installed in I. destruct (lookup eqb (groups w') v) as [g'|] eqn:L'; [|discriminate].
  destruct (proj1 (proj1 G) v g L) as (Iv & _ & Hg).
  destruct (proj1 (proj1 G1) v g' L') as (Iv' & _ & Hg'). f_equal. symmetry.
  exact (hashed_unique eqb succ const root_of mix sum poison A C g Hg g' v Hg' Iv Iv').
Qed.

(** A call that has returned has given a group to everything that can be
    reached, whatever other threads did meanwhile. *)
Theorem C82_calls_give_groups {V H : Type} (eqb : V -> V -> bool) (succ : V -> list V) (const : V -> bool)
    (root_of : list V -> V * bool) (mix : V -> list (ref V H) -> H) (sum : list H -> H) (poison : H)
    es es' w w' root s :
  sound eqb root_of ->
  history eqb succ const root_of mix sum poison (World [] []) es = Ok w ->
  history eqb succ const root_of mix sum poison w (Start root :: es') = Ok w' ->
  nth_error (searches w') (length (searches w)) = Some s -> frames s = [] ->
  const root = false ->
  forall v, reach succ const root v -> exists g, lookup eqb (groups w') v = Some g /\ In v (order g).
Proof.
  intros S E E' N F Cr v R. pose proof (reached_good _ _ _ _ _ _ _ _ _ S E) as G. destruct S as (A & B & C).
  cbn [history] in E'.
  destruct (happen_good eqb succ const root_of mix sum poison A B C w (Start root) G) as (w1 & E1 & G1 & _).
  rewrite E1 in E'. cbn [bind] in E'. cbn [happen] in E1.
  destruct (start_fine eqb succ const root_of mix sum poison (groups w) root) as (s0 & P & _ & Cs).
  rewrite P in E1. cbn [bind] in E1. inversion E1; subst w1. clear E1.
  destruct (history_good eqb succ const root_of mix sum poison A B C es' _ G1) as (w2 & E2 & G2 & K).
  rewrite E' in E2. inversion E2; subst w2. clear E2.
  destruct (proj2 K (length (searches w)) s0) as (s1 & N1 & K1).
  { cbn [searches]. rewrite nth_error_app2, Nat.sub_diag by auto. reflexivity. }
  rewrite N in N1. inversion N1; subst s1. clear N1.
  pose proof (proj1 (Forall_forall _ _) (proj2 G2) s (nth_error_In _ _ N)) as (_ & Co & _).
  assert (Tk : taken eqb const (groups w') root = true).
  { destruct (K1 root) as [J|J]; [rewrite Cs; now left| |exact J]. apply Co in J. rewrite F in J. destruct J. }
  pose proof (installed_reach eqb succ const root_of mix sum poison (groups w') root v (proj1 G2)
                (taken_installed eqb const _ root Cr Tk) R) as I.
  unfold installed in I. destruct (lookup eqb (groups w') v) as [g|] eqn:L; [|discriminate].
  exists g. split; [reflexivity|]. exact (proj1 (proj1 (proj1 G2) v g L)).
Qed.

(** A call returns: where there are only the objects [all], it needs no more
    steps of its own than there are objects, twice, and references. *)
Theorem C82_calls_return {V H : Type} (eqb : V -> V -> bool) (succ : V -> list V) (const : V -> bool)
    (root_of : list V -> V * bool) (mix : V -> list (ref V H) -> H) (sum : list H -> H) (poison : H)
    (all : list V) es es' w root :
  sound eqb root_of -> (forall v, In v all) ->
  history eqb succ const root_of mix sum poison (World [] []) es = Ok w ->
  (list_sum (map (fun v => 2 + length (succ v)) all) <= turns (length (searches w)) es')%nat ->
  exists w' s, history eqb succ const root_of mix sum poison w (Start root :: es') = Ok w' /\
    nth_error (searches w') (length (searches w)) = Some s /\ frames s = [].
Proof.
  intros S Al E L. pose proof (reached_good _ _ _ _ _ _ _ _ _ S E) as G. destruct S as (A & B & C).
  cbn [history].
  destruct (happen_good eqb succ const root_of mix sum poison A B C w (Start root) G) as (w1 & E1 & G1 & _).
  rewrite E1. cbn [bind]. cbn [happen] in E1.
  destruct (start_fine eqb succ const root_of mix sum poison (groups w) root) as (s0 & P & _ & _).
  rewrite P in E1. cbn [bind] in E1. inversion E1; subst w1. clear E1.
  pose proof (start_weight eqb succ const A all Al (groups w) root s0 P) as L0.
  apply (history_ends eqb succ const root_of mix sum poison A B C all Al
           (length (searches w)) es' _ s0 G1); cbn [searches groups].
  - rewrite nth_error_app2, Nat.sub_diag by auto. reflexivity.
  - lia.
Qed.

(** Two processes with objects of the same shape give the same hashes to them
    and the same order to their groups, wherever the objects are. *)
Theorem C82_processes_agree {V W H : Type} (eqb : V -> V -> bool) (eqb' : W -> W -> bool)
    (succ : V -> list V) (succ' : W -> list W) (const : V -> bool) (const' : W -> bool)
    (root_of : list V -> V * bool) (root_of' : list W -> W * bool)
    (mix : V -> list (ref V H) -> H) (mix' : W -> list (ref W H) -> H)
    (sum : list H -> H) (poison : H) (to : V -> W) es es' w w' v g g' :
  sound eqb root_of -> sound eqb' root_of' ->
  (forall x y, to x = to y -> x = y) ->
  (forall v, succ' (to v) = map to (succ v)) ->
  (forall v, const' (to v) = const v) ->
  (forall ms, class succ const ms -> root_of' (map to ms) = (to (fst (root_of ms)), snd (root_of ms))) ->
  (forall v rs, mix' (to v) (map (ref_to to) rs) = mix v rs) ->
  history eqb succ const root_of mix sum poison (World [] []) es = Ok w ->
  history eqb' succ' const' root_of' mix' sum poison (World [] []) es' = Ok w' ->
  lookup eqb (groups w) v = Some g -> lookup eqb' (groups w') (to v) = Some g' ->
  order g' = map to (order g) /\ hash g' = hash g.
Proof.
  intros S S' T1 T2 T3 T4 T5 E E' L L'.
  pose proof (reached_good _ _ _ _ _ _ _ _ _ S E) as [T _].
  pose proof (reached_good _ _ _ _ _ _ _ _ _ S' E') as [T' _].
  destruct S as (A & _ & _). destruct S' as (A' & _ & C').
  destruct (proj1 T v g L) as (Iv & _ & Hg). destruct (proj1 T' (to v) g' L') as (Iv' & _ & Hg').
  exact (hashed_to eqb eqb' succ succ' const const' root_of root_of' mix mix' sum poison to
           A A' C' T1 T2 T3 T4 T5 g Hg g' v Hg' Iv Iv').
Qed.

(** Where hashing has no collisions, objects with equal hashes and positions
    are alike: so are what they show of themselves and, one by one, all
    that they see. *)
Theorem C82_equal_hashes_are_alike {V H L : Type} (eqb : V -> V -> bool) (succ : V -> list V)
    (const : V -> bool) (root_of : list V -> V * bool) (mix : V -> list (ref V H) -> H)
    (sum : list H -> H) (poison : H) (label : V -> L) es w v v' h i :
  sound eqb root_of ->
  (forall x x' rs rs', mix x rs = mix x' rs' -> label x = label x' /\ rs = rs') ->
  (forall hs hs', sum hs = sum hs' -> hs = hs') ->
  history eqb succ const root_of mix sum poison (World [] []) es = Ok w ->
  h <> poison ->
  place eqb (groups w) v = Some (h, i) -> place eqb (groups w) v' = Some (h, i) ->
  label v = label v' /\
  Forall2 (fun x x' =>
      (const x = true /\ x = x') \/
      (const x = false /\ const x' = false /\
       exists p, place eqb (groups w) x = Some p /\ place eqb (groups w) x' = Some p))
    (succ v) (succ v').
Proof.
  intros S Im Is E NP P P'.
  exact (places_alike eqb succ const root_of mix sum poison label S Im Is w
           (reached_good _ _ _ _ _ _ _ _ _ S E) v v' h i NP P P').
Qed.

(** A hash that is not poison was made of clear roots and of nothing that is
    poison, however far away. *)
Theorem C82_poison_spreads {V H : Type} (eqb : V -> V -> bool) (succ : V -> list V) (const : V -> bool)
    (root_of : list V -> V * bool) (mix : V -> list (ref V H) -> H) (sum : list H -> H) (poison : H)
    es w v g :
  sound eqb root_of -> absorbs mix sum poison ->
  history eqb succ const root_of mix sum poison (World [] []) es = Ok w ->
  lookup eqb (groups w) v = Some g -> hash g <> poison ->
  forall u, reach succ const v u -> exists gu, lookup eqb (groups w) u = Some gu /\
    hash gu <> poison /\ snd (root_of (order gu)) = false.
Proof.
  intros S Ab E L NP u R. pose proof (reached_good _ _ _ _ _ _ _ _ _ S E) as [T _].
  destruct S as (A & B & C).
  induction R as [v|v u x R IH I Cx].
  - exists g. destruct (proj1 T v g L) as (_ & _ & Hg).
    split; [exact L|]. split; [exact NP|].
    exact (clean_root eqb succ const root_of mix sum poison g Hg NP).
  - destruct (IH L) as (gu & Lu & Nu & _). destruct (proj1 T u gu Lu) as (Iu & _ & Hu).
    assert (In_x : installed eqb (groups w) x = true).
    { apply (proj2 T u x); auto. unfold installed. now rewrite Lu. }
    unfold installed in In_x. destruct (lookup eqb (groups w) x) as [gx|] eqn:Lx; [|discriminate].
    destruct (proj1 T x gx Lx) as (Ix & _ & Hx). exists gx. split; [reflexivity|].
    destruct (clean_step eqb succ const root_of mix sum poison A Ab gu u x gx Hu Nu Iu I Cx Hx Ix) as [Nx _].
    { intros a b y Ha Hb Ia Ib.
      exact (hashed_unique eqb succ const root_of mix sum poison A C a Ha b y Hb Ia Ib). }
    split; [exact Nx|]. exact (clean_root eqb succ const root_of mix sum poison gx Hx Nx).
Qed.

(** The processes agree on all hashes even if they choose different roots
    where the choice is not clear. *)
Theorem C82_processes_agree_on_poison {V W H : Type} (eqb : V -> V -> bool) (eqb' : W -> W -> bool)
    (succ : V -> list V) (succ' : W -> list W) (const : V -> bool) (const' : W -> bool)
    (root_of : list V -> V * bool) (root_of' : list W -> W * bool)
    (mix : V -> list (ref V H) -> H) (mix' : W -> list (ref W H) -> H)
    (sum : list H -> H) (poison : H) (to : V -> W) es es' w w' v g g' :
  sound eqb root_of -> sound eqb' root_of' ->
  absorbs mix sum poison -> absorbs mix' sum poison -> (forall h : H, h = poison \/ h <> poison) ->
  (forall x y, to x = to y -> x = y) ->
  (forall v, succ' (to v) = map to (succ v)) ->
  (forall v, const' (to v) = const v) ->
  (forall ms, class succ const ms -> snd (root_of' (map to ms)) = snd (root_of ms)) ->
  (forall ms, class succ const ms -> snd (root_of ms) = false ->
     fst (root_of' (map to ms)) = to (fst (root_of ms))) ->
  (forall v rs, mix' (to v) (map (ref_to to) rs) = mix v rs) ->
  history eqb succ const root_of mix sum poison (World [] []) es = Ok w ->
  history eqb' succ' const' root_of' mix' sum poison (World [] []) es' = Ok w' ->
  lookup eqb (groups w) v = Some g -> lookup eqb' (groups w') (to v) = Some g' ->
  hash g' = hash g /\ (hash g <> poison -> order g' = map to (order g)).
Proof.
  intros S S' Ab Ab' PD T1 T2 T3 T4 T4' T5 E E' L L'.
  pose proof (reached_good _ _ _ _ _ _ _ _ _ S E) as [T _].
  pose proof (reached_good _ _ _ _ _ _ _ _ _ S' E') as [T' _].
  destruct S as (A & _ & _). destruct S' as (A' & _ & C').
  destruct (proj1 T v g L) as (Iv & _ & Hg). destruct (proj1 T' (to v) g' L') as (Iv' & _ & Hg').
  exact (hashed_agree eqb eqb' succ succ' const const' root_of root_of' mix mix' sum poison to
           A A' C' T1 T2 T3 T4 T4' T5 Ab Ab' PD g Hg g' v Hg' Iv Iv').
Qed.

(* -------------------------------------------------------------- *)
(** * A case of these *)

(** [oA] and [oB] see each other and [oC]; so do their copies [oA2] and
    [oB2]; [oC] sees itself and a constant; [oD] sees both copies. *)
Inductive obj : Type := oA | oB | oA2 | oB2 | oC | oD | oK.

Definition all_objs : list obj := [oA; oB; oA2; oB2; oC; oD; oK].

Definition obj_eqb (x y : obj) : bool :=
  match x, y with
  | oA, oA | oB, oB | oA2, oA2 | oB2, oB2 | oC, oC | oD, oD | oK, oK => true
  | _, _ => false
  end.

Definition sees (x : obj) : list obj :=
  match x with
  | oA => [oB]
  | oB => [oA; oC]
  | oA2 => [oB2]
  | oB2 => [oA2; oC]
  | oC => [oC; oK]
  | oD => [oA; oA2]
  | oK => []
  end.

Definition is_const (x : obj) : bool := obj_eqb x oK.

Definition first_of (xs ms : list obj) : obj * bool :=
  (match find (fun x => mem obj_eqb x ms) xs with Some x => x | None => oK end, false).

Inductive code : Type :=
| CMix (l : nat) (rs : list (ref obj code))
| CSum (cs : list code)
| CPoison.

Definition name (x : obj) : nat :=
  match x with
  | oA | oA2 => 0
  | oB | oB2 => 1
  | oC => 2
  | oD => 3
  | oK => 4
  end%nat.

Definition cmix (x : obj) (rs : list (ref obj code)) : code := CMix (name x) rs.

(** The same objects with two of them at the places of each other. *)
Definition swap (x : obj) : obj :=
  match x with oA => oD | oD => oA | x => x end.

Definition cmix' (x : obj) (rs : list (ref obj code)) : code := CMix (name (swap x)) (map (ref_to swap) rs).

Definition run := history obj_eqb sees is_const (first_of all_objs) cmix CSum CPoison (World [] []).
Definition run' :=
  history obj_eqb (fun x => map swap (sees (swap x))) is_const (first_of (map swap all_objs)) cmix' CSum CPoison
    (World [] []).

(** Two threads that take turns. *)
Definition both : list event := [Start oD; Start oA2] ++ concat (repeat [Step 0; Step 1] 30).

Lemma obj_eqb_spec x y : obj_eqb x y = true <-> x = y.
Proof. destruct x, y; cbn; split; congruence. Qed.

Lemma first_of_sound xs : (forall x, In x xs) -> sound obj_eqb (first_of xs).
Proof.
  intros A. split; [exact obj_eqb_spec|]. split.
  - intros ms N. unfold first_of. cbn [fst].
    destruct (find (fun x => mem obj_eqb x ms) xs) as [x|] eqn:E.
    + apply find_some in E as [_ E]. now apply (mem_In obj_eqb obj_eqb_spec).
    + destruct ms as [|m ms]; [congruence|]. pose proof (find_none _ _ E m (A m)) as X. cbn in X.
      rewrite (proj2 (obj_eqb_spec m m) eq_refl) in X. discriminate.
  - intros ms ns S. unfold first_of. f_equal.
    replace (find (fun x => mem obj_eqb x ns) xs) with (find (fun x => mem obj_eqb x ms) xs); [reflexivity|].
    clear A. induction xs as [|x xs IH]; [reflexivity|]. cbn [find].
    rewrite (mem_same obj_eqb obj_eqb_spec ms ns x S), IH. reflexivity.
Qed.

Example objs_are_sound : sound obj_eqb (first_of all_objs) /\ sound obj_eqb (first_of (map swap all_objs)).
Proof. split; apply first_of_sound; intros []; cbn; tauto. Qed.

Example both_return : exists w, run both = Ok w /\
  map (fun s => frames s) (searches w) = [[]; []] /\
  map (fun x => option_map order (lookup obj_eqb (groups w) x)) all_objs =
    [Some [oA; oB]; Some [oA; oB]; Some [oA2; oB2]; Some [oA2; oB2]; Some [oC]; Some [oD]; None] /\
  place obj_eqb (groups w) oB = place obj_eqb (groups w) oB2 /\
  exists h, place obj_eqb (groups w) oB = Some (h, 1%nat) /\ h <> CPoison.
Proof. eexists. vm_compute. repeat split. eexists. split; [reflexivity|discriminate]. Qed.

Example enough_turns :
  (list_sum (map (fun v => 2 + length (sees v)) all_objs) <= turns (V := obj) 0 (concat (repeat [Step 0; Step 1] 30)))%nat /\
  forall v, In v all_objs.
Proof. split; [vm_compute; lia|]. intros []; cbn; tauto. Qed.

Example codes_are_injective :
  (forall x x' rs rs', cmix x rs = cmix x' rs' -> name x = name x' /\ rs = rs') /\
  (forall hs hs', CSum hs = CSum hs' -> hs = hs').
Proof. split; [intros x x' rs rs' E; inversion E; auto|intros hs hs' E; now inversion E]. Qed.

Example swapped_objs :
  (forall x y, swap x = swap y -> x = y) /\
  (forall v, map swap (sees (swap (swap v))) = map swap (sees v)) /\
  (forall v, is_const (swap v) = is_const v) /\
  (forall ms, class sees is_const ms ->
     first_of (map swap all_objs) (map swap ms) =
     (swap (fst (first_of all_objs ms)), snd (first_of all_objs ms))) /\
  (forall v rs, cmix' (swap v) (map (ref_to swap) rs) = cmix v rs).
Proof.
  assert (I : forall x, swap (swap x) = x) by (now intros []).
  split; [intros x y E; rewrite <- (I x), E; apply I|]. split; [intros v; now rewrite I|].
  split; [now intros []|]. split.
  - intros ms (_ & _ & _). unfold first_of. cbn [fst snd]. f_equal.
    assert (M : forall x, mem obj_eqb (swap x) (map swap ms) = mem obj_eqb x ms).
    { intros x. apply Bool.eq_iff_eq_true. rewrite !(mem_In obj_eqb obj_eqb_spec). split.
      - intros J. apply in_map_iff in J as (y & E & J). rewrite <- (I x), <- E, I. exact J.
      - apply in_map. }
    generalize all_objs. intros xs.
    induction xs as [|x xs IH]; [reflexivity|]. cbn [map find]. rewrite M.
    destruct (mem obj_eqb x ms); [reflexivity|exact IH].
  - intros v rs. unfold cmix', cmix. rewrite I, map_map. f_equal.
    rewrite <- (map_id rs) at 2. apply map_ext. intros [v0| |]; cbn; now rewrite ?I.
Qed.

Example swapped_return : exists w w' g g', run both = Ok w /\ run' [Start oD; Step 0; Step 0; Step 0; Step 0; Step 0; Step 0; Step 0; Step 0; Step 0; Step 0; Step 0; Step 0; Step 0; Step 0; Step 0] = Ok w' /\
  lookup obj_eqb (groups w) oA = Some g /\ lookup obj_eqb (groups w') oD = Some g' /\
  order g = [oA; oB] /\ order g' = [oD; oB].
Proof. do 4 eexists. vm_compute. repeat split. Qed.

(** A thread in between others: its search still holds what another has
    installed. *)
Example found_meanwhile : exists w, run ([Start oA; Step 0; Start oB] ++ repeat (Step 1) 12) = Ok w /\
  lookup obj_eqb (groups w) oA <> None /\ map (fun s => length (frames s)) (searches w) = [2%nat; 0%nat].
Proof. eexists. vm_compute. repeat split. discriminate. Qed.

(** Where the root of [oA] and [oB] is not clear, and two processes choose
    different ones. *)
Definition pick (back : bool) (xs : list obj) (q : obj) (ms : list obj) : obj * bool :=
  (fst (first_of (if mem obj_eqb q ms && back then rev xs else xs) ms), mem obj_eqb q ms).

Definition bad (c : code) : bool := match c with CPoison => true | _ => false end.

Definition bad_ref (r : ref obj code) : bool := match r with ROut c _ => bad c | _ => false end.

Definition pmix (f : obj -> list (ref obj code) -> code) (x : obj) (rs : list (ref obj code)) : code :=
  if existsb bad_ref rs then CPoison else f x rs.

Definition psum (cs : list code) : code := if existsb bad cs then CPoison else CSum cs.

Example pmix_absorbs f : absorbs (pmix f) psum CPoison.
Proof.
  split.
  - intros v rs i I. unfold pmix.
    replace (existsb bad_ref rs) with true; [reflexivity|]. symmetry. apply existsb_exists. eauto.
  - intros hs I. unfold psum.
    replace (existsb bad hs) with true; [reflexivity|]. symmetry. apply existsb_exists. eauto.
Qed.

Example pick_sound back xs q : (forall x, In x xs) -> sound obj_eqb (pick back xs q).
Proof.
  intros A. assert (A' : forall x, In x (rev xs)) by (intros x; apply in_rev; rewrite rev_involutive; auto).
  pose proof (first_of_sound xs A) as (P1 & P2 & P3). pose proof (first_of_sound (rev xs) A') as (_ & Q2 & Q3).
  split; [exact P1|]. split.
  - intros ms N. unfold pick. cbn [fst]. destruct (_ && _)%bool; auto.
  - intros ms ns S. unfold pick. rewrite (mem_same obj_eqb obj_eqb_spec ms ns q S).
    destruct (_ && _)%bool; [rewrite (Q3 ms ns S)|rewrite (P3 ms ns S)]; reflexivity.
Qed.

Example pick_agrees ms : class sees is_const ms ->
  snd (pick false (map swap all_objs) oD (map swap ms)) = snd (pick true all_objs oA ms) /\
  (snd (pick true all_objs oA ms) = false ->
   fst (pick false (map swap all_objs) oD (map swap ms)) = swap (fst (pick true all_objs oA ms))).
Proof.
  intros C. unfold pick. cbn [fst snd].
  assert (M : mem obj_eqb oD (map swap ms) = mem obj_eqb oA ms).
  { apply Bool.eq_iff_eq_true. rewrite !(mem_In obj_eqb obj_eqb_spec). split.
    - intros J. apply in_map_iff in J as (y & E & J). destruct y; try discriminate. exact J.
    - intros J. exact (in_map swap ms oA J). }
  split; [exact M|]. intros N. rewrite M, N. cbn [andb].
  destruct swapped_objs as (_ & _ & _ & X & _). rewrite (X ms C). reflexivity.
Qed.

Example codes_are_poison_or_not : forall c, c = CPoison \/ c <> CPoison.
Proof. intros []; [right|right|left]; congruence. Qed.

Example pmix_agrees v rs : pmix cmix' (swap v) (map (ref_to swap) rs) = pmix cmix v rs.
Proof.
  unfold pmix. destruct swapped_objs as (_ & _ & _ & _ & X). rewrite X.
  replace (existsb bad_ref (map (ref_to swap) rs)) with (existsb bad_ref rs); [reflexivity|].
  induction rs as [|r rs IH]; [reflexivity|]. cbn. rewrite IH. now destruct r.
Qed.

Example unclear_return :
  exists w w', history obj_eqb sees is_const (pick true all_objs oA) (pmix cmix) psum CPoison
    (World [] []) both = Ok w /\
  history obj_eqb (fun x => map swap (sees (swap x))) is_const (pick false (map swap all_objs) oD)
    (pmix cmix') psum CPoison (World [] []) (Start oA :: repeat (Step 0) 40) = Ok w' /\
  map (fun x => option_map (fun g => (order g, bad (hash g))) (lookup obj_eqb (groups w) x)) [oA; oA2; oC; oD] =
    [Some ([oB; oA], true); Some ([oA2; oB2], false); Some ([oC], false); Some ([oD], true)] /\
  map (fun x => option_map (fun g => (order g, bad (hash g))) (lookup obj_eqb (groups w') x)) [oD; oA2; oC; oA] =
    [Some ([oD; oB], true); Some ([oA2; oB2], false); Some ([oC], false); Some ([oA], true)].
Proof. do 2 eexists. vm_compute. repeat split. Qed.

Print Assumptions C82_no_error.
Print Assumptions C82_groups_are_classes.
Print Assumptions C82_groups_are_determined.
Print Assumptions C82_groups_are_kept.
Print Assumptions C82_calls_give_groups.
Print Assumptions C82_calls_return.
Print Assumptions C82_processes_agree.
Print Assumptions C82_equal_hashes_are_alike.
Print Assumptions C82_poison_spreads.
Print Assumptions C82_processes_agree_on_poison.
