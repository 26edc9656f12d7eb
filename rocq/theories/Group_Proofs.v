(** Groups are the classes of objects that see each other. *)

From Coq Require Import Permutation.
From Verif Require Import Base Group_Model Group_Spec.
Open Scope list_scope.

Section Proofs.
Context {V H : Type} (eqb : V -> V -> bool) (succ : V -> list V) (const : V -> bool)
  (root_of : list V -> V * bool) (mix : V -> list (ref V H) -> H)
  (sum : list H -> H) (poison : H).

Hypothesis eqb_spec : forall x y, eqb x y = true <-> x = y.
Hypothesis root_in : forall ms, ms <> [] -> In (fst (root_of ms)) ms.
Hypothesis root_same : forall ms ns, same ms ns -> root_of ms = root_of ns.

Notation reach := (reach succ const).
Notation mutual := (mutual succ const).
Notation class := (class succ const).
Notation taken := (taken eqb const (H := H)).
Notation installed := (installed eqb (H := H)).
Notation lookup := (lookup eqb (H := H)).
Notation mem := (mem eqb).
Notation hashed := (hashed succ const root_of mix sum poison eqb).
Notation walk := (walk succ root_of).
Notation walks := (walks succ).
Implicit Types t : table V H.

(* -------------------------------------------------------------- *)
(** * Lists *)

Lemma eqb_refl x : eqb x x = true.
Proof. now apply eqb_spec. Qed.

Lemma mem_In v xs : mem v xs = true <-> In v xs.
Proof.
  unfold Group_Model.mem. rewrite existsb_exists. split.
  - intros (x & I & E). apply eqb_spec in E. now subst.
  - intros I. exists v. split; [exact I|apply eqb_refl].
Qed.

Lemma mem_not v xs : mem v xs = false <-> ~ In v xs.
Proof. rewrite <- mem_In. destruct (mem v xs); split; congruence. Qed.

Lemma index_some v xs : In v xs -> exists i, index eqb v xs = Some i.
Proof.
  induction xs as [|x xs IH]; [intros []|]. intros I. cbn [index].
  destruct (eqb v x) eqn:E; [eauto|]. destruct I as [->|I]; [rewrite eqb_refl in E; discriminate|].
  destruct (IH I) as [i ->]. eexists; reflexivity.
Qed.

Lemma index_none v xs : ~ In v xs -> index eqb v xs = None.
Proof.
  clear - eqb_spec.
  induction xs as [|x xs IH]; [reflexivity|]. intros N. cbn [index].
  destruct (eqb v x) eqn:E; [apply eqb_spec in E; subst; cbn in N; tauto|].
  rewrite IH; [reflexivity|]. cbn in N; tauto.
Qed.

Lemma index_In v xs i : index eqb v xs = Some i -> In v xs.
Proof.
  intros E. destruct (mem v xs) eqn:M; [now apply mem_In|].
  apply mem_not, index_none in M. congruence.
Qed.

Lemma insert_all ys : forall xs, NoDup (xs ++ ys) -> fold_left (insert eqb) ys xs = xs ++ ys.
Proof.
  induction ys as [|y ys IH]; intros xs N; cbn [fold_left]; [now rewrite app_nil_r|].
  unfold insert at 2. replace (Group_Model.mem eqb y xs) with false.
  - rewrite IH; rewrite <- app_assoc; [reflexivity|exact N].
  - symmetry. apply mem_not. intros I. apply NoDup_remove_2 in N. apply N, in_app_iff. now left.
Qed.

Lemma NoDup_snoc (xs : list V) x : NoDup xs -> ~ In x xs -> NoDup (xs ++ [x]).
Proof.
  intros N I. apply (Permutation_NoDup (l := x :: xs)).
  - apply Permutation_cons_append.
  - now constructor.
Qed.

Lemma filter_le (f : V -> bool) xs : (length (filter f xs) <= length xs)%nat.
Proof. induction xs as [|x xs IH]; cbn; [auto|]. destruct (f x); cbn; lia. Qed.

Lemma map_res_ok {X Y} (f : X -> res Y) g xs :
  (forall x, In x xs -> f x = Ok (g x)) -> map_res f xs = Ok (map g xs).
Proof.
  induction xs as [|x xs IH]; [reflexivity|]. intros E. cbn [map_res map].
  rewrite (E x (or_introl eq_refl)). cbn [bind]. rewrite IH; [reflexivity|].
  intros y I. apply E. now right.
Qed.

(* -------------------------------------------------------------- *)
(** * Tables *)

Lemma lookup_app t t' v :
  lookup (t ++ t') v = match lookup t v with Some g => Some g | None => lookup t' v end.
Proof.
  induction t as [|[w g] t IH]; [reflexivity|]. cbn [app Group_Model.lookup].
  destruct (eqb v w); [reflexivity|exact IH].
Qed.

Lemma lookup_all (g : group V H) vs v :
  lookup (map (fun v => (v, g)) vs) v = if mem v vs then Some g else None.
Proof.
  induction vs as [|w vs IH]; [reflexivity|]. cbn. destruct (eqb v w); [reflexivity|exact IH].
Qed.

Lemma lookup_install t g v :
  lookup (install eqb t g) v =
  match lookup t v with Some g' => Some g' | None => if mem v (order g) then Some g else None end.
Proof.
  unfold install. rewrite lookup_app. destruct (lookup t v) as [g'|] eqn:E; [reflexivity|].
  rewrite lookup_all.
  assert (M : mem v (filter (fun v => negb (installed t v)) (order g)) = mem v (order g)).
  { apply Bool.eq_iff_eq_true. rewrite !mem_In, filter_In. unfold Group_Model.installed.
    split; [tauto|]. intros I. rewrite E. auto. }
  now rewrite M.
Qed.

(** One table has all that the other has. *)
Definition grows t t' : Prop := forall v, installed t v = true -> installed t' v = true.

Lemma grows_refl t : grows t t.
Proof. intros v. auto. Qed.

Lemma grows_install t g : grows t (install eqb t g).
Proof.
  intros v. unfold Group_Model.installed. rewrite lookup_install.
  destruct (lookup t v); [reflexivity|discriminate].
Qed.

Lemma grows_taken t t' v : grows t t' -> taken t v = true -> taken t' v = true.
Proof.
  intros G. unfold Group_Model.taken. rewrite !orb_true_iff. intros [I|C]; [left; auto|now right].
Qed.

Lemma taken_installed t v : const v = false -> taken t v = true -> installed t v = true.
Proof. intros C. unfold Group_Model.taken. now rewrite C, orb_false_r. Qed.

(* -------------------------------------------------------------- *)
(** * Reaching *)

Lemma reach_trans u v w : reach u v -> reach v w -> reach u w.
Proof.
  intros R R2. induction R2 as [|a b c R2 IH I C]; [exact R|].
  exact (reach_step _ _ _ _ _ (IH R) I C).
Qed.

Lemma reach_one v w : In w (succ v) -> const w = false -> reach v w.
Proof. intros I C. exact (reach_step _ _ _ _ _ (reach_refl _ _ v) I C). Qed.

Lemma reach_const u v : reach u v -> u <> v -> const v = false.
Proof. intros R N. destruct R as [|u v w R I C]; [congruence|exact C]. Qed.

Lemma class_same ms ns v : class ms -> class ns -> In v ms -> In v ns -> same ms ns.
Proof.
  intros (_ & _ & C) (_ & _ & D) I J w. rewrite (C v I w). symmetry. exact (D v J w).
Qed.

(* -------------------------------------------------------------- *)
(** * Walking *)

(** The loop of [visit]. *)
Fixpoint each (n : nat) (ms ws ord : list V) : res (list V) :=
  match ws with
  | [] => Ok ord
  | w :: ws => bind (visit eqb succ n ms w ord) (each n ms ws)
  end.

Lemma visit_S n ms v ord :
  visit eqb succ (S n) ms v ord =
  if negb (mem v ms) || mem v ord then Ok ord else each n ms (succ v) (ord ++ [v]).
Proof.
  cbn [visit]. destruct (negb (mem v ms) || mem v ord)%bool; [reflexivity|].
  generalize (ord ++ [v]). induction (succ v) as [|w ws IH]; intros o; [reflexivity|].
  cbn [each]. destruct (visit eqb succ n ms w o); cbn [bind]; [apply IH|reflexivity].
Qed.

Lemma mem_same ms ns v : same ms ns -> mem v ms = mem v ns.
Proof. intros S. apply Bool.eq_iff_eq_true. rewrite !mem_In. apply S. Qed.

Lemma visit_walks ms : forall n v o o', visit eqb succ n ms v o = Ok o' ->
  forall todo ord, walks ms todo o' ord -> walks ms (v :: todo) o ord.
Proof.
  induction n as [|n IH]; intros v o o'; [discriminate|]. rewrite visit_S.
  destruct (mem v ms) eqn:M; cbn [negb orb].
  2:{ intros E. inversion E; subst. intros todo ord W. apply walks_skip; [left; now apply mem_not|exact W]. }
  destruct (mem v o) eqn:O.
  { intros E. inversion E; subst. intros todo ord W. apply walks_skip; [right; now apply mem_In|exact W]. }
  intros E todo ord W. apply walks_new; [now apply mem_In|now apply mem_not|].
  revert E. generalize (o ++ [v]). induction (succ v) as [|w ws IHw]; intros o1; cbn [each app].
  - intros E. inversion E; subst. exact W.
  - destruct (visit eqb succ n ms w o1) as [o2|] eqn:Ev; cbn [bind]; [|discriminate].
    intros E. exact (IH w o1 o2 Ev _ _ (IHw o2 E)).
Qed.

Lemma walks_same ms ns todo seen ord : same ms ns -> walks ms todo seen ord -> walks ns todo seen ord.
Proof.
  intros S W. induction W as [seen|v todo seen ord D W IH|v todo seen ord I N W IH].
  - constructor.
  - apply walks_skip; [|exact IH]. now rewrite <- (S v).
  - apply walks_new; [now apply S|exact N|exact IH].
Qed.

Lemma walks_unique ms todo seen ord ord' :
  walks ms todo seen ord -> walks ms todo seen ord' -> ord = ord'.
Proof.
  intros W. revert ord'. induction W as [seen|v todo seen ord D W IH|v todo seen ord I N W IH];
    intros ord' W'; inversion W'; subst; auto; tauto.
Qed.

(** How many members are still to come. *)
Definition left_over (ms ord : list V) : nat := length (filter (fun x => negb (mem x ord)) ms).

Lemma left_over_le ms ord ord' : incl ord ord' -> (left_over ms ord' <= left_over ms ord)%nat.
Proof.
  intros I. unfold left_over. induction ms as [|m ms IH]; [auto|]. cbn [filter].
  destruct (mem m ord) eqn:E.
  - replace (mem m ord') with true; [exact IH|]. symmetry. apply mem_In, I, mem_In, E.
  - cbn [negb]. destruct (mem m ord'); cbn; lia.
Qed.

Lemma left_over_add ms ord v : In v ms -> ~ In v ord -> (left_over ms (ord ++ [v]) < left_over ms ord)%nat.
Proof.
  intros I N. unfold left_over. induction ms as [|m ms IH]; [destruct I|]. cbn [filter].
  destruct (eqb v m) eqn:E.
  - apply eqb_spec in E. subst m. replace (mem v ord) with false by (symmetry; now apply mem_not).
    replace (mem v (ord ++ [v])) with true by (symmetry; apply mem_In, in_app_iff; right; now left).
    cbn [negb length].
    pose proof (left_over_le ms ord (ord ++ [v])) as L. unfold left_over in L.
    specialize (L (fun x Hx => proj2 (in_app_iff _ _ _) (or_introl Hx))). lia.
  - destruct I as [->|I]; [rewrite eqb_refl in E; discriminate|]. specialize (IH I).
    assert (M : mem m (ord ++ [v]) = mem m ord).
    { apply Bool.eq_iff_eq_true. rewrite !mem_In, in_app_iff. cbn [In].
      split; [|tauto]. intros [?|[<-|[]]]; [assumption|rewrite eqb_refl in E; discriminate]. }
    rewrite M. destruct (mem m ord); cbn; lia.
Qed.

(** What a walk adds. *)
Definition walked (ms ord ord' : list V) : Prop :=
  incl ord ord' /\ (NoDup ord -> NoDup ord') /\ (incl ord ms -> incl ord' ms) /\
  forall x, In x ord' -> ~ In x ord -> forall w, In w (succ x) -> In w ms -> In w ord'.

Lemma walked_trans ms a b c : walked ms a b -> walked ms b c -> walked ms a c.
Proof.
  intros (I1 & N1 & M1 & C1) (I2 & N2 & M2 & C2).
  split; [intros x Hx; auto|]. split; [auto|]. split; [auto|].
  intros x Hx Nx w Hw Mw. destruct (mem x b) eqn:E.
  - apply mem_In in E. apply I2. exact (C1 x E Nx w Hw Mw).
  - apply mem_not in E. exact (C2 x Hx E w Hw Mw).
Qed.

Lemma visit_ok ms : forall n v ord, (left_over ms ord < n)%nat ->
  exists ord', visit eqb succ n ms v ord = Ok ord' /\ walked ms ord ord' /\ (In v ms -> In v ord').
Proof.
  induction n as [|n IH]; intros v ord L; [lia|]. rewrite visit_S.
  destruct (mem v ms) eqn:M; cbn [negb orb].
  2:{ exists ord. split; [reflexivity|]. split.
      - split; [intros x; auto|]. split; [auto|]. split; [auto|]. intros; contradiction.
      - intros I. apply mem_In in I. congruence. }
  destruct (mem v ord) eqn:O.
  { exists ord. split; [reflexivity|]. split.
    - split; [intros x; auto|]. split; [auto|]. split; [auto|]. intros; contradiction.
    - intros _. now apply mem_In. }
  apply mem_In in M. apply mem_not in O.
  assert (L2 : (left_over ms (ord ++ [v]) < n)%nat) by (pose proof (left_over_add ms ord v M O); lia).
  assert (E : forall ws o, (left_over ms o < n)%nat ->
    exists ord', each n ms ws o = Ok ord' /\ walked ms o ord' /\ forall w, In w ws -> In w ms -> In w ord').
  { induction ws as [|w ws IHw]; intros o Lo; cbn [each].
    - exists o. split; [reflexivity|]. split.
      + split; [intros x; auto|]. split; [auto|]. split; [auto|]. intros; contradiction.
      + intros w [].
    - destruct (IH w o Lo) as (o1 & E1 & W1 & I1). rewrite E1. cbn [bind].
      destruct (IHw o1) as (o2 & E2 & W2 & I2).
      { pose proof (left_over_le ms o o1 (proj1 W1)). lia. }
      exists o2. split; [exact E2|]. split; [exact (walked_trans _ _ _ _ W1 W2)|].
      intros x [<-|Hx] Mx; [apply (proj1 W2); auto|auto]. }
  destruct (E (succ v) (ord ++ [v]) L2) as (ord' & E' & (I' & N' & M' & C') & S').
  exists ord'. split; [exact E'|]. split; [|intros _; apply I', in_app_iff; right; now left].
  split; [intros x Hx; apply I', in_app_iff; now left|]. split; [|split].
  - intros N. apply N'. apply NoDup_snoc; assumption.
  - intros Im. apply M'. intros x Hx. apply in_app_iff in Hx as [Hx|[<-|[]]]; auto.
  - intros x Hx Nx w Hw Mw. destruct (eqb x v) eqn:Ex.
    + apply eqb_spec in Ex. subst x. auto.
    + apply (C' x Hx); auto. intros J. apply in_app_iff in J as [J|[<-|[]]]; [auto|].
      rewrite eqb_refl in Ex. discriminate.
Qed.

(** A walk finds the whole class, in an order of its own. *)
Lemma walk_class ms : class ms ->
  exists ord, visit eqb succ (S (length ms)) ms (fst (root_of ms)) [] = Ok ord /\
    length ord = length ms /\ same ms ord /\ class ord /\ walk ord.
Proof.
  intros C. pose proof C as (NE & ND & K).
  destruct (visit_ok ms (S (length ms)) (fst (root_of ms)) []) as (ord & E & (_ & N & M & Cl) & R).
  { unfold left_over. pose proof (filter_le (fun x => negb (mem x [])) ms). lia. }
  specialize (N (NoDup_nil _)). specialize (M (fun x (Hx : In x []) => match Hx with end)).
  pose proof (root_in ms NE) as Ir. specialize (R Ir).
  assert (All : incl ms ord).
  { intros x Hx. assert (Rx : reach (fst (root_of ms)) x) by (apply (K _ Ir x); exact Hx).
    revert Hx R. induction Rx as [r|r u x Ru IH I Cx]; intros Hx R; [exact R|].
    assert (Hu : In u ms).
    { apply (K r Ir u). split; [exact Ru|].
      apply (reach_trans u x r); [now apply reach_one|]. apply (K r Ir x), Hx. }
    apply (Cl u (IH E Ir Hu R) (fun f => f) x I Hx). }
  assert (S : same ms ord) by (intros x; split; auto).
  assert (L : length ord = length ms).
  { apply Nat.le_antisymm; apply NoDup_incl_length; assumption. }
  assert (Co : class ord).
  { split; [|split; [exact N|]].
    - intros ->. apply (All _ Ir).
    - intros v Hv w. rewrite <- (S w). apply K, S, Hv. }
  exists ord. repeat (split; [assumption|]). unfold Group_Spec.walk.
  rewrite <- (root_same ms ord S). apply (walks_same ms ord _ _ _ S).
  apply (visit_walks ms _ _ _ _ E). constructor.
Qed.

Lemma walk_unique ms ns : same ms ns -> walk ms -> walk ns -> ms = ns.
Proof.
  intros S W W'. unfold Group_Spec.walk in *. rewrite (root_same ms ns S) in W.
  apply (walks_same ms ns _ _ _ S) in W. exact (walks_unique ns _ _ _ _ W W').
Qed.

(** The hash of a group is fixed. *)
Lemma hashed_unique g : hashed g -> forall g' v, hashed g' -> In v (order g) -> In v (order g') -> g = g'.
Proof.
  induction 1 as [ord other C W K _ IH]. intros g' v Hg I I'.
  destruct Hg as [ord' other' C' W' K' H']. cbn [order] in *.
  assert (ord = ord').
  { apply walk_unique; try assumption. exact (class_same _ _ v C C' I I'). }
  subst ord'. f_equal. destruct (snd (root_of ord)); [reflexivity|]. f_equal.
  apply map_ext_in. intros x Hx. f_equal. apply map_ext_in. intros w Hw.
  unfold refers. destruct (const w) eqn:Cw; [reflexivity|].
  destruct (index eqb w ord) as [i|] eqn:Ei; [reflexivity|].
  assert (N : ~ In w ord).
  { intros Iw. destruct (index_some w ord Iw). congruence. }
  now rewrite (IH x w Hx Hw Cw N (other' w) w (H' x w Hx Hw Cw N) (K x w Hx Hw Cw N) (K' x w Hx Hw Cw N)).
Qed.

(* -------------------------------------------------------------- *)
(** * Invariants *)

Definition settled (g : group V H) : Prop := class (order g) /\ hashed g.

Definition tidy t : Prop :=
  (forall v g, lookup t v = Some g -> In v (order g) /\ settled g) /\
  (forall v w, installed t v = true -> In w (succ v) -> const w = false -> installed t w = true).

Definition spread (fs : list (frame V)) : list V := concat (map members fs).

Definition strong (f : frame V) : Prop :=
  members f <> [] /\ (forall x y, In x (members f) -> In y (members f) -> reach x y) /\
  (forall o, In o (edges f) -> exists v, In v (members f) /\ In o (succ v)).

Fixpoint linked (fs : list (frame V)) : Prop :=
  match fs with
  | [] => True
  | f :: rest => (forall x y, In x (spread rest) -> In y (members f) -> reach x y) /\ linked rest
  end.

Fixpoint covers t (seen : list V) (fs : list (frame V)) : Prop :=
  match fs with
  | [] => True
  | f :: rest =>
      (forall v w, In v (members f) -> In w (succ v) ->
         In w (edges f) \/ taken t w = true \/ In w (members f) \/ In w seen) /\
      covers t (members f ++ seen) rest
  end.

Record stack t (seen : list V) (fs : list (frame V)) : Prop := Stack {
  k_nodup : NoDup (spread fs);
  k_strong : Forall strong fs;
  k_linked : linked fs;
  k_covers : covers t seen fs }.

Definition ready (s : search V H) : Prop :=
  match built s with
  | None => True
  | Some g =>
      settled g /\
      match frames s with
      | [] => False
      | f :: _ => edges f = [] /\ same (members f) (order g)
      end
  end.

Definition fine t (s : search V H) : Prop :=
  stack t [] (frames s) /\ (forall v, In v (considered s) <-> In v (spread (frames s))) /\ ready s.

(** Seeing more and having more keeps everything covered. *)
Lemma covers_more t t' : grows t t' -> forall fs seen seen',
  (forall w, In w seen -> taken t' w = true \/ In w seen') ->
  covers t seen fs -> covers t' seen' fs.
Proof.
  intros G. induction fs as [|f fs IH]; intros seen seen' S C; [exact Logic.I|].
  destruct C as [C1 C2]. split.
  - intros v w Hv Hw. destruct (C1 v w Hv Hw) as [?|[?|[?|J]]]; auto.
    + right; left. now apply (grows_taken t).
    + destruct (S w J); auto.
  - refine (IH _ _ _ C2). intros w Hw. rewrite in_app_iff in *. destruct Hw as [?|Hw]; [auto|].
    destruct (S w Hw); auto.
Qed.

Lemma stack_grow t t' seen fs : grows t t' -> stack t seen fs -> stack t' seen fs.
Proof.
  intros G [A B C D]. constructor; auto. refine (covers_more t t' G _ _ _ _ D). auto.
Qed.

Lemma fine_grow t t' s : grows t t' -> fine t s -> fine t' s.
Proof. intros G (K & C & R). split; [exact (stack_grow t t' _ _ G K)|auto]. Qed.

Lemma installed_reach t v w : tidy t -> installed t v = true -> reach v w -> installed t w = true.
Proof.
  intros [_ T] I R. induction R as [|v u w R IH J C]; [exact I|]. exact (T u w (IH I) J C).
Qed.

(** Taking an edge away. *)
Lemma stack_edge t m o es rest :
  stack t [] (Frame m (o :: es) :: rest) -> stack t [o] (Frame m es :: rest).
Proof.
  intros [A B C D]. constructor; [exact A| |exact C|].
  - inversion B as [|f fs (B0 & B1 & B2) B3]; subst. constructor; [|exact B3].
    split; [exact B0|]. split; [exact B1|]. intros x Hx. apply B2. now right.
  - destruct D as [D1 D2]. split.
    + intros v w Hv Hw. destruct (D1 v w Hv Hw) as [[->|?]|[?|[?|[]]]]; cbn [edges members In] in *; auto.
    + refine (covers_more t t (grows_refl t) _ _ _ _ D2). cbn [members]. intros w.
      rewrite !in_app_iff. cbn [In]. tauto.
Qed.

Lemma stack_skip t o fs : taken t o = true -> stack t [o] fs -> stack t [] fs.
Proof.
  intros T [A B C D]. constructor; auto.
  refine (covers_more t t (grows_refl t) _ _ _ _ D). intros w [<-|[]]. auto.
Qed.

Lemma in_spread v fs : In v (spread fs) <-> exists f, In f fs /\ In v (members f).
Proof.
  unfold spread. rewrite in_concat. split.
  - intros (l & Hl & Hv). apply in_map_iff in Hl as (f & <- & Hf). eauto.
  - intros (f & Hf & Hv). exists (members f). split; [now apply in_map|exact Hv].
Qed.

(** Merging. *)
Lemma merge_ok t o : const o = false -> forall rest f,
  stack t [o] (f :: rest) ->
  (exists v, In v (members f) /\ reach v o) ->
  In o (spread (f :: rest)) ->
  exists fs, merge eqb o f rest = Ok fs /\ stack t [] fs /\ same (spread (f :: rest)) (spread fs).
Proof.
  intros Co. induction rest as [|g rest IH]; intros f K (v & Hv & Rv) Ho; cbn [merge].
  - destruct (mem o (members f)) eqn:M.
    + exists [f]. split; [reflexivity|]. split; [|intros x; reflexivity].
      destruct K as [A B C [D1 D2]]. constructor; auto. split; [|exact Logic.I].
      apply mem_In in M. intros x w Hx Hw.
      destruct (D1 x w Hx Hw) as [?|[?|[?|[<-|[]]]]]; auto.
    + apply mem_not in M. unfold spread in Ho. cbn in Ho. rewrite app_nil_r in Ho. contradiction.
  - destruct (mem o (members f)) eqn:M.
    + exists (f :: g :: rest). split; [reflexivity|]. split; [|intros x; reflexivity].
      destruct K as [A B C [D1 D2]]. constructor; auto. apply mem_In in M. split.
      * intros x w Hx Hw. destruct (D1 x w Hx Hw) as [?|[?|[?|[<-|[]]]]]; auto.
      * refine (covers_more t t (grows_refl t) _ _ _ _ D2). intros w.
        rewrite !in_app_iff. intros [?|[<-|[]]]; auto.
    + apply mem_not in M. destruct K as [A B C [D1 [D2 D3]]].
      inversion B as [|f0 fs0 Bf B']; subst. inversion B' as [|g0 fs1 Bg Br]; subst.
      destruct Bf as (Nf & Sf & Ef). destruct Bg as (Ng & Sg & Eg).
      destruct C as [C1 [C2 C3]].
      assert (ND : NoDup (members g ++ members f)).
      { unfold spread in A. cbn [map concat] in A. rewrite app_assoc in A.
        apply (Permutation_NoDup (l := members f ++ members g)); [apply Permutation_app_comm|].
        revert A. generalize (concat (map members rest)), (members f ++ members g).
        intros a b N. induction b as [|x b IHb]; [constructor|]. inversion N; subst. constructor; auto.
        rewrite in_app_iff in *. tauto. }
      assert (Mj : members (join eqb g f) = members g ++ members f) by (cbn; now apply insert_all).
      assert (In_g : forall x, In x (members g) -> In x (spread (g :: rest)))
        by (intros x Hx; unfold spread; cbn; apply in_app_iff; auto).
      assert (Og : forall x, In x (members g) -> reach o x).
      { intros x Hx. unfold spread in Ho. cbn [map concat] in Ho. rewrite !in_app_iff in Ho.
        destruct Ho as [Ho|[Ho|Ho]]; [contradiction|exact (Sg o x Ho Hx)|exact (C2 o x Ho Hx)]. }
      destruct (IH (join eqb g f)) as (fs & E & K & S).
      * constructor.
        -- unfold spread in *. cbn [map concat] in *. rewrite Mj.
           refine (Permutation_NoDup _ A). rewrite app_assoc. apply Permutation_app_tail, Permutation_app_comm.
        -- constructor; [|exact Br]. split; [|split].
           ++ rewrite Mj. intros E. apply app_eq_nil in E as [E _]. exact (Ng E).
           ++ rewrite Mj. intros x y Hx Hy. rewrite in_app_iff in Hx, Hy.
              destruct Hx as [Hx|Hx], Hy as [Hy|Hy].
              ** exact (Sg x y Hx Hy).
              ** apply C1; auto.
              ** apply (reach_trans x v y); [exact (Sf x v Hx Hv)|].
                 exact (reach_trans v o y Rv (Og y Hy)).
              ** exact (Sf x y Hx Hy).
           ++ rewrite Mj. intros x Hx. cbn [join edges] in Hx. apply in_app_iff in Hx as [Hx|Hx].
              ** destruct (Ef x Hx) as (u & Hu & Iu). exists u. rewrite in_app_iff. auto.
              ** destruct (Eg x Hx) as (u & Hu & Iu). exists u. rewrite in_app_iff. auto.
        -- split; [|exact C3]. rewrite Mj. intros x y Hx Hy. apply in_app_iff in Hy as [Hy|Hy]; [auto|].
           apply C1; [|exact Hy]. unfold spread in *. cbn. apply in_app_iff. auto.
        -- split.
           ++ rewrite Mj. cbn [join edges]. intros x w Hx Hw. rewrite !in_app_iff in *.
              destruct Hx as [Hx|Hx].
              ** destruct (D2 x w Hx Hw) as [?|[?|[?|J]]]; auto. apply in_app_iff in J as [?|?]; auto.
              ** destruct (D1 x w Hx Hw) as [?|[?|[?|?]]]; auto.
           ++ refine (covers_more t t (grows_refl t) _ _ _ _ D3). rewrite Mj. intros w.
              rewrite !in_app_iff. tauto.
      * exists v. rewrite Mj, in_app_iff. auto.
      * unfold spread in *. cbn [map concat] in *. rewrite Mj. rewrite !in_app_iff in *. tauto.
      * exists fs. split; [exact E|]. split; [exact K|]. intros x. rewrite <- (S x).
        unfold spread. cbn [map concat]. rewrite Mj. rewrite !in_app_iff. tauto.
Qed.

(** Pushing. *)
Lemma push_stack t o rest :
  taken t o = false -> ~ In o (spread rest) -> (forall x, In x (spread rest) -> reach x o) ->
  stack t [o] rest ->
  stack t [] (Frame [o] (rev (filter (fun w => negb (taken t w)) (succ o))) :: rest).
Proof.
  intros T N R [A B C D]. constructor.
  - unfold spread in *. cbn. now constructor.
  - constructor; [|exact B]. split; [cbn; discriminate|]. split.
    + intros x y [<-|[]] [<-|[]]. apply reach_refl.
    + cbn [edges members]. intros x Hx. apply in_rev, filter_In in Hx as [Hx _]. exists o. cbn; auto.
  - split; [|exact C]. intros x y Hx [<-|[]]. auto.
  - split; [|exact D]. cbn [edges members]. intros v w [<-|[]] Hw.
    destruct (taken t w) eqn:E; [auto|]. left. apply in_rev. rewrite rev_involutive.
    apply filter_In. now rewrite E.
Qed.

(** Popping. *)
Lemma pop_fine t t' s f rest : grows t t' -> frames s = f :: rest ->
  (forall v, In v (members f) -> taken t' v = true) ->
  stack t [] (frames s) -> (forall v, In v (considered s) <-> In v (spread (frames s))) ->
  fine t' (pop eqb s).
Proof.
  intros G F T [A B C D] E. unfold pop. rewrite F in *. cbn [frames considered built].
  split; [|split; [|exact Logic.I]]; cbn [frames considered].
  - inversion B; subst. destruct C as [_ C]. destruct D as [_ D]. constructor; auto.
    + unfold spread in *. cbn [map concat] in A. revert A. generalize (members f). intros m N.
      induction m as [|x m IHm]; [exact N|]. inversion N; subst. auto.
    + refine (covers_more t t' G _ _ _ _ D). intros w. rewrite app_nil_r. auto.
  - intros v. rewrite filter_In, negb_true_iff, E.
    unfold spread in *. cbn [map concat] in *. rewrite in_app_iff. split.
    + intros [[J|J] N]; [apply mem_not in N; contradiction|exact J].
    + intros J. split; [auto|]. apply mem_not. intros J'. clear - A J J'.
      induction (members f) as [|x m IHm]; [destruct J'|]. inversion A; subst.
      destruct J' as [->|J']; [|auto]. match goal with X : ~ In v _ |- _ => apply X end.
      apply in_app_iff. auto.
Qed.

(* -------------------------------------------------------------- *)
(** * Building *)

Lemma done_class t f rest : tidy t -> stack t [] (f :: rest) -> edges f = [] ->
  existsb (taken t) (members f) = false -> class (members f).
Proof.
  intros T [A B _ [D _]] Ef N. inversion B as [|f0 fs0 (Nf & Sf & _) _]; subst.
  assert (NT : forall x, In x (members f) -> taken t x = false).
  { intros x Hx. destruct (taken t x) eqn:E; [|reflexivity].
    assert (existsb (taken t) (members f) = true) by (apply existsb_exists; eauto). congruence. }
  split; [exact Nf|]. split.
  - unfold spread in A. cbn [map concat] in A. revert A. generalize (concat (map members rest)).
    induction (members f) as [|x m IHm]; intros r N'; [constructor|]. inversion N'; subst.
    constructor; [rewrite in_app_iff in *; tauto|]. clear IHm.
    match goal with X : NoDup (m ++ r) |- _ => revert X end. clear.
    induction m as [|x m IHm]; [constructor|]. intros N. inversion N; subst. constructor; auto.
    rewrite in_app_iff in *. tauto.
  - intros v Hv w. split; [intros Hw; split; auto|]. intros [R R'].
    assert (K : In w (members f) \/ installed t w = true).
    { clear R'. induction R as [|v u w R IH I C]; [auto|]. destruct (IH Hv) as [Hu|Hu].
      - destruct (D u w Hu I) as [J|[J|[J|[]]]]; [rewrite Ef in J; destruct J| |auto].
        right. now apply taken_installed.
      - right. exact (proj2 T u w Hu I C). }
    destruct K as [K|K]; [exact K|]. exfalso.
    pose proof (installed_reach t w v T K R') as Iv. specialize (NT v Hv).
    unfold Group_Model.taken in NT. rewrite Iv in NT. discriminate.
Qed.

Lemma build_ok t ms : tidy t -> class ms ->
  (forall v w, In v ms -> In w (succ v) -> taken t w = true \/ In w ms) ->
  exists g, build eqb succ const root_of mix sum poison t ms = Ok g /\ same ms (order g) /\ settled g.
Proof.
  intros T C Cl. destruct (walk_class ms C) as (ord & E & L & S & Co & W).
  set (other := fun w => match lookup t w with Some g => g | None => Group [] poison end).
  assert (R : forall v w, In v ord -> In w (succ v) ->
              refer eqb const t ord w = Ok (refers const eqb ord other w)).
  { intros v w Hv Hw. unfold refer, refers, other. destruct (const w) eqn:Cw; [reflexivity|].
    destruct (index eqb w ord) as [i|] eqn:Ei; [reflexivity|].
    assert (Iw : installed t w = true).
    { apply taken_installed; [exact Cw|]. apply S in Hv.
      destruct (Cl v w Hv Hw) as [J|J]; [exact J|]. apply S in J. destruct (index_some w ord J). congruence. }
    unfold Group_Model.installed in Iw. destruct (lookup t w) as [g|] eqn:El; [|discriminate].
    destruct (proj1 T w g El) as [Ig _]. destruct (index_some w _ Ig) as [j Ej].
    rewrite Ej. reflexivity. }
  assert (Hc : compute_hash eqb succ const mix sum poison t ord (snd (root_of ms)) =
    Ok (if snd (root_of ord) then poison
        else sum (map (fun v => mix v (map (refers const eqb ord other) (succ v))) ord))).
  { unfold compute_hash. rewrite (root_same ms ord S). destruct (snd (root_of ord)); [reflexivity|].
    rewrite (map_res_ok _ (fun v => mix v (map (refers const eqb ord other) (succ v)))); [reflexivity|].
    intros v Hv. unfold topo_hash. rewrite (map_res_ok _ (refers const eqb ord other)); [reflexivity|].
    intros w Hw. exact (R v w Hv Hw). }
  eexists. split; [|split].
  - unfold build. rewrite E. cbn [bind]. rewrite L, Nat.eqb_refl, Hc. reflexivity.
  - exact S.
  - split; [exact Co|].
    cut (forall v w, In v ord -> In w (succ v) -> const w = false -> ~ In w ord ->
           In w (order (other w)) /\ hashed (other w)).
    { intros X. constructor; [exact Co|exact W| |]; intros v w Hv Hw Cw N; apply (X v w Hv Hw Cw N). }
    intros v w Hv Hw Cw N. unfold other.
    assert (Iw : installed t w = true).
    { apply taken_installed; [exact Cw|]. apply S in Hv.
      destruct (Cl v w Hv Hw) as [J|J]; [exact J|]. apply S in J. contradiction. }
    unfold Group_Model.installed in Iw. destruct (lookup t w) as [g|] eqn:El; [|discriminate].
    destruct (proj1 T w g El) as [Ig [_ Hg]]. auto.
Qed.

Lemma tidy_install t g : tidy t -> settled g ->
  (forall v w, In v (order g) -> In w (succ v) -> taken t w = true \/ In w (order g)) ->
  tidy (install eqb t g) /\ forall v, In v (order g) -> installed (install eqb t g) v = true.
Proof.
  intros [T1 T2] Sg Cl.
  assert (A : forall v, In v (order g) -> installed (install eqb t g) v = true).
  { intros v Hv. unfold Group_Model.installed. rewrite lookup_install.
    destruct (lookup t v); [reflexivity|]. apply mem_In in Hv. now rewrite Hv. }
  split; [|exact A]. split.
  - intros v g' E. rewrite lookup_install in E. destruct (lookup t v) as [g0|] eqn:El.
    + inversion E; subst. auto.
    + destruct (mem v (order g)) eqn:M; [|discriminate]. inversion E; subst.
      apply mem_In in M. auto.
  - intros v w Iv Hw Cw. unfold Group_Model.installed in Iv. rewrite lookup_install in Iv.
    destruct (lookup t v) as [g0|] eqn:El.
    + apply grows_install. apply (T2 v); auto. unfold Group_Model.installed. now rewrite El.
    + destruct (mem v (order g)) eqn:M; [|discriminate]. apply mem_In in M.
      destruct (Cl v w M Hw) as [J|J]; [|auto]. apply grows_install. now apply taken_installed.
Qed.

(* -------------------------------------------------------------- *)
(** * Steps *)

Notation one_step := (one_step eqb succ const root_of mix sum poison).

Lemma step_fine t s : tidy t -> fine t s ->
  exists t' s', one_step t s = Ok (t', s') /\ tidy t' /\ grows t t' /\ fine t' s' /\
    forall v, In v (considered s) -> In v (considered s') \/ taken t' v = true.
Proof.
  intros T (K & C & R). unfold Group_Model.one_step.
  destruct (built s) as [g|] eqn:Eb.
  - unfold ready in R. rewrite Eb in R. destruct R as [Sg R].
    destruct (frames s) as [|f rest] eqn:Ef; [destruct R|]. destruct R as [Ee S].
    destruct (tidy_install t g T Sg) as [T' A].
    { intros v w Hv Hw. apply S in Hv. destruct K as [_ _ _ [D _]].
      destruct (D v w Hv Hw) as [J|[J|[J|[]]]]; [rewrite Ee in J; destruct J|auto|].
      right. now apply S. }
    assert (Tk : forall v, In v (members f) -> taken (install eqb t g) v = true).
    { intros v Hv. unfold Group_Model.taken. rewrite A; [reflexivity|]. now apply S. }
    exists (install eqb t g), (pop eqb s). split; [reflexivity|]. split; [exact T'|].
    split; [apply grows_install|]. split.
    + apply (pop_fine t _ s f rest (grows_install t g) Ef Tk); rewrite Ef; assumption.
    + intros v Hv. unfold pop. rewrite Ef. cbn [considered].
      destruct (mem v (members f)) eqn:M.
      * right. now apply Tk, mem_In.
      * left. apply filter_In. now rewrite M.
  - destruct (frames s) as [|f rest] eqn:Ef.
    { exists t, s. split; [reflexivity|]. split; [exact T|]. split; [apply grows_refl|].
      split; [|auto]. unfold fine. rewrite Ef. auto. }
    destruct (edges f) as [|o es] eqn:Ee.
    + destruct (existsb (taken t) (members f)) eqn:Ex.
      * assert (All : forall v, In v (members f) -> taken t v = true).
        { apply existsb_exists in Ex as (x & Hx & Tx). intros y Hy.
          destruct K as [_ B _ _]. inversion B as [|f0 fs0 (_ & Sf & _) _]; subst.
          destruct (eqb x y) eqn:Exy; [apply eqb_spec in Exy; now subst|].
          assert (N : y <> x) by (intros ->; rewrite eqb_refl in Exy; discriminate).
          pose proof (reach_const y x (Sf y x Hy Hx) N) as Cx.
          pose proof (installed_reach t x y T (taken_installed t x Cx Tx) (Sf x y Hx Hy)) as Iy.
          unfold Group_Model.taken. now rewrite Iy. }
        replace (forallb (taken t) (members f)) with true by (symmetry; now apply forallb_forall).
        exists t, (pop eqb s). split; [reflexivity|]. split; [exact T|]. split; [apply grows_refl|].
        split.
        -- apply (pop_fine t t s f rest (grows_refl t) Ef All); rewrite Ef; assumption.
        -- intros v Hv. unfold pop. rewrite Ef. cbn [considered].
           destruct (mem v (members f)) eqn:M.
           ++ right. now apply All, mem_In.
           ++ left. apply filter_In. now rewrite M.
      * pose proof (done_class t f rest T K Ee Ex) as Cm.
        destruct (build_ok t (members f) T Cm) as (g & E & S & Sg).
        { intros v w Hv Hw. destruct K as [_ _ _ [D _]].
          destruct (D v w Hv Hw) as [J|[J|[J|[]]]]; auto. rewrite Ee in J. destruct J. }
        rewrite E. cbn [bind]. exists t, (Search (considered s) (f :: rest) (Some g)).
        split; [reflexivity|]. split; [exact T|]. split; [apply grows_refl|]. split; [|auto].
        split; [exact K|]. split; [exact C|]. cbn. auto.
    + destruct f as [m es0]. cbn [edges members] in *. subst es0.
      pose proof (stack_edge t m o es rest K) as Ko.
      assert (P : exists v, In v m /\ In o (succ v)).
      { destruct K as [_ B _ _]. inversion B as [|f0 fs0 (_ & _ & Sf) _]; subst.
        apply (Sf o). now left. }
      destruct (taken t o) eqn:To.
      * eexists t, _. split; [reflexivity|]. split; [exact T|]. split; [apply grows_refl|].
        split; [|auto]. split; [exact (stack_skip t o _ To Ko)|]. split; [exact C|exact Logic.I].
      * assert (Co : const o = false).
        { unfold Group_Model.taken in To. now apply orb_false_iff in To. }
        destruct P as (v & Hv & Iv). pose proof (reach_one v o Iv Co) as Rv.
        destruct (mem o (considered s)) eqn:M.
        -- apply mem_In, C in M.
           destruct (merge_ok t o Co rest (Frame m es) Ko) as (fs & E & K' & S').
           { exists v. auto. }
           { exact M. }
           rewrite E. cbn [bind]. eexists t, _. split; [reflexivity|]. split; [exact T|].
           split; [apply grows_refl|]. split; [|auto]. split; [exact K'|]. split; [|exact Logic.I].
           intros x. cbn [considered frames]. rewrite C. exact (S' x).
        -- unfold push. cbn [considered frames]. rewrite M. cbn [bind].
           apply mem_not in M. eexists t, _. split; [reflexivity|]. split; [exact T|].
           split; [apply grows_refl|]. split; [|cbn [considered]; intros x Hx; left; now right].
           split; [|split; [|exact Logic.I]]; cbn [frames considered].
           ++ apply push_stack; [exact To| | |exact Ko].
              ** intros J. apply M, C. exact J.
              ** destruct Ko as [_ B [L _] _]. inversion B as [|f0 fs0 (_ & Sf & _) _]; subst.
                 intros x Hx. unfold spread in Hx. cbn [map concat members] in Hx.
                 apply in_app_iff in Hx as [Hx|Hx].
                 --- exact (reach_trans x v o (Sf x v Hx Hv) Rv).
                 --- exact (reach_trans x v o (L x v Hx Hv) Rv).
           ++ intros x. cbn [In]. rewrite C. unfold spread. cbn. tauto.
Qed.

Lemma start_fine t o :
  exists s, push eqb succ const t (Search [] [] None) o = Ok s /\ fine t s /\ considered s = [o].
Proof.
  unfold push. cbn [considered frames Group_Model.mem existsb]. eexists. split; [reflexivity|].
  split; [|reflexivity]. split; [|split; [|exact Logic.I]]; cbn [frames considered].
  - constructor.
    + unfold spread. cbn. repeat constructor. auto.
    + repeat constructor; cbn [members edges]; try discriminate.
      * intros x y [<-|[]] [<-|[]]. apply reach_refl.
      * intros x Hx. apply in_rev, filter_In in Hx as [Hx _]. exists o. cbn; auto.
    + split; [intros x y []|exact Logic.I].
    + split; [|exact Logic.I]. cbn [members edges]. intros v w [<-|[]] Hw.
      destruct (taken t w) eqn:E; [auto|]. left. apply in_rev. rewrite rev_involutive.
      apply filter_In. now rewrite E.
  - intros x. unfold spread. cbn. tauto.
Qed.

(* -------------------------------------------------------------- *)
(** * Histories *)

Notation happen := (happen eqb succ const root_of mix sum poison).
Notation history := (history eqb succ const root_of mix sum poison).

Definition good (w : world V H) : Prop := tidy (groups w) /\ Forall (fine (groups w)) (searches w).

Lemma Forall_set_nth {X} (P : X -> Prop) k x xs : P x -> Forall P xs -> Forall P (set_nth k x xs).
Proof.
  intros Hx F. revert k. induction F as [|y xs Hy F IH]; intros k; [destruct k; constructor|].
  destruct k; cbn; constructor; auto.
Qed.

Lemma nth_set_same {X} k (x y : X) xs : nth_error xs k = Some y -> nth_error (set_nth k x xs) k = Some x.
Proof. revert k. induction xs as [|z xs IH]; intros [|k] E; try discriminate; cbn in *; auto. Qed.

Lemma nth_set_other {X} k j (x : X) xs : j <> k -> nth_error (set_nth k x xs) j = nth_error xs j.
Proof.
  revert k j. induction xs as [|z xs IH]; intros [|k] [|j] N; try reflexivity; try congruence.
  cbn. apply IH. congruence.
Qed.

(** What one event keeps: nothing is forgotten by the table, and what a search
    considers stays considered until it is taken. *)
Definition kept (w w' : world V H) : Prop :=
  grows (groups w) (groups w') /\
  forall k s, nth_error (searches w) k = Some s ->
    exists s', nth_error (searches w') k = Some s' /\
      forall v, In v (considered s) -> In v (considered s') \/ taken (groups w') v = true.

Lemma happen_good w e : good w -> exists w', happen w e = Ok w' /\ good w' /\ kept w w'.
Proof.
  intros [T F]. destruct e as [o|k]; cbn [Group_Model.happen].
  - destruct (start_fine (groups w) o) as (s & E & Fs & _). rewrite E. cbn [bind].
    eexists. split; [reflexivity|]. split; [split; [exact T|]|split; [apply grows_refl|]]; cbn [groups searches].
    + apply Forall_app. auto.
    + intros k s0 E0. exists s0. split; [|auto]. rewrite nth_error_app1; [exact E0|].
      apply nth_error_Some. congruence.
  - destruct (nth_error (searches w) k) as [s|] eqn:Es.
    + pose proof (proj1 (Forall_forall _ _) F s (nth_error_In _ _ Es)) as Fs.
      destruct (step_fine (groups w) s T Fs) as (t' & s' & E & T' & G & Fs' & Kc).
      rewrite E. cbn [bind fst snd]. eexists. split; [reflexivity|].
      split; [split; [exact T'|]|split; [exact G|]]; cbn [groups searches].
      * apply Forall_set_nth; [exact Fs'|]. eapply Forall_impl; [|exact F].
        intros x. now apply fine_grow.
      * intros j s0 E0. destruct (Nat.eq_dec j k) as [->|N].
        -- assert (s0 = s) as -> by congruence.
           exists s'. split; [exact (nth_set_same k s' s _ Es)|exact Kc].
        -- exists s0. rewrite nth_set_other by exact N. auto.
    + exists w. split; [reflexivity|]. split; [split; assumption|]. split; [apply grows_refl|].
      intros j s E. exists s. auto.
Qed.

Lemma kept_trans a b c : kept a b -> kept b c -> kept a c.
Proof.
  intros [G K] [G' K']. split; [intros v Hv; auto|]. intros k s E.
  destruct (K k s E) as (s1 & E1 & K1). destruct (K' k s1 E1) as (s2 & E2 & K2).
  exists s2. split; [exact E2|]. intros v Hv. destruct (K1 v Hv) as [J|J]; [auto|].
  right. now apply (grows_taken _ _ v G').
Qed.

Lemma history_good es : forall w, good w -> exists w', history w es = Ok w' /\ good w' /\ kept w w'.
Proof.
  induction es as [|e es IH]; intros w G; cbn [Group_Model.history].
  - exists w. split; [reflexivity|]. split; [exact G|]. split; [apply grows_refl|]. eauto.
  - destruct (happen_good w e G) as (w1 & E1 & G1 & K1). rewrite E1. cbn [bind].
    destruct (IH w1 G1) as (w2 & E2 & G2 & K2). exists w2. split; [exact E2|]. split; [exact G2|].
    exact (kept_trans _ _ _ K1 K2).
Qed.

Lemma good_empty : good (World [] []).
Proof. split; [split; cbn; discriminate|constructor]. Qed.

End Proofs.
