(** Searches for groups end. *)

From Coq Require Import Permutation.
From Verif Require Import Base Group_Model Group_Spec Group_Proofs.
Open Scope list_scope.

Lemma sum_le {X} (f g : X -> nat) xs : (forall x, f x <= g x)%nat ->
  (list_sum (map f xs) <= list_sum (map g xs))%nat.
Proof. intros L. induction xs as [|x xs IH]; cbn; [auto|]. specialize (L x). unfold list_sum in *. lia. Qed.

Lemma sum_lt {X} (f g : X -> nat) xs o c : (forall x, f x <= g x)%nat -> In o xs ->
  (f o + c <= g o)%nat -> (list_sum (map f xs) + c <= list_sum (map g xs))%nat.
Proof.
  intros L I E. induction xs as [|x xs IH]; [destruct I|]. cbn. destruct I as [->|I].
  - pose proof (sum_le f g xs L). unfold list_sum in *. lia.
  - specialize (IH I). specialize (L x). unfold list_sum in *. lia.
Qed.

Section Ends.
Context {V H : Type} (eqb : V -> V -> bool) (succ : V -> list V) (const : V -> bool)
  (root_of : list V -> V * bool) (mix : V -> list (ref V H) -> H)
  (sum : list H -> H) (poison : H).

Hypothesis eqb_spec : forall x y, eqb x y = true <-> x = y.
Hypothesis root_in : forall ms, ms <> [] -> In (fst (root_of ms)) ms.
Hypothesis root_same : forall ms ns, same ms ns -> root_of ms = root_of ns.

Variable all : list V.
Hypothesis all_in : forall v, In v all.

Notation tidy := (tidy eqb succ const root_of mix sum poison).
Notation fine := (fine eqb succ const root_of mix sum poison).
Notation good := (good eqb succ const root_of mix sum poison).
Notation one_step := (one_step eqb succ const root_of mix sum poison).
Notation happen := (happen eqb succ const root_of mix sum poison).
Notation history := (history eqb succ const root_of mix sum poison).
Notation taken := (taken eqb const (H := H)).
Notation mem := (mem eqb).
Implicit Types t : table V H.

(** What an object may still cost. *)
Definition cost t (cs : list V) (v : V) : nat :=
  if taken t v || mem v cs then 0 else 2 + length (succ v).

Definition frame_cost (f : frame V) : nat := 2 + length (edges f).

Lemma costs_cons f rest :
  list_sum (map frame_cost (f :: rest)) = (2 + length (edges f) + list_sum (map frame_cost rest))%nat.
Proof. reflexivity. Qed.

Definition total t (s : search V H) : nat :=
  list_sum (map (cost t (considered s)) all) + list_sum (map frame_cost (frames s)).

Definition raw t (s : search V H) : nat :=
  match built s with
  | Some _ => pred (total t s)
  | None => total t s
  end.

Definition weight t (s : search V H) : nat :=
  match frames s with
  | [] => 0
  | _ => raw t s
  end.

Lemma weight_raw t s : (weight t s <= raw t s)%nat.
Proof. unfold weight. destruct (frames s); lia. Qed.

Lemma cost_le t t' cs cs' v : grows eqb t t' ->
  (In v cs -> In v cs' \/ taken t' v = true) -> (cost t' cs' v <= cost t cs v)%nat.
Proof.
  intros G K. unfold cost. destruct (taken t v) eqn:T.
  - rewrite (grows_taken eqb const t t' v G T). cbn. lia.
  - destruct (mem v cs) eqn:M; cbn [orb].
    + apply (mem_In eqb eqb_spec) in M. destruct (K M) as [J|J].
      * apply (mem_In eqb eqb_spec) in J. rewrite J, orb_true_r. lia.
      * rewrite J. cbn. lia.
    + destruct (taken t' v || mem v cs'); lia.
Qed.

Lemma weight_grow t t' s : grows eqb t t' -> (weight t' s <= weight t s)%nat.
Proof.
  intros G. assert (L : (total t' s <= total t s)%nat).
  { unfold total. pose proof (sum_le (cost t' (considered s)) (cost t (considered s)) all
      (fun v => cost_le t t' _ _ v G (fun J => or_introl J))). lia. }
  unfold weight, raw. destruct (frames s); [auto|]. destruct (built s); lia.
Qed.

Lemma merge_cost o : forall rest f fs, merge eqb o f rest = Ok fs ->
  (list_sum (map frame_cost fs) <= list_sum (map frame_cost (f :: rest)))%nat.
Proof.
  induction rest as [|g rest IH]; intros f fs; cbn [merge]; destruct (mem o (members f)).
  - intros E. inversion E. lia.
  - discriminate.
  - intros E. inversion E. lia.
  - intros E. specialize (IH _ _ E). cbn [map] in *. unfold frame_cost in *.
    cbn [join edges] in IH. rewrite app_length in IH. cbn in *. lia.
Qed.

Lemma step_less t s t' s' : tidy t -> fine t s -> frames s <> [] -> one_step t s = Ok (t', s') ->
  (weight t' s' < weight t s)%nat.
Proof.
  intros T F NE E. apply Nat.le_lt_trans with (raw t' s'); [apply weight_raw|].
  replace (weight t s) with (raw t s) by (unfold weight; now destruct (frames s)).
  destruct (step_fine eqb succ const root_of mix sum poison eqb_spec root_in root_same t s T F)
    as (t1 & s1 & E1 & _ & G & _ & K).
  rewrite E in E1. inversion E1; subst t1 s1. clear E1.
  pose proof (sum_le _ _ all (fun v => cost_le t t' _ _ v G (K v))) as L.
  unfold Group_Model.one_step in E. destruct (frames s) as [|f rest] eqn:Ef; [congruence|].
  unfold raw, total. rewrite Ef, costs_cons.
  destruct (built s) as [g|] eqn:Eb.
  - inversion E; subst t' s'. unfold pop in *. rewrite Ef in *. cbn [considered frames built] in *. lia.
  - destruct (edges f) as [|o es] eqn:Ee.
    + destruct (existsb _ _).
      * destruct (forallb _ _); [|discriminate]. inversion E; subst t' s'.
        unfold pop in *. rewrite Ef in *. cbn [considered frames built] in *. lia.
      * destruct (build _ _ _ _ _ _ _ _ _) as [g|]; cbn [bind] in E; [|discriminate].
        inversion E; subst t' s'. cbn [considered frames built] in *.
        rewrite costs_cons, Ee. cbn [length]. lia.
    + destruct (taken t o) eqn:To.
      * inversion E; subst t' s'. cbn [considered frames built] in *.
        rewrite costs_cons. cbn [edges length]. lia.
      * destruct (mem o (considered s)) eqn:M.
        -- destruct (merge eqb o (Frame (members f) es) rest) as [fs|] eqn:Em; cbn [bind] in E; [|discriminate].
           inversion E; subst t' s'. cbn [considered frames built] in *.
           apply merge_cost in Em. rewrite costs_cons in Em. cbn [edges length] in *. lia.
        -- unfold push in E. cbn [considered frames] in E. rewrite M in E. cbn [bind] in E.
           inversion E; subst t' s'. cbn [considered frames built] in *. rewrite !costs_cons. cbn [edges].
           set (es' := rev (filter (fun w => negb (taken t w)) (succ o))).
           assert (Le : (length es' <= length (succ o))%nat)
             by (unfold es'; rewrite rev_length; apply filter_le).
           pose proof (sum_lt _ _ all o (2 + length (succ o))
             (fun v => cost_le t t (considered s) (o :: considered s) v G
                         (fun J => or_introl (or_intror J))) (all_in o)) as L2.
           assert (C : (cost t (o :: considered s) o + (2 + length (succ o)) <= cost t (considered s) o)%nat).
           { unfold cost. rewrite To, M. cbn [orb Group_Model.mem existsb].
             rewrite (eqb_refl eqb eqb_spec o). cbn [orb]. lia. }
           specialize (L2 C). cbn [length]. lia.
Qed.

Lemma history_ends k es : forall w s, good w -> nth_error (searches w) k = Some s ->
  (weight (groups w) s <= turns k es)%nat ->
  exists w' s', history w es = Ok w' /\ nth_error (searches w') k = Some s' /\ frames s' = [].
Proof.
  induction es as [|e es IH]; intros w s G E L; cbn [Group_Model.history].
  - exists w, s. split; [reflexivity|]. split; [exact E|].
    cbn [turns] in L. pose proof (proj1 (Forall_forall _ _) (proj2 G) s (nth_error_In _ _ E)) as Fs.
    unfold weight, raw, total in L. destruct (frames s) as [|f fs] eqn:Ef; [reflexivity|]. exfalso.
    rewrite costs_cons in L.
    destruct (built s); lia.
  - destruct (happen_good eqb succ const root_of mix sum poison eqb_spec root_in root_same w e G)
      as (w1 & E1 & G1 & K1).
    rewrite E1. cbn [bind].
    assert (X : exists s1, nth_error (searches w1) k = Some s1 /\
              (weight (groups w1) s1 <= turns k es)%nat).
    { destruct e as [o|j]; cbn [turns] in L; cbn [Group_Model.happen] in E1.
      - unfold push in E1. cbn in E1. inversion E1; subst w1. cbn [searches groups]. exists s.
        split; [|exact L]. rewrite nth_error_app1; [exact E|]. apply nth_error_Some. congruence.
      - destruct (Nat.eqb j k) eqn:Ej.
        + apply Nat.eqb_eq in Ej. subst j. rewrite E in E1.
          destruct (one_step (groups w) s) as [[t' s']|] eqn:Es; cbn [bind fst snd] in E1; [|discriminate].
          inversion E1; subst w1. cbn [searches groups]. exists s'.
          split; [exact (nth_set_same k s' s _ E)|].
          destruct G as [T F]. pose proof (proj1 (Forall_forall _ _) F s (nth_error_In _ _ E)) as Fs.
          destruct (frames s) as [|f fs] eqn:Ef.
          * destruct Fs as (_ & C & R). unfold ready in R. rewrite Ef in R.
            unfold Group_Model.one_step in Es. rewrite Ef in Es.
            destruct (built s) as [g|] eqn:Eb; [destruct R as [_ []]|]. inversion Es; subst t' s'.
            unfold weight. rewrite Ef. lia.
          * pose proof (step_less (groups w) s t' s' T Fs) as Ls. rewrite Ef in Ls.
            specialize (Ls ltac:(discriminate) Es). lia.
        + apply Nat.eqb_neq in Ej. destruct (nth_error (searches w) j) as [sj|] eqn:Esj.
          * destruct (one_step (groups w) sj) as [[t' s']|] eqn:Es; cbn [bind fst snd] in E1; [|discriminate].
            inversion E1; subst w1. cbn [searches groups]. exists s.
            split; [rewrite nth_set_other by congruence; exact E|].
            pose proof (weight_grow (groups w) t' s (proj1 K1)). cbn [groups] in *. lia.
          * inversion E1; subst w1. eauto. }
    destruct X as (s1 & E2 & L2). exact (IH w1 s1 G1 E2 L2).
Qed.

Lemma start_weight t o s : push eqb succ const t (Search [] [] None) o = Ok s ->
  (weight t s <= list_sum (map (fun v => 2 + length (succ v)) all))%nat.
Proof.
  unfold push. cbn [considered frames Group_Model.mem existsb]. intros E. inversion E; subst s.
  unfold weight, raw, total. cbn [frames built considered]. rewrite costs_cons. cbn [edges map].
  pose proof (filter_le (fun w => negb (taken t w)) (succ o)) as Le. rewrite rev_length.
  pose proof (sum_lt (cost t [o]) (fun v => 2 + length (succ v))%nat all o (2 + length (succ o))) as L.
  assert (A : forall x, (cost t [o] x <= 2 + length (succ x))%nat)
    by (intros x; unfold cost; destruct (_ || _)%bool; lia).
  specialize (L A (all_in o)).
  assert (B : cost t [o] o = O).
  { unfold cost. cbn [Group_Model.mem existsb]. rewrite (eqb_refl eqb eqb_spec o), orb_true_r. reflexivity. }
  specialize (L ltac:(rewrite B; auto)). replace (list_sum []) with O by reflexivity. lia.
Qed.

End Ends.
