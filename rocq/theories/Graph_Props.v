(** Properties C33 and C34: directed graphs and the work list of the compiler.

    [eqb] is the equality of the nodes and [order] the order in which a Python set happens to be visited:
    any order. *)
From Coq Require Import Permutation.
From Verif Require Import Base Graph_Model Graph_Spec Graph_Proofs Graph_Work_Proofs.
Open Scope Z_scope.

(** ** C33 *)

(** After every history of calls, the edges are those that the calls say. *)
Theorem C33_edges : forall {node} (eqb : node -> node -> bool) order,
  (forall x y, reflect (x = y) (eqb x y)) -> (forall l, Permutation (order l) l) ->
  forall ops, let g := run_graph eqb order ops in
  forall x y, (has_edge eqb g x y = true <-> edges_after ops x y) /\
              (In y (outgoing eqb g x) <-> edges_after ops x y) /\ (In x (incoming eqb g y) <-> edges_after ops x y).
Proof.
  intros node eqb order He Ho ops g x y. destruct (run_graph_ok eqb order He Ho ops) as [C H]. rewrite <- H. split; [|split].
  - now apply has_edge_E.
  - reflexivity.
  - symmetry. apply C.
Qed.

(** Which calls fail: only [dropEdge] of an edge that is not there. *)
Theorem C33_errors : forall {node} (eqb : node -> node -> bool) order,
  (forall x y, reflect (x = y) (eqb x y)) -> (forall l, Permutation (order l) l) ->
  forall ops op, match graph_step eqb order op (run_graph eqb order ops) with
                 | Ok _ => forall a b, op = DropEdge a b -> edges_after ops a b
                 | Err e => e = GenericError /\ exists a b, op = DropEdge a b /\ ~ edges_after ops a b
                 end.
Proof.
  intros node eqb order He Ho ops op. destruct (run_graph_ok eqb order He Ho ops) as [C H].
  destruct op as [a b|a b|a b|n t]; cbn [graph_step]; try (intros; discriminate).
  - unfold drop_edge. pose proof (has_edge_E eqb He (run_graph eqb order ops) a b) as X. rewrite H in X.
    destruct (has_edge eqb (run_graph eqb order ops) a b).
    + intros a' b' [= <- <-]. now apply X.
    + split; [reflexivity|]. exists a, b. split; [reflexivity|]. intros Y. apply X in Y. discriminate.
  - destruct (drop_node_ok eqb order He Ho n t _ C) as (g' & -> & _). intros; discriminate.
Qed.

(** [levels] gives each node that has an edge the length of the longest chain that leads to it (away from
    it if [reversed]); it raises an error exactly if there is a cycle. *)
Theorem C33_levels : forall {node} (eqb : node -> node -> bool) order,
  (forall x y, reflect (x = y) (eqb x y)) -> (forall l, Permutation (order l) l) ->
  forall ops reversed, let E := edges_after ops in
  match levels eqb order (run_graph eqb order ops) reversed with
  | Ok lv => acyclic E /\
             (forall x y, E x y -> exists n m, d_get eqb lv x = Some n /\ d_get eqb lv y = Some m) /\
             (forall x v, d_get eqb lv x = Some v -> exists n, v = Z.of_nat n /\ depth (opposite reversed E) x n)
  | Err e => e = GenericError /\ ~ acyclic E
  end.
Proof.
  intros node eqb order He Ho ops r F. subst F. destruct (run_graph_ok eqb order He Ho ops) as [C H].
  pose proof (levels_ok eqb order He Ho _ r C) as L. pose proof (acyclic_ext _ _ H) as HA.
  assert (HO : forall x y, opposite r (E eqb (run_graph eqb order ops)) x y <-> opposite r (edges_after ops) x y) by (destruct r; intros; apply H).
  destruct (levels eqb order (run_graph eqb order ops) r) as [lv|e]; [|rewrite <- HA; exact L]. rewrite HA in L. destruct L as (A & L1 & L2).
  split; [exact A|]. split.
  - intros x y Hxy. apply H in Hxy. apply (edge_nodes eqb He _ _ _ C) in Hxy. destruct Hxy as [Ix Iy].
    destruct (L1 x Ix) as (n & _ & ?), (L1 y Iy) as (m & _ & ?). eauto.
  - intros x v G. destruct (L2 x v G) as (n & -> & D). exists n. split; [reflexivity|]. eapply depth_ext; [exact HO|exact D].
Qed.

(** [topologicalSort] of any list of nodes gives each of them as often as the list does, and whenever two
    of them are joined by an edge, the source comes first (last if [reversed]); nodes whose chains are
    equally long stay in the order of the list.  It raises an error exactly if there is a cycle. *)
Theorem C33_topological_sort : forall {node} (eqb : node -> node -> bool) order,
  (forall x y, reflect (x = y) (eqb x y)) -> (forall l, Permutation (order l) l) ->
  forall ops nodes reversed, let E := edges_after ops in
  match topological_sort eqb order (run_graph eqb order ops) nodes reversed with
  | Ok l => acyclic E /\ Permutation l nodes /\
            (forall x y, E x y -> if reversed then before y x l else before x y l) /\
            (NoDup nodes -> forall x y n i j, depth (opposite reversed E) x n -> depth (opposite reversed E) y n ->
               nth_error nodes i = Some x -> nth_error nodes j = Some y -> (i < j)%nat -> before x y l)
  | Err e => e = GenericError /\ ~ acyclic E
  end.
Proof.
  intros node eqb order He Ho ops nodes r F. subst F. destruct (run_graph_ok eqb order He Ho ops) as [C H].
  pose proof (topological_ok eqb order He Ho _ nodes r C) as L. pose proof (acyclic_ext _ _ H) as HA.
  assert (HO : forall x y, opposite r (edges_after ops) x y <-> opposite r (E eqb (run_graph eqb order ops)) x y) by (destruct r; intros; symmetry; apply H).
  destruct (topological_sort eqb order (run_graph eqb order ops) nodes r) as [l|e]; [|rewrite <- HA; exact L]. rewrite HA in L. destruct L as (A & P & B & _ & T).
  split; [exact A|]. split; [exact P|]. split.
  - intros x y Hxy. apply H in Hxy. destruct r; apply B; exact Hxy.
  - intros ND x y n i j Dx Dy. apply (T ND x y n i j); eapply depth_ext; eauto.
Qed.

(** [createsCycle] for two different nodes: a path leads back; which is to say, if the graph has no cycle
    yet, that it has one after the edge is added. *)
Theorem C33_creates_cycle : forall {node} (eqb : node -> node -> bool) order,
  (forall x y, reflect (x = y) (eqb x y)) -> (forall l, Permutation (order l) l) ->
  forall ops a b, a <> b ->
  exists r, creates_cycle eqb order (run_graph eqb order ops) a b = Ok r /\
    (r = true <-> exists n, path (edges_after ops) b n a) /\
    (acyclic (edges_after ops) -> (r = true <-> ~ acyclic (edges_after (ops ++ [AddEdge a b])))).
Proof.
  intros node eqb order He Ho ops a b D. destruct (run_graph_ok eqb order He Ho ops) as [C H].
  destruct (creates_cycle_path eqb order He Ho _ a b C D) as (r & -> & R).
  assert (R' : r = true <-> exists n, path (edges_after ops) b n a).
  { rewrite R. split; intros [n P]; exists n; (eapply path_ext; [|exact P]); intros; now apply H. }
  exists r. split; [reflexivity|]. split; [exact R'|]. intros A.
  unfold edges_after. rewrite fold_left_app. cbn [fold_left edges_step]. rewrite (adding_cycle _ a b A).
  split; [intros X; apply R' in X; auto|]. intros N. destruct r; [reflexivity|]. exfalso. apply N. intros X. apply R' in X. discriminate.
Qed.

(** The two nodes must differ: an edge from a node to itself is a cycle that [topologicalSort] reports, but
    [createsCycle] says that it creates none. *)
Theorem C33_creates_cycle_self_refuted : forall {node} (eqb : node -> node -> bool) order,
  (forall x y, reflect (x = y) (eqb x y)) -> (forall l, Permutation (order l) l) ->
  forall ops a, creates_cycle eqb order (run_graph eqb order ops) a a = Ok false /\ ~ acyclic (edges_after (ops ++ [AddEdge a a])).
Proof.
  intros node eqb order He Ho ops a. split.
  - unfold creates_cycle. now rewrite (eqb_refl eqb He).
  - intros A. apply (A a 0%nat). econstructor; [|constructor]. unfold edges_after. rewrite fold_left_app. cbn. auto.
Qed.

Example c33_ops : list (graph_op Z) := [AddEdge 1 2; AddEdge 2 3; AddEdge 1 4; AddEdge 4 3; AddEdge 3 5; DropNode 4 true; DropEdge 1 4].
Example C33_example : let g := run_graph Z.eqb (@rev Z) c33_ops in
  topological_sort Z.eqb (@rev Z) g [5; 3; 6; 2; 1] false = Ok [6; 1; 2; 3; 5] /\
  topological_sort Z.eqb (@rev Z) g [5; 3; 6; 2; 1] true = Ok [5; 6; 3; 2; 1] /\
  creates_cycle Z.eqb (@rev Z) g 5 1 = Ok true /\ creates_cycle Z.eqb (@rev Z) g 1 5 = Ok false /\
  levels Z.eqb (@rev Z) (add_edge Z.eqb 5 1 g) false = Err GenericError /\
  has_edge Z.eqb g 1 3 = true /\ graph_step Z.eqb (@rev Z) (DropEdge 1 4) g = Err GenericError.
Proof. vm_compute. repeat split. Qed.
Example C33_rev_is_an_order : forall l : list Z, Permutation (rev l) l.
Proof. intros l. symmetry. apply Permutation_rev. Qed.
Print Assumptions C33_edges.
Print Assumptions C33_errors.
Print Assumptions C33_levels.
Print Assumptions C33_topological_sort.
Print Assumptions C33_creates_cycle.
Print Assumptions C33_creates_cycle_self_refuted.

(** ** C34 *)

(** Every response of every history is right: a function is handed out only if it was marked and not
    handed out or dropped since; the answer is None only if nothing is outstanding; and nothing fails
    except an edge from an unknown caller.  [Changed] marks the callers, by [spec_step]. *)
Theorem C34_responses : forall {node} (eqb : node -> node -> bool) order,
  (forall x y, reflect (x = y) (eqb x y)) -> (forall l, Permutation (order l) l) ->
  forall ops w trace, run_work eqb order ops new_work = (w, trace) -> legal trace new_spec -> all_right trace new_spec.
Proof.
  intros node eqb order He Ho ops w tr R L. pose proof (run_work_ok eqb order He Ho ops new_work new_spec (inv_new eqb)) as W.
  rewrite R in W. exact (proj2 (W L)).
Qed.

(** Asking until the answer is None gives every outstanding function once, and no other, whatever happened
    before. *)
Theorem C34_every_marking_is_handed_out : forall {node} (eqb : node -> node -> bool) order,
  (forall x y, reflect (x = y) (eqb x y)) -> (forall l, Permutation (order l) l) ->
  forall ops w trace, run_work eqb order ops new_work = (w, trace) -> legal trace new_spec ->
  exists l, NoDup l /\ (forall n, In n l <-> exists p, todo (spec_after trace new_spec) p n) /\
    snd (run_work eqb order (repeat Next (length l + 1)) w) = map (fun n => (Next, Given (Some n))) l ++ [(Next, Given None)].
Proof.
  intros node eqb order He Ho ops w tr R L. pose proof (run_work_ok eqb order He Ho ops new_work new_spec (inv_new eqb)) as W.
  rewrite R in W. destruct (W L) as [I _]. exact (drain_ok eqb order He Ho _ w _ I (le_n _)).
Qed.

(** The order.  The function that is handed out was marked, at some time, with a priority that no
    outstanding marking exceeds.  What is missing: that this marking is itself outstanding, which is false
    in general ([C34_priority_refuted]). *)
Theorem C34_priority_partial : forall {node} (eqb : node -> node -> bool) order,
  (forall x y, reflect (x = y) (eqb x y)) -> (forall l, Permutation (order l) l) ->
  forall ops w trace n, run_work eqb order ops new_work = (w, trace) -> legal trace new_spec ->
  snd (get_next_dirty_node eqb w) = Some n -> let S := spec_after trace new_spec in
  exists q, ever S q n /\ forall p m, todo S p m -> p <= q.
Proof.
  intros node eqb order He Ho ops w tr n R L G. pose proof (run_work_ok eqb order He Ho ops new_work new_spec (inv_new eqb)) as W.
  rewrite R in W. destruct (W L) as [I _]. pose proof (next_ok eqb He w _ _ (inv_marks _ _ _ I)) as N.
  destruct (get_next_dirty_node eqb w) as [w' r]. cbn [snd] in G. subst r. exact (proj2 (proj1 (proj2 (proj2 (proj2 N))))).
Qed.

(** For a function all of whose markings are outstanding, such as one that has not been handed out before,
    the marking is outstanding: it has the highest priority of all. *)
Theorem C34_priority_when_fresh : forall {node} (eqb : node -> node -> bool) order,
  (forall x y, reflect (x = y) (eqb x y)) -> (forall l, Permutation (order l) l) ->
  forall ops w trace n, run_work eqb order ops new_work = (w, trace) -> legal trace new_spec ->
  snd (get_next_dirty_node eqb w) = Some n -> let S := spec_after trace new_spec in
  (forall p, ever S p n -> todo S p n) -> exists q, todo S q n /\ forall p m, todo S p m -> p <= q.
Proof.
  intros node eqb order He Ho ops w tr n R L G S F. destruct (C34_priority_partial eqb order He Ho ops w tr n R L G) as (q & Eq & M).
  exists q. split; [exact (F q Eq)|exact M].
Qed.

(** Function 1 is marked (priority 0), 2 is found as new (999999), marked again (1) and handed out.  Then 2
    is marked with low priority (-999999).  The entry for the marking at 1 is still there, so 2 is handed
    out before 1. *)
Example c34_stale : list (work_op Z) := [Root 1; Edge 1 2; MarkDirty 2; Next; MarkLow 2].
Theorem C34_priority_refuted : exists (ops : list (work_op Z)) w trace n p m,
  run_work Z.eqb (fun l => l) ops new_work = (w, trace) /\ legal trace new_spec /\
  snd (get_next_dirty_node Z.eqb w) = Some n /\ let S := spec_after trace new_spec in
  todo S p m /\ forall q, todo S q n -> q < p.
Proof.
  exists c34_stale. eexists _, _, 2, 0, 1. split; [vm_compute; reflexivity|].
  cbn [legal legal_op snd spec_after fold_left fst]. unfold unknown.
  cbn [spec_step known calls todo ever new_spec]. unfold unknown. cbn [known new_spec]. repeat split; auto.
  - intros N. apply (N 1). right. split; [reflexivity|]. split; [|right; auto]. intros l [[]|(H & _)]; discriminate.
  - intros N. apply (N 1). right. split; [reflexivity|]. split; [|right; auto]. intros l [[]|(H & _)]; discriminate.
  - left. split; [|discriminate]. left. left. right. auto.
  - intros q [[_ N]|[_ [[[]|(H & _)]|(_ & _ & [[]|(_ & H & _)])]]]; [congruence|discriminate|lia].
Qed.

(** Only known functions may be marked: marking a function that was dropped raises KeyError, and yet it is
    handed out. *)
Theorem C34_unknown_function_refuted : exists (ops : list (work_op Z)),
  snd (run_work Z.eqb (fun l => l) ops new_work) =
    [(Root 1, Done (Ok tt)); (Drop 1, Done (Ok tt)); (MarkDirty 1, Done (Err KeyError)); (Next, Given (Some 1))].
Proof. exists [Root 1; Drop 1; MarkDirty 1; Next]. vm_compute. reflexivity. Qed.

(** 1 calls 2, which calls 3; the signature of 3 changes twice, then that of 2. *)
Example C34_example : snd (run_work Z.eqb (fun l => l)
    [Root 1; Next; Edge 1 2; Edge 1 4; Next; Edge 2 3; Next; Changed 3; Changed 3; Edge 5 1; Next; Next; Changed 2; Drop 4; Next; Next] new_work) =
  [(Root 1, Done (Ok tt)); (Next, Given (Some 1)); (Edge 1 2, Done (Ok tt)); (Edge 1 4, Done (Ok tt)); (Next, Given (Some 4));
   (Edge 2 3, Done (Ok tt)); (Next, Given (Some 2)); (Changed 3, Done (Ok tt)); (Changed 3, Done (Ok tt)); (Edge 5 1, Done (Err GenericError));
   (Next, Given (Some 3)); (Next, Given (Some 2)); (Changed 2, Done (Ok tt)); (Drop 4, Done (Ok tt)); (Next, Given (Some 1)); (Next, Given None)].
Proof. vm_compute. reflexivity. Qed.
Example C34_example_is_legal : legal (snd (run_work Z.eqb (fun l => l) [Root 1; Edge 1 2; Next; MarkDirty 1; Next] new_work)) new_spec.
Proof.
  match goal with |- legal ?t _ => let t' := eval vm_compute in t in change t with t' end.
  cbn [legal legal_op]. repeat split; auto. unfold unknown. cbn [spec_step known new_spec]. intros N. apply (N 0). left. right. repeat split. intros l [].
Qed.
Print Assumptions C34_responses.
Print Assumptions C34_every_marking_is_handed_out.
Print Assumptions C34_priority_partial.
Print Assumptions C34_priority_when_fresh.
Print Assumptions C34_priority_refuted.
Print Assumptions C34_unknown_function_refuted.
