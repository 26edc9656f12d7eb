(** Property C77: a deep copy is a copy, in memory of its own, that takes exactly the bytes that were counted. *)
From Coq Require Import List ZArith Lia.
From Verif Require Import Base Copy_Model Copy_Spec Copy_Proofs.
Import ListNotations.
Open Scope Z_scope.
Open Scope list_scope.

(** [deepcopy] of objects without cycles and without members that have no value ends, and what it returns is a copy: each object once, however
    many pointers lead to it, with refcounts that are right, in blocks that do not overlap. *)
Theorem C77_deepcopy_copies_partial : forall h root stale, copyable h root ->
  exists N, forall fuel, (N <= fuel)%nat -> forall base, exists root' s,
    deepcopy h FreeStore stale fuel root (start base) = Ok (root', s) /\
    is_copy h root root' s /\ stacked base (point s) (blocks s) /\ in_blocks s.
Proof.
  intros h root stale C. destruct (copy_ends h root C stale) as (N & Q). exists N. intros fuel L base. destruct (Q fuel L base) as (root' & s & E).
  exists root', s. destruct (copy_right h root C _ _ _ _ _ _ E) as (A & B & D & _). auto.
Qed.
Print Assumptions C77_deepcopy_copies_partial.

(** And so [deepcopyContiguous], without cells: the copy fills the slab that was made for it from [base] to its end, and nothing is written
    behind it. *)
Theorem C77_contiguous_copies_partial : forall h root stale, copyable h root -> no_cells h root ->
  exists N, forall fuel, (N <= fuel)%nat -> forall base, exists root' s bytes seen,
    deep_bytecount h fuel root nil = Ok (bytes, seen) /\
    deepcopy_contiguous h stale base fuel root = Ok (root', s) /\
    is_copy h root root' s /\ stacked base (base + bytes) (blocks s) /\ in_blocks s.
Proof.
  intros h root stale C K. destruct (contiguous_ends h root C K stale) as (N & Q). exists N. intros fuel L base.
  destruct (Q fuel L base) as (root' & s & b & seen & E1 & E2 & E3 & P). exists root', s, b, seen.
  destruct (copy_right h root C _ _ _ _ _ _ E3) as (A & B & D & _). rewrite P in B. auto.
Qed.
Print Assumptions C77_contiguous_copies_partial.

(** Whatever is returned is a copy, with any slab, and no object of it is one of the old ones when the memory it was given was free. *)
Theorem C77_every_copy_partial : forall h root sl stale base fuel root' s, copyable h root ->
  deepcopy h sl stale fuel root (start base) = Ok (root', s) ->
  is_copy h root root' s /\
  ((forall a, base <= a < point s -> h a = None) -> forall d n, In (d, n) (nodes s) -> h d = None).
Proof.
  intros h root sl stale base fuel root' s C E. destruct (copy_right h root C _ _ _ _ _ _ E) as (A & _ & _ & B & _). split; [exact A|].
  intros F d n I. apply F. destruct (B d n I). lia.
Qed.
Print Assumptions C77_every_copy_partial.

(** [deepBytecount] counts each object that is reached once. *)
Theorem C77_bytecount_partial : forall h root fuel bytes seen l, copyable h root -> no_cells h root ->
  deep_bytecount h fuel root nil = Ok (bytes, seen) -> lists_reached h root l -> bytes = total (bytes_of h) l.
Proof. intros h root fuel b seen l C K E L. exact (bytecount_right h root C K fuel b seen E l L). Qed.
Print Assumptions C77_bytecount_partial.

(** A copy can be copied again, and takes the same bytes. *)
Theorem C77_copy_again_partial : forall h root sl stale base fuel root' s, copyable h root ->
  deepcopy h sl stale fuel root (start base) = Ok (root', s) ->
  copyable (heap_of s) root' /\
  (no_cells h root -> forall f1 f2 b1 b2 seen1 seen2,
    deep_bytecount h f1 root nil = Ok (b1, seen1) -> deep_bytecount (heap_of s) f2 root' nil = Ok (b2, seen2) -> b1 = b2).
Proof.
  intros h root sl stale base fuel root' s C E. destruct (copy_right h root C _ _ _ _ _ _ E) as (A & _ & _ & _ & l & L & _).
  pose proof (copy_copyable h root root' s C A) as C'. split; [exact C'|]. intros K f1 f2 b1 b2 seen1 seen2 E1 E2.
  destruct (copy_bytes h root root' s C A l L) as (l' & L' & T).
  rewrite (bytecount_right _ _ C K _ _ _ E1 l L), (bytecount_right _ _ C' (copy_no_cells h root root' s C A K) _ _ _ E2 l' L'). now rewrite T.
Qed.
Print Assumptions C77_copy_again_partial.

(** ** An object that is shared: a list that holds one text twice, and itself held twice by a tuple *)

Definition shared : heap := fun a =>
  if a =? 100 then Some (2, ListNode false false 8 (-1) [Pointer (Some 200); Pointer (Some 200)])
  else if a =? 200 then Some (2, StringNode 1 (-1) [104; 105]) else None.
Definition pair_of_lists : val := Parts [Pointer (Some 100); Plain [7]; Pointer (Some 100)].
Lemma shared_reach a : reach shared pair_of_lists a -> a = 100 \/ a = 200.
Proof.
  induction 1 as [a I|a rc n b R IH H I].
  - cbn in I. intuition.
  - destruct IH as [-> | ->]; injection H as <- <-; cbn in I; intuition.
Qed.
Example shared_copyable : copyable shared pair_of_lists.
Proof.
  split.
  - reflexivity.
  - intros a R. destruct (shared_reach a R) as [-> | ->]; eexists _, _; (split; [reflexivity|]); cbn [sound]; [|lia].
    split; [lia|]. split; [discriminate|]. repeat constructor.
  - exists (fun a => if a =? 100 then 1%nat else 0%nat). intros a b R I. destruct (shared_reach a R) as [-> | ->]; cbn in I; [|destruct I].
    destruct I as [<-|[<-|[]]]; cbn; lia.
  - intros a rc n l R H N F.
    assert (G : incl l [100; 200]) by (intros b I; destruct (shared_reach b (F b I)) as [-> | ->]; cbn; auto).
    destruct (shared_reach a R) as [-> | ->]; injection H as <- <-.
    + pose proof (total_sub (fun b => times 100 (out shared b)) l ltac:(intros; apply times_nonneg) N _ G) as T.
      change (total _ [100; 200]) with 0 in T. change (times 100 (refs pair_of_lists)) with 2. cbv beta in T. lia.
    + pose proof (total_sub (fun b => times 200 (out shared b)) l ltac:(intros; apply times_nonneg) N _ G) as T.
      change (total _ [100; 200]) with 2 in T. change (times 200 (refs pair_of_lists)) with 0. cbv beta in T. lia.
Qed.
Example shared_no_cells : no_cells shared pair_of_lists.
Proof. intros a rc w v R. destruct (shared_reach a R) as [-> | ->]; discriminate. Qed.
(** It takes 64 bytes for the list, 64 for its array and 64 for the text. *)
Example shared_contiguous : exists s, deepcopy_contiguous shared (Unset true) 1000 9 pair_of_lists =
  Ok (Parts [Pointer (Some 1032); Plain [7]; Pointer (Some 1032)], s) /\
  nodes s = [(1032, ListNode false false 8 (-1) [Pointer (Some 1160); Pointer (Some 1160)]); (1160, StringNode 1 (-1) [104; 105])] /\
  counts s 1032 = 2 /\ counts s 1160 = 2 /\ point s = 1192.
Proof. eexists. split; [vm_compute; reflexivity|]. repeat split; reflexivity. Qed.

(** ** What cannot be copied *)

(** An object that holds itself: a copy is known only when all that it holds has been copied, and so the calls never end. *)
Definition itself : heap := fun a => if a =? 100 then Some (2, ClassNode 0 8 (Held [Pointer (Some 100)])) else None.
Lemma itself_runs fuel : forall s, assoc 100 (memo s) = None -> deepcopy itself FreeStore (Unset true) fuel (Pointer (Some 100)) s = Err OutOfFuel.
Proof.
  induction fuel as [fuel IH] using lt_wf_ind. intros s A. destruct fuel as [|fuel]; [reflexivity|]. cbn [deepcopy]. change (itself 100) with
    (Some (2, ClassNode 0 8 (Held [Pointer (Some 100)]))). cbn [alone]. rewrite A.
  change (layout_bytes _) with 24. unfold allocate at 1. change (24 =? 0) with false. cbn [bind further run_steps].
  destruct fuel as [|fuel]; [reflexivity|]. cbn [deepcopy copy_all]. rewrite (IH fuel); [reflexivity|lia|exact A].
Qed.
Theorem C77_cycles_refuted : ~ (forall h root, whole root = true -> (forall a, reach h root a -> exists rc n, h a = Some (rc, n) /\ sound n) ->
  exists fuel r, deepcopy h FreeStore (Unset true) fuel root (start 1000) = Ok r).
Proof.
  intros Q. destruct (Q itself (Pointer (Some 100)) eq_refl) as (fuel & r & E).
  - intros a R. assert (a = 100) as ->.
    { induction R as [a I|a rc n b R IH H I]; [cbn in I; intuition|]. subst a. injection H as <- <-. cbn in I. intuition. }
    eexists _, _. split; [reflexivity|]. cbn [sound]. split; [lia|reflexivity].
  - now rewrite itself_runs in E.
Qed.
Print Assumptions C77_cycles_refuted.

(** A cell is counted without the size of what it holds in place: the slab for a cell with three numbers is too small, and is written
    behind. *)
Definition cell : heap := fun a => if a =? 100 then Some (1, CellNode 24 (Parts [Plain [1]; Plain [2]; Plain [3]])) else None.
Lemma cell_reach a : reach cell (Pointer (Some 100)) a -> a = 100.
Proof. induction 1 as [a I|a rc n b R IH H I]; [cbn in I; intuition|]. subst a. injection H as <- <-. cbn in I. intuition. Qed.
Example cell_copyable : copyable cell (Pointer (Some 100)).
Proof.
  split.
  - reflexivity.
  - intros a R. rewrite (cell_reach a R). eexists _, _. split; [reflexivity|]. cbn [sound]. split; [lia|now left].
  - exists (fun _ => 0%nat). intros a b R I. rewrite (cell_reach a R) in I. destruct I.
  - intros a rc n l R H N F. rewrite (cell_reach a R) in *. injection H as <- <-. 
    pose proof (total_sub (fun b => times 100 (out cell b)) l ltac:(intros; apply times_nonneg) N [100]
      ltac:(intros b I; rewrite (cell_reach b (F b I)); now left)) as T. change (total _ [100]) with 0 in T. cbv beta in T.
    change (times 100 (refs (Pointer (Some 100)))) with 1. lia.
Qed.
Theorem C77_cells_refuted : ~ (forall h root stale, copyable h root -> exists fuel r, deepcopy_contiguous h stale 1000 fuel root = Ok r).
Proof.
  intros Q. destruct (Q cell (Pointer (Some 100)) (Unset true) cell_copyable) as (fuel & r & E).
  do 3 (destruct fuel as [|fuel]; [discriminate E|]). discriminate E.
Qed.
Print Assumptions C77_cells_refuted.
Example cell_overruns : deepcopy_contiguous cell (Unset true) 1000 9 (Pointer (Some 100)) = Err UndefinedBehaviour.
Proof. reflexivity. Qed.

(** A member without a value is in the copy what the fresh memory says, and cannot be counted. *)
Definition unset_member : heap := fun a => if a =? 100 then Some (1, ClassNode 0 16 (Held [Plain [1]; Unset false])) else None.
Theorem C77_unset_members_refuted :
  (exists s, deepcopy unset_member FreeStore (Pointer (Some 4096)) 9 (Pointer (Some 100)) (start 1000) = Ok (Pointer (Some 1032), s) /\
    nodes s = [(1032, ClassNode 0 16 (Held [Plain [1]; Pointer (Some 4096)]))]) /\
  deep_bytecount unset_member 9 (Pointer (Some 100)) nil = Err UndefinedBehaviour.
Proof. split; [eexists; split; [vm_compute; reflexivity|reflexivity]|reflexivity]. Qed.
Print Assumptions C77_unset_members_refuted.

(** The slab itself does not keep its blocks in it: the check forgets the header. *)
Theorem C77_slab_overrun_refuted : allocate (Contiguous 1064) 64 (start 1000) = Err UndefinedBehaviour /\
  allocate (Contiguous 1063) 64 (start 1000) = Err GenericError.
Proof. split; reflexivity. Qed.
Print Assumptions C77_slab_overrun_refuted.
