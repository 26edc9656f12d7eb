(** Property C85: the compiler cache on disk, with many processes and crashes. *)
From Verif Require Import Base CCache_Model CCache_Spec CCache_Proofs.

(** ** What is on disk *)

(** Whatever processes do and wherever they die, a directory with a final name has all files of one module, whole, and
    so have the modules that it needs. *)
Theorem C85_whole : forall es h x, In (Final h, x) (dirs (on_disk (run es))) ->
  exists m, x = map (fun f => (f, Some m)) all_files /\ forall g, In g (subs m) -> exists m', has_module (on_disk (run es)) g m'.
Proof.
  intros es h x I. pose proof (wo_wf _ (run_ok es)) as W. destruct (ordered_has _ _ _ (proj2 W) I) as (m & ->). exists m. split; [reflexivity|].
  intros g G. apply (final_has _ _ W). now apply (sub_final _ h m).
Qed.
Print Assumptions C85_whole.
(** A hash names one module. *)
Theorem C85_one : forall es h m m', has_module (on_disk (run es)) h m -> has_module (on_disk (run es)) h m' -> m = m'.
Proof. intros es h m m' A B. exact (has_one _ _ _ _ (wo_wf _ (run_ok es)) A B). Qed.
Print Assumptions C85_one.
(** A module once there stays as it is, and so does a mark. *)
Theorem C85_lasting : forall es es',
  (forall h m, has_module (on_disk (run es)) h m -> has_module (on_disk (run (es ++ es'))) h m)
  /\ (forall h, In h (marks (on_disk (run es))) -> In h (marks (on_disk (run (es ++ es'))))).
Proof. intros es es'. unfold run. rewrite fold_left_app. exact (more_run es' _ (run_ok es)). Qed.
Print Assumptions C85_lasting.
(** No module needs itself, at any remove. *)
Theorem C85_no_cycle : forall es h, ~ needs (on_disk (run es)) h h.
Proof.
  intros es h N. pose proof (wo_wf _ (run_ok es)) as W. set (l := dirs (on_disk (run es))) in *.
  assert (forall h g, needs (on_disk (run es)) h g -> forall n, within n l h -> exists k, n = S k /\ within k l g) as D.
  { clear h N. intros h g N. induction N as [h m g H G|h m g k H G N IH]; intros n I.
    - exact (within_sub _ _ _ _ _ W I H G).
    - destruct (within_sub _ _ _ _ _ W I H G) as (a & -> & A). destruct (IH a A) as (b & -> & (x & y & E & L & J)).
      exists (S b). split; [reflexivity|]. exists x, y. repeat split; [exact E|lia|exact J]. }
  assert (forall n, ~ within n l h) as X.
  { induction n as [|n IH]; intros I; destruct (D h h N _ I) as (k & E & J); [discriminate|]. injection E as ->. now apply IH. }
  apply (X (length l)). apply within_all. inversion N; subst; eapply has_final; eassumption.
Qed.
Print Assumptions C85_no_cycle.

(** ** Starting *)

(** A process that starts reads the cache without an exception, and then has just the symbols of the modules that are
    not marked and need none that is. *)
Theorem C85_start : forall es ok, exists c, start (on_disk (run es)) ok = (None, c)
  /\ forall s, has_symbol (s_proc c) s = true <-> exists h m, usable (on_disk (run es)) h /\ has_module (on_disk (run es)) h m /\ In s (syms m).
Proof. intros es ok. destruct (start_ok (on_disk (run es)) ok (wo_wf _ (run_ok es))) as (c & E & _ & H). eauto. Qed.
Print Assumptions C85_start.
(** The marks that it makes take nothing from others. *)
Theorem C85_start_marks : forall es ok c, start (on_disk (run es)) ok = (None, c) ->
  dirs (s_disk c) = dirs (on_disk (run es)) /\ forall h, usable (on_disk (run es)) h <-> usable (s_disk c) h.
Proof.
  intros es ok c E. pose proof (wo_wf _ (run_ok es)) as W. destruct (start_ok (on_disk (run es)) ok W) as (c' & E' & O & _).
  assert (c' = c) as -> by congruence. split; [exact (so_dirs _ _ _ O)|].
  apply usable_marks; [exact W|symmetry; exact (so_dirs _ _ _ O)|exact (so_old _ _ _ O)|exact (so_new _ _ _ O)].
Qed.
Print Assumptions C85_start_marks.
(** If other processes do anything at all while it reads, it still raises nothing and is offered nothing that was marked
    when it began; and it is offered all that was there when it began and is not marked when it ends. *)
Theorem C85_start_among : forall es turns ok, exists w c, start_among turns (run es) ok = (None, w, c)
  /\ (forall s, has_symbol (s_proc c) s = true -> exists h m, usable (on_disk (run es)) h /\ has_module (on_disk (run es)) h m /\ In s (syms m))
  /\ (forall s h m, has_module (on_disk (run es)) h m -> usable (on_disk w) h -> In s (syms m) -> has_symbol (s_proc c) s = true).
Proof.
  intros es turns ok. destruct (start_among_ok turns (run es) ok (run_ok es)) as (w & c & E & _ & _ & _ & _ & A & B). exists w, c. auto.
Qed.
Print Assumptions C85_start_among.
(** Code is found by every process that starts later, unless a module was marked. *)
Theorem C85_found : forall es es' ok h m s, has_module (on_disk (run es)) h m -> In s (syms m) ->
  (forall g, g = h \/ needs (on_disk (run (es ++ es'))) h g -> ~ In g (marks (on_disk (run (es ++ es'))))) ->
  exists c, start (on_disk (run (es ++ es'))) ok = (None, c) /\ has_symbol (s_proc c) s = true.
Proof.
  intros es es' ok h m s H S N. destruct (C85_start (es ++ es') ok) as (c & E & A). exists c. split; [exact E|]. apply A.
  apply (proj1 (C85_lasting es es')) in H. exists h, m. split; [|auto]. pose proof (wo_wf _ (run_ok (es ++ es'))) as W.
  apply (unmarked_usable _ W (length (dirs (on_disk (run (es ++ es')))))); auto. apply within_all. now apply has_final with m.
Qed.
Print Assumptions C85_found.

(** ** Adding *)

(** Code that a process adds is on disk when the call ends, and can be called there. *)
Theorem C85_added : forall es i p code used h u t, procs (run es) i = Some p -> writing p = None -> dependent p used = Some t ->
  ~ In h (map (fun x => name_hash (fst x)) (dirs (on_disk (run es)))) ->
  let w := run (es ++ Begin i code used h u :: repeat (Advance i) (S (length script))) in
  has_module (on_disk w) h (Module code t) /\ exists p', procs w i = Some p' /\ writing p' = None
    /\ forall s, In s (map fst code) -> has_symbol p' s = true /\ exists c, pointer p' s = Some c.
Proof.
  intros es i p code used h u t Ep Ew Et N. pose proof (run_ok (es ++ Begin i code used h u :: repeat (Advance i) (S (length script)))) as V.
  exact (whole_add _ _ _ i p code used h u t eq_refl Ep Ew Et N V (run_last es _ _ _)).
Qed.
Print Assumptions C85_added.

(** It is noted to need the modules whose code it calls. *)
Theorem C85_depends : forall es i p used t s c, procs (run es) i = Some p -> dependent p used = Some t -> In s used -> pointer p s = Some c ->
  exists h m, In h t /\ has_module (on_disk (run es)) h m /\ look s (defs m) = Some c.
Proof.
  intros es i p used t s c Ep Et I C. pose proof (wo_proc _ (run_ok es) i p Ep) as P. destruct (dependent_all p used t Et s I) as (h & L & J).
  unfold pointer in C. rewrite L in C. destruct (look h (loaded p)) as [m|] eqn:K; [|discriminate]. apply look_In in K.
  exists h, m. split; [exact J|]. split; [exact (proj1 (po_loaded _ _ P h m K))|exact C].
Qed.
Print Assumptions C85_depends.

(** ** Loading *)

(** Looking for a symbol ends.  If it says that the symbol is loaded, it can be called; if not, the process does not
    have it any more; if it raises, then because a module that a module for it needs cannot be loaded. *)
Theorem C85_load : forall es i p s, procs (run es) i = Some p ->
  let '(r, d, p') := load_for_symbol (on_disk (run es)) p s in
  match r with
  | Already => p' = p /\ exists c, pointer p' s = Some c
  | Loaded _ => exists c, pointer p' s = Some c
  | Nowhere => has_symbol p' s = false
  | LoadRaised e => e = AssertionFailed /\ exists h m g, has_module d h m /\ In s (syms m) /\ needs d h g /\ bad d (can p) g
  end.
Proof.
  intros es i p s Ep. pose proof (run_ok es) as V. pose proof (wo_wf _ V) as W. pose proof (wo_proc _ V i p Ep) as P.
  pose proof (for_symbol_ok (on_disk (run es)) p s W P) as X.
  assert (forall d p', load_for_symbol (on_disk (run es)) p s = (Already, d, p') -> p' = p) as Al.
  { intros d p'. unfold load_for_symbol. destruct look; [congruence|]. generalize (S (length (sym_mods p))). intros n. generalize (on_disk (run es)).
    revert p' d. generalize p at 1 as q. clear. induction n as [|n IH]; intros q p' d d0; cbn; [discriminate|].
    destruct hashes_of; [discriminate|]. destruct (match look _ _ with Some _ => _ | None => _ end) as ([| |e], c); try discriminate.
    destruct mem; [discriminate|]. intros E. apply IH in E. exact E. }
  unfold loop_good in X. destruct (load_for_symbol (on_disk (run es)) p s) as ((r, d), p') eqn:E. destruct X as ((nw & M & _) & P' & R).
  pose proof (lm_dirs _ _ _ M) as Ed. cbn in Ed. destruct r as [|new| |e].
  - split; [now apply (Al d)|]. destruct (pointer_there _ p' s W P' R) as (h & m & c & _ & _ & _ & C). eauto.
  - destruct (pointer_there _ p' s W P' R) as (h & m & c & _ & _ & _ & C). eauto.
  - exact R.
  - destruct R as (-> & h & g & I & (N & B) & _). split; [reflexivity|]. destruct (po_pairs _ _ P' s h I) as (m & H & S). exists h, m, g.
    unfold has_module, bad, has_module. rewrite Ed. repeat split; auto. eapply needs_dirs; [|exact N]. now rewrite Ed.
Qed.
Print Assumptions C85_load.
(** No module is forgotten that the process can load, and so a symbol only if none of its modules can be loaded. *)
Theorem C85_kept : forall es i p s r d p', procs (run es) i = Some p -> load_for_symbol (on_disk (run es)) p s = (r, d, p') ->
  (forall s' h m, In (s', h) (sym_mods p) -> has_module (on_disk (run es)) h m -> can p m = true -> In (s', h) (sym_mods p'))
  /\ (r = Nowhere -> forall h m, In (s, h) (sym_mods p) -> has_module (on_disk (run es)) h m -> can p m = false).
Proof.
  intros es i p s r d p' Ep E. pose proof (run_ok es) as V. pose proof (for_symbol_ok (on_disk (run es)) p s (wo_wf _ V) (wo_proc _ V i p Ep)) as X.
  unfold loop_good in X. rewrite E in X. destruct X as ((nw & M & _) & _ & R). pose proof (lm_keep _ _ _ M) as K. cbn in K. split; [exact K|].
  intros -> h m I H. destruct (can p m) eqn:C; [|reflexivity]. pose proof (K s h m I H C) as J. unfold has_symbol in R. apply mem_false in R.
  destruct R. apply in_map_iff. exists (s, h). auto.
Qed.
Print Assumptions C85_kept.
(** What other processes do before or after makes no difference to it: it gives the same, leaves the process with the same
    tables and makes the same marks.  It is one step of the model, and this says that the moment of it is of no account. *)
Theorem C85_load_among : forall es es' i p s, procs (run es) i = Some p ->
  let '(r1, d1, p1) := load_for_symbol (on_disk (run es)) p s in
  let '(r2, d2, p2) := load_for_symbol (on_disk (run (es ++ es'))) p s in
  r1 = r2 /\ p1 = p2 /\ exists t, marks d1 = t ++ marks (on_disk (run es)) /\ marks d2 = t ++ marks (on_disk (run (es ++ es'))).
Proof.
  intros es es' i p s Ep. apply symbol_sim; [exact (wo_wf _ (run_ok es))|exact (wo_wf _ (run_ok (es ++ es')))|exact (C85_lasting es es')|].
  exact (wo_proc _ (run_ok es) i p Ep).
Qed.
Print Assumptions C85_load_among.
(** It raises nothing if all the modules needed by those for the symbol can be loaded. *)
Theorem C85_load_partial : forall es i p s, procs (run es) i = Some p ->
  (forall h m g, has_module (on_disk (run es)) h m -> In s (syms m) -> needs (on_disk (run es)) h g -> ~ bad (on_disk (run es)) (can p) g) ->
  forall e, fst (fst (load_for_symbol (on_disk (run es)) p s)) <> LoadRaised e.
Proof.
  intros es i p s Ep A e E. pose proof (run_ok es) as V. pose proof (wo_wf _ V) as W. pose proof (wo_proc _ V i p Ep) as P.
  pose proof (for_symbol_ok (on_disk (run es)) p s W P) as X. unfold loop_good in X.
  destruct (load_for_symbol (on_disk (run es)) p s) as ((r, d), p'). cbn in E. subst r. destruct X as (_ & P' & _ & h & g & I & (N & B) & _).
  destruct (po_pairs _ _ P' s h I) as (m & H & S). eapply A; [exact H|exact S| |exact B]. eapply needs_dirs; [|exact N]. reflexivity.
Qed.
Print Assumptions C85_load_partial.
(** What it returns is all that it newly loaded, and nothing that the process cannot load. *)
Theorem C85_news : forall es i p s new d p', procs (run es) i = Some p -> load_for_symbol (on_disk (run es)) p s = (Loaded new, d, p') ->
  exists t, loaded p' = rev t ++ loaded p /\ new = map snd t /\ forall m, In m new -> can p m = true.
Proof.
  intros es i p s new d p' Ep E. pose proof (run_ok es) as V. pose proof (for_symbol_ok (on_disk (run es)) p s (wo_wf _ V) (wo_proc _ V i p Ep)) as X.
  unfold loop_good in X. rewrite E in X. destruct X as ((nw & M & N) & _). destruct (lm_new _ _ _ M) as (t & A & B & C). cbn in A, B, C.
  rewrite (N new eq_refl) in B. exists t. split; [exact A|]. split; [exact B|]. intros m I. rewrite B in I. apply in_map_iff in I. destruct I as (x & <- & I). auto.
Qed.
Print Assumptions C85_news.
(** It marks only modules that the process cannot load. *)
Theorem C85_marks : forall es i p s r d p', procs (run es) i = Some p -> load_for_symbol (on_disk (run es)) p s = (r, d, p') ->
  dirs d = dirs (on_disk (run es)) /\ forall h, In h (marks d) -> In h (marks (on_disk (run es))) \/ bad (on_disk (run es)) (can p) h.
Proof.
  intros es i p s r d p' Ep E. pose proof (run_ok es) as V. pose proof (for_symbol_ok (on_disk (run es)) p s (wo_wf _ V) (wo_proc _ V i p Ep)) as X.
  unfold loop_good in X. rewrite E in X. destruct X as ((nw & M & _) & _). split; [exact (lm_dirs _ _ _ M)|].
  destruct (lm_marks _ _ _ M) as (t & A & B). cbn in A, B. rewrite A. intros h I. apply in_app_iff in I. destruct I as [I|I]; [right|now left]. now apply B.
Qed.
Print Assumptions C85_marks.
(** If it raises, a module for the symbol is no longer offered to processes that start later. *)
Theorem C85_recovery : forall es i p s e d p', procs (run es) i = Some p -> load_for_symbol (on_disk (run es)) p s = (LoadRaised e, d, p') ->
  exists h, In (s, h) (sym_mods p') /\ ~ usable d h.
Proof.
  intros es i p s e d p' Ep E. pose proof (run_ok es) as V. pose proof (for_symbol_ok (on_disk (run es)) p s (wo_wf _ V) (wo_proc _ V i p Ep)) as X.
  unfold loop_good in X. rewrite E in X. destruct X as ((nw & M & _) & P' & _ & h & g & I & (N & B) & K). exists h. split; [exact I|].
  pose proof (lm_dirs _ _ _ M) as Ed. cbn in Ed. apply not_usable with g; [rewrite Ed; apply (wo_wf _ V)| |exact K].
  eapply needs_dirs; [|exact N]. now rewrite Ed.
Qed.
Print Assumptions C85_recovery.

(** ** Calling *)

(** The code that runs for a symbol is that of a module on disk, all of whose needs are loaded. *)
Theorem C85_pointer : forall es i p s c, procs (run es) i = Some p -> pointer p s = Some c ->
  exists h m, has_module (on_disk (run es)) h m /\ look s (defs m) = Some c /\ In h (map fst (loaded p))
    /\ forall g, needs (on_disk (run es)) h g -> In g (map fst (loaded p)).
Proof.
  intros es i p s c Ep C. pose proof (run_ok es) as V. pose proof (wo_wf _ V) as W. pose proof (wo_proc _ V i p Ep) as P.
  destruct (pointer_there _ p s W P) as (h & m & c' & I & H & L & C').
  { unfold pointer in C. apply look_key. destruct look; [eauto|discriminate]. }
  exists h, m. assert (In h (map fst (loaded p))) as K by (apply in_map_iff; exists (h, m); auto).
  split; [exact H|]. split; [congruence|]. split; [exact K|]. intros g N. apply (all_loaded (dirs (on_disk (run es))) p h); auto. eapply needs_dirs; [|exact N]. reflexivity.
Qed.
Print Assumptions C85_pointer.
(** It stays the same while the process lives, whatever it and others add and load. *)
Theorem C85_stable : forall es es' i p s c, procs (run es) i = Some p -> pointer p s = Some c -> ~ In (Crash i) es' ->
  exists p', procs (run (es ++ es')) i = Some p' /\ pointer p' s = Some c.
Proof.
  intros es es' i p s c Ep C N. pose proof (run_ok es) as V. pose proof (run_ok (es ++ es')) as V'.
  pose proof (proj1 (C85_lasting es es')) as M. unfold run in V', M |- *. rewrite fold_left_app in *.
  destruct (run_keeps es' _ i p V Ep N) as (p' & E & K). exists p'. split; [exact E|].
  eapply (pointer_keeps _ _ p p' s c (wo_wf _ V') M (wo_proc _ V i p Ep) (wo_proc _ V' i p' E) K C).
Qed.
Print Assumptions C85_stable.

(** ** Examples *)

(** Process 0 adds module 10 with symbol 1, then module 11 with symbol 2 that uses it, and dies while it writes module
    12.  Process 1 starts then, with code with which module 10 cannot be loaded. *)
Definition history : list event :=
  [Start 0 (fun _ => true); Begin 0 [(1, 100)] [] 10 50] ++ repeat (Advance 0) 19 ++ [Begin 0 [(2, 200)] [1] 11 51] ++ repeat (Advance 0) 19
  ++ [Begin 0 [(3, 300)] [2] 12 52] ++ repeat (Advance 0) 7 ++ [Crash 0].
Definition old_code (m : module) : bool := match defs m with [(1, _)] => false | _ => true end.
Example history_disk : map fst (dirs (on_disk (run history))) = [Temp 12 52; Final 11; Final 10].
Proof. vm_compute. reflexivity. Qed.
Example history_usable : exists c, start (on_disk (run history)) (fun _ => true) = (None, c) /\ has_symbol (s_proc c) 2 = true /\ has_symbol (s_proc c) 3 = false
  /\ exists d p, load_for_symbol (s_disk c) (s_proc c) 2 = (Loaded [Module [(1, 100)] []; Module [(2, 200)] [10]], d, p) /\ pointer p 1 = Some 100 /\ pointer p 2 = Some 200.
Proof. eexists. split; [vm_compute; reflexivity|]. split; [vm_compute; reflexivity|]. split; [vm_compute; reflexivity|]. eexists _, _. vm_compute. repeat split. Qed.
Example history_needs : needs (on_disk (run history)) 11 10.
Proof. apply needs_one with (Module [(2, 200)] [10]); [vm_compute; tauto|now left]. Qed.
(** A symbol that is in a module that can be loaded is found, in any case: refuted.  If a module that it needs cannot be
    loaded, only that one is marked (lines 169-175), and the assertion at lines 113-118 fails, where the code should be
    compiled anew. *)
Theorem C85_load_refuted : exists es i p s d p', procs (run es) i = Some p /\ has_symbol p s = true
  /\ load_for_symbol (on_disk (run es)) p s = (LoadRaised AssertionFailed, d, p') /\ has_symbol p' s = true.
Proof.
  exists (history ++ [Start 1 old_code]), 1. eexists. exists 2. eexists _, _. split; [vm_compute; reflexivity|]. split; [vm_compute; reflexivity|].
  split; vm_compute; reflexivity.
Qed.
Print Assumptions C85_load_refuted.
(** Other modules loaded before the failure stay loaded, but are never returned: the compiler is not told of their
    functions, now or later.  "All that is loaded was returned by some call" is refuted. *)
Definition history2 : list event :=
  [Start 0 (fun _ => true); Begin 0 [(1, 100)] [] 10 50] ++ repeat (Advance 0) 19 ++ [Begin 0 [(4, 400)] [] 13 53] ++ repeat (Advance 0) 19
  ++ [Begin 0 [(2, 200)] [4; 1] 11 51] ++ repeat (Advance 0) 19.
Theorem C85_lost_refuted : exists es i p s d p', procs (run es) i = Some p /\ loaded p = []
  /\ load_for_symbol (on_disk (run es)) p s = (LoadRaised AssertionFailed, d, p')
  /\ exists s', has_symbol p s' = true /\ load_for_symbol d p' s' = (Already, d, p').
Proof.
  exists (history2 ++ [Start 1 old_code]), 1. eexists. exists 2. eexists _, _. split; [vm_compute; reflexivity|]. split; [vm_compute; reflexivity|].
  split; [vm_compute; reflexivity|]. exists 4. split; vm_compute; reflexivity.
Qed.
Print Assumptions C85_lost_refuted.
(** When the process is started once more the symbol is not offered. *)
Example history_again : exists c, start (on_disk (run (history ++ [Start 1 old_code; LoadSymbol 1 2; Crash 1]))) old_code = (None, c) /\ has_symbol (s_proc c) 2 = false.
Proof. eexists. split; vm_compute; reflexivity. Qed.
(** While process 2 reads the cache, process 1 starts and marks module 10 after module 11 was read: process 2 is offered
    symbol 2, as it was at first. *)
Example history_among : exists w c, start_among (fun n => match n with 0 => [Start 1 old_code; LoadSymbol 1 2] | _ => [] end) (run history) (fun _ => true) = (None, w, c)
  /\ has_symbol (s_proc c) 2 = true /\ marks (on_disk w) = [10].
Proof. eexists _, _. split; [vm_compute; reflexivity|]. split; vm_compute; reflexivity. Qed.
