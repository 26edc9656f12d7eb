(** Proofs about the compiler cache. *)
From Verif Require Import Base CCache_Model CCache_Spec.

(** ** Lists *)
Lemma mem_In x l : mem x l = true <-> In x l.
Proof.
  unfold mem. rewrite existsb_exists. split.
  - intros (y & I & E). apply Nat.eqb_eq in E. now subst.
  - intros I. exists x. now rewrite Nat.eqb_refl.
Qed.
Lemma mem_false x l : mem x l = false <-> ~ In x l.
Proof. rewrite <- mem_In. destruct (mem x l); intuition congruence. Qed.
Lemma look_In {A} k (l : list (nat * A)) a : look k l = Some a -> In (k, a) l.
Proof.
  induction l as [|(k', a') l IH]; cbn; [discriminate|]. destruct (Nat.eqb_spec k k') as [->|_]; intros E.
  - injection E as ->. now left.
  - right. now apply IH.
Qed.
Lemma look_key {A} k (l : list (nat * A)) : In k (map fst l) <-> exists a, look k l = Some a.
Proof.
  induction l as [|(k', a') l IH]; cbn.
  - split; [tauto|]. intros (a & E). discriminate.
  - destruct (Nat.eqb_spec k k') as [->|N]; [split; eauto|]. rewrite <- IH. split; [|tauto]. intros [E|E]; [congruence|exact E].
Qed.
Lemma look_None {A} k (l : list (nat * A)) : look k l = None <-> ~ In k (map fst l).
Proof.
  rewrite look_key. destruct (look k l) as [a|]; split; try congruence.
  - intros N. destruct N. now exists a.
  - intros _ (a & E). discriminate.
Qed.
Lemma look_app {A} k (l t : list (nat * A)) a : look k l = Some a -> look k (l ++ t) = Some a.
Proof. induction l as [|(k', a') l IH]; cbn; [discriminate|]. destruct (Nat.eqb k k'); [easy|exact IH]. Qed.
Lemma look_other {A} h g (l : list (nat * A)) : g <> h -> look g (filter (fun x => negb (Nat.eqb h (fst x))) l) = look g l.
Proof.
  intros N. induction l as [|(k, a) l IH]; cbn; [reflexivity|].
  destruct (Nat.eqb_spec h k) as [->|_]; cbn.
  - destruct (Nat.eqb_spec g k); [contradiction|exact IH].
  - now rewrite IH.
Qed.
Lemma filter_twice {A} (f g : A -> bool) l : filter g (filter f l) = filter (fun x => f x && g x) l.
Proof. induction l as [|x l IH]; cbn; [reflexivity|]. destruct (f x); cbn; [|exact IH]. now rewrite IH. Qed.
Lemma filter_all {A} (l : list A) : filter (fun _ => true) l = l.
Proof. induction l as [|x l IH]; cbn; [reflexivity|]. now rewrite IH. Qed.
Lemma filter_len {A} (f : A -> bool) l : (length (filter f l) <= length l)%nat.
Proof. induction l as [|x l IH]; cbn; [lia|]. destruct (f x); cbn; lia. Qed.
Lemma filter_less {A} (f : A -> bool) l x : In x l -> f x = false -> (length (filter f l) < length l)%nat.
Proof.
  induction l as [|y l IH]; cbn; [tauto|]. intros [->|I] E.
  - rewrite E. pose proof (filter_len f l). lia.
  - specialize (IH I E). destruct (f y); cbn; lia.
Qed.
Lemma add_pair_In l x y : In y (add_pair l x) <-> y = x \/ In y l.
Proof.
  unfold add_pair. destruct existsb eqn:E.
  - apply existsb_exists in E. destruct E as ((a, b) & I & E). apply andb_true_iff in E. destruct x as (c, d). cbn in E.
    rewrite !Nat.eqb_eq in E. destruct E as [-> ->]. split; [tauto|]. intros [->|J]; assumption.
  - rewrite in_app_iff. cbn. intuition congruence.
Qed.
Lemma add_pairs_In t l y : In y (fold_left add_pair t l) <-> In y t \/ In y l.
Proof.
  revert l. induction t as [|x t IH]; intros l; cbn; [tauto|]. rewrite IH, add_pair_In. intuition congruence.
Qed.
Lemma add_firsts t : forall l, exists r, fold_left add_first t l = l ++ r /\ (forall x, In x r -> In x t)
  /\ (forall x, In x t -> In (fst x) (map fst (fold_left add_first t l))).
Proof.
  induction t as [|x t IH]; intros l; cbn.
  - exists []. rewrite app_nil_r. cbn. tauto.
  - destruct (IH (add_first l x)) as (r & E & I & J). rewrite E in *. unfold add_first in *.
    destruct (look (fst x) l) eqn:L.
    + exists r. repeat split; [auto|]. intros y [<-|Y]; [|now apply J]. rewrite map_app, in_app_iff. left. apply look_key. eauto.
    + exists (x :: r). rewrite <- app_assoc in *. cbn in *. repeat split.
      * intros y [<-|Y]; auto.
      * intros y [<-|Y]; [|now apply J]. rewrite map_app, in_app_iff. right. now left.
Qed.

(** ** Directories *)
Definition full (m : module) : dir := map (fun f => (f, Some m)) all_files.
Definition has (l : list (name * dir)) (h : nat) (m : module) : Prop := In (Final h, full m) l.
Definition partly (m : module) (k : nat) : dir := fold_left (do_micro m) (firstn k script) [].
Definition hashes (l : list (name * dir)) : list nat := map (fun x => name_hash (fst x)) l.
Fixpoint ordered (l : list (name * dir)) : Prop :=
  match l with
  | [] => True
  | (n, x) :: r => ordered r /\ match n with Final h => exists m, x = full m /\ (forall g, In g (subs m) -> In g (finals r)) | Temp _ _ => True end
  end.
Definition wf (l : list (name * dir)) : Prop := NoDup (hashes l) /\ ordered l.

Lemma name_eqb_eq a b : name_eqb a b = true <-> a = b.
Proof.
  destruct a, b; cbn; rewrite ?andb_true_iff, ?Nat.eqb_eq; split; intros H; try discriminate; try (now injection H); try (now destruct H; subst); congruence.
Qed.
Lemma finals_In h l : In h (finals l) <-> exists x, In (Final h, x) l.
Proof.
  unfold finals. rewrite in_flat_map. split.
  - intros (([g|g u], x) & I & J); cbn in J; [|tauto]. destruct J as [->|[]]. eauto.
  - intros (x & I). exists (Final h, x). cbn. auto.
Qed.
Lemma finals_app a b : finals (a ++ b) = finals a ++ finals b.
Proof. unfold finals. now rewrite flat_map_app. Qed.
Lemma hashes_In n x l : In (n, x) l -> In (name_hash n) (hashes l).
Proof. intros I. unfold hashes. apply in_map_iff. exists (n, x). auto. Qed.
Lemma hash_once l : NoDup (hashes l) -> forall n n' x y, In (n, x) l -> In (n', y) l -> name_hash n = name_hash n' -> n = n' /\ x = y.
Proof.
  induction l as [|(a, z) l IH]; cbn; [tauto|]. intros D n n' x y I J E. inversion D as [|? ? N D']; subst.
  destruct I as [I|I], J as [J|J].
  - split; congruence.
  - injection I as -> ->. apply hashes_In in J. rewrite <- E in J. contradiction.
  - injection J as -> ->. apply hashes_In in I. rewrite E in I. contradiction.
  - eauto.
Qed.
Lemma full_inj m m' : full m = full m' -> m = m'.
Proof. unfold full. cbn. congruence. Qed.
Lemma has_one l h m m' : wf l -> has l h m -> has l h m' -> m = m'.
Proof. intros (D & _) A B. destruct (hash_once l D _ _ _ _ A B eq_refl) as [_ E]. now apply full_inj. Qed.
Lemma find_dir_In l n x : NoDup (hashes l) -> In (n, x) l -> find_dir n l = Some x.
Proof.
  induction l as [|(a, z) l IH]; cbn; [tauto|]. intros D I. inversion D as [|? ? N D']; subst. destruct (name_eqb n a) eqn:E.
  - apply name_eqb_eq in E. subst a. destruct I as [I|I]; [congruence|]. apply hashes_In in I. contradiction.
  - destruct I as [I|I]; [|now apply IH]. injection I as -> ->. assert (name_eqb n n = true) by now apply name_eqb_eq. congruence.
Qed.
Lemma ordered_has l h x : ordered l -> In (Final h, x) l -> exists m, x = full m.
Proof.
  induction l as [|(n, y) l IH]; cbn; [tauto|]. intros (O & E) [I|I]; [|now apply IH].
  injection I as -> ->. destruct E as (m & -> & _). eauto.
Qed.
Lemma final_has l h : wf l -> In h (finals l) -> exists m, has l h m.
Proof.
  intros (_ & O) I. apply finals_In in I. destruct I as (x & I). destruct (ordered_has l h x O I) as (m & ->). now exists m.
Qed.
Lemma has_final l h m : has l h m -> In h (finals l).
Proof. intros H. apply finals_In. eauto. Qed.
Lemma read_has d h m f : wf (dirs d) -> has (dirs d) h m -> read d h f = Some m.
Proof.
  intros (D & _) H. unfold read. rewrite (find_dir_In _ _ _ D H). destruct f; reflexivity.
Qed.
Lemma read_all_has d h m : wf (dirs d) -> has (dirs d) h m -> read_all d h = Some m.
Proof. intros W H. unfold read_all. now rewrite !(read_has d h m _ W H). Qed.
Lemma ordered_app a b : ordered (a ++ b) -> ordered b.
Proof. induction a as [|(n, x) a IH]; cbn; [easy|]. intros (O & _). auto. Qed.

(** A hash found among the [n] oldest directories. *)
Definition within (n : nat) (l : list (name * dir)) (h : nat) : Prop :=
  exists a b, l = a ++ b /\ (length b <= n)%nat /\ In h (finals b).
Lemma within_final n l h : within n l h -> In h (finals l).
Proof. intros (a & b & -> & _ & I). rewrite finals_app, in_app_iff. now right. Qed.
Lemma within_sub n l h m g : wf l -> within n l h -> has l h m -> In g (subs m) -> exists k, n = S k /\ within k l g.
Proof.
  intros W (a & b & -> & L & I) H G. apply finals_In in I. destruct I as (x & I).
  destruct (in_split _ _ I) as (c & e & ->). destruct W as (D & O).
  assert (x = full m) as ->.
  { eapply (hash_once _ D (Final h) (Final h)); [| exact H | reflexivity]. rewrite in_app_iff. right. exact I. }
  apply ordered_app in O. apply ordered_app in O. cbn in O. destruct O as (_ & m' & E & S). apply full_inj in E. subst m'.
  rewrite app_length in L. cbn in L. destruct n as [|k]; [lia|]. exists k. split; [reflexivity|].
  exists (a ++ c ++ [(Final h, full m)]), e. split; [now rewrite <- !app_assoc|]. split; [lia|now apply S].
Qed.
Lemma within_all l h : In h (finals l) -> within (length l) l h.
Proof. intros I. exists [], l. auto. Qed.
Lemma within_pos n l h : within n l h -> exists k, n = S k.
Proof. intros (a & b & _ & L & I). destruct n; [|eauto]. destruct b; [destruct I|cbn in L; lia]. Qed.
Lemma sub_final l h m g : wf l -> has l h m -> In g (subs m) -> In g (finals l).
Proof. intros W H G. destruct (within_sub _ l h m g W (within_all l h (has_final _ _ _ H)) H G) as (k & _ & I). now apply within_final in I. Qed.

(** ** Starting *)
Record scan_ok (d0 : disk) (ok : module -> bool) (c : scan) : Prop := {
  so_dirs : dirs (s_disk c) = dirs d0;
  so_old : forall h, In h (marks d0) -> In h (marks (s_disk c));
  so_new : forall h, In h (marks (s_disk c)) -> ~ usable d0 h;
  so_valid : forall h, In h (s_valid c) -> usable d0 h;
  so_pairs : forall s h, In (s, h) (sym_mods (s_proc c)) <-> In h (s_valid c) /\ exists m, has (dirs d0) h m /\ In s (syms m);
  so_mods : forall h, In h (s_valid c) -> exists m, has (dirs d0) h m /\ look h (mod_syms (s_proc c)) = Some (syms m);
  so_keys : forall h, In h (map fst (mod_syms (s_proc c))) -> In h (s_valid c);
  so_rest : can (s_proc c) = ok /\ loaded (s_proc c) = [] /\ sym_loaded (s_proc c) = [] /\ writing (s_proc c) = None }.

Lemma scan_mark d0 ok c g : wf (dirs d0) -> scan_ok d0 ok c -> In g (finals (dirs d0)) -> ~ usable d0 g ->
  exists d p, mark (s_disk c) (s_proc c) g = Some (d, p) /\ scan_ok d0 ok (Scan d p (s_valid c)).
Proof.
  intros W O F N. destruct O as [o1 o2 o3 o4 o5 o6 o7 o8].
  destruct (final_has _ _ W F) as (m & H). unfold mark. rewrite o1. destruct W as (D & Or). rewrite (find_dir_In _ _ _ D H).
  assert (look g (mod_syms (s_proc c)) = None) as L. { apply look_None. intros I. now apply N, o4, o7. }
  rewrite L. eexists _, _. split; [reflexivity|]. split; cbn.
  - exact o1 || reflexivity.
  - intros h I. right. now apply o2.
  - intros h [<-|I]; [exact N|now apply o3].
  - exact o4.
  - intros s h. rewrite <- o5. rewrite filter_In. cbn. rewrite andb_false_r. cbn. tauto.
  - intros h I. destruct (o6 h I) as (m' & A & B). exists m'. split; [exact A|]. rewrite look_other; [exact B|]. intros ->. now apply N, o4.
  - intros h I. apply o7. apply in_map_iff in I. destruct I as (x & E & I). apply filter_In in I. apply in_map_iff. exists x. tauto.
  - exact o8.
Qed.
Lemma scan_subs_ok d0 ok f n : wf (dirs d0) ->
  (forall c h, scan_ok d0 ok c -> within n (dirs d0) h ->
    match f c h with
    | (Yes, c') => scan_ok d0 ok c' /\ In h (s_valid c') /\ incl (s_valid c) (s_valid c')
    | (No, c') => scan_ok d0 ok c' /\ ~ usable d0 h /\ incl (s_valid c) (s_valid c')
    | (Raised _, _) => False
    end) ->
  forall l c, scan_ok d0 ok c -> (forall g, In g l -> within n (dirs d0) g) ->
    match scan_subs f c l with
    | (Yes, c') => scan_ok d0 ok c' /\ (forall g, In g l -> usable d0 g) /\ incl (s_valid c) (s_valid c')
    | (No, c') => scan_ok d0 ok c' /\ (exists g, In g l /\ ~ usable d0 g) /\ incl (s_valid c) (s_valid c')
    | (Raised _, _) => False
    end.
Proof.
  intros W F. induction l as [|g l IH]; intros c O L; cbn.
  - split; [exact O|]. split; [tauto|apply incl_refl].
  - assert (within n (dirs d0) g) as G by (apply L; now left). pose proof (F c g O G) as X.
    destruct (f c g) as ([| |e], c'); [| |exact X]; destruct X as (O' & U & I).
    + assert (forall k, In k l -> within n (dirs d0) k) as L' by (intros; apply L; now right). pose proof (IH c' O' L') as Y.
      destruct (scan_subs f c' l) as ([| |e], c''); [| |exact Y]; destruct Y as (O'' & V & J).
      * split; [exact O''|]. split; [|now apply incl_tran with (s_valid c')]. intros k [<-|K]; [|now apply V]. now apply (so_valid _ _ _ O').
      * split; [exact O''|]. split; [|now apply incl_tran with (s_valid c')]. destruct V as (k & K & V). exists k. split; [now right|exact V].
    + destruct (scan_mark d0 ok c' g W O' (within_final _ _ _ G) U) as (d & p & -> & O''). split; [exact O''|].
      split; [exists g; split; [now left|exact U]|exact I].
Qed.
Lemma scan_module_ok d0 ok : wf (dirs d0) -> forall n c h, scan_ok d0 ok c -> within n (dirs d0) h ->
  match scan_module n c h with
  | (Yes, c') => scan_ok d0 ok c' /\ In h (s_valid c') /\ incl (s_valid c) (s_valid c')
  | (No, c') => scan_ok d0 ok c' /\ ~ usable d0 h /\ incl (s_valid c) (s_valid c')
  | (Raised _, _) => False
  end.
Proof.
  intros W. induction n as [|n IH]; intros c h O I. { destruct (within_pos _ _ _ I). discriminate. }
  cbn [scan_module]. destruct (mem h (s_valid c)) eqn:V. { apply mem_In in V. split; [exact O|]. split; [exact V|apply incl_refl]. }
  destruct (mem h (marks (s_disk c))) eqn:M.
  { apply mem_In in M. split; [exact O|]. split; [now apply (so_new _ _ _ O)|apply incl_refl]. }
  destruct (final_has _ _ W (within_final _ _ _ I)) as (m & H).
  assert (wf (dirs (s_disk c)) /\ has (dirs (s_disk c)) h m) as [W1 H1] by (rewrite (so_dirs _ _ _ O); auto).
  rewrite (read_has _ _ _ FSubmodules W1 H1).
  assert (forall g, In g (subs m) -> within n (dirs d0) g) as L.
  { intros g G. destruct (within_sub _ _ _ _ _ W I H G) as (k & E & J). injection E as ->. exact J. }
  pose proof (scan_subs_ok d0 ok (scan_module n) n W IH (subs m) c O L) as X.
  destruct (scan_subs (scan_module n) c (subs m)) as ([| |e], c'); [| |exact X]; destruct X as (O' & U & J).
  - assert (wf (dirs (s_disk c')) /\ has (dirs (s_disk c')) h m) as [W2 H2] by (rewrite (so_dirs _ _ _ O'); auto).
    rewrite (read_has _ _ _ FNames W2 H2).
    assert (usable d0 h) as Uh.
    { apply usable_intro with m; [exact H| |exact U]. intros K. apply (so_old _ _ _ O) in K. now apply mem_In in K; congruence. }
    split; [|split; [now left|now apply incl_tl]].
    destruct O' as [o1 o2 o3 o4 o5 o6 o7 o8]. split; cbn; auto.
    + intros k [<-|K]; auto.
    + intros s k. rewrite add_pairs_In, o5, in_map_iff. split.
      * intros [(s' & E & K)|(K & K')]; [|tauto]. injection E as -> ->. split; [now left|]. now exists m.
      * intros ([<-|K] & m' & A & B); [|right; split; [exact K|now exists m']]. left. exists s. rewrite (has_one _ _ _ _ W H A). auto.
    + intros k [<-|K]. { exists m. now rewrite Nat.eqb_refl. }
      destruct (Nat.eqb_spec k h) as [->|N]; [now exists m|]. rewrite look_other by exact N. now apply o6.
    + intros k [<-|K]; [now left|]. right. apply o7. apply in_map_iff in K. destruct K as (x & E & K). apply filter_In in K.
      apply in_map_iff. exists x. tauto.
  - split; [exact O'|]. split; [|exact J]. intros Y. destruct U as (g & G & N). apply N. inversion Y as [h' m' A B C]; subst.
    apply C. now rewrite <- (has_one _ _ _ _ W H A).
Qed.
Lemma scan_all_ok d0 ok : wf (dirs d0) -> forall l c, scan_ok d0 ok c -> (forall h, In h l -> In h (finals (dirs d0))) ->
  exists c', scan_all c l = (None, c') /\ scan_ok d0 ok c' /\ incl (s_valid c) (s_valid c') /\ forall h, In h l -> usable d0 h -> In h (s_valid c').
Proof.
  intros W. induction l as [|h l IH]; intros c O L; cbn [scan_all].
  - exists c. split; [reflexivity|]. split; [exact O|]. split; [apply incl_refl|]. cbn. tauto.
  - assert (within (S (length (dirs (s_disk c)))) (dirs d0) h) as I.
    { rewrite (so_dirs _ _ _ O). destruct (within_all (dirs d0) h) as (a & b & E & K & J); [apply L; now left|]. exists a, b. repeat split; [exact E|lia|exact J]. }
    pose proof (scan_module_ok d0 ok W _ c h O I) as X.
    assert (forall k, In k l -> In k (finals (dirs d0))) as L' by (intros; apply L; now right).
    destruct (scan_module (S (length (dirs (s_disk c)))) c h) as ([| |e], c1); [| |destruct X]; destruct X as (O1 & U & J);
      destruct (IH c1 O1 L') as (c2 & E & O2 & J2 & A); exists c2; (split; [exact E|]); (split; [exact O2|]);
      (split; [now apply incl_tran with (s_valid c1)|]); intros k [<-|K] Uk; auto; contradiction.
Qed.
Lemma usable_marks d d' : wf (dirs d) -> dirs d = dirs d' -> (forall h, In h (marks d) -> In h (marks d')) ->
  (forall h, In h (marks d') -> ~ usable d h) -> forall h, usable d h <-> usable d' h.
Proof.
  intros W E A B h. split.
  - induction 1 as [h m H N S IH]. apply usable_intro with m; [unfold has_module in *; now rewrite <- E| |exact IH].
    intros I. apply (B h I). now apply usable_intro with m.
  - induction 1 as [h m H N S IH]. apply usable_intro with m; [unfold has_module in *; now rewrite E|auto|exact IH].
Qed.
Lemma start_ok d ok : wf (dirs d) -> exists c, start d ok = (None, c) /\ scan_ok d ok c
  /\ (forall s, has_symbol (s_proc c) s = true <-> exists h m, usable d h /\ has_module d h m /\ In s (syms m)).
Proof.
  intros W. assert (scan_ok d ok (Scan d (Proc ok [] [] [] [] None) [])) as O.
  { split; cbn; auto; try tauto; try (now intros h []).
    intros h I U. inversion U; contradiction. }
  destruct (scan_all_ok d ok W (finals (dirs d)) _ O (fun h I => I)) as (c & E & O' & _ & A).
  exists c. split; [exact E|]. split; [exact O'|]. intros s. unfold has_symbol. rewrite mem_In, in_map_iff. split.
  - intros ((s', h) & <- & I). apply (so_pairs _ _ _ O') in I. destruct I as (V & m & H & S). exists h, m. repeat split; [now apply (so_valid _ _ _ O')|exact H|exact S].
  - intros (h & m & U & H & S). exists (s, h). split; [reflexivity|]. apply (so_pairs _ _ _ O'). split; [|now exists m].
    apply A; [|exact U]. now apply has_final with m.
Qed.

(** ** Loading *)
Record proc_ok (l : list (name * dir)) (p : proc) : Prop := {
  po_loaded : forall h m, In (h, m) (loaded p) -> has l h m /\ forall g, In g (subs m) -> In g (map fst (loaded p));
  po_sym : forall s h, In (s, h) (sym_loaded p) -> exists m, In (h, m) (loaded p) /\ In s (syms m);
  po_all : forall h m s, In (h, m) (loaded p) -> In s (syms m) -> In s (map fst (sym_loaded p));
  po_pairs : forall s h, In (s, h) (sym_mods p) -> exists m, has l h m /\ In s (syms m);
  po_mods : forall s h, In (s, h) (sym_mods p) -> exists t, look h (mod_syms p) = Some t /\ In s t }.
Lemma proc_more l l' p : (forall h m, has l h m -> has l' h m) -> proc_ok l p -> proc_ok l' p.
Proof.
  intros M [a b c e f]. split; auto.
  - intros h m I. destruct (a h m I). auto.
  - intros s h I. destruct (e s h I) as (m & H & J). exists m. auto.
Qed.
Lemma mark_ok d p h : wf (dirs d) -> proc_ok (dirs d) p -> In h (finals (dirs d)) ->
  exists p', mark d p h = Some (Disk (dirs d) (h :: marks d), p') /\ proc_ok (dirs d) p' /\ loaded p' = loaded p /\ sym_loaded p' = sym_loaded p
    /\ can p' = can p /\ writing p' = writing p /\ (exists f, sym_mods p' = filter f (sym_mods p)) /\ (forall s g, g <> h -> In (s, g) (sym_mods p) -> In (s, g) (sym_mods p')) /\ forall s, ~ In (s, h) (sym_mods p').
Proof.
  intros W [a b c e f] F. destruct (final_has _ _ W F) as (m & H). unfold mark. destruct W as (D & O). rewrite (find_dir_In _ _ _ D H).
  eexists. split; [reflexivity|]. cbn [loaded sym_loaded can writing sym_mods].
  split; [split; cbn [loaded sym_loaded can writing sym_mods mod_syms]; auto|repeat (split; [reflexivity|]); split; [eauto|split]].
  - intros s g I. apply filter_In in I. apply e. tauto.
  - intros s g I. apply filter_In in I. destruct I as (I & E). cbn in E. destruct (f s g I) as (t & T & S). exists t. split; [|exact S].
    rewrite look_other; [exact T|]. intros ->. rewrite T, Nat.eqb_refl in E. apply mem_In in S. rewrite S in E. discriminate.
  - intros s g N I. apply filter_In. split; [exact I|]. cbn. destruct (Nat.eqb_spec h g); [congruence|reflexivity].
  - intros s I. apply filter_In in I. destruct I as (I & E). cbn in E. destruct (f s h I) as (t & T & S).
    rewrite T, Nat.eqb_refl in E. apply mem_In in S. rewrite S in E. discriminate.
Qed.
Lemma names_ok l p h m : wf l -> proc_ok l p -> has l h m -> proc_ok l (enter_names p h m).
Proof.
  intros W [a b c e f] H. split; cbn; auto.
  - intros s g I. apply add_pairs_In in I. destruct I as [I|I]; [|now apply e]. apply in_map_iff in I. destruct I as (s' & E & I). injection E as -> ->. eauto.
  - intros s g I. apply add_pairs_In in I. destruct (Nat.eqb_spec g h) as [->|N].
    + exists (syms m). split; [reflexivity|]. destruct I as [I|I].
      * apply in_map_iff in I. destruct I as (s' & E & I). injection E as ->. exact I.
      * destruct (e s h I) as (m' & H' & S). now rewrite (has_one _ _ _ _ W H H').
    + rewrite look_other by exact N. destruct I as [I|I]; [|now apply f]. apply in_map_iff in I. destruct I as (s' & E & _). congruence.
Qed.
Lemma loaded_ok l p h m : proc_ok l p -> has l h m -> (forall g, In g (subs m) -> In g (map fst (loaded p))) ->
  proc_ok l (enter_loaded p h m) /\ exists t, sym_loaded (enter_loaded p h m) = sym_loaded p ++ t.
Proof.
  intros [a b c e f] H S. destruct (add_firsts (map (fun s => (s, h)) (syms m)) (sym_loaded p)) as (r & E & I & J). split.
  - split; cbn; auto.
    + intros g m' [X|X]; [injection X as <- <-; split; [exact H|]; intros; right; now apply S|]. destruct (a g m' X). split; [assumption|]. auto.
    + rewrite E. intros s g X. apply in_app_iff in X. destruct X as [X|X].
      * destruct (b s g X) as (m' & A & B). exists m'. auto.
      * apply I, in_map_iff in X. destruct X as (s' & Y & X). injection Y as -> ->. exists m. auto.
    + intros g m' s [X|X] Y.
      * injection X as <- <-. apply (J (s, h)). apply in_map_iff. exists s. auto.
      * rewrite E, map_app, in_app_iff. left. now apply (c g m').
  - exists r. exact E.
Qed.

Record load_more (l : list (name * dir)) (c c' : load_state) : Prop := {
  lm_dirs : dirs (l_disk c') = dirs (l_disk c);
  lm_can : can (l_proc c') = can (l_proc c);
  lm_job : writing (l_proc c') = writing (l_proc c);
  lm_new : exists t, loaded (l_proc c') = rev t ++ loaded (l_proc c) /\ news c' = news c ++ map snd t
             /\ forall x, In x t -> can (l_proc c) (snd x) = true;
  lm_first : exists t, sym_loaded (l_proc c') = sym_loaded (l_proc c) ++ t;
  lm_pairs : exists f, sym_mods (l_proc c') = filter f (sym_mods (l_proc c));
  lm_keep : forall s h m, In (s, h) (sym_mods (l_proc c)) -> has l h m -> can (l_proc c) m = true -> In (s, h) (sym_mods (l_proc c'));
  lm_marks : exists t, marks (l_disk c') = t ++ marks (l_disk c) /\ forall h, In h t -> exists m, has l h m /\ can (l_proc c) m = false }.
Lemma more_refl l c : load_more l c c.
Proof.
  split; auto.
  - exists []. cbn. rewrite app_nil_r. repeat split; auto; now intros x [].
  - exists []. now rewrite app_nil_r.
  - exists (fun _ => true). now rewrite filter_all.
  - exists []. split; [reflexivity|]. intros h [].
Qed.
Lemma more_trans l a b c : load_more l a b -> load_more l b c -> load_more l a c.
Proof.
  intros [a1 a2 a3 (t & a4 & a5 & a6) (r & a7) (f & a8) ak (u & a9 & a10)] [b1 b2 b3 (t' & b4 & b5 & b6) (r' & b7) (f' & b8) bk (u' & b9 & b10)].
  split; try congruence.
  - exists (t ++ t'). rewrite b4, a4, b5, a5, rev_app_distr, map_app, <- !app_assoc. repeat split; auto.
    intros x I. apply in_app_iff in I. destruct I as [I|I]; [auto|]. rewrite <- a2. auto.
  - exists (r ++ r'). now rewrite b7, a7, app_assoc.
  - exists (fun x => f x && f' x). now rewrite b8, a8, filter_twice.
  - intros s h m I H C. apply (bk s h m); [now apply (ak s h m)|exact H|now rewrite a2].
  - exists (u' ++ u). rewrite b9, a9, app_assoc. split; [reflexivity|]. intros h I. apply in_app_iff in I. destruct I as [I|I]; [|auto].
    rewrite <- a2. auto.
Qed.
Definition culprit (l : list (name * dir)) (ok : module -> bool) (h g : nat) : Prop :=
  needs (Disk l []) h g /\ exists m, has l g m /\ ok m = false.
Lemma fail_ok c h m : let l := dirs (l_disk c) in wf l -> proc_ok l (l_proc c) -> has l h m -> can (l_proc c) m = false ->
  exists c', fail c h = (No, c') /\ load_more l c c' /\ proc_ok l (l_proc c') /\ (forall s, ~ In (s, h) (sym_mods (l_proc c'))) /\ news c' = news c /\ In h (marks (l_disk c')).
Proof.
  intros l W P H C. destruct (mark_ok (l_disk c) (l_proc c) h W P (has_final _ _ _ H)) as (p' & E & P' & A & B & Cn & J & F & Kp & N).
  unfold fail. rewrite E. eexists. split; [reflexivity|]. cbn. split; [split; cbn; auto|auto].
  - exists []. cbn. rewrite app_nil_r. repeat split; auto; now intros x [].
  - exists []. now rewrite app_nil_r.
  - intros s g m' I H' C'. apply Kp; [|exact I]. intros ->. rewrite (has_one _ _ _ _ W H H') in C. congruence.
  - exists [h]. split; [reflexivity|]. intros g [<-|[]]. eauto.
Qed.
Definition load_good (l : list (name * dir)) (c : load_state) (h : nat) (r : answer * load_state) : Prop :=
  match r with
  | (Yes, c') => load_more l c c' /\ proc_ok l (l_proc c') /\ In h (map fst (loaded (l_proc c')))
  | (No, c') => load_more l c c' /\ proc_ok l (l_proc c')
      /\ (((exists m, has l h m /\ can (l_proc c) m = false) /\ (forall s, ~ In (s, h) (sym_mods (l_proc c'))) /\ news c' = news c /\ In h (marks (l_disk c')))
          \/ ((exists m, has l h m /\ can (l_proc c) m = true) /\ exists g, culprit l (can (l_proc c)) h g /\ In g (marks (l_disk c'))))
  | (Raised _, _) => False
  end.
Lemma keys_more l c c' g : load_more l c c' -> In g (map fst (loaded (l_proc c))) -> In g (map fst (loaded (l_proc c'))).
Proof. intros [_ _ _ (t & E & _) _ _ _] I. rewrite E, map_app, in_app_iff. now right. Qed.
Lemma load_subs_ok l f n : wf l ->
  (forall c h, dirs (l_disk c) = l -> proc_ok l (l_proc c) -> within n l h -> load_good l c h (f c h)) ->
  forall hs c, dirs (l_disk c) = l -> proc_ok l (l_proc c) -> (forall g, In g hs -> within n l g) ->
    match load_subs f c hs with
    | (Yes, c') => load_more l c c' /\ proc_ok l (l_proc c') /\ forall g, In g hs -> In g (map fst (loaded (l_proc c')))
    | (No, c') => load_more l c c' /\ proc_ok l (l_proc c') /\ exists g, In g hs /\ (((exists m, has l g m /\ can (l_proc c) m = false) /\ In g (marks (l_disk c'))) \/ exists k, culprit l (can (l_proc c)) g k /\ In k (marks (l_disk c')))
    | (Raised _, _) => False
    end.
Proof.
  intros W F. induction hs as [|g hs IH]; intros c E P I; cbn.
  - split; [apply more_refl|]. split; [exact P|]. intros g [].
  - assert (within n l g) as G by (apply I; now left). pose proof (F c g E P G) as X. unfold load_good in X.
    destruct (f c g) as ([| |e], c1); [| |exact X].
    + destruct X as (M & P1 & K). assert (dirs (l_disk c1) = l) as E1 by (rewrite (lm_dirs _ _ _ M); exact E).
      specialize (IH c1 E1 P1 (fun k J => I k (or_intror J))). destruct (load_subs f c1 hs) as ([| |e], c2); [| |exact IH].
      * destruct IH as (M' & P2 & A). split; [now apply more_trans with c1|]. split; [exact P2|]. intros k [<-|J]; [|now apply A].
        now apply keys_more with l c1.
      * destruct IH as (M' & P2 & k & K' & A). split; [now apply more_trans with c1|]. split; [exact P2|]. exists k. rewrite (lm_can _ _ _ M) in A. split; [now right|exact A].
    + destruct X as (M & P1 & A). split; [exact M|]. split; [exact P1|]. exists g. split; [now left|]. destruct A as [(A & _ & _ & B)|(_ & A)]; auto.
Qed.
Lemma load_module_ok l : wf l -> forall n c h, dirs (l_disk c) = l -> proc_ok l (l_proc c) -> within n l h -> load_good l c h (load_module n c h).
Proof.
  intros W. induction n as [|n IH]; intros c h E P I. { destruct (within_pos _ _ _ I). discriminate. }
  cbn [load_module]. destruct (look h (loaded (l_proc c))) as [m0|] eqn:L.
  { cbn. split; [apply more_refl|]. split; [exact P|]. apply look_key. eauto. }
  destruct (final_has _ _ W (within_final _ _ _ I)) as (m & H).
  rewrite (read_all_has (l_disk c) h m) by (rewrite E; assumption).
  destruct (can (l_proc c) m) eqn:C; cbn [negb].
  - assert (forall g, In g (subs m) -> within n l g) as S.
    { intros g G. destruct (within_sub _ _ _ _ _ W I H G) as (k & Ek & J). injection Ek as ->. exact J. }
    pose proof (load_subs_ok l (load_module n) n W IH (subs m) c E P S) as X.
    destruct (load_subs (load_module n) c (subs m)) as ([| |e], c'); [| |exact X].
    + destruct X as (M & P' & K). destruct (loaded_ok l (l_proc c') h m P' H K) as (P2 & t & T). cbn.
      split; [|split; [exact P2|now left]]. apply more_trans with c'; [exact M|]. split; auto.
      * exists [(h, m)]. repeat split. intros x [<-|[]]. cbn. now rewrite (lm_can _ _ _ M).
      * cbn. exists t. exact T.
      * exists (fun _ => true). cbn. now rewrite filter_all.
      * exists []. split; [reflexivity|]. intros g [].
    + destruct X as (M & P' & g & G & A). cbn. split; [exact M|]. split; [exact P'|]. right. split; [eauto|]. destruct A as [(A & B)|(k & (A & B) & Q)].
      * exists g. split; [|exact B]. split; [|exact A]. apply needs_one with m; assumption.
      * exists k. split; [|exact Q]. split; [|exact B]. apply needs_more with m g; assumption.
  - subst l. destruct (fail_ok c h m W P H C) as (c' & -> & M & P' & N). cbn. split; [exact M|]. split; [exact P'|]. left. split; [eauto|exact N].
Qed.
Lemma hashes_of_In p s h : In h (hashes_of p s) <-> In (s, h) (sym_mods p).
Proof.
  unfold hashes_of. rewrite in_map_iff. split.
  - intros ((a, b) & <- & I). apply filter_In in I. cbn in *. destruct I as (I & E). apply Nat.eqb_eq in E. now subst.
  - intros I. exists (s, h). split; [reflexivity|]. apply filter_In. cbn. now rewrite Nat.eqb_refl.
Qed.
Definition loop_good (l : list (name * dir)) (d : disk) (p : proc) (s : nat) (r : found * disk * proc) : Prop :=
  let '(f, d', p') := r in
  (exists nw, load_more l (Load d p []) (Load d' p' nw) /\ (forall x, f = Loaded x -> nw = x))
  /\ proc_ok l p'
  /\ match f with
     | Already => In s (map fst (sym_loaded p'))
     | Loaded _ => In s (map fst (sym_loaded p'))
     | Nowhere => has_symbol p' s = false
     | LoadRaised e => e = AssertionFailed /\ exists h g, In (s, h) (sym_mods p') /\ culprit l (can p) h g /\ In g (marks d')
     end.
Lemma load_shift l d p d' p' nw a : load_more l (Load d p []) (Load d' p' nw) -> load_more l (Load d p a) (Load d' p' (a ++ nw)).
Proof.
  intros [m1 m2 m3 (t & m4 & m5 & m6) m7 m8 m9]. split; cbn in *; auto. exists t. rewrite m4, m5. auto.
Qed.
Lemma loop_ok l : wf l -> forall n d p s, dirs d = l -> proc_ok l p -> (length (sym_mods p) < n)%nat -> loop_good l d p s (load_loop n d p s).
Proof.
  intros W. induction n as [|n IH]; intros d p s E P L; [lia|]. cbn [load_loop].
  destruct (hashes_of p s) as [|h t] eqn:Hs.
  { cbn. split; [exists []; split; [apply more_refl|discriminate]|]. split; [exact P|]. unfold has_symbol. apply mem_false. intros I.
    apply in_map_iff in I. destruct I as ((a, h) & A & I). cbn in A. subst a. apply hashes_of_In in I. rewrite Hs in I. destruct I. }
  assert (In (s, h) (sym_mods p)) as I by (apply hashes_of_In; rewrite Hs; now left).
  destruct (po_pairs _ _ P s h I) as (m & H & Sm).
  assert (within (S (length (dirs d))) l h) as J.
  { rewrite E. destruct (within_all l h (has_final _ _ _ H)) as (a & b & X & Y & Z). exists a, b. repeat split; [exact X|lia|exact Z]. }
  pose proof (load_module_ok l W _ (Load d p []) h E P J) as X. unfold load_good in X.
  destruct (load_module (S (length (dirs d))) (Load d p []) h) as ([| |e], c); [| |destruct X].
  - destruct X as (M & P' & K). destruct c as [d' p' nw]. cbn in *. split; [exists nw; split; [exact M|]; intros x Y; injection Y as ->; reflexivity|].
    split; [exact P'|]. apply look_key in K. destruct K as (m' & K). apply look_In in K.
    apply (po_all _ _ P' h m' s K). destruct (po_loaded _ _ P' h m' K) as (H' & _). now rewrite <- (has_one _ _ _ _ W H H').
  - destruct X as (M & P' & A). destruct c as [d' p' nw]. cbn in *. destruct (mem h (hashes_of p' s)) eqn:Q.
    + apply mem_In, hashes_of_In in Q. split; [exists nw; split; [exact M|discriminate]|]. split; [exact P'|]. split; [reflexivity|].
      destruct A as [(_ & A & _)|(_ & g & A & B)]; [now apply A in Q|]. exists h, g. auto.
    + apply mem_false in Q. rewrite hashes_of_In in Q. pose proof (lm_dirs _ _ _ M) as Ed. cbn in Ed. destruct (lm_pairs _ _ _ M) as (f & Fe). cbn in Fe.
      assert (length (sym_mods p') < n)%nat as L'.
      { rewrite Fe in *. assert (f (s, h) = false) as Fs. { destruct (f (s, h)) eqn:Y; [|reflexivity]. destruct Q. now apply filter_In. }
        pose proof (filter_less f _ _ I Fs). lia. }
      pose proof (IH d' p' s (eq_trans Ed E) P' L') as X. unfold loop_good in *. destruct (load_loop n d' p' s) as ((r, d2), p2).
      destruct X as ((nw2 & M2 & N2) & P2 & R). split; [|split; [exact P2|]].
      * exists (nw ++ nw2). split; [eapply more_trans; [exact M|now apply load_shift]|]. intros x Y. rewrite (N2 x Y). destruct A as [(_ & _ & A & _)|((m' & A & B) & _)]; [now rewrite A|]. destruct Q. now apply (lm_keep _ _ _ M s h m').
      * destruct r as [| | |e]; auto.
        destruct R as (Re & h2 & g & A2 & B2). split; [exact Re|]. exists h2, g. pose proof (lm_can _ _ _ M) as Cm. cbn in Cm. rewrite Cm in B2. auto.
Qed.

Lemma for_symbol_ok d p s : wf (dirs d) -> proc_ok (dirs d) p -> loop_good (dirs d) d p s (load_for_symbol d p s).
Proof.
  intros W P. unfold load_for_symbol. destruct (look s (sym_loaded p)) eqn:L.
  - cbn. split; [exists []; split; [apply more_refl|discriminate]|]. split; [exact P|]. apply look_key. eauto.
  - apply loop_ok; [exact W|reflexivity|exact P|lia].
Qed.

(** ** Writing *)
Definition job_ok (l : list (name * dir)) (p : proc) (j : job) : Prop :=
  (exists a b, l = a ++ (Temp (j_hash j) (j_uuid j), partly (j_module j) (j_done j)) :: b /\ forall g, In g (subs (j_module j)) -> In g (finals b))
  /\ (forall g, In g (subs (j_module j)) -> In g (map fst (loaded p))) /\ (j_done j <= length script)%nat.
Lemma change_hashes n f l : (forall x, name_eqb n (fst x) = true -> name_hash (fst (f x)) = name_hash n) -> hashes (change_dir n f l) = hashes l.
Proof.
  intros F. unfold hashes, change_dir. rewrite map_map. apply map_ext. intros x. destruct (name_eqb n (fst x)) eqn:E; [|reflexivity].
  rewrite F by exact E. apply name_eqb_eq in E. now subst.
Qed.
Lemma change_none n f l : ~ In (name_hash n) (hashes l) -> change_dir n f l = l.
Proof.
  induction l as [|(n', x) l IH]; [reflexivity|]. cbn [hashes map In fst]. intros N.
  change (change_dir n f ((n', x) :: l)) with ((if name_eqb n n' then f (n', x) else (n', x)) :: change_dir n f l). rewrite IH by (intros J; apply N; now right). destruct (name_eqb n n') eqn:E; [|reflexivity].
  apply name_eqb_eq in E. subst. tauto.
Qed.
Lemma change_at n f a x b : NoDup (hashes (a ++ (n, x) :: b)) -> change_dir n f (a ++ (n, x) :: b) = a ++ f (n, x) :: b.
Proof.
  unfold hashes. rewrite map_app. cbn. intros D. apply NoDup_remove_2 in D. rewrite in_app_iff in D. unfold change_dir. rewrite map_app. cbn.
  replace (name_eqb n n) with true by (symmetry; now apply name_eqb_eq).
  change (change_dir n f a ++ f (n, x) :: change_dir n f b = a ++ f (n, x) :: b). rewrite !change_none; auto.
Qed.
Lemma partly_step m k x : nth_error script k = Some x -> partly m (S k) = do_micro m (partly m k) x.
Proof.
  intros E. unfold partly. assert (firstn (S k) script = firstn k script ++ [x]) as ->.
  { revert k E. generalize script. intros t. induction t as [|y t IH]; intros [|k] E; cbn in *; try discriminate; [congruence|]. now rewrite <- IH. }
  now rewrite fold_left_app.
Qed.
Lemma partly_full m : partly m (length script) = full m.
Proof. reflexivity. Qed.
Lemma ordered_change a n x n' x' b : ordered (a ++ (n, x) :: b) -> (forall h, n = Final h -> n' = Final h /\ x' = x) ->
  (forall h, n' = Final h -> exists m, x' = full m /\ forall g, In g (subs m) -> In g (finals b)) -> ordered (a ++ (n', x') :: b).
Proof.
  intros O A B. induction a as [|(k, y) a IH]; cbn in *.
  - split; [tauto|]. destruct n' as [h'|]; [|exact I]. exact (B h' eq_refl).
  - destruct O as (O & E). split; [now apply IH|]. destruct k; [|exact I]. destruct E as (m & -> & S). exists m. split; [reflexivity|].
    intros g G. specialize (S g G). rewrite finals_app in *. apply in_app_iff. apply in_app_iff in S. destruct S as [S|S]; [now left|right].
    cbn in *. apply in_app_iff in S. apply in_app_iff. destruct S as [S|S]; [|now right]. left. destruct n as [h'|]; [|destruct S].
    destruct (A h' eq_refl) as [-> _]. exact S.
Qed.
Record world_ok (w : world) : Prop := {
  wo_wf : wf (dirs (on_disk w));
  wo_proc : forall i p, procs w i = Some p -> proc_ok (dirs (on_disk w)) p;
  wo_job : forall i p j, procs w i = Some p -> writing p = Some j -> job_ok (dirs (on_disk w)) p j;
  wo_alone : forall i i' p p' j j', procs w i = Some p -> procs w i' = Some p' -> writing p = Some j -> writing p' = Some j' -> j_hash j = j_hash j' -> i = i' }.
(** How the disk may change: modules stay, marks stay, and what others are writing stays. *)
Definition disk_more (d d' : disk) : Prop :=
  (forall h m, has (dirs d) h m -> has (dirs d') h m) /\ (forall h, In h (marks d) -> In h (marks d')).
Lemma put_ok w i d r : world_ok w -> wf (dirs d) -> disk_more (on_disk w) d ->
  (forall p, r = Some p -> proc_ok (dirs d) p /\ forall j, writing p = Some j -> job_ok (dirs d) p j) ->
  (forall i' p' j', i' <> i -> procs w i' = Some p' -> writing p' = Some j' -> job_ok (dirs d) p' j' /\ forall p j, r = Some p -> writing p = Some j -> j_hash j <> j_hash j') ->
  world_ok (put w i (d, r)).
Proof.
  intros [a b c e] W (M & _) P Q. split; cbn.
  - exact W.
  - intros k p E. destruct (Nat.eqb_spec k i) as [->|N]; [now apply P|]. apply proc_more with (dirs (on_disk w)); [exact M|now apply b with k].
  - intros k p j E J. destruct (Nat.eqb_spec k i) as [->|N]; [now apply P|]. now apply (Q k p j).
  - intros k k' p p' j j' E E' J J' H. destruct (Nat.eqb_spec k i) as [->|N], (Nat.eqb_spec k' i) as [->|N']; auto.
    + destruct (Q k' p' j' N' E' J') as (_ & X). destruct (X p j E J H).
    + destruct (Q k p j N E J) as (_ & X). destruct (X p' j' E' J' (eq_sym H)).
    + now apply (e k k' p p' j j').
Qed.
Lemma start_proc d ok c : wf (dirs d) -> scan_ok d ok c -> proc_ok (dirs d) (s_proc c) /\ writing (s_proc c) = None.
Proof.
  intros W [o1 o2 o3 o4 o5 o6 o7 (o8 & o9 & o10 & o11)]. split; [|exact o11]. split; rewrite ?o9, ?o10; try now cbn.
  - intros s h I. apply o5 in I. tauto.
  - intros s h I. apply o5 in I. destruct I as (V & m & H & S). destruct (o6 h V) as (m' & H' & L). exists (syms m'). split; [exact L|].
    now rewrite <- (has_one _ _ _ _ W H H').
Qed.
Lemma job_same l p p' j : loaded p' = loaded p -> job_ok l p j -> job_ok l p' j.
Proof. intros E. unfold job_ok. now rewrite E. Qed.
Lemma dependent_ok l p used t : proc_ok l p -> dependent p used = Some t -> forall g, In g t -> In g (map fst (loaded p)).
Proof.
  intros P. revert t. induction used as [|s used IH]; cbn; intros t E g G. { injection E as <-. destruct G. }
  destruct (look s (sym_loaded p)) as [h|] eqn:L; [|discriminate]. destruct (dependent p used) as [t'|]; [|discriminate]. injection E as <-.
  apply look_In in L. destruct (po_sym _ _ P s h L) as (m & I & _). destruct (mem h t'); [now apply (IH t')|].
  destruct G as [<-|G]; [|now apply (IH t')]. apply in_map_iff. exists (h, m). auto.
Qed.
Lemma job_cons l e p j : job_ok l p j -> job_ok (e :: l) p j.
Proof. intros ((a & b & E & S) & R). split; [|exact R]. exists (e :: a), b. rewrite E. auto. Qed.
Lemma job_change l n f p j : name_hash n <> j_hash j -> (forall x, name_eqb n (fst x) = true -> forall h, fst x = Final h -> fst (f x) = Final h) ->
  job_ok l p j -> job_ok (change_dir n f l) p j.
Proof.
  intros N F ((a & b & E & S) & R). split; [|exact R]. exists (change_dir n f a), (change_dir n f b). split.
  - rewrite E. unfold change_dir. rewrite map_app. cbn [map fst]. destruct (name_eqb n (Temp (j_hash j) (j_uuid j))) eqn:X; [|reflexivity].
    apply name_eqb_eq in X. subst n. destruct (N eq_refl).
  - intros g G. specialize (S g G). apply finals_In in S. destruct S as (x & S). apply finals_In.
    destruct (name_eqb n (Final g)) eqn:X.
    + exists (snd (f (Final g, x))). apply in_map_iff. exists (Final g, x). cbn [fst]. rewrite X. split; [|exact S].
      rewrite (surjective_pairing (f (Final g, x))) at 1. now rewrite (F (Final g, x) X g eq_refl).
    + exists x. apply in_map_iff. exists (Final g, x). cbn [fst]. rewrite X. auto.
Qed.
Lemma advance_ok w i p : world_ok w -> procs w i = Some p ->
  let (d, p') := advance (on_disk w) p in disk_more (on_disk w) d /\ world_ok (put w i (d, Some p')).
Proof.
  intros V Ep. pose proof V as [wa wb wc we]. unfold advance. destruct (writing p) as [j|] eqn:Ej.
  2:{ assert (disk_more (on_disk w) (on_disk w)) as M by (split; auto). split; [exact M|]. apply put_ok; auto.
      - intros q E. injection E as <-. split; [eauto|]. intros j J. eauto.
      - intros i' p' j' N E J. split; [eauto|]. intros q j E' J'. congruence. }
  pose proof (wb i p Ep) as P. pose proof (wc i p j Ep Ej) as ((a & b & El & Sb) & K & Lk).
  destruct wa as (D & O). destruct (nth_error script (j_done j)) as [x|] eqn:X.
  - assert (NoDup (hashes (dirs (on_disk w)))) as D' by exact D. rewrite El in D'.
    set (f := fun y : name * dir => (Temp (j_hash j) (j_uuid j), do_micro (j_module j) (snd y) x)).
    assert (change_dir (Temp (j_hash j) (j_uuid j)) f (dirs (on_disk w)) = a ++ (Temp (j_hash j) (j_uuid j), partly (j_module j) (S (j_done j))) :: b) as Ec.
    { rewrite El, change_at by exact D'. unfold f. cbn [snd]. now rewrite (partly_step _ _ _ X). }
    assert (disk_more (on_disk w) (Disk (change_dir (Temp (j_hash j) (j_uuid j)) f (dirs (on_disk w))) (marks (on_disk w)))) as M.
    { split; cbn; [|auto]. intros h m H. rewrite Ec. unfold has in *. rewrite El in H. apply in_app_iff in H. apply in_app_iff.
      destruct H as [H|[H|H]]; [now left|discriminate|right; now right]. }
    split; [exact M|]. apply put_ok; auto; cbn [dirs].
    + split; [rewrite change_hashes; [exact D|reflexivity]|]. rewrite Ec. rewrite El in O. eapply ordered_change; [exact O| |]; intros; discriminate.
    + intros q E. injection E as <-. split.
      * apply proc_more with (dirs (on_disk w)); [apply M|]. destruct P as [pa pb pc pd pe]. now split.
      * cbn. intros j' E. injection E as <-. split; cbn; [exists a, b; rewrite Ec; auto|]. split; [exact K|].
        assert (nth_error script (j_done j) <> None) as Y by congruence. apply nth_error_Some in Y. exact Y.
    + intros i' p' j' N E J. split.
      * apply job_change; [|intros y Y h Z; apply name_eqb_eq in Y; congruence|eauto]. cbn. intros Hh. apply N. now apply (we i' i p' p j' j).
      * cbn. intros q j2 E2 J2 Hh. injection E2 as <-. cbn in J2. injection J2 as <-. cbn in Hh. apply N. now apply (we i' i p' p j' j).
  - assert (j_done j = length script) as Lj. { apply nth_error_None in X. lia. } rewrite Lj, partly_full in El.
    assert (NoDup (hashes (dirs (on_disk w)))) as D' by exact D. rewrite El in D'.
    set (f := fun y : name * dir => (Final (j_hash j), snd y)).
    assert (change_dir (Temp (j_hash j) (j_uuid j)) f (dirs (on_disk w)) = a ++ (Final (j_hash j), full (j_module j)) :: b) as Ec by (rewrite El, change_at by exact D'; reflexivity).
    assert (disk_more (on_disk w) (Disk (change_dir (Temp (j_hash j) (j_uuid j)) f (dirs (on_disk w))) (marks (on_disk w)))) as M.
    { split; cbn; [|auto]. intros h m H. rewrite Ec. unfold has in *. rewrite El in H. apply in_app_iff in H. apply in_app_iff.
      destruct H as [H|[H|H]]; [now left|discriminate|right; now right]. }
    assert (wf (change_dir (Temp (j_hash j) (j_uuid j)) f (dirs (on_disk w)))) as Wn.
    { split; [rewrite change_hashes; [exact D|reflexivity]|]. rewrite Ec. rewrite El in O. eapply ordered_change; [exact O|intros; discriminate|].
      intros h E. exists (j_module j). auto. }
    split; [exact M|]. apply put_ok; auto; cbn [dirs].
    + intros q E. injection E as <-. split; [|cbn; discriminate].
      assert (has (change_dir (Temp (j_hash j) (j_uuid j)) f (dirs (on_disk w))) (j_hash j) (j_module j)) as Hn.
      { rewrite Ec. unfold has. apply in_app_iff. right. now left. }
      assert (proc_ok (change_dir (Temp (j_hash j) (j_uuid j)) f (dirs (on_disk w))) p) as Pn by (apply proc_more with (dirs (on_disk w)); [apply M|exact P]).
      destruct (loaded_ok _ _ _ _ Pn Hn K) as (P1 & _). pose proof (names_ok _ _ _ _ Wn P1 Hn) as [pa pb pc pd pe]. now split.
    + intros i' p' j' N E J. split; [|cbn; intros q j2 E2 J2; injection E2 as <-; discriminate].
      apply job_change; [|intros y Y h Z; apply name_eqb_eq in Y; congruence|eauto]. cbn. intros Hh. apply N. now apply (we i' i p' p j' j).
Qed.
Lemma happen_ok w e : world_ok w -> world_ok (happen w e) /\ disk_more (on_disk w) (on_disk (happen w e)).
Proof.
  intros V. pose proof V as [wa wb wc we].
  assert (disk_more (on_disk w) (on_disk w)) as M0 by (split; auto).
  destruct e as [i ok|i code used h u|i|i s|i]; cbn [happen].
  - destruct (procs w i) eqn:Ep; [now split|]. destruct (start_ok (on_disk w) ok wa) as (c & -> & O & _).
    assert (disk_more (on_disk w) (s_disk c)) as M by (split; [now rewrite (so_dirs _ _ _ O)|apply (so_old _ _ _ O)]). split; [|exact M].
    destruct (start_proc _ _ _ wa O) as (P & J). rewrite <- (so_dirs _ _ _ O) in P. apply put_ok; auto.
    + now rewrite (so_dirs _ _ _ O).
    + intros p E. injection E as <-. split; [exact P|]. congruence.
    + intros i' p' j' N E J'. rewrite (so_dirs _ _ _ O). split; [eauto|]. intros p j E' J2. injection E' as <-. congruence.
  - unfold alive. destruct (procs w i) as [p|] eqn:Ep; [|now split]. unfold begin_module.
    assert (world_ok (put w i (on_disk w, Some p)) /\ disk_more (on_disk w) (on_disk (put w i (on_disk w, Some p)))) as Same.
    { split; [|exact M0]. apply put_ok; auto.
      - intros q E. injection E as <-. split; [eauto|]. intros j J. eauto.
      - intros i' p' j' N E J. split; [eauto|]. intros q j E' J' Hh. injection E' as <-. apply N. now apply (we i' i p' p j' j). }
    destruct (writing p) eqn:Ew; [exact Same|]. destruct (dependent p used) as [t|] eqn:Et; [|exact Same].
    destruct (mem h (map (fun x => name_hash (fst x)) (dirs (on_disk w)))) eqn:Em; [exact Same|]. clear Same. apply mem_false in Em.
    pose proof (wb i p Ep) as P. assert (disk_more (on_disk w) (Disk ((Temp h u, []) :: dirs (on_disk w)) (marks (on_disk w)))) as M.
    { split; cbn; [|auto]. intros g m H. now right. }
    split; [|exact M]. apply put_ok; auto; cbn [dirs].
    + destruct wa as (D & O). split; [cbn; now constructor|]. cbn. auto.
    + intros q E. injection E as <-. split.
      * apply proc_more with (dirs (on_disk w)); [apply M|]. destruct P as [pa pb pc pd pe]. now split.
      * cbn. intros j E. injection E as <-. pose proof (dependent_ok _ _ _ _ P Et) as K. split; [|split; [exact K|cbn; lia]].
        exists [], (dirs (on_disk w)). split; [reflexivity|]. cbn. intros g G. specialize (K g G). apply look_key in K. destruct K as (m & K).
        apply look_In in K. destruct (po_loaded _ _ P g m K) as (H & _). now apply has_final with m.
    + intros i' p' j' N E J. split; [apply job_cons; eauto|]. intros q j E' J' Hh. injection E' as <-. cbn in J'. injection J' as <-. cbn in Hh.
      destruct (wc i' p' j' E J) as ((a & b & El & _) & _). apply Em. rewrite Hh, El, map_app, in_app_iff. right. now left.
  - unfold alive. destruct (procs w i) as [p|] eqn:Ep; [|now split]. pose proof (advance_ok w i p V Ep) as X. destruct (advance (on_disk w) p). tauto.
  - unfold alive. destruct (procs w i) as [p|] eqn:Ep; [|now split]. pose proof (for_symbol_ok (on_disk w) p s wa (wb i p Ep)) as X.
    unfold loop_good in X. destruct (load_for_symbol (on_disk w) p s) as ((r, d), p'). destruct X as ((nw & M & _) & P' & _).
    pose proof (lm_dirs _ _ _ M) as Ed. pose proof (lm_job _ _ _ M) as Ew. cbn in Ed, Ew.
    assert (disk_more (on_disk w) d) as M'.
    { split; [now rewrite Ed|]. destruct (lm_marks _ _ _ M) as (t & E & _). cbn in E. rewrite E. intros h I. apply in_app_iff. now right. }
    split; [|exact M']. apply put_ok; auto; rewrite ?Ed; auto.
    + intros q E. injection E as <-. split; [exact P'|]. intros j J. rewrite Ew in J. destruct (wc i p j Ep J) as (A & B & C).
      split; [exact A|]. split; [|exact C]. intros g G. apply (keys_more _ (Load (on_disk w) p []) (Load d p' nw) g M). cbn. now apply B.
    + intros i2 p2 j2 N E J. split; [eauto|]. intros q j E' J' Hh. injection E' as <-. rewrite Ew in J'. apply N. now apply (we i2 i p2 p j2 j).
  - split; [|exact M0]. apply put_ok; auto.
    + discriminate.
    + intros i2 p2 j2 N E J. split; [eauto|]. discriminate.
Qed.
Lemma run_ok es : world_ok (run es).
Proof.
  unfold run. assert (world_ok (World (Disk [] []) (fun _ => None))) as V.
  { split; cbn; try discriminate. split; [constructor|exact I]. }
  revert V. generalize (World (Disk [] []) (fun _ => None)). induction es as [|e es IH]; intros w V; [exact V|]. cbn. apply IH. now apply happen_ok.
Qed.
Lemma more_run es : forall w, world_ok w -> disk_more (on_disk w) (on_disk (fold_left happen es w)).
Proof.
  induction es as [|e es IH]; intros w V; [now split|]. cbn. destruct (happen_ok w e V) as (V' & A & B). destruct (IH _ V') as (A' & B'). split; auto.
Qed.

(** ** Over time *)
Lemma not_usable d h g : wf (dirs d) -> needs d h g -> In g (marks d) -> ~ usable d h.
Proof.
  intros W N M. induction N as [h m g H G|h m g k H G N IH]; intros U; inversion U as [h' m' A B C]; subst;
    rewrite <- (has_one _ _ _ _ W H A) in C; specialize (C g G).
  - inversion C; contradiction.
  - now apply IH.
Qed.
Lemma needs_dirs d d' h g : dirs d = dirs d' -> needs d h g -> needs d' h g.
Proof.
  intros E N. induction N as [h m g H G|h m g k H G N IH].
  - apply needs_one with m; [|exact G]. unfold has_module in *. now rewrite <- E.
  - apply needs_more with m g; [|exact G|exact IH]. unfold has_module in *. now rewrite <- E.
Qed.
Lemma unmarked_usable d : wf (dirs d) -> forall n h, within n (dirs d) h -> ~ In h (marks d) -> (forall g, needs d h g -> ~ In g (marks d)) -> usable d h.
Proof.
  intros W. induction n as [|n IH]; intros h I N A. { destruct (within_pos _ _ _ I). discriminate. }
  destruct (final_has _ _ W (within_final _ _ _ I)) as (m & H). apply usable_intro with m; [exact H|exact N|]. intros g G.
  destruct (within_sub _ _ _ _ _ W I H G) as (k & E & J). injection E as ->. apply IH; [exact J| |].
  - apply A. now apply needs_one with m.
  - intros x X. apply A. now apply needs_more with m g.
Qed.
Lemma all_loaded l p h g : wf l -> proc_ok l p -> In h (map fst (loaded p)) -> needs (Disk l []) h g -> In g (map fst (loaded p)).
Proof.
  intros W P I N. assert (forall h m g, In h (map fst (loaded p)) -> has l h m -> In g (subs m) -> In g (map fst (loaded p))) as St.
  { clear - W P. intros h m g I H G. apply look_key in I. destruct I as (m' & E). apply look_In in E. destruct (po_loaded _ _ P h m' E) as (H' & S).
    apply S. now rewrite <- (has_one _ _ _ _ W H H'). }
  revert I. induction N as [h m g H G|h m g k H G N IH]; intros I; [|apply IH]; eapply St; eauto.
Qed.
Definition keeps (p p' : proc) : Prop := (exists t, sym_loaded p' = sym_loaded p ++ t) /\ forall x, In x (loaded p) -> In x (loaded p').
Lemma keeps_refl p : keeps p p.
Proof. split; [exists []; now rewrite app_nil_r|auto]. Qed.
Lemma keeps_writing p j : keeps p (set_writing p j).
Proof. split; [exists []; cbn; now rewrite app_nil_r|auto]. Qed.
Lemma happen_keeps w e i p : world_ok w -> procs w i = Some p -> e <> Crash i -> exists p', procs (happen w e) i = Some p' /\ keeps p p'.
Proof.
  intros V Ep Ne. assert (forall k r, k <> i -> procs (put w k r) i = Some p) as Other.
  { intros k r N. cbn. destruct (Nat.eqb_spec i k); [congruence|exact Ep]. }
  assert (forall k f, (k = i -> keeps p (snd (f p))) -> exists p', procs (alive w k f) i = Some p' /\ keeps p p') as Al.
  { intros k f F. unfold alive. destruct (procs w k) as [q|] eqn:Eq; [|eauto using keeps_refl]. destruct (Nat.eq_dec k i) as [->|N].
    - rewrite Ep in Eq. injection Eq as <-. specialize (F eq_refl). destruct (f p) as (d, p'). exists p'. cbn. now rewrite Nat.eqb_refl.
    - destruct (f q). exists p. split; [now apply Other|apply keeps_refl]. }
  destruct e as [k ok|k code used h u|k|k s|k]; cbn [happen].
  - destruct (procs w k) eqn:Ek; [eauto using keeps_refl|]. assert (k <> i) as N by congruence.
    destruct (start (on_disk w) ok) as ([e|], c); exists p; (split; [now apply Other|apply keeps_refl]).
  - apply Al. intros _. unfold begin_module. destruct (writing p); [apply keeps_refl|]. destruct (dependent p used); [|apply keeps_refl].
    destruct mem; [apply keeps_refl|apply keeps_writing].
  - apply Al. intros _. unfold advance. destruct (writing p) as [j|]; [|apply keeps_refl]. destruct nth_error; [apply keeps_writing|]. cbn.
    destruct (add_firsts (map (fun s => (s, j_hash j)) (syms (j_module j))) (sym_loaded p)) as (r & E & _). split; cbn; [now exists r|auto].
  - apply Al. intros ->. pose proof (for_symbol_ok (on_disk w) p s (wo_wf _ V) (wo_proc _ V i p Ep)) as X. unfold loop_good in X.
    destruct (load_for_symbol (on_disk w) p s) as ((r, d), p'). destruct X as ((nw & M & _) & _). cbn. split; [apply (lm_first _ _ _ M)|].
    destruct (lm_new _ _ _ M) as (t & E & _). cbn in E. rewrite E. intros x I. apply in_app_iff. now right.
  - exists p. split; [|apply keeps_refl]. apply Other. congruence.
Qed.
Lemma run_keeps es : forall w i p, world_ok w -> procs w i = Some p -> ~ In (Crash i) es -> exists p', procs (fold_left happen es w) i = Some p' /\ keeps p p'.
Proof.
  induction es as [|e es IH]; intros w i p V Ep N; [eauto using keeps_refl|]. cbn.
  destruct (happen_keeps w e i p V Ep) as (p1 & E1 & (t & T) & L). { intros ->. apply N. now left. }
  destruct (IH _ i p1 (proj1 (happen_ok w e V)) E1) as (p2 & E2 & (t' & T') & L'). { intros I. apply N. now right. }
  exists p2. split; [exact E2|]. split; [exists (t ++ t'); now rewrite T', T, app_assoc|auto].
Qed.
Lemma pointer_keeps l l' p p' s c : wf l' -> (forall h m, has l h m -> has l' h m) -> proc_ok l p -> proc_ok l' p' -> keeps p p' -> pointer p s = Some c -> pointer p' s = Some c.
Proof.
  intros W M P P' ((t & T) & L). unfold pointer. destruct (look s (sym_loaded p)) as [h|] eqn:E; [|discriminate]. rewrite T, (look_app _ _ _ _ E).
  destruct (look h (loaded p)) as [m|] eqn:F; [|discriminate]. apply look_In in F. pose proof (L _ F) as F'.
  destruct (proj1 (look_key h (loaded p'))) as (m' & E'). { apply in_map_iff. exists (h, m). auto. }
  rewrite E'. apply look_In in E'. destruct (po_loaded _ _ P' h m F') as (H & _). destruct (po_loaded _ _ P' h m' E') as (H' & _).
  now rewrite (has_one _ _ _ _ W H H').
Qed.
Lemma pointer_there l p s : wf l -> proc_ok l p -> In s (map fst (sym_loaded p)) -> exists h m c, In (h, m) (loaded p) /\ has l h m /\ look s (defs m) = Some c /\ pointer p s = Some c.
Proof.
  intros W P I. apply look_key in I. destruct I as (h & E). pose proof (look_In _ _ _ E) as J. destruct (po_sym _ _ P s h J) as (m & M & S).
  assert (In h (map fst (loaded p))) as K by (apply in_map_iff; exists (h, m); auto). apply look_key in K. destruct K as (m' & K).
  pose proof (look_In _ _ _ K) as K'. destruct (po_loaded _ _ P h m M) as (H & _). destruct (po_loaded _ _ P h m' K') as (H' & _).
  rewrite (has_one _ _ _ _ W H H') in *. unfold syms in S. apply look_key in S. destruct S as (c & C). exists h, m', c. unfold pointer. rewrite E, K. auto.
Qed.
Lemma advances n : forall w i p h u m k, procs w i = Some p -> writing p = Some (Job h u m k) -> (n + k = length script)%nat ->
  exists p', procs (fold_left happen (repeat (Advance i) n) w) i = Some p' /\ writing p' = Some (Job h u m (length script)).
Proof.
  induction n as [|n IH]; intros w i p h u m k Ep Ew L; cbn [repeat fold_left].
  - exists p. rewrite Ep, Ew. replace k with (length script) by (rewrite <- L; reflexivity). auto.
  - set (p' := set_writing p (Some (Job h u m (S k)))). apply (IH _ i p' h u m (S k)); [|reflexivity|lia].
    cbn [happen]. unfold alive. rewrite Ep. unfold advance. rewrite Ew. cbn [j_hash j_uuid j_module j_done].
    destruct (nth_error script k) eqn:X; [cbn; now rewrite Nat.eqb_refl|]. apply nth_error_None in X. lia.
Qed.
Lemma run_last es e a n : run (es ++ e :: repeat a (S n)) = happen (fold_left happen (repeat a n) (happen (run es) e)) a.
Proof.
  unfold run. rewrite fold_left_app. cbn [fold_left]. generalize (happen (fold_left happen es (World (Disk [] []) (fun _ => None))) e). intros w.
  rewrite <- Nat.add_1_r, repeat_app, fold_left_app. reflexivity.
Qed.
Lemma last_advance w i p h u m : procs w i = Some p -> writing p = Some (Job h u m (length script)) ->
  procs (happen w (Advance i)) i = Some (set_writing (enter_names (enter_loaded p h m) h m) None).
Proof.
  intros E J. unfold happen, alive. rewrite E. unfold advance. rewrite J. cbn [j_done j_hash j_uuid j_module].
  replace (nth_error script (length script)) with (@None micro) by reflexivity. unfold put. cbn [procs snd]. now rewrite Nat.eqb_refl.
Qed.
Lemma first_begin w i p code used h u t : procs w i = Some p -> writing p = None -> dependent p used = Some t ->
  ~ In h (map (fun x => name_hash (fst x)) (dirs (on_disk w))) ->
  procs (happen w (Begin i code used h u)) i = Some (set_writing p (Some (Job h u (Module code t) 0))).
Proof.
  intros Ep Ew Et N. unfold happen, alive. rewrite Ep. unfold begin_module. rewrite Ew, Et.
  destruct (mem h (map (fun x => name_hash (fst x)) (dirs (on_disk w)))) eqn:M; [now apply mem_In in M|]. cbn. now rewrite Nat.eqb_refl.
Qed.
Lemma whole_add n w0 w i p code used h u t : n = length script -> procs w0 i = Some p -> writing p = None -> dependent p used = Some t ->
  ~ In h (map (fun x => name_hash (fst x)) (dirs (on_disk w0))) -> world_ok w ->
  w = happen (fold_left happen (repeat (Advance i) n) (happen w0 (Begin i code used h u))) (Advance i) ->
  has (dirs (on_disk w)) h (Module code t) /\ exists p', procs w i = Some p' /\ writing p' = None
    /\ forall s, In s (map fst code) -> has_symbol p' s = true /\ exists c, pointer p' s = Some c.
Proof.
  intros En Ep Ew Et N V E. pose proof (first_begin w0 i p code used h u t Ep Ew Et N) as E1.
  destruct (advances n _ i _ h u (Module code t) 0 E1 eq_refl (eq_trans (Nat.add_0_r n) En)) as (p2 & E2 & J2).
  pose proof (last_advance _ i p2 _ _ _ E2 J2) as E3. rewrite <- E in E3.
  pose proof (wo_proc _ V i _ E3) as P. assert (In (h, Module code t) (loaded (set_writing (enter_names (enter_loaded p2 h (Module code t)) h (Module code t)) None))) as L by now left.
  split; [exact (proj1 (po_loaded _ _ P _ _ L))|]. eexists. split; [exact E3|]. split; [reflexivity|]. intros s S. split.
  - unfold has_symbol. apply mem_In, in_map_iff. exists (s, h). split; [reflexivity|]. cbn [set_writing enter_names sym_mods]. apply add_pairs_In. left.
    apply in_map_iff. exists s. auto.
  - destruct (pointer_there _ _ s (wo_wf _ V) P) as (h' & m' & c & _ & _ & _ & C); [|eauto]. exact (po_all _ _ P _ _ s L S).
Qed.
Lemma dependent_all p used t : dependent p used = Some t -> forall s, In s used -> exists h, look s (sym_loaded p) = Some h /\ In h t.
Proof.
  revert t. induction used as [|s used IH]; cbn; intros t E x X; [destruct X|].
  destruct (look s (sym_loaded p)) as [h|] eqn:L; [|discriminate]. destruct (dependent p used) as [t'|]; [|discriminate]. injection E as <-.
  destruct X as [<-|X].
  - exists h. split; [exact L|]. destruct (mem h t') eqn:M; [now apply mem_In|now left].
  - destruct (IH t' eq_refl x X) as (g & A & B). exists g. split; [exact A|]. destruct (mem h t'); [exact B|now right].
Qed.

(** ** Starting while others write and mark *)
Record among_ok (d0 : disk) (ok : module -> bool) (c : scan) : Prop := {
  ao_wf : wf (dirs (s_disk c));
  ao_pairs : forall s h, In (s, h) (sym_mods (s_proc c)) <-> In h (s_valid c) /\ exists m, has (dirs (s_disk c)) h m /\ In s (syms m);
  ao_mods : forall h, In h (s_valid c) -> exists m, has (dirs (s_disk c)) h m /\ look h (mod_syms (s_proc c)) = Some (syms m);
  ao_keys : forall h, In h (map fst (mod_syms (s_proc c))) -> In h (s_valid c);
  ao_closed : forall h m g, In h (s_valid c) -> has (dirs (s_disk c)) h m -> In g (subs m) -> In g (s_valid c);
  ao_more : disk_more d0 (s_disk c);
  ao_usable : forall h, In h (s_valid c) -> usable d0 h;
  ao_rest : can (s_proc c) = ok /\ loaded (s_proc c) = [] /\ sym_loaded (s_proc c) = [] /\ writing (s_proc c) = None }.
Definition goes (c c' : scan) : Prop :=
  dirs (s_disk c') = dirs (s_disk c) /\ (forall h, In h (marks (s_disk c)) -> In h (marks (s_disk c'))) /\ incl (s_valid c) (s_valid c').
Lemma goes_refl c : goes c c.
Proof. repeat split; auto. apply incl_refl. Qed.
Lemma goes_trans a b c : goes a b -> goes b c -> goes a c.
Proof. intros (A & B & C) (A' & B' & C'). repeat split; [congruence|auto|]. now apply incl_tran with (s_valid b). Qed.
(** Once a module cannot be offered, it never can. *)
Lemma usable_back d d' : wf (dirs d) -> wf (dirs d') -> disk_more d d' -> forall h, usable d' h -> In h (finals (dirs d)) -> usable d h.
Proof.
  intros W W' (M & K) h U. induction U as [h m H N S IH]. intros I. destruct (final_has _ _ W I) as (m' & H').
  assert (m' = m) as -> by (apply (has_one _ h _ _ W'); [now apply M|exact H]).
  apply usable_intro with m; [exact H'|auto|]. intros g G. apply IH; [exact G|]. now apply (sub_final _ h m).
Qed.
Lemma goes_more c c' : goes c c' -> disk_more (s_disk c) (s_disk c').
Proof. intros (A & B & _). split; [now rewrite A|exact B]. Qed.
Definition scan_good (d0 : disk) (ok : module -> bool) (c : scan) (h : nat) (r : answer * scan) : Prop :=
  match r with
  | (Yes, c') => among_ok d0 ok c' /\ goes c c' /\ In h (s_valid c')
  | (No, c') => among_ok d0 ok c' /\ goes c c' /\ ~ usable (s_disk c') h /\ ~ In h (s_valid c')
  | (Raised _, _) => False
  end.
Lemma among_mark d0 ok c g : among_ok d0 ok c -> In g (finals (dirs (s_disk c))) -> ~ In g (s_valid c) ->
  exists d p, mark (s_disk c) (s_proc c) g = Some (d, p) /\ among_ok d0 ok (Scan d p (s_valid c)) /\ goes c (Scan d p (s_valid c)).
Proof.
  intros [W o5 o6 o7 oc om ou o8] F N. destruct (final_has _ _ W F) as (m & H). unfold mark. rewrite (find_dir_In _ _ _ (proj1 W) H).
  assert (look g (mod_syms (s_proc c)) = None) as L. { apply look_None. intros I. now apply N, o7. }
  rewrite L. eexists _, _. split; [reflexivity|]. split; [split; cbn; auto|repeat split; cbn; auto; apply incl_refl].
  - intros s h. rewrite <- o5. rewrite filter_In. cbn. rewrite andb_false_r. cbn. tauto.
  - intros h I. destruct (o6 h I) as (m' & A & B). exists m'. split; [exact A|]. rewrite look_other; [exact B|]. intros ->. now apply N.
  - intros h I. apply o7. apply in_map_iff in I. destruct I as (x & E & I). apply filter_In in I. apply in_map_iff. exists x. tauto.
  - destruct om as (A & B). split; cbn; auto.
Qed.
Lemma among_subs d0 ok f n l : wf l -> wf (dirs d0) ->
  (forall c h, among_ok d0 ok c -> dirs (s_disk c) = l -> within n l h -> In h (finals (dirs d0)) -> scan_good d0 ok c h (f c h)) ->
  forall hs c, among_ok d0 ok c -> dirs (s_disk c) = l -> (forall g, In g hs -> within n l g /\ In g (finals (dirs d0))) ->
    match scan_subs f c hs with
    | (Yes, c') => among_ok d0 ok c' /\ goes c c' /\ forall g, In g hs -> In g (s_valid c')
    | (No, c') => among_ok d0 ok c' /\ goes c c' /\ exists g, In g hs /\ ~ usable (s_disk c') g /\ ~ In g (s_valid c')
    | (Raised _, _) => False
    end.
Proof.
  intros W W0 F. induction hs as [|g hs IH]; intros c O E L; cbn.
  - split; [exact O|]. split; [apply goes_refl|]. tauto.
  - destruct (L g (or_introl eq_refl)) as (G & G0). pose proof (F c g O E G G0) as X. unfold scan_good in X.
    destruct (f c g) as ([| |e], c'); [| |exact X].
    + destruct X as (O' & Go & V). assert (dirs (s_disk c') = l) as E' by (rewrite <- E; apply Go).
      specialize (IH c' O' E' (fun k J => L k (or_intror J))). destruct (scan_subs f c' hs) as ([| |e], c''); [| |exact IH].
      * destruct IH as (O2 & Go2 & A). split; [exact O2|]. split; [now apply goes_trans with c'|]. intros k [<-|K]; [|now apply A]. now apply Go2.
      * destruct IH as (O2 & Go2 & k & K & A). split; [exact O2|]. split; [now apply goes_trans with c'|]. exists k. split; [now right|exact A].
    + destruct X as (O' & Go & U & V). assert (In g (finals (dirs (s_disk c')))) as Fg by (rewrite (proj1 Go), E; now apply within_final in G).
      destruct (among_mark d0 ok c' g O' Fg V) as (d & p & -> & O2 & Go2). split; [exact O2|]. split; [now apply goes_trans with c'|].
      exists g. split; [now left|]. split; [|exact V]. intros U'. apply U. eapply usable_back; [apply (ao_wf _ _ _ O')|apply (ao_wf _ _ _ O2)|apply goes_more, Go2|exact U'|exact Fg].
Qed.
Lemma among_module d0 ok l : wf l -> wf (dirs d0) -> forall n c h, among_ok d0 ok c -> dirs (s_disk c) = l -> within n l h -> In h (finals (dirs d0)) -> scan_good d0 ok c h (scan_module n c h).
Proof.
  intros W W0. induction n as [|n IH]; intros c h O E I I0. { destruct (within_pos _ _ _ I). discriminate. }
  cbn [scan_module]. destruct (mem h (s_valid c)) eqn:V. { apply mem_In in V. split; [exact O|]. split; [apply goes_refl|exact V]. }
  apply mem_false in V. destruct (mem h (marks (s_disk c))) eqn:M.
  { apply mem_In in M. split; [exact O|]. split; [apply goes_refl|]. split; [|exact V]. intros U. inversion U. contradiction. }
  destruct (final_has _ _ W (within_final _ _ _ I)) as (m & H).
  assert (forall f c', goes c c' -> read (s_disk c') h f = Some m) as R. { intros f c' Go. apply read_has; rewrite (proj1 Go), E; assumption. }
  rewrite (R FSubmodules c (goes_refl c)).
  assert (has (dirs d0) h m) as H0.
  { destruct (final_has _ _ W0 I0) as (m0 & H0). apply (ao_more _ _ _ O) in H0 as H1. rewrite E in H1. now rewrite (has_one _ _ _ _ W H H1). }
  assert (forall g, In g (subs m) -> within n l g /\ In g (finals (dirs d0))) as L.
  { intros g G. destruct (within_sub _ _ _ _ _ W I H G) as (k & Ek & J). injection Ek as ->. split; [exact J|]. now apply (sub_final _ h m). }
  pose proof (among_subs d0 ok (scan_module n) n l W W0 IH (subs m) c O E L) as X.
  destruct (scan_subs (scan_module n) c (subs m)) as ([| |e], c'); [| |exact X].
  - destruct X as (O' & Go & A). rewrite (R FNames c' Go). assert (has (dirs (s_disk c')) h m) as H' by (rewrite (proj1 Go), E; exact H).
    pose proof (ao_wf _ _ _ O') as W'. cbn. split; [|split; [|now left]].
    2:{ destruct Go as (G1 & G2 & G3). repeat split; cbn; auto. now apply incl_tl. }
    assert (usable d0 h) as Uh.
    { apply usable_intro with m; [exact H0| |intros g G; apply (ao_usable _ _ _ O'); now apply A]. intros K. apply (ao_more _ _ _ O) in K. now apply mem_In in K; congruence. }
    destruct O' as [o1 o5 o6 o7 oc om ou o8]. split; cbn; auto.
    + intros s k. rewrite add_pairs_In, o5, in_map_iff. split.
      * intros [(s' & Es & K)|(K & K')]; [|tauto]. injection Es as -> ->. split; [now left|]. now exists m.
      * intros ([<-|K] & m' & Hm & B); [|right; split; [exact K|now exists m']]. left. exists s. rewrite (has_one _ _ _ _ W' H' Hm). auto.
    + intros k [<-|K]. { exists m. now rewrite Nat.eqb_refl. }
      destruct (Nat.eqb_spec k h) as [->|N]; [now exists m|]. rewrite look_other by exact N. now apply o6.
    + intros k [<-|K]; [now left|]. right. apply o7. apply in_map_iff in K. destruct K as (x & Ex & K). apply filter_In in K.
      apply in_map_iff. exists x. tauto.
    + intros k m' g [<-|K] Hm G; right; [|now apply (oc k m')]. apply A. now rewrite (has_one _ _ _ _ W' H' Hm).
    + intros k [<-|K]; auto.
  - destruct X as (O' & Go & g & G & U & N). assert (has (dirs (s_disk c')) h m) as H' by (rewrite (proj1 Go), E; exact H).
    split; [exact O'|]. split; [exact Go|]. split.
    + intros Y. inversion Y as [h' m' A B C]; subst. apply U, C. now rewrite <- (has_one _ _ _ _ (ao_wf _ _ _ O') H' A).
    + intros K. apply N. now apply (ao_closed _ _ _ O' h m).
Qed.
Lemma among_others d0 ok c d : among_ok d0 ok c -> wf (dirs d) -> disk_more (s_disk c) d -> among_ok d0 ok (Scan d (s_proc c) (s_valid c)).
Proof.
  intros [W o5 o6 o7 oc om ou o8] W' (M & Mk). assert (forall h m, In h (s_valid c) -> has (dirs d) h m -> has (dirs (s_disk c)) h m) as B.
  { intros h m V H. destruct (o6 h V) as (m' & H' & _). now rewrite <- (has_one _ _ _ _ W' (M _ _ H') H). }
  split; cbn; auto.
  - intros s h. rewrite o5. split; intros (V & m & H & S); (split; [exact V|]); exists m; auto.
  - intros h V. destruct (o6 h V) as (m & H & L). exists m. auto.
  - intros h m g V H G. apply (oc h m); auto.
  - destruct om as (A & C). split; auto.
Qed.
Lemma more_trans_disk a b c : disk_more a b -> disk_more b c -> disk_more a c.
Proof. intros (A & B) (A' & B'). split; auto. Qed.
Lemma world_dirs w d : world_ok w -> dirs d = dirs (on_disk w) -> world_ok (World d (procs w)).
Proof. intros [a b c e] E. split; cbn; rewrite ?E; auto. Qed.
Lemma world_run es : forall w, world_ok w -> world_ok (fold_left happen es w).
Proof. induction es as [|e es IH]; intros w V; [exact V|]. cbn. apply IH. now apply happen_ok. Qed.
Lemma scan_among_ok d0 ok turns : wf (dirs d0) -> forall l w p v, world_ok w -> among_ok d0 ok (Scan (on_disk w) p v) ->
  (forall h, In h l -> In h (finals (dirs d0))) ->
  exists w' c', scan_among turns w p v l = (None, w', c') /\ world_ok w' /\ s_disk c' = on_disk w' /\ among_ok d0 ok c' /\ disk_more (on_disk w) (on_disk w') /\ incl v (s_valid c')
    /\ forall h, In h l -> usable (on_disk w') h -> In h (s_valid c').
Proof.
  intros W0. induction l as [|h l IH]; intros w p v Vw O L; cbn [scan_among].
  - eexists w, _. split; [reflexivity|]. split; [exact Vw|]. split; [reflexivity|]. split; [exact O|]. split; [now split|]. split; [apply incl_refl|]. cbn. tauto.
  - pose proof (world_run (turns (length l)) w Vw) as V1. pose proof (more_run (turns (length l)) w Vw) as M1.
    set (w1 := fold_left happen (turns (length l)) w) in *. cbv zeta. pose proof (wo_wf _ V1) as W1.
    pose proof (among_others d0 ok _ (on_disk w1) O W1 M1) as O1. cbn [s_proc s_valid] in O1. set (c1 := Scan (on_disk w1) p v) in *.
    assert (forall k, In k (h :: l) -> In k (finals (dirs (on_disk w1)))) as L1.
    { intros k K. destruct (final_has _ _ W0 (L k K)) as (m & H). apply has_final with m. now apply (ao_more _ _ _ O1). }
    assert (within (S (length (dirs (on_disk w1)))) (dirs (on_disk w1)) h) as I.
    { destruct (within_all (dirs (on_disk w1)) h) as (a & b & E & K & J); [apply L1; now left|]. exists a, b. repeat split; [exact E|lia|exact J]. }
    pose proof (among_module d0 ok (dirs (on_disk w1)) W1 W0 _ c1 h O1 eq_refl I (L h (or_introl eq_refl))) as X. unfold scan_good in X.
    pose proof (fun k (K : In k l) => L k (or_intror K)) as L2.
    assert (forall c2, among_ok d0 ok c2 -> goes c1 c2 -> (In h (s_valid c2) \/ ~ usable (s_disk c2) h) ->
      exists w' c', scan_among turns (World (s_disk c2) (procs w1)) (s_proc c2) (s_valid c2) l = (None, w', c') /\ world_ok w' /\ s_disk c' = on_disk w'
        /\ among_ok d0 ok c' /\ disk_more (on_disk w) (on_disk w') /\ incl v (s_valid c') /\ forall k, In k (h :: l) -> usable (on_disk w') k -> In k (s_valid c')) as Go2.
    { intros c2 O2 Go D. destruct (IH (World (s_disk c2) (procs w1)) (s_proc c2) (s_valid c2)) as (w3 & c3 & E & V3 & D3 & O3 & M3 & I3 & A); auto.
      { apply world_dirs; [exact V1|exact (proj1 Go)]. } { destruct c2. exact O2. }
      cbn in M3. exists w3, c3. split; [exact E|]. split; [exact V3|]. split; [exact D3|]. split; [exact O3|].
      split; [apply more_trans_disk with (on_disk w1); [exact M1|]; apply more_trans_disk with (s_disk c2); [exact (goes_more _ _ Go)|exact M3]|].
      split; [apply incl_tran with (s_valid c2); [apply Go|exact I3]|]. intros k [<-|K] U; [|now apply A]. destruct D as [D|D]; [now apply I3|].
      destruct D. eapply usable_back; [apply (ao_wf _ _ _ O2)|apply (wo_wf _ V3)|exact M3|exact U|]. rewrite (proj1 Go). apply L1. now left. }
    destruct (scan_module (S (length (dirs (on_disk w1)))) c1 h) as ([| |e], c2); [| |destruct X]; apply Go2; tauto.
Qed.
Lemma start_among_ok turns w ok : world_ok w ->
  exists w' c, start_among turns w ok = (None, w', c) /\ s_disk c = on_disk w' /\ world_ok w' /\ disk_more (on_disk w) (on_disk w') /\ proc_ok (dirs (on_disk w')) (s_proc c)
    /\ (forall s, has_symbol (s_proc c) s = true -> exists h m, usable (on_disk w) h /\ has_module (on_disk w) h m /\ In s (syms m))
    /\ (forall s h m, has_module (on_disk w) h m -> usable (on_disk w') h -> In s (syms m) -> has_symbol (s_proc c) s = true).
Proof.
  intros V. pose proof (wo_wf _ V) as W. assert (among_ok (on_disk w) ok (Scan (on_disk w) (Proc ok [] [] [] [] None) [])) as O.
  { split; cbn; auto; try tauto; try (now intros h []). now split. }
  destruct (scan_among_ok (on_disk w) ok turns W (finals (dirs (on_disk w))) w _ _ V O (fun h I => I)) as (w' & c & E & V' & D & O' & M & _ & A).
  exists w', c. split; [exact E|]. split; [exact D|]. split; [exact V'|]. split; [exact M|]. destruct O' as [o1 o5 o6 o7 oc om ou (o8 & o9 & o10 & o11)]. rewrite D in *. split; [|split].
  - split; rewrite ?o9, ?o10; try now cbn.
    + intros s h I. apply o5 in I. tauto.
    + intros s h I. apply o5 in I. destruct I as (Vh & m & H & S). destruct (o6 h Vh) as (m' & H' & L). exists (syms m'). split; [exact L|].
      now rewrite <- (has_one _ _ _ _ o1 H H').
  - intros s S. unfold has_symbol in S. apply mem_In, in_map_iff in S. destruct S as ((s', h) & <- & I). apply o5 in I. destruct I as (Vh & m & H & S).
    pose proof (ou h Vh) as U. exists h, m. split; [exact U|]. split; [|exact S]. inversion U as [h' m' Hm _ _]; subst. now rewrite (has_one _ _ _ _ o1 H (proj1 M _ _ Hm)).
  - intros s h m H U S. unfold has_symbol. apply mem_In, in_map_iff. exists (s, h). split; [reflexivity|]. apply o5.
    split; [apply A; [now apply has_final with m|exact U]|]. exists m. split; [now apply M|exact S].
Qed.

(** ** Loading while others write and mark *)
Record sim (k1 k2 : list nat) (l1 l2 : list (name * dir)) (c1 c2 : load_state) : Prop := {
  si_1 : dirs (l_disk c1) = l1; si_2 : dirs (l_disk c2) = l2; si_proc : l_proc c1 = l_proc c2; si_news : news c1 = news c2;
  si_marks : exists t, marks (l_disk c1) = t ++ k1 /\ marks (l_disk c2) = t ++ k2 }.
Definition same (k1 k2 : list nat) l1 l2 (r1 r2 : answer * load_state) : Prop := fst r1 = fst r2 /\ sim k1 k2 l1 l2 (snd r1) (snd r2).
Lemma fail_sim k1 k2 l1 l2 c1 c2 h m : wf l1 -> wf l2 -> sim k1 k2 l1 l2 c1 c2 -> has l1 h m -> has l2 h m -> same k1 k2 l1 l2 (fail c1 h) (fail c2 h).
Proof.
  intros W1 W2 [E1 E2 Ep En (t & T1 & T2)] H1 H2. unfold fail, mark. rewrite E1, E2, (find_dir_In _ _ _ (proj1 W1) H1), (find_dir_In _ _ _ (proj1 W2) H2), Ep, En, T1, T2.
  split; [reflexivity|]. split; cbn; auto. exists (h :: t). auto.
Qed.
Lemma subs_sim k1 k2 l1 l2 f1 f2 : forall hs, (forall c1 c2 g, In g hs -> sim k1 k2 l1 l2 c1 c2 -> same k1 k2 l1 l2 (f1 c1 g) (f2 c2 g)) ->
  forall c1 c2, sim k1 k2 l1 l2 c1 c2 -> same k1 k2 l1 l2 (load_subs f1 c1 hs) (load_subs f2 c2 hs).
Proof.
  induction hs as [|g hs IH]; intros F c1 c2 S; cbn; [now split|]. destruct (F c1 c2 g (or_introl eq_refl) S) as (A & B).
  destruct (f1 c1 g) as (a1, c1'), (f2 c2 g) as (a2, c2'). cbn in A, B. subst a2. destruct a1; [|now split|now split].
  apply IH; [|exact B]. intros d1 d2 k K. apply F. now right.
Qed.
Lemma load_sim k1 k2 l1 l2 : wf l1 -> wf l2 -> (forall h m, has l1 h m -> has l2 h m) -> forall n1 n2 c1 c2 h,
  sim k1 k2 l1 l2 c1 c2 -> within n1 l1 h -> within n2 l2 h -> same k1 k2 l1 l2 (load_module n1 c1 h) (load_module n2 c2 h).
Proof.
  intros W1 W2 M. induction n1 as [|n1 IH]; intros n2 c1 c2 h S I1 I2. { destruct (within_pos _ _ _ I1). discriminate. }
  destruct n2 as [|n2]. { destruct (within_pos _ _ _ I2). discriminate. }
  destruct (final_has _ _ W1 (within_final _ _ _ I1)) as (m & H). pose proof (M _ _ H) as H'.
  cbn [load_module]. rewrite <- (si_proc _ _ _ _ _ _ S). destruct (look h (loaded (l_proc c1))); [now split|].
  rewrite (read_all_has (l_disk c1) h m) by (rewrite (si_1 _ _ _ _ _ _ S); assumption).
  rewrite (read_all_has (l_disk c2) h m) by (rewrite (si_2 _ _ _ _ _ _ S); assumption).
  destruct (can (l_proc c1) m); cbn [negb]; [|now apply fail_sim with m].
  assert (same k1 k2 l1 l2 (load_subs (load_module n1) c1 (subs m)) (load_subs (load_module n2) c2 (subs m))) as (A & B).
  { apply subs_sim; [|exact S]. intros d1 d2 g G Sd. destruct (within_sub _ _ _ _ _ W1 I1 H G) as (a & Ea & J1). destruct (within_sub _ _ _ _ _ W2 I2 H' G) as (b & Eb & J2).
    injection Ea as ->. injection Eb as ->. now apply IH. }
  destruct (load_subs (load_module n1) c1 (subs m)) as (a1, c1'), (load_subs (load_module n2) c2 (subs m)) as (a2, c2'). cbn in A, B. subst a2.
  destruct a1; [|now split|now split]. split; [reflexivity|]. destruct B as [E1 E2 Ep En T]. split; cbn; auto; congruence.
Qed.
Lemma loop_sim l1 l2 : wf l1 -> wf l2 -> (forall h m, has l1 h m -> has l2 h m) -> forall n d1 d2 p s k1 k2, dirs d1 = l1 -> dirs d2 = l2 -> proc_ok l1 p ->
  (exists t, marks d1 = t ++ k1 /\ marks d2 = t ++ k2) ->
  let '(r1, e1, p1) := load_loop n d1 p s in let '(r2, e2, p2) := load_loop n d2 p s in
  r1 = r2 /\ p1 = p2 /\ dirs e1 = l1 /\ dirs e2 = l2 /\ exists t, marks e1 = t ++ k1 /\ marks e2 = t ++ k2.
Proof.
  intros W1 W2 M. induction n as [|n IH]; intros d1 d2 p s k1 k2 E1 E2 P T; cbn [load_loop]; [auto|].
  destruct (hashes_of p s) as [|h t] eqn:Hs; [auto|].
  assert (In (s, h) (sym_mods p)) as I by (apply hashes_of_In; rewrite Hs; now left). destruct (po_pairs _ _ P s h I) as (m & H & Sm).
  assert (forall l, In h (finals l) -> within (S (length l)) l h) as J.
  { intros l F. destruct (within_all l h F) as (a & b & X & Y & Z). exists a, b. repeat split; [exact X|lia|exact Z]. }
  pose proof (J l1 (has_final _ _ _ H)) as J1. pose proof (J l2 (has_final _ _ _ (M _ _ H))) as J2. rewrite <- E1 in J1 at 1. rewrite <- E2 in J2 at 1.
  assert (sim k1 k2 l1 l2 (Load d1 p []) (Load d2 p [])) as Si by (split; auto).
  destruct (load_sim k1 k2 l1 l2 W1 W2 M _ _ _ _ h Si J1 J2) as (A & B). pose proof (load_module_ok l1 W1 _ (Load d1 p []) h E1 P J1) as X. unfold load_good in X.
  destruct (load_module (S (length (dirs d1))) (Load d1 p []) h) as (a1, c1), (load_module (S (length (dirs d2))) (Load d2 p []) h) as (a2, c2). cbn in A, B. subst a2.
  destruct B as [B1 B2 Bp Bn Bt]. destruct a1; [rewrite Bn, Bp; auto| |destruct X]. rewrite <- Bp. destruct (mem h (hashes_of (l_proc c1) s)); [auto|].
  apply IH; auto. apply X.
Qed.
Lemma symbol_sim d1 d2 p s : wf (dirs d1) -> wf (dirs d2) -> disk_more d1 d2 -> proc_ok (dirs d1) p ->
  let '(r1, e1, p1) := load_for_symbol d1 p s in let '(r2, e2, p2) := load_for_symbol d2 p s in
  r1 = r2 /\ p1 = p2 /\ exists t, marks e1 = t ++ marks d1 /\ marks e2 = t ++ marks d2.
Proof.
  intros W1 W2 (M & _) P. unfold load_for_symbol. destruct (look s (sym_loaded p)); [repeat split; now exists []|].
  pose proof (loop_sim _ _ W1 W2 M (S (length (sym_mods p))) d1 d2 p s (marks d1) (marks d2) eq_refl eq_refl P (ex_intro _ [] (conj eq_refl eq_refl))) as X.
  destruct (load_loop _ d1 p s) as ((r1, e1), p1), (load_loop _ d2 p s) as ((r2, e2), p2). destruct X as (A & B & _ & _ & C). auto.
Qed.
