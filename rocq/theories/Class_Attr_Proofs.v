(** Proofs about what a class inherits and how attributes are found.  Property C67. *)
From Verif Require Import Base Class_Model Class_Spec Class_Order_Proofs Class_Proofs.
From Coq Require Import Arith PeanoNat ZifyBool ZifyNat.
From Coq Require String.
Open Scope list_scope.

(** ** Maps *)

Lemma lookup_put : forall V (m : list (String.string * V)) n v x,
  lookup (put m n v) x = if String.eqb n x then Some v else lookup m x.
Proof.
  intros V m n v x. induction m as [|(k, w) m IH]; cbn [put lookup].
  - reflexivity.
  - destruct (String.eqb_spec k n) as [->|D]; cbn [lookup].
    + now destruct (String.eqb n x).
    + rewrite IH. destruct (String.eqb_spec k x) as [->|]; [|reflexivity].
      destruct (String.eqb_spec n x) as [->|]; [congruence|reflexivity].
Qed.

Lemma lookup_absent : forall V (m : list (String.string * V)) n, ~ In n (map fst m) -> lookup m n = None.
Proof.
  intros V m n. induction m as [|(k, w) m IH]; intros H; [reflexivity|]. cbn in *. destruct (String.eqb_spec k n) as [->|D].
  - exfalso. apply H. now left.
  - apply IH. intros I. apply H. now right.
Qed.

Definition after (a b : option (list Z)) : option (list Z) :=
  match a, b with
  | Some x, Some y => Some (x ++ y)
  | None, y => y
  | x, None => x
  end.

Lemma after_none : forall a, after a None = a.
Proof. now intros [a|]. Qed.

Lemma merge_into_right : forall source target n, NoDup (map fst source) ->
  lookup (merge_into target source) n = after (lookup target n) (lookup source n).
Proof.
  unfold merge_into. induction source as [|(k, os) source IH]; intros target n N; cbn [fold_left fst snd].
  - now rewrite after_none.
  - cbn [map fst] in N. inversion N as [|? ? N1 N2]; subst. rewrite IH by exact N2. cbn [lookup].
    destruct (String.eqb_spec k n) as [->|D].
    + rewrite (lookup_absent _ source n N1). rewrite after_none.
      destruct (lookup target n) as [ps|]; rewrite lookup_put, String.eqb_refl; reflexivity.
    + f_equal. destruct (lookup target k) as [ps|]; rewrite lookup_put;
        (destruct (String.eqb_spec k n); [congruence|reflexivity]).
Qed.

Lemma merge_objects_right : forall source target n, NoDup (map fst source) ->
  lookup (merge_objects target source) n = match lookup target n with Some o => Some o | None => lookup source n end.
Proof.
  unfold merge_objects. induction source as [|(k, o) source IH]; intros target n N; cbn [fold_left fst snd].
  - cbn. now destruct (lookup target n).
  - cbn [map fst] in N. inversion N as [|? ? N1 N2]; subst. rewrite IH by exact N2. cbn [lookup].
    destruct (String.eqb_spec k n) as [->|D].
    + rewrite (lookup_absent _ source n N1).
      destruct (lookup target n) as [p|] eqn:E; [now rewrite E|]. now rewrite lookup_put, String.eqb_refl.
    + destruct (lookup target k) as [p|]; [reflexivity|]. rewrite lookup_put.
      destruct (String.eqb_spec k n); [congruence|reflexivity].
Qed.

(** The functions that the bodies define under a name, one list for each body that has one. *)
Definition inherited (own : body -> functions) (bodies : list body) (n : String.string) : option (list Z) :=
  fold_right (fun b rest => after (lookup (own b) n) rest) None bodies.

Lemma after_assoc : forall a b c, after (after a b) c = after a (after b c).
Proof. intros [a|] [b|] [c|]; cbn; try reflexivity. now rewrite app_assoc. Qed.

Lemma merged_functions_right : forall own bodies start n, (forall b, In b bodies -> NoDup (map fst (own b))) ->
  lookup (merged_functions start own bodies) n = after (lookup start n) (inherited own bodies n).
Proof.
  unfold merged_functions. intros own. induction bodies as [|b bodies IH]; intros start n W; cbn [fold_left inherited fold_right].
  - now rewrite after_none.
  - rewrite IH by (intros x I; apply W; now right). rewrite merge_into_right by (apply W; now left).
    now rewrite after_assoc.
Qed.

Lemma merged_objects_right : forall bodies n, (forall b, In b bodies -> NoDup (map fst (b_classmembers b))) ->
  lookup (merged_objects bodies) n =
  fold_right (fun b rest => match lookup (b_classmembers b) n with Some o => Some o | None => rest end) None bodies.
Proof.
  unfold merged_objects. intros bodies n W.
  assert (H : forall bodies start, (forall b, In b bodies -> NoDup (map fst (b_classmembers b))) ->
    lookup (fold_left (fun t b => merge_objects t (b_classmembers b)) bodies start) n =
    match lookup start n with
    | Some o => Some o
    | None => fold_right (fun b rest => match lookup (b_classmembers b) n with Some o => Some o | None => rest end) None bodies
    end).
  { clear. induction bodies as [|b bodies IH]; intros start W; cbn [fold_left fold_right].
    - now destruct (lookup start n).
    - rewrite IH by (intros x I; apply W; now right). rewrite merge_objects_right by (apply W; now left).
      now destruct (lookup start n). }
  now rewrite H.
Qed.

Lemma inherited_right : forall own bodies n,
  (inherited own bodies n = None /\ forall b, In b bodies -> lookup (own b) n = None) \/
  (inherited own bodies n = Some (all_overloads own bodies n) /\ exists b os, In b bodies /\ lookup (own b) n = Some os).
Proof.
  intros own bodies n. induction bodies as [|b bodies IH]; cbn [inherited fold_right all_overloads flat_map].
  - left. split; [reflexivity|]. intros b [].
  - fold (inherited own bodies n). fold (all_overloads own bodies n). destruct (lookup (own b) n) as [os|] eqn:E.
    + right. split; [|exists b, os; split; [now left|exact E]].
      destruct IH as [(-> & N)|(-> & _)]; cbn [after]; [|reflexivity].
      assert (Z : all_overloads own bodies n = nil).
      { clear - N. unfold all_overloads. induction bodies as [|x bodies IH]; [reflexivity|]. cbn [flat_map].
        rewrite (N x (or_introl eq_refl)). apply IH. intros y I. apply N. now right. }
      now rewrite Z, app_nil_r.
    + cbn [after]. destruct IH as [(-> & N)|(-> & x & os & I & X)].
      * left. split; [reflexivity|]. intros y [<-|I]; auto.
      * right. split; [reflexivity|]. exists x, os. split; [now right|exact X].
Qed.

(** ** The state of a program *)

Definition same_finds (os ps : list Z) : Prop := forall p, find p os = find p ps.

Definition merged_right (w : world) : Prop :=
  forall c k, nth_error w c = Some k -> forall n,
    let bodies := bodies_of w (c_mro k) in
    lookup (c_methods k) n = inherited b_methods bodies n /\
    lookup (c_properties k) n = inherited b_properties bodies n /\
    lookup (c_classmethods k) n = inherited b_classmethods bodies n /\
    lookup (c_classmembers k) n =
      fold_right (fun b rest => match lookup (b_classmembers b) n with Some o => Some o | None => rest end) None bodies /\
    match lookup (c_statics k) n, inherited b_statics bodies n with
    | None, None => True
    | Some os, Some ps => same_finds os ps
    | _, _ => False
    end.

Definition well_formed_world (w : world) : Prop := forall c k, nth_error w c = Some k -> well_formed (c_body k).

Lemma in_bodies : forall w order b, In b (bodies_of w order) <-> exists c k, In c order /\ nth_error w c = Some k /\ c_body k = b.
Proof.
  intros w order b. unfold bodies_of. rewrite in_flat_map. split.
  - intros (c & I & J). destruct (nth_error w c) as [k|] eqn:N; [|destruct J]. destruct J as [<-|[]]. eauto.
  - intros (c & k & I & N & <-). exists c. split; [exact I|]. rewrite N. now left.
Qed.

Lemma bodies_well_formed : forall w order, well_formed_world w -> forall b, In b (bodies_of w order) -> well_formed b.
Proof. intros w order H b I. apply in_bodies in I. destruct I as (c & k & _ & N & <-). exact (H c k N). Qed.

Lemma find_app : forall A p (l m : list A), find p (l ++ m) = match find p l with Some x => Some x | None => find p m end.
Proof. intros A p l m. induction l as [|x l IH]; [reflexivity|]. cbn. destruct (p x); auto. Qed.

Lemma bodies_again : forall w c order, bodies_of (merge_again w c) order = bodies_of w order.
Proof.
  intros w c order. unfold bodies_of. apply flat_map_ext. intros x.
  assert (E : map c_body (merge_again w c) = map c_body w) by (apply merge_again_map; auto).
  assert (H : forall u, match nth_error u x with Some k => [c_body k] | None => nil end =
                        match nth_error (map c_body u) x with Some b => [b] | None => nil end).
  { intros u. destruct (nth_error u x) as [k|] eqn:N; [now rewrite (map_nth_error c_body _ _ N)|].
    replace (nth_error (map c_body u) x) with (@None body); [reflexivity|]. symmetry. apply nth_error_None.
    rewrite map_length. now apply nth_error_None. }
  now rewrite !H, E.
Qed.

Lemma merged_again : forall w c, well_formed_world w -> merged_right w -> merged_right (merge_again w c).
Proof.
  intros w c W M d k N n. cbv zeta. rewrite bodies_again.
  destruct (Nat.eq_dec d c) as [->|D].
  - unfold merge_again in N. destruct (nth_error w c) as [k0|] eqn:E; [|congruence].
    assert (LW : (c < List.length w)%nat) by (apply nth_error_Some; congruence).
    assert (L : List.length (firstn c w) = c) by (apply firstn_length_le; lia).
    rewrite nth_error_app2 in N by lia. rewrite L, Nat.sub_diag in N. cbn in N. injection N as <-.
    cbn [c_methods c_properties c_classmethods c_classmembers c_statics c_mro].
    assert (WF := bodies_well_formed w (c_mro k0) W).
    rewrite !merged_functions_right by (intros b I; apply (WF b I)).
    rewrite merged_objects_right by (intros b I; apply (WF b I)). cbn [lookup after].
    repeat (split; [reflexivity|]).
    destruct (M c k0 E n) as (_ & _ & _ & _ & ST). 
    destruct (lookup (c_statics k0) n) as [os|]; destruct (inherited b_statics (bodies_of w (c_mro k0)) n) as [ps|]; cbn [after];
      try contradiction; try exact I.
    intros p. rewrite find_app. specialize (ST p). rewrite ST. now destruct (find p ps).
  - assert (N' : nth_error w d = Some k).
    { unfold merge_again in N. destruct (nth_error w c) as [k0|] eqn:E; [|exact N].
      assert (LW : (c < List.length w)%nat) by (apply nth_error_Some; congruence).
      assert (L : List.length (firstn c w) = c) by (apply firstn_length_le; lia).
      destruct (Nat.lt_ge_cases d c) as [X|X].
      - rewrite nth_error_app1 in N by lia. rewrite <- (firstn_skipn c w). rewrite nth_error_app1 by lia. exact N.
      - rewrite nth_error_app2 in N by lia. rewrite L in N. destruct (d - c)%nat as [|j] eqn:J; [lia|]. cbn in N.
        rewrite <- (firstn_skipn (S c) w). assert (L2 : List.length (firstn (S c) w) = S c) by (apply firstn_length_le; lia).
        rewrite nth_error_app2 by lia. rewrite L2. now replace (d - S c)%nat with j by lia. }
    exact (M d k N' n).
Qed.

Lemma bodies_more : forall w k order, Forall (fun c => (c < List.length w)%nat) order ->
  bodies_of (w ++ [k]) order = bodies_of w order.
Proof.
  intros w k order F. unfold bodies_of. induction F as [|c order L F IH]; [reflexivity|]. cbn [flat_map].
  rewrite nth_error_app1 by exact L. now rewrite IH.
Qed.

Lemma mro_bounds : forall w c k, sound w -> nth_error w c = Some k -> Forall (fun a => (a < List.length w)%nat) (c_mro k).
Proof.
  intros w c k S N. destruct (S c k N) as (P & _). apply Forall_forall. intros a I.
  apply (python_mro_ancestors _ _ _ P) in I. apply (ancestor_le _ (sound_before w S)) in I.
  assert ((c < List.length w)%nat) by (apply nth_error_Some; congruence). lia.
Qed.

Lemma make_shape : forall w bs b w', make w bs b = Ok w' -> exists k, w' = w ++ [k] /\ c_body k = b /\
  let bodies := b :: bodies_of w (tl (c_mro k)) in
  c_methods k = merged_functions nil b_methods bodies /\
  c_statics k = merged_functions nil b_statics bodies /\
  c_properties k = merged_functions nil b_properties bodies /\
  c_classmethods k = merged_functions nil b_classmethods bodies /\
  c_classmembers k = merged_objects bodies.
Proof.
  intros w bs b w' E. unfold make in E. destruct (get_bases w bs) as [ks|]; cbn [bind] in E; [|discriminate].
  destruct (existsb _ ks); [discriminate|]. destruct (Nat.ltb 1 _); [discriminate|].
  destruct (compute_mro _ _ _) as [mro|]; cbn [bind] in E; [|discriminate].
  destruct (add_members _ _) as [ms|]; cbn [bind] in E; [|discriminate].
  injection E as <-. eexists. split; [reflexivity|]. cbn. auto 10.
Qed.

Lemma merged_step : forall w bs b w', sound w -> well_formed_world w -> well_formed b -> NoDup bs -> merged_right w ->
  make w bs b = Ok w' -> merged_right w' /\ well_formed_world w'.
Proof.
  intros w bs b w' S W WB N M E. assert (R := make_right w bs b S N). rewrite E in R.
  destruct R as (_ & k & EW & EB & EBody & PM & _).
  destruct (make_shape w bs b w' E) as (k2 & EW2 & _ & SH). rewrite EW in EW2. apply app_inv_head in EW2. injection EW2 as <-.
  subst w'. 
  assert (HD : exists out, c_mro k = List.length w :: out /\ Forall (fun a => (a < List.length w)%nat) out).
  { assert (S' : sound (w ++ [k])) by (eapply sound_step; eauto).
    assert (NT : nth_error (w ++ [k]) (List.length w) = Some k) by (rewrite nth_error_app2 by lia; now rewrite Nat.sub_diag).
    assert (BD := mro_bounds _ _ _ S' NT). destruct (S' _ _ NT) as (P & _).
    destruct (python_mro_facts _ (sound_before _ S') _ _ P) as (? & ? & out & _ & _ & EM & ND & _).
    exists out. split; [exact EM|]. rewrite EM in ND, BD. inversion ND as [|? ? N1 N2]; subst. inversion BD as [|? ? _ BD']; subst.
    apply Forall_forall. intros a I. rewrite Forall_forall in BD'. specialize (BD' a I). rewrite app_length in BD'. cbn in BD'.
    assert (a <> List.length w) by (intros ->; contradiction). lia. }
  destruct HD as (out & EM & BO).
  assert (EBO : bodies_of (w ++ [k]) (c_mro k) = b :: bodies_of w out).
  { rewrite EM. change (List.length w :: out) with ([List.length w] ++ out). unfold bodies_of at 1. rewrite flat_map_app.
    fold (bodies_of (w ++ [k]) out). rewrite bodies_more by exact BO. cbn [flat_map].
    rewrite nth_error_app2 by lia. rewrite Nat.sub_diag. cbn. now rewrite EBody. }
  assert (WB' : forall x, In x (b :: bodies_of w out) -> well_formed x).
  { intros x [<-|I]; [exact WB|]. eapply bodies_well_formed; eauto. }
  split.
  - intros c k' NC n. cbv zeta. destruct (Nat.lt_ge_cases c (List.length w)) as [L|L].
    + rewrite nth_error_app1 in NC by exact L. rewrite bodies_more by (eapply mro_bounds; eauto). exact (M c k' NC n).
    + rewrite nth_error_app2 in NC by exact L. destruct (c - List.length w)%nat as [|i] eqn:ZE; [|destruct i; discriminate].
      cbn in NC. injection NC as <-. rewrite EBO. cbv zeta in SH. rewrite EM in SH. cbn [tl] in SH.
      destruct SH as (-> & -> & -> & -> & ->).
      rewrite !merged_functions_right by (intros x I; apply (WB' x I)).
      rewrite merged_objects_right by (intros x I; apply (WB' x I)).
      change (lookup (@nil (String.string * list Z)) n) with (@None (list Z)). cbn [after].
      repeat (split; [reflexivity|]). destruct (inherited b_statics (b :: bodies_of w out) n); [intros p; reflexivity|exact I].
  - intros c k' NC. destruct (Nat.lt_ge_cases c (List.length w)) as [L|L].
    + rewrite nth_error_app1 in NC by exact L. exact (W c k' NC).
    + rewrite nth_error_app2 in NC by exact L. destruct (c - List.length w)%nat as [|i] eqn:ZE; [|destruct i; discriminate].
      cbn in NC. injection NC as <-. now rewrite EBody.
Qed.

Lemma well_formed_again : forall w c, well_formed_world w -> well_formed_world (merge_again w c).
Proof. intros w c W d k N. destruct (merge_again_nth _ _ _ _ N) as (k' & N' & _ & -> & _). exact (W d k' N'). Qed.

Lemma history_merged : forall es, no_base_twice es -> well_formed_program es ->
  merged_right (history es) /\ well_formed_world (history es).
Proof.
  intros es F P. unfold history.
  assert (H : forall es w, no_base_twice es -> well_formed_program es -> sound w -> merged_right w -> well_formed_world w ->
                merged_right (fold_left happen es w) /\ well_formed_world (fold_left happen es w)).
  { clear. induction es as [|e es IH]; intros w F P S M W; [split; assumption|]. cbn [fold_left].
    assert (F' : no_base_twice es) by (intros bs b I; apply (F bs b); now right).
    assert (P' : well_formed_program es) by (intros bs b I; apply (P bs b); now right).
    destruct e as [bs b|c]; cbn [happen].
    - assert (N : NoDup bs) by (eapply F; now left). assert (WB : well_formed b) by (eapply P; now left).
      destruct (make w bs b) as [w'|x] eqn:E; [|now apply IH].
      destruct (merged_step w bs b w' S W WB N M E) as (M' & W'). apply IH; auto. eapply sound_step; eauto.
    - apply IH; auto; [now apply sound_again|now apply merged_again|now apply well_formed_again]. }
  apply H; auto; intros [|c] k E; discriminate.
Qed.

(** ** Data members *)

Definition members_right (w : world) : Prop :=
  forall c k, nth_error w c = Some k -> forall x,
    In x (c_members k) <-> exists a ka, In a (c_mro k) /\ nth_error w a = Some ka /\ In x (b_members (c_body ka)).

Lemma members_step : forall w bs b w', sound w -> NoDup bs -> members_right w -> make w bs b = Ok w' -> members_right w'.
Proof.
  intros w bs b w' S N M E. assert (R := make_right w bs b S N). rewrite E in R.
  destruct R as ((A1 & A2 & _) & k & EW & EB & EBody & PM & EMem). subst w'.
  assert (S' : sound (w ++ [k])) by (eapply sound_step; eauto).
  assert (NT : nth_error (w ++ [k]) (List.length w) = Some k) by (rewrite nth_error_app2 by lia; now rewrite Nat.sub_diag).
  assert (OLD : forall c kc, nth_error w c = Some kc -> nth_error (w ++ [k]) c = Some kc) by (intros; now apply nth_error_more).
  intros c k' NC x. destruct (Nat.lt_ge_cases c (List.length w)) as [L|L].
  - rewrite nth_error_app1 in NC by exact L. rewrite (M c k' NC x). split.
    + intros (a & ka & I & Y & J). exists a, ka. auto.
    + intros (a & ka & I & Y & J). exists a, ka. split; [exact I|]. split; [|exact J].
      assert (B := mro_bounds _ _ _ S NC). rewrite Forall_forall in B. specialize (B a I). now rewrite nth_error_app1 in Y by exact B.
  - rewrite nth_error_app2 in NC by exact L. destruct (c - List.length w)%nat as [|i] eqn:ZE; [|destruct i; discriminate].
    cbn in NC. injection NC as <-. rewrite EMem, in_app_iff.
    set (ks := flat_map (fun c => match nth_error w c with Some x => [x] | None => nil end) bs) in *.
    assert (G : Forall2 (fun c k => nth_error w c = Some k) bs ks).
    { subst ks. clear - A1. induction bs as [|d bs IH]; [constructor|]. cbn [flat_map].
      destruct (A1 d (or_introl eq_refl)) as (kd & Y & _). rewrite Y. cbn [app]. constructor; [exact Y|].
      apply IH. intros e I. apply A1. now right. }
    assert (X2 := proj2 (one_base w bs ks N G) A2). assert (IM := inherited_members_right ks X2).
    assert (MRO : forall a, In a (c_mro k) <-> a = List.length w \/ exists d kd, In d bs /\ nth_error w d = Some kd /\ In a (c_mro kd)).
    { intros a. rewrite (python_mro_ancestors _ _ _ PM a). split.
      - intros AN. inversion AN as [c' bs' NN E1 E2|c' bs' d a' NN I AN' E1 E2]; [now left|]. subst c' a'. right.
        assert (bs' = bs). { rewrite nth_error_app2 in NN by (unfold bases_of; rewrite map_length; lia).
          unfold bases_of in NN. rewrite map_length, Nat.sub_diag in NN. cbn in NN. congruence. }
        subst bs'. destruct (A1 d I) as (kd & Y & _). exists d, kd. split; [exact I|]. split; [exact Y|].
        destruct (S d kd Y) as (P & _). apply (python_mro_more _ [bs]) in P. now apply (python_mro_ancestors _ _ _ P).
      - assert (NB : nth_error (bases_of w ++ [bs]) (List.length w) = Some bs).
        { rewrite nth_error_app2; unfold bases_of; rewrite map_length; [|lia]. now rewrite Nat.sub_diag. }
        intros [->|(d & kd & I & Y & J)].
        + econstructor. exact NB.
        + eapply ancestor_base; [exact NB|exact I|]. destruct (S d kd Y) as (P & _). apply (python_mro_more _ [bs]) in P.
          now apply (python_mro_ancestors _ _ _ P). }
    assert (BASE : In x (inherited_members ks) <-> exists d kd, In d bs /\ nth_error w d = Some kd /\ In x (c_members kd)).
    { destruct IM as [(Z0 & NM)|(k0 & I0 & E0 & P0 & U)].
      - rewrite Z0. split; [intros []|]. intros (d & kd & I & Y & J). destruct (Forall2_left _ _ _ _ _ _ G I) as (kd' & K & Y').
        rewrite Y in Y'. injection Y' as <-. rewrite (NM kd K) in J. exact J.
      - split.
        + intros J. rewrite <- E0 in J. destruct (Forall2_right _ _ _ _ _ _ G I0) as (d & I & Y). eauto.
        + intros (d & kd & I & Y & J). destruct (Forall2_left _ _ _ _ _ _ G I) as (kd' & K & Y').
          rewrite Y in Y'. injection Y' as <-.
          rewrite <- (U kd K); [exact J|]. unfold has_members. intros Q. rewrite Q in J. destruct J. }
    rewrite BASE. split.
    + intros [(d & kd & I & Y & J)|J].
      * apply (M d kd Y x) in J. destruct J as (a & ka & IA & YA & J). exists a, ka. split; [|split; [now apply OLD|exact J]].
        apply MRO. right. eauto.
      * exists (List.length w), k. split; [apply MRO; now left|]. split; [exact NT|]. now rewrite EBody.
    + intros (a & ka & IA & YA & J). apply MRO in IA. destruct IA as [->|(d & kd & I & Y & IA)].
      * right. rewrite NT in YA. injection YA as <-. now rewrite EBody in J.
      * left. exists d, kd. split; [exact I|]. split; [exact Y|]. apply (M d kd Y x). exists a, ka. split; [exact IA|].
        split; [|exact J]. assert (B := mro_bounds _ _ _ S Y). rewrite Forall_forall in B. specialize (B a IA).
        now rewrite nth_error_app1 in YA by exact B.
Qed.

Lemma members_again : forall w c, members_right w -> members_right (merge_again w c).
Proof.
  intros w c M d k N x. destruct (merge_again_nth _ _ _ _ N) as (k' & N' & _ & _ & EM & EMem). rewrite EM, EMem, (M d k' N' x).
  assert (EB : map c_body (merge_again w c) = map c_body w) by (apply merge_again_map; auto).
  assert (Q : forall u a m, (exists ka, nth_error u a = Some ka /\ In m (b_members (c_body ka))) <->
                            exists b, nth_error (map c_body u) a = Some b /\ In m (b_members b)).
  { intros u a m. split.
    - intros (ka & Y & J). exists (c_body ka). split; [now apply map_nth_error|exact J].
    - intros (b & Y & J). destruct (nth_error u a) as [ka|] eqn:E.
      + rewrite (map_nth_error c_body _ _ E) in Y. injection Y as <-. eauto.
      + assert (nth_error (map c_body u) a = None); [|congruence]. apply nth_error_None. rewrite map_length. now apply nth_error_None. }
  split.
  - intros (a & ka & I & Y & J). destruct (proj1 (Q w a x)) as (b & Y2 & J2); [eauto|]. rewrite <- EB in Y2.
    destruct (proj2 (Q (merge_again w c) a x)) as (ka2 & Y3 & J3); [eauto|]. eauto.
  - intros (a & ka & I & Y & J). destruct (proj1 (Q (merge_again w c) a x)) as (b & Y2 & J2); [eauto|]. rewrite EB in Y2.
    destruct (proj2 (Q w a x)) as (ka2 & Y3 & J3); [eauto|]. eauto.
Qed.

Lemma history_members : forall es, no_base_twice es -> members_right (history es).
Proof.
  intros es F. unfold history.
  assert (H : forall es w, no_base_twice es -> sound w -> members_right w -> members_right (fold_left happen es w)).
  { clear. induction es as [|e es IH]; intros w F S M; [exact M|]. cbn [fold_left].
    assert (F' : no_base_twice es) by (intros bs b I; apply (F bs b); now right).
    destruct e as [bs b|c]; cbn [happen].
    - assert (N : NoDup bs) by (eapply F; now left).
      destruct (make w bs b) as [w'|x] eqn:E; [|now apply IH]. apply IH; [exact F'|eapply sound_step; eauto|eapply members_step; eauto].
    - apply IH; auto; [now apply sound_again|now apply members_again]. }
  apply H; auto; intros [|c] k E; discriminate.
Qed.

Lemma member_index_right : forall ms n,
  match member_index ms n with
  | Some i => exists m, nth_error ms i = Some m /\ m_name m = n
  | None => ~ In n (map m_name ms)
  end.
Proof.
  induction ms as [|m ms IH]; intros n; cbn [member_index]; [intros []|].
  destruct (String.eqb_spec (m_name m) n) as [E|D].
  - exists m. split; [reflexivity|exact E].
  - specialize (IH n). destruct (member_index ms n) as [i|]; cbn [option_map].
    + exact IH.
    + cbn. intros [E|I]; auto.
Qed.

(** ** Attributes *)

Lemma same_finds_calls : forall os ps, same_finds os ps -> same_calls os ps.
Proof.
  intros os ps H level accepts levels. induction levels as [|l ls IH]; [reflexivity|]. cbn [call].
  unfold first_accepting. rewrite (H (accepts l)), IH. reflexivity.
Qed.

Lemma first_object : forall bodies n,
  match fold_right (fun b rest => match lookup (b_classmembers b) n with Some o => Some o | None => rest end) None bodies with
  | Some o => exists e b l, bodies = e ++ b :: l /\ (forall x, In x e -> lookup (b_classmembers x) n = None) /\
                            lookup (b_classmembers b) n = Some o
  | None => forall b, In b bodies -> lookup (b_classmembers b) n = None
  end.
Proof.
  intros bodies n. induction bodies as [|b bodies IH]; cbn [fold_right]; [intros b []|].
  destruct (lookup (b_classmembers b) n) as [o|] eqn:E.
  - exists nil, b, bodies. split; [reflexivity|]. split; [intros x []|exact E].
  - destruct (fold_right _ None bodies) as [o|].
    + destruct IH as (e & x & l & -> & F & X). exists (b :: e), x, l. split; [reflexivity|]. split; [|exact X].
      intros y [<-|I]; auto.
    + intros y [<-|I]; auto.
Qed.

Lemma attribute_right : forall es c n kd m, no_base_twice es -> well_formed_program es ->
  let w := history es in
  one_kind (searched w c) n kd -> python_attribute (searched w c) n m ->
  exists a, get_attribute w c n = Some a /\ found w c n m a.
Proof.
  intros es c n kd m F P w OK PA. destruct (history_merged es F P) as (M & W). assert (MM := history_members es F).
  fold w in M, W, MM. unfold searched in *. destruct (nth_error w c) as [k|] eqn:NC.
  2:{ destruct PA as (e & b & l & D & _). destruct e; discriminate. }
  destruct (M c k NC n) as (M1 & M2 & M3 & M4 & M5). set (bodies := bodies_of w (c_mro k)) in *.
  destruct PA as (e & b & l & D & SI & SA).
  assert (IB : In b bodies) by (rewrite D; apply in_or_app; right; now left).
  assert (KM : kind_of m = kd) by (eapply OK; eauto).
  assert (NOT : forall x m', In x bodies -> said x n m' -> kind_of m' = kind_of m).
  { intros x m' I Q. rewrite KM. eapply OK; eauto. }
  assert (MEM : In n (map m_name (c_members k)) <-> exists x, In x bodies /\ said x n IsMember).
  { split.
    - intros I. apply in_map_iff in I. destruct I as (y & <- & I). apply (MM c k NC y) in I. destruct I as (a & ka & IA & Y & J).
      exists (c_body ka). split; [apply in_bodies; eauto|]. cbn. now apply in_map.
    - intros (x & I & Q). apply in_bodies in I. destruct I as (a & ka & IA & Y & <-). cbn in Q. apply in_map_iff in Q.
      destruct Q as (y & <- & J). apply in_map. apply (MM c k NC y). eauto. }
  assert (MI := member_index_right (c_members k) n).
  unfold get_attribute. rewrite NC.
  destruct (member_index (c_members k) n) as [i|].
  - assert (Q : exists x, In x bodies /\ said x n IsMember).
    { apply MEM. destruct MI as (x & X & <-). apply in_map. eapply nth_error_In; eauto. }
    destruct Q as (x & I & Q). specialize (NOT x IsMember I Q). destruct m; try discriminate.
    exists (AMember i). split; [reflexivity|]. unfold found. destruct MI as (y & Y & E). eauto.
  - assert (NM : forall x, In x bodies -> ~ In n (map m_name (b_members x))).
    { intros x I Q. apply MI. apply MEM. exists x. split; [exact I|exact Q]. }
    rewrite M1. destruct (inherited_right b_methods bodies n) as [(-> & N1)|(-> & x & os & I & X)].
    2:{ specialize (NOT x (IsMethod os) I X). destruct m; try discriminate.
        eexists. split; [reflexivity|]. unfold found, searched. now rewrite NC. }
    rewrite M2. destruct (inherited_right b_properties bodies n) as [(-> & N2)|(-> & x & os & I & X)].
    2:{ specialize (NOT x (IsProperty os) I X). destruct m; try discriminate.
        eexists. split; [reflexivity|]. unfold found, searched. now rewrite NC. }
    rewrite M4. assert (FO := first_object bodies n).
    destruct (fold_right _ None bodies) as [o|].
    { destruct FO as (e2 & b2 & l2 & D2 & S2 & O2).
      assert (I2 : In b2 bodies) by (rewrite D2; apply in_or_app; right; now left).
      assert (Q2 : said b2 n (IsObject o)) by (split; [now apply NM|exact O2]).
      specialize (NOT b2 (IsObject o) I2 Q2). destruct m as [| | |o'| |]; try discriminate.
      exists (AObject o). split; [reflexivity|]. unfold found.
      destruct SA as (_ & O1). assert (EQ : b2 = b).
      { clear - D D2 SI S2 O1 O2 NM IB I2. revert e2 D2 S2. rewrite D in *. clear D.
        assert (SI' : forall x, In x e -> lookup (b_classmembers x) n = None).
        { intros x I. destruct (lookup (b_classmembers x) n) as [p|] eqn:E; [|reflexivity]. exfalso. apply (SI x I (IsObject p)).
          split; [apply NM; apply in_or_app; now left|exact E]. }
        clear NM SI IB I2. revert SI'. induction e as [|y e IH]; intros SI' [|y2 e2] D2 S2; cbn in D2.
        - congruence.
        - injection D2 as <- _. specialize (S2 b (or_introl eq_refl)). congruence.
        - injection D2 as <- _. specialize (SI' y (or_introl eq_refl)). congruence.
        - injection D2 as <- D2. eapply IH; [|exact D2|].
          + intros x I. apply SI'. now right.
          + intros x I. apply S2. now right. }
      subst b2. congruence. }
    rewrite M3. destruct (inherited_right b_classmethods bodies n) as [(-> & N3)|(-> & x & os & I & X)].
    2:{ specialize (NOT x (IsClassMethod os) I X). destruct m; try discriminate.
        eexists. split; [reflexivity|]. unfold found, searched. now rewrite NC. }
    destruct m as [|os|os|o|os|os]; cbn in SA.
    + exfalso. exact (NM b IB SA).
    + rewrite (N1 b IB) in SA. discriminate.
    + rewrite (N2 b IB) in SA. discriminate.
    + destruct SA as (_ & SA). rewrite (FO b IB) in SA. discriminate.
    + rewrite (N3 b IB) in SA. discriminate.
    + destruct (inherited_right b_statics bodies n) as [(ES & N4)|(ES & _)]; [rewrite (N4 b IB) in SA; discriminate|].
      rewrite ES in M5. destruct (lookup (c_statics k) n) as [ps|]; [|destruct M5].
      exists (AStatic ps). split; [reflexivity|]. unfold found, searched. rewrite NC. now apply same_finds_calls.
Qed.

Lemma missing_right : forall es c n, no_base_twice es -> well_formed_program es ->
  let w := history es in
  get_attribute w c n = None <-> forall b, In b (searched w c) -> silent b n.
Proof.
  intros es c n F P w. destruct (history_merged es F P) as (M & W). assert (MM := history_members es F).
  fold w in M, W, MM. unfold searched, get_attribute. destruct (nth_error w c) as [k|] eqn:NC; [|split; [intros _ b []|reflexivity]].
  destruct (M c k NC n) as (M1 & M2 & M3 & M4 & M5). set (bodies := bodies_of w (c_mro k)) in *.
  assert (MI := member_index_right (c_members k) n).
  assert (MEM : In n (map m_name (c_members k)) <-> exists x, In x bodies /\ said x n IsMember).
  { split.
    - intros I. apply in_map_iff in I. destruct I as (y & <- & I). apply (MM c k NC y) in I. destruct I as (a & ka & IA & Y & J).
      exists (c_body ka). split; [apply in_bodies; eauto|]. cbn. now apply in_map.
    - intros (x & I & Q). apply in_bodies in I. destruct I as (a & ka & IA & Y & <-). cbn in Q. apply in_map_iff in Q.
      destruct Q as (y & <- & J). apply in_map. apply (MM c k NC y). eauto. }
  destruct (member_index (c_members k) n) as [i|].
  { split; [discriminate|]. intros H. exfalso. assert (Q : In n (map m_name (c_members k))).
    { destruct MI as (x & X & <-). apply in_map. eapply nth_error_In; eauto. }
    apply MEM in Q. destruct Q as (x & I & Q). exact (H x I _ Q). }
  assert (NM : forall x, In x bodies -> ~ In n (map m_name (b_members x))).
  { intros x I Q. apply MI. apply MEM. exists x. split; [exact I|exact Q]. }
  rewrite M1. destruct (inherited_right b_methods bodies n) as [(-> & N1)|(-> & x & os & I & X)].
  2:{ split; [discriminate|]. intros H. exfalso. exact (H x I (IsMethod os) X). }
  rewrite M2. destruct (inherited_right b_properties bodies n) as [(-> & N2)|(-> & x & os & I & X)].
  2:{ split; [discriminate|]. intros H. exfalso. exact (H x I (IsProperty os) X). }
  rewrite M4. assert (FO := first_object bodies n). destruct (fold_right _ None bodies) as [o|].
  { split; [discriminate|]. intros H. exfalso. destruct FO as (e2 & b2 & l2 & D2 & S2 & O2).
    assert (I2 : In b2 bodies) by (rewrite D2; apply in_or_app; right; now left).
    apply (H b2 I2 (IsObject o)). split; [now apply NM|exact O2]. }
  rewrite M3. destruct (inherited_right b_classmethods bodies n) as [(-> & N3)|(-> & x & os & I & X)].
  2:{ split; [discriminate|]. intros H. exfalso. exact (H x I (IsClassMethod os) X). }
  destruct (inherited_right b_statics bodies n) as [(ES & N4)|(ES & x & os & I & X)]; rewrite ES in M5.
  - destruct (lookup (c_statics k) n) as [ps|]; [destruct M5|]. split; [|reflexivity]. intros _ b I m S.
    destruct m as [|os|os|o|os|os]; cbn in S.
    + exact (NM b I S).
    + rewrite (N1 b I) in S. discriminate.
    + rewrite (N2 b I) in S. discriminate.
    + destruct S as (_ & S). rewrite (FO b I) in S. discriminate.
    + rewrite (N3 b I) in S. discriminate.
    + rewrite (N4 b I) in S. discriminate.
  - destruct (lookup (c_statics k) n) as [ps|]; [|destruct M5]. split; [discriminate|]. intros H. exfalso.
    exact (H x I (IsStatic os) X).
Qed.

(** ** Calls *)

Lemma call_first : forall level (accepts : level -> Z -> bool) l ls os more o,
  first_accepting (accepts l) os = Some o -> call accepts (l :: ls) (os ++ more) = Some o.
Proof. intros level accepts l ls os more o E. cbn [call]. unfold first_accepting in *. now rewrite find_app, E. Qed.

Lemma overloads_split : forall own e b l n, (forall x, In x e -> lookup (own x) n = None) ->
  all_overloads own (e ++ b :: l) n =
  match lookup (own b) n with Some os => os | None => nil end ++ all_overloads own l n.
Proof.
  intros own e b l n H. induction e as [|x e IH]; [reflexivity|]. cbn [app].
  change (all_overloads own (x :: e ++ b :: l) n) with
    (match lookup (own x) n with Some os => os | None => nil end ++ all_overloads own (e ++ b :: l) n).
  rewrite (H x (or_introl eq_refl)). cbn [app]. apply IH. intros y I. apply H. now right.
Qed.

Lemma call_spec : forall level (accepts : level -> Z -> bool) ls os,
  match call accepts ls os with
  | Some o => exists before l after earlier later, ls = before ++ l :: after /\ os = earlier ++ o :: later /\
                accepts l o = true /\ (forall x, In x earlier -> accepts l x = false) /\
                forall m x, In m before -> In x os -> accepts m x = false
  | None => forall l o, In l ls -> In o os -> accepts l o = false
  end.
Proof.
  intros level accepts ls os. induction ls as [|l ls IH]; cbn [call]; [intros l o []|].
  assert (FS : match find (accepts l) os with
               | Some o => exists e la, os = e ++ o :: la /\ accepts l o = true /\ forall x, In x e -> accepts l x = false
               | None => forall x, In x os -> accepts l x = false end).
  { clear. induction os as [|x os IH]; cbn [find]; [intros x []|]. destruct (accepts l x) eqn:A.
    - exists nil, os. split; [reflexivity|]. split; [exact A|]. intros y [].
    - destruct (find (accepts l) os) as [o|].
      + destruct IH as (e & la & -> & B & F). exists (x :: e), la. split; [reflexivity|]. split; [exact B|].
        intros y [<-|I]; auto.
      + intros y [<-|I]; auto. }
  unfold first_accepting. destruct (find (accepts l) os) as [o|].
  - destruct FS as (e & la & D & A & F). exists nil, l, ls, e, la. split; [reflexivity|]. split; [exact D|]. split; [exact A|].
    split; [exact F|]. intros m x [].
  - destruct (call accepts ls os) as [o|].
    + destruct IH as (bf & m & af & e & la & -> & D & A & F & B). exists (l :: bf), m, af, e, la. split; [reflexivity|].
      split; [exact D|]. split; [exact A|]. split; [exact F|]. intros m' x [<-|I]; eauto.
    + intros m x [<-|I]; eauto.
Qed.

Lemma overloads_place : forall own bodies n earlier o later, all_overloads own bodies n = earlier ++ o :: later ->
  exists e b la os1 os2, bodies = e ++ b :: la /\ lookup (own b) n = Some (os1 ++ o :: os2) /\
    (forall x, In x os1 -> In x earlier) /\
    (forall b' os x, In b' e -> lookup (own b') n = Some os -> In x os -> In x earlier).
Proof.
  intros own bodies n. induction bodies as [|b bodies IH]; intros earlier o later E; [destruct earlier; discriminate|].
  change (all_overloads own (b :: bodies) n) with
    (match lookup (own b) n with Some os => os | None => nil end ++ all_overloads own bodies n) in E.
  remember (match lookup (own b) n with Some os => os | None => nil end) as mine eqn:EM.
  assert (H : forall mine earlier, mine ++ all_overloads own bodies n = earlier ++ o :: later ->
    (exists os2, mine = earlier ++ o :: os2) \/
    (exists e2, earlier = mine ++ e2 /\ all_overloads own bodies n = e2 ++ o :: later)).
  { clear. induction mine as [|x mine IH]; intros earlier E.
    - right. exists earlier. split; [reflexivity|exact E].
    - destruct earlier as [|y earlier]; cbn in E; injection E as -> E.
      + left. exists mine. reflexivity.
      + destruct (IH _ E) as [(os2 & ->)|(e2 & -> & F)]; [left; now exists os2|right; now exists e2]. }
  destruct (H _ _ E) as [(os2 & EQ)|(e2 & -> & F)].
  - exists nil, b, bodies, earlier, os2. split; [reflexivity|]. split.
    + rewrite EQ in EM. destruct (lookup (own b) n) as [os|]; [now subst|]. destruct earlier; discriminate.
    + split; [auto|]. intros ? ? ? [].
  - destruct (IH _ _ _ F) as (e & b0 & la & os1 & os2 & -> & L & I1 & I2).
    exists (b :: e), b0, la, os1, os2. split; [reflexivity|]. split; [exact L|]. split.
    + intros x I. apply in_or_app. right. now apply I1.
    + intros b' os x [<-|I] X J; [rewrite X in EM; subst mine; apply in_or_app; now left|].
      apply in_or_app. right. eapply I2; eauto.
Qed.

Lemma overloads_in : forall own bodies n b os x, In b bodies -> lookup (own b) n = Some os -> In x os ->
  In x (all_overloads own bodies n).
Proof. intros own bodies n b os x I E J. unfold all_overloads. apply in_flat_map. exists b. split; [exact I|]. now rewrite E. Qed.

Lemma call_runs : forall level (accepts : level -> Z -> bool) levels own bodies n,
  match call accepts levels (all_overloads own bodies n) with
  | Some o => runs accepts levels own bodies n o
  | None => forall l b os o, In l levels -> In b bodies -> lookup (own b) n = Some os -> In o os -> accepts l o = false
  end.
Proof.
  intros level accepts levels own bodies n. assert (H := call_spec level accepts levels (all_overloads own bodies n)).
  destruct (call accepts levels (all_overloads own bodies n)) as [o|].
  - destruct H as (bf & l & af & e & la & EL & EO & A & F & B).
    destruct (overloads_place own bodies n e o la EO) as (e2 & b & la2 & os1 & os2 & EB & L & I1 & I2).
    exists bf, l, af, e2, b, la2, os1, os2. split; [exact EL|]. split; [exact EB|]. split; [exact L|]. split; [exact A|].
    split; [intros x I; apply F; now apply I1|]. split.
    + intros b' os x I X J. apply F. eapply I2; eauto.
    + intros m b' os x IM I X J. eapply B; [exact IM|]. eapply overloads_in; eauto.
  - intros l b os o IL IB E J. eapply H; [exact IL|]. eapply overloads_in; eauto.
Qed.

(** ** Attributes of the class itself *)

Lemma class_attribute_right : forall es c n kd, no_base_twice es -> well_formed_program es ->
  let w := history es in
  one_kind (searched w c) n kd -> kd <> KMember -> kd <> KProperty ->
  get_class_attribute w c n = get_attribute w c n.
Proof.
  intros es c n kd F P w OK K1 K2. destruct (history_merged es F P) as (M & W). assert (MM := history_members es F).
  fold w in M, W, MM. unfold searched, get_attribute, get_class_attribute in *. destruct (nth_error w c) as [k|] eqn:NC; [|reflexivity].
  destruct (M c k NC n) as (M1 & M2 & M3 & M4 & M5). set (bodies := bodies_of w (c_mro k)) in *.
  assert (NM : forall x, In x bodies -> ~ In n (map m_name (b_members x))).
  { intros x I Q. apply K1. symmetry. exact (OK x IsMember I Q). }
  assert (MI := member_index_right (c_members k) n). destruct (member_index (c_members k) n) as [i|].
  { exfalso. destruct MI as (y & Y & E). apply nth_error_In in Y. apply (MM c k NC y) in Y. destruct Y as (a & ka & IA & Y & J).
    apply (NM (c_body ka)); [apply in_bodies; eauto|]. rewrite <- E. now apply in_map. }
  assert (OBJ : lookup (c_classmembers k) n <> None -> kd = KObject).
  { rewrite M4. assert (FO := first_object bodies n). destruct (fold_right _ None bodies) as [o|]; [|congruence]. intros _.
    destruct FO as (e2 & b2 & l2 & D2 & S2 & O2). assert (I2 : In b2 bodies) by (rewrite D2; apply in_or_app; right; now left).
    symmetry. apply (OK b2 (IsObject o) I2). split; [now apply NM|exact O2]. }
  assert (FUN : forall own (mk : list Z -> meaning) kk, (forall os, kind_of (mk os) = kk) ->
            (forall b os, lookup (own b) n = Some os -> said b n (mk os)) -> inherited own bodies n <> None -> kd = kk).
  { intros own mk kk HK HS NN. destruct (inherited_right own bodies n) as [(Q & _)|(_ & x & os & I & X)]; [congruence|].
    rewrite <- (HK os). symmetry. apply (OK x (mk os) I). now apply HS. }
  assert (ME : lookup (c_methods k) n <> None -> kd = KMethod)
    by (rewrite M1; apply (FUN b_methods IsMethod); auto).
  assert (PR : lookup (c_properties k) n = None).
  { rewrite M2. destruct (inherited b_properties bodies n) as [os|] eqn:E; [|reflexivity]. exfalso. apply K2.
    apply (FUN b_properties IsProperty); auto. congruence. }
  assert (CM : lookup (c_classmethods k) n <> None -> kd = KClassMethod)
    by (rewrite M3; apply (FUN b_classmethods IsClassMethod); auto).
  assert (ST : lookup (c_statics k) n <> None -> kd = KStatic).
  { intros X. apply (FUN b_statics IsStatic); auto. destruct (lookup (c_statics k) n); [|congruence].
    destruct (inherited b_statics bodies n); [congruence|destruct M5]. }
  rewrite PR. clear - OBJ ME CM ST.
  destruct (lookup (c_methods k) n); destruct (lookup (c_classmethods k) n); destruct (lookup (c_statics k) n);
    destruct (lookup (c_classmembers k) n); cbn [option_map]; try reflexivity; exfalso;
    repeat match goal with
    | H : Some ?x <> None -> _ |- _ => specialize (H ltac:(congruence))
    end; congruence.
Qed.
