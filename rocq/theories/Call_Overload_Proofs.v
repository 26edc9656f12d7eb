(** Proofs about converting the arguments, choosing an overload, and binding in compiled code. *)
From Coq Require Import List.
From Verif Require Import Base Call_Model Call_Spec Compress_Proofs Call_Proofs.
From Coq Require Import ZifyBool ZifyNat.
Open Scope nat_scope.
Open Scope result_scope.

Section Values.
Context {V T : Type}.
Notation sig := (signature V T).

Lemma Forall2_length {A B} (P : A -> B -> Prop) l l' : Forall2 P l l' -> length l = length l'.
Proof. intros H; induction H; cbn [length]; congruence. Qed.

Section Conversion.
Context {level : Type} (exact : T -> V -> bool) (convert : T -> V -> level -> option V) (could_be : T -> V -> level -> bool).
Notation coerce := (coerce V T level exact convert).
Notation coerce_all := (coerce_all V T level exact convert).
Notation apply_coercion := (apply_coercion V T level exact convert).
Notation converts := (converts exact convert).
Notation converted := (converted exact convert).
Notation accepts := (accepts exact convert).

(** ** Conversion *)
Lemma coerce_spec t l v v' : coerce t l v = Some v' <-> converts t l v v'.
Proof.
  unfold Call_Model.coerce, Call_Spec.converts. destruct t as [t|]; [destruct (exact t v)|]; split; congruence.
Qed.
Lemma coerce_all_spec t l vs vs' : coerce_all t l vs = Some vs' <-> Forall2 (converts t l) vs vs'.
Proof.
  revert vs'; induction vs as [|v vs IH]; intros vs'; cbn [Call_Model.coerce_all].
  - split; [intros [= <-]; constructor|]. intros H. now inversion H.
  - split.
    + destruct (coerce t l v) as [w|] eqn:E; [|discriminate]. destruct (coerce_all t l vs) as [ws|] eqn:F; [|discriminate].
      intros [= <-]. constructor; [now apply coerce_spec|now apply IH].
    + intros H. inversion H as [|? w ? ws Hv Hs]; subst. apply coerce_spec in Hv as ->. apply IH in Hs as ->. reflexivity.
Qed.
Fixpoint coerce_list (ts : list (option T)) (l : level) (vs : list V) : option (list V) :=
  match ts, vs with
  | t :: ts, v :: vs => match coerce t l v, coerce_list ts l vs with Some v, Some vs => Some (v :: vs) | _, _ => None end
  | _, _ => Some []
  end.
Lemma coerce_list_spec ns (f : name -> option T) l vs vs' : length vs = length ns ->
  coerce_list (map f ns) l vs = Some vs' <->
  Forall2 (fun n w => converts (f n) l (fst w) (snd w)) ns (combine vs vs') /\ length vs' = length vs.
Proof.
  revert vs vs'; induction ns as [|n ns IH]; intros [|v vs] vs' L; try discriminate; cbn [map coerce_list].
  - split; [intros [= <-]; split; [constructor|reflexivity]|]. intros [_ E]. destruct vs'; [reflexivity|discriminate].
  - split.
    + destruct (coerce (f n) l v) as [w|] eqn:E; [|discriminate]. destruct (coerce_list (map f ns) l vs) as [ws|] eqn:F; [|discriminate].
      intros [= <-]. apply IH in F as [F1 F2]; [|cbn [length] in L; lia]. split; [|cbn [length]; lia].
      cbn [combine]. constructor; [cbn [fst snd]; now apply coerce_spec|assumption].
    + intros [H L']. destruct vs' as [|w ws]; [discriminate|]. cbn [combine] in H. inversion H as [|? ? ? ? H1 H2]; subst.
      cbn [fst snd] in H1. apply coerce_spec in H1 as ->.
      assert (coerce_list (map f ns) l vs = Some ws) as ->; [|reflexivity].
      apply IH; [cbn [length] in L; lia|]. split; [assumption|]. cbn [length] in L'. lia.
Qed.
Lemma coerce_all_none l vs : coerce_all None l vs = Some vs.
Proof. induction vs as [|v vs IH]; [reflexivity|]. cbn [Call_Model.coerce_all Call_Model.coerce]. now rewrite IH. Qed.
Lemma combine_fst_snd (kws : list (name * V)) : combine (map fst kws) (map snd kws) = kws.
Proof. induction kws as [|[n v] kws IH]; [reflexivity|]. cbn [map combine fst snd]. now rewrite IH. Qed.
Lemma apply_coercion_all (s : sig) P l vs star kws : length vs = length P ->
  apply_coercion (map (mk s) P ++ rest_params s) l (map Some vs ++ repeat None (length (rest_params s))) star kws =
  match coerce_list (map (s_annotation _ _ s) (map fst P)) l vs, coerce_all (annotation_of s (s_varargs _ _ s)) l star,
        coerce_all (annotation_of s (s_varkw _ _ s)) l (map snd kws) with
  | Some vs', Some star', Some ws => Some (map Some vs' ++ repeat None (length (rest_params s)), star', combine (map fst kws) ws)
  | _, _, _ => None
  end.
Proof.
  revert vs; induction P as [|q P IH]; intros [|v vs] L; try discriminate.
  - cbn [map app coerce_list]. unfold rest_params, star_param, kw_param, annotation_of.
    destruct (s_varargs _ _ s), (s_varkw _ _ s); cbn [app length repeat Call_Model.apply_coercion p_kind p_filter];
      rewrite ?coerce_all_none, ?combine_fst_snd; try reflexivity.
    + destruct (coerce_all (s_annotation _ _ s _) l star); [|reflexivity].
      destruct (coerce_all (s_annotation _ _ s _) l (map snd kws)); reflexivity.
  - cbn [map app Call_Model.apply_coercion mk p_kind p_filter coerce_list].
    rewrite IH by (cbn [length] in L; lia).
    destruct (coerce (s_annotation _ _ s (fst q)) l v); [|reflexivity].
    destruct (coerce_list _ l vs); [|reflexivity].
    destruct (coerce_all (annotation_of s (s_varargs _ _ s)) l star); [|reflexivity].
    destruct (coerce_all (annotation_of s (s_varkw _ _ s)) l (map snd kws)); reflexivity.
Qed.
Lemma doesnt_match_all (s : sig) P l vs : could_be_sound exact convert could_be -> length vs = length P ->
  (exists vs', coerce_list (map (s_annotation _ _ s) (map fst P)) l vs = Some vs') ->
  doesnt_match V T level could_be (map (mk s) P ++ rest_params s) l (map Some vs ++ repeat None (length (rest_params s))) = false.
Proof.
  intros CB. revert vs; induction P as [|q P IH]; intros [|v vs] L [vs' E]; try discriminate.
  - cbn [map app]. unfold rest_params, star_param, kw_param. destruct (s_varargs _ _ s), (s_varkw _ _ s); reflexivity.
  - cbn [map coerce_list] in E.
    destruct (coerce (s_annotation _ _ s (fst q)) l v) as [w|] eqn:C; [|discriminate].
    destruct (coerce_list _ l vs) as [ws|] eqn:F; [|discriminate].
    cbn [map app doesnt_match mk p_kind p_filter].
    assert (doesnt_match V T level could_be (map (mk s) P ++ rest_params s) l (map Some vs ++ repeat None (length (rest_params s))) = false) as X.
    { apply IH; [cbn [length] in L; lia|]. eauto. }
    destruct (s_annotation _ _ s (fst q)) as [t|]; [|exact X].
    apply coerce_spec, CB in C. rewrite C. exact X.
Qed.

(** ** One overload *)
Lemma bound_all_some pos kw (P : list (name * option V)) vs : bound pos kw P = map Some vs -> length vs = length P.
Proof. intros E. apply (f_equal (@length _)) in E. rewrite bound_length, map_length in E. auto. Qed.
Lemma map_fst_combine {A B} (l : list A) (m : list B) : length l = length m -> map fst (combine l m) = l.
Proof. revert m; induction l as [|x l IH]; intros [|y m] L; try discriminate; [reflexivity|]. cbn [combine map fst]. f_equal. apply IH. cbn in L; lia. Qed.
Lemma forall2_map_snd (R : V -> V -> Prop) (kws : list (name * V)) ws : Forall2 R (map snd kws) ws ->
  Forall2 (fun a a' => fst a' = fst a /\ R (snd a) (snd a')) kws (combine (map fst kws) ws).
Proof.
  revert ws; induction kws as [|[n v] kws IH]; intros ws H; inversion H; subst; cbn [map combine]; constructor; auto.
Qed.
Lemma forall2_fst (R : V -> V -> Prop) (kws kws' : list (name * V)) :
  Forall2 (fun a a' => fst a' = fst a /\ R (snd a) (snd a')) kws kws' ->
  Forall2 R (map snd kws) (map snd kws') /\ kws' = combine (map fst kws) (map snd kws').
Proof.
  intros H; induction H as [|[n v] [m w] kws kws' [E1 E2] H IH]; [split; constructor|].
  cbn [fst snd] in *. subst m. destruct IH as [I1 I2]. split; cbn [map combine fst snd]; [constructor; auto|]. now rewrite <- I2.
Qed.
Section Overload.
Variables (s : sig) (self : option V) (pos : list V) (kw : list (name * V)) (l : level).
Hypotheses (PL : plain s) (WF : well_formed s) (DK : distinct_keywords kw) (PK : plain_keywords kw)
  (CB : could_be_sound exact convert could_be).
Let all := match self with Some v => v :: pos | None => pos end.
Notation try := (try_overload V T level exact convert could_be (params_of s) self pos kw l).

Lemma no_star : call_ok s all kw = true -> s_varargs _ _ s = None -> skipn (length (parameters s)) all = [].
Proof.
  intros C E. unfold call_ok in C. rewrite !andb_true_iff, orb_true_iff in C. destruct C as [[[C|C] _] _].
  - apply Nat.leb_le in C. now apply skipn_all2.
  - unfold takes_star in C. rewrite E in C. discriminate.
Qed.
Lemma no_extra : call_ok s all kw = true -> s_varkw _ _ s = None -> others s kw = [].
Proof.
  intros C E. unfold call_ok in C. rewrite !andb_true_iff in C. destruct C as [[_ C] _].
  destruct (others s kw) as [|[n v] o] eqn:O; [reflexivity|exfalso].
  assert (In (n, v) (others s kw)) as I by (rewrite O; now left).
  pose proof (proj2 (others_facts s kw DK) _ _ I) as N. unfold others in I. apply filter_In in I as [I _].
  unfold keyword_ok in C. rewrite forallb_forall in C. specialize (C _ I). cbn [fst] in C.
  apply index_of_none in N. rewrite N in C. unfold takes_keywords in C. rewrite E in C. discriminate.
Qed.
Lemma python_binds_unique b1 b2 : python_binds s all kw b1 -> python_binds s all kw b2 -> b1 = b2.
Proof.
  intros H1 H2. apply (python_binds_plain _ _ _ _ PL (well_formed_names _ WF)) in H1, H2.
  destruct H1 as [_ [A1 [A2 [A3 A4]]]], H2 as [_ [B1 [B2 [B3 B4]]]].
  assert (b_values b1 = b_values b2) as X.
  { rewrite A1 in B1. revert B1. generalize (b_values b1) (b_values b2). clear.
    intros l1; induction l1 as [|x l1 IH]; intros [|y m]; cbn [map]; try discriminate; [auto|]. intros [= -> E]. f_equal. auto. }
  destruct b1, b2; cbn in *. congruence.
Qed.

Lemma accepts_shape b : accepts s all kw l b -> python_binds s (fst (flat b)) (snd (flat b)) b.
Proof.
  intros [b0 [H [[CV CL] CS CE CK]]]. apply (python_binds_plain _ _ _ _ PL (well_formed_names _ WF)) in H as [C [A1 [A2 [A3 A4]]]].
  apply python_binds_flat; auto using well_formed_names.
  - rewrite CL. now apply bound_all_some in A1.
  - congruence.
  - intros E. rewrite A2 in CS. rewrite (no_star C E) in CS. now inversion CS.
  - intros E. rewrite A4 in CE. rewrite (no_extra C E) in CE. now inversion CE.
  - intros n v I. apply forall2_fst in CE as [_ CE]. rewrite CE, A4 in I. apply in_combine_l in I. apply in_map_iff in I as [[m w] [<- I]].
    exact (proj2 (others_facts s kw DK) _ _ I).
Qed.
Lemma try_overload_spec :
  match try with
  | Some r => exists b, r = Ok (flat b) /\ accepts s all kw l b /\ (forall b', accepts s all kw l b' -> b' = b)
  | None => forall b, ~ accepts s all kw l b
  end.
Proof.
  pose proof (push_arguments_all s self pos kw (well_formed_names _ WF) DK PK) as [VA PA]. cbv zeta in VA, PA. fold all in VA, PA.
  unfold try_overload. set (m := push_arguments V T (params_of s) self pos kw) in *. rewrite VA.
  destruct (call_ok s all kw) eqn:C; cbn [negb].
  2:{ intros b [b0 [H _]]. apply (python_binds_plain _ _ _ _ PL (well_formed_names _ WF)) in H as [C' _]. congruence. }
  destruct (PA eq_refl) as [-> [-> ->]]. clear VA PA m.
  assert (exists vs, bound all kw (parameters s) = map Some vs) as [vs E].
  { apply all_some. unfold call_ok in C. rewrite !andb_true_iff in C. apply C. }
  pose proof (bound_all_some _ _ _ _ E) as L. rewrite E.
  assert (forall b0, python_binds s all kw b0 -> b0 = {| b_values := vs; b_star := skipn (length (parameters s)) all; b_kwonly := []; b_extra := others s kw |}) as U.
  { intros b0 H. eapply python_binds_unique; [exact H|]. apply (python_binds_plain _ _ _ _ PL (well_formed_names _ WF)). cbn. auto. }
  assert (python_binds s all kw {| b_values := vs; b_star := skipn (length (parameters s)) all; b_kwonly := []; b_extra := others s kw |}) as PB.
  { apply (python_binds_plain _ _ _ _ PL (well_formed_names _ WF)). cbn. auto. }
  unfold params_of. fold (rest_params s).
  rewrite apply_coercion_all by assumption.
  assert (length vs = length (map fst (parameters s))) as Ln by (rewrite map_length; assumption).
  destruct (coerce_list (map (s_annotation _ _ s) (map fst (parameters s))) l vs) as [vs'|] eqn:CL.
  2:{ destruct (doesnt_match _ _ _ _ _ _ _).
      all: intros b [b0 [H [CV _ _ _]]]; rewrite (U _ H) in CV; cbn [b_values] in CV; apply (coerce_list_spec _ _ _ _ _ Ln) in CV; congruence. }
  rewrite doesnt_match_all by eauto.
  destruct (coerce_all (annotation_of s (s_varargs _ _ s)) l _) as [star'|] eqn:CS.
  2:{ intros b [b0 [H [_ CV _ _]]]. rewrite (U _ H) in CV. cbn [b_star] in CV. apply coerce_all_spec in CV. congruence. }
  destruct (coerce_all (annotation_of s (s_varkw _ _ s)) l _) as [ws|] eqn:CE.
  2:{ intros b [b0 [H [_ _ CV _]]]. rewrite (U _ H) in CV. cbn [b_extra] in CV. apply forall2_fst in CV as [CV _]. apply coerce_all_spec in CV. congruence. }
  pose proof (proj1 (coerce_list_spec _ _ _ _ _ Ln) CL) as [CL1 CL2].
  pose proof (proj1 (coerce_all_spec _ _ _ _) CS) as CS1.
  pose proof (proj1 (coerce_all_spec _ _ _ _) CE) as CE1.
  set (b := {| b_values := vs'; b_star := star'; b_kwonly := []; b_extra := combine (map fst (others s kw)) ws |}).
  assert (accepts s all kw l b) as AC.
  { eexists. split; [exact PB|]. constructor; cbn [b_values b_star b_kwonly b_extra b]; auto.
    now apply forall2_map_snd. }
  exists b. split; [|split; [exact AC|]].
  - rewrite positional_tuple_all.
    + cbn [bind]. unfold flat. cbn [b_values b_star b_extra b]. do 2 f_equal. apply (keyword_dict_all s).
      * assert (length ws = length (others s kw)) as Lw by (apply Forall2_length in CE1; rewrite map_length in CE1; auto).
        rewrite map_fst_combine by (rewrite map_length; auto). apply others_facts. exact DK.
      * intros X. now rewrite (no_extra C X).
    + now rewrite CL2.
    + intros X. rewrite (no_star C X) in CS1. now inversion CS1.
  - intros b' [b0 [H [[CV1 CV2] CS' CE' CK]]]. rewrite (U _ H) in *. cbn [b_values b_star b_kwonly b_extra] in *.
    assert (b_values b' = vs') as X1.
    { pose proof (proj2 (coerce_list_spec _ _ _ _ _ Ln) (conj CV1 CV2)). congruence. }
    apply coerce_all_spec in CS'. apply forall2_fst in CE' as [CE' X4]. apply coerce_all_spec in CE'.
    destruct b' as [bv bs bk be]; cbn [b_values b_star b_kwonly b_extra] in *. unfold b. subst bk bv.
    assert (bs = star') as -> by congruence. assert (map snd be = ws) as X5 by congruence. rewrite X5 in X4. now rewrite X4.
Qed.
End Overload.

(** ** All overloads *)
Section Overloads.
Variables (os : list sig) (self : option V) (pos : list V) (kw : list (name * V)).
Hypotheses (PL : Forall plain os) (WF : Forall well_formed os) (DK : distinct_keywords kw) (PK : plain_keywords kw)
  (CB : could_be_sound exact convert could_be).
Let all := match self with Some v => v :: pos | None => pos end.

Lemma first_overload_spec l os' k0 : incl os' os ->
  match first_overload V T level exact convert could_be k0 (map params_of os') self pos kw l with
  | Some (k, r) => exists j s b, k = k0 + j /\ nth_error os' j = Some s /\ accepts s all kw l b /\ r = Ok (flat b) /\
                     (forall b', accepts s all kw l b' -> b' = b) /\
                     (forall m s' b', nth_error os' m = Some s' -> accepts s' all kw l b' -> j <= m)
  | None => forall m s' b', nth_error os' m = Some s' -> ~ accepts s' all kw l b'
  end.
Proof.
  revert k0; induction os' as [|s os' IH]; intros k0 I; cbn [map first_overload].
  - intros [|m] s' b'; discriminate.
  - assert (plain s) as Ps by (rewrite Forall_forall in PL; apply PL, I; now left).
    assert (well_formed s) as Ws by (rewrite Forall_forall in WF; apply WF, I; now left).
    pose proof (try_overload_spec s self pos kw l Ps Ws DK PK CB) as Ht. fold all in Ht.
    destruct (try_overload _ _ _ _ _ _ _ _ _ _ _) as [r|].
    + destruct Ht as [b [-> [A U]]]. exists 0, s, b. rewrite Nat.add_0_r. repeat split; auto. intros; lia.
    + assert (incl os' os) as I' by (intros x Hx; apply I; now right).
      specialize (IH (S k0) I'). destruct (first_overload _ _ _ _ _ _ _ _ _ _ _ _) as [[k r]|].
      * destruct IH as [j [s' [b [-> [N [A [R [U F]]]]]]]]. exists (S j), s', b. repeat split; auto; [lia|].
        intros [|m] s2 b' Nm Am; cbn in Nm; [injection Nm as <-; exfalso; exact (Ht _ Am)|]. specialize (F _ _ _ Nm Am); lia.
      * intros [|m] s' b' Nm; cbn in Nm; [injection Nm as <-; apply Ht|]. eapply IH; eauto.
Qed.
Lemma call_any_spec ls :
  match call_any V T level exact convert could_be ls (map params_of os) self pos kw with
  | Ok (k, a) => exists i b, first_accepting exact convert ls os all kw i k b /\ a = flat b
  | Err e => e = TypeError /\ forall l s b, In l ls -> In s os -> ~ accepts s all kw l b
  end.
Proof.
  induction ls as [|l ls IH]; cbn [call_any]; [split; auto|].
  pose proof (first_overload_spec l os 0 (incl_refl _)) as F.
  destruct (first_overload _ _ _ _ _ _ _ _ _ _ _ _) as [[k r]|].
  - destruct F as [j [s [b [-> [N [A [-> [U F]]]]]]]]. cbn [bind Nat.add]. exists 0, b. split; [|reflexivity].
    split; [exists l, s; auto|]. intros [|i] m l' s' b' Nl Ns A'; [|lia]. cbn in Nl. injection Nl as <-. right. eauto.
  - destruct (call_any _ _ _ _ _ _ _ _ _ _ _) as [[k a]|e].
    + destruct IH as [i [b [[[l' [s [Nl [Ns A]]]] H] ->]]]. exists (S i), b. split; [|reflexivity].
      split; [exists l', s; auto|]. intros [|j] m l2 s2 b2 N2 M2 A2; cbn in N2.
      * injection N2 as <-. exfalso. eapply F; eauto.
      * specialize (H _ _ _ _ _ N2 M2 A2). lia.
    + destruct IH as [-> H]. split; [reflexivity|]. intros l' s b [<-|I] Is; [|eauto].
      apply In_nth_error in Is as [m Nm]. eapply F; eauto.
Qed.
Lemma first_accepting_unique ls i k b i' k' b' :
  first_accepting exact convert ls os all kw i k b -> first_accepting exact convert ls os all kw i' k' b' -> i = i' /\ k = k' /\ b = b'.
Proof.
  intros [[l [s [Nl [Ns A]]]] H] [[l' [s' [Nl' [Ns' A']]]] H'].
  pose proof (H _ _ _ _ _ Nl' Ns' A') as H1. pose proof (H' _ _ _ _ _ Nl Ns A) as H2.
  assert (i = i') as <- by lia. assert (k = k') as <- by lia. repeat split.
  assert (s' = s) as -> by congruence. assert (l' = l) as -> by congruence.
  assert (plain s) as Ps by (rewrite Forall_forall in PL; apply PL; eapply nth_error_In; eauto).
  assert (well_formed s) as Ws by (rewrite Forall_forall in WF; apply WF; eapply nth_error_In; eauto).
  pose proof (try_overload_spec s self pos kw l Ps Ws DK PK CB) as Ht. fold all in Ht.
  destruct (try_overload _ _ _ _ _ _ _ _ _ _ _) as [r|]; [|exfalso; eapply Ht; eauto].
  destruct Ht as [b0 [_ [_ U]]]. rewrite (U _ A), (U _ A'). reflexivity.
Qed.
Lemma call_any_iff ls k a :
  call_any V T level exact convert could_be ls (map params_of os) self pos kw = Ok (k, a) <->
  exists i b, first_accepting exact convert ls os all kw i k b /\ a = flat b.
Proof.
  pose proof (call_any_spec ls) as H. split.
  - intros E. rewrite E in H. exact H.
  - intros [i [b [F ->]]]. destruct (call_any _ _ _ _ _ _ _ _ _ _ _) as [[k' a']|e].
    + destruct H as [i' [b' [F' ->]]]. destruct (first_accepting_unique _ _ _ _ _ _ _ F F') as [_ [<- <-]]. reflexivity.
    + destruct H as [_ H]. destruct F as [[l [s [Nl [Ns A]]]] _]. exfalso. eapply H; eauto using nth_error_In.
Qed.
Lemma call_any_fails ls : call_any V T level exact convert could_be ls (map params_of os) self pos kw = Err TypeError <->
  forall l s b, In l ls -> In s os -> ~ accepts s all kw l b.
Proof.
  pose proof (call_any_spec ls) as H. destruct (call_any _ _ _ _ _ _ _ _ _ _ _) as [[k a]|e].
  - split; [discriminate|]. intros N. destruct H as [i [b [[[l [s [Nl [Ns A]]]] _] _]]]. exfalso. eapply N; eauto using nth_error_In.
  - destruct H as [-> H]. split; auto.
Qed.

(** ** The choice in compiled code *)
Variables (might : level -> sig -> answer) (test : level -> sig -> bool).
Definition answers_right (ls : list level) : Prop :=
  (forall l s, In l ls -> In s os -> might l s = No -> forall b, ~ accepts s all kw l b) /\
  (forall l s, In l ls -> In s os -> might l s = Yes -> exists b, accepts s all kw l b) /\
  (forall l s, In l ls -> In s os -> test l s = true <-> exists b, accepts s all kw l b).
Lemma choice_at_spec l os' k0 next : incl os' os -> answers_right [l] ->
  match compiled_choice_at (might l) (test l) k0 os' next with
  | r => (exists j s b, r = Ok (k0 + j) /\ nth_error os' j = Some s /\ accepts s all kw l b /\
            (forall m s' b', nth_error os' m = Some s' -> accepts s' all kw l b' -> j <= m)) \/
         r = next /\ (forall m s' b', nth_error os' m = Some s' -> ~ accepts s' all kw l b')
  end.
Proof.
  intros I [HN [HY HT]]. revert k0; induction os' as [|s os' IH]; intros k0; cbn [compiled_choice_at].
  - right. split; [reflexivity|]. intros [|m] s' b'; discriminate.
  - assert (In s os) as Is by (apply I; now left).
    assert (incl os' os) as I' by (intros x Hx; apply I; now right).
    specialize (HN l s (or_introl eq_refl) Is). specialize (HY l s (or_introl eq_refl) Is). specialize (HT l s (or_introl eq_refl) Is).
    assert ((exists b, accepts s all kw l b) ->
            exists j s0 b, Ok k0 = Ok (k0 + j) /\ nth_error (s :: os') j = Some s0 /\ accepts s0 all kw l b /\
            (forall m s' b', nth_error (s :: os') m = Some s' -> accepts s' all kw l b' -> j <= m)) as H0.
    { intros [b A]. exists 0, s, b. rewrite Nat.add_0_r. repeat split; auto. intros; lia. }
    assert ((forall b, ~ accepts s all kw l b) -> let r := compiled_choice_at (might l) (test l) (S k0) os' next in
      (exists j s0 b, r = Ok (k0 + j) /\ nth_error (s :: os') j = Some s0 /\ accepts s0 all kw l b /\
            (forall m s' b', nth_error (s :: os') m = Some s' -> accepts s' all kw l b' -> j <= m)) \/
         r = next /\ (forall m s' b', nth_error (s :: os') m = Some s' -> ~ accepts s' all kw l b')) as H1.
    { intros NA. cbv zeta. destruct (IH I' (S k0)) as [[j [s0 [b [-> [N [A F]]]]]]|[-> F]].
      - left. exists (S j), s0, b. repeat split; auto; [f_equal; lia|].
        intros [|m] s' b' Nm Am; cbn in Nm; [injection Nm as <-; exfalso; exact (NA _ Am)|]. specialize (F _ _ _ Nm Am); lia.
      - right. split; [reflexivity|]. intros [|m] s' b' Nm; cbn in Nm; [injection Nm as <-; apply NA|]. eapply F; eauto. }
    destruct (might l s).
    + destruct (HY eq_refl) as [b A]. rewrite (proj2 HT) by eauto. left. eauto.
    + destruct (test l s); [left; apply H0; now apply HT|]. apply H1. intros b A. pose proof (proj2 HT (ex_intro _ b A)). discriminate.
    + apply H1. auto.
Qed.
Lemma answers_right_cons l ls : answers_right (l :: ls) -> answers_right [l] /\ answers_right ls.
Proof.
  intros [A [B C]]. split; (split; [|split]); intros; first [eapply A|eapply B|eapply C]; eauto;
    try (destruct H as [<-|[]]; now left); now right.
Qed.
Lemma compiled_choice_spec ls : answers_right ls ->
  match compiled_choice level might test ls os with
  | Ok k => exists i b, first_accepting exact convert ls os all kw i k b
  | Err e => e = TypeError /\ forall l s b, In l ls -> In s os -> ~ accepts s all kw l b
  end.
Proof.
  induction ls as [|l ls IH]; intros AR; cbn [compiled_choice]; [split; auto|].
  apply answers_right_cons in AR as [A1 A2]. specialize (IH A2).
  destruct (choice_at_spec l os 0 (compiled_choice level might test ls os) (incl_refl _) A1) as [[j [s [b [-> [N [A F]]]]]]|[-> F]].
  - cbn [Nat.add]. exists 0, b. split; [exists l, s; auto|]. intros [|i] m l' s' b' Nl Ns A'; [|lia]. cbn in Nl. injection Nl as <-. right. eauto.
  - destruct (compiled_choice level might test ls os) as [k|e].
    + destruct IH as [i [b [[l' [s [Nl [Ns A]]]] H]]]. exists (S i), b.
      split; [exists l', s; auto|]. intros [|j] m l2 s2 b2 N2 M2 A2'; cbn in N2.
      * injection N2 as <-. exfalso. eapply F; eauto.
      * specialize (H _ _ _ _ _ N2 M2 A2'). lia.
    + destruct IH as [-> H]. split; [reflexivity|]. intros l' s b [<-|I] Is; [|eauto].
      apply In_nth_error in Is as [m Nm]. eapply F; eauto.
Qed.
Lemma compiled_choice_iff ls k : answers_right ls ->
  compiled_choice level might test ls os = Ok k <-> exists i b, first_accepting exact convert ls os all kw i k b.
Proof.
  intros AR. pose proof (compiled_choice_spec ls AR) as H. split.
  - intros E. rewrite E in H. exact H.
  - intros [i [b F]]. destruct (compiled_choice level might test ls os) as [k'|e].
    + destruct H as [i' [b' F']]. destruct (first_accepting_unique _ _ _ _ _ _ _ F F') as [_ [<- _]]. reflexivity.
    + destruct H as [_ H]. destruct F as [[l [s [Nl [Ns A]]]] _]. exfalso. eapply H; eauto using nth_error_In.
Qed.
(** A single overload that the compiler calls without any test *)
Definition look (l : level) := fix look (k : nat) (rest : list sig) : option (option (nat * level)) :=
  match rest with
  | [] => None
  | o :: rest => match might l o with Yes => Some (Some (k, l)) | Maybe => Some None | No => look (S k) rest end
  end.
Lemma look_spec l os' k0 :
  match look l k0 os' with
  | Some (Some (k, l')) => l' = l /\ exists j s, k = k0 + j /\ nth_error os' j = Some s /\ might l s = Yes /\
      forall m s', m < j -> nth_error os' m = Some s' -> might l s' = No
  | Some None => True
  | None => forall m s', nth_error os' m = Some s' -> might l s' = No
  end.
Proof.
  revert k0; induction os' as [|s os' IH]; intros k0; cbn [look].
  - intros [|m] s'; discriminate.
  - destruct (might l s) eqn:E; [| exact I |].
    + split; [reflexivity|]. exists 0, s. rewrite Nat.add_0_r. repeat split; auto. intros; lia.
    + specialize (IH (S k0)). destruct (look l (S k0) os') as [[[k l']|]|]; [|exact I|].
      * destruct IH as [-> [j [s0 [-> [N [M F]]]]]]. split; [reflexivity|]. exists (S j), s0. repeat split; auto; [lia|].
        intros [|m] s' L Nm; cbn in Nm; [congruence|]. eapply F; [|eauto]. lia.
      * intros [|m] s' Nm; cbn in Nm; [congruence|]. eauto.
Qed.
Lemma single_choice_spec ls k l : answers_right ls -> single_choice level might ls os = Some (k, l) ->
  exists i b, nth_error ls i = Some l /\ first_accepting exact convert ls os all kw i k b.
Proof.
  induction ls as [|l0 ls IH]; intros AR; cbn [single_choice]; [discriminate|].
  change ((fix look (k : nat) (rest : list sig) {struct rest} : option (option (nat * level)) :=
     match rest with
     | [] => None
     | o :: rest0 => match might l0 o with Yes => Some (Some (k, l0)) | Maybe => Some None | No => look (S k) rest0 end
     end) 0 os) with (look l0 0 os).
  pose proof (look_spec l0 os 0) as L. pose proof AR as [HN [HY _]]. apply answers_right_cons in AR as [_ AR].
  destruct (look l0 0 os) as [[[k' l']|]|].
  - intros [= -> ->]. destruct L as [-> [j [s [-> [N [M F]]]]]]. cbn [Nat.add].
    destruct (HY l0 s (or_introl eq_refl) (nth_error_In _ _ N) M) as [b A]. exists 0, b. split; [reflexivity|].
    split; [exists l0, s; auto|]. intros [|i] m l' s' b' Nl Ns A'; [|lia]. cbn in Nl. injection Nl as <-. right. split; [reflexivity|].
    destruct (Nat.le_gt_cases j m) as [|G]; [assumption|exfalso]. eapply (HN l0 s'); eauto using nth_error_In. now left.
  - discriminate.
  - intros E. destruct (IH AR E) as [i [b [Ni [[l' [s [Nl [Ns A]]]] H]]]]. exists (S i), b. split; [assumption|].
    split; [exists l', s; auto|]. intros [|j] m l2 s2 b2 N2 M2 A2'; cbn in N2.
    + injection N2 as <-. exfalso. eapply (HN l0 s2); eauto using nth_error_In. now left.
    + specialize (H _ _ _ _ _ N2 M2 A2'). lia.
Qed.
End Overloads.
End Conversion.

(** ** Binding in compiled code *)
Lemma firstn_snoc {A} (l : list A) k x : nth_error l k = Some x -> firstn (S k) l = firstn k l ++ [x].
Proof. revert k; induction l as [|y l IH]; intros [|k] N; try discriminate; cbn in N; [injection N as ->; reflexivity|]. cbn [firstn app]. f_equal. now apply IH. Qed.
Definition outs (n : nat) (done : list V) : list (arg_mapping V) :=
  map (Arg V) (firstn n done) ++ (if n <? length done then [StarArgs V (skipn n done)] else []).
Lemma map_positional_all (s : sig) pos : forall done,
  (length done <= length (parameters s) \/ takes_star s = true) ->
  map_positional V T (params_of s) pos (Nat.min (length (parameters s)) (length done)) (outs (length (parameters s)) done)
    (rev (firstn (length done) (names s))) =
  if (length (done ++ pos) <=? length (parameters s)) || takes_star s
  then Ok (outs (length (parameters s)) (done ++ pos), rev (firstn (length (done ++ pos)) (names s)))
  else Err TypeError.
Proof.
  set (n := length (parameters s)). induction pos as [|a pos IH]; intros done OK; cbn [map_positional].
  - rewrite app_nil_r. replace ((length done <=? n) || takes_star s) with true; [reflexivity|].
    symmetry. apply orb_true_iff. rewrite Nat.leb_le. assumption.
  - replace (done ++ a :: pos) with ((done ++ [a]) ++ pos) by (rewrite <- app_assoc; reflexivity).
    destruct (Nat.lt_ge_cases (length done) n) as [L|L].
    + rewrite Nat.min_r by lia. unfold params_of. rewrite nth_error_app1 by (rewrite map_length; assumption).
      rewrite nth_error_map. destruct (nth_error (parameters s) (length done)) as [q|] eqn:N; [|apply nth_error_None in N; unfold n in L; lia].
      cbn [option_map mk p_kind p_name]. fold (rest_params s). rewrite <- IH by (rewrite app_length; cbn [length]; lia).
      rewrite app_length. cbn [length]. rewrite Nat.min_r by lia. rewrite Nat.add_1_r.
      unfold params_of. fold (rest_params s). f_equal.
      * unfold outs. rewrite app_length. cbn [length]. rewrite !(proj2 (Nat.ltb_ge _ _)) by lia. rewrite !app_nil_r.
        rewrite !firstn_all2 by (rewrite ?app_length; cbn [length]; lia). now rewrite map_app.
      * rewrite (firstn_snoc _ _ (fst q)) by (unfold names; rewrite nth_error_map, N; reflexivity). now rewrite rev_app_distr.
    + rewrite Nat.min_l by lia. unfold params_of. rewrite nth_error_app2 by (rewrite map_length; fold n; lia).
      rewrite map_length. fold n. rewrite Nat.sub_diag. rewrite !app_length. cbn [length].
      assert (length done + 1 + length pos <=? n = false) as -> by (apply Nat.leb_gt; lia). cbn [orb].
      destruct (takes_star s) eqn:TS; unfold takes_star in TS; unfold star_param.
      * specialize (IH (done ++ [a]) (or_intror eq_refl)). rewrite app_length in IH. cbn [length] in IH.
        rewrite orb_true_r, Nat.min_l in IH by lia.
        rewrite (firstn_all2 (n := length done)) by (rewrite names_length; fold n; lia).
        rewrite (firstn_all2 (n := length done + 1)) in IH by (rewrite names_length; fold n; lia).
        rewrite !app_length in IH. cbn [length] in IH.
        unfold params_of, star_param in IH.
        destruct (s_varargs _ _ s) as [st|]; [|discriminate]. cbn [app nth_error p_kind] in *.
        assert (outs n (done ++ [a]) = map (Arg V) (firstn n done) ++ [StarArgs V (skipn n done ++ [a])]) as O.
        { unfold outs. rewrite app_length. cbn [length]. rewrite (proj2 (Nat.ltb_lt _ _)) by lia.
          rewrite firstn_app, skipn_app. replace (n - length done) with 0 by lia. cbn [firstn skipn]. now rewrite app_nil_r. }
        rewrite O in IH.
        destruct (Nat.ltb_spec n (length done)) as [L1|L1].
        -- assert (outs n done = map (Arg V) (firstn n done) ++ [StarArgs V (skipn n done)]) as O1.
           { unfold outs. rewrite (proj2 (Nat.ltb_lt _ _)) by lia. reflexivity. }
           rewrite O1. rewrite app_length, map_length, firstn_length. cbn [length].
           rewrite (proj2 (Nat.leb_gt _ _)) by lia. rewrite rev_app_distr. cbn [rev app]. rewrite rev_involutive. exact IH.
        -- assert (outs n done = map (Arg V) (firstn n done)) as O1.
           { unfold outs. rewrite (proj2 (Nat.ltb_ge _ _)) by lia. apply app_nil_r. }
           rewrite O1. rewrite map_length, firstn_length. rewrite (proj2 (Nat.leb_le _ _)) by lia.
           rewrite (skipn_all2 (n := n) done) in IH by lia. exact IH.
      * destruct (s_varargs _ _ s); [discriminate|]. cbn [app]. unfold kw_param. destruct (s_varkw _ _ s); reflexivity.
Qed.

(** The parameters after the positional arguments *)
Definition rest_arg (kw : list (name * V)) (q : name * option V) : option (arg_mapping V) :=
  match keyword kw (fst q) with Some v => Some (Arg V v) | None => option_map (Constant V) (snd q) end.
Definition arg_value (a : arg_mapping V) : option V := match a with Arg _ v | Constant _ v => Some v | _ => None end.
Fixpoint rest_args (kw : list (name * V)) (Q : list (name * option V)) : option (list (arg_mapping V)) :=
  match Q with
  | [] => Some []
  | q :: Q => match rest_arg kw q, rest_args kw Q with Some a, Some l => Some (a :: l) | _, _ => None end
  end.
Lemma kw_get_keyword (u : list (name * V)) n : kw_get V u n = keyword u n.
Proof. unfold kw_get. induction u as [|[m v] u IH]; [reflexivity|]. cbn [find fst keyword]. destruct (name_eqb m n); [reflexivity|exact IH]. Qed.
Lemma existsb_keyword (u : list (name * V)) n : existsb (fun a => name_eqb (fst a) n) u = is_some (keyword u n).
Proof. induction u as [|[m v] u IH]; [reflexivity|]. cbn [existsb fst keyword]. destruct (name_eqb m n); [reflexivity|exact IH]. Qed.
Lemma keyword_del (u : list (name * V)) n m : n <> m -> keyword (kw_del V u n) m = keyword u m.
Proof.
  intros D. unfold kw_del. induction u as [|[k v] u IH]; [reflexivity|]. cbn [filter fst keyword].
  destruct (name_eqb k n) eqn:E; cbn [negb].
  - apply name_eqb_spec in E as ->. rewrite (proj2 (name_eqb_false n m)) by assumption. exact IH.
  - cbn [keyword]. now rewrite IH.
Qed.
Definition minus (u : list (name * V)) (ns : list name) : list (name * V) := filter (fun a => negb (existsb (name_eqb (fst a)) ns)) u.
Lemma rest_args_same kw u Q : (forall n, In n (map fst Q) -> keyword u n = keyword kw n) -> rest_args u Q = rest_args kw Q.
Proof.
  induction Q as [|q Q IH]; intros H; [reflexivity|]. cbn [rest_args]. rewrite IH by (intros n I; apply H; now right).
  unfold rest_arg. now rewrite (H (fst q)) by now left.
Qed.
Lemma del_minus u n ns : minus (kw_del V u n) ns = minus u (n :: ns).
Proof.
  unfold minus, kw_del. induction u as [|[m v] u IH]; [reflexivity|]. cbn [filter fst existsb].
  destruct (name_eqb m n) eqn:E; cbn [negb orb filter fst]; [exact IH|]. now rewrite IH.
Qed.
Lemma minus_absent u n ns : keyword u n = None -> minus u (n :: ns) = minus u ns.
Proof.
  intros K. unfold minus. apply filter_ext_in. intros [m v] I. cbn [fst existsb].
  assert (name_eqb m n = false) as ->; [|reflexivity]. apply name_eqb_false. intros ->. apply keyword_none in K. apply K.
  apply in_map_iff. exists (n, v). auto.
Qed.
Lemma map_rest_all (s : sig) R kw consumed Q : forall u, NoDup (map fst Q) ->
  (forall n, In n (map fst Q) -> keyword u n = keyword kw n) ->
  (forall v, match map_rest V T R kw consumed v with Err e => e = TypeError | Ok _ => True end) ->
  map_rest V T (map (mk s) Q ++ R) kw consumed u =
  match rest_args kw Q with
  | Some l => ' (out, u') <- map_rest V T R kw consumed (minus u (map fst Q)) ;; Ok (l ++ out, u')
  | None => Err TypeError
  end.
Proof.
  induction Q as [|[n d] Q IH]; intros u D K ER.
  - cbn [map app rest_args]. unfold minus. cbn [map existsb negb].
    replace (filter (fun _ : name * V => true) u) with u by (clear; induction u as [|a u IHu]; [reflexivity|]; cbn [filter]; now rewrite <- IHu).
    destruct (map_rest V T R kw consumed u) as [[out u']|e]; reflexivity.
  - cbn [map fst] in D. apply NoDup_cons_iff in D as [N D].
    cbn [map app map_rest mk p_kind p_name p_default fst snd rest_args]. rewrite existsb_keyword, kw_get_keyword.
    unfold rest_arg. cbn [fst snd]. rewrite (K n) by now left.
    destruct (keyword kw n) as [v|] eqn:Kn; cbn [is_some].
    + rewrite IH; auto.
      * rewrite del_minus. destruct (rest_args kw Q) as [l|]; [|reflexivity].
        destruct (map_rest V T R kw consumed (minus u (n :: map fst Q))) as [[out u']|e]; reflexivity.
      * intros m I. rewrite keyword_del by (intros ->; contradiction). apply K. now right.
    + destruct d as [d|]; cbn [option_map]; [|reflexivity].
      rewrite IH; auto.
      * rewrite (minus_absent u n) by (rewrite K; [assumption|now left]).
        destruct (rest_args kw Q) as [l|]; [|reflexivity].
        destruct (map_rest V T R kw consumed (minus u (map fst Q))) as [[out u']|e]; reflexivity.
      * intros m I. apply K. now right.
Qed.
Lemma rest_args_bound kw Q :
  match rest_args kw Q with
  | Some l => exists vs, bound [] kw Q = map Some vs /\ forall l', mapped (l ++ l') =
      {| b_values := vs ++ b_values (mapped l'); b_star := b_star (mapped l'); b_kwonly := b_kwonly (mapped l'); b_extra := b_extra (mapped l') |}
  | None => forallb is_some (bound [] kw Q) = false
  end.
Proof.
  induction Q as [|[n d] Q IH]; cbn [rest_args bound].
  - exists []. split; [reflexivity|]. intros l'. cbn [app]. now destruct (mapped l').
  - unfold rest_arg. cbn [fst snd].
    destruct (keyword kw n) as [v|]; [|destruct d as [v|]; cbn [option_map]; [|reflexivity]].
    all: destruct (rest_args kw Q) as [l|]; [destruct IH as [vs [E M]]; exists (v :: vs); split; [cbn [map]; now rewrite E|];
      intros l'; cbn [app mapped]; rewrite M; reflexivity | cbn [forallb is_some andb]; exact IH].
Qed.
Lemma bound_split (pos : list V) kw P : bound pos kw P = map Some (firstn (length P) pos) ++ bound [] kw (skipn (length pos) P).
Proof.
  revert pos; induction P as [|[n d] P IH]; intros [|v pos]; cbn [bound length firstn map app skipn]; try reflexivity.
  f_equal. apply IH.
Qed.
Lemma mapped_args vs l : mapped (map (Arg V) vs ++ l) =
  {| b_values := vs ++ b_values (mapped l); b_star := b_star (mapped l); b_kwonly := b_kwonly (mapped l); b_extra := b_extra (mapped l) |}.
Proof. induction vs as [|v vs IH]; cbn [map app mapped]; [now destruct (mapped l)|]. now rewrite IH. Qed.

(** Keywords left after the parameters that had no positional argument *)
Definition left_over (s : sig) (pos : list V) (kw : list (name * V)) : list (name * V) := minus kw (skipn (length pos) (names s)).
Definition left_ok (s : sig) (pos : list V) (kw : list (name * V)) : bool :=
  if takes_keywords s
  then negb (existsb (fun a : name * V => existsb (name_eqb (fst a)) (rev (firstn (length pos) (names s)))) (left_over s pos kw))
  else match left_over s pos kw with [] => true | _ => false end.
Lemma in_skipn {A} (l : list A) k x : In x (skipn k l) <-> exists i, k <= i /\ nth_error l i = Some x.
Proof.
  revert k; induction l as [|y l IH]; intros k.
  - rewrite skipn_nil. split; [intros []|]. intros [[|i] [_ N]]; discriminate.
  - destruct k as [|k]; cbn [skipn].
    + split; [intros I; apply In_nth_error in I as [i N]; exists i; split; [lia|exact N]|]. intros [i [_ N]]. eapply nth_error_In; eauto.
    + rewrite IH. split; intros [i [L N]]; [exists (S i); split; [lia|exact N]|].
      destruct i as [|i]; [lia|]. exists i. split; [lia|exact N].
Qed.
Lemma in_firstn {A} (l : list A) k x : In x (firstn k l) <-> exists i, i < k /\ nth_error l i = Some x.
Proof.
  revert k; induction l as [|y l IH]; intros k.
  - rewrite firstn_nil. split; [intros []|]. intros [[|i] [_ N]]; discriminate.
  - destruct k as [|k]; cbn [firstn In].
    + split; [intros []|intros [i [L _]]; lia].
    + rewrite IH. split.
      * intros [<-|[i [L N]]]; [exists 0; split; [lia|reflexivity]|exists (S i); split; [lia|exact N]].
      * intros [[|i] [L N]]; cbn in N; [left; congruence|right; exists i; split; [lia|exact N]].
Qed.
Lemma in_minus u ns a : In a (minus u ns) <-> In a u /\ ~ In (fst a) ns.
Proof.
  unfold minus. rewrite filter_In, negb_true_iff. rewrite <- (existsb_name (fst a) ns). destruct (existsb _ _); split; intuition congruence.
Qed.
Lemma left_ok_spec (s : sig) (pos : list V) kw : NoDup (names s) -> left_ok s pos kw = keyword_ok s pos kw.
Proof.
  intros D. apply eq_true_iff_eq. unfold keyword_ok. rewrite forallb_forall. unfold left_ok.
  assert (forall n i, index_of n (names s) = Some i -> In n (skipn (length pos) (names s)) <-> length pos <= i) as S1.
  { intros n i X. rewrite in_skipn. apply index_of_some in X. split.
    - intros [j [L N]]. assert (j = i) as <-; [|assumption]. apply (proj1 (NoDup_nth_error _) D); [apply nth_error_Some|]; congruence.
    - intros L. eauto. }
  assert (forall n, In n (skipn (length pos) (names s)) -> index_of n (names s) <> None) as S2.
  { intros n I E. apply index_of_none in E. apply in_skipn in I as [i [_ N]]. apply E. eapply nth_error_In; eauto. }
  destruct (takes_keywords s) eqn:TK.
  - rewrite negb_true_iff. split.
    + intros H [n v] I. cbn [fst]. destruct (index_of n (names s)) as [i|] eqn:X; [|reflexivity].
      apply Nat.leb_le. apply (S1 _ _ X). destruct (in_dec (list_eq_dec Z.eq_dec) n (skipn (length pos) (names s))) as [|NI]; [assumption|exfalso].
      assert (existsb (fun a : name * V => existsb (name_eqb (fst a)) (rev (firstn (length pos) (names s)))) (left_over s pos kw) = true); [|congruence].
      apply existsb_exists. exists (n, v). split; [apply in_minus; auto|]. cbn [fst]. apply existsb_name. apply -> in_rev.
      apply in_firstn. pose proof (index_of_some _ _ _ X). exists i. split; [|assumption].
      destruct (Nat.lt_ge_cases i (length pos)) as [|G]; [assumption|]. apply (S1 _ _ X) in G. contradiction.
    + intros H. destruct (existsb _ _) eqn:E; [exfalso|reflexivity]. apply existsb_exists in E as [[n v] [I J]].
      apply in_minus in I as [I NI]. specialize (H _ I). cbn [fst] in *. apply existsb_name in J. apply in_rev in J.
      apply in_firstn in J as [i [L N]]. rewrite (index_of_nth _ _ _ D N) in H. apply Nat.leb_le in H. lia.
  - split.
    + intros H [n v] I. cbn [fst]. destruct (left_over s pos kw) as [|a lo] eqn:LO; [|discriminate].
      destruct (in_dec (list_eq_dec Z.eq_dec) n (skipn (length pos) (names s))) as [J|NI].
      * destruct (index_of n (names s)) as [i|] eqn:X; [|exfalso; eapply S2; eauto]. apply Nat.leb_le. now apply (S1 _ _ X).
      * assert (In (n, v) (left_over s pos kw)) as J by (apply in_minus; auto). rewrite LO in J. destruct J.
    + intros H. destruct (left_over s pos kw) as [|[n v] lo] eqn:LO; [reflexivity|exfalso].
      assert (In (n, v) (left_over s pos kw)) as J by (rewrite LO; now left). apply in_minus in J as [I NI]. cbn [fst] in NI.
      specialize (H _ I). cbn [fst] in H. destruct (index_of n (names s)) as [i|] eqn:X; [|discriminate].
      apply NI. apply (S1 _ _ X). now apply Nat.leb_le.
Qed.
Lemma left_over_others (s : sig) (pos : list V) kw : NoDup (names s) -> keyword_ok s pos kw = true -> left_over s pos kw = others s kw.
Proof.
  intros D K. unfold left_over, minus, others. apply filter_ext_in. intros [n v] I. cbn [fst]. f_equal.
  unfold keyword_ok in K. rewrite forallb_forall in K. specialize (K _ I). cbn [fst] in K.
  apply eq_true_iff_eq. rewrite !existsb_name. rewrite in_skipn. split.
  - intros [i [_ N]]. eapply nth_error_In; eauto.
  - intros J. apply In_nth_error in J as [i N]. exists i. split; [|assumption]. rewrite (index_of_nth _ _ _ D N) in K. now apply Nat.leb_le.
Qed.
Lemma map_rest_end (s : sig) (st : bool) kw consumed u :
  map_rest V T ((if st then star_param s else []) ++ kw_param s) kw consumed u =
  let stars := if st && takes_star s then [StarArgs V []] else [] in
  if takes_keywords s
  then if existsb (fun a : name * V => existsb (name_eqb (fst a)) consumed) u then Err TypeError else Ok (stars ++ [Kwargs V u], [])
  else Ok (stars, u).
Proof.
  unfold star_param, kw_param, takes_star, takes_keywords.
  destruct st, (s_varargs _ _ s), (s_varkw _ _ s); cbn [app map_rest p_kind andb]; try reflexivity;
    destruct (existsb _ _); reflexivity.
Qed.
Lemma map_function_arguments_spec (s : sig) pos kw : plain s -> well_formed s -> 
  match map_function_arguments V T (params_of s) pos kw with
  | Ok l => python_binds s pos kw (mapped l)
  | Err e => e = TypeError /\ forall b, ~ python_binds s pos kw b
  end.
Proof.
  intros PL WF. pose proof (well_formed_names _ WF) as D.
  assert (call_ok s pos kw = false -> forall b, ~ python_binds s pos kw b) as NB.
  { intros C b H. apply (python_binds_plain _ _ _ _ PL D) in H as [C' _]. congruence. }
  unfold map_function_arguments.
  pose proof (map_positional_all s pos [] (or_introl (Nat.le_0_l _))) as MP. cbn [length app firstn rev] in MP.
  rewrite Nat.min_0_r in MP. change (outs (length (parameters s)) []) with (map (Arg V) (firstn (length (parameters s)) []) ++ (if length (parameters s) <? 0 then [StarArgs V (skipn (length (parameters s)) [])] else [])) in MP.
  rewrite firstn_nil in MP. rewrite (proj2 (Nat.ltb_ge _ _)) in MP by lia. cbn [map app] in MP. rewrite MP. clear MP.
  unfold call_ok in NB. destruct ((length pos <=? length (parameters s)) || takes_star s) eqn:LS; cbn [andb bind] in *; [|split; auto].
  rewrite <- (left_ok_spec _ _ _ D) in NB.
  set (n := length (parameters s)) in *.
  assert (skipn (length (outs n pos)) (params_of s) =
          map (mk s) (skipn (length pos) (parameters s)) ++ (if length pos <=? n then star_param s else []) ++ kw_param s) as ->.
  { unfold outs, params_of. rewrite app_length, map_length, firstn_length. destruct (Nat.leb_spec (length pos) n) as [L|L].
    - rewrite (proj2 (Nat.ltb_ge _ _)) by lia. cbn [length]. rewrite Nat.add_0_r, Nat.min_r by lia.
      rewrite skipn_app, map_length. fold n. replace (length pos - n) with 0 by lia. cbn [skipn]. now rewrite skipn_map.
    - rewrite (proj2 (Nat.ltb_lt _ _)) by lia. cbn [length]. rewrite Nat.min_l by lia.
      cbn [orb] in LS. unfold takes_star in LS. rewrite skipn_all2 with (n := length pos) by (fold n; lia). cbn [map app].
      rewrite skipn_app, map_length. fold n. rewrite skipn_all2 by (rewrite map_length; fold n; lia). cbn [app].
      replace (n + 1 - n) with 1 by lia. unfold star_param. destruct (s_varargs _ _ s); [reflexivity|discriminate]. }
  assert (NoDup (map fst (skipn (length pos) (parameters s)))) as D2.
  { rewrite <- skipn_map. fold (names s). clear -D. revert D. generalize (names s) (length pos). intros l.
    induction l as [|x l IH]; intros [|k] D; cbn [skipn]; try assumption. apply IH. now inversion D. }
  rewrite map_rest_all; [|exact D2|reflexivity|].
  2:{ intros v. rewrite map_rest_end. cbv zeta. destruct (takes_keywords s); [|exact I]. now destruct (existsb _ _). }
  rewrite map_rest_end. cbv zeta. rewrite <- skipn_map. fold (names s). fold (left_over s pos kw).
  pose proof (rest_args_bound kw (skipn (length pos) (parameters s))) as RB.
  pose proof (bound_split pos kw (parameters s)) as BS. fold n in BS.
  assert (forallb is_some (bound [] kw (skipn (length pos) (parameters s))) = false -> forallb is_some (bound pos kw (parameters s)) = false) as FS.
  { intros F. rewrite BS, forallb_app, F. apply andb_false_r. }
  destruct (rest_args kw (skipn (length pos) (parameters s))) as [l|].
  2:{ split; [reflexivity|]. apply NB. rewrite (FS RB). apply andb_false_r. }
  destruct RB as [vs [RB MA]].
  assert (keyword_ok s pos kw = true -> forall tail, 
     b_values (mapped tail) = [] -> b_star (mapped tail) = (if n <? length pos then [] else skipn n pos) -> b_kwonly (mapped tail) = [] -> b_extra (mapped tail) = left_over s pos kw ->
     python_binds s pos kw (mapped (outs n pos ++ l ++ tail))) as FIN.
  { intros KO tail T1 T2 T3 T4.
    assert (mapped (outs n pos ++ l ++ tail) =
            {| b_values := firstn n pos ++ vs; b_star := skipn n pos; b_kwonly := []; b_extra := left_over s pos kw |}) as ->.
    { unfold outs. rewrite <- app_assoc, mapped_args. destruct (Nat.ltb_spec n (length pos)) as [L|L].
      - cbn [app mapped b_values b_star b_kwonly b_extra]. rewrite MA. cbn [b_values b_star b_kwonly b_extra].
        rewrite T1, T2, T3, T4, !app_nil_r. reflexivity.
      - cbn [app]. rewrite MA. cbn [b_values b_star b_kwonly b_extra]. rewrite T1, T2, T3, T4, app_nil_r. reflexivity. }
    apply (python_binds_plain _ _ _ _ PL D). cbn [b_values b_star b_kwonly b_extra]. rewrite (left_over_others _ _ _ D KO).
    split; [|split; [rewrite BS, RB, map_app; reflexivity|auto]].
    unfold call_ok. fold n. rewrite LS, KO, BS, RB, forallb_app. cbn [andb]. apply andb_true_iff. split; apply all_some; eauto. }
  rewrite <- (left_ok_spec _ _ _ D) in FIN. unfold left_ok in FIN, NB.
  assert (forall X : Prop, (if length pos <=? n then skipn n pos = [] else True)) as SE.
  { intros _. destruct (Nat.leb_spec (length pos) n); [|exact I]. now apply skipn_all2. }
  specialize (SE True).
  assert ((n <? length pos) = negb (length pos <=? n)) as NL.
  { destruct (Nat.leb_spec (length pos) n), (Nat.ltb_spec n (length pos)); cbn; lia. }
  destruct (takes_keywords s).
  - destruct (existsb _ (left_over s pos kw)) eqn:EX; cbn [bind negb andb] in *; [split; auto|].
    apply (FIN eq_refl); rewrite ?NL; destruct (length pos <=? n), (takes_star s); cbn; rewrite ?SE, ?app_nil_r; reflexivity.
  - cbn [bind]. destruct (left_over s pos kw) as [|a lo] eqn:LO; [|split; [reflexivity|apply NB; reflexivity]].
    apply (FIN eq_refl); rewrite ?NL; destruct (length pos <=? n), (takes_star s); cbn; rewrite ?SE, ?app_nil_r; reflexivity.
Qed.
End Values.
