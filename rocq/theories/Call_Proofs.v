(** Proofs about binding arguments. *)
From Coq Require Import List.
From Verif Require Import Base Call_Model Call_Spec Compress_Proofs.
From Coq Require Import ZifyBool ZifyNat.
Open Scope nat_scope.
Open Scope result_scope.

Lemma name_eqb_spec a b : name_eqb a b = true <-> a = b.
Proof.
  revert b; induction a as [|x a IH]; intros [|y b]; cbn; try (split; congruence).
  rewrite andb_true_iff, Z.eqb_eq, IH. split; [intros [-> ->]; auto|intros [= -> ->]; auto].
Qed.
Lemma name_eqb_refl a : name_eqb a a = true. Proof. now apply name_eqb_spec. Qed.
Lemma name_eqb_false a b : name_eqb a b = false <-> a <> b.
Proof. rewrite <- name_eqb_spec. destruct (name_eqb a b); split; congruence. Qed.
Lemma name_eqb_sym a b : name_eqb a b = name_eqb b a.
Proof.
  destruct (name_eqb b a) eqn:E; [apply name_eqb_spec in E as ->; apply name_eqb_refl|].
  apply name_eqb_false in E. apply name_eqb_false. congruence.
Qed.
Lemma existsb_name n l : existsb (name_eqb n) l = true <-> In n l.
Proof.
  rewrite existsb_exists. split.
  - intros [x [I E]]. apply name_eqb_spec in E as ->. assumption.
  - intros I. exists n. split; [assumption|apply name_eqb_refl].
Qed.
Lemma c_string_plain n : ~ In 0%Z n -> c_string n = n.
Proof.
  induction n as [|c n IH]; cbn [c_string]; [reflexivity|]. intros N.
  destruct (Z.eqb_spec c 0) as [->|]; [exfalso; apply N; now left|].
  now rewrite IH by (intros I; apply N; now right).
Qed.

Section Values.
Context {V T : Type}.
Notation sig := (signature V T).

(** ** Keywords *)
Lemma keyword_none (kw : list (name * V)) n : keyword kw n = None <-> ~ In n (map fst kw).
Proof.
  induction kw as [|[m v] kw IH]; cbn [keyword map fst In]; [tauto|].
  destruct (name_eqb m n) eqn:E.
  - apply name_eqb_spec in E. split; [congruence|]. intros H. exfalso. tauto.
  - apply name_eqb_false in E. rewrite IH. tauto.
Qed.
Lemma keyword_in (kw : list (name * V)) n v : keyword kw n = Some v -> In (n, v) kw.
Proof.
  induction kw as [|[m w] kw IH]; cbn [keyword In]; [discriminate|].
  destruct (name_eqb m n) eqn:E; [|auto]. apply name_eqb_spec in E as ->. intros [= ->]. now left.
Qed.
Lemma keyword_app (k1 k2 : list (name * V)) n :
  keyword (k1 ++ k2) n = match keyword k1 n with Some v => Some v | None => keyword k2 n end.
Proof. induction k1 as [|[m v] k1 IH]; cbn [keyword app]; [reflexivity|]. destruct (name_eqb m n); auto. Qed.

(** ** The values of the parameters, as one recursion *)
Fixpoint bound (pos : list V) (kw : list (name * V)) (P : list (name * option V)) : list (option V) :=
  match P with
  | [] => []
  | (n, d) :: P =>
      match pos with
      | v :: pos => Some v :: bound pos kw P
      | [] => match keyword kw n with Some v => Some v | None => d end :: bound [] kw P
      end
  end.
Definition bare (names : list name) : list (name * option V) := map (fun n => (n, None)) names.

Lemma bound_length pos kw P : length (bound pos kw P) = length P.
Proof. revert pos; induction P as [|[n d] P IH]; intros [|v pos]; cbn [bound length]; auto. Qed.
Lemma bound_nth pos kw P i n d : nth_error P i = Some (n, d) ->
  nth_error (bound pos kw P) i =
    Some match nth_error pos i with
         | Some v => Some v
         | None => match keyword kw n with Some v => Some v | None => d end
         end.
Proof.
  revert pos i; induction P as [|[m e] P IH]; intros pos [|i]; cbn [nth_error]; try discriminate.
  - intros [= -> ->]. destruct pos; reflexivity.
  - intros N. destruct pos as [|v pos]; cbn [bound nth_error]; rewrite (IH _ _ N); [|reflexivity].
    destruct i; reflexivity.
Qed.
Lemma bare_length names : length (bare names) = length names. Proof. apply map_length. Qed.
Lemma bound_bare_nth pos kw names i n : nth_error names i = Some n ->
  nth_error (bound pos kw (bare names)) i =
    Some match nth_error pos i with Some v => Some v | None => keyword kw n end.
Proof.
  intros N. rewrite (bound_nth _ _ _ _ n None); [|unfold bare; rewrite nth_error_map, N; reflexivity].
  destruct (nth_error pos i); [reflexivity|]. now destruct (keyword kw n).
Qed.
Lemma set_nth_length {A} (l : list A) k x : length (set_nth l k x) = length l.
Proof. revert k; induction l as [|y l IH]; intros [|k]; cbn [set_nth length]; auto. Qed.
Lemma set_nth_nth {A} (l : list A) k x i : k < length l ->
  nth_error (set_nth l k x) i = if i =? k then Some x else nth_error l i.
Proof.
  revert k i; induction l as [|y l IH]; intros k i L; cbn [length] in L; [lia|].
  destruct k as [|k], i as [|i]; cbn [set_nth nth_error Nat.eqb]; try reflexivity. apply IH. lia.
Qed.
Lemma set_nth_app {A} (l m : list A) k x : k < length l -> set_nth (l ++ m) k x = set_nth l k x ++ m.
Proof.
  revert k; induction l as [|y l IH]; intros k L; cbn [length] in L; [lia|].
  destruct k; cbn [set_nth app]; [reflexivity|]. now rewrite IH by lia.
Qed.
Lemma nth_error_split_none {A} (l : list A) i : nth_error l i = None \/ exists x, nth_error l i = Some x.
Proof. destruct (nth_error l i); eauto. Qed.

Lemma bound_push pos a names : length pos < length names ->
  set_nth (bound pos [] (bare names)) (length pos) (Some a) = bound (pos ++ [a]) [] (bare names).
Proof.
  revert pos; induction names as [|n names IH]; intros pos L; cbn [length] in L; [lia|].
  destruct pos as [|v pos]; cbn [bare map bound length set_nth app keyword].
  - f_equal. 
  - f_equal. apply IH. cbn [length] in L. lia.
Qed.
Lemma bound_full pos pos' kw P : length P <= length pos -> bound (pos ++ pos') kw P = bound pos kw P.
Proof.
  revert pos; induction P as [|[n d] P IH]; intros pos L; cbn [length] in L; [reflexivity|].
  destruct pos as [|v pos]; cbn [length] in L; [lia|]. cbn [app bound]. rewrite IH by lia. reflexivity.
Qed.

(** Position of a name *)
Fixpoint index_of (n : name) (names : list name) : option nat :=
  match names with
  | [] => None
  | m :: names => if name_eqb m n then Some 0 else option_map S (index_of n names)
  end.
Lemma index_of_some n names k : index_of n names = Some k -> nth_error names k = Some n.
Proof.
  revert k; induction names as [|m names IH]; intros k; cbn [index_of]; [discriminate|].
  destruct (name_eqb m n) eqn:E; [apply name_eqb_spec in E as ->; now intros [= <-]|].
  destruct (index_of n names) as [j|]; [|discriminate]. intros [= <-]. cbn. auto.
Qed.
Lemma index_of_none n names : index_of n names = None <-> ~ In n names.
Proof.
  induction names as [|m names IH]; cbn [index_of In]; [tauto|].
  destruct (name_eqb m n) eqn:E.
  - apply name_eqb_spec in E. split; [discriminate|tauto].
  - apply name_eqb_false in E. destruct (index_of n names); cbn [option_map].
    + split; [discriminate|]. intros H. exfalso. apply H. right.
      destruct IH as [_ IH]. destruct (in_dec (list_eq_dec Z.eq_dec) n names); [assumption|]. now specialize (IH n1).
    + tauto.
Qed.
Lemma index_of_nth n names k : NoDup names -> nth_error names k = Some n -> index_of n names = Some k.
Proof.
  intros D N. destruct (index_of n names) as [j|] eqn:E.
  - apply index_of_some in E. f_equal. apply (proj1 (NoDup_nth_error names) D).
    + apply nth_error_Some. congruence.
    + congruence.
  - apply index_of_none in E. exfalso. apply E. eapply nth_error_In; eauto.
Qed.

Lemma bound_set pos kw n v names k : NoDup names -> index_of n names = Some k -> length pos <= k -> keyword kw n = None ->
  set_nth (bound pos kw (bare names)) k (Some v) = bound pos (kw ++ [(n, v)]) (bare names).
Proof.
  intros D I L K. pose proof (index_of_some _ _ _ I) as Nk.
  assert (k < length names) as B by (apply nth_error_Some; congruence).
  apply nth_error_ext'. intros i. rewrite set_nth_nth by (rewrite bound_length, bare_length; lia).
  destruct (nth_error names i) as [m|] eqn:N.
  - rewrite !(bound_bare_nth _ _ _ _ _ N), keyword_app. cbn [keyword].
    destruct (Nat.eqb_spec i k) as [->|].
    + replace m with n by congruence. rewrite K, name_eqb_refl.
      replace (nth_error pos k) with (@None V); [reflexivity|]. symmetry. apply nth_error_None. lia.
    + assert (name_eqb n m = false) as ->.
      { apply name_eqb_false. intros ->. apply (index_of_nth _ _ _ D) in N. congruence. }
      destruct (nth_error pos i); [reflexivity|]. now destruct (keyword kw m).
  - assert (i =? k = false) as ->. { apply Nat.eqb_neq. intros ->. congruence. }
    apply nth_error_None in N.
    rewrite !(proj2 (nth_error_None _ _)); auto; rewrite bound_length, bare_length; lia.
Qed.
Lemma bound_other pos kw n v P : ~ In n (map fst P) -> bound pos (kw ++ [(n, v)]) P = bound pos kw P.
Proof.
  revert pos; induction P as [|[m d] P IH]; intros pos N; [reflexivity|]. cbn [map fst In] in N.
  cbn [bound]. destruct pos; [|now rewrite IH by tauto]. rewrite IH by tauto. f_equal.
  rewrite keyword_app. destruct (keyword kw m); [reflexivity|]. cbn [keyword].
  now rewrite (proj2 (name_eqb_false n m)) by (intros ->; tauto).
Qed.

(** ** The parameters of a function *)
Definition mk (s : sig) (q : name * option V) : param V T :=
  {| p_name := fst q; p_filter := s_annotation _ _ s (fst q); p_default := snd q; p_kind := Normal |}.
Definition star_param (s : sig) : list (param V T) :=
  match s_varargs _ _ s with
  | Some a => [{| p_name := a; p_filter := s_annotation _ _ s a; p_default := None; p_kind := Star |}]
  | None => [] end.
Definition kw_param (s : sig) : list (param V T) :=
  match s_varkw _ _ s with
  | Some a => [{| p_name := a; p_filter := s_annotation _ _ s a; p_default := None; p_kind := Keywords |}]
  | None => [] end.
Definition params_of (s : sig) : list (param V T) := map (mk s) (parameters s) ++ star_param s ++ kw_param s.

Lemma enumerate_nth {A} (l : list A) k i : nth_error (enumerate k l) i = option_map (fun x => (k + i, x)) (nth_error l i).
Proof.
  revert k i; induction l as [|x l IH]; intros k [|i]; cbn [enumerate nth_error option_map]; try reflexivity.
  - now rewrite Nat.add_0_r.
  - rewrite IH. destruct (nth_error l i); [|reflexivity]. cbn. f_equal. f_equal. lia.
Qed.
Lemma parameters_nth (s : sig) i :
  nth_error (parameters s) i = option_map (fun n => (n, get_default V T (getfullargspec V T s) i)) (nth_error (fs_args _ _ (getfullargspec V T s)) i).
Proof.
  unfold parameters, getfullargspec, get_default. cbn [fs_args fs_defaults].
  set (r := s_required _ _ s). set (o := s_optional _ _ s).
  destruct (Nat.lt_ge_cases i (length r)) as [L|L].
  - rewrite !nth_error_app1 by (rewrite ?map_length; assumption). rewrite nth_error_map.
    destruct (nth_error r i); [|reflexivity]. cbn. f_equal. f_equal.
    destruct o as [|x o]; [reflexivity|]. rewrite app_length, !map_length.
    destruct (_ <=? i) eqn:E; [|reflexivity]. cbn [length] in E. lia.
  - rewrite !nth_error_app2 by (rewrite ?map_length; assumption). rewrite map_length, !nth_error_map.
    destruct (nth_error o (i - length r)) as [[n d]|] eqn:N; [|reflexivity]. cbn. f_equal. f_equal.
    assert (o <> []) as NE by (intros E; rewrite E in N; destruct (i - length r); discriminate).
    replace (match o with [] => None | _ :: _ => Some (map snd o) end) with (Some (map snd o)) by (destruct o; congruence).
    rewrite app_length, !map_length. replace (length r + length o - length o) with (length r) by lia.
    rewrite (proj2 (Nat.leb_le _ _) L), nth_error_map, N. reflexivity.
Qed.
Lemma make_params_ok (s : sig) : s_kwonly _ _ s = [] -> make_params V T (getfullargspec V T s) = Ok (params_of s).
Proof.
  intros K. unfold make_params. replace (fs_kwonly _ _ (getfullargspec V T s)) with (@nil name) by (cbn; now rewrite K).
  unfold params_of. do 2 f_equal. apply nth_error_ext'. intros i.
  rewrite !nth_error_map, enumerate_nth, parameters_nth.
  destruct (nth_error (fs_args _ _ (getfullargspec V T s)) i); reflexivity.
Qed.
Lemma make_params_kwonly (s : sig) : s_kwonly _ _ s <> [] -> make_params V T (getfullargspec V T s) = Err GenericError.
Proof.
  intros K. unfold make_params. cbn [getfullargspec fs_kwonly]. destruct (s_kwonly _ _ s); [congruence|reflexivity].
Qed.

Definition takes_star (s : sig) : bool := match s_varargs _ _ s with Some _ => true | None => false end.
Definition takes_keywords (s : sig) : bool := match s_varkw _ _ s with Some _ => true | None => false end.
Definition names (s : sig) : list name := map fst (parameters s).
Lemma names_length s : length (names s) = length (parameters s). Proof. apply map_length. Qed.
Definition rest_params (s : sig) := star_param s ++ kw_param s.

(** ** Positional arguments *)
Lemma push_positional_all (s : sig) pos :
  let m := fold_left (push_positional V T (params_of s)) pos (new_mapping V T (params_of s)) in
  if (length pos <=? length (parameters s)) || takes_star s then
    m = {| single := bound pos [] (bare (names s)) ++ repeat None (length (rest_params s));
           star_values := skipn (length (parameters s)) pos; kw_values := []; valid := true;
           current := Nat.min (length (parameters s)) (length pos) |}
  else valid _ m = false.
Proof.
  cbv zeta. induction pos as [|a pos IH] using rev_ind.
  - cbn [length fold_left]. rewrite (proj2 (Nat.leb_le 0 (length (parameters s)))) by lia. cbn [orb].
    unfold new_mapping. rewrite skipn_nil, Nat.min_0_r. f_equal.
    unfold params_of. rewrite app_length, map_length, repeat_app. f_equal. unfold names.
    induction (parameters s) as [|[n d] P IH]; [reflexivity|]. cbn [length repeat map bare bound keyword]. f_equal. apply IH.
  - rewrite fold_left_app, app_length. cbn [length fold_left].
    set (m := fold_left _ pos _) in *.
    destruct ((length pos <=? length (parameters s)) || takes_star s) eqn:E.
    + rewrite IH. unfold push_positional. cbn [valid negb current].
      destruct (Nat.lt_ge_cases (length pos) (length (parameters s))) as [L|L].
      * rewrite Nat.min_r by lia. unfold params_of. rewrite nth_error_app1 by (rewrite map_length; lia).
        rewrite nth_error_map. destruct (nth_error (parameters s) (length pos)) as [q|] eqn:N; [|apply nth_error_None in N; lia].
        cbn [option_map mk p_kind]. rewrite (proj2 (Nat.leb_le _ _)) by lia. cbn [orb single star_values kw_values].
        rewrite set_nth_app by (rewrite bound_length, bare_length, names_length; lia).
        rewrite bound_push by (rewrite names_length; lia).
        rewrite !skipn_all2 by (rewrite ?app_length; cbn [length]; lia). f_equal. lia.
      * rewrite Nat.min_l by lia.
        rewrite (proj2 (Nat.leb_gt (length pos + 1) (length (parameters s)))) by lia. cbn [orb].
        unfold params_of. rewrite nth_error_app2 by (rewrite map_length; lia). rewrite map_length, Nat.sub_diag.
        destruct (takes_star s) eqn:TS; unfold takes_star in TS; unfold star_param.
        -- destruct (s_varargs _ _ s) as [st|] eqn:VA; [|discriminate]. cbn [app nth_error p_kind single star_values kw_values].
           rewrite skipn_app, bound_full by (rewrite bare_length, names_length; lia).
           replace (length (parameters s) - length pos) with 0 by lia. cbn [skipn]. f_equal. lia.
        -- destruct (s_varargs _ _ s) as [st|] eqn:VA; [discriminate|]. cbn [app].
           unfold kw_param. destruct (s_varkw _ _ s); reflexivity.
    + apply orb_false_iff in E as [E1 E2]. apply Nat.leb_gt in E1.
      rewrite (proj2 (Nat.leb_gt _ _)) by lia. rewrite E2. cbn [orb].
      unfold push_positional. now rewrite IH.
Qed.

(** ** Keyword arguments *)
Lemma find_slot_params (s : sig) n k :
  find_slot V T (params_of s) k n =
    match index_of n (names s) with
    | Some i => Slot (k + i)
    | None => if takes_keywords s then Extra else Nowhere
    end.
Proof.
  unfold params_of, names. revert k. induction (parameters s) as [|[m d] P IH]; intros k.
  - cbn [map app index_of]. unfold star_param, kw_param, takes_keywords.
    destruct (s_varargs _ _ s), (s_varkw _ _ s); reflexivity.
  - cbn [map app find_slot mk p_kind p_name fst index_of]. destruct (name_eqb m n); [now rewrite Nat.add_0_r|].
    rewrite IH. destruct (index_of n (map fst P)); cbn [option_map]; [|reflexivity]. f_equal. lia.
Qed.
Definition keyword_ok (s : sig) (pos : list V) (kw : list (name * V)) : bool :=
  forallb (fun a => match index_of (fst a) (names s) with
                    | Some i => length pos <=? i
                    | None => takes_keywords s
                    end) kw.
Definition others (s : sig) (kw : list (name * V)) : list (name * V) :=
  filter (fun a => negb (existsb (name_eqb (fst a)) (names s))) kw.
Lemma push_keyword_all (s : sig) pos kw star c : NoDup (names s) -> NoDup (map fst kw) ->
  let m := fold_left (push_keyword V T (params_of s)) kw
    {| single := bound pos [] (bare (names s)) ++ repeat None (length (rest_params s));
       star_values := star; kw_values := []; valid := true; current := c |} in
  if keyword_ok s pos kw then
    m = {| single := bound pos kw (bare (names s)) ++ repeat None (length (rest_params s));
           star_values := star; kw_values := others s kw; valid := true; current := c |}
  else valid _ m = false.
Proof.
  intros D. cbv zeta. induction kw as [|[n v] kw IH] using rev_ind; intros DK; [reflexivity|].
  rewrite map_app in DK. cbn [map fst] in DK.
  assert (NoDup (map fst kw)) as DK1 by (apply NoDup_remove_1 in DK; now rewrite app_nil_r in DK).
  assert (~ In n (map fst kw)) as DK2 by (apply NoDup_remove_2 in DK; now rewrite app_nil_r in DK).
  specialize (IH DK1). rewrite fold_left_app. cbn [fold_left].
  unfold keyword_ok. rewrite forallb_app. fold (keyword_ok s pos kw). cbn [forallb fst]. rewrite andb_true_r.
  set (m := fold_left _ kw _) in *.
  destruct (keyword_ok s pos kw); cbn [andb].
  - rewrite IH. unfold push_keyword. cbn [valid negb fst snd single]. rewrite find_slot_params.
    unfold others. rewrite filter_app. cbn [filter fst].
    destruct (index_of n (names s)) as [i|] eqn:I; cbn [Nat.add].
    + pose proof (index_of_some _ _ _ I) as Ni.
      assert (i < length (names s)) as B by (apply nth_error_Some; congruence).
      rewrite nth_error_app1 by (rewrite bound_length, bare_length; assumption).
      rewrite (bound_bare_nth _ _ _ _ _ Ni). apply keyword_none in DK2.
      destruct (Nat.leb_spec (length pos) i).
      * replace (nth_error pos i) with (@None V) by (symmetry; apply nth_error_None; assumption).
        rewrite DK2. cbn [star_values kw_values current].
        rewrite set_nth_app by (rewrite bound_length, bare_length; assumption).
        rewrite (bound_set _ _ n) by assumption.
        rewrite (proj2 (existsb_name n (names s))) by (eapply nth_error_In; eauto). cbn [negb].
        now rewrite app_nil_r.
      * destruct (nth_error pos i) eqn:Np; [reflexivity|]. apply nth_error_None in Np. lia.
    + destruct (takes_keywords s); [|reflexivity]. cbn [star_values kw_values current].
      apply index_of_none in I. rewrite bound_other.
      2:{ unfold bare. rewrite map_map. cbn [fst]. now rewrite map_id. }
      destruct (existsb (name_eqb n) (names s)) eqn:X; [apply existsb_name in X; contradiction|]. reflexivity.
  - unfold push_keyword. now rewrite IH.
Qed.

(** ** Defaults *)
Definition is_some {A} (o : option A) : bool := match o with Some _ => true | None => false end.
Lemma fill_rest (s : sig) :
  fill_defaults V T (rest_params s) (repeat None (length (rest_params s))) = (repeat None (length (rest_params s)), true).
Proof.
  unfold rest_params, star_param, kw_param. destruct (s_varargs _ _ s), (s_varkw _ _ s); reflexivity.
Qed.
Lemma fill_all (s : sig) pos kw P :
  let (l, ok) := fill_defaults V T (map (mk s) P ++ rest_params s)
                   (bound pos kw (bare (map fst P)) ++ repeat None (length (rest_params s))) in
  ok = forallb is_some (bound pos kw P) /\
  (ok = true -> l = bound pos kw P ++ repeat None (length (rest_params s))).
Proof.
  revert pos; induction P as [|[n d] P IH]; intros pos.
  - cbn [map app bare bound forallb]. rewrite fill_rest. auto.
  - cbn [map bare fst bound]. destruct pos as [|v pos].
    + specialize (IH []). cbn [app fill_defaults mk p_kind p_default snd]. fold (bare (map fst P)).
      destruct (fill_defaults _ _ _ _) as [l ok]. destruct IH as [-> IH].
      destruct (keyword kw n) as [v|]; cbn [forallb is_some andb].
      * split; [reflexivity|]. intros E. cbn [app]. now rewrite IH.
      * destruct d as [d|]; cbn [forallb is_some andb].
        -- split; [reflexivity|]. intros E. cbn [app]. now rewrite IH.
        -- split; [reflexivity|discriminate].
    + specialize (IH pos). cbn [app fill_defaults mk p_kind]. fold (bare (map fst P)).
      destruct (fill_defaults _ _ _ _) as [l ok]. destruct IH as [-> IH]. cbn [forallb is_some andb].
      split; [reflexivity|]. intros E. cbn [app]. now rewrite IH.
Qed.

Definition call_ok (s : sig) (pos : list V) (kw : list (name * V)) : bool :=
  ((length pos <=? length (parameters s)) || takes_star s) && keyword_ok s pos kw &&
  forallb is_some (bound pos kw (parameters s)).

Lemma push_arguments_all (s : sig) self pos kw : NoDup (names s) -> distinct_keywords kw -> plain_keywords kw ->
  let pos' := match self with Some v => v :: pos | None => pos end in
  let m := push_arguments V T (params_of s) self pos kw in
  valid _ m = call_ok s pos' kw /\
  (call_ok s pos' kw = true ->
   single _ m = bound pos' kw (parameters s) ++ repeat None (length (rest_params s)) /\
   star_values _ m = skipn (length (parameters s)) pos' /\
   kw_values _ m = others s kw).
Proof.
  intros D DK PK. cbv zeta. unfold push_arguments.
  replace (fold_left (push_positional V T (params_of s)) pos
             (match self with Some s0 => push_positional V T (params_of s) (new_mapping V T (params_of s)) s0
                            | None => new_mapping V T (params_of s) end))
    with (fold_left (push_positional V T (params_of s)) (match self with Some v => v :: pos | None => pos end)
            (new_mapping V T (params_of s))) by (destruct self; reflexivity).
  generalize (match self with Some v => v :: pos | None => pos end). clear self pos. intros pos.
  replace (map (fun a : name * V => (c_string (fst a), snd a)) kw) with kw.
  2:{ symmetry. transitivity (map (fun a : name * V => a) kw); [|apply map_id]. apply map_ext_in. intros [n v] I. cbn.
      rewrite c_string_plain; [reflexivity|]. eapply PK; eauto. }
  pose proof (push_positional_all s pos) as Hp. cbv zeta in Hp. set (mp := fold_left (push_positional _ _ _) _ _) in *.
  unfold call_ok. destruct (_ || _); cbn [andb].
  - rewrite Hp. clear mp Hp.
    pose proof (push_keyword_all s pos kw (skipn (length (parameters s)) pos) (Nat.min (length (parameters s)) (length pos)) D DK) as Hk.
    cbv zeta in Hk. set (mk := fold_left (push_keyword _ _ _) _ _) in *.
    destruct (keyword_ok s pos kw); cbn [andb].
    + rewrite Hk. unfold finished_pushing. cbn [valid negb single star_values kw_values].
      pose proof (fill_all s pos kw (parameters s)) as F. fold (names s) in F. unfold params_of. fold (rest_params s).
      destruct (fill_defaults _ _ _ _) as [l ok]. destruct F as [-> F]. cbn [valid single star_values kw_values]. auto.
    + unfold finished_pushing. rewrite Hk. cbn [negb]. rewrite Hk. split; [reflexivity|discriminate].
  - assert (forall m, valid _ m = false -> valid _ (fold_left (push_keyword V T (params_of s)) kw m) = false) as X.
    { clear. induction kw as [|a kw IH]; intros m H; [assumption|]. cbn [fold_left]. apply IH.
      unfold push_keyword. now rewrite H. }
    specialize (X _ Hp). unfold finished_pushing. rewrite X. cbn [negb]. rewrite X. split; [reflexivity|discriminate].
Qed.

(** ** Python's convention *)
Lemma keyword_names_plain (s : sig) : plain s -> keyword_names s = names s.
Proof. intros [P K]. unfold keyword_names. rewrite P, K. cbn [skipn map]. apply app_nil_r. Qed.
Lemma bound_some (s : sig) pos kw vs : plain s ->
  (length vs = length (parameters s) /\
   forall i n d, nth_error (parameters s) i = Some (n, d) -> nth_error vs i = argument s pos kw i n d) <->
  bound pos kw (parameters s) = map Some vs.
Proof.
  intros [P0 _]. unfold argument. rewrite P0. split.
  - intros [L H]. apply nth_error_ext'. intros i. rewrite nth_error_map.
    destruct (nth_error (parameters s) i) as [[n d]|] eqn:N.
    + rewrite (bound_nth _ _ _ _ _ _ N). specialize (H _ _ _ N). cbn [Nat.leb] in H.
      destruct (nth_error vs i) eqn:Nv; cbn [option_map]; [now rewrite <- H|].
      apply nth_error_None in Nv. assert (nth_error (parameters s) i <> None) as X by congruence. apply nth_error_Some in X. lia.
    + apply nth_error_None in N. rewrite !(proj2 (nth_error_None _ _)); [reflexivity|lia|rewrite bound_length; lia].
  - intros E. pose proof (f_equal (@length _) E) as L. rewrite bound_length, map_length in L. split; [auto|].
    intros i n d N. pose proof (f_equal (fun l => nth_error l i) E) as Ei. cbv beta in Ei.
    rewrite (bound_nth _ _ _ _ _ _ N), nth_error_map in Ei. cbn [Nat.leb].
    destruct (nth_error vs i); cbn in Ei; congruence.
Qed.
Lemma all_some {A} (l : list (option A)) : forallb is_some l = true <-> exists vs, l = map Some vs.
Proof.
  induction l as [|[x|] l IH]; cbn [forallb is_some andb].
  - split; [exists []; reflexivity|auto].
  - rewrite IH. split; intros [vs E].
    + exists (x :: vs). now rewrite E.
    + destruct vs as [|y vs]; [discriminate|]. exists vs. injection E as _ E. assumption.
  - split; [discriminate|]. intros [[|y vs] E]; discriminate.
Qed.
Lemma python_binds_plain (s : sig) pos kw b : plain s -> NoDup (names s) -> 
  python_binds s pos kw b <->
  call_ok s pos kw = true /\ bound pos kw (parameters s) = map Some (b_values b) /\
  b_star b = skipn (length (parameters s)) pos /\ b_kwonly b = [] /\ b_extra b = others s kw.
Proof.
  intros PL D. pose proof PL as [P0 K0]. unfold call_ok. rewrite !andb_true_iff, orb_true_iff, Nat.leb_le. split.
  - intros [TM TW UK BV BS BK BE]. rewrite (keyword_names_plain _ PL) in *. apply (proj1 (bound_some s pos kw _ PL)) in BV.
    split; [|repeat split; auto; destruct BK as [BK _]; rewrite K0 in BK; destruct (b_kwonly b); [reflexivity|discriminate]].
    split; [split|].
    + unfold takes_star. destruct (s_varargs _ _ s); [now right|left; auto].
    + apply forallb_forall. intros [n v] I. cbn [fst]. destruct (index_of n (names s)) as [i|] eqn:X.
      * apply index_of_some in X. apply Nat.leb_le. destruct (Nat.le_gt_cases (length pos) i) as [|L]; [assumption|exfalso].
        rewrite P0 in TW. specialize (TW i n (Nat.le_0_l _) L X). apply keyword_none in TW. apply TW.
        apply (in_map fst) in I. assumption.
      * apply index_of_none in X. unfold takes_keywords. destruct (s_varkw _ _ s); [reflexivity|].
        exfalso. apply X. eapply UK; eauto.
    + apply all_some. eauto.
  - intros [[[TM KO] _] [BV [BS [BK BE]]]]. unfold keyword_ok in KO. rewrite forallb_forall in KO.
    assert (forall n v, In (n, v) kw -> match index_of n (names s) with Some i => length pos <=? i | None => takes_keywords s end = true) as KO'.
    { intros n v I. apply (KO (n, v) I). }
    constructor.
    + intros VA. unfold takes_star in TM. rewrite VA in TM. destruct TM; [assumption|discriminate].
    + intros i n _ L N. destruct (keyword kw n) as [v|] eqn:E; [|reflexivity].
      apply keyword_in in E. specialize (KO' _ _ E). fold (names s) in N. rewrite (index_of_nth _ _ _ D N) in KO'.
      apply Nat.leb_le in KO'. lia.
    + intros VK n v I. rewrite (keyword_names_plain _ PL). specialize (KO' _ _ I). unfold takes_keywords in KO'. rewrite VK in KO'.
      destruct (index_of n (names s)) eqn:X; [|discriminate]. apply index_of_some in X. eapply nth_error_In; eauto.
    + apply (bound_some _ _ _ _ PL). assumption.
    + assumption.
    + rewrite K0, BK. split; [reflexivity|]. intros [|i] n d; discriminate.
    + rewrite (keyword_names_plain _ PL). assumption.
Qed.
Lemma well_formed_names (s : sig) : well_formed s -> NoDup (names s).
Proof.
  intros [D _]. unfold names. revert D. generalize (map fst (s_kwonly _ _ s)). intros l.
  induction (map fst (parameters s)) as [|n m IH]; [constructor|]. cbn [app]. intros D. apply NoDup_cons_iff in D as [N D].
  constructor; [|auto]. intros I. apply N. apply in_app_iff. now left.
Qed.

(** Calling the Python function with what the mapping is flattened to binds the same values. *)
Definition flat (b : binding) : list V * list (name * V) := (b_values b ++ b_star b, b_extra b).
Lemma python_binds_flat (s : sig) (b : binding) : plain s -> NoDup (names s) ->
  length (b_values b) = length (parameters s) -> b_kwonly b = [] ->
  (s_varargs _ _ s = None -> b_star b = []) -> (s_varkw _ _ s = None -> b_extra b = []) ->
  (forall n v, In (n, v) (b_extra b) -> ~ In n (names s)) ->
  python_binds s (fst (flat b)) (snd (flat b)) b.
Proof.
  intros PL D L K ST EX NI. apply (python_binds_plain _ _ _ _ PL D). cbn [flat fst snd].
  assert (bound (b_values b ++ b_star b) (b_extra b) (parameters s) = map Some (b_values b)) as BV.
  { apply (bound_some _ _ _ _ PL). split; [assumption|]. intros i n d N.
    assert (i < length (b_values b)) as B by (rewrite L; apply nth_error_Some; congruence).
    unfold argument. rewrite nth_error_app1 by assumption.
    destruct (nth_error (b_values b) i) eqn:X; [reflexivity|]. apply nth_error_None in X. lia. }
  split; [|split; [assumption|split; [|split; [assumption|]]]].
  - unfold call_ok. rewrite BV, !andb_true_iff, orb_true_iff, Nat.leb_le. repeat split.
    + unfold takes_star. destruct (s_varargs _ _ s); [now right|left]. rewrite ST by reflexivity. rewrite app_nil_r. lia.
    + apply forallb_forall. intros [n v] I. cbn [fst]. specialize (NI _ _ I). apply index_of_none in NI. rewrite NI.
      unfold takes_keywords. destruct (s_varkw _ _ s); [reflexivity|]. rewrite EX in I by reflexivity. destruct I.
    + apply all_some. eauto.
  - rewrite <- L, skipn_app, Nat.sub_diag, skipn_all. reflexivity.
  - unfold others. revert NI. generalize (b_extra b). clear. intros l.
    induction l as [|[n v] l IH]; intros NI; [reflexivity|]. cbn [filter fst].
    destruct (existsb (name_eqb n) (names s)) eqn:E.
    + apply existsb_name in E. exfalso. eapply NI; [now left|assumption].
    + cbn [negb]. f_equal. apply IH. intros m w I. apply (NI m w). now right.
Qed.

(** ** Flattening *)
Lemma positional_tuple_all (s : sig) P vs star : length vs = length P -> (s_varargs _ _ s = None -> star = []) ->
  positional_tuple V T (map (mk s) P ++ rest_params s) (map Some vs ++ repeat None (length (rest_params s))) star = Ok (vs ++ star).
Proof.
  intros L ST. revert vs L; induction P as [|q P IH]; intros [|v vs] L; try discriminate.
  - cbn [map app]. unfold rest_params, star_param, kw_param.
    destruct (s_varargs _ _ s) eqn:VA; [|rewrite ST by reflexivity].
    + destruct (s_varkw _ _ s); cbn; now rewrite ?app_nil_r.
    + destruct (s_varkw _ _ s); reflexivity.
  - cbn [map app positional_tuple mk p_kind]. rewrite IH by (cbn [length] in L; lia). reflexivity.
Qed.
Lemma dict_set_new (d : list (name * V)) n v : ~ In n (map fst d) -> dict_set V d n v = d ++ [(n, v)].
Proof.
  induction d as [|[m w] d IH]; cbn [dict_set map fst In app]; [reflexivity|]. intros N.
  rewrite (proj2 (name_eqb_false m n)) by tauto. now rewrite IH by tauto.
Qed.
Lemma keyword_dict_all (s : sig) kws : NoDup (map fst kws) -> (s_varkw _ _ s = None -> kws = []) ->
  keyword_dict V T (params_of s) kws = kws.
Proof.
  intros D E. unfold keyword_dict.
  assert (existsb (fun p => match p_kind _ _ p with Keywords => true | _ => false end) (params_of s) = takes_keywords s) as ->.
  { unfold params_of. rewrite !existsb_app.
    assert (existsb (fun p => match p_kind _ _ p with Keywords => true | _ => false end) (map (mk s) (parameters s)) = false) as ->.
    { induction (parameters s); [reflexivity|]. cbn. assumption. }
    unfold star_param, kw_param, takes_keywords. destruct (s_varargs _ _ s), (s_varkw _ _ s); reflexivity. }
  unfold takes_keywords. destruct (s_varkw _ _ s); [|now rewrite E]. clear E.
  assert (forall d, NoDup (map fst (d ++ kws)) -> fold_left (fun d a => dict_set V d (fst a) (snd a)) kws d = d ++ kws) as X.
  { clear. induction kws as [|[n v] kws IH]; intros d D; [now rewrite app_nil_r|]. cbn [fold_left fst snd].
    rewrite dict_set_new.
    - rewrite IH, <- app_assoc; [reflexivity|]. now rewrite <- app_assoc.
    - rewrite map_app in D. cbn [map fst] in D. apply NoDup_remove_2 in D. intros I. apply D. apply in_app_iff. now left. }
  apply (X []). assumption.
Qed.
Lemma others_facts (s : sig) kw : NoDup (map fst kw) -> NoDup (map fst (others s kw)) /\
  (forall n v, In (n, v) (others s kw) -> ~ In n (names s)).
Proof.
  intros D. split.
  - unfold others. induction kw as [|[n v] kw IH]; [constructor|]. cbn [map fst] in D. apply NoDup_cons_iff in D as [N D].
    cbn [filter fst]. destruct (negb _); [|auto]. cbn [map fst]. constructor; [|auto].
    intros I. apply N. apply in_map_iff in I as [a [E I]]. apply filter_In in I as [I _]. apply in_map_iff. eauto.
  - intros n v I. unfold others in I. apply filter_In in I as [_ X]. cbn [fst] in X.
    destruct (existsb (name_eqb n) (names s)) eqn:E; [discriminate|]. intros J. apply existsb_name in J. congruence.
Qed.
End Values.
