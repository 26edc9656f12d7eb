(** Every execution of [pmap] ends: each step makes a natural number smaller. *)
From Verif Require Import Base PyList PyList_Proofs Pmap_Model Pmap_Spec Pmap_Proofs Pmap_Live_Proofs.
From Coq Require Import ZifyBool ZifyNat.
Open Scope nat_scope.
Open Scope result_scope.

Section End_.
  Context {V E : Type}.
  Variable cpu : Z.
  Notation body := (body V E).
  Notation job := (job V E).
  Notation activity := (activity V E).
  Notation frame := (frame V E).
  Notation thread := (thread V E).
  Notation state := (state V E).
  Notation moved := (moved cpu).
  Notation tmoved := (tmoved cpu).

  Fixpoint cost (b : body) : nat :=
    match b with
    | Return _ => 1
    | Pmap bs _ k => 10 + list_sum (map (fun b => 10 + cost b) bs) + cost (k (in_order (map eval bs)))
    end.

  Definition pre (jb : job) (m : nat) : nat := list_sum (map (fun b => 3 + cost b) (firstn m (bodies jb))).
  Definition total (jb : job) : nat := pre jb (length (bodies jb)).

  Lemma list_sum_app l1 l2 : list_sum (l1 ++ l2) = list_sum l1 + list_sum l2.
  Proof. induction l1; cbn [app list_sum fold_right] in *; [reflexivity|]. unfold list_sum in *. cbn. lia. Qed.
  Lemma firstn_extend (l : list body) m d : exists r, firstn (m + d) l = firstn m l ++ r.
  Proof.
    revert l; induction m as [|m IH]; intros l; [exists (firstn d l); reflexivity|]. destruct l as [|x l]; [exists []; reflexivity|].
    destruct (IH l) as (r & R). exists r. cbn. now rewrite R.
  Qed.
  Lemma pre_mono jb m m' : m <= m' -> pre jb m <= pre jb m'.
  Proof.
    intros L. replace m' with (m + (m' - m)) by lia. unfold pre. destruct (firstn_extend (bodies jb) m (m' - m)) as (r & ->).
    rewrite map_app, list_sum_app. lia.
  Qed.
  Lemma pre_total jb m : pre jb m <= total jb.
  Proof.
    unfold total. destruct (Nat.leb_spec m (length (bodies jb))) as [L|L]; [now apply pre_mono|].
    unfold pre. rewrite !firstn_all2 by lia. lia.
  Qed.
  Lemma pre_S jb m b : nth_error (bodies jb) m = Some b -> pre jb (S m) = pre jb m + (3 + cost b).
  Proof.
    intros N. destruct (nth_error_split _ _ N) as (l1 & l2 & H & L). unfold pre. rewrite H.
    rewrite <- L. rewrite (firstn_app (S (length l1))), (firstn_app (length l1)).
    rewrite Nat.sub_diag. replace (S (length l1) - length l1) with 1 by lia.
    rewrite firstn_all, (firstn_all2 (n := S (length l1))) by lia. cbn [firstn]. rewrite app_nil_r, map_app, list_sum_app.
    cbn [map list_sum fold_right]. lia.
  Qed.

  Definition pw (jb : job) (p : phase) : nat :=
    match p with
    | Pushing n => 4 + 5 * (jobCount jb - n) + (total jb - pre jb (n * gran jb))
    | Draining => 2
    | Waiting _ => 1
    end.
  Definition aw (js : list job) (a : activity) : nat :=
    match a with
    | Running b => cost b
    | Calling j p k => match nth_error js j with
                       | Some jb => cost (k (in_order (map eval (bodies jb)))) + pw jb p
                       | None => 0
                       end
    | Ending => 0
    end.
  Definition weight (js : list job) (f : frame) : nat :=
    match f with
    | Exec j i ix Ending => 2
    | Exec j i ix a => aw js a + 3 + match nth_error js j with Some jb => pre jb (S i * gran jb) - pre jb (S ix) | None => 0 end
    | Main _ a => aw js a
    end.
  Definition qw (js : list job) (ji : nat * nat) : nat :=
    match nth_error js (fst ji) with
    | Some jb => 4 + (pre jb (S (snd ji) * gran jb) - pre jb (snd ji * gran jb))
    | None => 0
    end.
  Definition out (js : list job) : nat := list_sum (map (fun jb => length (outputQueue jb)) js).
  Definition qsum (js : list job) (wq : list (nat * nat)) : nat := list_sum (map (qw js) wq).
  Definition measure (js : list job) (wq : list (nat * nat)) (F : list frame) : nat := sum (weight js) F + qsum js wq + out js.

  (** Nothing else depends on what changes in a job. *)
  Definition keeps (js js' : list job) : Prop :=
    forall j jb, nth_error js j = Some jb -> exists jb', nth_error js' j = Some jb' /\ bodies jb' = bodies jb /\ gran jb' = gran jb.
  Lemma keeps_refl js : keeps js js.
  Proof. intros j jb N. eauto. Qed.
  Lemma keeps_replace js j jb jb' : nth_error js j = Some jb -> bodies jb' = bodies jb -> gran jb' = gran jb -> keeps js (replace_nth j jb' js).
  Proof.
    intros N B G j0 jb0 N0. destruct (Nat.eq_dec j j0) as [<-|D].
    - exists jb'. rewrite nth_error_replace_same by (apply nth_error_Some; congruence). assert (jb0 = jb) as -> by congruence. auto.
    - exists jb0. rewrite nth_error_replace_other by exact D. auto.
  Qed.
  Lemma keeps_snoc js jb : keeps js (js ++ [jb]).
  Proof. intros j jb0 N. exists jb0. rewrite nth_error_app1; [auto|]. apply nth_error_Some. congruence. Qed.

  Lemma aw_keeps js js' a r : keeps js js' -> act_ok js a r -> aw js' a = aw js a.
  Proof.
    intros K A. destruct a as [b|j p k|]; try reflexivity. destruct A as (jb & N & _). destruct (K _ _ N) as (jb' & N' & B & G).
    cbn [aw]. rewrite N, N', B. f_equal. unfold pw, jobCount, total, pre. now rewrite B, G.
  Qed.
  Lemma weight_keeps js js' f : keeps js js' -> frame_ok js f -> weight js' f = weight js f.
  Proof.
    intros K Fk. destruct f as [j i ix a|p a]; cbn [weight frame_ok] in *.
    - destruct a as [b|jc p k|]; [| |reflexivity]; destruct Fk as (jb & N & _ & _ & _ & b0 & _ & A);
        destruct (K _ _ N) as (jb' & N' & B & G); rewrite (aw_keeps _ _ _ _ K A); rewrite N, N'; unfold pre; now rewrite B, G.
    - eapply aw_keeps; eauto.
  Qed.
  Lemma sum_keeps js js' l : keeps js js' -> (forall f, In f l -> frame_ok js f) -> sum (weight js') l = sum (weight js) l.
  Proof.
    intros K. induction l as [|f l IH]; intros H; cbn [sum]; [reflexivity|]. rewrite (weight_keeps js js') by (auto; apply H; now left).
    rewrite IH; [reflexivity|]. intros g Hg. apply H. now right.
  Qed.
  Lemma qsum_keeps js js' wq : keeps js js' -> (forall j i, In (j, i) wq -> exists jb, nth_error js j = Some jb) -> qsum js' wq = qsum js wq.
  Proof.
    intros K. unfold qsum. induction wq as [|[j i] wq IH]; intros H; cbn [map list_sum fold_right]; [reflexivity|].
    destruct (H j i (or_introl eq_refl)) as (jb & N). destruct (K _ _ N) as (jb' & N' & B & G).
    unfold list_sum in IH. rewrite IH by (intros; apply (H j0 i0); now right). f_equal. unfold qw. cbn [fst snd]. rewrite N, N'.
    unfold pre. now rewrite B, G.
  Qed.
  Lemma qsum_snoc js wq x : qsum js (wq ++ [x]) = qsum js wq + qw js x.
  Proof. unfold qsum. rewrite map_app, list_sum_app. cbn. lia. Qed.
  Lemma out_replace js j jb jb' : nth_error js j = Some jb ->
    out (replace_nth j jb' js) + length (outputQueue jb) = out js + length (outputQueue jb').
  Proof.
    intros N. destruct (nth_error_split _ _ N) as (l1 & l2 & H & L). rewrite H, <- L, replace_nth_middle. unfold out.
    rewrite !map_app, !list_sum_app. cbn. lia.
  Qed.
  Lemma out_snoc js jb : out (js ++ [jb]) = out js + length (outputQueue jb).
  Proof. unfold out. rewrite map_app, list_sum_app. cbn. lia. Qed.

  Lemma jobCount_le (jb : job) : 1 <= gran jb -> jobCount jb <= length (bodies jb).
  Proof.
    intros G. destruct (Nat.leb_spec (jobCount jb) (length (bodies jb))) as [|L]; [assumption|].
    apply (job_count_spec _ _ _ G) in L. nia.
  Qed.
  Lemma new_total bs mg : total (new_job cpu bs mg) + 7 * length bs = list_sum (map (fun b => 10 + cost b) bs).
  Proof.
    unfold total, pre. cbn [new_job bodies]. rewrite firstn_all. induction bs as [|b bs IH]; cbn [map list_sum fold_right length]; [reflexivity|].
    unfold list_sum in *. lia.
  Qed.

  Lemma set_weight js f a : (forall j i ix, f <> Exec j i ix Ending) -> a <> Ending -> aw js a < aw js (act_of f) -> weight js (set_act f a) < weight js f.
  Proof.
    intros N1 N2 L. destruct f as [j i ix a0|p a0]; cbn [set_act act_of weight] in *; [|exact L].
    destruct a; [| |congruence]; (destruct a0; [| |exfalso; eapply N1; reflexivity]); lia.
  Qed.
  Lemma set_weight_add js f a n : (forall j i ix, f <> Exec j i ix Ending) -> a <> Ending -> aw js a + n < aw js (act_of f) -> weight js (set_act f a) + n < weight js f.
  Proof.
    intros N1 N2 L. destruct f as [j i ix a0|p a0]; cbn [set_act act_of weight] in *; [|exact L].
    destruct a; [| |congruence]; (destruct a0; [| |exfalso; eapply N1; reflexivity]); lia.
  Qed.

  Lemma at_element_weight js j i ix (jb jb' : job) f : at_element j i ix jb = Ok (jb', f) -> nth_error js j = Some jb' ->
    bodies jb' = bodies jb -> gran jb' = gran jb ->
    weight js f <= 3 + (pre jb (S i * gran jb) - pre jb ix).
  Proof.
    intros A N B G. unfold at_element in A. destruct (Nat.ltb_spec ix (chunk_end jb i)) as [L|L].
    - destruct (nth_error (bodies jb) ix) as [b|] eqn:Nb; [|discriminate]. injection A as <- <-. cbn [weight aw]. rewrite N.
      unfold pre at 1 2. cbn [bodies gran]. fold (pre jb (S i * gran jb)). fold (pre jb (S ix)).
      apply chunk_end_spec in L. destruct L as [L1 L2]. rewrite (pre_S jb ix b Nb) in *.
      assert (pre jb (S ix) <= pre jb (S i * gran jb)) as M by (apply pre_mono; lia). rewrite (pre_S jb ix b Nb) in M. lia.
    - injection A as <- <-. cbn [weight]. lia.
  Qed.
  Lemma at_element_job j i ix (jb jb' : job) f : at_element j i ix jb = Ok (jb', f) ->
    bodies jb' = bodies jb /\ gran jb' = gran jb /\ outputQueue jb' = outputQueue jb.
  Proof.
    unfold at_element. destruct (_ <? _); [destruct (nth_error _ _); [|discriminate]|]; intros [= <- _]; auto.
  Qed.

  Lemma begin_measure js j i js' f : begin js j i = Ok (js', f) -> keeps js js' /\ out js' = out js /\ weight js' f < qw js (j, i).
  Proof.
    unfold begin, get_job. destruct (nth_error js j) as [jb|] eqn:N; [|discriminate]. cbn [bind].
    destruct (at_element j i (i * gran jb) jb) as [[jb' f']|] eqn:A; [|discriminate]. cbn [bind]. intros [= <- <-].
    destruct (at_element_job _ _ _ _ _ _ A) as (B & G & O). split; [eapply keeps_replace; eauto|]. split.
    - pose proof (out_replace js j jb jb' N). rewrite O in *. lia.
    - unfold qw. cbn [fst snd]. rewrite N. pose proof (at_element_weight (replace_nth j jb' js) _ _ _ _ _ _ A) as W.
      rewrite nth_error_replace_same in W by (apply nth_error_Some; congruence). specialize (W eq_refl B G). lia.
  Qed.

  Lemma moved_measure js wq ex A f B js' wq' fs : inv js wq (A ++ f :: B) -> moved js wq ex f js' wq' fs ->
    measure js' wq' (A ++ fs ++ B) < measure js wq (A ++ f :: B).
  Proof.
    intros I0 M. pose proof (i_frames _ _ _ I0 f (in_split_frames _ _ _)) as Fk.
    assert (KA : forall js1, keeps js js1 -> sum (weight js1) A = sum (weight js) A /\ sum (weight js1) B = sum (weight js) B /\
                 weight js1 f = weight js f).
    { intros js1 K. split; [|split]; [apply sum_keeps|apply sum_keeps|apply weight_keeps]; auto;
        intros g Hg; apply (i_frames _ _ _ I0); apply in_or_app; cbn; tauto. }
    assert (KW : forall js1 wq1, keeps js js1 -> (forall x, In x wq1 -> In x wq) -> qsum js1 wq1 = qsum js wq1).
    { intros js1 wq1 K Sub. apply qsum_keeps; [exact K|]. intros j i H. destruct (i_work _ _ _ I0 j i (Sub _ H)) as (jb & N & _). eauto. }
    unfold measure. rewrite !sum_app. cbn [sum].
    destruct M as [bs mg k Ha|j i ix v jb jb1 jb2 f2 -> N E1 E2|j i ix e jb -> N|j n k jb Ha N L|j n k jb Ha N L Ex|j n k jb Ha N L Ex
                  |j k Ha Hw|j k j' i wq' js' g Ha Hw E1|j taken k jb i q Ha N L OQ|j taken k jb Ha N L|j i ix jb -> N]; cbn [sum].
    - set (js1 := js ++ [new_job cpu bs mg]). assert (K : keeps js js1) by apply keeps_snoc.
      destruct (KA js1 K) as (-> & -> & Wf). rewrite (KW js1 wq K) by auto. unfold js1 at 2. rewrite out_snoc. cbn [new_job outputQueue length].
      enough (weight js1 (set_act f (Calling (length js) (Pushing 0) k)) < weight js1 f) by lia.
      apply set_weight; [intros ? ? ? ->; discriminate|discriminate|]. rewrite Ha. cbn [aw]. unfold js1 at 1.
      rewrite nth_error_app2, Nat.sub_diag by lia. cbn [nth_error cost]. cbn [bodies new_job]. cbn [pw].
      pose proof (new_total bs mg) as NT. pose proof (jobCount_le (new_job cpu bs mg)) as JC.
      cbn [new_job gran bodies] in JC. specialize (JC (granularity_pos cpu _ _)).
      fold (new_job cpu bs mg) in JC. change {| bodies := bs; gran := granularity cpu (length bs) mg; slots := repeat None (length bs);
         outputQueue := []; exceptionQueue := []; called := [] |} with (new_job cpu bs mg) in *. lia.
    - destruct (at_element_job _ _ _ _ _ _ E2) as (B2 & G2 & O2).
      assert (bodies jb1 = bodies jb /\ gran jb1 = gran jb /\ outputQueue jb1 = outputQueue jb) as (B1 & G1 & O1).
      { unfold initialize in E1. destruct (nth_error (slots jb) ix) as [[|]|]; try discriminate. injection E1 as <-. auto. }
      assert (K : keeps js (replace_nth j jb2 js)) by (eapply keeps_replace; [exact N|congruence..]).
      destruct (KA _ K) as (-> & -> & _). rewrite (KW _ wq K) by auto.
      pose proof (out_replace js j jb jb2 N) as Oq. rewrite O2, O1 in Oq.
      pose proof (at_element_weight (replace_nth j jb2 js) _ _ _ _ _ _ E2) as W.
      rewrite nth_error_replace_same in W by (apply nth_error_Some; congruence). specialize (W eq_refl B2 G2).
      cbn [weight aw cost]. rewrite N. unfold pre in *. rewrite B1, G1 in W. lia.
    - assert (K : keeps js (replace_nth j (put_exception jb ix e) js)) by (eapply keeps_replace; eauto).
      destruct (KA _ K) as (-> & -> & _). rewrite (KW _ wq K) by auto.
      pose proof (out_replace js j jb (put_exception jb ix e) N) as Oq. cbn [put_exception outputQueue] in Oq.
      cbn [weight aw cost]. lia.
    - rewrite qsum_snoc. enough (weight js (set_act f (Calling j (Pushing (S n)) k)) + qw js (j, n) < weight js f) by lia.
      apply set_weight_add; [intros ? ? ? ->; discriminate|discriminate|]. rewrite Ha. unfold qw. cbn [aw fst snd]. rewrite N. cbn [pw].
      assert (pre jb (n * gran jb) <= pre jb (S n * gran jb)) by (apply pre_mono; lia). pose proof (pre_total jb (S n * gran jb)). lia.
    - enough (weight js (set_act f (Calling j Draining k)) < weight js f) by lia.
      apply set_weight; [intros ? ? ? ->; discriminate|discriminate|]. rewrite Ha. cbn [aw]. rewrite N. cbn [pw]. lia.
    - enough (weight js (set_act f (Calling j (Waiting []) k)) < weight js f) by lia.
      apply set_weight; [intros ? ? ? ->; discriminate|discriminate|]. rewrite Ha. cbn [aw]. rewrite N. cbn [pw]. lia.
    - enough (weight js (set_act f (Calling j (Waiting []) k)) < weight js f) by lia.
      destruct (calling_job js f j _ k Fk Ha) as (jb & N & _).
      apply set_weight; [intros ? ? ? ->; discriminate|discriminate|]. rewrite Ha. cbn [aw]. rewrite N. cbn [pw]. lia.
    - subst wq. destruct (begin_measure _ _ _ _ _ E1) as (K & O & W). destruct (KA _ K) as (-> & -> & ->).
      rewrite (KW _ wq' K) by (intros; now right). unfold qsum. cbn [map list_sum fold_right].
      unfold list_sum. lia.
    - assert (K : keeps js (replace_nth j (set_output jb q) js)) by (eapply keeps_replace; eauto).
      destruct (KA _ K) as (-> & -> & Wf). rewrite (KW _ wq K) by auto.
      pose proof (out_replace js j jb (set_output jb q) N) as Oq. rewrite OQ in Oq. cbn [set_output outputQueue length] in Oq.
      assert (weight (replace_nth j (set_output jb q) js) (set_act f (Calling j (Waiting (taken ++ [i])) k)) =
              weight (replace_nth j (set_output jb q) js) f) as ->.
      { destruct f as [j0 i0 ix0 a0|p0 a0]; cbn [act_of set_act weight] in *; subst a0; reflexivity. }
      lia.
    - enough (weight js (set_act f (Running (k (in_order (map eval (bodies jb)))))) < weight js f) by lia.
      apply set_weight; [intros ? ? ? ->; discriminate|discriminate|]. rewrite Ha. cbn [aw]. rewrite N. cbn [pw]. lia.
    - assert (K : keeps js (replace_nth j (set_output jb (outputQueue jb ++ [i])) js)) by (eapply keeps_replace; eauto).
      destruct (KA _ K) as (-> & -> & _). rewrite (KW _ wq K) by auto.
      pose proof (out_replace js j jb (set_output jb (outputQueue jb ++ [i])) N) as Oq. cbn [set_output outputQueue] in Oq.
      rewrite app_length in Oq. cbn [length] in Oq. cbn [weight]. lia.
  Qed.

  Definition measure_of (s : state) : nat := measure (jobs s) (work s) (frames (threads s)).

  Lemma step_measure (s : state) t s' : Inv s -> step cpu t s = Ok (Some s') -> measure_of s' < measure_of s.
  Proof.
    intros I0 E1. destruct (step_cases cpu s t I0) as [[E2 _]|(a & th & b & js' & wq' & th' & Ht & La & M & E2)]; [congruence|].
    rewrite E1 in E2. injection E2 as ->. destruct I0 as [IF _]. unfold measure_of. rewrite Ht in *. cbn [jobs work threads].
    rewrite !frames_app in *. cbn [frames] in *.
    destruct M as [j i wq' js' f Ex S W E3|f rest js' wq' fs S M]; rewrite S in *; cbn [stack app] in *.
    - destruct (begin_measure _ _ _ _ _ E3) as (K & O & W3). rewrite W in *. unfold measure. rewrite !sum_app. cbn [sum].
      rewrite !(sum_keeps (jobs s) js'); auto;
        [|intros g Hg; apply (i_frames _ _ _ IF); apply in_or_app; tauto..].
      rewrite (qsum_keeps (jobs s) js'); [|exact K|].
      2: { intros j0 i0 H0. destruct (i_work _ _ _ IF j0 i0) as (jb & N & _); [now right|eauto]. }
      unfold qsum. cbn [map list_sum fold_right]. unfold list_sum. lia.
    - rewrite <- app_assoc. eapply moved_measure; eauto.
  Qed.

  Lemma moves_bounded sch : forall s : state, Inv s -> moves cpu sch s <= measure_of s.
  Proof.
    induction sch as [|t sch IH]; intros s I0; cbn [moves]; [lia|].
    destruct (step cpu t s) as [[s'|]|] eqn:E1; [|auto|auto].
    pose proof (step_measure _ _ _ I0 E1). pose proof (step_inv _ _ _ _ I0 E1) as I1. specialize (IH s' I1). lia.
  Qed.

  Lemma run_app a : forall b (s s1 : state), run cpu a s = Ok s1 -> run cpu (a ++ b) s = run cpu b s1.
  Proof.
    induction a as [|t a IH]; intros b s s1; cbn [run app]; [intros [= ->]; reflexivity|].
    destruct (step cpu t s) as [[s'|]|]; cbn [bind]; [apply IH|apply IH|discriminate].
  Qed.
  Lemma moves_measure sch : forall s s' : state, Inv s -> run cpu sch s = Ok s' -> measure_of s' + moves cpu sch s <= measure_of s.
  Proof.
    induction sch as [|t sch IH]; intros s s' I0; cbn [moves run]; [intros [= ->]; lia|].
    destruct (step cpu t s) as [[s1|]|] eqn:E1; cbn [bind]; [|apply IH; exact I0|discriminate].
    intros R. pose proof (step_measure _ _ _ I0 E1). pose proof (step_inv _ _ _ _ I0 E1) as I1. specialize (IH _ _ I1 R). lia.
  Qed.
  Lemma no_moves sch : forall s : state, Inv s -> moves cpu sch s = 0 -> forall t, In t sch -> step cpu t s = Ok None.
  Proof.
    induction sch as [|t sch IH]; intros s I0; cbn [moves]; [intros _ t []|].
    destruct (step_cases cpu s t I0) as [[E2 _]|(a & th & b & js' & wq' & th' & Ht & La & M & E2)]; rewrite E2; [|discriminate].
    intros M0 t' [<-|H]; [exact E2|]. now apply IH.
  Qed.
  Lemma stuck_run sch (s : state) : stuck cpu s -> run cpu sch s = Ok s.
  Proof. intros St. induction sch as [|t sch IH]; cbn [run]; [reflexivity|]. rewrite (St t). exact IH. Qed.

  Lemma fair_rounds rounds : forall s : state, Inv s -> Forall (fair_round (length (threads s))) rounds -> measure_of s < length rounds ->
    exists s', run cpu (concat rounds) s = Ok s' /\ Inv s' /\ stuck cpu s'.
  Proof.
    induction rounds as [|r rounds IH]; intros s I0 F L; cbn [length] in L; [lia|].
    apply Forall_cons_iff in F. destruct F as [Fr F]. cbn [concat].
    destruct (run_ok cpu r s I0) as (s1 & R1 & I1 & L1). pose proof (moves_measure _ _ _ I0 R1) as MM.
    destruct (Nat.eq_dec (moves cpu r s) 0) as [Z0|NZ].
    - assert (St : stuck cpu s).
      { intros t. destruct (Nat.ltb_spec t (length (threads s))) as [Lt|Ge].
        - apply (no_moves r s I0 Z0). now apply Fr.
        - unfold step. assert (nth_error (threads s) t = None) as -> by (now apply nth_error_None). reflexivity. }
      exists s. split; [|auto]. apply stuck_run. exact St.
    - destruct (IH s1 I1) as (s' & R' & I' & St'); [now rewrite L1|lia|].
      exists s'. split; [|auto]. now rewrite (run_app r _ s s1 R1).
  Qed.

  (** ** From the start *)
  Lemma start_roles executors programs :
    map role (threads (start (V:=V) (E:=E) executors programs)) = repeat (true, None) executors ++ map (fun p => (false, Some p)) programs.
  Proof.
    cbn [start threads]. rewrite map_app. f_equal; [induction executors as [|n IH]; [reflexivity|]; cbn [repeat map]; rewrite IH; reflexivity|]. now rewrite map_map.
  Qed.

  (** The thread of the program [t], in a state reached from the start. *)
  Lemma nth_role sch executors programs (s : state) t p : run cpu sch (start executors programs) = Ok s -> nth_error programs t = Some p ->
    exists th a, nth_error (threads s) (executors + t) = Some th /\ executor th = false /\ stack th = [Main p a].
  Proof.
    intros R N. destruct (run_ok cpu sch _ (start_inv executors programs)) as (s' & R' & I' & _).
    assert (s' = s) as -> by congruence. pose proof (run_roles cpu sch _ _ (start_inv executors programs) R) as Ro. rewrite start_roles in Ro.
    assert (nth_error (map role (threads s)) (executors + t) = Some (false, Some p)) as X.
    { rewrite Ro, nth_error_app2; rewrite repeat_length; [|lia]. replace (executors + t - executors) with t by lia.
      exact (map_nth_error (fun p => (false, Some p)) t programs N). }
    rewrite nth_error_map in X. destruct (nth_error (threads s) (executors + t)) as [th|] eqn:Nt; [|discriminate].
    cbn in X. injection X as X1 X2. exists th.
    pose proof (nth_error_In _ _ Nt) as Hin. pose proof (I_threads _ I') as IT. rewrite Forall_forall in IT. specialize (IT th Hin).
    unfold thread_ok in IT. rewrite X1 in IT. destruct IT as (p' & a & S & _). rewrite S in X2. injection X2 as ->. eauto.
  Qed.
  Lemma some_executor sch executors programs (s : state) : run cpu sch (start executors programs) = Ok s -> 1 <= executors ->
    exists th, In th (threads s) /\ executor th = true.
  Proof.
    intros R L. pose proof (run_roles cpu sch _ _ (start_inv executors programs) R) as Ro. rewrite start_roles in Ro.
    destruct executors as [|n]; [lia|]. cbn [repeat app] in Ro. destruct (threads s) as [|th l]; [discriminate|].
    cbn [map] in Ro. exists th. split; [now left|]. unfold role in Ro at 1. congruence.
  Qed.
End End_.
