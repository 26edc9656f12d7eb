(** [pmap] ends: the threads never all wait for each other, and no execution goes on for ever. *)
From Verif Require Import Base PyList PyList_Proofs Pmap_Model Pmap_Spec Pmap_Proofs.
From Coq Require Import ZifyBool ZifyNat.
Open Scope nat_scope.
Open Scope result_scope.

Section Live.
  Context {V E : Type}.
  Variable cpu : Z.
  Notation body := (body V E).
  Notation job := (job V E).
  Notation activity := (activity V E).
  Notation frame := (frame V E).
  Notation thread := (thread V E).
  Notation state := (state V E).
  Notation moved := (moved cpu).

  Fixpoint frames (l : list thread) : list frame :=
    match l with [] => [] | th :: l => stack th ++ frames l end.
  Lemma frames_app a b : frames (a ++ b) = frames a ++ frames b.
  Proof. induction a as [|th a IH]; cbn [frames app]; [reflexivity|]. now rewrite IH, app_assoc. Qed.
  Lemma in_frames f l : In f (frames l) <-> exists th, In th l /\ In f (stack th).
  Proof.
    induction l as [|th l IH]; cbn [frames].
    - split; [intros []|intros (? & [] & _)].
    - rewrite in_app_iff, IH. cbn. split.
      + intros [H|(th' & H1 & H2)]; eauto.
      + intros (th' & [<-|H1] & H2); eauto.
  Qed.

  (** ** The shape of the stacks *)
  Definition exec_job (f : frame) : nat := match f with Exec j _ _ _ => j | Main _ _ => 0 end.
  Definition is_exec (f : frame) : Prop := match f with Exec _ _ _ _ => True | _ => False end.
  Definition is_draining (f : frame) : Prop := match act_of f with Calling _ Draining _ => True | _ => False end.
  Definition below (c : nat) (g : frame) : Prop :=
    exec_job g < c /\ match act_of g with Calling c' _ _ => c' < c | _ => True end.
  Fixpoint ordered (l : list frame) : Prop :=
    match l with
    | [] => True
    | f :: l => match act_of f with
                | Calling c _ _ => exec_job f < c /\ (forall g, In g l -> below c g)
                | _ => True
                end /\ ordered l
    end.
  Definition not_queued (wq : list (nat * nat)) (f : frame) : Prop :=
    match act_of f with Calling j (Waiting _) _ => forall i, ~ In (j, i) wq | _ => True end.

  Definition thread_ok (wq : list (nat * nat)) (th : thread) : Prop :=
    if executor th then
      Forall is_exec (stack th) /\ Forall is_draining (tl (stack th)) /\ ordered (stack th) /\ Forall (not_queued wq) (stack th)
    else exists p a, stack th = [Main p a] /\ match a with Calling _ Draining _ => False | _ => True end.

  Record Inv (s : state) : Prop :=
    { I_frames : inv (jobs s) (work s) (frames (threads s));
      I_threads : Forall (thread_ok (work s)) (threads s) }.

  Inductive tmoved (js : list job) (wq : list (nat * nat)) (th : thread) : list job -> list (nat * nat) -> thread -> Prop :=
  | t_get j i wq' js' f : executor th = true -> stack th = [] -> wq = (j, i) :: wq' -> begin js j i = Ok (js', f) ->
      tmoved js wq th js' wq' {| executor := true; stack := [f] |}
  | t_frame f rest js' wq' fs : stack th = f :: rest -> moved js wq (executor th) f js' wq' fs ->
      tmoved js wq th js' wq' {| executor := executor th; stack := fs ++ rest |}.
  Inductive twaits (js : list job) (wq : list (nat * nat)) (th : thread) : Prop :=
  | tw_idle : executor th = true -> stack th = [] -> wq = [] -> twaits js wq th
  | tw_frame f rest : stack th = f :: rest -> waits js f -> twaits js wq th.

  Lemma tstep_cases js wq th a b : inv js wq (frames (a ++ th :: b)) -> thread_ok wq th ->
    (tstep cpu js wq th = Ok None /\ twaits js wq th) \/
    exists js' wq' th', tstep cpu js wq th = Ok (Some (js', wq', th')) /\ tmoved js wq th js' wq' th'.
  Proof.
    intros I0 TO. rewrite frames_app in I0. cbn [frames] in I0. unfold tstep.
    destruct (stack th) as [|f rest] eqn:S.
    - unfold thread_ok in TO. destruct (executor th) eqn:Ex.
      + destruct wq as [|[j i] wq].
        * left. split; [reflexivity|]. now apply tw_idle.
        * right. destruct (begin_ok js wq j i (frames a) (frames b) I0) as (js' & f & E1 & _).
          rewrite E1. cbn [bind]. do 3 eexists. split; [reflexivity|]. eapply t_get; eauto.
      + rewrite S in TO. destruct TO as (? & ? & ? & _). discriminate.
    - cbn [app] in I0. destruct (fstep_cases cpu js wq (executor th) _ f _ I0) as [[E1 W]|(js' & wq' & fs & E1 & M)].
      + left. rewrite E1. cbn [bind]. split; [reflexivity|]. eapply tw_frame; eauto.
      + right. rewrite E1. cbn [bind]. do 3 eexists. split; [reflexivity|]. eapply t_frame; eauto.
  Qed.

  Lemma tmoved_inv js wq th js' wq' th' a b : inv js wq (frames (a ++ th :: b)) -> tmoved js wq th js' wq' th' ->
    inv js' wq' (frames (a ++ th' :: b)).
  Proof.
    intros I0 M. rewrite frames_app in *. cbn [frames] in *. destruct M as [j i wq' js' f Ex S W E1|f rest js' wq' fs S M].
    - rewrite S in I0. subst wq. cbn [app stack] in *.
      destruct (begin_ok js wq' j i (frames a) (frames b) I0) as (js1 & f1 & E1' & I1 & _).
      rewrite E1 in E1'. injection E1' as <- <-. exact I1.
    - rewrite S in I0. cbn [app stack] in *. rewrite <- app_assoc. eapply moved_inv; eauto.
  Qed.

  (** Only the job numbers of the calls matter for [ordered]. *)
  Lemma frame_ids js f : frame_ok js f -> is_exec f -> below (length js) f.
  Proof.
    destruct f as [j i ix a|p a]; [|intros _ []]. intros Fk _. unfold below. cbn [exec_job act_of].
    assert (exists jb, nth_error js j = Some jb) as (jb & N) by (cbn [frame_ok] in Fk; destruct a; destruct Fk as (jb & N & _); eauto).
    split; [apply nth_error_Some; congruence|]. destruct a as [b|c p k|]; auto.
    destruct (calling_job js (Exec j i ix (Calling c p k)) c p k Fk eq_refl) as (jb' & N' & _). apply nth_error_Some. congruence.
  Qed.

  Lemma begin_frame (js : list job) j i js' f : begin js j i = Ok (js', f) -> exists ix a, f = Exec j i ix a /\ (a = Ending \/ exists b, a = Running b).
  Proof.
    unfold begin. destruct (get_job js j) as [jb|]; [|discriminate]. cbn [bind]. unfold at_element.
    destruct (_ <? _).
    - destruct (nth_error _ _); [|discriminate]. cbn [bind]. intros [= _ <-]. eauto 6.
    - cbn [bind]. intros [= _ <-]. eauto 6.
  Qed.

  Lemma set_act_draining f a : is_exec f -> is_exec (set_act f a).
  Proof. destruct f; auto. Qed.
  Lemma set_act_job f a : exec_job (set_act f a) = exec_job f.
  Proof. destruct f; reflexivity. Qed.
  Lemma set_act_act (f : frame) a : act_of (set_act f a) = a.
  Proof. destruct f; reflexivity. Qed.

  Lemma at_element_frame j i ix (jb jb' : job) f : at_element j i ix jb = Ok (jb', f) ->
    exists a, f = Exec j i ix a /\ (a = Ending \/ exists b, a = Running b).
  Proof.
    unfold at_element. destruct (_ <? _); [destruct (nth_error _ _); [|discriminate]|]; intros [= _ <-]; eauto 6.
  Qed.

  (** What a step does to the thread itself. *)
  Lemma tmoved_thread js wq th js' wq' th' a b : inv js wq (frames (a ++ th :: b)) -> thread_ok wq th ->
    tmoved js wq th js' wq' th' -> thread_ok wq' th'.
  Proof.
    intros I0 TO M. destruct M as [j i wq' js' f Ex S W E1|f rest js' wq' fs S M].
    - destruct (begin_frame _ _ _ _ _ E1) as (ix & act & -> & Ha). unfold thread_ok. cbn [executor stack tl].
      split; [repeat constructor|]. split; [constructor|].
      split; [cbn; destruct Ha as [->|(b0 & ->)]; auto|]. repeat constructor. unfold not_queued. cbn [act_of].
      destruct Ha as [->|(b0 & ->)]; exact I.
    - unfold thread_ok in *. cbn [executor stack]. destruct (executor th) eqn:Ex.
      + rewrite S in TO. destruct TO as (T1 & T2 & T3 & T4). cbn [tl] in T2.
        apply Forall_cons_iff in T1. destruct T1 as [Xf T1]. cbn [ordered] in T3. destruct T3 as [Of T3].
        apply Forall_cons_iff in T4. destruct T4 as [Qf T4].
        assert (NQ : forall wq1, (forall x, In x wq1 -> In x wq) -> Forall (not_queued wq1) rest).
        { intros wq1 Sub. eapply Forall_impl; [|exact T4]. intros g. unfold not_queued. destruct (act_of g) as [|jx [| |] kx|]; auto.
          intros Hq ix Hin. apply (Hq ix). auto. }
        assert (NQd : forall wq1, Forall (not_queued wq1) rest).
        { intros wq1. eapply Forall_impl; [|exact T2]. intros g. unfold not_queued, is_draining.
          destruct (act_of g) as [|jx [| |] kx|]; tauto. }
        assert (One : forall act, (forall jc p k, act = Calling jc p k -> exists p', act_of f = Calling jc p' k) ->
                      ordered (set_act f act :: rest)).
        { intros act Hact. cbn [ordered]. rewrite set_act_act. split; [|exact T3]. destruct act as [|jc p k|]; auto.
          destruct (Hact _ _ _ eq_refl) as (p' & Hf). rewrite Hf in Of. rewrite set_act_job. exact Of. }
        destruct M as [bs mg k Ha|j i ix v jb jb1 jb2 f2 -> N E1 E2|j i ix e jb -> N|j n k jb Ha N L|j n k jb Ha N L Exx|j n k jb Ha N L Exx
                  |j k Ha Hw|j k j' i wq' js' g Ha Hw E1|j taken k jb i q Ha N L OQ|j taken k jb Ha N L|j i ix jb -> N]; cbn [app tl].
        * split; [constructor; [apply set_act_draining|]; assumption|]. split; [exact T2|]. split; [|constructor; [|apply NQ; auto]].
          -- cbn [ordered]. rewrite set_act_act, set_act_job. split; [|exact T3].
             rewrite frames_app in I0. cbn [frames] in I0. rewrite S in I0.
             assert (All : forall g, In g (f :: rest) -> is_exec g -> below (length js) g).
             { intros g Hg. apply frame_ids. apply (i_frames _ _ _ I0). rewrite !in_app_iff. auto. }
             split; [apply (All f); [now left|exact Xf]|]. intros g Hg. apply All; [now right|].
             rewrite Forall_forall in T1. auto.
          -- unfold not_queued. rewrite set_act_act. exact I.
        * destruct (at_element_frame _ _ _ _ _ _ E2) as (act & -> & Hact).
          split; [constructor; [exact I|assumption]|]. split; [exact T2|].
          split; [cbn [ordered act_of]; destruct Hact as [->|(b0 & ->)]; auto|]. constructor; [|apply NQ; auto].
          unfold not_queued. cbn [act_of]. destruct Hact as [->|(b0 & ->)]; exact I.
        * split; [constructor; [exact I|assumption]|]. split; [exact T2|]. split; [cbn [ordered act_of]; auto|].
          constructor; [exact I|apply NQ; auto].
        * split; [constructor; [apply set_act_draining|]; assumption|]. split; [exact T2|].
          split; [apply One; intros jc p k' [= <- <- <-]; eauto|]. constructor; [unfold not_queued; rewrite set_act_act; exact I|apply NQd].
        * split; [constructor; [apply set_act_draining|]; assumption|]. split; [exact T2|].
          split; [apply One; intros jc p k' [= <- <- <-]; eauto|]. constructor; [unfold not_queued; rewrite set_act_act; exact I|apply NQd].
        * discriminate.
        * split; [constructor; [apply set_act_draining|]; assumption|]. split; [exact T2|].
          split; [apply One; intros jc p k' [= <- <- <-]; eauto|]. constructor; [|apply NQd].
          unfold not_queued. rewrite set_act_act. subst wq. intros i [].
        * destruct (begin_frame _ _ _ _ _ E1) as (ix & act & -> & Hact).
          split; [repeat (constructor; try assumption)|]. split; [constructor; [unfold is_draining; now rewrite Ha|exact T2]|].
          split; [cbn [ordered]; split; [cbn [act_of]; destruct Hact as [->|(b0 & ->)]; exact I|]; split; assumption|].
          constructor; [unfold not_queued; cbn [act_of]; destruct Hact as [->|(b0 & ->)]; exact I|].
          constructor; [unfold not_queued; rewrite Ha; exact I|apply NQd].
        * split; [constructor; [apply set_act_draining|]; assumption|]. split; [exact T2|].
          split; [apply One; intros jc p k' [= <- <- <-]; eauto|]. constructor; [|apply NQd].
          unfold not_queued in *. rewrite set_act_act. rewrite Ha in Qf. exact Qf.
        * split; [constructor; [apply set_act_draining|]; assumption|]. split; [exact T2|].
          split; [apply One; discriminate|]. constructor; [unfold not_queued; rewrite set_act_act; exact I|apply NQd].
        * split; [assumption|]. split; [destruct rest; [constructor|]; cbn [tl]; now apply Forall_cons_iff in T2|].
          split; [assumption|]. apply NQ; auto.
      + destruct TO as (p & act & S1 & D). rewrite S in S1. injection S1 as -> ->. cbn [app].
        destruct M as [bs mg k Ha|j i ix v jb jb1 jb2 f2 Hf N E1 E2|j i ix e jb Hf N|j n k jb Ha N L|j n k jb Ha N L Exx|j n k jb Ha N L Exx
                  |j k Ha Hw|j k j' i wq' js' g Ha Hw E1|j taken k jb i q Ha N L OQ|j taken k jb Ha N L|j i ix jb Hf N];
          try discriminate; cbn [set_act app act_of] in *; subst; try contradiction; eauto.
  Qed.

  (** What a step does to another thread. *)
  Lemma tmoved_other js wq th js' wq' th' a b th0 : inv js wq (frames (a ++ th :: b)) -> In th0 a \/ In th0 b ->
    thread_ok wq th0 -> tmoved js wq th js' wq' th' -> thread_ok wq' th0.
  Proof.
    intros I0 Hin TO M. unfold thread_ok in *. destruct (executor th0); [|exact TO].
    destruct TO as (T1 & T2 & T3 & T4). split; [exact T1|]. split; [exact T2|]. split; [exact T3|].
    assert (Sub : (forall x, In x wq' -> In x wq) \/
      exists f rest j n k, stack th = f :: rest /\ act_of f = Calling j (Pushing n) k /\ wq' = wq ++ [(j, n)]).
    { destruct M as [j i wq' js' f Ex S W E1|f rest js' wq' fs S M].
      - left. subst. intros x Hx. now right.
      - destruct M; auto; [right; eauto 10|]. left. subst. intros x Hx. now right. }
    apply Forall_forall. intros g Hg. rewrite Forall_forall in T4. specialize (T4 g Hg). unfold not_queued in *.
    destruct (act_of g) as [|jc [| |taken] kc|] eqn:Ag; auto. intros i Hi.
    destruct Sub as [Sub|(f & rest & j & n & k & S & Af & ->)]; [apply (T4 i); auto|].
    apply in_app_iff in Hi. destruct Hi as [Hi|[[= <- <-]|[]]]; [now apply (T4 i)|].
    pose proof (i_calls _ _ _ I0 j) as C. rewrite frames_app in C. cbn [frames] in C. rewrite S in C. cbn [app] in C.
    rewrite sum_app in C. cbn [sum] in C. rewrite (calls_calling _ _ _ _ Af) in C. rewrite sum_app in C.
    assert (calls j g <= sum (calls j) (frames a) + sum (calls j) (frames b)) as Cg.
    { destruct Hin as [Hin|Hin].
      - assert (In g (frames a)) as X by (apply in_frames; eauto). apply (sum_in (calls j)) in X. lia.
      - assert (In g (frames b)) as X by (apply in_frames; eauto). apply (sum_in (calls j)) in X. lia. }
    rewrite (calls_calling _ _ _ _ Ag) in Cg. lia.
  Qed.

  Lemma step_cases s t : Inv s ->
    (step cpu t s = Ok None /\ forall th, nth_error (threads s) t = Some th -> twaits (jobs s) (work s) th) \/
    exists a th b js' wq' th', threads s = a ++ th :: b /\ length a = t /\
      tmoved (jobs s) (work s) th js' wq' th' /\
      step cpu t s = Ok (Some {| jobs := js'; work := wq'; threads := a ++ th' :: b |}).
  Proof.
    intros [IF IT]. unfold step. destruct (nth_error (threads s) t) as [th|] eqn:N; [|left; split; [reflexivity|discriminate]].
    destruct (nth_error_split _ _ N) as (a & b & Ht & La). rewrite Ht in IF, IT.
    assert (TO : thread_ok (work s) th) by (apply Forall_app in IT; destruct IT as [_ IT]; now apply Forall_cons_iff in IT).
    destruct (tstep_cases _ _ _ _ _ IF TO) as [[E1 W]|(js' & wq' & th' & E1 & M)]; rewrite E1; cbn [bind].
    - left. split; [reflexivity|]. intros th0 [= <-]. exact W.
    - right. exists a, th, b, js', wq', th'. split; [exact Ht|]. split; [exact La|]. split; [exact M|].
      rewrite Ht, <- La, replace_nth_middle. reflexivity.
  Qed.

  Lemma step_inv s t s' : Inv s -> step cpu t s = Ok (Some s') -> Inv s'.
  Proof.
    intros I0 E1. destruct (step_cases s t I0) as [[E2 _]|(a & th & b & js' & wq' & th' & Ht & La & M & E2)]; [congruence|].
    rewrite E1 in E2. injection E2 as ->. destruct I0 as [IF IT]. rewrite Ht in IF, IT. constructor; cbn [jobs work threads].
    - eapply tmoved_inv; eauto.
    - apply Forall_app in IT. destruct IT as [IA IB]. apply Forall_cons_iff in IB. destruct IB as [IT IB].
      rewrite Forall_forall in IA, IB. apply Forall_app. split; [|constructor].
      + apply Forall_forall. intros th0 H0. eapply tmoved_other; eauto.
      + eapply tmoved_thread; eauto.
      + apply Forall_forall. intros th0 H0. eapply tmoved_other; eauto.
  Qed.

  Lemma run_ok sch : forall s, Inv s -> exists s', run cpu sch s = Ok s' /\ Inv s' /\ length (threads s') = length (threads s).
  Proof.
    induction sch as [|t sch IH]; intros s I0; cbn [run]; [eauto|].
    destruct (step_cases s t I0) as [[E2 _]|(a & th & b & js' & wq' & th' & Ht & La & M & E2)].
    - rewrite E2. cbn [bind]. auto.
    - pose proof (step_inv _ _ _ I0 E2) as I1. rewrite E2. cbn [bind]. destruct (IH _ I1) as (s' & R & I2 & L).
      exists s'. split; [exact R|]. split; [exact I2|]. rewrite L, Ht. cbn [threads]. rewrite !app_length. reflexivity.
  Qed.

  Lemma start_inv executors programs : Inv (start executors programs).
  Proof.
    assert (F0 : frames (repeat {| executor := true; stack := @nil frame |} executors) = []) by (induction executors; cbn; auto).
    assert (Fr : forall f, In f (frames (threads (start executors programs))) -> exists p, f = Main p (Running p)).
    { cbn [start threads]. rewrite frames_app, F0. cbn [app]. induction programs as [|p ps IH]; cbn [map frames stack app]; [intros f []|].
      intros f [<-|H]; eauto. }
    constructor.
    - assert (Z0 : forall j i, sum (tok j i) (frames (threads (start executors programs))) = 0 /\
                              sum (calls j) (frames (threads (start executors programs))) = 0).
      { intros j i. split; apply sum_zero; intros f Hf; destruct (Fr f Hf) as (p & ->); reflexivity. }
      constructor; cbn [jobs work start].
      + intros j jb i N. rewrite nth_error_nil_none in N. discriminate.
      + intros j. destruct (Z0 j 0) as [_ ->]. lia.
      + intros j jb N. rewrite nth_error_nil_none in N. discriminate.
      + intros f Hf. destruct (Fr f Hf) as (p & ->). reflexivity.
      + intros j i [].
      + intros j jb i N. rewrite nth_error_nil_none in N. discriminate.
    - cbn [start threads work]. apply Forall_app. split.
      + apply Forall_forall. intros th Hth. apply repeat_spec in Hth. subst th. unfold thread_ok. cbn.
        split; [constructor|]. split; [constructor|]. split; [exact I|constructor].
      + apply Forall_forall. intros th Hth. apply in_map_iff in Hth. destruct Hth as (p & <- & _).
        exists p, (Running p). split; [reflexivity|exact I].
  Qed.

  (** The programs of the threads stay. *)
  Definition role (th : thread) : bool * option body :=
    (executor th, match stack th with Main p _ :: _ => Some p | _ => None end).
  Lemma tmoved_role js wq th js' wq' th' : thread_ok wq th -> thread_ok wq' th' -> tmoved js wq th js' wq' th' -> role th' = role th.
  Proof.
    intros TO TO' M. destruct M as [j i wq' js' f Ex S W E1|f rest js' wq' fs S M].
    - unfold role. rewrite Ex, S. cbn. destruct (begin_frame _ _ _ _ _ E1) as (ix & act & -> & _). reflexivity.
    - unfold role, thread_ok in *. cbn [executor stack] in *. f_equal. rewrite S in *. destruct (executor th) eqn:Ex.
      + destruct TO as [T1 _]. destruct TO' as [T1' _]. apply Forall_cons_iff in T1. destruct T1 as [T1 _].
        destruct f as [j i ix act|p act]; [|destruct T1]. destruct (fs ++ rest) as [|[j1 i1 ix1 a1|p1 a1] r1]; auto.
        apply Forall_cons_iff in T1'. destruct T1' as [[] _].
      + destruct TO as (p & act & S1 & _). injection S1 as -> ->. 
        destruct M; try discriminate; cbn [set_act app act_of] in *; try reflexivity.
        destruct TO' as (p' & a' & S2 & _). discriminate.
  Qed.
  Lemma run_roles sch : forall s s', Inv s -> run cpu sch s = Ok s' -> map role (threads s') = map role (threads s).
  Proof.
    induction sch as [|t sch IH]; intros s s' I0; cbn [run]; [intros [= ->]; reflexivity|].
    destruct (step_cases s t I0) as [[E2 _]|(a & th & b & js' & wq' & th' & Ht & La & M & E2)]; rewrite E2; cbn [bind]; [auto|].
    pose proof (step_inv _ _ _ I0 E2) as I1. intros R. rewrite (IH _ _ I1 R), Ht. cbn [threads]. rewrite !map_app. cbn [map].
    f_equal. f_equal. destruct I0 as [_ IT]. rewrite Ht in IT. destruct I1 as [_ IT']. cbn [threads work] in IT'.
    apply Forall_app in IT. apply Forall_app in IT'. destruct IT as [_ IT]. destruct IT' as [_ IT'].
    apply Forall_cons_iff in IT. apply Forall_cons_iff in IT'. destruct IT as [IT _]. destruct IT' as [IT' _].
    eapply tmoved_role; eauto.
  Qed.

  (** ** No deadlock *)
  Lemma missing_chunk (taken : list nat) n : length taken < n -> exists i, i < n /\ ~ In i taken.
  Proof.
    intros L.
    destruct (Forall_Exists_dec (fun i => In i taken) (fun i => in_dec Nat.eq_dec i taken) (seq 0 n)) as [A|B].
    - exfalso. rewrite Forall_forall in A. pose proof (NoDup_incl_length (seq_NoDup n 0) A) as X. rewrite seq_length in X. lia.
    - apply Exists_exists in B. destruct B as (i & Hi & N). apply in_seq in Hi. exists i. split; [lia|exact N].
  Qed.

  Lemma sum_pos (g : frame -> nat) l : 1 <= sum g l -> exists f, In f l /\ 1 <= g f.
  Proof.
    induction l as [|x l IH]; cbn [sum]; [lia|]. intros H. destruct (Nat.eq_dec (g x) 0) as [Z0|NZ].
    - destruct IH as (f & ? & ?); [lia|]. exists f. split; [now right|assumption].
    - exists x. split; [now left|lia].
  Qed.

  (** A chunk that a call waits for, when nothing is queued for it, is being worked on. *)
  Lemma awaited s a f b j taken k jb : inv (jobs s) (work s) (a ++ f :: b) -> act_of f = Calling j (Waiting taken) k ->
    nth_error (jobs s) j = Some jb -> length taken < jobCount jb -> outputQueue jb = [] ->
    (forall i, ~ In (j, i) (work s)) -> (forall i, exec_tok j i f = 0) ->
    exists g, In g (a ++ f :: b) /\ is_exec g /\ exec_job g = j.
  Proof.
    intros I0 Ha N L OQ NQ NE. destruct (missing_chunk _ _ L) as (i & Li & Ni).
    pose proof (i_tokens _ _ _ I0 j jb i N Li) as T. pose proof (i_calls _ _ _ I0 j) as C. rewrite OQ in T. cbn [count_occ] in T.
    rewrite !sum_app in *. cbn [sum] in *. rewrite (calls_calling _ _ _ _ Ha) in *.
    assert (qcount (work s) j i = 0) as Q0.
    { destruct (qcount (work s) j i) eqn:Q; [reflexivity|]. exfalso. apply (NQ i). apply qcount_in. lia. }
    assert (tok j i f = 0) as F0.
    { unfold tok. rewrite NE, Ha. cbn [act_tok]. rewrite Nat.eqb_refl. cbn. now apply count_occ_not_In. }
    assert (1 <= sum (tok j i) (a ++ b)) as P by (rewrite sum_app; lia).
    destruct (sum_pos _ _ P) as (g & Hg & Tg). exists g.
    assert (calls j g = 0) as Cg.
    { apply in_app_iff in Hg. destruct Hg as [Hg|Hg]; apply (sum_in (calls j)) in Hg; lia. }
    split; [apply in_app_iff in Hg; apply in_or_app; cbn; tauto|].
    unfold tok in Tg. assert (act_tok j i (act_of g) = 0) as Ag.
    { unfold calls in Cg. destruct (act_of g) as [|jc [| |] kc|]; cbn [act_tok]; auto; destruct (jc =? j); cbn in *; auto; discriminate. }
    rewrite Ag, Nat.add_0_r in Tg. destruct g as [j' i' ix a'|]; cbn [exec_tok] in Tg; [|lia]. split; [exact I|]. cbn [exec_job].
    destruct (Nat.eqb_spec j' j); [assumption|]. cbn in Tg. lia.
  Qed.

  Lemma stuck_waits s : Inv s -> stuck cpu s -> forall th, In th (threads s) -> twaits (jobs s) (work s) th.
  Proof.
    intros I0 St th Hth. apply In_nth_error in Hth. destruct Hth as (t & N).
    destruct (step_cases s t I0) as [[_ W]|(a & th1 & b & js' & wq' & th' & Ht & La & M & E2)]; [auto|].
    specialize (St t). congruence.
  Qed.

  Lemma executors_idle s : Inv s -> stuck cpu s -> forall th, In th (threads s) -> executor th = true -> stack th = [].
  Proof.
    intros I0 St. pose proof (stuck_waits s I0 St) as W. destruct I0 as [IF IT]. rewrite Forall_forall in IT.
    assert (Key : forall m c th f rest p k, length (jobs s) <= c + m -> In th (threads s) -> executor th = true -> stack th = f :: rest ->
                  act_of f = Calling c p k -> False).
    { induction m as [|m IH]; intros c th f rest p k Lc Hth Ex S Ha.
      - destruct (calling_job (jobs s) f c p k) as (jb & N & _); [|exact Ha|].
        + apply (i_frames _ _ _ IF). apply in_frames. exists th. rewrite S. split; [exact Hth|now left].
        + assert (c < length (jobs s)) by (apply nth_error_Some; congruence). lia.
      - pose proof (IT th Hth) as TO. unfold thread_ok in TO. rewrite Ex, S in TO. destruct TO as (T1 & T2 & T3 & T4).
        destruct (W th Hth) as [_ S' _|f' rest' S' Wf]; [congruence|]. rewrite S in S'. injection S' as <- <-.
        destruct Wf as [p0 r ->|j taken k' jb Ha' N L OQ]; [discriminate|]. rewrite Ha in Ha'. injection Ha' as <- -> <-.
        destruct (in_split th (threads s) Hth) as (a & b & Ht).
        assert (F : frames (threads s) = frames a ++ f :: (rest ++ frames b)) by (rewrite Ht, frames_app; cbn [frames]; rewrite S; reflexivity).
        rewrite F in IF. cbn [ordered] in T3. rewrite Ha in T3. destruct T3 as [[Of1 Of2] T3].
        apply Forall_cons_iff in T4. destruct T4 as [T4 _]. unfold not_queued in T4. rewrite Ha in T4.
        destruct (awaited s _ _ _ _ _ _ _ IF Ha N L OQ T4) as (g & Hg & Xg & Jg).
        { intros i. destruct f as [j' i' ix a'|]; [|reflexivity]. cbn [exec_tok exec_job] in *. destruct (Nat.eqb_spec j' c); [lia|reflexivity]. }
        rewrite <- F in Hg. apply in_frames in Hg. destruct Hg as (th2 & Hth2 & Hg).
        pose proof (IT th2 Hth2) as TO2. unfold thread_ok in TO2. destruct (executor th2) eqn:Ex2.
        + destruct (stack th2) as [|f2 rest2] eqn:S2; [destruct Hg|]. destruct TO2 as (U1 & U2 & U3 & U4).
          destruct (W th2 Hth2) as [_ S' _|f' rest' S' Wf]; [congruence|]. rewrite S2 in S'. injection S' as <- <-.
          destruct Wf as [p0 r ->|j2 taken2 k2 jb2 Ha2 N2 L2 OQ2]; [apply Forall_cons_iff in U1; destruct U1 as [[] _]|].
          apply (IH j2 th2 f2 rest2 (Waiting taken2) k2); auto.
          cbn [ordered] in U3. rewrite Ha2 in U3. destruct U3 as [[V1 V2] _]. destruct Hg as [->|Hg]; [lia|].
          destruct (V2 g Hg). lia.
        + destruct TO2 as (p2 & a2 & S2 & _). rewrite S2 in Hg. destruct Hg as [<-|[]]. destruct Xg. }
    intros th Hth Ex. destruct (W th Hth) as [_ S' _|f rest S Wf]; [exact S'|]. exfalso.
    pose proof (IT th Hth) as TO. unfold thread_ok in TO. rewrite Ex, S in TO. destruct TO as (T1 & _).
    destruct Wf as [p0 r ->|j2 taken2 k2 jb2 Ha2 N2 L2 OQ2]; [apply Forall_cons_iff in T1; destruct T1 as [[] _]|].
    apply (Key (length (jobs s)) j2 th f rest _ _ ltac:(lia) Hth Ex S Ha2).
  Qed.

  Lemma stuck_end s : Inv s -> stuck cpu s -> (exists th, In th (threads s) /\ executor th = true) ->
    forall th, In th (threads s) -> executor th = false -> exists p, finished_with p (eval p) th.
  Proof.
    intros I0 St (the & Hex & Ex) th Hth Em. pose proof (stuck_waits s I0 St) as W. pose proof (executors_idle s I0 St) as Idle.
    destruct I0 as [IF IT]. rewrite Forall_forall in IT.
    assert (W0 : work s = []).
    { pose proof (Idle the Hex Ex) as S. destruct (W the Hex) as [_ _ X|f rest S' _]; [exact X|congruence]. }
    pose proof (IT th Hth) as TO. unfold thread_ok in TO. rewrite Em in TO. destruct TO as (p & a & S & D). exists p.
    destruct (in_split th (threads s) Hth) as (ta & tb & Ht).
    assert (F : frames (threads s) = frames ta ++ Main p a :: frames tb) by (rewrite Ht, frames_app; cbn [frames]; rewrite S; reflexivity).
    destruct (W th Hth) as [X _ _|f rest S' Wf]; [congruence|]. rewrite S in S'. injection S' as <- <-.
    destruct Wf as [p0 r [= <- ->]|j taken k jb Ha N L OQ].
    - split; [exact Em|]. rewrite S. do 3 f_equal. pose proof (i_frames _ _ _ IF (Main p (Running (Return r)))) as Fk.
      cbn [frame_ok act_ok eval] in Fk. f_equal. apply Fk. rewrite F. apply in_split_frames.
    - exfalso. rewrite F in IF.
      destruct (awaited s _ _ _ _ _ _ _ IF Ha N L OQ) as (g & Hg & Xg & Jg); [rewrite W0; intros i []|reflexivity|].
      rewrite <- F in Hg. apply in_frames in Hg. destruct Hg as (th2 & Hth2 & Hg). pose proof (IT th2 Hth2) as TO2.
      unfold thread_ok in TO2. destruct (executor th2) eqn:Ex2.
      + rewrite (Idle th2 Hth2 Ex2) in Hg. destruct Hg.
      + destruct TO2 as (p2 & a2 & S2 & _). rewrite S2 in Hg. destruct Hg as [<-|[]]. destruct Xg.
  Qed.
End Live.
