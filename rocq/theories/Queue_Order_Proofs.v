(** The items come out of the atomic queue in the order they went in. *)
From Verif Require Import Base PyList PyList_Proofs Queue_Model Queue_Spec Queue_Proofs.
From Coq Require Import ZifyBool ZifyNat.
Open Scope Z_scope.

Section Order.
  Context {T : Type}.

  Definition to_put (a : athread) : list T := match a with APending o _ => items_put o | _ => [] end.
  Definition taken (a : athread) : list T :=
    match a with AIdle => [] | APending o res => res | ADone r => items_got r end.
  Definition no_peek_pending (a : athread (T:=T)) : Prop := match a with APending Peek _ => False | _ => True end.
  Definition res_ok (a : athread (T:=T)) : Prop :=
    match a with APending (GetMany _ _) _ => True | APending _ res => res = [] | _ => True end.

  Record logged (s : astate) (hist : list (nat * event T)) (puts gets : list (nat * T)) : Prop :=
    { lg_queue : map snd puts = map snd gets ++ queue s;
      lg_thread : forall t a prog, nth_error (athreads s) t = Some (a, prog) ->
        of_thread t puts ++ to_put a = put_by t hist /\
        of_thread t gets = got_by t hist ++ taken a /\
        ~ In Peek prog /\ no_peek_pending a /\ res_ok a }.

  Lemma of_thread_app t l1 l2 : of_thread (T:=T) t (l1 ++ l2) = of_thread t l1 ++ of_thread t l2.
  Proof. unfold of_thread. now rewrite filter_app, map_app. Qed.
  Lemma of_thread_same t l : of_thread (T:=T) t (map (pair t) l) = l.
  Proof.
    unfold of_thread. induction l as [|x l IH]; [reflexivity|]. cbn [map filter fst]. rewrite Nat.eqb_refl.
    cbn [map snd]. now rewrite IH.
  Qed.
  Lemma of_thread_other t t' l : t <> t' -> of_thread (T:=T) t' (map (pair t) l) = [].
  Proof.
    intros N. unfold of_thread. induction l as [|x l IH]; [reflexivity|]. cbn [map filter fst].
    destruct (Nat.eqb_spec t t'); [contradiction|exact IH].
  Qed.
  Lemma map_snd_pair t l : map snd (map (@pair nat T t) l) = l.
  Proof. rewrite map_map. cbn. apply map_id. Qed.
  Lemma put_by_app t h1 h2 : put_by (T:=T) t (h1 ++ h2) = put_by t h1 ++ put_by t h2.
  Proof. apply flat_map_app. Qed.
  Lemma got_by_app t h1 h2 : got_by (T:=T) t (h1 ++ h2) = got_by t h1 ++ got_by t h2.
  Proof. apply flat_map_app. Qed.

  Lemma nth_replace {A} t t' (x : A) l y : nth_error (replace_nth t x l) t' = Some y ->
    (t' = t /\ y = x) \/ (t <> t' /\ nth_error l t' = Some y).
  Proof.
    intros N. destruct (Nat.eq_dec t t') as [<-|D].
    - left. split; [reflexivity|]. rewrite nth_error_replace_same in N; [congruence|].
      assert (nth_error (replace_nth t x l) t <> None) as L by congruence.
      apply nth_error_Some in L. now rewrite replace_nth_length in L.
    - right. rewrite nth_error_replace_other in N by exact D. auto.
  Qed.

  (** What an effect puts at the back and takes from the front. *)
  Lemma effect_items q o res q' a : effect (T:=T) q o res q' a -> o <> Peek -> res_ok (APending o res) ->
    exists got, q ++ items_put o = got ++ q' /\ taken a = res ++ got /\ no_peek_pending a /\ res_ok a /\ to_put a = [].
  Proof.
    intros E NP R. destruct E; cbn [items_put taken items_got no_peek_pending res_ok to_put] in *; rewrite ?app_nil_r; subst;
      try congruence.
    all: try (exists [x]; cbn; rewrite ?app_nil_r; tauto).
    all: exists []; cbn; rewrite ?app_nil_r; tauto.
  Qed.

  Lemma astep_logged s ev s' : astep s ev s' -> forall hist puts gets, logged s hist puts gets ->
    exists puts' gets', logged s' (hist ++ match ev with Some ev => [ev] | None => [] end) puts' gets'.
  Proof.
    intros S hist puts gets [LQ LT]. destruct S as [q ths t o prog N|q ths t o res prog q' a N Ef|q ths t r prog N];
      cbn [queue athreads] in *.
    - exists puts, gets. constructor; cbn [queue athreads]; [exact LQ|].
      intros t' a' prog' N'. apply nth_replace in N'. destruct N' as [[-> Y]|[D N']].
      + injection Y as -> ->. destruct (LT _ _ _ N) as (L1 & L2 & L3 & _). cbn [to_put taken] in *.
        rewrite app_nil_r in L1, L2. rewrite put_by_app, got_by_app, L1, L2. cbn [put_by got_by flat_map fst snd].
        rewrite Nat.eqb_refl, !app_nil_r.
        split; [reflexivity|split; [reflexivity|split; [|split]]].
        * intros C. apply L3. now right.
        * destruct o; cbn; auto. apply L3. now left.
        * destruct o; cbn; auto.
      + destruct (LT _ _ _ N') as (L1 & L2 & L3). rewrite put_by_app, got_by_app, <- L1, L2. cbn [put_by got_by flat_map fst snd].
        destruct (Nat.eqb_spec t t'); [contradiction|]. rewrite !app_nil_r. auto.
    - destruct (LT _ _ _ N) as (L1 & L2 & L3 & L4 & L5).
      assert (NP : o <> Peek) by (intros ->; exact L4).
      destruct (effect_items _ _ _ _ _ Ef NP L5) as (got & G1 & G2 & G3 & G4 & G5).
      exists (puts ++ map (pair t) (items_put o)), (gets ++ map (pair t) got).
      rewrite app_nil_r. constructor; cbn [queue athreads].
      + rewrite !map_app, !map_snd_pair, LQ, <- !app_assoc, G1. reflexivity.
      + intros t' a' prog' N'. rewrite !of_thread_app. apply nth_replace in N'. destruct N' as [[-> Y]|[D N']].
        * injection Y as -> ->. rewrite !of_thread_same, G5, G2, L2, app_nil_r. cbn [to_put taken] in *.
          rewrite L1, app_assoc. auto 6.
        * rewrite !of_thread_other, !app_nil_r by exact D. exact (LT _ _ _ N').
    - destruct (LT _ _ _ N) as (L1 & L2 & L3 & _). exists puts, gets. constructor; cbn [queue athreads]; [exact LQ|].
      intros t' a' prog' N'. rewrite put_by_app, got_by_app. apply nth_replace in N'. destruct N' as [[-> Y]|[D N']].
      + injection Y as -> ->. cbn [to_put taken] in *. rewrite app_nil_r in L1. rewrite L1, L2.
        cbn [put_by got_by flat_map fst snd]. rewrite Nat.eqb_refl, !app_nil_r. cbn. auto 6.
      + destruct (LT _ _ _ N') as (M1 & M2 & M3). rewrite <- M1, M2. cbn [put_by got_by flat_map fst snd].
        destruct (Nat.eqb_spec t t'); [contradiction|]. rewrite !app_nil_r. auto.
  Qed.

  Lemma aruns_logged s h s' : aruns s h s' -> forall hist puts gets, logged s hist puts gets ->
    exists puts' gets', logged s' (hist ++ h) puts' gets'.
  Proof.
    induction 1 as [s|s1 e1 s2 h1 s3 S R IH]; intros hist puts gets L.
    - exists puts, gets. now rewrite app_nil_r.
    - destruct (astep_logged _ _ _ S _ _ _ L) as (p1 & g1 & L1).
      destruct (IH _ _ _ L1) as (p2 & g2 & L2). exists p2, g2.
      rewrite <- app_assoc in L2. destruct e1; exact L2.
  Qed.

  Lemma astart_logged programs : Forall (fun p => ~ In Peek p) programs -> logged (astart programs) [] [] [].
  Proof.
    intros F. constructor; [reflexivity|]. intros t a prog N. cbn [astart athreads] in N.
    rewrite nth_error_map in N. destruct (nth_error programs t) as [p|] eqn:P; [|discriminate].
    injection N as <- <-. rewrite Forall_forall in F. apply nth_error_In, F in P. cbn. auto 6.
  Qed.

  Lemma run_length schedule : forall (s0 s : state T) hist,
    run schedule s0 = Ok (s, hist) -> length (threads s) = length (threads s0).
  Proof.
    induction schedule as [|u sch IH]; intros s0 s1 h1 R; cbn [run] in R; [now injection R as <- <-|].
    destruct (step u s0) as [[[s2 ev]|]|] eqn:S; [|now apply IH in R|discriminate].
    destruct (run sch s2) as [[s3 h3]|] eqn:R2; [|discriminate]. injection R as <- <-.
    apply IH in R2. rewrite R2. unfold step in S. destruct (nth_error (threads s0) u) as [[p prog]|]; [|discriminate].
    destruct (tstep _ _ _); try discriminate. injection S as <- <-. cbn [threads]. apply replace_nth_length.
  Qed.

  Lemma fifo programs schedule s hist :
    Forall (fun p => ~ In Peek p) programs ->
    run schedule (start programs) = Ok (s, hist) -> Forall between_calls (threads s) ->
    exists puts gets : list (nat * T),
      map snd puts = map snd gets ++ contents (members s) /\
      forall t, (t < length programs)%nat -> of_thread t puts = put_by t hist /\ of_thread t gets = got_by t hist.
  Proof.
    intros F R Q. pose proof (run_sim schedule _ _ _ (start_inv programs) R) as A. rewrite abs_start in A.
    destruct (aruns_logged _ _ _ A _ _ _ (astart_logged programs F)) as (puts & gets & LQ & LT).
    exists puts, gets. cbn [abs queue athreads] in *. split.
    - rewrite LQ. replace (pending (threads s)) with (@nil T); [now rewrite app_nil_r|]. clear -Q.
      induction Q as [|[p prog] l E Q IH]; [reflexivity|]. cbn [pending fst]. rewrite <- IH.
      unfold between_calls in E. cbn [fst] in E. now rewrite E.
    - intros t Ht.
      assert (length (threads s) = length programs) as Len.
      { rewrite (run_length _ _ _ _ R). cbn [start threads]. apply map_length. }
      destruct (nth_error (threads s) t) as [[p prog]|] eqn:N.
      2: { apply nth_error_None in N. lia. }
      pose proof N as N0. rewrite Forall_forall in Q. apply nth_error_In, Q in N0. unfold between_calls in N0. cbn [fst] in N0. subst p.
      destruct (LT t AIdle prog) as (L1 & L2 & _).
      { exact (map_nth_error (fun th => (athread_of (fst th), snd th)) _ _ N). }
      cbn [to_put taken] in *. rewrite app_nil_r in L1, L2. auto.
  Qed.
End Order.
