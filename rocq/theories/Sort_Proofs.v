(** Proofs about sorting and binary search (C18, C19). *)
From Coq Require Import ZifyBool ZifyNat Sorting.Sorted.
From Verif Require Import Base PyList PyList_Proofs Sort_Model Sort_Spec.
Open Scope Z_scope.
Open Scope result_scope.

Section Sorting.
  Context {A : Type}.
  Variables less eqb : A -> A -> bool.
  Hypothesis O : strict_weak_order less.
  Hypothesis E : equality_respects_order less eqb.

  Notation le x y := (less y x = false).

  Lemma partition_spec rest : forall fuel pre p lo hi post i j stop,
    (length rest <= fuel)%nat ->
    i = Z.of_nat (length pre) + 1 + Z.of_nat (length lo) -> j = i + Z.of_nat (length hi) ->
    stop = j + Z.of_nat (length rest) - 1 ->
    Forall (fun x => le x p) lo -> Forall (fun x => less p x = true) hi ->
    exists lo' hi',
      partition_loop less fuel (pre ++ p :: lo ++ hi ++ rest ++ post) stop p i j
        = Ok (pre ++ p :: lo' ++ hi' ++ post, Z.of_nat (length pre) + 1 + Z.of_nat (length lo')) /\
      Permutation (lo ++ hi ++ rest) (lo' ++ hi') /\
      Forall (fun x => le x p) lo' /\ Forall (fun x => less p x = true) hi'.
  Proof.
    induction rest as [|x rest IH]; intros fuel pre p lo hi post i j stop Hf Hi Hj Hs Hlo Hhi.
    - exists lo, hi. destruct fuel; cbn [partition_loop]; (destruct (Z.ltb_spec stop j) as [_|Hlt]; [|cbn [length] in *; lia]);
        subst i; cbn [app]; rewrite app_nil_r; auto.
    - cbn [length] in *. destruct fuel as [|fuel]; [lia|]. cbn [partition_loop].
      destruct (Z.ltb_spec stop j); [lia|].
      assert (G : py_get (pre ++ p :: lo ++ hi ++ (x :: rest) ++ post) j = Ok x).
      { replace (pre ++ p :: lo ++ hi ++ (x :: rest) ++ post) with ((pre ++ p :: lo ++ hi) ++ x :: rest ++ post)
          by (rewrite <- ?app_assoc; cbn [app]; rewrite <- ?app_assoc; reflexivity).
        apply py_get_middle. rewrite app_length. cbn [length]. rewrite app_length. lia. }
      rewrite G. cbn [bind]. destruct (less p x) eqn:L; cbn [negb].
      + destruct (IH fuel pre p lo (hi ++ [x]) post i (j + 1) stop) as (lo' & hi' & H1 & H2 & H3 & H4); auto; try (rewrite ?app_length; cbn [length]; lia).
        { apply Forall_app. auto. }
        exists lo', hi'. rewrite <- H1. repeat split; auto; rewrite <- !app_assoc in *; try assumption.
        now rewrite <- ?app_assoc.
      + destruct hi as [|h hi].
        * cbn [length app] in *.
          assert (G2 : py_get (pre ++ p :: lo ++ x :: rest ++ post) i = Ok x) by (rewrite <- G; f_equal; lia).
          rewrite G2. cbn [bind].
          replace (pre ++ p :: lo ++ x :: rest ++ post) with ((pre ++ p :: lo) ++ x :: rest ++ post)
            by (rewrite <- ?app_assoc; reflexivity).
          rewrite !py_set_middle by (rewrite app_length; cbn [length]; lia). cbn [bind].
          rewrite py_set_middle by (rewrite app_length; cbn [length]; lia). cbn [bind].
          destruct (IH fuel pre p (lo ++ [x]) [] post (i + 1) (j + 1) stop) as (lo' & hi' & H1 & H2 & H3 & H4); auto; try (rewrite ?app_length; cbn [length]; lia).
          { apply Forall_app. auto. }
          exists lo', hi'. rewrite <- H1. repeat split; auto; rewrite <- !app_assoc in *; cbn [app] in *; auto.
        * cbn [length app] in *.
          assert (G2 : py_get (pre ++ p :: lo ++ h :: hi ++ x :: rest ++ post) i = Ok h).
          { replace (pre ++ p :: lo ++ h :: hi ++ x :: rest ++ post) with ((pre ++ p :: lo) ++ h :: hi ++ x :: rest ++ post)
              by (rewrite <- ?app_assoc; reflexivity).
            apply py_get_middle. rewrite app_length. cbn [length]. lia. }
          rewrite G2. cbn [bind].
          replace (pre ++ p :: lo ++ h :: hi ++ x :: rest ++ post) with ((pre ++ p :: lo ++ h :: hi) ++ x :: rest ++ post)
            by (rewrite <- ?app_assoc; cbn [app]; rewrite <- ?app_assoc; reflexivity).
          rewrite py_set_middle by (rewrite app_length; cbn [length]; rewrite app_length; cbn [length]; lia). cbn [bind].
          replace ((pre ++ p :: lo ++ h :: hi) ++ h :: rest ++ post) with ((pre ++ p :: lo) ++ h :: hi ++ h :: rest ++ post)
            by (rewrite <- ?app_assoc; cbn [app]; rewrite <- ?app_assoc; reflexivity).
          rewrite py_set_middle by (rewrite app_length; cbn [length]; lia). cbn [bind].
          inversion Hhi; subst.
          match goal with |- exists _ _, partition_loop _ _ _ ?stop _ ?i ?j = _ /\ _ =>
            destruct (IH fuel pre p (lo ++ [x]) (hi ++ [h]) post i j stop) as (lo' & hi' & H5 & H6 & H7 & H8);
              auto; try (rewrite ?app_length; cbn [length]; lia) end.
          { apply Forall_app. auto. }
          { apply Forall_app. auto. }
          exists lo', hi'. rewrite <- H5. repeat split; auto; rewrite <- !app_assoc in *; cbn [app] in *; auto.
          etransitivity; [|exact H6]. apply Permutation_app_head.
          change (x :: hi ++ h :: rest) with ((x :: hi) ++ h :: rest).
          transitivity (h :: (x :: hi) ++ rest); [|apply Permutation_middle].
          constructor. symmetry. apply Permutation_middle.
  Qed.

  Lemma swap_spec pre (mid : list A) post i k :
    i = Z.of_nat (length pre) -> 0 <= k < Z.of_nat (length mid) ->
    exists p mid' a,
      (a <- py_get (pre ++ mid ++ post) i ;;
       b <- py_get (pre ++ mid ++ post) (i + k) ;;
       v <- py_set (pre ++ mid ++ post) i b ;;
       py_set v (i + k) a) = Ok (pre ++ (p :: mid') ++ post) /\
      py_get (pre ++ mid ++ post) i = Ok a /\ py_get (pre ++ mid ++ post) (i + k) = Ok p /\
      Permutation mid (p :: mid').
  Proof.
    intros -> Hk. destruct mid as [|x mid]; [cbn in Hk; lia|].
    destruct (Z.eq_dec k 0) as [->|Hk0].
    - exists x, mid, x. rewrite Z.add_0_r. cbn [app]. rewrite py_get_middle by reflexivity. cbn [bind].
      rewrite py_set_middle by reflexivity. cbn [bind]. rewrite py_set_middle by reflexivity. auto.
    - destruct (nth_error mid (Z.to_nat k - 1)) as [q|] eqn:N.
      2: { apply nth_error_None in N. cbn [length] in Hk. lia. }
      apply nth_error_split in N. destruct N as (a & b & -> & La).
      exists q, (a ++ x :: b), x. cbn [app]. rewrite py_get_middle by reflexivity. cbn [bind].
      assert (G : forall z, pre ++ z :: (a ++ q :: b) ++ post = (pre ++ z :: a) ++ q :: b ++ post)
        by (intros; rewrite <- ?app_assoc; cbn [app]; reflexivity).
      assert (L : forall z : A, Z.of_nat (length pre) + k = Z.of_nat (length (pre ++ z :: a)))
        by (intros; rewrite app_length; cbn [length]; lia).
      assert (G2 : py_get (pre ++ x :: (a ++ q :: b) ++ post) (Z.of_nat (length pre) + k) = Ok q).
      { rewrite G. apply py_get_middle. apply L. }
      rewrite G2. cbn [bind]. rewrite py_set_middle by reflexivity. cbn [bind]. rewrite G.
      rewrite py_set_middle by apply L. repeat split; auto.
      + rewrite <- ?app_assoc; cbn [app]; reflexivity.
      + change (x :: a ++ q :: b) with ((x :: a) ++ q :: b). transitivity (q :: (x :: a) ++ b); [symmetry; apply Permutation_middle|].
        constructor. cbn [app]. apply Permutation_middle.
  Qed.

  Lemma sortAroundPivot_spec pre mid post k :
    0 <= k < Z.of_nat (length mid) ->
    exists lo p hi,
      sortAroundPivot less (pre ++ mid ++ post) (Z.of_nat (length pre))
          (Z.of_nat (length pre) + Z.of_nat (length mid) - 1) (Z.of_nat (length pre) + k)
        = Ok (pre ++ (lo ++ p :: hi) ++ post, Z.of_nat (length pre) + Z.of_nat (length lo)) /\
      Permutation mid (lo ++ p :: hi) /\
      Forall (fun x => le x p) lo /\ Forall (fun x => less p x = true) hi.
  Proof.
    intros Hk. destruct (swap_spec pre mid post _ k eq_refl Hk) as (p & mid' & a & S1 & S2 & S3 & S4).
    unfold sortAroundPivot. rewrite S2, S3 in *. cbn [bind] in *.
    destruct (py_set (pre ++ mid ++ post) (Z.of_nat (length pre)) p) as [v|]; [|discriminate]. cbn [bind] in *.
    rewrite S1. cbn [bind app]. rewrite py_get_middle by reflexivity. cbn [bind].
    pose proof (Permutation_length S4) as Len. cbn [length] in Len.
    edestruct (partition_spec mid' (Z.to_nat (Z.of_nat (length pre) + Z.of_nat (length mid) - 1 - Z.of_nat (length pre)))
      pre p [] [] post (Z.of_nat (length pre) + 1) (Z.of_nat (length pre) + 1) (Z.of_nat (length pre) + Z.of_nat (length mid) - 1))
      as (lo & hi & H1 & H2 & H3 & H4); cbn [length]; auto; try lia.
    cbn [app] in H1, H2. rewrite H1. cbn [bind]. rewrite py_get_middle by reflexivity. cbn [bind].
    destruct lo as [|y0 lo0] eqn:El.
    - cbn [length app]. replace (Z.of_nat (length pre) + 1 + Z.of_nat 0 - 1) with (Z.of_nat (length pre)) by lia.
      rewrite py_get_middle by reflexivity. cbn [bind]. rewrite py_set_middle by reflexivity. cbn [bind].
      rewrite py_set_middle by reflexivity. cbn [bind]. exists [], p, hi. cbn [length app]. repeat split; auto.
      + f_equal. f_equal. lia.
      + etransitivity; [exact S4|]. now constructor.
    - rewrite <- El in *. assert (Hne : lo <> []) by (rewrite El; discriminate). clear El y0 lo0.
      destruct (exists_last Hne) as (lo' & y & ->). clear Hne.
      assert (G : forall z u, pre ++ z :: (lo' ++ [u]) ++ hi ++ post = (pre ++ z :: lo') ++ u :: hi ++ post)
        by (intros; rewrite <- ?app_assoc; cbn [app]; reflexivity).
      assert (L : forall z : A, Z.of_nat (length pre) + 1 + Z.of_nat (length (lo' ++ [y])) - 1 = Z.of_nat (length (pre ++ z :: lo')))
        by (intros; rewrite !app_length; cbn [length]; lia).
      assert (G2 : py_get (pre ++ p :: (lo' ++ [y]) ++ hi ++ post) (Z.of_nat (length pre) + 1 + Z.of_nat (length (lo' ++ [y])) - 1) = Ok y).
      { rewrite G. apply py_get_middle. apply L. }
      rewrite G2. cbn [bind]. rewrite py_set_middle by reflexivity. cbn [bind]. rewrite G.
      rewrite py_set_middle by apply L. cbn [bind]. exists (y :: lo'), p, hi. repeat split; auto.
      + f_equal. f_equal; [rewrite <- ?app_assoc; cbn [app]; rewrite <- ?app_assoc; reflexivity|rewrite (L y), app_length; cbn [length]; lia].
      + etransitivity; [exact S4|]. transitivity (p :: (lo' ++ [y]) ++ hi); [now constructor|].
        transitivity (p :: (y :: lo') ++ hi); [constructor; apply Permutation_app_tail; symmetry; apply Permutation_cons_append|].
        apply Permutation_middle.
      + apply Forall_app in H3. destruct H3 as [H3 H3']. inversion H3'; subst. constructor; auto.
  Qed.

  Lemma skip_down_spec lo : forall fuel pre p post,
    (length lo <= fuel)%nat ->
    exists lo1 eqs,
      skip_down eqb fuel (pre ++ lo ++ p :: post) (Z.of_nat (length pre)) (Z.of_nat (length pre) + Z.of_nat (length lo))
        = Ok (Z.of_nat (length pre) + Z.of_nat (length lo1)) /\
      lo = lo1 ++ eqs /\ Forall (fun x => le x p /\ le p x) eqs.
  Proof.
    induction lo as [|y lo IH] using rev_ind; intros fuel pre p post Hf.
    - exists [], []. cbn [length]. rewrite Z.add_0_r. destruct fuel; cbn [skip_down]; (destruct (Z.leb_spec (Z.of_nat (length pre)) (Z.of_nat (length pre))); [|lia]);
        repeat split; auto.
    - rewrite app_length in *. cbn [length] in *. destruct fuel as [|fuel]; [lia|]. cbn [skip_down].
      destruct (Z.leb_spec (Z.of_nat (length pre) + Z.of_nat (length lo + 1)) (Z.of_nat (length pre))); [lia|].
      replace (pre ++ (lo ++ [y]) ++ p :: post) with ((pre ++ lo) ++ y :: p :: post) by (rewrite <- ?app_assoc; reflexivity).
      rewrite py_get_middle by (rewrite app_length; lia). cbn [bind].
      replace ((pre ++ lo) ++ y :: p :: post) with ((pre ++ lo ++ [y]) ++ p :: post) by (rewrite <- ?app_assoc; reflexivity).
      rewrite py_get_middle by (rewrite !app_length; cbn [length]; lia). cbn [bind].
      destruct (eqb y p) eqn:Eq.
      + destruct (IH fuel pre y (p :: post)) as (lo1 & eqs & H1 & H2 & H3); [lia|].
        exists lo1, (eqs ++ [y]). rewrite <- H1. split; [|split].
        * f_equal; [rewrite <- ?app_assoc; reflexivity|lia].
        * rewrite app_assoc. now f_equal.
        * destruct (E _ _ Eq). apply Forall_app. split; [|repeat constructor; auto].
          eapply Forall_impl; [|exact H3]. cbv beta. intros z [Z1 Z2]. split; eapply (swo_incomp _ O); eauto.
      + exists (lo ++ [y]), []. rewrite app_nil_r, app_length. cbn [length]. repeat split; auto.
  Qed.

  Lemma skip_up_spec fuel pre p hi post stop :
    stop = Z.of_nat (length pre) + Z.of_nat (length hi) -> (length hi <= fuel)%nat -> Forall (fun x => less p x = true) hi ->
    skip_up eqb fuel (pre ++ p :: hi ++ post) stop (Z.of_nat (length pre)) = Ok (Z.of_nat (length pre)).
  Proof.
    intros -> Hf Hhi. destruct hi as [|h hi]; cbn [length] in *.
    - destruct fuel; cbn [skip_up]; (destruct (Z.leb_spec (Z.of_nat (length pre) + Z.of_nat 0) (Z.of_nat (length pre))); [reflexivity|lia]).
    - destruct fuel as [|fuel]; [lia|]. cbn [skip_up].
      destruct (Z.leb_spec (Z.of_nat (length pre) + Z.of_nat (S (length hi))) (Z.of_nat (length pre))); [lia|].
      rewrite py_get_middle by reflexivity. cbn [bind app].
      replace (pre ++ p :: h :: hi ++ post) with ((pre ++ [p]) ++ h :: hi ++ post) by (rewrite <- ?app_assoc; reflexivity).
      rewrite py_get_middle by (rewrite app_length; cbn [length]; lia). cbn [bind].
      destruct (eqb p h) eqn:Eq; [|reflexivity].
      destruct (E _ _ Eq). inversion Hhi; congruence.
  Qed.

  Lemma Forall_perm (P : A -> Prop) l l' : Permutation l l' -> Forall P l -> Forall P l'.
  Proof. intros Hp H. eapply Permutation_Forall; eauto. Qed.

  Lemma less_le x y : less x y = true -> less y x = false.
  Proof.
    intros H. destruct (less y x) eqn:H2; [|reflexivity].
    pose proof (swo_trans _ O _ _ _ H H2) as H3. rewrite (swo_irrefl _ O) in H3. discriminate.
  Qed.

  Lemma sorted_app l1 l2 : StronglySorted (fun x y => le x y) l1 -> StronglySorted (fun x y => le x y) l2 ->
    (forall x y, In x l1 -> In y l2 -> le x y) -> StronglySorted (fun x y => le x y) (l1 ++ l2).
  Proof.
    induction l1 as [|x l1 IH]; intros H1 H2 H; [exact H2|]. inversion H1; subst. cbn [app]. constructor.
    - apply IH; auto. intros; apply H; [now right|assumption].
    - apply Forall_app. split; [assumption|]. apply Forall_forall. intros y Hy. apply H; [now left|exact Hy].
  Qed.

  Lemma quicksort_spec fuel : forall pre mid post seed,
    (length mid <= fuel)%nat ->
    exists mid',
      quicksortBetween less eqb fuel (pre ++ mid ++ post) (Z.of_nat (length pre))
          (Z.of_nat (length pre) + Z.of_nat (length mid) - 1) seed = Ok (pre ++ mid' ++ post) /\
      Permutation mid mid' /\ StronglySorted (fun x y => le x y) mid'.
  Proof.
    induction fuel as [|fuel IH]; intros pre mid post seed Hf.
    - destruct mid; cbn [length] in Hf; [|lia]. exists []. cbn [quicksortBetween length].
      destruct (Z.ltb_spec (Z.of_nat (length pre) + Z.of_nat 0 - 1 - Z.of_nat (length pre)) 1); [|lia].
      repeat split; auto. constructor.
    - cbn [quicksortBetween].
      destruct (Z.ltb_spec (Z.of_nat (length pre) + Z.of_nat (length mid) - 1 - Z.of_nat (length pre)) 1).
      { exists mid. repeat split; auto. destruct mid as [|x [|y mid]]; cbn [length] in *; [constructor|repeat constructor|lia]. }
      cbv zeta. set (seed' := wrap_s 64 (1013904223 + wrap_s 64 (1664525 * seed))). clearbody seed'.
      replace (Z.of_nat (length pre) + Z.of_nat (length mid) - 1 - Z.of_nat (length pre) + 1) with (Z.of_nat (length mid)) by lia.
      destruct (sortAroundPivot_spec pre mid post (seed' mod Z.of_nat (length mid))) as (lo & p & hi & H1 & H2 & H3 & H4).
      { apply Z.mod_pos_bound. lia. }
      rewrite H1. cbn [bind]. pose proof (Permutation_length H2) as Len. rewrite app_length in Len. cbn [length] in Len.
      edestruct (skip_down_spec lo (Z.to_nat (Z.of_nat (length pre) + Z.of_nat (length lo) - Z.of_nat (length pre))) pre p (hi ++ post))
        as (lo1 & eqs & D1 & D2 & D3); [lia|].
      replace (pre ++ (lo ++ p :: hi) ++ post) with (pre ++ lo ++ p :: hi ++ post) by (rewrite <- ?app_assoc; reflexivity).
      rewrite D1. cbn [bind].
      assert (U : skip_up eqb (Z.to_nat (Z.of_nat (length pre) + Z.of_nat (length mid) - 1 - (Z.of_nat (length pre) + Z.of_nat (length lo))))
                    (pre ++ lo ++ p :: hi ++ post) (Z.of_nat (length pre) + Z.of_nat (length mid) - 1) (Z.of_nat (length pre) + Z.of_nat (length lo))
                  = Ok (Z.of_nat (length pre) + Z.of_nat (length lo))).
      { replace (Z.of_nat (length pre) + Z.of_nat (length lo)) with (Z.of_nat (length (pre ++ lo))) by (rewrite app_length; lia).
        replace (pre ++ lo ++ p :: hi ++ post) with ((pre ++ lo) ++ p :: hi ++ post) by (rewrite <- ?app_assoc; reflexivity).
        apply skip_up_spec; [rewrite app_length; lia|rewrite app_length; lia|exact H4]. }
      rewrite U. cbn [bind]. clear U D1. subst lo. rewrite app_length in *.
      destruct (IH pre lo1 (eqs ++ p :: hi ++ post) seed') as (lo2 & Q1 & Q2 & Q3); [lia|].
      replace (pre ++ (lo1 ++ eqs) ++ p :: hi ++ post) with (pre ++ lo1 ++ eqs ++ p :: hi ++ post) by (rewrite <- ?app_assoc; reflexivity).
      rewrite Q1. cbn [bind].
      pose proof (Permutation_length Q2) as Len2.
      destruct (IH (pre ++ lo2 ++ eqs ++ [p]) hi post (wrap_s 64 (seed' + 1))) as (hi2 & R1 & R2 & R3); [lia|].
      exists (lo2 ++ eqs ++ p :: hi2). split; [|split].
      + etransitivity; [etransitivity; [|exact R1]|].
        * f_equal; [rewrite <- ?app_assoc; reflexivity|rewrite !app_length; cbn [length]; lia|rewrite !app_length; cbn [length]; lia].
        * rewrite <- ?app_assoc. reflexivity.
      + etransitivity; [exact H2|]. rewrite <- ?app_assoc. apply Permutation_app; [exact Q2|].
        apply Permutation_app_head. now constructor.
      + apply Forall_app in H3. destruct H3 as [H3 H3e].
        assert (A1 : Forall (fun x => le x p) lo2) by (eapply Forall_perm; eauto).
        assert (A2 : Forall (fun x => less p x = true) hi2) by (eapply Forall_perm; eauto).
        rewrite Forall_forall in A1, A2, D3.
        assert (B : forall x, In x (eqs ++ p :: hi2) -> le p x).
        { intros x Hx. apply in_app_iff in Hx. destruct Hx as [Hx|[<-|Hx]].
          - now apply D3. - apply (swo_irrefl _ O). - apply less_le. now apply A2. }
        apply sorted_app; [exact Q3| |].
        * apply sorted_app.
          -- clear - D3 O. induction eqs as [|x eqs IHe]; constructor.
             ++ apply IHe. intros; apply D3; now right.
             ++ apply Forall_forall. intros y Hy. destruct (D3 x (or_introl eq_refl)), (D3 y (or_intror Hy)).
                eapply (swo_incomp _ O); eauto.
          -- constructor; [exact R3|]. apply Forall_forall. intros y Hy. apply less_le. now apply A2.
          -- intros x y Hx [<-|Hy]; [now apply D3|]. eapply (swo_incomp _ O); [apply less_le, A2; exact Hy|now apply D3].
        * intros x y Hx Hy. eapply (swo_incomp _ O); [apply B; exact Hy|]. now apply A1.
  Qed.

  Lemma nondecreasing_sorted l : StronglySorted (fun x y => le x y) l -> nondecreasing less l.
  Proof.
    induction 1 as [|x l Hs IH Hf]; intros i j a b Hij Ha Hb; [now destruct i|].
    destruct j as [|j]; [lia|]. destruct i as [|i]; cbn [nth_error] in *.
    - injection Ha as <-. rewrite Forall_forall in Hf. apply Hf. eapply nth_error_In; eauto.
    - eapply (IH i j); eauto. lia.
  Qed.

  Lemma sort_correct l : exists l', sort less eqb l = Ok l' /\ Permutation l l' /\ nondecreasing less l'.
  Proof.
    unfold sort. destruct (Z.leb_spec (Z.of_nat (length l)) 1).
    - exists l. repeat split; auto. intros i j x y Hij Hx Hy.
      assert (j < length l)%nat by (apply nth_error_Some; congruence). lia.
    - destruct (quicksort_spec (length l) [] l [] 1) as (l' & H1 & H2 & H3); [lia|].
      cbn [app length] in H1. rewrite !app_nil_r in H1. exists l'. split; [exact H1|split]; auto. now apply nondecreasing_sorted.
  Qed.

  Lemma quicksort_any_seed l seed : exists l',
    quicksortBetween less eqb (length l) l 0 (Z.of_nat (length l) - 1) seed = Ok l' /\ Permutation l l' /\ nondecreasing less l'.
  Proof.
    destruct (quicksort_spec (length l) [] l [] seed) as (l' & H1 & H2 & H3); [lia|].
    cbn [app length] in H1. rewrite !app_nil_r in H1. exists l'. split; [exact H1|split]; auto. now apply nondecreasing_sorted.
  Qed.

  (** ** searchSorted *)

  Hypothesis T : forall x y, less x y = false -> less y x = false -> eqb x y = true.

  Lemma search_spec fuel item l : nondecreasing less l ->
    forall low high, 0 <= low <= high -> high <= Z.of_nat (length l) -> (Z.to_nat (high - low) <= fuel)%nat ->
    (forall i x, nth_error l i = Some x -> Z.of_nat i < low -> less x item = true) ->
    (forall i x, nth_error l i = Some x -> high <= Z.of_nat i -> less item x = true) ->
    exists r, search_loop less eqb fuel item l low high = Ok r /\ low <= r <= high /\
      ((exists x, nth_error l (Z.to_nat r) = Some x /\ eqb x item = true) \/
       ((forall i x, nth_error l i = Some x -> Z.of_nat i < r -> less x item = true) /\
        (forall i x, nth_error l i = Some x -> r <= Z.of_nat i -> less item x = true))).
  Proof.
    intros Hl. induction fuel as [|fuel IH]; intros low high H1 H2 Hf Hlow Hhigh; cbn [search_loop];
      (destruct (Z.leb_spec high low) as [H3|H3];
       [exists low; split; [reflexivity|]; split; [lia|]; right; split; [exact Hlow|intros i x Hx Hi; apply Hhigh with i; [exact Hx|lia]]|]).
    { lia. }
    cbv zeta. assert (Hm : low <= (low + high) / 2 < high).
    { split; [apply Z.div_le_lower_bound; lia|apply Z.div_lt_upper_bound; lia]. }
    set (mid := (low + high) / 2) in *. clearbody mid.
    destruct (nth_error l (Z.to_nat mid)) as [x|] eqn:N; [|apply nth_error_None in N; lia].
    rewrite (py_get_nth l mid x) by (auto; lia). cbn [bind]. unfold compare_values.
    destruct (less x item) eqn:L1; cbn [bind].
    - destruct (Z.ltb_spec (-1) 0); [|lia].
      destruct (IH (mid + 1) high) as (r & R1 & R2 & R3); auto; try lia.
      + intros i y Hy Hi. destruct (Z.eq_dec (Z.of_nat i) mid) as [Em|Em].
        * replace i with (Z.to_nat mid) in Hy by lia. congruence.
        * assert (Hyx : less x y = false) by (apply (Hl i (Z.to_nat mid)); auto; lia).
          destruct (less y item) eqn:L2; [reflexivity|]. pose proof (swo_incomp _ O _ _ _ Hyx L2). congruence.
      + exists r. split; [exact R1|]. split; [lia|exact R3].
    - destruct (less item x) eqn:L2; cbn [bind].
      + destruct (Z.ltb_spec 1 0); [lia|]. destruct (Z.ltb_spec 0 1); [|lia].
        destruct (IH low mid) as (r & R1 & R2 & R3); auto; try lia.
        * intros i y Hy Hi. destruct (Z.eq_dec (Z.of_nat i) mid) as [Em|Em].
          -- replace i with (Z.to_nat mid) in Hy by lia. congruence.
          -- assert (Hyx : less y x = false) by (apply (Hl (Z.to_nat mid) i); auto; lia).
             destruct (less item y) eqn:L3; [reflexivity|]. pose proof (swo_incomp _ O _ _ _ L3 Hyx). congruence.
        * exists r. split; [exact R1|]. split; [lia|exact R3].
      + rewrite (T _ _ L1 L2). cbn [negb bind]. exists mid. split; [reflexivity|]. split; [lia|]. left. exists x. split; [exact N|apply T; auto].
  Qed.

  Lemma searchSorted_correct item l : nondecreasing less l ->
    exists r, searchSorted less eqb item l = Ok r /\ 0 <= r <= Z.of_nat (length l) /\
      ((exists x, nth_error l (Z.to_nat r) = Some x /\ eqb x item = true) \/
       ((forall i x, nth_error l i = Some x -> Z.of_nat i < r -> less x item = true) /\
        (forall i x, nth_error l i = Some x -> r <= Z.of_nat i -> less item x = true))).
  Proof.
    intros Hl. unfold searchSorted. apply search_spec; auto; try lia.
    intros i x Hx Hi. assert (i < length l)%nat by (apply nth_error_Some; congruence). lia.
  Qed.
End Sorting.
