(* Running a program as it is written follows the rules of Python, and the other way around. *)
From Verif Require Import Base Vars_Model Vars_Spec Vars_Proofs Vars_Python.
Require Import ZifyBool ZifyNat.

Section Meaning.
  Context {T V : Type}.
  Variable hasb : V -> T -> bool.
  Variable truthy : V -> bool.
  Variable apply : nat -> V -> V -> V + V.
  Variable unbound failed : V.
  Notation stmt := (stmt T V).
  Notation handlers := (handlers T V).
  Notation env := (env V).
  Notation out := (out V).
  Notation exec := (exec T V hasb truthy apply unbound failed).
  Notation handle := (handle T V hasb truthy apply unbound failed).
  Notation while_loop := (while_loop T V hasb truthy apply unbound).
  Notation ask := (ask T V hasb truthy apply unbound).
  Notation eval := (eval T V hasb apply unbound).
  Notation py_eval := (py_eval apply unbound).
  Notation py_ask := (py_ask hasb truthy apply unbound).
  Notation py := (py hasb truthy apply unbound failed).
  Notation py_caught := (py_caught hasb truthy apply unbound failed).
  Notation py_final := (py_final hasb truthy apply unbound failed).
  Notation py_handle := (py_handle hasb truthy apply unbound failed).

  Local Arguments rv : simpl never.

  (* ---------------------------------------------------------------- what runs follows the rules *)

  Lemma eval_py : forall e m, plain_expr e = true ->
    match eval e m with
    | Got v => py_eval e m (inl v)
    | Threw z => py_eval e m (inr z)
    | Wrong => False
    end.
  Proof.
    induction e as [v t|x l|o a IHa b IHb]; intros m P; cbn in P.
    - constructor.
    - destruct l; try discriminate. cbn. destruct (m x) eqn:M; cbn; now constructor.
    - apply andb_true_iff in P. destruct P as [Pa Pb]. specialize (IHa m Pa). specialize (IHb m Pb).
      cbn [Vars_Model.eval]. destruct (eval a m) as [va|z|]; [|now constructor|contradiction].
      destruct (eval b m) as [vb|z|]; [|now apply E_right with (va := va)|contradiction].
      assert (A := E_op apply unbound o a b m va vb IHa IHb).
      destruct (apply o va vb); exact A.
  Qed.

  Lemma ask_py : forall c m, plain_test c = true ->
    match ask c m with
    | Yes => py_ask c m (inl true)
    | No => py_ask c m (inl false)
    | AThrew z => py_ask c m (inr z)
    | AWrong => False
    end.
  Proof.
    intros [e|x l t neg] m P; cbn in P.
    - assert (A := eval_py e m P). cbn [Vars_Model.ask]. destruct (eval e m) as [v|z|]; auto.
      + assert (B := A_truth hasb truthy apply unbound e m v A). destruct (truthy v); exact B.
      + now constructor.
    - destruct l; try discriminate. cbn. destruct (m x) as [v|] eqn:M; cbn.
      + destruct neg.
        * assert (B := A_is_not hasb truthy apply unbound x t m v M). destruct (hasb v t); exact B.
        * assert (B := A_is hasb truthy apply unbound x t m v M). destruct (hasb v t); exact B.
      + now constructor.
  Qed.

  Definition tells (P : out -> Prop) (r : out) : Prop :=
    match r with Bad => False | Spin => True | _ => P r end.

  Lemma exec_py : forall n,
    (forall s : stmt, source s = true -> forall m, tells (py s m) (exec n s m)) /\
    (forall h : handlers, h_source h = true -> forall v m, tells (py_handle h v m) (handle n h v m)).
  Proof.
    intros n; apply stmt_handlers_ind.
    - intros _ m; constructor.
    - intros a IHa b IHb S m. cbn in S. apply andb_true_iff in S. destruct S as [Sa Sb].
      specialize (IHa Sa m). cbn [Vars_Model.exec].
      destruct (exec n a m) as [m'|m'|m'|v m'|v m'| |]; cbn in IHa |- *; auto;
        try (apply P_seq_leave; [exact IHa | discriminate]).
      specialize (IHb Sb m'). destruct (exec n b m'); cbn in *; auto; now apply P_seq with (m' := m').
    - intros x w e S m. cbn in S. apply andb_true_iff in S. destruct S as [Sw Se].
      destruct w; try discriminate. assert (A := eval_py e m Se). cbn [Vars_Model.exec].
      destruct (eval e m); cbn; auto; now constructor.
    - intros e S m. assert (A := eval_py e m S). cbn [Vars_Model.exec].
      destruct (eval e m) as [v|z|]; cbn; auto; [now apply P_expr with (v := v) | now constructor].
    - intros c a IHa b IHb S m. cbn in S. rewrite !andb_true_iff in S. destruct S as [[Sc Sa] Sb].
      specialize (IHa Sa m). specialize (IHb Sb m). assert (A := ask_py c m Sc). cbn [Vars_Model.exec].
      destruct (ask c m); cbn; auto; [| |now constructor].
      + destruct (exec n a m); cbn in *; auto; now apply P_then.
      + destruct (exec n b m); cbn in *; auto; now apply P_else.
    - intros c b IHb o IHo S m. cbn in S. rewrite !andb_true_iff in S. destruct S as [[Sc Sb] So].
      cbn [Vars_Model.exec]. generalize n at 3. intros j; revert m.
      induction j as [|j IH]; intros m; cbn [Vars_Model.while_loop]; assert (A := ask_py c m Sc);
        destruct (ask c m); cbn; auto; try (now constructor).
      + specialize (IHo So m). destruct (exec n o m); cbn in *; auto; now apply P_while_end.
      + specialize (IHb Sb m). destruct (exec n b m) as [m'|m'|m'|v m'|v m'| |]; cbn in IHb; auto.
        * specialize (IH m'). destruct (while_loop c (exec n b) (exec n o) j m'); cbn in *; auto;
            now apply P_while_next with (m' := m').
        * now apply P_while_break.
        * specialize (IH m'). destruct (while_loop c (exec n b) (exec n o) j m'); cbn in *; auto;
            now apply P_while_continue with (m' := m').
        * now apply P_while_return.
        * now apply P_while_raise.
      + specialize (IHo So m). destruct (exec n o m); cbn in *; auto; now apply P_while_end.
    - intros x w vs t b IHb o IHo S m. cbn in S. rewrite !andb_true_iff in S. destruct S as [[Sw Sb] So].
      destruct w; try discriminate. cbn [Vars_Model.exec]. revert m.
      induction vs as [|v vs IH]; intros m; cbn [for_loop].
      + specialize (IHo So m). destruct (exec n o m); cbn in *; auto; now constructor.
      + cbn [may_write]. specialize (IHb Sb (upd m x (Some v))).
        destruct (exec n b (upd m x (Some v))) as [m'|m'|m'|z m'|z m'| |]; cbn in IHb; auto.
        * specialize (IH m'). destruct (for_loop x Free (exec n b) (exec n o) vs m'); cbn in *; auto;
            now apply P_for_next with (m' := m').
        * now apply P_for_break.
        * specialize (IH m'). destruct (for_loop x Free (exec n b) (exec n o) vs m'); cbn in *; auto;
            now apply P_for_continue with (m' := m').
        * now apply P_for_return.
        * now apply P_for_raise.
    - intros _ m; constructor.
    - intros _ m; constructor.
    - intros a IHa S m. specialize (IHa S m). cbn [Vars_Model.exec].
      destruct (exec n a m); cbn in *; auto; try (now constructor); apply P_here_other; auto; discriminate.
    - intros a IHa S m. specialize (IHa S m). cbn [Vars_Model.exec].
      destruct (exec n a m); cbn in *; auto; try (now constructor); apply P_here_other'; auto; discriminate.
    - intros w e S m. cbn in S. apply andb_true_iff in S. destruct S as [Sw Se].
      destruct w; try discriminate. assert (A := eval_py e m Se). cbn [Vars_Model.exec].
      destruct (eval e m); cbn; auto; now constructor.
    - intros e S m. assert (A := eval_py e m S). cbn [Vars_Model.exec].
      destruct (eval e m); cbn; auto; now constructor.
    - intros c S m. assert (A := ask_py c m S). cbn [Vars_Model.exec].
      destruct (ask c m); cbn; auto; now constructor.
    - intros b IHb h IHh o IHo f IHf S m.
      change (source b && h_source h && source o && source f = true) in S.
      rewrite !andb_true_iff in S. destruct S as [[[Sb Sh] So] Sf]. rewrite exec_try.
      specialize (IHb Sb m).
      assert (C : tells (fun r2 => exists r1, py b m r1 /\ py_caught h o r1 r2)
                    (caught (exec n o) (handle n h) (exec n b m))).
      { destruct (exec n b m) as [m1|m1|m1|v m1|v m1| |]; cbn in IHb |- *; auto;
          try (eexists; split; [exact IHb | constructor]; fail).
        - specialize (IHo So m1). destruct (exec n o m1); cbn in *; auto;
            (eexists; split; [exact IHb | now constructor]).
        - specialize (IHh Sh v m1). destruct (handle n h v m1); cbn in *; auto;
            (eexists; split; [exact IHb | now constructor]). }
      destruct (caught (exec n o) (handle n h) (exec n b m)) as [m2|m2|m2|v m2|v m2| |]; cbn in C |- *; auto;
        destruct C as (r1 & B & C); unfold at_last; cbn [env_of]; specialize (IHf Sf m2);
        destruct (exec n f m2) as [m3|m3|m3|v3 m3|v3 m3| |]; cbn in IHf |- *; auto;
        (eapply P_try; [exact B | exact C |]);
        first [now constructor
              | eapply F_leave; [reflexivity | exact IHf | discriminate]].
    - intros S; discriminate.
    - intros _ v m; constructor.
    - intros t x b IHb h IHh S v m.
      change (match x with
              | None => source b && h_source h
              | Some (_, w) => free w && source b && h_source h
              end = true) in S.
      rewrite handle_cons. destruct (hasb v t) eqn:Hv.
      + destruct x as [[y w]|].
        * rewrite !andb_true_iff in S. destruct S as [[Sw Sb] Sh]. destruct w; try discriminate.
          cbn [may_write]. specialize (IHb Sb (upd m y (Some v))).
          destruct (exec n b (upd m y (Some v))) as [m1|m1|m1|z m1|z m1| |]; cbn in IHb |- *; auto;
            exact (H_named hasb truthy apply unbound failed t y b h v m _ m1 Hv IHb eq_refl).
        * apply andb_true_iff in S. destruct S as [Sb Sh]. specialize (IHb Sb m).
          destruct (exec n b m); cbn in *; auto; now apply H_take.
      + assert (Sh : h_source h = true).
        { destruct x as [[y w]|]; rewrite !andb_true_iff in S; tauto. }
        specialize (IHh Sh v m). destruct (handle n h v m); cbn in *; auto; now apply H_pass.
  Qed.

  (* ---------------------------------------------------------------- what follows the rules runs *)

  Lemma py_eval_runs : forall e m r, py_eval e m r ->
    eval e m = match r with inl v => Got v | inr z => Threw z end.
  Proof.
    induction 1; cbn [Vars_Model.eval]; auto.
    - cbn. now rewrite H.
    - cbn. now rewrite H.
    - rewrite IHpy_eval1, IHpy_eval2. destruct (apply o va vb); reflexivity.
    - now rewrite IHpy_eval.
    - now rewrite IHpy_eval1, IHpy_eval2.
  Qed.
  Lemma py_ask_runs : forall c m r, py_ask c m r ->
    ask c m = match r with inl true => Yes | inl false => No | inr z => AThrew z end.
  Proof.
    destruct 1; cbn [Vars_Model.ask].
    - rewrite (py_eval_runs _ _ _ H). now destruct (truthy v).
    - now rewrite (py_eval_runs _ _ _ H).
    - rewrite H; cbn. now destruct (hasb v t).
    - rewrite H; cbn. now destruct (hasb v t).
    - rewrite H; reflexivity.
  Qed.

  Definition runs (s : stmt) (m : env) (r : out) : Prop :=
    exists n0, forall n, (n0 <= n)%nat -> exec n s m = r /\
      forall c b o, s = SWhile c b o -> forall j, (n0 <= j)%nat -> while_loop c (exec n b) (exec n o) j m = r.
  Definition h_runs (h : handlers) (v : V) (m : env) (r : out) : Prop :=
    exists n0, forall n, (n0 <= n)%nat -> handle n h v m = r.
  Definition c_runs (h : handlers) (o : stmt) (r1 r2 : out) : Prop :=
    exists n0, forall n, (n0 <= n)%nat -> caught (exec n o) (handle n h) r1 = r2.
  Definition f_runs (f : stmt) (r1 r2 : out) : Prop :=
    exists n0, forall n, (n0 <= n)%nat -> at_last (exec n f) r1 = r2.

  Scheme py_ind4 := Minimality for Vars_Python.py Sort Prop
    with caught_ind4 := Minimality for Vars_Python.py_caught Sort Prop
    with final_ind4 := Minimality for Vars_Python.py_final Sort Prop
    with handle_ind4 := Minimality for Vars_Python.py_handle Sort Prop.
  Combined Scheme py_all from py_ind4, caught_ind4, final_ind4, handle_ind4.

  Ltac bound :=
    match goal with
    | R1 : forall n, (?a <= n)%nat -> _, R2 : forall n, (?b <= n)%nat -> _,
      R3 : forall n, (?c <= n)%nat -> _ |- _ => exists (a + b + c)%nat
    | R1 : forall n, (?a <= n)%nat -> _, R2 : forall n, (?b <= n)%nat -> _ |- _ => exists (a + b)%nat
    | R1 : forall n, (?a <= n)%nat -> _ |- _ => exists a
    | _ => exists 0%nat
    end.
  Ltac start :=
    intros;
    repeat match goal with
           | H : exists n0 : nat, _ |- _ => let k := fresh "k" in let R := fresh "R" in destruct H as (k & R)
           end;
    bound; let n := fresh "n" in let Hn := fresh "Hn" in intros n Hn;
    repeat match goal with
           | R : forall n, (?a <= n)%nat -> _ |- _ =>
               let Q := fresh "Q" in assert (Q := R n ltac:(lia)); clear R
           end;
    repeat match goal with
           | Q : _ /\ _ |- _ => destruct Q
           | Q : py_eval _ _ _ |- _ => apply py_eval_runs in Q
           | Q : py_ask _ _ _ |- _ => apply py_ask_runs in Q
           end.
  Ltac leave r := destruct r; try reflexivity;
    match goal with H : forall m', _ <> _ |- _ => exfalso; eapply H; reflexivity end.
  Ltac fin := match goal with Q : exec _ _ _ = _ |- _ => rewrite Q end;
    try match goal with Q : env_of _ = _ |- _ => rewrite Q end; try reflexivity.
  (* a statement that is no while loop *)
  Ltac one := start; split; [cbn [Vars_Model.exec may_write may_return for_loop];
    repeat match goal with Q : _ = _ |- _ => rewrite Q; clear Q end; try reflexivity; try assumption | discriminate].

  Lemma py_runs :
    (forall s m r, py s m r -> runs s m r) /\
    (forall h o r1 r2, py_caught h o r1 r2 -> c_runs h o r1 r2) /\
    (forall f r1 r2, py_final f r1 r2 -> f_runs f r1 r2) /\
    (forall h v m r, py_handle h v m r -> h_runs h v m r).
  Proof.
    apply py_all; unfold runs, h_runs, c_runs, f_runs.
    - one.
    - one.
    - one. leave r.
    - one.
    - one.
    - one.
    - one.
    - one.
    - one.
    - one.
    - (* the end of a while loop *)
      intros c b o m r A _ (k & R). apply py_ask_runs in A. exists k. intros n Hn.
      assert (W : forall j, while_loop c (exec n b) (exec n o) j m = r).
      { intros [|j]; cbn [Vars_Model.while_loop]; rewrite A; apply R; auto. }
      split; [apply W|]. intros c0 b0 o0 E; inversion E; subst. auto.
    - intros c b o m m' r A _ (k1 & R1) _ (k2 & R2). apply py_ask_runs in A. exists (S (k1 + k2))%nat.
      intros n Hn.
      assert (W : forall j, (S (k1 + k2) <= j)%nat -> while_loop c (exec n b) (exec n o) j m = r).
      { intros [|j] Hj; [lia|]. cbn [Vars_Model.while_loop]. rewrite A.
        destruct (R1 n ltac:(lia)) as [E _]. rewrite E.
        destruct (R2 n ltac:(lia)) as [_ F]. apply F; [reflexivity | lia]. }
      split; [apply W; lia|]. intros c0 b0 o0 E; inversion E; subst. auto.
    - intros c b o m m' r A _ (k1 & R1) _ (k2 & R2). apply py_ask_runs in A. exists (S (k1 + k2))%nat.
      intros n Hn.
      assert (W : forall j, (S (k1 + k2) <= j)%nat -> while_loop c (exec n b) (exec n o) j m = r).
      { intros [|j] Hj; [lia|]. cbn [Vars_Model.while_loop]. rewrite A.
        destruct (R1 n ltac:(lia)) as [E _]. rewrite E.
        destruct (R2 n ltac:(lia)) as [_ F]. apply F; [reflexivity | lia]. }
      split; [apply W; lia|]. intros c0 b0 o0 E; inversion E; subst. auto.
    - intros c b o m m' A _ (k1 & R1). apply py_ask_runs in A. exists (S k1)%nat. intros n Hn.
      assert (W : forall j, (S k1 <= j)%nat -> while_loop c (exec n b) (exec n o) j m = Normal m').
      { intros [|j] Hj; [lia|]. cbn [Vars_Model.while_loop]. rewrite A.
        destruct (R1 n ltac:(lia)) as [E _]. now rewrite E. }
      split; [apply W; lia|]. intros c0 b0 o0 E; inversion E; subst. auto.
    - intros c b o m v m' A _ (k1 & R1). apply py_ask_runs in A. exists (S k1)%nat. intros n Hn.
      assert (W : forall j, (S k1 <= j)%nat -> while_loop c (exec n b) (exec n o) j m = Returned v m').
      { intros [|j] Hj; [lia|]. cbn [Vars_Model.while_loop]. rewrite A.
        destruct (R1 n ltac:(lia)) as [E _]. now rewrite E. }
      split; [apply W; lia|]. intros c0 b0 o0 E; inversion E; subst. auto.
    - intros c b o m v m' A _ (k1 & R1). apply py_ask_runs in A. exists (S k1)%nat. intros n Hn.
      assert (W : forall j, (S k1 <= j)%nat -> while_loop c (exec n b) (exec n o) j m = Raised v m').
      { intros [|j] Hj; [lia|]. cbn [Vars_Model.while_loop]. rewrite A.
        destruct (R1 n ltac:(lia)) as [E _]. now rewrite E. }
      split; [apply W; lia|]. intros c0 b0 o0 E; inversion E; subst. auto.
    - intros c b o m z A. apply py_ask_runs in A. exists 0%nat. intros n Hn.
      assert (W : forall j, while_loop c (exec n b) (exec n o) j m = Raised z m).
      { intros [|j]; cbn [Vars_Model.while_loop]; now rewrite A. }
      split; [apply W|]. intros c0 b0 o0 E; inversion E; subst. auto.
    - one.
    - one.
    - one.
    - one.
    - one.
    - one.
    - one.
    - one.
    - one.
    - one. leave r.
    - one.
    - one. leave r.
    - one.
    - one.
    - one.
    - one.
    - one.
    - one.
    - one.
    - start. split; [|discriminate]. rewrite exec_try. congruence.
    - start. assumption.
    - start. assumption.
    - start. reflexivity.
    - start. reflexivity.
    - start. reflexivity.
    - start. unfold at_last; cbn [env_of]. fin.
    - start. unfold at_last; cbn [env_of]. fin.
    - start. unfold at_last; cbn [env_of]. fin.
    - start. unfold at_last; cbn [env_of]. fin.
    - start. unfold at_last; cbn [env_of]. fin.
    - start. unfold at_last. rewrite H. fin. leave r.
    - start. reflexivity.
    - start. rewrite handle_cons, H. assumption.
    - start. rewrite handle_cons, H. cbn [may_write]. unfold forget. fin.
    - start. rewrite handle_cons, H. assumption.
  Qed.
End Meaning.
