(** Proofs about the tokens of a text. *)
From Coq Require Import String Ascii.
From Verif Require Import Base DateTime_Model DateText_Model DateText_Spec DateText_Format_Proofs.
From Coq Require Import ZifyBool ZifyNat.
Open Scope string_scope.
Open Scope Z_scope.
Open Scope list_scope.
Open Scope result_scope.

Definition stops (p : Z -> bool) (t : text) : Prop := match t with [] => True | c :: _ => p c = false end.

Lemma span_spec p t : let '(a, b) := span p t in t = a ++ b /\ forallb p a = true /\ stops p b.
Proof.
  induction t as [|c t IH]; cbn [span]; [repeat split|].
  destruct (p c) eqn:E; [|repeat split; exact E].
  destruct (span p t) as [a b]. destruct IH as (-> & Ha & Hb). cbn [forallb]. rewrite E. repeat split; assumption.
Qed.
Lemma span_app p a b : forallb p a = true -> stops p b -> span p (a ++ b) = (a, b).
Proof.
  intros Ha Hb. induction a as [|c a IH]; cbn [app].
  - destruct b as [|c b]; [reflexivity|]. cbn [span]. cbn in Hb. rewrite Hb. reflexivity.
  - cbn [forallb] in Ha. apply andb_true_iff in Ha as [Hc Ha]. cbn [span]. rewrite Hc, IH by exact Ha. reflexivity.
Qed.
Lemma span_none p b : stops p b -> span p b = ([], b).
Proof. intros H. apply (span_app p [] b eq_refl H). Qed.

Lemma some_class c : is_alpha c || in_number c || is_space c || in_separator c = true.
Proof. unfold in_number, in_separator. destruct (is_alpha c), (is_digit c), (is_space c), (c =? 46); reflexivity. Qed.

Section Tokens.
  Variable skip : text.

  Definition round (t : text) : list text * text :=
    let '(a, t) := span is_alpha t in
    let '(n, t) := span in_number t in
    let '(b, t) := span is_space t in
    let '(o, t) := span in_separator t in
    (nonempty a ++ nonempty n
     ++ (if contains skip (chars " ") then [] else match b with [] => [] | _ => [chars " "] end)
     ++ (if contains skip o then [] else nonempty o), t).

  Lemma get_tokens_round f t :
    t <> [] -> get_tokens (S f) skip t = (rest <- get_tokens f skip (snd (round t)) ;; Ok (fst (round t) ++ rest)).
  Proof.
    intros H. destruct t as [|c t]; [congruence|]. set (u := c :: t) in *. unfold get_tokens at 1. fold get_tokens.
    unfold u at 1. unfold round.
    destruct (span is_alpha u) as [a t1], (span in_number t1) as [n t2], (span is_space t2) as [b t3], (span in_separator t3) as [o t4].
    cbn [fst snd]. destruct (get_tokens f skip t4); [|reflexivity]. cbn [bind]. rewrite <- !app_assoc. reflexivity.
  Qed.

  Lemma round_shorter t : t <> [] -> (List.length (snd (round t)) < List.length t)%nat.
  Proof.
    intros H. unfold round.
    pose proof (span_spec is_alpha t) as S1. destruct (span is_alpha t) as [a t1]. destruct S1 as (-> & _ & H1).
    pose proof (span_spec in_number t1) as S2. destruct (span in_number t1) as [n t2]. destruct S2 as (-> & _ & H2).
    pose proof (span_spec is_space t2) as S3. destruct (span is_space t2) as [b t3]. destruct S3 as (-> & _ & H3).
    pose proof (span_spec in_separator t3) as S4. destruct (span in_separator t3) as [o t4]. destruct S4 as (-> & _ & H4).
    cbn [snd]. rewrite !app_length.
    destruct a; [|cbn; lia]. destruct n; [|cbn; lia]. destruct b; [|cbn; lia]. destruct o; [|cbn; lia].
    cbn [app] in *. destruct t4 as [|c t4]; [congruence|]. cbn [stops] in *.
    pose proof (some_class c) as E. rewrite H1, H2, H3, H4 in E. discriminate.
  Qed.

  Lemma get_tokens_enough f g t :
    (List.length t <= f)%nat -> (List.length t <= g)%nat ->
    exists ts, get_tokens f skip t = Ok ts /\ get_tokens g skip t = Ok ts.
  Proof.
    revert g t. induction f as [|f IH]; intros g t Hf Hg.
    - destruct t; [|cbn in Hf; lia]. exists []. split; [|destruct g]; reflexivity.
    - destruct t as [|c t]; [exists []; split; [|destruct g]; reflexivity|].
      destruct g as [|g]; [cbn in Hg; lia|].
      assert (c :: t <> []) as N by discriminate. pose proof (round_shorter _ N) as L.
      rewrite !get_tokens_round by exact N.
      destruct (IH g (snd (round (c :: t))) ltac:(cbn [List.length] in *; lia) ltac:(cbn [List.length] in *; lia)) as (ts & -> & ->).
      eexists. split; reflexivity.
  Qed.

  Definition toks (t : text) : list text := match tokens_of skip t with Ok ts => ts | Err _ => [] end.
  Lemma tokens_of_toks t : tokens_of skip t = Ok (toks t).
  Proof.
    unfold toks, tokens_of. destruct (get_tokens_enough (List.length t) (List.length t) t (le_n _) (le_n _)) as (ts & -> & _). reflexivity.
  Qed.
  Lemma toks_nil : toks [] = [].
  Proof. reflexivity. Qed.
  Lemma toks_round t : t <> [] -> toks t = fst (round t) ++ toks (snd (round t)).
  Proof.
    intros N. pose proof (round_shorter _ N) as L.
    assert (tokens_of skip t = Ok (fst (round t) ++ toks (snd (round t)))) as E; [|unfold toks at 1; rewrite E; reflexivity].
    unfold tokens_of. destruct (List.length t) as [|f] eqn:El; [lia|].
    rewrite get_tokens_round by exact N.
    destruct (get_tokens_enough f (List.length (snd (round t))) (snd (round t)) ltac:(lia) (le_n _)) as (ts & -> & E).
    cbn [bind]. unfold toks, tokens_of. rewrite E. reflexivity.
  Qed.

  (** ** A text of runs *)

  (** Letters, digits, blanks and everything else but the dot. *)
  Definition class (c : Z) : nat := if is_alpha c then 0 else if is_digit c then 1 else if is_space c then 2 else 3.
  Definition run (k : nat) (p : text) : Prop := p <> [] /\ Forall (fun c => class c = k /\ c <> 46) p.
  Definition head_not (k : nat) (t : text) : Prop := match t with [] => True | c :: _ => class c <> k end.
  Definition keep (k : nat) (p : text) : list text :=
    match k with
    | 0%nat | 1%nat => [p]
    | 2%nat => if contains skip (chars " ") then [] else [chars " "]
    | _ => if contains skip p then [] else [p]
    end.
  Definition dotless (t : text) : Prop := match t with [] => True | c :: _ => c <> 46 end.

  Lemma classes c : c <> 46 ->
    is_alpha c = (class c =? 0)%nat /\ in_number c = (class c =? 1)%nat /\ is_space c = (class c =? 2)%nat /\ in_separator c = (class c =? 3)%nat.
  Proof.
    intros H. unfold class, in_number, in_separator. replace (c =? 46) with false by lia. rewrite orb_false_r.
    destruct (is_alpha c) eqn:A, (is_digit c) eqn:D, (is_space c) eqn:S; try (repeat split; reflexivity).
    all: exfalso; unfold is_alpha, is_upper, is_digit, is_space in *; lia.
  Qed.
  Lemma class_bound c : (class c < 4)%nat.
  Proof. unfold class. destruct (is_alpha c), (is_digit c), (is_space c); lia. Qed.

  Definition test (k : nat) (c : Z) : bool := match k with 0%nat => is_alpha c | 1%nat => in_number c | 2%nat => is_space c | _ => in_separator c end.
  Lemma test_class k c : (k < 4)%nat -> c <> 46 -> test k c = (class c =? k)%nat.
  Proof.
    intros Hk H. destruct (classes c H) as (A & B & C & D).
    destruct k as [|[|[|[|]]]]; cbn [test]; assumption || lia.
  Qed.
  Lemma span_run k p r : (k < 4)%nat -> run k p -> head_not k r -> dotless r -> span (test k) (p ++ r) = (p, r).
  Proof.
    intros Hk [_ Hp] Hr Hd. apply span_app.
    - apply forallb_forall. intros c Hc. rewrite Forall_forall in Hp. destruct (Hp c Hc) as [<- Hc'].
      rewrite test_class by assumption. apply Nat.eqb_refl.
    - destruct r as [|c r]; [exact I|]. cbn in *. rewrite test_class by assumption. apply Nat.eqb_neq. exact Hr.
  Qed.
  Lemma span_other k j p r : (k < 4)%nat -> k <> j -> run j p -> span (test k) (p ++ r) = ([], p ++ r).
  Proof.
    intros Hk Hj [Hn Hp]. apply span_none. destruct p as [|c p]; [congruence|]. cbn.
    inversion Hp as [|? ? [Hc Hd] _]. subst. rewrite test_class by assumption. apply Nat.eqb_neq. congruence.
  Qed.
  Lemma span_head k c r : (k < 4)%nat -> class c <> k -> c <> 46 -> span (test k) (c :: r) = ([], c :: r).
  Proof. intros Hk Hc Hd. apply span_none. cbn. rewrite test_class by assumption. apply Nat.eqb_neq. exact Hc. Qed.

  Lemma contains_nil t : contains t [] = true.
  Proof. destruct t; reflexivity. Qed.

  Lemma toks_run k p r : (k < 4)%nat -> run k p -> head_not k r -> dotless r -> toks (p ++ r) = keep k p ++ toks r.
  Proof.
    intros Hk Hp Hr Hd. assert (p ++ r <> []) as N by (destruct Hp as [Hn _]; destruct p; [congruence|discriminate]).
    assert (p <> []) as Np by apply Hp.
    rewrite toks_round by exact N. unfold round.
    change is_alpha with (test 0). change in_number with (test 1). change is_space with (test 2). change in_separator with (test 3).
    assert (r = [] \/ r <> []) as [->|Nr] by (destruct r; [left; reflexivity|right; discriminate]).
    - rewrite toks_nil, app_nil_r.
      assert (p = p ++ []) as Ep by (symmetry; apply app_nil_r).
      assert (span (test k) p = (p, [])) as Es by (rewrite Ep at 1; apply span_run; assumption).
      assert (forall j, (j < 4)%nat -> j <> k -> span (test j) p = ([], p)) as En.
      { intros j Hj Hjk. rewrite Ep. apply (span_other j k); assumption. }
      destruct k as [|[|[|[|]]]]; try lia;
        rewrite ?(En 0%nat) by lia; rewrite ?(En 1%nat) by lia; rewrite ?(En 2%nat) by lia; rewrite ?(En 3%nat) by lia; rewrite Es; cbn [span];
        cbn [fst snd nonempty app]; rewrite ?contains_nil, ?app_nil_r, ?toks_nil, ?app_nil_r; cbn [keep app];
        destruct p; try congruence; cbn [nonempty]; try reflexivity;
        repeat match goal with |- context [if ?b then _ else _] => destruct b end; reflexivity.
    - destruct r as [|c r]; [congruence|]. cbn [head_not dotless] in Hr, Hd.
      assert (span (test k) (p ++ c :: r) = (p, c :: r)) as Es by (apply span_run; assumption).
      assert (forall j, (j < 4)%nat -> j <> k -> span (test j) (p ++ c :: r) = ([], p ++ c :: r)) as En
        by (intros j Hj Hjk; apply (span_other j k); assumption).
      rewrite (toks_round (c :: r)) by discriminate. unfold round.
      change is_alpha with (test 0). change in_number with (test 1). change is_space with (test 2). change in_separator with (test 3).
      pose proof (class_bound c) as Hc.
      assert (forall j, (j < 4)%nat -> class c <> j -> span (test j) (c :: r) = ([], c :: r)) as Eh by (intros; apply span_head; assumption).
      remember (class c) as l eqn:El. 
      destruct k as [|[|[|[|]]]]; try lia; destruct l as [|[|[|[|]]]]; try lia;
        rewrite ?(En 0%nat) by lia; rewrite ?(En 1%nat) by lia; rewrite ?(En 2%nat) by lia; rewrite ?(En 3%nat) by lia; rewrite Es;
        rewrite ?(Eh 0%nat) by lia; rewrite ?(Eh 1%nat) by lia; rewrite ?(Eh 2%nat) by lia; rewrite ?(Eh 3%nat) by lia.
      all: cbn [fst snd]; cbn [nonempty app]; rewrite ?contains_nil, ?app_nil_r.
      all: try (rewrite (toks_round (c :: r)) by discriminate; unfold round;
        change is_alpha with (test 0); change in_number with (test 1); change is_space with (test 2); change in_separator with (test 3);
        rewrite ?(Eh 0%nat) by lia; rewrite ?(Eh 1%nat) by lia; rewrite ?(Eh 2%nat) by lia; rewrite ?(Eh 3%nat) by lia;
        cbn [fst snd]; cbn [nonempty app]; rewrite ?contains_nil, ?app_nil_r).
      all: repeat match goal with |- context [let '(_, _) := span ?p ?t in _] => destruct (span p t) end; cbn [fst snd].
      all: cbn [keep]; destruct p; try congruence; cbn [nonempty]; rewrite <- ?app_assoc; cbn [app]; try reflexivity.
      all: repeat match goal with |- context [if ?b then _ else _] => destruct b end; cbn [nonempty app]; rewrite <- ?app_assoc; try reflexivity.
      all: try (destruct l; reflexivity).
  Qed.

  (** Runs of alternating classes. *)
  Fixpoint alternate (ks : list nat) : bool :=
    match ks with
    | k :: ((j :: _) as ks') => negb (k =? j)%nat && (k <? 4)%nat && alternate ks'
    | [k] => (k <? 4)%nat
    | [] => true
    end.
  Definition runs (ps : list (nat * text)) : Prop := Forall (fun kp => run (fst kp) (snd kp)) ps.

  Lemma toks_runs ps rest :
    runs ps -> alternate (map fst ps) = true ->
    match ps with [] => True | _ => head_not (last (map fst ps) 9%nat) rest end -> dotless rest ->
    toks (List.concat (map snd ps) ++ rest) = List.concat (map (fun kp => keep (fst kp) (snd kp)) ps) ++ toks rest.
  Proof.
    induction ps as [|[k p] ps IH]; intros Hr Ha Hh Hd; [reflexivity|].
    inversion Hr as [|? ? Hp Hps]. subst. cbn [fst snd] in Hp.
    cbn [map List.concat fst snd]. rewrite <- !app_assoc.
    assert ((k < 4)%nat) as Hk by (destruct ps as [|[j q] ps]; cbn in Ha; lia).
    destruct ps as [|[j q] ps].
    - cbn [map List.concat app]. apply toks_run; assumption.
    - cbn [map fst] in Ha. cbn [alternate] in Ha. apply andb_true_iff in Ha as [Ha Ha'].
      rewrite (toks_run k p); [rewrite IH; [reflexivity|assumption|exact Ha'|exact Hh|exact Hd]|exact Hk|exact Hp|..].
      + inversion Hps as [|? ? [Hn Hq] _]; subst. cbn [map snd List.concat fst] in *. destruct q as [|c q]; [congruence|].
        cbn. inversion Hq as [|? ? [Hc _] _]; subst. lia.
      + inversion Hps as [|? ? [Hn Hq] _]; subst. cbn [map snd List.concat fst] in *. destruct q as [|c q]; [congruence|].
        cbn. inversion Hq as [|? ? [_ Hc] _]; subst. exact Hc.
  Qed.
End Tokens.
