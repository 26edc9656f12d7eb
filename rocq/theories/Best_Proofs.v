From Verif Require Import Base Best_Model Best_Spec.
Open Scope list_scope.
Open Scope result_scope.

(** ** [all] and [any] *)

Section Truth.
Context {A : Type}.
Variable truth : A -> result bool.

Lemma asks_step b a l answer : truth a = Ok b -> asks truth b l answer -> asks truth b (a :: l) answer.
Proof.
  intros T [[F E]|(x & rest & (before & -> & F & N) & E)]; [left|right].
  - split; [now constructor|exact E].
  - exists x, rest. split; [|exact E]. exists (a :: before). split; [reflexivity|]. split; [now constructor|exact N].
Qed.
Lemma asks_stop b a l : truth a <> Ok b -> asks truth b (a :: l) (truth a, l).
Proof. intros N. right. exists a, l. split; [|reflexivity]. exists nil. repeat split; [constructor|exact N]. Qed.
Theorem all_asks l : python_all truth l (all_ truth l).
Proof.
  induction l as [|a l IH]; cbn [all_]; [left; split; [constructor|reflexivity]|].
  destruct (truth a) as [[|]|e] eqn:T; cbn [negb].
  - now apply asks_step.
  - rewrite <- T. apply asks_stop. congruence.
  - rewrite <- T. apply asks_stop. congruence.
Qed.
Theorem any_asks l : python_any truth l (any_ truth l).
Proof.
  induction l as [|a l IH]; cbn [any_]; [left; split; [constructor|reflexivity]|].
  destruct (truth a) as [[|]|e] eqn:T.
  - rewrite <- T. apply asks_stop. congruence.
  - now apply asks_step.
  - rewrite <- T. apply asks_stop. congruence.
Qed.
Theorem asks_one b l x y : asks truth b l x -> asks truth b l y -> x = y.
Proof.
  revert x y. induction l as [|a l IH]; intros x y X Y.
  - destruct X as [[_ ->]|(a & r & (before & E & _) & _)]; [|now destruct before]. destruct Y as [[_ ->]|(a & r & (before & E & _) & _)]; [reflexivity|now destruct before].
  - assert (S : forall x, asks truth b (a :: l) x -> truth a = Ok b /\ asks truth b l x \/ truth a <> Ok b /\ x = (truth a, l)).
    { clear. intros x [[F E]|(c & r & (before & E & F & N) & Ex)].
      - left. split; [exact (Forall_inv F)|]. left. split; [exact (Forall_inv_tail F)|exact E].
      - destruct before as [|p before]; cbn [app] in E; injection E as -> ->; [now right|]. left. split; [exact (Forall_inv F)|]. right. exists c, r.
        split; [|exact Ex]. exists before. split; [reflexivity|]. split; [exact (Forall_inv_tail F)|exact N]. }
    destruct (S x X) as [[T X']|[T ->]], (S y Y) as [[T' Y']|[T' ->]]; try contradiction; auto.
Qed.
Theorem all_or_any l b : l <> nil -> Forall (fun x => truth x = Ok b) l -> fst (all_ truth l) = fst (any_ truth l).
Proof.
  intros NE F. assert (A1 : fst (all_ truth l) = Ok b).
  { destruct b.
    - clear NE. induction F as [|a l T F IH]; [reflexivity|]. cbn [all_]. now rewrite T.
    - destruct F as [|a l T F]; [now elim NE|]. cbn [all_]. now rewrite T. }
  assert (A2 : fst (any_ truth l) = Ok b).
  { destruct b.
    - destruct F as [|a l T F]; [now elim NE|]. cbn [any_]. now rewrite T.
    - clear NE A1. induction F as [|a l T F IH]; [reflexivity|]. cbn [any_]. now rewrite T. }
  congruence.
Qed.
End Truth.

(** ** [min] and [max] *)

Section Best.
Context {A : Type}.
Variable better : A -> A -> result bool.

Lemma best_keeps l : forall x r, keeps better x l r <-> best_loop better l (Some x) = (y <- r ;; Ok (Some y)).
Proof.
  induction l as [|e l IH]; cbn [best_loop]; intros x r.
  - split; [inversion 1; reflexivity|]. destruct r; cbn [bind]; [intros [= ->]; constructor|discriminate].
  - destruct (better e x) as [[|]|err] eqn:B; cbn [bind].
    + rewrite <- IH. split; [inversion 1; subst; congruence|]. intros K. now apply keeps_new.
    + rewrite <- IH. split; [inversion 1; subst; congruence|]. intros K. now apply keeps_old.
    + split; [inversion 1; subst; try congruence; cbn [bind]; congruence|]. destruct r; cbn [bind]; [discriminate|]. intros [= <-]. now apply keeps_fail.
Qed.
Lemma best_some l : forall x, exists r, best_loop better l (Some x) = (y <- r ;; Ok (Some y)).
Proof.
  induction l as [|e l IH]; cbn [best_loop]; intros x; [now exists (Ok x)|]. destruct (better e x) as [b|err]; cbn [bind]; [|now exists (Err err)].
  destruct b; apply IH.
Qed.
Theorem i_best_keeps x l : keeps better x l (i_best better (x :: l)) /\ forall d, i_best_default better (x :: l) d = i_best better (x :: l).
Proof.
  unfold i_best, i_best_default. cbn [best_loop bind]. destruct (best_some l x) as (r & E). split.
  - apply best_keeps. rewrite E. destruct r; reflexivity.
  - intros d. rewrite E. destruct r; reflexivity.
Qed.
Lemma keeps_one x l r r' : keeps better x l r -> keeps better x l r' -> r = r'.
Proof. intros K. revert r'. induction K; intros r' K'; inversion K'; subst; try congruence; auto. Qed.

Variable lt : A -> A -> Prop.
Hypothesis order : weak_order lt.
Hypothesis by_lt : answers lt better.

Theorem best_first l : forall x r before mid, keeps better x l r ->
  (forall y, In y before -> lt x y) -> (forall y, In y mid -> ~ lt y x) -> exists b, r = Ok b /\ first_best lt (before ++ x :: mid ++ l) b.
Proof.
  induction l as [|e l IH]; intros x r before mid K B M.
  - inversion K; subst. exists x. split; [reflexivity|]. exists before, mid. rewrite app_nil_r. auto.
  - destruct (by_lt e x) as (b & Eb & Lb). inversion K; subst; try congruence.
    + assert (L : lt e x) by (apply Lb; congruence).
      destruct (IH e r (before ++ x :: mid) nil H4) as (c & -> & F).
      * intros y I. apply in_app_iff in I. destruct I as [I|[<-|I]]; [exact (chain _ order _ _ _ L (B y I))|exact L|].
        destruct (between _ order e y x L) as [G|G]; [exact G|]. now elim (M y I).
      * intros y [].
      * exists c. split; [reflexivity|]. rewrite <- app_assoc in F. exact F.
    + assert (L : ~ lt e x) by (rewrite <- Lb; congruence).
      destruct (IH x r before (mid ++ [e]) H4) as (c & -> & F).
      * exact B.
      * intros y I. apply in_app_iff in I. destruct I as [I|[<-|[]]]; auto.
      * exists c. split; [reflexivity|]. rewrite <- app_assoc in F. exact F.
Qed.
Lemma first_best_one l x y : first_best lt l x -> first_best lt l y -> x = y.
Proof.
  intros (b1 & e1 & E1 & B1 & M1) (b2 & e2 & E2 & B2 & M2). rewrite E1 in E2. clear E1 l. revert b2 E2 B2. induction b1 as [|a b1 IH]; intros b2 E2 B2.
  - destruct b2 as [|c b2]; cbn [app] in E2; injection E2 as -> E2; [reflexivity|]. subst e1.
    elim (M1 y). { apply in_app_iff. right. now left. } apply B2. now left.
  - destruct b2 as [|c b2]; cbn [app] in E2; injection E2 as -> E2.
    + subst e2. elim (M2 x). { apply in_app_iff. right. now left. } apply B1. now left.
    + apply (IH ltac:(intros z I; apply B1; now right) b2 E2). intros z I. apply B2. now right.
Qed.
End Best.

Section Args.
Context {A : Type}.
Variable better worse : A -> A -> result bool.
Hypothesis converse : forall x y, worse x y = better y x.
Theorem args_iterable args : args <> nil -> args_best worse args = i_best better args.
Proof.
  intros NE. destruct args as [|a args]; [now elim NE|]. clear NE. unfold i_best. cbn [args_best best_loop bind]. revert a.
  induction args as [|e args IH]; intros a; cbn [args_loop best_loop]; [reflexivity|]. rewrite converse. destruct (better e a) as [b|err]; cbn [bind]; [|reflexivity].
  rewrite IH. now destruct b.
Qed.
End Args.

(** ** With a key *)

Section Key.
Context {A K : Type}.
Variable key_f : A -> result K.
Variable better worse : K -> K -> result bool.
Hypothesis converse : forall x y, worse x y = better y x.

(** When no key fails, a key is what is compared. *)
Variable key : A -> K.
Hypothesis keyed : forall a, key_f a = Ok (key a).
Definition by_key (x y : A) : result bool := better (key x) (key y).
Lemma key_loop_best v : forall ret calls,
  key_loop key_f better v (option_map (fun e => (key e, e)) ret) calls =
  (r <- best_loop by_key v ret ;; Ok (option_map (fun e => (key e, e)) r), snd (key_loop key_f better v (option_map (fun e => (key e, e)) ret) calls)).
Proof.
  induction v as [|e v IH]; intros ret calls; [reflexivity|]. cbn [key_loop best_loop call_key]. rewrite keyed. cbn [bind].
  assert (D : match option_map (fun e0 => (key e0, e0)) ret with None => Ok true | Some (ret_key, _) => better (key e) ret_key end =
              match ret with None => Ok true | Some r => by_key e r end) by now destruct ret.
  rewrite D. destruct (match ret with None => Ok true | Some r => by_key e r end) as [b|err]; cbn [bind]; [|reflexivity].
  destruct b.
  - change (Some (key e, e)) with (option_map (fun e0 => (key e0, e0)) (Some e)). rewrite IH at 1. now destruct ret.
  - rewrite IH at 1. reflexivity.
Qed.
Lemma key_loop_calls v : forall ret calls r calls', key_loop key_f better v ret calls = (Ok r, calls') -> calls' = rev v ++ calls.
Proof.
  induction v as [|e v IH]; cbn [key_loop call_key]; intros ret calls r calls' E; [injection E as <- <-; reflexivity|].
  destruct (bind (key_f e) _) as [ret'|]; [|discriminate E]. apply IH in E. subst calls'. cbn [rev]. now rewrite <- app_assoc.
Qed.
Theorem i_best_key_best v : fst (i_best_key key_f better v) = i_best by_key v /\
  (forall x, fst (i_best_key key_f better v) = Ok x -> snd (i_best_key key_f better v) = rev v).
Proof.
  unfold i_best_key, i_best. pose proof (key_loop_best v None nil) as E. cbn [option_map] in E.
  destruct (key_loop key_f better v None nil) as [r calls] eqn:L. cbn [snd] in E. injection E as E. split.
  - cbn [fst]. rewrite E. destruct (best_loop by_key v None) as [[x|]|err]; reflexivity.
  - cbn [fst snd]. intros x F. destruct r as [r|err]; [|discriminate F]. rewrite (key_loop_calls _ _ _ _ _ L). apply app_nil_r.
Qed.
Theorem i_best_key_default_best v d : fst (i_best_key_default key_f better v d) = i_best_default by_key v d.
Proof.
  unfold i_best_key_default, i_best_default. pose proof (key_loop_best v None nil) as E. cbn [option_map] in E.
  destruct (key_loop key_f better v None nil) as [r calls] eqn:L. cbn [snd] in E. injection E as E.
  cbn [fst]. rewrite E. destruct (best_loop by_key v None) as [[x|]|err]; reflexivity.
Qed.

Lemma keys_of_keys args : forall calls, keys_of key_f args calls = (Ok (map key args), rev args ++ calls).
Proof.
  induction args as [|a args IH]; cbn [keys_of call_key]; intros calls; [reflexivity|]. rewrite keyed, IH. cbn [bind map rev]. now rewrite <- app_assoc.
Qed.
Lemma select_loop_best args : forall a, select_loop worse args (map key args) a (key a) = (r <- best_loop by_key args (Some a) ;; match r with None => Err ValueError | Some r => Ok r end).
Proof.
  induction args as [|e args IH]; cbn [select_loop map best_loop]; intros a; [reflexivity|]. rewrite converse. unfold by_key at 1.
  destruct (better (key e) (key a)) as [b|err]; cbn [bind]; [|reflexivity]. destruct b; apply IH.
Qed.
Theorem args_best_key_best args : args <> nil -> args_best_key key_f worse args = (i_best by_key args, rev args ++ rev args).
Proof.
  intros NE. unfold args_best_key, i_best. rewrite !keys_of_keys. cbn [bind]. rewrite app_nil_r. f_equal. destruct args as [|a args]; [now elim NE|].
  cbn [map best_loop bind]. apply select_loop_best.
Qed.
End Key.
