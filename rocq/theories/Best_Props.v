(** Property C78: [all], [any], [min] and [max] answer in compiled code as in Python. *)
From Coq Require Import List ZArith Lia.
From Verif Require Import Base Best_Model Best_Spec Best_Proofs.
Import ListNotations.
Open Scope list_scope.

(** [all] asks the items until one is not true or fails, and leaves the others. *)
Theorem C78_all : forall (A : Type) (truth : A -> result bool) l, python_all truth l (compiled_all truth l).
Proof. intros A truth l. exact (all_asks truth l). Qed.
Print Assumptions C78_all.
(** This says which answer that is. *)
Theorem C78_one_answer : forall (A : Type) (truth : A -> result bool) b l x y, asks truth b l x -> asks truth b l y -> x = y.
Proof. intros A truth b l x y. exact (asks_one truth b l x y). Qed.
Print Assumptions C78_one_answer.

(** [any] is right for lists that are not empty and of which all items are true, or all are not. *)
Theorem C78_any_partial : forall (A : Type) (truth : A -> result bool) l b answer, l <> nil -> Forall (fun x => truth x = Ok b) l ->
  python_any truth l answer -> fst (compiled_any truth l) = fst answer.
Proof.
  intros A truth l b answer NE F P. rewrite (asks_one truth false l answer (any_ truth l) P (any_asks truth l)). exact (all_or_any truth l b NE F).
Qed.
Print Assumptions C78_any_partial.
(** For others it is not: what is compiled is [all]. *)
Definition number_truth (x : Z) : result bool := Ok (negb (x =? 0)%Z).
Theorem C78_any_refuted : ~ (forall l answer, python_any number_truth l answer -> fst (compiled_any number_truth l) = fst answer).
Proof.
  intros Q. specialize (Q [0; 1]%Z (Ok true, nil)). discriminate Q. right. exists 1%Z, nil. split; [|reflexivity]. exists [0%Z].
  split; [reflexivity|]. split; [repeat constructor|discriminate].
Qed.
Print Assumptions C78_any_refuted.
Theorem C78_any_of_nothing_refuted : compiled_any number_truth [] = (Ok true, nil) /\ python_any number_truth [] (Ok false, nil).
Proof. split; [reflexivity|]. left. split; [constructor|reflexivity]. Qed.
Print Assumptions C78_any_of_nothing_refuted.
(** The function that should be called is right. *)
Theorem C78_any_function : forall (A : Type) (truth : A -> result bool) l, python_any truth l (any_ truth l).
Proof. intros A truth l. exact (any_asks truth l). Qed.
Print Assumptions C78_any_function.

(** [min] and [max] of an iterable keep and compare the same items as Python, whatever the comparison does; without items they fail, or
    return the default. *)
Theorem C78_min_max_like_python : forall (A : Type) (better : A -> A -> result bool),
  (forall x l d, keeps better x l (i_best better (x :: l)) /\ keeps better x l (i_best_default better (x :: l) d)) /\
  i_best better [] = Err ValueError /\ (forall d, i_best_default better [] d = Ok d).
Proof.
  intros A better. split; [|split; reflexivity]. intros x l d. destruct (i_best_keeps better x l) as [K E]. now rewrite E.
Qed.
Print Assumptions C78_min_max_like_python.

(** In an order this is the first of the best. *)
Theorem C78_first_best : forall (A : Type) (lt : A -> A -> Prop) better x l, weak_order lt -> answers lt better ->
  exists b, i_best better (x :: l) = Ok b /\ first_best lt (x :: l) b /\ (forall c, first_best lt (x :: l) c -> c = b).
Proof.
  intros A lt better x l W L. destruct (best_first better lt W L l x _ nil nil (proj1 (i_best_keeps better x l))) as (b & E & F).
  { intros y []. } { intros y []. }
  exists b. split; [exact E|]. split; [exact F|]. intros c G. exact (first_best_one lt (x :: l) c b G F).
Qed.
Print Assumptions C78_first_best.

(** [min] and [max] of arguments are those of their list, when [x > y] is [y < x]. *)
Theorem C78_arguments_partial : forall (A : Type) (better worse : A -> A -> result bool) args,
  (forall x y, worse x y = better y x) -> args <> nil -> args_best worse args = i_best better args.
Proof. intros A better worse args C NE. exact (args_iterable better worse C args NE). Qed.
Print Assumptions C78_arguments_partial.
(** When it is not, they differ: a class may define [<] in one way and [>] in another. *)
Theorem C78_arguments_refuted : exists better worse : Z -> Z -> result bool, args_best worse [2; 1]%Z = Ok 2%Z /\ i_best better [2; 1]%Z = Ok 1%Z.
Proof. exists (fun x y => Ok (x <? y)%Z), (fun _ _ => Ok false). split; reflexivity. Qed.
Print Assumptions C78_arguments_refuted.

(** With a key the keys are compared, and the item is returned; the key of each item is taken once, in order. *)
Theorem C78_key_partial : forall (A K : Type) (key : A -> K) better v d,
  fst (i_best_key (fun a => Ok (key a)) better v) = i_best (fun x y => better (key x) (key y)) v /\
  fst (i_best_key_default (fun a => Ok (key a)) better v d) = i_best_default (fun x y => better (key x) (key y)) v d /\
  (forall x, fst (i_best_key (fun a => Ok (key a)) better v) = Ok x -> snd (i_best_key (fun a => Ok (key a)) better v) = rev v).
Proof.
  intros A K key better v d. destruct (i_best_key_best (fun a => Ok (key a)) better key (fun a => eq_refl) v) as [E C].
  split; [exact E|]. split; [exact (i_best_key_default_best (fun a => Ok (key a)) better key (fun a => eq_refl) v d)|exact C].
Qed.
Print Assumptions C78_key_partial.
(** So for arguments, but each key is taken twice. *)
Theorem C78_key_of_arguments_partial : forall (A K : Type) (key : A -> K) (better worse : K -> K -> result bool) args,
  (forall x y, worse x y = better y x) -> args <> nil ->
  args_best_key (fun a => Ok (key a)) worse args = (i_best (fun x y => better (key x) (key y)) args, rev args ++ rev args).
Proof. intros A K key better worse args C NE. exact (args_best_key_best (fun a => Ok (key a)) better worse C key (fun a => eq_refl) args NE). Qed.
Print Assumptions C78_key_of_arguments_partial.
Theorem C78_key_taken_once_refuted :
  ~ (forall (key_f : Z -> result Z) worse args, snd (args_best_key key_f worse args) = rev args).
Proof. intros Q. specialize (Q (fun x => Ok x) (fun x y => Ok (y <? x)%Z) [1; 2]%Z). discriminate Q. Qed.
Print Assumptions C78_key_taken_once_refuted.

(** Numbers are an order, and of pairs with equal keys the first is returned. *)
Example numbers_order : weak_order Z.lt /\ answers Z.lt (fun x y => Ok (x <? y)%Z).
Proof.
  split; [constructor; intros; lia|]. intros x y. exists (x <? y)%Z. split; [reflexivity|]. apply Z.ltb_lt.
Qed.
Example pairs_order : weak_order (fun x y : Z * Z => (fst x < fst y)%Z) /\
  i_best (fun x y : Z * Z => Ok (fst x <? fst y)%Z) [(3, 0); (1, 1); (2, 2); (1, 3)]%Z = Ok (1, 1)%Z /\
  i_best (fun x y : Z * Z => Ok (fst y <? fst x)%Z) [(3, 0); (1, 1); (3, 2); (1, 3)]%Z = Ok (3, 0)%Z.
Proof. split; [constructor; intros; lia|]. split; reflexivity. Qed.
