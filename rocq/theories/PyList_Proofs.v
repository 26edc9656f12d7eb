(** Lemmas about indexing lists. *)
From Verif Require Import Base PyList.
From Coq Require Import ZifyBool ZifyNat.
Open Scope Z_scope.
Open Scope result_scope.

Lemma py_index_ok len i : 0 <= i < len -> py_index len i = Ok (Z.to_nat i).
Proof. intros H. unfold py_index. destruct ((0 <=? i) && (i <? len)) eqn:E; [reflexivity|lia]. Qed.

Lemma nth_error_middle {A} (a : list A) x b : nth_error (a ++ x :: b) (length a) = Some x.
Proof. rewrite nth_error_app2, Nat.sub_diag; [reflexivity|lia]. Qed.

Lemma replace_nth_middle {A} (a : list A) x b y : replace_nth (length a) y (a ++ x :: b) = a ++ y :: b.
Proof. induction a as [|z a IH]; cbn; [reflexivity|now rewrite IH]. Qed.

Lemma py_get_middle {A} (a : list A) x b i : i = Z.of_nat (length a) -> py_get (a ++ x :: b) i = Ok x.
Proof.
  intros ->. unfold py_get. rewrite py_index_ok by (rewrite app_length; cbn [length]; lia). cbn [bind].
  rewrite Nat2Z.id, nth_error_middle. reflexivity.
Qed.

Lemma py_set_middle {A} (a : list A) x b y i : i = Z.of_nat (length a) -> py_set (a ++ x :: b) i y = Ok (a ++ y :: b).
Proof.
  intros ->. unfold py_set. rewrite py_index_ok by (rewrite app_length; cbn [length]; lia). cbn [bind].
  rewrite Nat2Z.id, replace_nth_middle. reflexivity.
Qed.

Lemma replace_nth_length {A} n (x : A) l : length (replace_nth n x l) = length l.
Proof. revert n; induction l as [|y l IH]; intros [|n]; cbn; auto. Qed.

Lemma nth_error_replace_same {A} n (x : A) l : (n < length l)%nat -> nth_error (replace_nth n x l) n = Some x.
Proof. revert n; induction l as [|y l IH]; intros [|n] H; cbn in *; try lia; auto. apply IH. lia. Qed.

Lemma nth_error_replace_other {A} n m (x : A) l : n <> m -> nth_error (replace_nth n x l) m = nth_error l m.
Proof. revert n m; induction l as [|y l IH]; intros [|n] [|m] H; cbn; auto; try congruence. Qed.

Lemma py_get_nth {A} (l : list A) i x : 0 <= i -> nth_error l (Z.to_nat i) = Some x -> py_get l i = Ok x.
Proof.
  intros Hi H. unfold py_get. rewrite py_index_ok; [cbn [bind]; now rewrite H|].
  assert (Z.to_nat i < length l)%nat by (apply nth_error_Some; congruence). lia.
Qed.
