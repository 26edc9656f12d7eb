(** Property C84: type functions run once and give one type. *)
From Coq Require Import Permutation.
From Verif Require Import Base TypeFun_Model TypeFun_Spec TypeFun_Proofs.

(** ** What calls give *)

(** The function runs at most once for each set of arguments, whatever the threads do. *)
Theorem C84_once : forall f es, NoDup (started (run f es)).
Proof. intros f es. destruct (run_inv f es) as (st & C & _). exact (c_once _ _ C). Qed.
Print Assumptions C84_once.
(** All calls for it give the same type, or the same exception. *)
Theorem C84_agree : forall f es i j k a b, got (run f es) i k a -> got (run f es) j k b -> a = b.
Proof.
  intros f es i j k a b A B. destruct (run_inv f es) as (st & C & _). apply (c_got _ _ C) in A, B.
  destruct A as (x & X & _ & ->), B as (y & Y & _ & ->). congruence.
Qed.
Print Assumptions C84_agree.
(** Code that is no type function never sees a Forward. *)
Theorem C84_no_forward : forall f es i k k', ~ got (run f es) i k (GotForward k').
Proof.
  intros f es i k k' A. destruct (run_inv f es) as (st & C & _). apply (c_got _ _ C) in A. destruct A as ([| |] & _ & N & E); [now apply N|discriminate|discriminate].
Qed.
Print Assumptions C84_no_forward.
(** What a call gave it gives for ever. *)
Theorem C84_settled : forall f es es' i j k a b, got (run f es) i k a -> got (run f (es ++ es')) j k b -> a = b.
Proof.
  intros f es es' i j k a b A B. destruct (run_inv f es) as (st & C & S). apply (c_got _ _ C) in A. destruct A as (x & X & N & ->).
  assert (forall es' s, inv s -> memo s k = Some x -> memo (fold_left (happen f) es' s) k = Some x) as M.
  { induction es'0 as [|e es'0 IH]; intros s I E; [exact E|]. cbn. apply IH; [now apply happen_inv|]. now apply settled_happen. }
  destruct (run_inv f (es ++ es')) as (st' & C' & _). apply (c_got _ _ C') in B. destruct B as (y & Y & _ & ->).
  unfold run in Y. rewrite fold_left_app in Y. fold (run f es) in Y. rewrite M in Y; [congruence|apply run_inv|exact X].
Qed.
Print Assumptions C84_settled.

(** What the function returns for a key is what calls for it give, and what its Forward is from then on; what it
    raises is what they raise. *)
Theorem C84_result : forall f es i k t cs, threads (run f es) i = Running k (Return t) cs ->
  exists s, go f (run f es) i = Some s /\ defined s k = Some t /\ memo s k = Some (Result t)
    /\ match cs with [] => got s i k (GotType t) /\ threads s i = Idle | (k', c) :: cs => threads s i = Running k' (c (GotType t)) cs end.
Proof.
  intros f es i k t cs T. unfold go. rewrite T. eexists. split; [reflexivity|].
  assert (defined (note_origin (define (run f es) k t) k t) k = Some t) as D by (unfold note_origin; destruct (has_origin _ _); apply put_same).
  destruct cs as [|[k' c] cs]; cbn [come_back log_return set_lock set_thread set_memo defined memo threads].
  - split; [exact D|]. split; [apply put_same|]. split; [now left|apply put_same].
  - split; [exact D|]. split; apply put_same.
Qed.
Print Assumptions C84_result.
Theorem C84_error : forall f es i k e cs, threads (run f es) i = Running k (Raise e) cs ->
  exists s, go f (run f es) i = Some s /\ memo s k = Some (Failed e)
    /\ match cs with [] => got s i k (GotError e) /\ threads s i = Idle | (k', c) :: cs => threads s i = Running k' (c (GotError e)) cs end.
Proof.
  intros f es i k e cs T. unfold go. rewrite T. eexists. split; [reflexivity|].
  destruct cs as [|[k' c] cs]; cbn [come_back log_return set_lock set_thread set_memo defined memo threads].
  - split; [apply put_same|]. split; [now left|apply put_same].
  - split; apply put_same.
Qed.
Print Assumptions C84_error.
(** ** Recursion *)

(** Type functions run in one thread at a time. *)
Theorem C84_exclusive : forall f es i j k k', in_progress (run f es) i k -> in_progress (run f es) j k' -> i = j.
Proof.
  intros f es i j k k'. destruct (run_inv f es) as (st & _ & S). unfold in_progress.
  destruct (threads (run f es) i) as [| |ki bi ci] eqn:I; try contradiction. destruct (threads (run f es) j) as [| |kj bj cj] eqn:J; try contradiction.
  intros _ _. destruct (running_has_lock _ _ _ _ _ _ S I) as [L _]. destruct (running_has_lock _ _ _ _ _ _ S J) as [L' _]. congruence.
Qed.
Print Assumptions C84_exclusive.
(** A call from a type function for what is in progress gives its Forward. *)
Theorem C84_recursion : forall f es i k k' c cs, threads (run f es) i = Running k (Call k' c) cs -> in_progress (run f es) i k' ->
  go f (run f es) i = Some (set_thread (run f es) i (Running k (c (GotForward k')) cs)).
Proof.
  intros f es i k k' c cs T P. destruct (run_inv f es) as (st & C & S). pose proof (in_progress_stack _ _ _ _ S P) as I. apply (c_forward _ _ C) in I.
  unfold go. rewrite T. unfold locked_call. rewrite I. reflexivity.
Qed.
Print Assumptions C84_recursion.
(** Any other call gives a type or an exception, or runs the function for the first time. *)
Theorem C84_no_recursion : forall f es i k k' c cs, threads (run f es) i = Running k (Call k' c) cs -> ~ in_progress (run f es) i k' ->
  (exists a, (forall j, a <> GotForward j) /\ go f (run f es) i = Some (set_thread (run f es) i (Running k (c a) cs)))
  \/ (~ In k' (started (run f es)) /\ exists s, go f (run f es) i = Some s /\ threads s i = Running k' (f k') ((k, c) :: cs)).
Proof.
  intros f es i k k' c cs T P. destruct (run_inv f es) as (st & C & S). unfold go. rewrite T. unfold locked_call. destruct (memo (run f es) k') as [x|] eqn:M.
  - left. exists (answer_of k' x). split; [|reflexivity]. destruct x; try discriminate. exfalso. apply P. apply (c_forward _ _ C) in M.
    destruct (running_has_lock _ _ _ _ _ _ S T) as [_ E]. rewrite E in M. unfold in_progress. rewrite T. destruct M as [M|M]; [now left|now right].
  - right. split; [rewrite (c_started _ _ C); congruence|]. eexists. split; [reflexivity|]. cbn. apply put_same.
Qed.
Print Assumptions C84_no_recursion.
(** Nobody waits for ever: while any call is not finished some thread can go on. *)
Theorem C84_progress : forall f es i, threads (run f es) i <> Idle -> exists j, go f (run f es) j <> None.
Proof.
  intros f es i H. destruct (run_inv f es) as (st & _ & S). destruct S as [(_ & L & N)|(j & k & b & cs & L & T & _)].
  - exists i. unfold go. destruct (threads (run f es) i) as [|k|k b cs] eqn:T; [congruence| |exfalso; eapply N, T]. now rewrite L.
  - exists j. unfold go. rewrite T. destruct b; discriminate.
Qed.
Print Assumptions C84_progress.

(** Two type functions, 1 and 2, that make types of each other: the type of 1 has that of 2 as its part and that
    of 2 the Forward of 1. *)
Definition example (k : nat) : body :=
  match k with
  | 1 => Call 2 (fun a => Make [a] Return)
  | 2 => Call 1 (fun a => Make [a; GotType (Builtin 7)] Return)
  | _ => Raise k
  end.
Definition alone : list event := [Begins 0 1; Goes 0; Goes 0; Goes 0; Goes 0; Goes 0; Goes 0; Goes 0].
Example C84_case :
  let s := run example (alone ++ [Begins 1 1; Begins 1 2; Begins 2 3; Goes 2; Goes 2; Begins 0 3]) in
  got s 0 1 (GotType (Made 1)) /\ got s 1 1 (GotType (Made 1)) /\ got s 1 2 (GotType (Made 0)) /\ got s 2 3 (GotError 3) /\ got s 0 3 (GotError 3)
  /\ started s = [3; 2; 1] /\ made s = [[GotForward 1; GotType (Builtin 7)]; [GotType (Made 0)]] /\ defined s 1 = Some (Made 1).
Proof. cbv zeta. vm_compute. intuition auto. Qed.
Example C84_progress_case : let s := run example [Begins 0 1; Goes 0; Goes 0; Begins 1 2; Goes 1; Goes 0] in
  threads s 1 = Waiting 2 /\ go example s 1 = None /\ go example s 0 <> None /\ in_progress s 0 1 /\ in_progress s 0 2.
Proof. cbv zeta. vm_compute. intuition (auto; discriminate). Qed.
Example C84_result_case : let s := run example [Begins 0 1; Goes 0; Goes 0; Goes 0; Goes 0] in
  exists c, threads s 0 = Running 2 (Return (Made 0)) [(1, c)].
Proof. eexists. vm_compute. reflexivity. Qed.

(** ** Complete types *)

(** When no type function is running a Forward that is part of a type is defined, unless the function failed for
    it. *)
Theorem C84_complete_partial : forall f es t k, (forall i k', ~ in_progress (run f es) i k') -> open_part (run f es) t k -> failed (run f es) k.
Proof.
  intros f es t k Q [I D]. destruct (run_inv f es) as (st & C & S). destruct t as [n|n]; [destruct I|]. cbn [parts_of] in I.
  assert (memo (run f es) k <> None) as M.
  { eapply (c_parts _ _ C); [|exact I]. destruct (Nat.lt_ge_cases n (length (made (run f es)))) as [L|L]; [now apply nth_In|]. rewrite nth_overflow in I by exact L. destruct I. }
  destruct (memo (run f es) k) as [[|u|e]|] eqn:E; [| |now exists e|congruence].
  - exfalso. apply (c_forward _ _ C) in E. destruct (stack_in_progress _ _ _ S E) as (i & _ & P). eapply Q, P.
  - exfalso. apply (c_defined _ _ C) in E. congruence.
Qed.
Print Assumptions C84_complete_partial.
(** But another thread gets a type while the Forward that is part of it is not defined yet. *)
Theorem C84_early_refuted : exists f es i k t k', got (run f es) i k (GotType t) /\ open_part (run f es) t k' /\ ~ failed (run f es) k'.
Proof.
  exists example, [Begins 0 1; Goes 0; Goes 0; Goes 0; Goes 0; Goes 0; Begins 1 2], 1, 2, (Made 0), 1. split; [|split].
  - vm_compute. auto.
  - vm_compute. auto.
  - intros [e E]. vm_compute in E. discriminate.
Qed.
Print Assumptions C84_early_refuted.
(** And if a function fails after that, the Forward stays open for good, in a type that calls give. *)
Definition example_failing (k : nat) : body :=
  match k with 1 => Call 2 (fun _ => Raise 9) | _ => Call 1 (fun a => Make [a] Return) end.
Definition failing : list event := [Begins 0 1; Goes 0; Goes 0; Goes 0; Goes 0; Goes 0; Goes 0; Begins 0 2].
Theorem C84_failed_refuted : exists f es, (forall i k, ~ in_progress (run f es) i k)
  /\ exists i k t k', got (run f es) i k (GotType t) /\ open_part (run f es) t k'.
Proof.
  exists example_failing, failing. split.
  - intros i k P. destruct (run_inv example_failing failing) as (st & _ & S). apply (in_progress_stack _ _ _ _ S) in P.
    destruct (stack_in_progress _ _ _ S P) as (j & L & _). assert (lock (run example_failing failing) = None) as L' by (vm_compute; reflexivity). congruence.
  - exists 0, 2, (Made 0), 1. split; vm_compute; auto.
Qed.
Print Assumptions C84_failed_refuted.

(** ** Going back *)

(** The arguments that are noted for a type give that type; and some are noted for each type a call gave. *)
Theorem C84_origin : forall f es es' t k i a, type_function_of (run f es) t = Some k -> got (run f (es ++ es')) i k a -> a = GotType t.
Proof.
  intros f es es' t k i a O B. apply find_origin in O. destruct (run_inv f es) as (st & C & S). apply (c_origin _ _ C) in O.
  assert (forall es' s, inv s -> memo s k = Some (Result t) -> memo (fold_left (happen f) es' s) k = Some (Result t)) as M.
  { induction es'0 as [|e es'0 IH]; intros s I E; [exact E|]. cbn. apply IH; [now apply happen_inv|]. apply settled_happen; [exact I|exact E|discriminate]. }
  destruct (run_inv f (es ++ es')) as (st' & C' & _). apply (c_got _ _ C') in B. destruct B as (y & Y & _ & ->).
  unfold run in Y. rewrite fold_left_app in Y. fold (run f es) in Y. rewrite M in Y; [injection Y as <-; reflexivity|apply run_inv|exact O].
Qed.
Print Assumptions C84_origin.
Theorem C84_origin_known : forall f es i k t, got (run f es) i k (GotType t) -> exists k', type_function_of (run f es) t = Some k'.
Proof.
  intros f es i k t A. destruct (run_inv f es) as (st & C & _). apply (c_got _ _ C) in A. destruct A as ([|u|] & X & _ & E); try discriminate.
  injection E as <-. apply has_origin_find. eapply (c_has_origin _ _ C), X.
Qed.
Print Assumptions C84_origin_known.
Example C84_origin_case : let s := run example alone in type_function_of s (Made 0) = Some 2 /\ type_function_of s (Made 1) = Some 1 /\ type_function_of s (Builtin 7) = None.
Proof. vm_compute. auto. Qed.

(** ** Arguments *)

(** The order of keyword arguments, and of the items of a dict, makes no difference. *)
Theorem C84_keywords : forall args kw kw', NoDup (map fst kw) -> Permutation kw kw' -> call_key args kw = call_key args kw'.
Proof. exact key_order. Qed.
Print Assumptions C84_keywords.
Theorem C84_dicts : forall l l', NoDup (map fst l) -> Permutation l l' -> map_arg (VDict l) = map_arg (VDict l').
Proof. exact dict_order. Qed.
Print Assumptions C84_dicts.
(** Calling with the arguments that were noted is calling with the arguments given. *)
Theorem C84_reconstruct : forall args kwargs, let k := call_key args kwargs in call_key (fst k) (snd k) = k.
Proof. exact key_again. Qed.
Print Assumptions C84_reconstruct.
(** A list and a tuple, and a dict and the tuple of its items, are not told apart. *)
Theorem C84_arguments_refuted : map_arg (VList [VInt 1]) = map_arg (VTuple [VInt 1])
  /\ map_arg (VDict [(5, VType 2)]) = map_arg (VTuple [VTuple [VStr 5; VType 2]]).
Proof. split; reflexivity. Qed.
Print Assumptions C84_arguments_refuted.
Example C84_keywords_case : call_key [VList [VType 1; VNone]] [(2, VBool true); (1, VDict [(9, VInt 3); (4, VList [])])]
  = ([VTuple [VType 1; VNone]], [(1, VTuple [VTuple [VStr 4; VTuple []]; VTuple [VStr 9; VInt 3]]); (2, VBool true)])
  /\ NoDup (map fst [(2, VBool true); (1, VNone)]).
Proof. split; [reflexivity|]. repeat constructor; cbn; intuition discriminate. Qed.
