(** C61: compiled generators produce what Python's produce. *)
From Verif Require Import Base PyStmt PyStmt_Toy Gen_Model Gen_Spec Gen_Proofs.
Open Scope Z_scope.

(** Whatever the primitive statements do, and whatever the rest of the world does between the
    calls: the compiled generator gives the same answers as Python's and leaves the same state
    after each call, except that a StopIteration which escapes from the body is passed on
    instead of becoming a RuntimeError.  The number of turns [n] of Python's loops bounds the
    number [N] of turns needed here.

    Missing for the full claim: the programs that are not [supported] (see Gen_Spec.v and the
    refutations below), and generators that are abandoned or sent values (close, send and throw
    are not implemented). *)
Theorem C61_same_history_partial : forall (L : lang) (stop_with : Ret L -> Exc L)
    (is_stop : Exc L -> bool) (body : block L) (s : St L) (calls : list (St L -> St L)) n N h,
  supported_generator body -> (n <= N)%nat ->
  gen_history stop_with is_stop n body GFresh s calls = Some h ->
  typed_history stop_with N body (new_generator s) calls = Some (without_pep479 h).
Proof.
  intros L stop_with is_stop body s calls n N h Hb Hn H.
  apply (@history_same L stop_with N is_stop body n calls GFresh (new_generator s) h Hb Hn); [reflexivity|exact H].
Qed.
Print Assumptions C61_same_history_partial.

(** If no StopIteration escapes, the two histories are the same. *)
Theorem C61_same_history_without_leaks_partial : forall (L : lang) (stop_with : Ret L -> Exc L)
    (is_stop : Exc L -> bool) (body : block L) (s : St L) (calls : list (St L -> St L)) n N h,
  supported_generator body -> (n <= N)%nat -> no_leak h ->
  gen_history stop_with is_stop n body GFresh s calls = Some h ->
  typed_history stop_with N body (new_generator s) calls = Some h.
Proof.
  intros L stop_with is_stop body s calls n N h Hb Hn Hl H.
  rewrite (C61_same_history_partial L stop_with is_stop body s calls n N h Hb Hn H).
  rewrite no_leak_plain by exact Hl. reflexivity.
Qed.
Print Assumptions C61_same_history_without_leaks_partial.

(** ** Toy programs *)
Definition python (body : list (stmt toy)) (calls : nat) :=
  gen_history (L := toy) toy_stop toy_is_stop 50 (blk body) GFresh toy0 (repeat (fun s => s) calls).
Definition compiled (body : list (stmt toy)) (calls : nat) :=
  typed_history (L := toy) toy_stop 50 (blk body) (new_generator (toy0 : St toy)) (repeat (fun s => s) calls).

(** What the caller saw, and what the body had logged in the end *)
Definition seen (h : option (list (event toy * St toy))) : option (list (event toy) * list Z) :=
  option_map (fun h => (map fst h, last (map (fun p => t_log (snd p : toyst)) h) [])) h.

Definition yields (l : list Z) : list (event toy) := map (fun z => Produced (z : Val toy)) l.
Definition raises (e : Z) : event toy := Threw (e : Exc toy).

(** A loop around a 'try' with handlers, an 'else', a finally block, yields in all of them but
    the last, and a [return]. *)
Definition ex_body : list (stmt toy) :=
  [ P (Log 1);
    While (Less 3)
      [ P Inc;
        Try (3, 4)%nat
          [ Y YX;
            If (Less 2) [ P (Raise 7) ] [ Y (YNum 20) ] ]
          [ (Some 7, None, [ Y (YNum 30); P (Log 2) ]) ]
          [ Y (YNum 40) ]
          [ P (Log 3) ] ]
      [ Y (YNum 50) ];
    Return (Some 5) ].

Example C61_case : supported_generator (blk ex_body) /\
  seen (python ex_body 12) = Some (yields [1; 30; 2; 20; 40; 3; 20; 40; 50] ++
    [raises (toy_stop 5); Exhausted; Exhausted], [1; 2; 3; 3; 3]) /\
  compiled ex_body 12 = python ex_body 12 /\
  (forall h, python ex_body 12 = Some h -> no_leak h).
Proof.
  split; [|split; [vm_compute; reflexivity|split; [vm_compute; reflexivity|]]].
  - assert (A : forall t : ttest, blind_test (L := toy) t) by (intros [| |] c c' s; reflexivity).
    assert (B : forall z, safe_yexp (L := toy) (YNum z)) by (intros z s; eexists; eexists; reflexivity).
    assert (C : safe_yexp (L := toy) YX) by (intros s; eexists; eexists; reflexivity).
    assert (D : forall z, blind_prim (L := toy) (Log z)) by (intros z c c' s; reflexivity).
    unfold supported_generator, ex_body, blk, While, P, Y, If, Try, Return, hlist, blk.
    cbn [supported_block supported supported_handlers is_nil negb orb count_block count Z.add].
    repeat split; auto; try discriminate; left; reflexivity.
  - intros h H e s K. vm_compute in H. injection H as <-.
    repeat (destruct K as [K|K]; [discriminate|]). exact K.
Qed.

(** ** Where compiled generators differ *)

(** [yield] of an expression that raises: '..slot' is set before the expression is evaluated,
    so the finally block is skipped, and the next call resumes behind the [yield] although the
    generator has ended. *)
Definition raising_yield : list (stmt toy) :=
  [ Try (1, 0)%nat [ Y (YRaise 7) ] [] [] [ P (Log 1) ]; Y (YNum 8) ].

Theorem C61_raising_yield_refuted :
  seen (python raising_yield 2) = Some ([raises 7; Exhausted], [1]) /\
  seen (compiled raising_yield 2) = Some ([raises 7; Produced (8 : Val toy)], [1]).
Proof. vm_compute. split; reflexivity. Qed.
Print Assumptions C61_raising_yield_refuted.

Theorem C61_finally_after_raising_yield_refuted :
  seen (python raising_yield 1) = Some ([raises 7], [1]) /\
  seen (compiled raising_yield 1) = Some ([raises 7], []).
Proof. vm_compute. split; reflexivity. Qed.
Print Assumptions C61_finally_after_raising_yield_refuted.

(** [return value] under a finally block: the block is skipped. *)
Definition return_in_finally : list (stmt toy) :=
  [ Y (YNum 1); Try (1, 0)%nat [ Return (Some 5) ] [] [] [ P (Log 1) ] ].

Theorem C61_return_value_in_try_finally_refuted :
  seen (python return_in_finally 2) = Some (yields [1] ++ [raises (toy_stop 5)], [1]) /\
  seen (compiled return_in_finally 2) = Some (yields [1] ++ [raises (toy_stop 5)], []).
Proof. vm_compute. split; reflexivity. Qed.
Print Assumptions C61_return_value_in_try_finally_refuted.

(** [return value] under a handler: the handler catches it. *)
Definition return_in_except : list (stmt toy) :=
  [ Y (YNum 1); Try (1, 0)%nat [ Return (Some 5) ] [ (None, None, [ P (Log 2) ]) ] [] [] ].

Theorem C61_return_value_in_try_except_refuted :
  seen (python return_in_except 2) = Some (yields [1] ++ [raises (toy_stop 5)], []) /\
  seen (compiled return_in_except 2) = Some (yields [1] ++ [Exhausted], [2]).
Proof. vm_compute. split; reflexivity. Qed.
Print Assumptions C61_return_value_in_try_except_refuted.

(** A [yield] in a finally block: the exception that was under way is forgotten. *)
Definition yield_in_finally : list (stmt toy) :=
  [ Try (1, 0)%nat [ P (Raise 7) ] [] [] [ Y (YNum 1) ]; P (Log 1) ].

Theorem C61_yield_in_finally_refuted :
  seen (python yield_in_finally 2) = Some (yields [1] ++ [raises 7], []) /\
  seen (compiled yield_in_finally 2) = Some (yields [1] ++ [Exhausted], [1]).
Proof. vm_compute. split; reflexivity. Qed.
Print Assumptions C61_yield_in_finally_refuted.

(** [raise] on its own behind a [yield] in a handler has nothing to raise. *)
Definition reraise_after_yield : list (stmt toy) :=
  [ Try (1, 0)%nat [ P (Raise 7) ] [ (None, None, [ Y (YNum 1); P Reraise ]) ] [] [] ].

Theorem C61_reraise_after_yield_refuted :
  seen (python reraise_after_yield 2) = Some (yields [1] ++ [raises 7], []) /\
  seen (compiled reraise_after_yield 2) = Some (yields [1] ++ [raises no_active], []).
Proof. vm_compute. split; reflexivity. Qed.
Print Assumptions C61_reraise_after_yield_refuted.

(** The name of [except E as e] is not visible in the handler. *)
Definition named_handler : list (stmt toy) :=
  [ Y (YNum 1); Try (1, 0)%nat [ P (Raise 7) ] [ (None, Some tt, [ P LogName ]) ] [] [] ].

Theorem C61_named_handler_refuted :
  seen (python named_handler 2) = Some (yields [1] ++ [Exhausted], [7]) /\
  seen (compiled named_handler 2) = Some (yields [1] ++ [raises name_error], []).
Proof. vm_compute. split; reflexivity. Qed.
Print Assumptions C61_named_handler_refuted.

(** A StopIteration raised by the body ends the generator as if it had returned. *)
Definition leaking : list (stmt toy) := [ Y (YNum 1); P (Raise (toy_stop 0)) ].

Theorem C61_leaked_stop_refuted :
  seen (python leaking 2) = Some (yields [1] ++ [Leaked (toy_stop 0 : Exc toy)], []) /\
  seen (compiled leaking 2) = Some (yields [1] ++ [raises (toy_stop 0)], []).
Proof. vm_compute. split; reflexivity. Qed.
Print Assumptions C61_leaked_stop_refuted.
