(** C63: the control flow of compiled functions. *)
From Verif Require Import Base PyStmt PyStmt_Toy Lower_Model Lower_Spec Lower_Proofs
  Flow_Model Flow_Spec Flow_Proofs.
Open Scope Z_scope.

(** A compiled function gives the answer of the Python function: it returns the same value or
    raises the same exception, after the same effects.

    Missing for the full claim: the programs that [supported_function] leaves out (see the
    refutations), and functions whose parts jump in ways of their own. *)
Theorem C63_same_answer_partial : forall (L : lang) (F : facts L) may_look body n s info o s',
  sound_facts F -> supported_function F may_look body -> (may_look = true -> info = None) ->
  exec_block n None body s = Fin o s' ->
  exists a info', call F n body s info = Some (a, s', info') /\ python_answer o = Some a /\
    (may_look = true -> info' = None).
Proof. intros L F m body n s info o s' Hs Hp Hi H. exact (@same_answer L F Hs m body n s info o s' Hp Hi H). Qed.
Print Assumptions C63_same_answer_partial.

(** The same for functions with 'with' blocks and no 'for' loop: the blocks are first rewritten
    into 'try' (C62). *)
Theorem C63_with_blocks_partial : forall (L : lang) (unset : Exc L) (any : pattern L)
    (F : facts (wlang unset)) may_look body n s info o s',
  (forall e, matches L any e = true) -> placed_block (fun l => l) [] [] body -> no_for_block body = true ->
  sound_facts F -> supported_function F may_look (lower_block unset any (fun l => l) body) ->
  (may_look = true -> info = None) ->
  exec_block n None body s = Fin o s' ->
  exists a v info', call F n (lower_block unset any (fun l => l) body) ((s, no_aux) : St (wlang unset)) info =
      Some (a, (s', v) : St (wlang unset), info') /\
    python_answer (same_outcome o) = Some a /\ (may_look = true -> info' = None).
Proof.
  intros L unset any F m body n s info o s' Ha Hp _ Hs Hsup Hi H.
  pose proof (@lower_block_same L unset any Ha (fun l => l) body n None s no_aux Hp) as R.
  rewrite H in R. destruct R as (v & R).
  destruct (@same_answer _ F Hs m _ n _ info _ _ Hsup Hi R) as (a & info' & E & A & D).
  exists a, v, info'. auto.
Qed.
Print Assumptions C63_with_blocks_partial.

(** ** Toy programs *)

(** What the compiler knows of toy programs: 'raise' never ends normally, and constants.
    [Inc] stands for a call of a compiled function that handles an exception when [calls]. *)
Definition toy_facts (calls : bool) : facts toy :=
  Facts (fun p : prim toy => match p with Raise _ | Reraise => false | _ => true end)
        (fun t : test toy => match t with Const b => Some b | _ => None end)
        (fun p : prim toy => match p with Inc => calls | _ => false end)
        (fun _ => false) (fun _ => false) (fun _ => false) (PyStmt_Toy.no_active : Exc toy).

Definition python_call (body : list (stmt toy)) : option (answer toy * list Z) :=
  match exec_block (L := toy) 50 None (blk body) toy0 with
  | Fin o s => option_map (fun a => (a, t_log s)) (python_answer o)
  | _ => None
  end.
Definition compiled_call (calls : bool) (body : list (stmt toy)) : option (answer toy * list Z) :=
  option_map (fun r => (fst (fst r), t_log (snd (fst r)))) (call (toy_facts calls) 50 (blk body) toy0 None).

Definition gives (z : Z) : answer toy := @Gives toy (Some z).
Definition throws (z : Z) : answer toy := @Throws toy z.

Lemma toy_sound : forall calls, sound_facts (toy_facts calls).
Proof.
  intros calls. split.
  - intros [] cur s; cbn; discriminate.
  - intros [] v cur s; cbn; [intros [= ->]; reflexivity|discriminate|discriminate].
Qed.

(** Loops, a 'for' with an 'else', a 'return' under two 'finally' blocks, a bare 'raise', and a
    'continue' out of a 'try'. *)
Definition ex_flow : list (stmt toy) :=
  [ For (1, 0)%nat VarX (OList [1; 2; 3; 4])
      [ Try (2, 4)%nat
          [ If (Less 2) [ SContinue ] [];
            Try (4, 8)%nat
              [ If (Less 3) [ P (Raise 7) ] [] ; If (Less 4) [ SBreak ] [] ]
              [ (Some 7, Some tt, [ P LogName; P Reraise ]) ]
              []
              [ P (Log 30) ] ]
          [ (Some 7, None, [ P (Log 40) ]) ]
          []
          [ P LogX ] ]
      [ P (Log 99) ];
    Try (9, 0)%nat
      [ While (Const true) [ Try (11, 8)%nat [ Return (Some 6) ] [] [] [ P (Log 50) ] ] [] ]
      [] [] [ P (Log 60) ];
    P (Log 70) ].

Example C63_case :
  supported_function (toy_facts false) true (blk ex_flow) /\
  python_call ex_flow = Some (gives 6, [1; 7; 30; 40; 2; 30; 3; 50; 60]) /\
  compiled_call false ex_flow = python_call ex_flow.
Proof.
  split; [|vm_compute; split; reflexivity].
  unfold supported_function, ex_flow, For, Try, If, While, P, Return, hlist, blk.
  cbn [supported_block supported supported_handlers].
  repeat (match goal with
          | |- _ /\ _ => split
          | |- True => exact I
          | |- true = true \/ _ => left; reflexivity
          | |- ~ In _ _ => intros Hx; cbn in Hx; intuition discriminate
          | |- _ -> _ => intros ?; try (split; reflexivity); try reflexivity; try congruence
          end); try reflexivity; try (left; cbn [supported_block supported]; repeat split; auto; fail).
Qed.

Definition catch (l : loc) (b h : list (stmt toy)) : stmt toy := Try l b [ (None, None, h) ] [] [].

(** ** What goes wrong: '.exc_occurred' is one variable for the whole function *)

(** A 'try' inside that handles an exception makes the 'else' block be skipped. *)
Definition else_after_inner : list (stmt toy) :=
  [ Try (1, 0)%nat [ catch (2, 4)%nat [ P (Raise 7) ] [ P (Log 1) ] ] [ (None, None, []) ] [ P (Log 2) ] [] ].
Theorem C63_else_skipped_refuted :
  python_call else_after_inner = Some (Gives None, [1; 2]) /\
  compiled_call false else_after_inner = Some (Gives None, [1]).
Proof. vm_compute. split; reflexivity. Qed.
Print Assumptions C63_else_skipped_refuted.

(** A 'try' in the 'except' clause makes the 'else' block run after an exception, and the
    exception stays the one being handled when the function has returned. *)
Definition else_after_exception : list (stmt toy) :=
  [ Try (1, 0)%nat [ P (Raise 7) ] [ (None, None, [ catch (3, 4)%nat [ P (Log 1) ] [] ]) ] [ P (Log 2) ] [] ].
Theorem C63_else_after_exception_refuted :
  python_call else_after_exception = Some (Gives None, [1]) /\
  compiled_call false else_after_exception = Some (Gives None, [1; 2]) /\
  option_map snd (call (toy_facts false) 50 (blk else_after_exception) toy0 None) = Some (Some 7).
Proof. vm_compute. repeat split; reflexivity. Qed.
Print Assumptions C63_else_after_exception_refuted.

(** ** What goes wrong: there is one exception being handled, not a stack of them *)

(** A 'finally' block that handles an exception of its own loses the one under way: a
    RuntimeError takes its place. *)
Definition try_in_finally : list (stmt toy) :=
  [ Try (1, 0)%nat [ P (Raise 7) ] [] [] [ catch (3, 4)%nat [ P (Raise 8) ] [ P (Log 1) ] ] ].
Theorem C63_exception_lost_in_finally_refuted :
  python_call try_in_finally = Some (throws 7, [1]) /\
  compiled_call false try_in_finally = Some (throws PyStmt_Toy.no_active, [1]).
Proof. vm_compute. split; reflexivity. Qed.
Print Assumptions C63_exception_lost_in_finally_refuted.

(** A bare 'raise' after a 'try' in the same 'except' clause, or after a call of a compiled
    function that handles an exception, raises a RuntimeError. *)
Definition reraise_after_try : list (stmt toy) :=
  [ catch (1, 0)%nat [ P (Raise 7) ] [ catch (3, 4)%nat [ P (Raise 8) ] []; P Reraise ] ].
Definition reraise_after_call : list (stmt toy) :=
  [ catch (1, 0)%nat [ P (Raise 7) ] [ P Inc; P Reraise ] ].
Theorem C63_reraise_refuted :
  python_call reraise_after_try = Some (throws 7, []) /\
  compiled_call false reraise_after_try = Some (throws PyStmt_Toy.no_active, []) /\
  python_call reraise_after_call = Some (throws 7, []) /\
  compiled_call true reraise_after_call = Some (throws PyStmt_Toy.no_active, []) /\
  compiled_call false reraise_after_call = Some (throws 7, []).
Proof. vm_compute. repeat split; reflexivity. Qed.
Print Assumptions C63_reraise_refuted.

(** The same seen from the function that is called: its caller was handling exception 5 and is
    handling none afterwards. *)
Theorem C63_callers_exception_refuted :
  option_map snd (call (toy_facts false) 50 (blk [ catch (1, 0)%nat [ P (Raise 7) ] [] ]) toy0 (Some 5)) = Some None.
Proof. reflexivity. Qed.
Print Assumptions C63_callers_exception_refuted.

(** ** What goes wrong: 'break' and 'continue' *)

(** 'break' in the 'else' block of a loop only leaves that loop. *)
Definition break_in_else : list (stmt toy) :=
  [ While (Less 1) [ P Inc; While (Less 0) [] [ SBreak ]; P (Log 1) ] [] ].
Theorem C63_break_in_else_refuted :
  python_call break_in_else = Some (Gives None, []) /\
  compiled_call false break_in_else = Some (Gives None, [1]).
Proof. vm_compute. split; reflexivity. Qed.
Print Assumptions C63_break_in_else_refuted.

(** 'continue' in the 'else' block of a 'for' inside of a 'try' skips the 'finally' block. *)
Definition continue_in_else : list (stmt toy) :=
  [ While (Less 1)
      [ P Inc;
        Try (2, 4)%nat [ For (3, 8)%nat VarX (OList []) [] [ SContinue ]; P (Log 1) ] [] [] [ P (Log 2) ] ] [] ].
Theorem C63_finally_skipped_refuted :
  python_call continue_in_else = Some (Gives None, [2]) /\
  compiled_call false continue_in_else = Some (Gives None, []).
Proof. vm_compute. split; reflexivity. Qed.
Print Assumptions C63_finally_skipped_refuted.

(** A loop that is left by 'break', with a body and an 'else' block that return: the code after
    the loop is not there. *)
Definition code_dropped : list (stmt toy) :=
  [ While (Less 1) [ If (Less 2) [ SBreak ] []; Return (Some 1) ] [ Return (Some 2) ];
    P (Log 3); Return (Some 4) ].
Theorem C63_code_dropped_refuted :
  python_call code_dropped = Some (gives 4, [3]) /\ compiled_call false code_dropped = Some (Broken, []).
Proof. vm_compute. split; reflexivity. Qed.
Print Assumptions C63_code_dropped_refuted.

(** ** What goes wrong: variables that are shared *)

(** There is one '.return_value': a 'return' that is given up in a 'finally' block replaces the
    value of the one that goes on. *)
Definition two_returns : list (stmt toy) :=
  [ Try (1, 0)%nat [ Return (Some 5) ] [] []
      [ While (Const true) [ Try (4, 8)%nat [ Return (Some 6) ] [] [] [ SBreak ] ] [] ] ].
Theorem C63_wrong_value_refuted :
  python_call two_returns = Some (gives 5, []) /\ compiled_call false two_returns = Some (gives 6, []).
Proof. vm_compute. split; reflexivity. Qed.
Print Assumptions C63_wrong_value_refuted.

(** A 'try' inside of another one with the same location, as in generators, where every
    location is (0, 0): what has been handled comes up again, and a 'break' is done twice. *)
Definition same_place : list (stmt toy) :=
  [ catch (0, 0)%nat [ catch (0, 0)%nat [ P (Raise 7) ] [ P (Raise 8) ] ] [ P (Log 1) ]; P (Log 2) ].
Definition same_place_break : list (stmt toy) :=
  [ While (Less 1)
      [ P Inc;
        Try (0, 0)%nat
          [ While (Const true) [ Try (0, 0)%nat [ SBreak ] [] [] [] ] []; P (Log 1) ] [] [] [];
        P (Log 2) ] [ P (Log 3) ] ].
Theorem C63_same_place_refuted :
  python_call same_place = Some (Gives None, [1; 2]) /\
  compiled_call false same_place = Some (throws PyStmt_Toy.no_active, [1]) /\
  python_call same_place_break = Some (Gives None, [1; 2; 3]) /\
  compiled_call false same_place_break = Some (Gives None, [1]).
Proof. vm_compute. repeat split; reflexivity. Qed.
Print Assumptions C63_same_place_refuted.

(** ** 'with' blocks *)
Definition toyw : lang := @wlang toy PyStmt_Toy.no_active.

(** [exit_handles]: the managers' __exit__ handles an exception of its own in its course. *)
Definition with_facts (exit_handles : bool) : facts toyw :=
  Facts (fun p : prim toyw =>
           match p with WPrim (Raise _) | WPrim Reraise | WReraise => false | _ => true end)
        (fun t : test toyw =>
           match t with WTest (Const b) => Some b | WTrue => Some true | _ => None end)
        (fun _ => false)
        (fun t : test toyw => match t with WExit _ => exit_handles | _ => false end)
        (fun _ => false) (fun _ => false) (PyStmt_Toy.no_active : Exc toyw).

Definition lowered (body : list (stmt toy)) : block toyw :=
  lower_block (L := toy) PyStmt_Toy.no_active None (fun l => l) (blk body).
Definition with_call (exit_handles : bool) (body : list (stmt toy)) : option (answer toy * list Z) :=
  match call (with_facts exit_handles) 50 (lowered body) (toy0, no_aux) None with
  | Some (Gives r, s, _) => Some (Gives (r : option (Ret toy)), t_log (fst s : toyst))
  | Some (Throws e, s, _) => Some (Throws (e : Exc toy), t_log (fst s : toyst))
  | Some (Broken, s, _) => Some (Broken, t_log (fst s : toyst))
  | None => None
  end.

Lemma with_sound : forall h, sound_facts (with_facts h).
Proof.
  intros h. split.
  - intros p cur [s a]. destruct p as [[] | | | | | | | | | |]; cbn; discriminate.
  - intros t v cur [s a]. destruct t as [[] | | | | |]; cbn; try discriminate; intros [= <-]; reflexivity.
Qed.

(** Two managers, one of which swallows the exception. *)
Definition ex_with : list (stmt toy) :=
  [ With (1, 0)%nat (OMgr 1 true) None
      [ With (2, 4)%nat (OMgr 2 false) None [ P (Log 5); P (Raise 7) ] ];
    While (Const true) [ With (4, 4)%nat (OMgr 3 false) None [ Return (Some 6) ] ] [] ].

Example C63_with_case :
  placed_block (L := toy) (fun l => l) [] [] (blk ex_with) /\ no_for_block (L := toy) (blk ex_with) = true /\
  supported_function (with_facts false) true (lowered ex_with) /\
  python_call ex_with = Some (gives 6, [101; 102; 5; 302; 301; 103; 203]) /\
  with_call false ex_with = python_call ex_with.
Proof.
  split; [|split; [reflexivity|split; [|vm_compute; split; reflexivity]]].
  - unfold ex_with, With, P, While, Return, blk. cbn [placed_block placed].
    repeat split; try tauto; try discriminate. intros [H|H]; [discriminate|exact H].
  - unfold supported_function, lowered, ex_with, With, P, While, Return, blk.
    cbn [lower_block lower expand_with bapp wp].
    cbn [supported_block supported supported_handlers].
    repeat (match goal with
            | |- _ /\ _ => split
            | |- True => exact I
            | |- true = true \/ _ => left; reflexivity
            | |- ~ In _ _ => intros Hx; cbn in Hx; intuition discriminate
            | |- _ -> _ => intros ?; try (split; reflexivity); try reflexivity; try congruence
            end); try reflexivity; try (left; cbn [supported_block supported]; repeat split; auto; fail).
    all: unfold wp; cbn [supported]; auto.
Qed.

(** When __exit__ handles an exception of its own, the one that leaves the block becomes a
    RuntimeError. *)
Definition with_raise : list (stmt toy) := [ With (1, 0)%nat (OMgr 1 false) None [ P (Raise 7) ] ].
Theorem C63_exit_that_handles_refuted :
  python_call with_raise = Some (throws 7, [101; 301]) /\
  with_call false with_raise = Some (throws 7, [101; 301]) /\
  with_call true with_raise = Some (throws PyStmt_Toy.no_active, [101; 301]).
Proof. vm_compute. repeat split; reflexivity. Qed.
Print Assumptions C63_exit_that_handles_refuted.
