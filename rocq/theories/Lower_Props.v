(** C62: rewritten 'with' blocks and 'for' loops, and generators that contain them. *)
From Verif Require Import Base PyStmt PyStmt_Toy Gen_Model Gen_Spec Gen_Proofs Gen_Props
  Lower_Model Lower_Spec Lower_Proofs.
Open Scope Z_scope.

(** Rewriting 'with' blocks and 'for' loops into 'try' and 'while' keeps what a program does,
    whatever its primitive statements, managers and iterators do.

    Missing for the full claim: targets of 'with' that may raise, and blocks that share their
    location with a block around them (see the refutations). *)
Theorem C62_rewriting_partial : forall (L : lang) (unset : Exc L) (any : pattern L) (at_ : loc -> loc),
  (forall e, matches L any e = true) ->
  forall (body : block L) n cur s a, placed_block at_ [] [] body ->
  same_run (exec_block n cur body s) (exec_block (L := wlang unset) n cur (lower_block unset any at_ body) (s, a)).
Proof. intros L unset any at_ H body n cur s a Hp. apply lower_block_same; assumption. Qed.
Print Assumptions C62_rewriting_partial.

(** A generator with 'with' blocks and 'for' loops, rewritten and then turned into a resumable
    method, has the history of Python's generator.  In a generator every 'with' block gets the
    location (0, 0), so a 'with' inside of another one is excluded. *)
Theorem C62_generator_partial : forall (L : lang) (unset : Exc L) (any : pattern L)
    (stop_with : Ret L -> Exc L) (is_stop : Exc L -> bool) (body : block L) (s : St L)
    (calls : list (St L -> St L)) n N h,
  (forall e, matches L any e = true) ->
  placed_block (fun _ => (0, 0)%nat) [] [] body -> ready_block true false body -> (n <= N)%nat ->
  gen_history stop_with is_stop n body GFresh s calls = Some h ->
  exists h', typed_history (L := wlang unset) stop_with N (lower_generator unset any body)
      (new_generator ((s, no_aux) : St (wlang unset))) (map beside calls) = Some h' /\
    without_aux h' = without_pep479 h.
Proof.
  intros L unset any stop_with is_stop body s calls n N h Ha Hp Hr Hn H.
  destruct (@history_lower L unset any Ha (fun _ => (0, 0)%nat) stop_with is_stop body n calls
              GFresh GFresh s no_aux h Hp I H) as (h1 & H1 & <-).
  exists (without_pep479 h1). split.
  - refine (C61_same_history_partial (wlang unset) stop_with is_stop _ _ _ n N h1 _ Hn H1).
    apply (proj1 (proj2 (@lower_supported L unset any Ha (fun _ => (0, 0)%nat)))). exact Hr.
  - clear. unfold without_aux, without_pep479. rewrite !map_map. apply map_ext.
    intros [[] t]; reflexivity.
Qed.
Print Assumptions C62_generator_partial.

(** ** Toy programs *)
Definition python_run (body : list (stmt toy)) : option (outcome toy * list Z) :=
  match exec_block (L := toy) 50 None (blk body) toy0 with
  | Fin o s => Some (o, t_log s)
  | _ => None
  end.
Definition rewritten_run (at_ : loc -> loc) (body : list (stmt toy)) : option (outcome toy * list Z) :=
  match exec_block (L := @wlang toy name_error) 50 None
          (lower_block (L := toy) name_error None at_ (blk body)) (toy0, no_aux) with
  | Fin Done s => Some (Done, t_log (fst s : toyst))
  | Fin (Raised e) s => Some (Raised (e : Exc toy), t_log (fst s : toyst))
  | _ => None
  end.
Definition rewritten_generator (body : list (stmt toy)) (calls : nat) : option (list (event toy * St toy)) :=
  option_map without_aux
    (typed_history (L := @wlang toy name_error) toy_stop 50 (lower_generator (L := toy) name_error None (blk body))
      (new_generator ((toy0, no_aux) : St (@wlang toy name_error))) (repeat (fun s => s) calls)).

(** A 'for' with an 'else' over a 'with' that swallows an exception, yields everywhere, and a
    second 'with' behind it. *)
Definition ex_lower : list (stmt toy) :=
  [ For (1, 0)%nat VarX (OList [4; 5; 6])
      [ With (2, 4)%nat (OMgr 1 true) None
          [ Y YX; If (Less 5) [ P (Raise 7) ] []; P LogX ] ;
        For (3, 4)%nat VarX (OList [8; 9]) [ If (Less 9) [ SContinue ] []; Y YX; SBreak ] [ P (Log 77) ] ]
      [ Y (YNum 10) ];
    With (6, 0)%nat (OMgr 2 false) (Some VarX) [ Y YX ] ].

Example C62_case :
  placed_block (L := toy) (fun _ => (0, 0)%nat) [] [] (blk ex_lower) /\
  ready_block (L := toy) true false (blk ex_lower) /\
  (forall e, matches toy None e = true) /\
  seen (python ex_lower 9) =
    Some (yields [4; 9; 5; 9; 6; 9; 10; 2] ++ [Exhausted],
      [101; 301; 101; 5; 201; 101; 6; 201; 102; 202]) /\
  seen (rewritten_generator ex_lower 9) = seen (python ex_lower 9).
Proof.
  assert (A : forall t : ttest, blind_test (L := toy) t) by (intros [| |] c c' s; reflexivity).
  assert (B : forall z, safe_yexp (L := toy) (YNum z)) by (intros z s; eexists; eexists; reflexivity).
  assert (C : safe_yexp (L := toy) YX) by (intros s; eexists; eexists; reflexivity).
  assert (D : safe_target (L := toy) VarX) by (intros [] s; eexists; reflexivity).
  split; [|split; [|split; [|split; vm_compute; reflexivity]]].
  - unfold ex_lower, For, With, P, Y, If, blk. cbn [placed_block placed fst].
    repeat split; try tauto; try discriminate.
    + intros [H|H]; [discriminate|exact H].
    + intros y [= <-]. exact D.
  - unfold ex_lower, For, With, P, Y, If, blk. cbn [ready_block generator_ready]. repeat split; auto.
  - reflexivity.
Qed.

(** A 'with' inside of a 'with' in a generator: both blocks keep their manager in the same
    variable, so the inner manager is left twice and the outer one never. *)
Definition nested_with : list (stmt toy) :=
  [ With (1, 0)%nat (OMgr 1 false) None [ With (2, 4)%nat (OMgr 2 false) None [ Y (YNum 5) ] ] ].

Theorem C62_nested_with_in_generator_refuted :
  seen (python nested_with 2) = Some (yields [5] ++ [Exhausted], [101; 102; 202; 201]) /\
  seen (rewritten_generator nested_with 2) = Some (yields [5] ++ [Exhausted], [101; 102; 202; 202]).
Proof. vm_compute. split; reflexivity. Qed.
Print Assumptions C62_nested_with_in_generator_refuted.

(** Outside of generators the two blocks have locations of their own. *)
Definition nested_with_plain : list (stmt toy) :=
  [ With (1, 0)%nat (OMgr 1 false) None [ With (2, 4)%nat (OMgr 2 false) None [ P (Log 5) ] ] ].
Example C62_nested_with_case :
  placed_block (L := toy) (fun l => l) [] [] (blk nested_with_plain) /\
  python_run nested_with_plain = Some (Done, [101; 102; 5; 202; 201]) /\
  rewritten_run (fun l => l) nested_with_plain = Some (Done, [101; 102; 5; 202; 201]).
Proof.
  split; [|vm_compute; split; reflexivity].
  unfold nested_with_plain, With, P, blk. cbn [placed_block placed].
  repeat split; try tauto; try discriminate. intros [H|H]; [discriminate|exact H].
Qed.

(** An 'as' target that raises: the manager has been entered and is never left. *)
Definition bad_target : list (stmt toy) := [ With (1, 0)%nat (OMgr 1 false) (Some BadTarget) [ P (Log 5) ] ].

Theorem C62_raising_target_refuted :
  python_run bad_target = Some (Raised (type_error : Exc toy), [101; 301]) /\
  rewritten_run (fun l => l) bad_target = Some (Raised (type_error : Exc toy), [101]).
Proof. vm_compute. split; reflexivity. Qed.
Print Assumptions C62_raising_target_refuted.

(** [return value] under a 'with' in a generator: the manager is never left. *)
Definition return_in_with (swallow : bool) : list (stmt toy) :=
  [ With (1, 0)%nat (OMgr 1 swallow) None [ Y (YNum 5); Return (Some 6) ]; Y (YNum 7) ].

Theorem C62_return_value_in_with_refuted :
  seen (python (return_in_with true) 2) = Some (yields [5] ++ [raises (toy_stop 6)], [101; 201]) /\
  seen (rewritten_generator (return_in_with true) 2) = Some (yields [5] ++ [raises (toy_stop 6)], [101]).
Proof. vm_compute. split; reflexivity. Qed.
Print Assumptions C62_return_value_in_with_refuted.
