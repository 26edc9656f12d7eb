(** Comprehensions in compiled functions
    (typed_python/python_ast.py:1444-1478, typed_python/compiler/function_conversion_context.py:2566-2760). *)
From Verif Require Import Base PyLoop Loop_Model Comp_Spec.
Set Implicit Arguments.
Open Scope Z_scope.
Open Scope list_scope.

Section Compiled.
  Context {St A B Acc : Type}.

  (** [evaluateFunctionDefWithLocalsInCells], python_ast.py:1452-1466: the body of the function that stands for the
      comprehension.  The clauses are taken from left to right and each is put around what there is already, and
      so are the [if]s of a clause.  The [For]s are made without a line number, so it is 0; their targets keep
      theirs. *)
  Definition compiled_ifs (ts : list (St -> St * (bool + exn))) (p : prog (St * Acc) A unit) : prog (St * Acc) A unit :=
    fold_left (fun body t => Cond (with_acc t) body Skip) ts p.
  Definition compiled_nest (cs : list (clause St A)) (p : prog (St * Acc) A unit) : prog (St * Acc) A unit :=
    fold_left (fun body c => For (clause_loop 0 c) (compiled_ifs (ifs c) body) None) cs p.

  (** The function is compiled with [yield] replaced by adding to the accumulator
      ([ListComprehensionConversionContext], [SetComprehensionConversionContext] and
      [DictComprehensionConversionContext], function_conversion_context.py:2644-2760): its loops are those of
      [convert_iteration_expression].  Loops over values that are not counted share a variable too
      (".iter.0", 2237) and are not modelled. *)
  Definition compiled_comprehension (of_int : Z -> A) (fuel : nat) (cs : list (clause St A)) (elt : St -> St * (B + exn))
      (put : B -> Acc -> Acc) (empty : Acc) (s : St) : run (St * Acc) unit :=
    compiled_program of_int fuel (compiled_nest cs (collect elt put)) (s, empty).
End Compiled.
