(** Theorems about deserializing arbitrary bytes (C43). *)
From Verif Require Import Base Wire_Model Serial_Model Serial_Spec Serial_Proofs Serial_Safety_Proofs.
From Coq Require Import ZifyBool ZifyNat.
Open Scope Z_scope.

(** Whatever the bytes, [deserialize] finishes within its fuel (the length of the data), and if
    it returns a value it has consumed at least one byte.  The part that is missing from the
    property is memory safety, which fails: see below. *)
Theorem C43_terminates_partial : forall c t bs,
  deserialize c t bs <> Err OutOfFuel /\
  (forall v rest h, deserialize c t bs = Ok (v, rest, h) -> (length rest < length bs)%nat).
Proof. intros c t bs. split; [exact (deserialize_terminates c t bs)|exact (deserialize_consumes c t bs)]. Qed.
Print Assumptions C43_terminates_partial.

Definition plain_context : context :=
  {| types := []; inline_pod := false; garbage := fun _ n => repeat 0 n; depth := 10 |}.

(** Corrupt data that makes it write or read outside its allocations: a block with more
    integers than the list has, a ConstDict pair beyond the announced count, a string cut in
    the middle of a character. *)
Theorem C43_out_of_bounds_refuted :
  (* TupleOf(int): one element announced, three in the block *)
  deserialize plain_context (TTupleOf (TInt true 8)) [6; 8; 1; 20; 3; 1; 2; 3; 7] = Err UndefinedBehaviour /\
  (* ConstDict(int, int): one pair announced, a second key follows *)
  deserialize plain_context (TConstDict (TInt true 8) (TInt true 8)) [6; 1; 1; 1; 2; 1; 4; 1; 6; 1; 8; 7] = Err UndefinedBehaviour /\
  (* str: a lead byte without its continuation *)
  deserialize plain_context TStr [4; 1; 195] = Err UndefinedBehaviour.
Proof. repeat split; vm_compute; reflexivity. Qed.
Print Assumptions C43_out_of_bounds_refuted.
