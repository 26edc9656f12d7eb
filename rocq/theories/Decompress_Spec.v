(** What reading means: the bytes come one after the other. *)
From Verif Require Import Base Wire_Model Decompress_Model.
Open Scope nat_scope.

(** A reader that has the given bytes before it. *)
Fixpoint read_plainly {A} (r : reader A) (bs : bytes) : result A :=
  match r with
  | Result a => a
  | Read n k => if n <=? length bs then read_plainly (k (firstn n bs)) (skipn n bs) else Err GenericError
  | CanConsume n k => read_plainly (k (n <=? length bs)) bs
  end.

(** LZ4 gives back what it was given, in some pieces, and its frames are shorter than 4 GB. *)
Definition lz4_inverse (lz4 : bytes -> bytes) (unlz4 : bytes -> result (list bytes)) (data : bytes) : Prop :=
  exists pieces, unlz4 (lz4 data) = Ok pieces /\ concat pieces = data /\ (Z.of_nat (length (lz4 data)) < 2 ^ 32)%Z.

(** A result, or an exception that the code can throw. *)
Definition legal {A} (r : result A) : Prop := r <> Err OutOfFuel /\ r <> Err UndefinedBehaviour.
Fixpoint legal_reader {A} (r : reader A) : Prop :=
  match r with
  | Result a => legal a
  | Read _ k => forall bs, legal_reader (k bs)
  | CanConsume _ k => forall ok, legal_reader (k ok)
  end.
