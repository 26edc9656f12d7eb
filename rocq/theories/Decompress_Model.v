(** Model of the part of DeserializationBuffer that delivers bytes: [decompress], [read_bytes] and
    [canConsume] (DeserializationBuffer.cpp, DeserializationBuffer.hpp:279-329). *)
From Verif Require Import Base Wire_Model.
Open Scope nat_scope.
Open Scope result_scope.

(** Whoever reads from the buffer, and what it computes in the end: each step may depend on all that
    was read before. *)
Inductive reader (A : Type) :=
| Result (a : result A)
| Read (n : nat) (k : bytes -> reader A)
| CanConsume (n : nat) (k : bool -> reader A).
Arguments Result {A}.
Arguments Read {A}.
Arguments CanConsume {A}.

(** [m_decompressed_buffer], [m_read_head_offset] ([m_read_head] is the buffer plus this offset),
    [m_size], and [m_compressed_blocks] up to its end. *)
Record buffer := { decompressed : bytes; offset : nat; size : nat; input : bytes }.
Definition new_buffer (data : bytes) : buffer :=                                        (* DeserializationBuffer.hpp:30-39 *)
  {| decompressed := []; offset := 0; size := 0; input := data |}.

Section Decompress.
  (** The pieces that the calls of [LZ4F_decompress] for one block deliver, or its error. *)
  Variable unlz4 : bytes -> result (list bytes).
  (** [isCompressionEnabled] *)
  Variable enabled : bool.

  (** DeserializationBuffer.cpp:68-83 *)
  Definition add_piece (b : buffer) (piece : bytes) : buffer :=
    {| decompressed := skipn (offset b) (decompressed b) ++ piece; offset := 0; size := size b + length piece; input := input b |}.

  (** The next [n] bytes in memory; to go beyond the input would be undefined behaviour. *)
  Definition peek (n : nat) (data : bytes) : result bytes :=
    if length data <? n then Err UndefinedBehaviour else Ok (firstn n data).

  (** [decompress], DeserializationBuffer.cpp:5-92; [None] where it returns false. *)
  Definition decompress (b : buffer) : result (option buffer) :=
    if enabled then
      if length (input b) <? 4 then Ok None
      else
        header <- peek 4 (input b) ;;
        let n := Z.to_nat (of_le_bytes header) in
        if length (input b) <? n + 4 then Err GenericError
        else
          block <- peek n (skipn 4 (input b)) ;;
          pieces <- unlz4 block ;;
          Ok (Some (fold_left add_piece pieces
                      {| decompressed := decompressed b; offset := offset b; size := size b; input := skipn (4 + n) (input b) |}))
    else
      match input b with
      | [] => Ok None
      | input => Ok (Some {| decompressed := input; offset := 0; size := size b + length input; input := [] |})
      end.

  (** The loop [while (m_size < bytecount)] of the functions below: whether there are [n] bytes.  Every
      round takes something from the input, so [fuel] never runs out (Decompress_Proofs.v). *)
  Fixpoint fill (fuel n : nat) (b : buffer) : result (bool * buffer) :=
    if n <=? size b then Ok (true, b)
    else match fuel with
         | O => Err OutOfFuel
         | S fuel => o <- decompress b ;; match o with None => Ok (false, b) | Some b => fill fuel n b end
         end.

  (** [read_bytes] and [read_bytes_fun], DeserializationBuffer.hpp:279-308, and [canConsume], 321-329.
      Reading beyond the end of the buffer would be undefined behaviour. *)
  Definition read (n : nat) (b : buffer) : result (bytes * buffer) :=
    ' (ok, b) <- fill (S (length (input b))) n b ;;
    if ok then
      if length (decompressed b) <? offset b + n then Err UndefinedBehaviour
      else Ok (firstn n (skipn (offset b) (decompressed b)),
               {| decompressed := decompressed b; offset := offset b + n; size := size b - n; input := input b |})
    else Err GenericError.
  Definition can_consume (n : nat) (b : buffer) : result (bool * buffer) := fill (S (length (input b))) n b.

  Fixpoint run_reader {A} (r : reader A) (b : buffer) : result A :=
    match r with
    | Result a => a
    | Read n k => ' (bs, b) <- read n b ;; run_reader (k bs) b
    | CanConsume n k => ' (ok, b) <- can_consume n b ;; run_reader (k ok) b
    end.
End Decompress.
