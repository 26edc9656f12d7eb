(** What the compression threads must and must not do, in terms of what the writers wrote and what they
    got.  Property C08. *)
From Verif Require Import Base Wire_Model Compress_Model.
Open Scope nat_scope.

(** The bytes that the writer [t] got, if it is done. *)
Definition output (s : state) (t : nat) : option bytes :=
  match nth_error (threads s) t with
  | Some (Writer w) => match wp w with Done out => Some out | _ => None end
  | _ => None
  end.
Definition is_dropped (s : state) (t : nat) : Prop :=
  exists w, nth_error (threads s) t = Some (Writer w) /\ wp w = Dropped.

(** How often the block [i] of the writer [t] was replaced by its compression. *)
Definition times_compressed (s : state) (t i : nat) : option nat :=
  option_map compressions (get_block (threads s) (t, i)).

(** The number of steps in which a thread did something, and the number of spurious wake-ups. *)
Fixpoint moves (lz4 : bytes -> bytes) (limit : Z) (schedule : list event) (s : state) : nat :=
  match schedule with
  | [] => 0
  | e :: schedule =>
      match step lz4 limit e s with
      | Ok (Some s') => match e with Turn _ _ => S (moves lz4 limit schedule s') | Spurious _ => moves lz4 limit schedule s' end
      | _ => moves lz4 limit schedule s
      end
  end.
Fixpoint spurious (schedule : list event) : nat :=
  match schedule with
  | [] => 0
  | Spurious _ :: schedule => S (spurious schedule)
  | Turn _ _ :: schedule => spurious schedule
  end.

(** No thread can go on without a spurious wake-up. *)
Definition stuck (lz4 : bytes -> bytes) (limit : Z) (s : state) : Prop := forall t choice, step lz4 limit (Turn t choice) s = Ok None.

(** Each of [n] threads gets a turn. *)
Definition fair_round (n : nat) (round : list event) : Prop :=
  (forall t, t < n -> exists choice, In (Turn t choice) round) /\ spurious round = 0.
