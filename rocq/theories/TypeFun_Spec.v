(** What type functions promise.  Property C84. *)
From Verif Require Import Base TypeFun_Model.

(** A call for a key is in progress in a thread. *)
Definition in_progress (s : state) (i k : nat) : Prop :=
  match threads s i with
  | Running k' _ callers => k = k' \/ In k (map fst callers)
  | _ => False
  end.
(** Thread [i] called for the key, from outside of any type function, and got [a]. *)
Definition got (s : state) (i k : nat) (a : answer) : Prop := In (i, k, a) (returned s).
(** The parts a type was made of; types that existed before are complete. *)
Definition parts_of (s : state) (t : tid) : list answer :=
  match t with Made n => nth n (made s) [] | Builtin _ => [] end.
(** A Forward that is part of a type and has no definition. *)
Definition open_part (s : state) (t : tid) (k : nat) : Prop := In (GotForward k) (parts_of s t) /\ defined s k = None.
Definition failed (s : state) (k : nat) : Prop := exists e, memo s k = Some (Failed e).
