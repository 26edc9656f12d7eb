(** What Python's search methods of bytes and str answer, stated over the sequence of bytes or
    code points of the text. *)
From Coq Require Import List ZArith Bool.
From Verif Require Import Base.
Import ListNotations.
Open Scope Z_scope.

(** [sub] stands in [x] with [i] elements before it. *)
Definition stands_at (x sub : list Z) (i : Z) : Prop :=
  exists before after, x = before ++ sub ++ after /\ Z.of_nat (length before) = i.

(** The bounds of the slice in which a method searches: a negative bound counts from the end,
    and a bound left out is the beginning or the end. *)
Definition lower_bound (n : Z) (start : option Z) : Z :=
  match start with
  | None => 0
  | Some v => if v <? 0 then Z.max 0 (v + n) else v
  end.

Definition upper_bound (n : Z) (stop : option Z) : Z :=
  match stop with
  | None => n
  | Some v => if v <? 0 then Z.max 0 (v + n) else Z.min v n
  end.

(** [sub] stands in [x] at [i], within the bounds. *)
Definition match_within (x sub : list Z) (start stop : option Z) (i : Z) : Prop :=
  let n := Z.of_nat (length x) in
  lower_bound n start <= i /\ i + Z.of_nat (length sub) <= upper_bound n stop /\
  stands_at x sub i.

(** The answer of [find]: the lowest match, or -1. *)
Definition finds_first (x sub : list Z) (start stop : option Z) (r : Z) : Prop :=
  (match_within x sub start stop r /\
   forall j, match_within x sub start stop j -> r <= j) \/
  (r = -1 /\ forall j, ~ match_within x sub start stop j).

(** The answer of [rfind]: the highest match, or -1. *)
Definition finds_last (x sub : list Z) (start stop : option Z) (r : Z) : Prop :=
  (match_within x sub start stop r /\
   forall j, match_within x sub start stop j -> j <= r) \/
  (r = -1 /\ forall j, ~ match_within x sub start stop j).

(** The answer of [index] and [rindex]: as [find] and [rfind], except that ValueError takes the
    place of -1. *)
Definition or_not_found (finds : Z -> Prop) (r : result Z) : Prop :=
  match r with
  | Ok v => finds v /\ v <> -1
  | Err e => e = ValueError /\ finds (-1)
  end.

(** The answer of [count]: matches are collected from the left, each one beginning where the
    one before it ended (or one element further, for the empty text). *)
Inductive counts (x sub : list Z) (stop : option Z) : Z -> Z -> Prop :=
| counts_none : forall lo,
    (forall j, ~ match_within x sub (Some lo) stop j) -> counts x sub stop lo 0
| counts_next : forall lo i n,
    match_within x sub (Some lo) stop i ->
    (forall j, match_within x sub (Some lo) stop j -> i <= j) ->
    counts x sub stop (i + Z.max 1 (Z.of_nat (length sub))) n ->
    counts x sub stop lo (n + 1).

(** The answers of [startswith], [endswith] and [in] *)
Definition starts_with (x sub : list Z) (start stop : option Z) : Prop :=
  match_within x sub start stop (lower_bound (Z.of_nat (length x)) start).

Definition ends_with (x sub : list Z) (start stop : option Z) : Prop :=
  match_within x sub start stop
    (upper_bound (Z.of_nat (length x)) stop - Z.of_nat (length sub)).

Definition contains (x sub : list Z) : Prop := exists i, stands_at x sub i.
