(** What Python's methods that split and join text answer. *)
From Coq Require Import List ZArith Bool.
From Verif Require Import Base TextSearch_Spec.
Import ListNotations.
Open Scope Z_scope.

(** One split less; a negative limit is no limit. *)
Definition spend (k : Z) : Z := if k <? 0 then k else k - 1.

(** [x.split(sep, k)]: cut at the first separator, and go on with what follows it. *)
Inductive splits (sep : list Z) : Z -> list Z -> list (list Z) -> Prop :=
| splits_done : forall k x,
    k = 0 \/ ~ contains x sep -> splits sep k x [x]
| splits_next : forall k x a b rest,
    k <> 0 -> x = a ++ sep ++ b ->
    (forall i, stands_at x sep i -> Z.of_nat (length a) <= i) ->
    splits sep (spend k) b rest ->
    splits sep k x (a :: rest).

(** [x.rsplit(sep, k)]: cut at the last separator, and go on with what precedes it. *)
Inductive rsplits (sep : list Z) : Z -> list Z -> list (list Z) -> Prop :=
| rsplits_done : forall k x,
    k = 0 \/ ~ contains x sep -> rsplits sep k x [x]
| rsplits_next : forall k x a b rest,
    k <> 0 -> x = a ++ sep ++ b ->
    (forall i, stands_at x sep i -> i <= Z.of_nat (length a)) ->
    rsplits sep (spend k) a rest ->
    rsplits sep k x (rest ++ [b]).

Definition all_are (p : Z -> bool) (x : list Z) : Prop := Forall (fun c => p c = true) x.
Definition none_is (p : Z -> bool) (x : list Z) : Prop := Forall (fun c => p c = false) x.

Definition begins_with (p : Z -> bool) (v : bool) (x : list Z) : Prop :=
  exists c r, x = c :: r /\ p c = v.
Definition finishes_with (p : Z -> bool) (v : bool) (x : list Z) : Prop :=
  exists r c, x = r ++ [c] /\ p c = v.

(** [x.split(None, k)]: words are separated by runs of whitespace; when no split is left, what
    remains after the whitespace is one piece. *)
Inductive words (space : Z -> bool) : Z -> list Z -> list (list Z) -> Prop :=
| words_none : forall k x, all_are space x -> words space k x []
| words_rest : forall s r,
    all_are space s -> begins_with space false r -> words space 0 (s ++ r) [r]
| words_next : forall k s w r rest,
    k <> 0 -> all_are space s -> w <> [] -> none_is space w ->
    r = [] \/ begins_with space true r ->
    words space (spend k) r rest ->
    words space k (s ++ w ++ r) (w :: rest).

(** [x.rsplit(None, k)] *)
Inductive rwords (space : Z -> bool) : Z -> list Z -> list (list Z) -> Prop :=
| rwords_none : forall k x, all_are space x -> rwords space k x []
| rwords_rest : forall s r,
    all_are space s -> finishes_with space false r -> rwords space 0 (r ++ s) [r]
| rwords_next : forall k s w r rest,
    k <> 0 -> all_are space s -> w <> [] -> none_is space w ->
    r = [] \/ finishes_with space true r ->
    rwords space (spend k) r rest ->
    rwords space k (r ++ w ++ s) (rest ++ [w]).

(** The text without the whitespace at its beginning, or at its end *)
Fixpoint strip_left (space : Z -> bool) (x : list Z) : list Z :=
  match x with
  | [] => []
  | c :: r => if space c then strip_left space r else x
  end.

Definition strip_right (space : Z -> bool) (x : list Z) : list Z :=
  rev (strip_left space (rev x)).

Definition nonempty (x : list Z) : bool := match x with [] => false | _ => true end.

(** [x.splitlines(keepends)]; a carriage return followed by a newline is one break. *)
Inductive lines (brk : Z -> bool) (keepends : bool) : list Z -> list (list Z) -> Prop :=
| lines_nil : lines brk keepends [] []
| lines_last : forall x, x <> [] -> none_is brk x -> lines brk keepends x [x]
| lines_crlf : forall a r rest,
    none_is brk a -> lines brk keepends r rest ->
    lines brk keepends (a ++ [13; 10] ++ r) ((a ++ if keepends then [13; 10] else []) :: rest)
| lines_one : forall a c r rest,
    none_is brk a -> brk c = true -> (c = 13 -> ~ exists t, r = 10 :: t) ->
    lines brk keepends r rest ->
    lines brk keepends (a ++ [c] ++ r) ((a ++ if keepends then [c] else []) :: rest).

(** [sep.join(items)] *)
Definition joined (sep : list Z) (items : list (list Z)) : list Z :=
  match items with
  | [] => []
  | x :: rest => x ++ concat (map (fun y => sep ++ y) rest)
  end.

(** [x.partition(sep)] and [x.rpartition(sep)] *)
Definition partitions (x sep a m b : list Z) : Prop :=
  (contains x sep /\ m = sep /\ x = a ++ sep ++ b /\
   forall i, stands_at x sep i -> Z.of_nat (length a) <= i) \/
  (~ contains x sep /\ a = x /\ m = [] /\ b = []).

Definition rpartitions (x sep a m b : list Z) : Prop :=
  (contains x sep /\ m = sep /\ x = a ++ sep ++ b /\
   forall i, stands_at x sep i -> i <= Z.of_nat (length a)) \/
  (~ contains x sep /\ a = [] /\ m = [] /\ b = x).
