(** What Python's methods that rewrite text answer, over the sequence of bytes or code points. *)
From Coq Require Import List ZArith Bool.
From Verif Require Import Base TextSearch_Spec TextSplit_Spec.
Import ListNotations.
Open Scope Z_scope.

(** [x.replace(old, new, k)] for an [old] that is not empty: the first occurrence is replaced,
    and the search goes on behind it; a negative [k] is no limit. *)
Inductive replaced (old new : list Z) : Z -> list Z -> list Z -> Prop :=
| replaced_done : forall k x, k = 0 \/ ~ contains x old -> replaced old new k x x
| replaced_next : forall k x a b y,
    k <> 0 -> x = a ++ old ++ b ->
    (forall i, stands_at x old i -> Z.of_nat (length a) <= i) ->
    replaced old new (spend k) b y ->
    replaced old new k x (a ++ new ++ y).

(** [x.replace("", new, k)]: [new] before each element and at the end, [k] times at most *)
Fixpoint woven (new : list Z) (k : Z) (x : list Z) : list Z :=
  if k =? 0 then x
  else match x with
       | [] => new
       | c :: r => new ++ c :: woven new (spend k) r
       end.

(** Up to Python 3.8 [replace] left the empty text alone if it was given a limit. *)
Definition replaces (old_python : bool) (x old new : list Z) (k : Z) (y : list Z) : Prop :=
  (old <> [] /\ replaced old new k x y) \/
  (old = [] /\
   y = (match x with
        | [] => if old_python && (0 <=? k) then [] else woven new k x
        | _ => woven new k x
        end)).

(** [y] is [x] without the elements that satisfy [p] at its left or right end. *)
Definition stripped (p : Z -> bool) (at_left at_right : bool) (x y : list Z) : Prop :=
  exists a b, x = a ++ y ++ b /\ all_are p a /\ all_are p b /\
    (if at_left then y = [] \/ begins_with p false y else a = []) /\
    (if at_right then y = [] \/ finishes_with p false y else b = []).

(** The elements of [chars] *)
Definition among (chars : list Z) (c : Z) : bool := existsb (Z.eqb c) chars.

(** [n] times the element [c] *)
Definition times (c n : Z) : list Z := repeat c (Z.to_nat n).

Definition size (x : list Z) : Z := Z.of_nat (length x).

(** [x.ljust(width, c)], [x.rjust(width, c)] and [x.center(width, c)]: if the padding is odd, the
    additional element stands on the left if the width is odd, and on the right otherwise. *)
Definition ljusted (x : list Z) (width c : Z) : list Z := x ++ times c (width - size x).
Definition rjusted (x : list Z) (width c : Z) : list Z := times c (width - size x) ++ x.
Definition centered (x : list Z) (width c : Z) : list Z :=
  let pad := Z.max 0 (width - size x) in
  let before := pad / 2 + (if Z.odd pad && Z.odd width then 1 else 0) in
  times c before ++ x ++ times c (pad - before).

(** [x.expandtabs(tabsize)], the text at column [col]: a tab leads to the next multiple of
    [tabsize]; without a positive [tabsize] tabs vanish. *)
Fixpoint expanded (tabsize col : Z) (x : list Z) : list Z :=
  match x with
  | [] => []
  | c :: r =>
      if c =? 9 then
        let n := if 0 <? tabsize then tabsize - col mod tabsize else 0 in
        times 32 n ++ expanded tabsize (col + n) r
      else if (c =? 10) || (c =? 13) then c :: expanded tabsize 0 r
      else c :: expanded tabsize (col + 1) r
  end.

(** [x.zfill(width)]: zeros on the left, but behind a sign *)
Definition zfilled (x : list Z) (width : Z) : list Z :=
  let zeros := times 48 (width - size x) in
  match x with
  | c :: r => if (c =? 43) || (c =? 45) then c :: zeros ++ r else zeros ++ x
  | [] => zeros
  end.
