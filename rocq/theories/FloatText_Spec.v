(** Which numbers are doubles, and which double a text is read as. *)
From Verif Require Import Base TextNum_Model TextNum_Spec FloatText_Model.
Open Scope Z_scope.
Open Scope list_scope.

(** The sizes of doubles, as multiples of [2^-1074]: at most fifty-three bits, and all of them unless there is nothing to shift. *)
Definition double (size : Z) : Prop := exists m s, size = m * 2 ^ s /\ 0 <= m < 2 ^ 53 /\ 0 <= s <= 2045 /\ (s = 0 \/ 2 ^ 52 <= m).
(** The distance of [v * 10^e] and [x * 2^-1074], as a multiple of something that depends on [e] only. *)
Definition distance (v e x : Z) : Z := Z.abs (v * 10 ^ Z.max e 0 * unit_ - x * 10 ^ Z.max (- e) 0).
(** No other double is as near to what the text says. *)
Definition reads_as (l : literal) (negative : bool) (size : Z) : Prop :=
  exists ds e, l = Finite negative ds e /\
  forall y, double (Z.abs y) -> y <> with_sign negative size ->
    distance (with_sign negative (value_of ds)) e (with_sign negative size) < distance (with_sign negative (value_of ds)) e y.

(** [10^k <= size * 2^-1074 < 10^(k+1)] *)
Definition decade (k size : Z) : Prop :=
  10 ^ Z.max k 0 * unit_ <= size * 10 ^ Z.max (- k) 0 /\ size * 10 ^ Z.max (- (k + 1)) 0 < 10 ^ Z.max (k + 1) 0 * unit_.
(** The seventeen digits that a number of this decade is rounded to end with a zero: its multiple by [10^(16-k)] is within a half of a
    multiple of ten. *)
Definition ends_with_zero (k size : Z) : Prop := exists j,
  2 * Z.abs (size * 10 ^ Z.max (16 - k) 0 - 10 * j * (unit_ * 10 ^ Z.max (k - 16) 0)) <= unit_ * 10 ^ Z.max (k - 16) 0.
(** The number is printed without an exponent that ends with a zero, or its digits end with a zero. *)
Definition exponent_kept (size : Z) : Prop := forall k, k mod 10 = 0 -> 16 <= k \/ k <= -5 -> decade k size -> ends_with_zero k size.
