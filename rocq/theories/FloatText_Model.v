(** The text of a float in compiled code: [str(x)]. *)
From Verif Require Import Base Text_Model Utf8_Model TextNum_Model.
Open Scope Z_scope.
Open Scope list_scope.
Open Scope result_scope.

(** A [double]: every finite one is a multiple of the smallest, [2^-1074], and is given by its sign and how many times it is that. *)
Definition unit_ : Z := 2 ^ 1074.
Inductive float64 := Number (negative : bool) (size : Z) | Inf (negative : bool) | NaN (negative : bool).

(** ** [sprintf] of C, in the locale that a C program starts with *)

(** The nearest integer to [n / d], and the even one of two. *)
Definition half_even (n d : Z) : Z :=
  let q := n / d in
  let r := n mod d in
  if 2 * r <? d then q else if d <? 2 * r then q + 1 else if Z.even q then q else q + 1.
(** The last [p] digits of a number. *)
Fixpoint padded (p : nat) (n : Z) : list Z :=
  match p with
  | O => nil
  | S p => padded p (n / 10) ++ [48 + n mod 10]
  end.
Definition print_sign (negative : bool) : list Z := if negative then [45] else nil.

(** "%.pf" *)
Definition print_fixed (p : nat) (negative : bool) (size : Z) : list Z :=
  let n := half_even (size * 10 ^ Z.of_nat p) unit_ in
  print_sign negative ++ print_unsigned (n / 10 ^ Z.of_nat p) ++ 46 :: padded p (n mod 10 ^ Z.of_nat p).

(** [10^k] is at most [size / unit_]. *)
Definition at_least (k size : Z) : bool := 10 ^ Z.max k 0 * unit_ <=? size * 10 ^ Z.max (- k) 0.
(** The largest such [k]. *)
Fixpoint decimal_exponent (fuel : nat) (k size : Z) : Z :=
  match fuel with
  | O => k
  | S fuel => if at_least k size then k else decimal_exponent fuel (k - 1) size
  end.
(** "%.16e" of a number that is not zero *)
Definition print_exponent (negative : bool) (size : Z) : list Z :=
  let k := decimal_exponent 633 308 size in
  let n := half_even (size * 10 ^ Z.max (16 - k) 0) (unit_ * 10 ^ Z.max (k - 16) 0) in
  let '(n, k) := if n =? 10 ^ 17 then (10 ^ 16, k + 1) else (n, k) in
  print_sign negative ++ [48 + n / 10 ^ 16] ++ 46 :: padded 16 (n mod 10 ^ 16) ++
  101 :: (if k <? 0 then 45 else 43) :: (if Z.abs k <? 100 then padded 2 (Z.abs k) else padded 3 (Z.abs k)).

(** ** [nativepython_float64_to_string], _runtime.cpp:1886-1918 *)

(** The comparisons: with how many decimals a number is printed, or with an exponent.  The last four constants are the doubles next to 0.1,
    0.01, 0.001 and 0.0001. *)
Definition decimals (a : Z) : option nat :=
  if at_least 16 a then None
  else if at_least 15 a || (a =? 0) then Some 1%nat
  else if at_least 14 a then Some 2%nat
  else if at_least 13 a then Some 3%nat
  else if at_least 12 a then Some 4%nat
  else if at_least 11 a then Some 5%nat
  else if at_least 10 a then Some 6%nat
  else if at_least 9 a then Some 7%nat
  else if at_least 8 a then Some 8%nat
  else if at_least 7 a then Some 9%nat
  else if at_least 6 a then Some 10%nat
  else if at_least 5 a then Some 11%nat
  else if at_least 4 a then Some 12%nat
  else if at_least 3 a then Some 13%nat
  else if at_least 2 a then Some 14%nat
  else if at_least 1 a then Some 15%nat
  else if at_least 0 a then Some 16%nat
  else if 3602879701896397 * 2 ^ 1019 <=? a then Some 17%nat
  else if 5764607523034235 * 2 ^ 1015 <=? a then Some 18%nat
  else if 1152921504606847 * 2 ^ 1014 <=? a then Some 19%nat
  else if 7378697629483821 * 2 ^ 1008 <=? a then Some 20%nat
  else None.
Definition float_format (f : float64) : list Z :=
  match f with
  | Number negative a => match decimals a with Some p => print_fixed p negative a | None => print_exponent negative a end
  | Inf negative => print_sign negative ++ inf
  | NaN negative => print_sign negative ++ nan
  end.
(** An array of 32 bytes is written, its zeros are dropped and the rest becomes text. *)
Definition float64_to_string (f : float64) : result str :=
  buf <- sprintf 32 (float_format f) ;;
  let buf := remove_trailing_zeros buf in
  create_from_utf8 buf (zlen buf).
