(** Numbers read from text and bytes, and text made of numbers, in compiled code: [int(text)], [float(text)], [str(number)]. *)
From Verif Require Import Base Text_Model TextAsk_Model Utf8_Model.
Open Scope Z_scope.
Open Scope list_scope.
Open Scope result_scope.

(** ** [int(text)] *)

(** The states of StringType.cpp:1756, without [failed], at which the loop is left. *)
Inductive int_state := LeftSpace | Sign | Digit | Underscore | RightSpace.

(** StringType.cpp:1761-1799, and BytesType.cpp:525-563 with bytes for code points; [None] if the loop is left with [failed].  Overflow of
    [int64_t] is taken to wrap around. *)
Fixpoint int_loop (uprops : Z -> Z) (cs : list Z) (state : int_state) (value value_sign : Z) : result (option (int_state * Z * Z)) :=
  match cs with
  | nil => Ok (Some (state, value, value_sign))
  | c :: r =>
      flags <- uprop uprops c ;;
      if has flags SPACE then
        match state with
        | Underscore | Sign => Ok None
        | Digit => int_loop uprops r RightSpace value value_sign
        | _ => int_loop uprops r state value value_sign
        end
      else if (c =? 43) || (c =? 45) then
        match state with
        | LeftSpace => int_loop uprops r Sign value (if c =? 45 then -1 else value_sign)
        | _ => Ok None
        end
      else if (c <? 128) && (48 <=? c) && (c <=? 57) then
        match state with
        | RightSpace => Ok None
        | _ => int_loop uprops r Digit (wrap_s 64 (wrap_s 64 (value * 10) + (c - 48))) value_sign
        end
      else if c =? 95 then
        match state with Digit => int_loop uprops r Underscore value value_sign | _ => Ok None end
      else Ok None
  end.
(** StringType.cpp:1755-1812 *)
Definition to_int64 (uprops : Z -> Z) (cs : list Z) : result (option Z) :=
  end_ <- int_loop uprops cs LeftSpace 0 1 ;;
  match end_ with
  | Some ((Digit | RightSpace), value, value_sign) => Ok (Some (wrap_s 64 (value * value_sign)))
  | _ => Ok None
  end.
(** [np_str_to_int64] and [np_bytes_to_int64], _runtime.cpp:2625-2660 *)
Definition str_to_int64 (uprops : Z -> Z) (s : str) : result Z :=
  v <- to_int64 uprops (sdata s) ;; match v with Some v => Ok v | None => Err ValueError end.
Definition bytes_to_int64 (uprops : Z -> Z) (x : bytes) : result Z :=
  v <- to_int64 uprops (bdata x) ;; match v with Some v => Ok v | None => Err ValueError end.

(** ** [float(text)] *)

(** What a text of a number says: its digits with the power of ten that they are to be multiplied with.  [strtod] rounds it to the nearest
    floating point number, as Python does; [Nothing] is the outcome 0.0 of [strtod] for a text that is no number. *)
Inductive literal := Finite (negative : bool) (digits : list Z) (exponent : Z) | Infinite (negative : bool) | NotANumber | Nothing.

(** The states of StringType.cpp:1816-1818 *)
Inductive float_state := FLeft | FSign | FWhole | FUnder | FDecimal | FMantissa | FUnderMantissa | FExp | FExpSign | FExponent
  | FUnderExponent | FRight | FIdentifier | FIdentifierRight | Failed.

Definition is_digit (c : Z) : bool := (c <? 128) && (48 <=? c) && (c <=? 57).

(** StringType.cpp:1827-1911: the next state, and [accumulate] *)
Definition float_step (space : bool) (state : float_state) (c : Z) : float_state * bool :=
  if space then
    (match state with
     | FUnder | FUnderExponent | FUnderMantissa | FSign | FExp | FExpSign => Failed
     | FIdentifier | FIdentifierRight => FIdentifierRight
     | FRight | FWhole | FDecimal | FMantissa | FExponent => FRight
     | _ => state
     end, false)
  else if (c =? 43) || (c =? 45) then
    (match state with FLeft => FSign | FExp => FExpSign | _ => Failed end, true)
  else if is_digit c then
    (match state with
     | FDecimal => FMantissa
     | FExp => FExponent
     | FRight | FIdentifier | FIdentifierRight => Failed
     | FUnderMantissa => FMantissa
     | FUnderExponent => FExponent
     | _ => FWhole
     end, true)
  else if c =? 46 then
    (match state with FLeft | FSign | FWhole => FDecimal | _ => Failed end, true)
  else if (c =? 101) || (c =? 69) then
    (match state with FWhole | FDecimal | FMantissa => FExp | _ => Failed end, true)
  else if c =? 95 then
    (match state with FWhole => FUnder | FMantissa => FUnderMantissa | FExponent => FUnderExponent | _ => Failed end, false)
  else if c <? 128 then
    (match state with FLeft | FSign | FIdentifier => FIdentifier | _ => Failed end, true)
  else (Failed, true).

(** StringType.cpp:1823-1918, with [buf] for [buf[0 .. cur-1]].  [buf] has room for [MAX_FLOAT_STR] characters and the final 0. *)
Definition MAX_FLOAT_STR : Z := 48.
Fixpoint float_loop (uprops : Z -> Z) (cs : list Z) (state : float_state) (buf : list Z) : result (float_state * list Z) :=
  match cs with
  | nil => Ok (state, buf)
  | c :: r =>
      flags <- uprop uprops c ;;
      let '(state, accumulate) := float_step (has flags SPACE) state c in
      match state with
      | Failed => Ok (Failed, buf)
      | _ => float_loop uprops r state (if accumulate && (zlen buf <? MAX_FLOAT_STR) then buf ++ [c] else buf)
      end
  end.

(** A string of C ends at the first 0. *)
Fixpoint c_string (cs : list Z) : list Z :=
  match cs with
  | nil => nil
  | c :: r => if c =? 0 then nil else c :: c_string r
  end.
Definition c_tolower (c : Z) : Z := if (65 <=? c) && (c <=? 90) then c + 32 else c.
Definition same (a b : list Z) : bool := if list_eq_dec Z.eq_dec a b then true else false.
Definition inf : list Z := [105; 110; 102].
Definition infinity : list Z := [105; 110; 102; 105; 110; 105; 116; 121].
Definition nan : list Z := [110; 97; 110].

(** StringType.cpp:1920-1931: the buffer is changed in place, up to its first 0. *)
Definition identify (buf : list Z) : option (list Z) :=
  let '(sign, start) := match buf with c :: r => if (c =? 43) || (c =? 45) then ([c], r) else (nil, buf) | nil => (nil, nil) end in
  let start := map c_tolower (c_string start) in
  if negb (same start inf) && negb (same start infinity) && negb (same start nan) then None else Some (sign ++ start).

(** [strtod] of C, in the locale that a C program starts with: it reads the longest beginning that is a number.  Numbers in base sixteen and
    "nan" with parentheses are left out: they do not get here. *)
Fixpoint digits_of (cs : list Z) : list Z * list Z :=
  match cs with
  | c :: r => if is_digit c then let '(ds, rest) := digits_of r in (c :: ds, rest) else (nil, cs)
  | nil => (nil, nil)
  end.
Definition value_of (ds : list Z) : Z := fold_left (fun n d => n * 10 + (d - 48)) ds 0.
Definition sign_of (cs : list Z) : bool * list Z :=
  match cs with
  | c :: r => if c =? 43 then (false, r) else if c =? 45 then (true, r) else (false, cs)
  | nil => (false, nil)
  end.
Definition exponent_of (cs : list Z) : Z :=
  match cs with
  | c :: r =>
      if (c =? 101) || (c =? 69) then
        let '(negative, r) := sign_of r in
        let '(ds, _) := digits_of r in
        if negative then - value_of ds else value_of ds
      else 0
  | nil => 0
  end.
Fixpoint skip_spaces (cs : list Z) : list Z :=
  match cs with
  | c :: r => if (c =? 32) || ((9 <=? c) && (c <=? 13)) then skip_spaces r else cs
  | nil => nil
  end.
Fixpoint starts (p cs : list Z) : bool :=
  match p, cs with
  | nil, _ => true
  | a :: p, c :: r => (a =? c_tolower c) && starts p r
  | _, nil => false
  end.
Definition strtod (buf : list Z) : literal :=
  let '(negative, cs) := sign_of (skip_spaces (c_string buf)) in
  if starts inf cs then Infinite negative
  else if starts nan cs then NotANumber
  else
    let '(whole, rest) := digits_of cs in
    let '(fraction, rest) := match rest with c :: r => if c =? 46 then digits_of r else (nil, rest) | nil => (nil, rest) end in
    match whole ++ fraction with
    | nil => Nothing
    | ds => Finite negative ds (exponent_of rest - zlen fraction)
    end.

(** StringType.cpp:1815-1944 and BytesType.cpp:579-712 *)
Definition to_float64 (uprops : Z -> Z) (cs : list Z) : result (option literal) :=
  ' (state, buf) <- float_loop uprops cs FLeft nil ;;
  match state with
  | FIdentifier | FIdentifierRight => match identify buf with Some buf => Ok (Some (strtod buf)) | None => Ok None end
  | FWhole | FDecimal | FMantissa | FExponent | FRight => Ok (Some (strtod buf))
  | _ => Ok None
  end.
(** [np_str_to_float64] and [np_bytes_to_float64], _runtime.cpp:2637-2681 *)
Definition str_to_float64 (uprops : Z -> Z) (s : str) : result literal :=
  v <- to_float64 uprops (sdata s) ;; match v with Some v => Ok v | None => Err ValueError end.
Definition bytes_to_float64 (uprops : Z -> Z) (x : bytes) : result literal :=
  v <- to_float64 uprops (bdata x) ;; match v with Some v => Ok v | None => Err ValueError end.

(** ** [str(number)] *)

(** [%ld] and [%lu] of [sprintf] *)
Fixpoint print_digits (fuel : nat) (n : Z) (after : list Z) : list Z :=
  match fuel with
  | O => after
  | S fuel => if n <? 10 then 48 + n :: after else print_digits fuel (n / 10) (48 + n mod 10 :: after)
  end.
Definition print_unsigned (n : Z) : list Z := print_digits (S (Z.to_nat (Z.log2 n))) n nil.
Definition print_signed (n : Z) : list Z := if n <? 0 then 45 :: print_unsigned (- n) else print_unsigned n.

(** [sprintf] into an array of [size] bytes: the text and a 0 are written. *)
Definition sprintf (size : Z) (text : list Z) : result (list Z) := if zlen text + 1 <=? size then Ok text else Err UndefinedBehaviour.

(** [nativepython_int64_to_string] and [nativepython_uint64_to_string], _runtime.cpp:1872-1884 *)
Definition int64_to_string (i : Z) : result str := data <- sprintf 21 (print_signed i) ;; create_from_utf8 data (zlen data).
Definition uint64_to_string (u : Z) : result str := data <- sprintf 24 (print_unsigned u ++ [117; 54; 52]) ;; create_from_utf8 data (zlen data).
(** arithmetic_wrapper.py:264-278: of the smaller types, the text of the number as [int], and a suffix *)
Definition small_int_to_string (suffix : list Z) (i : Z) : result str :=
  s <- int64_to_string i ;; t <- create_from_utf8 suffix (zlen suffix) ;; Ok (str_concat s t).
(** [nativepython_bool_to_string], _runtime.cpp:1929-1934 *)
Definition bool_to_string (b : bool) : result str :=
  if b then create_from_utf8 [84; 114; 117; 101] 4 else create_from_utf8 [70; 97; 108; 115; 101] 5.

(** [remove_trailing_zeros_pystyle], util.hpp:345-381: [decimal] and [firstzero] are the places of the two pointers. *)
Fixpoint zeros_loop (cs : list Z) (cur : nat) (decimal firstzero : option nat) : nat * option nat * option nat :=
  match cs with
  | nil => (cur, decimal, firstzero)
  | c :: r =>
      if c =? 46 then zeros_loop r (S cur) (Some cur) None
      else if (c =? 48) && match decimal with Some _ => true | None => false end then
        zeros_loop r (S cur) decimal (match firstzero with None => Some cur | Some _ => firstzero end)
      else if (c =? 101) && match firstzero with Some _ => true | None => false end then (cur, decimal, firstzero)
      else zeros_loop r (S cur) decimal None
  end.
Definition remove_trailing_zeros (s : list Z) : list Z :=
  match zeros_loop s 0 None None with
  | (cur, Some decimal, Some firstzero) =>
      match nth_error s cur with
      | None =>
          let firstzero := if Nat.eqb (firstzero - decimal) 1 then S firstzero else firstzero in
          if Nat.ltb firstzero cur then firstn firstzero s else s
      | Some _ =>
          let firstzero := if Nat.eqb (firstzero - decimal) 1 then (firstzero - 1)%nat else firstzero in
          firstn firstzero s ++ skipn cur s
      end
  | _ => s
  end.
